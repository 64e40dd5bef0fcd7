(** Model of the iterator whose parent runs in a worker process:
    grain/_src/python/dataset/transformations/process_prefetch.py:194-648
    (_put_dataset_elements_in_buffer, ProcessPrefetchDatasetIterator).

    The worker and the process that uses the iterator (the consumer) take turns in any order; a
    step is one access to shared data.  A loop that waits for something (get with a timeout and
    `continue`, sleeping while the parent is exhausted, add_element_to_queue) is a step that cannot be
    taken yet.  Left out: statistics, profiling, tracebacks, shared memory (see the models of the
    shared memory arrays), killing a worker that does not end within 25 s, close(), and
    _get_next_index and _set_next_index. *)
From Verif Require Import Base Iter IterSpec ThreadPrefetch.

Section ProcessPrefetch.
Context {A : Type}.
Variable p : Iter A.            (* _iter_parent.__iter__() *)
Variable fuel : nat.
(** buffer_size, at least 1 (lines 157-160). *)
Variable size : nat.
(** set_keep_workers_after_stop_iteration, lines 638-643. *)
Variable keep : bool.
(** What unpickling, worker_init_fn and constructing the iterator do in the worker (lines 219-230). *)
Variable boot : res unit.
(** A multiprocessing.Queue hands what is put into it to a thread that writes it to a pipe: with [lag] a
    get_nowait may find the queue empty although a request has been put. *)
Variable lag : bool.
(** Whether a worker process may be killed (by the operating system, say). *)
Variable kills : bool.

(** Lines 198-206: what is put in the buffer. *)
Inductive pitem : Type := Marker | PElem (a : A) (c : ick p) | PErr (o : out A).

(** The worker, lines 218-310: before line 233; at the head of the loop; holding a request; having put the
    marker; calling next; in add_element_to_queue; in the last handler, before its put; ended with exit
    code 0; killed. *)
Inductive worker : Type :=
| WBoot
| WLoop
| WMark (c : ick p)
| WSet (c : ick p)
| WRead
| WPut (i : pitem)
| WCrash (o : out A)
| WDone
| WKilled.

(** The attributes of ProcessPrefetchDatasetIterator (lines 337-390) and the variables of the worker. *)
Record pp := mkPp {
  pp_worker : option worker;        (* _prefetch_process *)
  pp_parent : ist p;                (* it *)
  pp_exh : bool;                    (* parent_exhausted *)
  pp_stop : bool;                   (* _prefetch_should_stop *)
  pp_buffer : list pitem;           (* _buffer *)
  pp_reqs : list (ick p);           (* _set_state_queue *)
  pp_count : nat;                   (* _set_state_request_count *)
  pp_skip : nat;                    (* _set_state_count *)
  pp_exhausted : bool;              (* _exhausted *)
  pp_state : option (ick p);        (* _state *)
}.
Definition pp_init : pp := mkPp None (init p) false false [] [] 0 0 false None.

Definition pfull (s : pp) : bool := Nat.leb size (length (pp_buffer s)).
Definition set_worker (s : pp) w st exh buf : pp :=
  mkPp (Some w) st exh (pp_stop s) buf (pp_reqs s) (pp_count s) (pp_skip s) (pp_exhausted s) (pp_state s).

(** A step of the worker.  An exception of set_state reaches the handler of lines 294-308: both queues are
    cleared and the exception is put.  add_element_to_queue gives up when should_stop is set. *)
Definition worker_step (s : pp) : option pp :=
  let go w := Some (set_worker s w (pp_parent s) (pp_exh s) (pp_buffer s)) in
  let crash o := Some (mkPp (Some (WCrash o)) (pp_parent s) (pp_exh s) (pp_stop s) [] [] (pp_count s) (pp_skip s)
                            (pp_exhausted s) (pp_state s)) in
  match pp_worker s with
  | None | Some WDone | Some WKilled => None
  | Some WBoot =>
      match boot with
      | Ok _ => Some (set_worker s WLoop (init p) false (pp_buffer s))
      | Raise e => crash (Fail e)
      | OutOfFuel => crash NoFuel
      end
  | Some WLoop =>
      if pp_stop s then                                                          (* lines 233, 309-310 *)
        Some (mkPp (Some WDone) (pp_parent s) (pp_exh s) (pp_stop s) [] [] (pp_count s) (pp_skip s) (pp_exhausted s) (pp_state s))
      else if Nat.ltb 0 (pp_count s) then                                        (* lines 234-240 *)
        match pp_reqs s with
        | c :: reqs => Some (mkPp (Some (WMark c)) (pp_parent s) false (pp_stop s) (pp_buffer s) reqs (pred (pp_count s))
                                  (pp_skip s) (pp_exhausted s) (pp_state s))
        | [] => None
        end
      else if pp_exh s then None                                                 (* lines 254-258 *)
      else go WRead
  | Some (WMark c) =>                                                            (* lines 241-247 *)
      if pp_stop s then go WLoop
      else if pfull s then None
      else Some (set_worker s (WSet c) (pp_parent s) (pp_exh s) (pp_buffer s ++ [Marker]))
  | Some (WSet c) =>                                                             (* lines 248-253 *)
      match set_state p fuel (pp_parent s) c with
      | Ok st => Some (set_worker s WRead st (pp_exh s) (pp_buffer s))
      | Raise e => crash (Fail e)
      | OutOfFuel => crash NoFuel
      end
  | Some WRead =>                                                                (* lines 259-261, 286 *)
      let (o, st) := next p fuel (pp_parent s) in
      let i := match o with Yield a => PElem a (get_state p st) | _ => PErr o end in
      Some (set_worker s (WPut i) st (pp_exh s) (pp_buffer s))
  | Some (WPut i) =>                                                             (* lines 262-277, 285-293 *)
      let exh := match i with PErr _ => true | _ => pp_exh s end in
      if pp_stop s then Some (set_worker s WLoop (pp_parent s) exh (pp_buffer s))
      else if pfull s then None
      else Some (set_worker s WLoop (pp_parent s) exh (pp_buffer s ++ [i]))
  | Some (WCrash o) =>                                                           (* lines 297-308 *)
      if pp_stop s then go WDone
      else if pfull s then None
      else Some (set_worker s WDone (pp_parent s) (pp_exh s) (pp_buffer s ++ [PErr o]))
  end.

(** start_prefetch, lines 432-486. *)
Definition pstart (s : pp) : pp :=
  match pp_worker s with
  | Some _ => s
  | None => mkPp (Some WBoot) (init p) false false (pp_buffer s) (pp_reqs s) (pp_count s) (pp_skip s) (pp_exhausted s) (pp_state s)
  end.

(** The consumer: between two calls; in the loop of __next__ (lines 501-524); in _stop_prefetch (lines 557-580);
    in set_state (lines 597-609), before the clearing, the put and the increment. *)
Inductive pconsumer : Type :=
| PIdle
| PNext
| PStopSet (o : out A)
| PStopClear (o : out A)
| PStopJoin (o : out A)
| PSetClear (c : ick p)
| PSetPut (c : ick p)
| PSetCount.

Record pprog := mkPprog {
  pq_calls : list call;
  pq_cks : list (ick p);
  pq_obs : list (obs A);
  pq_at : pconsumer;
  pq_it : pp;
}.
Definition pprog_init (calls : list call) : pprog := mkPprog calls [] [] PIdle pp_init.

Definition upd_buffer (s : pp) b := mkPp (pp_worker s) (pp_parent s) (pp_exh s) (pp_stop s) b (pp_reqs s) (pp_count s) (pp_skip s) (pp_exhausted s) (pp_state s).
Definition upd_skip (s : pp) k := mkPp (pp_worker s) (pp_parent s) (pp_exh s) (pp_stop s) (pp_buffer s) (pp_reqs s) (pp_count s) k (pp_exhausted s) (pp_state s).
Definition upd_exhausted (s : pp) e := mkPp (pp_worker s) (pp_parent s) (pp_exh s) (pp_stop s) (pp_buffer s) (pp_reqs s) (pp_count s) (pp_skip s) e (pp_state s).
Definition upd_state (s : pp) c := mkPp (pp_worker s) (pp_parent s) (pp_exh s) (pp_stop s) (pp_buffer s) (pp_reqs s) (pp_count s) (pp_skip s) (pp_exhausted s) c.

(** get_state, lines 582-595. *)
Definition pget_state (s : pp) : ick p := match pp_state s with Some c => c | None => get_state p (init p) end.

(** _clear_set_state_queue, lines 551-555: [k] requests are seen. *)
Definition clear_reqs (k : nat) (s : pp) : pp :=
  let n := if lag then Nat.min k (length (pp_reqs s)) else length (pp_reqs s) in
  mkPp (pp_worker s) (pp_parent s) (pp_exh s) (pp_stop s) (pp_buffer s) (skipn n (pp_reqs s)) (pp_count s - n) (pp_skip s - n)
       (pp_exhausted s) (pp_state s).

(** A step of the consumer. *)
Definition pconsumer_step (k : nat) (g : pprog) : option pprog :=
  let s := pq_it g in
  let goto at_ s := Some (mkPprog (pq_calls g) (pq_cks g) (pq_obs g) at_ s) in
  let return_ o s := Some (mkPprog (pq_calls g) (pq_cks g) (pq_obs g ++ [o]) PIdle s) in
  match pq_at g with
  | PIdle =>
      match pq_calls g with
      | [] => None
      | StartPrefetch :: calls => Some (mkPprog calls (pq_cks g) (pq_obs g) PIdle (pstart s))
      | Do ONext :: calls =>
          if pp_exhausted s then Some (mkPprog calls (pq_cks g) (pq_obs g ++ [Got Stop]) PIdle s)      (* lines 496-497 *)
          else Some (mkPprog calls (pq_cks g) (pq_obs g) PNext (pstart s))
      | Do OSave :: calls =>
          Some (mkPprog calls (pq_cks g ++ [pget_state s]) (pq_obs g ++ [Saved]) PIdle (upd_state s (Some (pget_state s))))
      | Do (OLoad i json) :: calls =>
          match nth_error (pq_cks g) i with
          | None => Some (mkPprog calls (pq_cks g) (pq_obs g ++ [NoSuchCheckpoint]) PIdle s)
          | Some c =>
              let c := if json then jsonck p c else c in
              Some (mkPprog calls (pq_cks g) (pq_obs g) (PSetClear c) (upd_state s (Some c)))
          end
      | Do ORestart :: calls => Some (mkPprog calls (pq_cks g) (pq_obs g ++ [Restarted]) PIdle pp_init)
      end
  | PNext =>
      match pp_buffer s with
      | [] =>                                                                    (* lines 508-518 *)
          match pp_worker s with
          | Some WKilled => if Nat.eqb (pp_skip s) 0 then goto (PStopSet (Fail RuntimeError)) s else goto PNext s
          | _ => None
          end
      | Marker :: b => goto PNext (upd_skip (upd_buffer s b) (pred (pp_skip s)))  (* line 520 *)
      | i :: b =>
          let s' := upd_buffer s b in
          if negb (Nat.eqb (pp_skip s) 0) then goto PNext s'
          else
            match i with
            | PElem a c => return_ (Got (Yield a)) (upd_state s' (Some c))
            | PErr Stop => if keep then return_ (Got Stop) (upd_exhausted s' true) else goto (PStopSet Stop) s'
            | PErr o => goto (PStopSet o) s'
            | Marker => None
            end
      end
  | PStopSet o =>                                                                (* line 565 *)
      goto (PStopClear o) (mkPp (pp_worker s) (pp_parent s) (pp_exh s) true (pp_buffer s) (pp_reqs s) (pp_count s) (pp_skip s)
                                (pp_exhausted s) (pp_state s))
  | PStopClear o => goto (PStopJoin o) (clear_reqs k (upd_buffer s []))          (* lines 566-567 *)
  | PStopJoin o =>                                                               (* lines 571-580, 530 *)
      match pp_worker s with
      | Some WDone | Some WKilled =>
          return_ (Got o) (mkPp None (pp_parent s) (pp_exh s) (pp_stop s) [] (pp_reqs s) (pp_count s) 0 true (pp_state s))
      | _ => None
      end
  | PSetClear c => goto (PSetPut c) (clear_reqs k s)                             (* line 600 *)
  | PSetPut c =>                                                                 (* line 601 *)
      if Nat.leb 5 (length (pp_reqs s)) then None
      else goto PSetCount (mkPp (pp_worker s) (pp_parent s) (pp_exh s) (pp_stop s) (pp_buffer s) (pp_reqs s ++ [c]) (pp_count s)
                                (pp_skip s) (pp_exhausted s) (pp_state s))
  | PSetCount =>                                                                 (* lines 603-609 *)
      return_ Loaded (mkPp (pp_worker s) (pp_parent s) (pp_exh s) (pp_stop s) (pp_buffer s) (pp_reqs s) (S (pp_count s))
                           (S (pp_skip s)) false (pp_state s))
  end.

(** One step, by either process, or the death of the worker. *)
Definition pp_step (g g' : pprog) : Prop :=
  (exists k, pconsumer_step k g = Some g') \/
  (exists s, worker_step (pq_it g) = Some s /\ g' = mkPprog (pq_calls g) (pq_cks g) (pq_obs g) (pq_at g) s) \/
  (kills = true /\ exists w, pp_worker (pq_it g) = Some w /\ w <> WDone /\
     g' = mkPprog (pq_calls g) (pq_cks g) (pq_obs g) (pq_at g)
            (set_worker (pq_it g) WKilled (pp_parent (pq_it g)) (pp_exh (pq_it g)) (pp_buffer (pq_it g)))).
End ProcessPrefetch.
Arguments Marker {A p}. Arguments PElem {A p}. Arguments PErr {A p}. Arguments WBoot {A p}. Arguments WLoop {A p}. Arguments WMark {A p}.
Arguments WSet {A p}. Arguments WRead {A p}. Arguments WPut {A p}. Arguments WCrash {A p}. Arguments WDone {A p}. Arguments WKilled {A p}.
Arguments mkPp {A p}. Arguments pp_worker {A p}. Arguments pp_parent {A p}. Arguments pp_exh {A p}. Arguments pp_stop {A p}.
Arguments pp_buffer {A p}. Arguments pp_reqs {A p}. Arguments pp_count {A p}. Arguments pp_skip {A p}. Arguments pp_exhausted {A p}.
Arguments pp_state {A p}. Arguments pfull {A p}. Arguments set_worker {A p}. Arguments pstart {A p}. Arguments PIdle {A p}.
Arguments PNext {A p}. Arguments PStopSet {A p}. Arguments PStopClear {A p}. Arguments PStopJoin {A p}. Arguments PSetClear {A p}.
Arguments PSetPut {A p}. Arguments PSetCount {A p}. Arguments mkPprog {A p}. Arguments pq_calls {A p}. Arguments pq_cks {A p}.
Arguments pq_obs {A p}. Arguments pq_at {A p}. Arguments pq_it {A p}. Arguments upd_buffer {A p}. Arguments upd_skip {A p}.
Arguments upd_exhausted {A p}. Arguments upd_state {A p}. Arguments pget_state {A p}. Arguments clear_reqs {A p}.
