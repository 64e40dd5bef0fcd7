(** Model of the thread that prefetches the elements of an iterator:
    grain/_src/python/dataset/transformations/prefetch.py:507-749
    (ThreadPrefetchIterDataset, _put_iterator_elements_in_buffer,
    ThreadPrefetchDatasetIterator).

    The producer thread and the thread that uses the iterator (the consumer) take turns in any
    order.  A step of either is one access to shared data: one call of the parent, one operation
    on the queue or on the event.  Statistics, tracing and the autotuned queue are left out
    (autotune_buffer_size is always None, line 553), as are close(), after which the iterator is
    not used, and _get_next_index and _set_next_index. *)
From Verif Require Import Base Iter IterSpec.

Section ThreadPrefetch.
Context {A : Type}.
Variable p : Iter A.
Variable fuel : nat.
(** prefetch_buffer_size; queue.Queue(maxsize=0) has no bound. *)
Variable size : nat.

(** BufferElementT, line 507: an element and the state of the parent after it, or an exception
    (StopIteration is one). *)
Inductive item : Type := IElem (a : A) (c : ick p) | IErr (o : out A).

(** _put_iterator_elements_in_buffer, lines 510-523: testing should_stop; calling the parent's
    __next__; calling its get_state; in buffer.put; the thread has ended. *)
Inductive producer : Type := PCheck | PRead | PState (a : A) | PPut (i : item) | PDone.

(** The attributes of ThreadPrefetchDatasetIterator, lines 541-573. *)
Record tp := mkTp {
  tp_parent : ist p;                (* _maybe_nonnative_parent *)
  tp_buffer : list item;            (* _buffer *)
  tp_thread : option producer;      (* _prefetch_thread *)
  tp_stop : bool;                   (* _prefetch_should_stop *)
  tp_state : ick p;                 (* _state *)
}.
Definition tp_init : tp := mkTp (init p) [] None false (get_state p (init p)).

Definition full (buffer : list item) : bool := Nat.ltb 0 size && Nat.leb size (length buffer).

(** A step of the producer (None: it is blocked, has ended or does not exist). *)
Definition producer_step (s : tp) : option tp :=
  let go t := Some (mkTp (tp_parent s) (tp_buffer s) (Some t) (tp_stop s) (tp_state s)) in
  match tp_thread s with
  | None | Some PDone => None
  | Some PCheck => if tp_stop s then go PDone else go PRead
  | Some PRead =>
      let (o, ps) := next p fuel (tp_parent s) in
      let t := match o with Yield a => PState a | _ => PPut (IErr o) end in
      Some (mkTp ps (tp_buffer s) (Some t) (tp_stop s) (tp_state s))
  | Some (PState a) => go (PPut (IElem a (get_state p (tp_parent s))))
  | Some (PPut i) =>
      if full (tp_buffer s) then None
      else Some (mkTp (tp_parent s) (tp_buffer s ++ [i]) (Some match i with IElem _ _ => PCheck | IErr _ => PDone end)
                      (tp_stop s) (tp_state s))
  end.

(** start_prefetch, lines 599-623. *)
Definition start (s : tp) : tp :=
  match tp_thread s with
  | Some _ => s
  | None => mkTp (tp_parent s) (tp_buffer s) (Some PCheck) false (tp_state s)
  end.

(** What the consumer calls: next, get_state (it keeps the checkpoints), set_state, start_prefetch;
    and it may throw the iterator away and construct a new one (the thread of the old one, a daemon
    that reads its own parent, no longer matters). *)
Inductive call : Type := Do (o : op) | StartPrefetch.

(** What remains to be done after _stop_prefetch: raise (line 649), or set_state (line 713). *)
Inductive cont : Type := KRaise (o : out A) | KSet (c : ick p).
(** Where the consumer is: between two calls; in __next__ (lines 629-655) before buffer.get() and
    before the parent's __next__; in _stop_prefetch (lines 671-698). *)
Inductive consumer : Type :=
| Idle
| NGet
| NDirect
| NState (a : A)
| SSet (k : cont)
| SClear (k : cont)
| SJoin (k : cont)
| SClear2 (k : cont)
| SDone (k : cont).

(** The program: the calls still to be made, the checkpoints taken, what has been observed. *)
Record prog := mkProg {
  pg_calls : list call;
  pg_cks : list (ick p);
  pg_obs : list (obs A);
  pg_at : consumer;
  pg_it : tp;
}.
Definition prog_init (calls : list call) : prog := mkProg calls [] [] Idle tp_init.

(** _stop_prefetch does nothing without a thread (line 673). *)
Definition stopping (s : tp) (k : cont) : consumer := match tp_thread s with None => SDone k | Some _ => SSet k end.

Definition with_buffer (s : tp) b := mkTp (tp_parent s) b (tp_thread s) (tp_stop s) (tp_state s).
Definition with_state (s : tp) c := mkTp (tp_parent s) (tp_buffer s) (tp_thread s) (tp_stop s) c.

(** A step of the consumer (None: it is waiting, or all calls have been made). *)
Definition consumer_step (g : prog) : option prog :=
  let s := pg_it g in
  let goto at_ s := Some (mkProg (pg_calls g) (pg_cks g) (pg_obs g) at_ s) in
  let return_ o s := Some (mkProg (pg_calls g) (pg_cks g) (pg_obs g ++ [o]) Idle s) in
  match pg_at g with
  | Idle =>
      match pg_calls g with
      | [] => None
      | StartPrefetch :: calls => Some (mkProg calls (pg_cks g) (pg_obs g) Idle (start s))
      | Do ONext :: calls =>
          if Nat.ltb 0 size then Some (mkProg calls (pg_cks g) (pg_obs g) NGet (start s))
          else
            match tp_buffer s with                                    (* get_nowait *)
            | [] => Some (mkProg calls (pg_cks g) (pg_obs g) NDirect s)
            | _ :: _ => Some (mkProg calls (pg_cks g) (pg_obs g) NGet s)
            end
      | Do OSave :: calls => Some (mkProg calls (pg_cks g ++ [tp_state s]) (pg_obs g ++ [Saved]) Idle s)
      | Do (OLoad k json) :: calls =>
          match nth_error (pg_cks g) k with
          | None => Some (mkProg calls (pg_cks g) (pg_obs g ++ [NoSuchCheckpoint]) Idle s)
          | Some c => Some (mkProg calls (pg_cks g) (pg_obs g) (stopping s (KSet (if json then jsonck p c else c))) s)
          end
      | Do ORestart :: calls => Some (mkProg calls (pg_cks g) (pg_obs g ++ [Restarted]) Idle tp_init)
      end
  | NGet =>                                                            (* buffer.get(), lines 635, 641 *)
      match tp_buffer s with
      | [] => None
      | IElem a c :: b => return_ (Got (Yield a)) (with_state (with_buffer s b) c)
      | IErr o :: b => goto (stopping s (KRaise o)) (with_buffer s b)  (* lines 647-649 *)
      end
  | NDirect =>                                                         (* lines 642-645 *)
      let (o, ps) := next p fuel (tp_parent s) in
      let s' := mkTp ps (tp_buffer s) (tp_thread s) (tp_stop s) (tp_state s) in
      match o with
      | Yield a => goto (NState a) s'
      | _ => return_ (Got o) s'
      end
  | NState a => return_ (Got (Yield a)) (with_state s (get_state p (tp_parent s)))
  | SSet k => goto (SClear k) (mkTp (tp_parent s) (tp_buffer s) (tp_thread s) true (tp_state s))     (* line 676 *)
  | SClear k =>                                                        (* lines 664-669, 680 *)
      match tp_buffer s with [] => goto (SJoin k) s | _ :: b => goto (SClear k) (with_buffer s b) end
  | SJoin k =>                                                         (* lines 691-693 *)
      match tp_thread s with
      | Some PDone => goto (SClear2 k) (mkTp (tp_parent s) (tp_buffer s) None (tp_stop s) (tp_state s))
      | _ => None
      end
  | SClear2 k =>                                                       (* line 698 *)
      match tp_buffer s with [] => goto (SDone k) s | _ :: b => goto (SClear2 k) (with_buffer s b) end
  | SDone (KRaise o) => return_ (Got o) s
  | SDone (KSet c) =>                                                  (* lines 713-714 *)
      match set_state p fuel (tp_parent s) c with
      | Ok ps => return_ Loaded (mkTp ps (tp_buffer s) (tp_thread s) (tp_stop s) (get_state p ps))
      | _ => return_ LoadFailed s
      end
  end.

(** One step of the program, by either thread. *)
Definition tp_step (g g' : prog) : Prop :=
  consumer_step g = Some g' \/
  exists s, producer_step (pg_it g) = Some s /\ g' = mkProg (pg_calls g) (pg_cks g) (pg_obs g) (pg_at g) s.
End ThreadPrefetch.
Arguments IElem {A p}. Arguments IErr {A p}. Arguments mkTp {A p}. Arguments tp_parent {A p}. Arguments tp_buffer {A p}.
Arguments tp_thread {A p}. Arguments tp_stop {A p}. Arguments tp_state {A p}. Arguments PCheck {A p}. Arguments PRead {A p}.
Arguments PState {A p}. Arguments PPut {A p}. Arguments PDone {A p}. Arguments KRaise {A p}. Arguments KSet {A p}.
Arguments Idle {A p}. Arguments NGet {A p}. Arguments NDirect {A p}. Arguments NState {A p}. Arguments SSet {A p}. Arguments SClear {A p}.
Arguments SJoin {A p}. Arguments SClear2 {A p}. Arguments SDone {A p}. Arguments mkProg {A p}. Arguments pg_calls {A p}.
Arguments pg_cks {A p}. Arguments pg_obs {A p}. Arguments pg_at {A p}. Arguments pg_it {A p}. Arguments start {A p}.
Arguments full {A p}. Arguments stopping {A p}. Arguments with_buffer {A p}. Arguments with_state {A p}.
