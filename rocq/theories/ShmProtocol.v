(** Model of who frees the shared memory segments between a worker process and the process that uses the iterator:
    grain/_src/python/dataset/transformations/process_prefetch.py:128-135, 218-310, 487-580 and
    grain/_src/python/ipc/shared_memory_array.py:124-186 (deleting arrays).

    Only what matters to the segments is kept: an element is the list of the names of its segments.  Which elements next returns
    and which it discards after set_state is the subject of C31; here it may do either at any time, and the worker may put a
    marker at any time.  Taking an item from the queue and freeing its segments is one step: no other process knows them.
    A batch that fails half-way (C62_leak_refuted) is left out. *)
From Verif Require Import Base.

Inductive item : Type := IMark | IElem (segs : list nat) | IErr.

(** The worker, lines 218-310: starting; at the head of the loop; about to put a marker; in set_state; calling next; with an
    element in shared memory; with an exception; in the final handler; clearing the queue after the loop; ended; killed. *)
Inductive worker : Type :=
| WBoot | WLoop | WMark | WSet | WRead | WHold (segs : list nat) | WErr | WCrash | WDrain | WDone | WKilled.

(** The process that uses the iterator: between two calls; in __next__ (lines 499-524); in _stop_prefetch clearing the queue
    for the first time (line 566); joining (line 571); clearing again (line 578). *)
Inductive consumer : Type := CIdle | CNext | CClear | CJoin | CClear2.

Record st := mkSt {
  s_fresh : nat;                  (* names from here on were never used *)
  s_live : list nat;              (* the segments that exist *)
  s_buf : list item;              (* _buffer *)
  s_wk : option worker;           (* _prefetch_process *)
  s_stop : bool;                  (* _prefetch_should_stop *)
  s_at : consumer;
  s_closed : bool;                (* _closed *)
  s_user : list nat;              (* arrays returned by next and not yet deleted *)
  s_pend : list nat;              (* arrays whose deletion waits for the thread of enable_async_del *)
  s_bad : bool;                   (* a segment that does not exist was opened or freed *)
}.
Definition st_init : st := mkSt 0 [] [] None false CIdle false [] [] false.

(** SharedMemory.unlink of each. *)
Fixpoint unlink_all (segs live : list nat) : option (list nat) :=
  match segs with
  | [] => Some live
  | n :: segs => if in_dec Nat.eq_dec n live then unlink_all segs (remove Nat.eq_dec n live) else None
  end.
Definition freed (segs : list nat) (s : st) : st :=
  match unlink_all segs (s_live s) with
  | Some live => mkSt (s_fresh s) live (s_buf s) (s_wk s) (s_stop s) (s_at s) (s_closed s) (s_user s) (s_pend s) (s_bad s)
  | None => mkSt (s_fresh s) (s_live s) (s_buf s) (s_wk s) (s_stop s) (s_at s) (s_closed s) (s_user s) (s_pend s) true
  end.
(** open_from_shm of an element: the arrays will free their segments (unlink_on_del). *)
Definition opened (segs : list nat) (s : st) : st :=
  mkSt (s_fresh s) (s_live s) (s_buf s) (s_wk s) (s_stop s) (s_at s) (s_closed s) (s_user s ++ segs) (s_pend s)
       (if forallb (fun n => if in_dec Nat.eq_dec n (s_live s) then true else false) segs then s_bad s else true).
Definition segs_of (i : item) : list nat := match i with IElem segs => segs | _ => [] end.

Definition work (s : st) (w : worker) : st :=
  mkSt (s_fresh s) (s_live s) (s_buf s) (Some w) (s_stop s) (s_at s) (s_closed s) (s_user s) (s_pend s) (s_bad s).
Definition put (s : st) (w : worker) (i : item) : st :=
  mkSt (s_fresh s) (s_live s) (s_buf s ++ [i]) (Some w) (s_stop s) (s_at s) (s_closed s) (s_user s) (s_pend s) (s_bad s).
Definition took (s : st) (buf : list item) (c : consumer) : st :=
  mkSt (s_fresh s) (s_live s) buf (s_wk s) (s_stop s) c (s_closed s) (s_user s) (s_pend s) (s_bad s).
Definition moved (s : st) (c : consumer) : st := took s (s_buf s) c.

Section Protocol.
(** buffer_size; max_outstanding_requests of enable_async_del (50, line 112). *)
Variables size pending : nat.
(** Whether a worker may be killed, by the system or because it does not end in time (lines 571-576). *)
Variable kills : bool.
(** Whether get_state of the worker's iterator may raise (line 286). *)
Variable state_raises : bool.

Definition room (s : st) : Prop := (length (s_buf s) < size)%nat.

Inductive step (s : st) : st -> Prop :=
(* the worker *)
| step_boot : s_wk s = Some WBoot -> step s (work s WLoop)                                  (* lines 218-232 *)
| step_boot_crash : s_wk s = Some WBoot -> step s (work s WCrash)
| step_loop_stop : s_wk s = Some WLoop -> s_stop s = true -> step s (work s WDrain)         (* line 233 *)
| step_loop_mark : s_wk s = Some WLoop -> s_stop s = false -> step s (work s WMark)         (* lines 234-240 *)
| step_loop_read : s_wk s = Some WLoop -> s_stop s = false -> step s (work s WRead)
| step_mark_put : s_wk s = Some WMark -> room s -> step s (put s WSet IMark)                (* lines 241-247 *)
| step_mark_stop : s_wk s = Some WMark -> s_stop s = true -> step s (work s WLoop)
| step_set : s_wk s = Some WSet -> step s (work s WRead)                                    (* lines 248-253 *)
| step_set_crash : s_wk s = Some WSet -> step s (work s WCrash)
| step_read k : s_wk s = Some WRead ->                                                      (* lines 260, 279: copy_to_shm *)
    step s (mkSt (s_fresh s + k) (s_live s ++ seq (s_fresh s) k) (s_buf s) (Some (WHold (seq (s_fresh s) k))) (s_stop s) (s_at s)
                 (s_closed s) (s_user s) (s_pend s) (s_bad s))
| step_read_err : s_wk s = Some WRead -> step s (work s WErr)                               (* line 261 *)
| step_hold_put segs : s_wk s = Some (WHold segs) -> room s -> step s (put s WLoop (IElem segs))         (* lines 285-289 *)
| step_hold_stop segs : s_wk s = Some (WHold segs) -> s_stop s = true -> step s (freed segs (work s WLoop))   (* line 293 *)
| step_hold_crash segs : s_wk s = Some (WHold segs) -> state_raises = true -> step s (work s WCrash)     (* line 286 *)
| step_err_put : s_wk s = Some WErr -> room s -> step s (put s WLoop IErr)                  (* lines 262-277 *)
| step_err_stop : s_wk s = Some WErr -> s_stop s = true -> step s (work s WLoop)
| step_clear_worker i buf w : s_wk s = Some w -> w = WCrash \/ w = WDrain -> s_buf s = i :: buf ->      (* lines 295, 309 *)
    step s (freed (segs_of i) (took s buf (s_at s)))
| step_crash_put : s_wk s = Some WCrash -> room s -> step s (put s WDone IErr)              (* lines 297-308 *)
| step_crash_stop : s_wk s = Some WCrash -> s_stop s = true -> step s (work s WDone)
| step_drained : s_wk s = Some WDrain -> step s (work s WDone)
| step_killed w buf lost : kills = true -> s_wk s = Some w -> w <> WDone -> s_buf s = buf ++ lost ->    (* what was not in the pipe is lost *)
    step s (work (took s buf (s_at s)) WKilled)
(* __next__ *)
| step_next : s_at s = CIdle -> s_closed s = false ->                                       (* lines 432-475, 500 *)
    step s (match s_wk s with
            | Some _ => moved s CNext
            | None => mkSt (s_fresh s) (s_live s) (s_buf s) (Some WBoot) false CNext false (s_user s) (s_pend s) (s_bad s)
            end)
| step_return segs buf : s_at s = CNext -> s_buf s = IElem segs :: buf -> step s (opened segs (took s buf CIdle))   (* line 543 *)
| step_discard i buf : s_at s = CNext -> s_buf s = i :: buf -> step s (freed (segs_of i) (took s buf CNext))        (* lines 519-524 *)
| step_raise buf : s_at s = CNext -> s_buf s = IErr :: buf ->                               (* lines 525-530 *)
    step s (mkSt (s_fresh s) (s_live s) buf (s_wk s) true CClear (s_closed s) (s_user s) (s_pend s) (s_bad s))
| step_keep buf : s_at s = CNext -> s_buf s = IErr :: buf -> step s (took s buf CIdle)      (* set_keep_workers_after_stop_iteration *)
| step_dead : s_at s = CNext -> s_wk s = Some WKilled ->                                    (* lines 507-514 *)
    step s (mkSt (s_fresh s) (s_live s) (s_buf s) (s_wk s) true CClear (s_closed s) (s_user s) (s_pend s) (s_bad s))
(* close and _stop_prefetch *)
| step_close : s_at s = CIdle -> s_closed s = false ->                                      (* lines 545-548, 559-565 *)
    step s (mkSt (s_fresh s) (s_live s) (s_buf s) (s_wk s) (match s_wk s with Some _ => true | None => s_stop s end)
                 (match s_wk s with Some _ => CClear | None => CIdle end) true (s_user s) (s_pend s) (s_bad s))
| step_clear i buf : s_at s = CClear -> s_buf s = i :: buf -> step s (freed (segs_of i) (took s buf CClear))        (* line 566 *)
| step_cleared : s_at s = CClear -> step s (moved s CJoin)                                  (* the pipe is empty *)
| step_join w : s_at s = CJoin -> s_wk s = Some w -> w = WDone \/ w = WKilled -> step s (moved s CClear2)
| step_timeout w : kills = true -> s_at s = CJoin -> s_wk s = Some w -> w <> WDone ->                               (* lines 575-576, 579 *)
    step s (mkSt (s_fresh s) (s_live s) (s_buf s) None (s_stop s) CIdle (s_closed s) (s_user s) (s_pend s) (s_bad s))
| step_clear2 i buf : s_at s = CClear2 -> s_buf s = i :: buf -> step s (freed (segs_of i) (took s buf CClear2))     (* line 578 *)
| step_cleared2 : s_at s = CClear2 -> s_buf s = [] ->                                       (* the worker has ended: all is in the pipe *)
    step s (mkSt (s_fresh s) (s_live s) [] None (s_stop s) CIdle (s_closed s) (s_user s) (s_pend s) (s_bad s))
(* SharedMemoryArray.__del__, lines 170-186: in the background if not too many wait, else at once; close_shm_async. *)
| step_del l n l' : s_user s = l ++ n :: l' -> (length (s_pend s) < pending)%nat ->
    step s (mkSt (s_fresh s) (s_live s) (s_buf s) (s_wk s) (s_stop s) (s_at s) (s_closed s) (l ++ l') (s_pend s ++ [n]) (s_bad s))
| step_del_now l n l' : s_user s = l ++ n :: l' ->
    step s (freed [n] (mkSt (s_fresh s) (s_live s) (s_buf s) (s_wk s) (s_stop s) (s_at s) (s_closed s) (l ++ l') (s_pend s) (s_bad s)))
| step_async l n l' : s_pend s = l ++ n :: l' ->
    step s (freed [n] (mkSt (s_fresh s) (s_live s) (s_buf s) (s_wk s) (s_stop s) (s_at s) (s_closed s) (s_user s) (l ++ l') (s_bad s))).

Inductive steps : nat -> st -> st -> Prop :=
| steps_0 s : steps 0 s s
| steps_S n s s' s'' : step s s' -> steps n s' s'' -> steps (S n) s s''.
Definition reachable (s : st) : Prop := exists n, steps n st_init s.
End Protocol.
