(** Model of grain/_src/core/parallel.py: run_in_parallel. *)
From Verif Require Import Base.

(** The state of a future.  [Done r] holds the result or the exception of the call. *)
Inductive future (R : Type) : Type := Pending | Running | Done (r : res R) | Cancelled.
Arguments Pending {R}. Arguments Running {R}. Arguments Done {R}. Arguments Cancelled {R}.

(** The main thread: in the loop over as_completed (having seen the futures in [seen]),
    leaving the with block because of an exception (ThreadPoolExecutor.__exit__ waits
    for the running calls), or finished. *)
Inductive main (R : Type) : Type :=
| Looping (seen : list nat)
| Leaving (e : exn)
| Returned (l : list R)
| Raised (e : exn).
Arguments Looping {R}. Arguments Leaving {R}. Arguments Returned {R}. Arguments Raised {R}.

Definition is_running {R} (f : future R) : bool := match f with Running => true | _ => false end.
Fixpoint set_nth {X} (l : list X) (i : nat) (x : X) : list X :=
  match l, i with [], _ => [] | _ :: l', O => x :: l' | y :: l', S i' => y :: set_nth l' i' x end.
(** remaining_future.cancel(): only a call that has not started is cancelled. *)
Definition cancel {R} (f : future R) : future R := match f with Pending => Cancelled | _ => f end.

(** parallel.py:43-73.  [f i] is the outcome of the call with the [i]-th arguments
    ([f] raising is the exception of that call). *)
Inductive par_step {R} (f : nat -> res R) (num_workers : nat) :
  list (future R) * main R -> list (future R) * main R -> Prop :=
(* a worker takes a pending call *)
| par_start fs m i :
    nth_error fs i = Some Pending -> (length (filter is_running fs) < num_workers)%nat ->
    par_step f num_workers (fs, m) (set_nth fs i Running, m)
(* the call ends *)
| par_finish fs m i :
    nth_error fs i = Some Running ->
    par_step f num_workers (fs, m) (set_nth fs i (Done (f i)), m)
(* as_completed gives a future without exception (line 64) *)
| par_seen fs seen i r :
    nth_error fs i = Some (Done (Ok r)) -> ~ In i seen ->
    par_step f num_workers (fs, Looping seen) (fs, Looping (i :: seen))
(* as_completed gives a future with an exception: cancel the others, raise (lines 65-71) *)
| par_exception fs seen i e :
    nth_error fs i = Some (Done (Raise e)) -> ~ In i seen ->
    par_step f num_workers (fs, Looping seen) (map cancel fs, Leaving e)
(* the executor has waited for the running calls *)
| par_raise fs e :
    filter is_running fs = [] ->
    par_step f num_workers (fs, Leaving e) (fs, Raised e)
(* as_completed is exhausted: return [f.result() for f in fs] (line 73) *)
| par_return fs seen l :
    (forall i, (i < length fs)%nat -> In i seen) ->
    map (fun x => match x with Done (Ok r) => Some r | _ => None end) fs = map Some l ->
    par_step f num_workers (fs, Looping seen) (fs, Returned l).

(** All calls are submitted first (lines 55-59). *)
Definition par_init {R} (n : nat) : list (future R) * main R := (repeat Pending n, Looping []).

Inductive par_steps {R} (f : nat -> res R) (w : nat) : list (future R) * main R -> list (future R) * main R -> Prop :=
| par_refl s : par_steps f w s s
| par_cons s s' s'' : par_steps f w s s' -> par_step f w s' s'' -> par_steps f w s s''.

(** run_in_parallel can end with [o] for [n] calls: an exception before starting
    (lines 43-46), or an execution of the threads. *)
Definition run_in_parallel {R} (f : nat -> res R) (n : nat) (num_workers : Z) (o : res (list R)) : Prop :=
  if num_workers <? 1 then o = Raise ValueError
  else exists fs m, par_steps f (Z.to_nat num_workers) (par_init n) (fs, m) /\
         match m with Returned l => o = Ok l | Raised e => o = Raise e | _ => False end.
