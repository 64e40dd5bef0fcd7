(** Specification for thread prefetch: executions of two threads, and what the user sees. *)
From Verif Require Import Base Iter IterSpec ThreadPrefetch.

(** [n] steps, each taken by any thread that can take one. *)
Inductive nsteps {T : Type} (step : T -> T -> Prop) : nat -> T -> T -> Prop :=
| nsteps_O s : nsteps step 0 s s
| nsteps_S n s s' s'' : nsteps step n s s' -> step s' s'' -> nsteps step (S n) s s''.

(** The calls the results of which the user observes: start_prefetch has none. *)
Fixpoint erase (calls : list call) : list op :=
  match calls with [] => [] | Do o :: cs => o :: erase cs | StartPrefetch :: cs => erase cs end.
(** An iterator on which start_prefetch has been called is as used as one that has been read. *)
Definition uses (calls : list call) : list op :=
  map (fun c => match c with Do o => o | StartPrefetch => ONext end) calls.

(** Under every schedule a program terminates, and what its user has observed in the end is [expected] (before
    that: a prefix of it). *)
Definition every_schedule {T R} (step : T -> T -> Prop) (start : T) (observed : T -> list R) (expected : list R) : Prop :=
  (exists bound, forall n g, nsteps step n start g -> (n <= bound)%nat) /\
  (forall n g, nsteps step n start g -> exists rest, observed g ++ rest = expected) /\
  (forall n g, nsteps step n start g -> (forall g', ~ step g g') -> observed g = expected).

(** A history of calls returns what the cursor into [l] returns. *)
Definition transparent {A} (p : Iter A) (l : list A) (fuel size : nat) (calls : list call) : Prop :=
  every_schedule (tp_step p fuel size) (prog_init p calls) pg_obs (cursor l (erase calls) 0 []).
