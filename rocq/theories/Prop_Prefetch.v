(** Thread prefetch. *)
From Verif Require Import Base Iter IterSpec ListFacts IterLaw Prop_Iter ThreadPrefetch ThreadPrefetchSpec ThreadPrefetch_proofs.

(** C31: under every schedule of the producer thread and the consumer, every history of next,
    get_state, set_state, start_prefetch and new iterators terminates and returns what the parent's
    elements in order, and checkpoints that are positions among the elements returned, give.  The
    parent may be any iterator with this property.  [fin = false]: only the beginning [l] of its stream is
    known, and the history must not leave it; the thread reads at most [size + 1] elements ahead.
    With size 0 start_prefetch must not be called: see below. *)
Theorem C31_transparent {A} (p : Iter A) (l : list A) fin used json : lawful p l fin used json ->
  exists N, forall fuel size calls, (N <= fuel)%nat ->
    (size = 0%nat -> ~ In StartPrefetch calls) ->
    (fin = false -> (length calls + size + 1 <= length l)%nat) ->
    (used = false -> fresh_loads true (uses calls) = true) ->
    (json = false -> no_json (uses calls) = true) ->
    transparent p l fuel size calls.
Proof.
  intros (N & rep & crep & L). exists N. intros fuel size calls Hf H0 Hfin Hu Hj.
  eapply (prefetch_transparent p l fin used json N rep crep L fuel size Hf). repeat split; auto.
Qed.

(** Executions given by a schedule ([true]: a step of the consumer). *)
Fixpoint execute {A} (p : Iter A) (fuel size : nat) (sched : list bool) (g : prog p) : option (prog p) :=
  match sched with
  | [] => Some g
  | b :: sched' =>
      match (if b then consumer_step p fuel size g
             else match producer_step p fuel size (pg_it g) with
                  | Some s => Some (mkProg (pg_calls g) (pg_cks g) (pg_obs g) (pg_at g) s) | None => None end) with
      | Some g' => execute p fuel size sched' g'
      | None => None
      end
  end.
Lemma nsteps_prepend {T} (step : T -> T -> Prop) n s s' s'' : step s s' -> nsteps step n s' s'' -> nsteps step (S n) s s''.
Proof.
  intros H Hn. induction Hn as [s0|n s0 s1 s2 Hn IH Hst]; [econstructor; [constructor|exact H]|].
  econstructor; [now apply IH|exact Hst].
Qed.
Lemma execute_nsteps {A} (p : Iter A) fuel size sched g g' : execute p fuel size sched g = Some g' ->
  nsteps (tp_step p fuel size) (length sched) g g'.
Proof.
  revert g. induction sched as [|b sched IH]; intros g; cbn [execute length]; [intros [= ->]; constructor|].
  intros E. destruct b.
  - destruct (consumer_step p fuel size g) as [g1|] eqn:E1; [|easy]. eapply nsteps_prepend; [left; exact E1|auto].
  - destruct (producer_step p fuel size (pg_it g)) as [s|] eqn:E1; [|easy].
    eapply nsteps_prepend; [right; exists s; split; [exact E1|reflexivity]|auto].
Qed.

(** The hypotheses are met: a parent with 3 elements, a queue of size 1, and a history that takes a checkpoint
    after one element, reads on and restores it while the thread is running. *)
Definition c31_calls : list call :=
  [StartPrefetch; Do ONext; Do OSave; Do ONext; Do (OLoad 0 true); Do ONext; Do ONext; Do ONext; Do ONext].
Example C31_example : exists N, forall fuel, (N <= fuel)%nat -> transparent (srcz 3) [0; 1; 2] fuel 1 c31_calls.
Proof.
  destruct (C31_transparent _ _ _ _ _ (srcz_lawful 3 ltac:(lia))) as (N & H). exists N. intros fuel Hf. now apply H.
Qed.
(** One of its executions: the restore finds element 2 in the queue and the thread blocked with the end of the stream. *)
Definition c31_schedule : list bool := let T := true in let F := false in
  [T; F; F; F; F; F; F; F; T; T; F; T; T; T; F; F; F; F; F; F; T; T; T; F; T; T; T; T; T;
   T; F; F; F; F; T; T; F; F; F; F; T; T; F; F; F; T; T; T; T; T; T; T; F; F; F; T; T; T; T; T; T].
Example C31_execution : exists g, nsteps (tp_step (srcz 3) 5 1) (length c31_schedule) (prog_init (srcz 3) c31_calls) g /\
  pg_obs g = [Got (Yield 0); Saved; Got (Yield 1); Loaded; Got (Yield 1); Got (Yield 2); Got Stop; Got Stop] /\
  pg_calls g = [].
Proof.
  destruct (execute (srcz 3) 5 1 c31_schedule (prog_init (srcz 3) c31_calls)) as [g|] eqn:E; [|vm_compute in E; discriminate].
  exists g. split; [now apply execute_nsteps|]. revert E. vm_compute. intros [= <-]. now split.
Qed.

(** With size 0, start_prefetch starts a thread all the same.  The thread and the consumer then both read the parent:
    the thread takes element 0, and the consumer, who finds the queue empty, returns element 1 as the first. *)
Theorem C31_size_0_refuted : exists n g,
  nsteps (tp_step (srcz 3) 5 0) n (prog_init (srcz 3) [StartPrefetch; Do ONext; Do ONext]) g /\
  pg_calls g = [] /\ pg_at g = Idle /\ pg_obs g = [Got (Yield 1); Got (Yield 0)].
Proof.
  set (g0 := prog_init (srcz 3) [StartPrefetch; Do ONext; Do ONext]).
  set (sched := [true; false; false; true; true; true; false; false; true; true]).
  destruct (execute (srcz 3) 5 0 sched g0) as [g|] eqn:E; [|vm_compute in E; discriminate].
  exists (length sched), g. split; [now apply execute_nsteps|]. revert E. vm_compute. intros [= <-]. repeat split.
Qed.
