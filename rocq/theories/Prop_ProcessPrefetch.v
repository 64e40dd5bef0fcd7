(** Process prefetch. *)
From Verif Require Import Base Iter IterSpec ListFacts IterLaw Prop_Iter ThreadPrefetch ThreadPrefetchSpec Prop_Prefetch ProcessPrefetch ProcessPrefetch_proofs.

(** How many times a history restores a checkpoint. *)
Fixpoint restores (calls : list call) : nat :=
  match calls with [] => 0 | Do (OLoad _ _) :: cs => S (restores cs) | _ :: cs => restores cs end.

(** C32: under every schedule of the worker process and the consumer, every history of next, get_state,
    set_state, start_prefetch and new iterators terminates and returns what the parent's elements in
    order, and checkpoints that are positions among the elements returned, give: no element
    read before a set_state is returned after it, even if set_state is called again before the worker has seen the
    last request.  The parent may be any iterator with this property.  [fin = false]: only the beginning
    [l] of its stream is known and must be long enough.  [lag]: a request may be invisible to the consumer that
    wants to withdraw it; the queue of requests has 5 places (see below). *)
Theorem C32_transparent {A} (p : Iter A) (l : list A) fin used json : lawful p l fin used json ->
  exists N, forall fuel size keep lag calls, (N <= fuel)%nat -> (1 <= size)%nat ->
    (lag = true -> (restores calls <= 5)%nat) ->
    (fin = false -> ((20 * size + 200) * length calls + 2 <= length l)%nat) ->
    (used = false -> fresh_loads true (uses calls) = true) ->
    (json = false -> no_json (uses calls) = true) ->
    every_schedule (pp_step p fuel size keep (Ok tt) lag false) (pprog_init p calls) pq_obs (cursor l (erase calls) 0 []).
Proof.
  intros (N & rep & crep & L). exists N. intros fuel size keep lag calls Hf H1 Hlag Hfin Hu Hj.
  eapply (process_transparent p l fin used json N rep crep L fuel size keep lag Hf H1); auto. repeat split; auto.
Qed.

(** Executions given by a schedule: [Some k] a step of the consumer, [None] one of the worker. *)
Fixpoint pexecute {A} (p : Iter A) (fuel size : nat) keep boot lag (sched : list (option nat)) (g : pprog p) : option (pprog p) :=
  match sched with
  | [] => Some g
  | b :: sched' =>
      match (match b with
             | Some k => pconsumer_step p keep lag k g
             | None => match worker_step p fuel size boot (pq_it g) with
                       | Some s => Some (mkPprog (pq_calls g) (pq_cks g) (pq_obs g) (pq_at g) s) | None => None end
             end) with
      | Some g' => pexecute p fuel size keep boot lag sched' g'
      | None => None
      end
  end.
Lemma pexecute_nsteps {A} (p : Iter A) fuel size keep boot lag kills sched g g' :
  pexecute p fuel size keep boot lag sched g = Some g' -> nsteps (pp_step p fuel size keep boot lag kills) (length sched) g g'.
Proof.
  revert g. induction sched as [|b sched IH]; intros g; cbn [pexecute length]; [intros [= ->]; constructor|].
  intros E. destruct b as [k|].
  - destruct (pconsumer_step p keep lag k g) as [g1|] eqn:E1; [|easy]. eapply nsteps_prepend; [left; exists k; exact E1|auto].
  - destruct (worker_step p fuel size boot (pq_it g)) as [s|] eqn:E1; [|easy].
    eapply nsteps_prepend; [right; left; exists s; split; [exact E1|reflexivity]|auto].
Qed.

(** The hypotheses are met: the history of C31's example, and one that restores twice in a row. *)
Definition c32_calls : list call :=
  [Do ONext; Do OSave; Do ONext; Do OSave; Do (OLoad 0 true); Do (OLoad 1 true); Do ONext; Do ONext; Do ONext].
Example C32_example : exists N, forall fuel keep lag, (N <= fuel)%nat ->
  every_schedule (pp_step (srcz 3) fuel 2 keep (Ok tt) lag false) (pprog_init (srcz 3) c32_calls) pq_obs
    [Got (Yield 0); Saved; Got (Yield 1); Saved; Loaded; Loaded; Got (Yield 2); Got Stop; Got Stop].
Proof.
  destruct (C32_transparent _ _ _ _ _ (srcz_lawful 3 ltac:(lia))) as (N & H). exists N. intros fuel keep lag Hf.
  apply (H fuel 2%nat keep lag c32_calls); auto; easy.
Qed.

(** The user calls next and it never returns: no step is possible, or every execution from here on stays in the call. *)
Definition blocked {A} {p : Iter A} (step : pprog p -> pprog p -> Prop) (g : pprog p) : Prop :=
  pq_at g <> PIdle /\ forall n g', nsteps step n g g' -> pq_at g' <> PIdle.
Lemma stuck_blocked {A} {p : Iter A} (step : pprog p -> pprog p -> Prop) g :
  pq_at g <> PIdle -> (forall g', step g g' -> g' = g) -> blocked step g.
Proof.
  intros Ha H. split; [easy|]. intros n g' Hn. enough (g' = g) by congruence.
  induction Hn as [|n s s' s'' Hn IH Hst]; [easy|]. specialize (IH Ha H). subst. now apply H.
Qed.

(** A worker that fails before it reads the first element (worker_init_fn raises, say) reports the error, but
    if the iterator has been restored before the first next, next discards the report and waits forever.  This
    does not depend on the parent. *)
Theorem C32_failing_worker_refuted {A} (p : Iter A) : forall fuel size keep lag e, (1 <= size)%nat -> exists n g,
  let step := pp_step p fuel size keep (Raise e) lag false in
  nsteps step n (pprog_init p [Do OSave; Do (OLoad 0 false); Do ONext]) g /\ blocked step g.
Proof.
  intros fuel size keep lag e Hs. destruct size as [|size]; [lia|].
  set (sched := ([Some 0; Some 0; Some 0; Some 0; Some 0; Some 0; None; None; Some 0])%nat).
  destruct (pexecute p fuel (S size) keep (Raise e) lag sched (pprog_init p [Do OSave; Do (OLoad 0 false); Do ONext])) as [g|] eqn:E;
    [|destruct lag; vm_compute in E; discriminate].
  exists (length sched), g. split; [exact (pexecute_nsteps p fuel (S size) keep (Raise e) lag false sched _ _ E)|].
  assert (Hg : pq_at g = PNext /\ pp_buffer (pq_it g) = [] /\ pp_worker (pq_it g) = Some WDone)
    by (destruct lag; vm_compute in E; injection E as <-; easy).
  destruct Hg as (H1 & H2 & H3). apply stuck_blocked; [congruence|].
  intros g' [(k & E')|[(s & E' & _)|[E' _]]]; [unfold pconsumer_step in E'|unfold worker_step in E'|easy]; exfalso;
    rewrite ?H1, ?H2, ?H3 in E'; discriminate.
Qed.

(** A worker that is killed before it has seen a restore: next finds that it has died, and again, and again. *)
Theorem C32_killed_worker_refuted {A} (p : Iter A) : forall fuel size keep lag, exists n g,
  let step := pp_step p fuel size keep (Ok tt) lag true in
  nsteps step n (pprog_init p [Do OSave; Do (OLoad 0 false); Do ONext]) g /\ blocked step g.
Proof.
  intros fuel size keep lag. set (sched := ([Some 0; Some 0; Some 0; Some 0; Some 0; Some 0])%nat).
  destruct (pexecute p fuel size keep (Ok tt) lag sched (pprog_init p [Do OSave; Do (OLoad 0 false); Do ONext])) as [g|] eqn:E;
    [|destruct lag; vm_compute in E; discriminate].
  assert (Hg : pq_at g = PNext /\ pp_buffer (pq_it g) = [] /\ pp_worker (pq_it g) = Some WBoot /\ pp_skip (pq_it g) = 1%nat)
    by (destruct lag; vm_compute in E; injection E as <-; easy).
  destruct Hg as (H1 & H2 & H3 & H4).
  eexists (S (length sched)), _. split.
  - econstructor; [exact (pexecute_nsteps p fuel size keep (Ok tt) lag true sched _ _ E)|].
    right. right. split; [reflexivity|]. exists WBoot. repeat split; [exact H3|discriminate].
  - apply stuck_blocked; [cbn; congruence|].
    intros g' [(k & E')|[(s & E' & _)|(_ & w & _ & _ & ->)]]; [| |reflexivity].
    + unfold pconsumer_step in E'. cbn in E'. rewrite H1, H2, H4 in E'. cbn in E'. injection E' as <-.
      rewrite <- H1, <- H2. now destruct g as [? ? ? ? []].
    + now cbn in E'.
Qed.

(** The queue of requests has 5 places.  If requests are not visible to the consumer that wants to withdraw them, the
    sixth set_state of an iterator that has not been started waits for a worker that does not exist. *)
Theorem C32_six_restores_refuted {A} (p : Iter A) : forall fuel size keep boot, exists n g,
  let step := pp_step p fuel size keep boot true false in
  nsteps step n (pprog_init p (Do OSave :: repeat (Do (OLoad 0 false)) 6)) g /\ blocked step g.
Proof.
  intros fuel size keep boot. set (sched := repeat (Some 0%nat) 23).
  destruct (pexecute p fuel size keep boot true sched (pprog_init p (Do OSave :: repeat (Do (OLoad 0 false)) 6))) as [g|] eqn:E;
    [|vm_compute in E; discriminate].
  exists (length sched), g. split; [exact (pexecute_nsteps p fuel size keep boot true false sched _ _ E)|].
  assert (Hg : (exists c, pq_at g = PSetPut c) /\ length (pp_reqs (pq_it g)) = 5%nat /\ pp_worker (pq_it g) = None).
  { vm_compute in E. injection E as <-. cbn. split; [eexists; reflexivity|easy]. }
  destruct Hg as ((c & H1) & H2 & H3). apply stuck_blocked; [congruence|].
  intros g' [(k & E')|[(s & E' & _)|[E' _]]]; [unfold pconsumer_step in E'|unfold worker_step in E'|easy]; exfalso;
    rewrite ?H1, ?H2, ?H3 in E'; discriminate.
Qed.
