(** Property C33: mp_prefetch (multiprocess_prefetch and multithread_prefetch). *)
From Verif Require Import Base ListFacts MapDatasets Iter IterSpec IterLaw IterBasic_proofs IterBatch_proofs IterSource_proofs Interleave InterleaveSpec
  Interleave_proofs Prop_Interleave MapShuffle_proofs Scheduled Scheduled_proofs Multiprocess MultiprocessSpec Multiprocess_proofs.

(** How mp_prefetch makes one iterator from the iterators of its workers. *)
Lemma mp_shards_lawful {A} W bs keep r (t : ITree A) ps ls : (1 <= bs)%nat ->
  sequence (map (fun i => worker_iter W i t) (seq 0 W)) = Ok ps -> length ps = W ->
  Forall2 (fun p l => lawful p l true true true) ps ls ->
  exists qs, mp_shards W bs keep r t = Ok qs /\ length qs = W /\ Forall2 (fun p l => lawful p l true true true) qs ls.
Proof.
  intros Hb E El F. unfold mp_shards. rewrite E. cbn [bind]. eexists. split; [reflexivity|]. split.
  - rewrite map_length, combine_length, seq_length, El. lia.
  - apply (shards_lawful (fun i p => thread_prefetch_it bs (r_eager r i) (r_thread r i) (process_prefetch_it bs keep (r_process r i) p))); auto.
    intros i p l L. apply thread_prefetch_lawful; [easy|]. now apply process_prefetch_lawful.
Qed.
Lemma mt_shards_lawful {A} W bs r (t : ITree A) ps ls : (1 <= bs)%nat ->
  sequence (map (fun i => worker_iter W i t) (seq 0 W)) = Ok ps -> length ps = W ->
  Forall2 (fun p l => lawful p l true true true) ps ls ->
  exists qs, mt_shards W bs r t = Ok qs /\ length qs = W /\ Forall2 (fun p l => lawful p l true true true) qs ls.
Proof.
  intros Hb E El F. unfold mt_shards. rewrite E. cbn [bind]. eexists. split; [reflexivity|]. split.
  - rewrite map_length, combine_length, seq_length, El. lia.
  - apply (shards_lawful (fun i p => thread_prefetch_it bs (r_eager r i) (r_thread r i) p)); auto.
    intros i p l L. now apply thread_prefetch_lawful.
Qed.
Lemma alone_lawful {A} (t : ITree A) outs : 0 <= tree_len t -> elementwise t = true -> outcomes t outs ->
  not_random t = true \/ all_kept outs -> exists it, tree_iter 0 1 t = Ok it /\ lawful it (emitted outs) true true true.
Proof.
  intros Hn He Ho Hr. destruct (worker_lawful t outs 1 0 ltac:(lia) Hn He Ho Hr) as (p & E & L). rewrite stride_one in L.
  exists p. split; [exact E|exact L].
Qed.
Lemma emitted_some {A} (l : list A) : emitted (map Some l) = l.
Proof. induction l; cbn; [easy|]. unfold emitted in IHl. now rewrite IHl. Qed.
Lemma strides_some {A} W (l : list A) : map emitted (strides W (map Some l)) = strides W l.
Proof. unfold strides. rewrite map_map. apply map_ext. intros i. now rewrite <- map_stride, emitted_some. Qed.
Lemma all_some_kept {A} (l : list A) : all_kept (map Some l).
Proof. induction l; constructor; easy. Qed.

(** For every pipeline that treats the elements of a MapDataset one by one and keeps them all, every number of workers
    ([W = 0]: without workers), buffer size, and however the processes and threads run: the output is what the
    pipeline makes of the elements at indices 0, 1, 2, ..., in this order. *)
Theorem C33_order {A} (t : ITree A) (l : list (option A)) W buffer_size keep r :
  0 <= tree_len t -> elementwise t = true -> (1 <= buffer_size)%nat -> outcomes t (map Some l) ->
  exists it, mp_prefetch W buffer_size keep r t = Ok it /\ elements it l.
Proof.
  intros Hn He Hb Ho. unfold mp_prefetch. destruct (Nat.eqb_spec W 0) as [->|HW].
  - destruct (alone_lawful t _ Hn He Ho (or_intror (all_some_kept l))) as (it & E & L). rewrite emitted_some in L.
    exists it. split; [exact E|]. now apply (lawful_elements it l true true).
  - destruct (workers_lawful t _ W Hn He Ho (or_intror (all_some_kept l))) as (ps & E & El & F). rewrite strides_some in F.
    destruct (mp_shards_lawful W buffer_size keep r t ps _ Hb E El F) as (qs & -> & Eq & Fq). cbn [bind].
    eexists. split; [reflexivity|]. rewrite <- (turns_snd W l 0).
    assert (Hp : places qs W = W) by (unfold places; rewrite Eq; lia).
    apply (proj2 (C34_elements qs _ W keep _ true true Fq ltac:(rewrite Hp; lia))). rewrite Hp. apply interleaved_strides. lia.
Qed.
Theorem C33_threads {A} (t : ITree A) (l : list (option A)) W buffer_size keep r :
  0 <= tree_len t -> elementwise t = true -> (1 <= buffer_size)%nat -> outcomes t (map Some l) ->
  exists it, mt_prefetch W buffer_size keep r t = Ok it /\ elements it l.
Proof.
  intros Hn He Hb Ho. unfold mt_prefetch. destruct (Nat.eqb_spec W 0) as [->|HW].
  - destruct (alone_lawful t _ Hn He Ho (or_intror (all_some_kept l))) as (it & E & L). rewrite emitted_some in L.
    exists it. split; [exact E|]. now apply (lawful_elements it l true true).
  - destruct (workers_lawful t _ W Hn He Ho (or_intror (all_some_kept l))) as (ps & E & El & F). rewrite strides_some in F.
    destruct (mt_shards_lawful W buffer_size r t ps _ Hb E El F) as (qs & -> & Eq & Fq). cbn [bind].
    eexists. split; [reflexivity|]. rewrite <- (turns_snd W l 0).
    assert (Hp : places qs W = W) by (unfold places; rewrite Eq; lia).
    apply (proj2 (C34_elements qs _ W keep _ true true Fq ltac:(rewrite Hp; lia))). rewrite Hp. apply interleaved_strides. lia.
Qed.

(** Checkpoints of mp_prefetch with workers: for all histories of next, get_state, restore and restart (with the restriction
    of interleave: no checkpoint from an iterator that has been restored into while in use), a cursor into the same list. *)
Theorem C33_checkpoints {A} (t : ITree A) (l : list (option A)) W buffer_size keep r :
  0 <= tree_len t -> elementwise t = true -> (1 <= buffer_size)%nat -> (1 <= W)%nat -> outcomes t (map Some l) ->
  exists ps, mp_shards W buffer_size keep r t = Ok ps /\
  exists N, forall fuel ops, (N <= fuel)%nat -> saves_ok true false ops = true ->
    il_run (embed ps) W keep (fun _ => true) (json_of (embed ps)) fuel ops (il_init (embed ps) W) [] = cursor l ops 0 [].
Proof.
  intros Hn He Hb HW Ho.
  destruct (workers_lawful t _ W Hn He Ho (or_intror (all_some_kept l))) as (ps & E & El & F). rewrite strides_some in F.
  destruct (mp_shards_lawful W buffer_size keep r t ps _ Hb E El F) as (qs & Es & Eq & Fq). exists qs. split; [exact Es|].
  assert (Hp : places qs W = W) by (unfold places; rewrite Eq; lia).
  destruct (C35_history qs _ W keep (fun _ => true) true true (turns W 0 l) Fq ltac:(rewrite Hp; lia) ltac:(easy)) as (N & H).
  { rewrite Hp. apply interleaved_strides. lia. }
  exists N. intros fuel ops Hf Hs. rewrite H; [|easy|easy|discriminate|discriminate]. now rewrite turns_snd.
Qed.

Lemma emitted_concat {A} (ms : list (list (option A))) : emitted (concat ms) = concat (map emitted ms).
Proof. induction ms as [|m ms IH]; [easy|]. cbn [map concat]. rewrite <- IH. unfold emitted. apply flat_map_app. Qed.
(** With filters (or None elements that are dropped): every element that is not filtered out comes once.  Each worker's
    elements come in order; the round robin of the workers is the order of the output. *)
Theorem C33_filtered {A} (t : ITree A) outs W buffer_size keep r :
  0 <= tree_len t -> elementwise t = true -> not_random t = true -> (1 <= buffer_size)%nat -> (1 <= W)%nat -> outcomes t outs ->
  (exists it, mp_prefetch 0 buffer_size keep r t = Ok it /\ elements it (emitted outs)) /\
  (exists out, interleaved W (map emitted (strides W outs)) out) /\
  forall out, interleaved W (map emitted (strides W outs)) out ->
    Permutation (map snd out) (emitted outs) /\
    exists it, mp_prefetch W buffer_size keep r t = Ok it /\ elements it (map snd out).
Proof.
  intros Hn He Hr Hb HW Ho. split.
  { destruct (alone_lawful t _ Hn He Ho (or_introl Hr)) as (it & E & L). exists it. split; [exact E|]. now apply (lawful_elements it _ true true). }
  split; [apply interleaved_exists; lia|]. intros out Hout. split.
  - rewrite (proj1 (C34_each_dataset_complete W _ out Hout)).
    rewrite <- (turns_snd W outs 0) at 2.
    pose proof (proj1 (C34_each_dataset_complete W _ _ (interleaved_strides W outs HW))) as P.
    transitivity (emitted (concat (strides W outs))).
    + rewrite emitted_concat. apply Permutation_refl.
    + unfold emitted. apply Permutation_flat_map. now symmetry.
  - destruct (workers_lawful t _ W Hn He Ho (or_introl Hr)) as (ps & E & El & F).
    unfold mp_prefetch. destruct (Nat.eqb_spec W 0) as [->|_]; [lia|].
    destruct (mp_shards_lawful W buffer_size keep r t ps _ Hb E El F) as (qs & -> & Eq & Fq). cbn [bind].
    eexists. split; [reflexivity|].
    assert (Hp : places qs W = W) by (unfold places; rewrite Eq; lia).
    apply (proj2 (C34_elements qs _ W keep _ true true Fq ltac:(rewrite Hp; lia))). now rewrite Hp.
Qed.

(** Any pipeline: the output is the round robin of what the workers output; with one worker nothing changes. *)
Theorem C33_round_robin {A} (t : ITree A) ps ls W buffer_size keep r :
  (1 <= buffer_size)%nat -> (1 <= W)%nat -> length ps = W ->
  (forall i p, nth_error ps i = Some p -> worker_iter W i t = Ok p) ->
  Forall2 (fun p l => lawful p l true true true) ps ls ->
  forall out, interleaved W ls out -> exists it, mp_prefetch W buffer_size keep r t = Ok it /\ elements it (map snd out).
Proof.
  intros Hb HW El Hw F out Hout.
  assert (E : sequence (map (fun i => worker_iter W i t) (seq 0 W)) = Ok ps).
  { assert (G : forall ps k, (forall i p, nth_error ps i = Some p -> worker_iter W (k + i) t = Ok p) ->
      sequence (map (fun i => worker_iter W i t) (seq k (length ps))) = Ok ps).
    { clear. induction ps as [|p ps IH]; intros k H; [easy|]. cbn [length seq map sequence].
      pose proof (H 0%nat p eq_refl) as H0. rewrite Nat.add_0_r in H0. rewrite H0. cbn [bind]. rewrite IH; [easy|].
      intros i q Hq. replace (S k + i)%nat with (k + S i)%nat by lia. now apply H. }
    specialize (G ps 0%nat Hw). now rewrite El in G. }
  destruct (mp_shards_lawful W buffer_size keep r t ps _ Hb E El F) as (qs & Es & Eq & Fq).
  unfold mp_prefetch. destruct (Nat.eqb_spec W 0) as [->|_]; [lia|]. rewrite Es. cbn [bind].
  eexists. split; [reflexivity|].
  assert (Hp : places qs W = W) by (unfold places; rewrite Eq; lia).
  apply (proj2 (C34_elements qs _ W keep _ true true Fq ltac:(rewrite Hp; lia))). now rewrite Hp.
Qed.
Theorem C33_one_worker {A} (t : ITree A) p l buffer_size keep r : (1 <= buffer_size)%nat ->
  tree_iter 0 1 t = Ok p -> lawful p l true true true ->
  exists it, mp_prefetch 1 buffer_size keep r t = Ok it /\ elements it l.
Proof.
  intros Hb E L. destruct (interleaved_exists 1 [l] ltac:(lia)) as (out & Ho).
  pose proof (C34_one_place _ _ Ho) as Hs. cbn [concat] in Hs. rewrite app_nil_r in Hs. rewrite <- Hs.
  apply (C33_round_robin t [p] [l]); auto.
  - intros [|i] q Hq; [|now destruct i]. cbn in Hq. injection Hq as <-. exact E.
Qed.

(** ** Examples *)

(** 0, 1, 2, 3, 4 mapped to (10 x, generator of the element's index), 3 workers. *)
Definition five : ITree Z := TSource (range_example 5) false 2 3.
Definition drawn : ITree (Z * Z) := TRandomMap (fun x g => Ok (Some (x, g))) (fun i => 100 + i) (TMap (fun x => Ok (Some (10 * x))) five).
Definition drawn_elements : list (option (Z * Z)) := [Some (0, 100); Some (10, 101); Some (20, 102); Some (30, 103); Some (40, 104)].
Example C33_example keep r : exists it, mp_prefetch 3 1 keep r drawn = Ok it /\ elements it drawn_elements.
Proof. apply C33_order; [discriminate|reflexivity|lia|]. unfold outcomes. vm_compute. repeat constructor. Qed.

(** ** Where the order is not preserved *)

(** A filter: 1, 2, 3, 4 (of 0, ..., 4) come as 2, 1, 4, 3 from two workers. *)
Definition positive : ITree Z := TFilter (fun o => Ok match o with Some x => 0 <? x | None => false end) five.
Theorem C33_filter_order_refuted keep r :
  (exists it, mp_prefetch 0 1 keep r positive = Ok it /\ elements it [Some 1; Some 2; Some 3; Some 4]) /\
  (exists it, mp_prefetch 2 1 keep r positive = Ok it /\ elements it [Some 2; Some 1; Some 4; Some 3]).
Proof.
  set (outs := [None; Some (Some 1); Some (Some 2); Some (Some 3); Some (Some 4)]).
  assert (Ho : outcomes positive outs) by (unfold outcomes; vm_compute; repeat constructor).
  destruct (C33_filtered positive outs 2 1 keep r ltac:(discriminate) eq_refl eq_refl ltac:(lia) ltac:(lia) Ho) as (H0 & _ & H2).
  split; [exact H0|].
  apply (H2 [(0%nat, Some 2); (1%nat, Some 1); (0%nat, Some 4); (1%nat, Some 3)]).
  unfold interleaved, numbered, strides, outs. cbn [map seq stride emitted flat_map app Nat.sub length combine List.repeat]. round_robin.
Qed.

(** map_with_index counts the elements of each worker: the indices 0, ..., 4 come as 0, 0, 1, 1, 2. *)
Lemma five_worker i : (i < 2)%nat ->
  exists p, worker_iter 2 i five = Ok p /\ lawful p (stride 2 i [Some 0; Some 1; Some 2; Some 3; Some 4]) true true true.
Proof.
  intros Hi. destruct (worker_lawful five (map Some [Some 0; Some 1; Some 2; Some 3; Some 4]) 2 i Hi) as (p & E & L).
  - discriminate.
  - reflexivity.
  - unfold outcomes. vm_compute. repeat constructor.
  - now left.
  - rewrite <- map_stride, emitted_some in L. eauto.
Qed.
Lemma five_plain : exists p, tree_iter 0 1 five = Ok p /\ lawful p [Some 0; Some 1; Some 2; Some 3; Some 4] true true true.
Proof.
  destruct (alone_lawful five (map Some [Some 0; Some 1; Some 2; Some 3; Some 4])) as (p & E & L); [discriminate|reflexivity| |now left|].
  - unfold outcomes. vm_compute. repeat constructor.
  - rewrite emitted_some in L. eauto.
Qed.
Lemma worker_map_with_index {A B} (f : Z -> A -> res (option B)) W i t p : worker_iter W i t = Ok p ->
  worker_iter W i (TMapWithIndex f t) = Ok (map_with_index_it f p).
Proof.
  unfold worker_iter. cbn [slice_tree]. destruct (Nat.eqb W 1); cbn [bind]; [cbn [tree_iter]; intros ->; easy|].
  destruct (slice_tree _ _ t); cbn [bind]; try discriminate. cbn [tree_iter]. now intros ->.
Qed.
Definition counted : ITree Z := TMapWithIndex (fun i _ => Ok (Some i)) five.
Theorem C33_map_with_index_refuted keep r :
  (exists it, mp_prefetch 0 1 keep r counted = Ok it /\ elements it [Some 0; Some 1; Some 2; Some 3; Some 4]) /\
  (exists it, mp_prefetch 2 1 keep r counted = Ok it /\ elements it [Some 0; Some 0; Some 1; Some 1; Some 2]).
Proof.
  split.
  - destruct five_plain as (p & E & L). exists (map_with_index_it (fun i (_ : Z) => Ok (Some i)) p). split.
    + unfold mp_prefetch, counted. cbn [Nat.eqb tree_iter]. now rewrite E.
    + apply (lawful_elements _ _ true true). eapply lawful_map_with_index; [|exact L]. vm_compute. repeat constructor.
  - destruct (five_worker 0 ltac:(lia)) as (p & E & L). destruct (five_worker 1 ltac:(lia)) as (q & E' & L').
    apply (C33_round_robin counted [map_with_index_it (fun i (_ : Z) => Ok (Some i)) p; map_with_index_it (fun i (_ : Z) => Ok (Some i)) q]
      [[Some 0; Some 1; Some 2]; [Some 0; Some 1]]) with (out := [(0%nat, Some 0); (1%nat, Some 0); (0%nat, Some 1); (1%nat, Some 1); (0%nat, Some 2)]);
      [lia|lia|reflexivity| | |].
    + intros [|[|[|i]]] x Hx; cbn in Hx; try discriminate; injection Hx as <-; now apply worker_map_with_index.
    + constructor; [|constructor; [|constructor]]; (eapply lawful_map_with_index; [|eassumption]); vm_compute; repeat constructor.
    + unfold interleaved, numbered. round_robin.
Qed.

(** batch groups the elements of each worker: the batches [0 1] [2 3] [4] come as [0 2] [1 3] [4]. *)
Lemma worker_batch {A B} n drop (f : list (option A) -> res (option B)) W i t p it : worker_iter W i t = Ok p -> batch_it n drop f p = Ok it ->
  worker_iter W i (TBatch n drop f t) = Ok it.
Proof.
  unfold worker_iter. cbn [slice_tree]. destruct (Nat.eqb W 1); cbn [bind]; [cbn [tree_iter]; intros -> Hb; exact Hb|].
  destruct (slice_tree _ _ t); cbn [bind]; try discriminate. cbn [tree_iter]. now intros ->.
Qed.
Definition list_batch (l : list (option Z)) : res (option (list (option Z))) := Ok (Some l).
Definition batched : ITree (list (option Z)) := TBatch 2 false list_batch five.
Theorem C33_batch_refuted keep r :
  (exists it, mp_prefetch 0 1 keep r batched = Ok it /\ elements it [Some [Some 0; Some 1]; Some [Some 2; Some 3]; Some [Some 4]]) /\
  (exists it, mp_prefetch 2 1 keep r batched = Ok it /\ elements it [Some [Some 0; Some 2]; Some [Some 1; Some 3]; Some [Some 4]]).
Proof.
  assert (Hb : forall p, exists it, batch_it 2 false list_batch p = Ok it) by (intros p; eexists; reflexivity).
  split.
  - destruct five_plain as (p & E & L). destruct (Hb p) as (it & Eb). exists it. split.
    + unfold mp_prefetch, batched. cbn [Nat.eqb tree_iter]. rewrite E. cbn [bind]. exact Eb.
    + apply (lawful_elements _ _ true true). eapply (lawful_batch 2 false list_batch p); [exact Eb| |exact L]. vm_compute. repeat constructor.
  - destruct (five_worker 0 ltac:(lia)) as (p & E & L). destruct (five_worker 1 ltac:(lia)) as (q & E' & L').
    destruct (Hb p) as (ip & Ep). destruct (Hb q) as (iq & Eq).
    apply (C33_round_robin batched [ip; iq] [[Some [Some 0; Some 2]; Some [Some 4]]; [Some [Some 1; Some 3]]])
      with (out := [(0%nat, Some [Some 0; Some 2]); (1%nat, Some [Some 1; Some 3]); (0%nat, Some [Some 4])]);
      [lia|lia|reflexivity| | |].
    + intros [|[|[|i]]] x Hx; cbn in Hx; try discriminate; injection Hx as <-; [apply (worker_batch _ _ _ _ _ _ p)|apply (worker_batch _ _ _ _ _ _ q)]; assumption.
    + constructor; [|constructor; [|constructor]].
      * eapply (lawful_batch 2 false list_batch p); [exact Ep| |exact L]. vm_compute. repeat constructor.
      * eapply (lawful_batch 2 false list_batch q); [exact Eq| |exact L']. vm_compute. repeat constructor.
    + unfold interleaved, numbered. round_robin.
Qed.

(** ** Prefetching iterators inside pipelines *)

(** For every schedule, an iterator reading ahead in a thread or process has the elements and checkpoints of its parent, so
    everything that is proved about transformations of such a parent holds with it in between. *)
Theorem C31_composes {A} size eager sched (p : Iter A) l json : (eager = true -> (1 <= size)%nat) ->
  lawful p l true true json -> lawful (thread_prefetch_it size eager sched p) l true true json.
Proof. apply thread_prefetch_lawful. Qed.
Theorem C32_composes {A} size keep sched (p : Iter A) l json : (1 <= size)%nat ->
  lawful p l true true json -> lawful (process_prefetch_it size keep sched p) l true true json.
Proof. apply process_prefetch_lawful. Qed.
(** Batches read in a process, with a thread reading ahead of the process. *)
Example C32_composes_example sched sched' it : batch_it 2 false (fun l => Ok l) (Prop_Iter.srcz 3) = Ok it ->
  elements (thread_prefetch_it 1 true sched (process_prefetch_it 1 false sched' it)) [[0; 1]; [2]].
Proof.
  intros E. apply (lawful_elements _ _ true true). apply C31_composes; [lia|]. apply C32_composes; [lia|].
  eapply (lawful_batch 2 false (fun l => Ok l) _ it); [exact E| |exact (Prop_Iter.srcz_lawful 3 ltac:(lia))]. vm_compute. repeat constructor.
Qed.
