(** Property C58: mp_prefetch(sequential_slice=True). *)
From Verif Require Import Base ListFacts SeedSeq Sharding MapDatasets Spec Iter IterSpec IterLaw Interleave InterleaveSpec Interleave_proofs
  Prop_Interleave IndexShuffle IndexShuffle_proofs MapShuffle_proofs Scheduled Scheduled_proofs Multiprocess MultiprocessSpec Multiprocess_proofs Prop_Multiprocess
  SequentialSlice SequentialSliceSpec SequentialSlice_proofs.

Local Ltac spl := repeat match goal with |- _ /\ _ => split end.

(** The parts are consecutive, cover the list and have nearly the same size. *)
Theorem C58_parts {A} W (l : list A) : (1 <= W)%nat ->
  concat (parts W l) = l /\ length (parts W l) = W /\
  forall p q, In p (parts W l) -> In q (parts W l) -> (length p <= length q + 1)%nat.
Proof.
  intros HW. split; [now apply parts_concat|]. split; [unfold parts; now rewrite map_length, seq_length|].
  intros p q Hp Hq. unfold parts in *. apply in_map_iff in Hp as (i & <- & Hi). apply in_map_iff in Hq as (j & <- & Hj).
  apply in_seq in Hi, Hj. rewrite !part_length by lia. unfold part_size.
  destruct (i <? _)%nat, (j <? _)%nat; lia.
Qed.

Lemma seq_shards_lawful {S A B} W bs keep r st (t : MTree S A) (s : Stack A B) ps ls : (1 <= bs)%nat ->
  sequence (map (fun i => seq_worker W i st t s) (seq 0 W)) = Ok ps -> length ps = W ->
  Forall2 (fun p l => lawful p l true true true) ps ls ->
  exists qs, mp_seq_shards W bs keep r st t s = Ok qs /\ length qs = W /\ Forall2 (fun p l => lawful p l true true true) qs ls.
Proof.
  intros Hb E El F. unfold mp_seq_shards. rewrite E. cbn [bind]. eexists. split; [reflexivity|]. split.
  - rewrite map_length, combine_length, seq_length, El. lia.
  - apply (shards_lawful (fun i p => thread_prefetch_it bs (r_eager r i) (r_thread r i) (process_prefetch_it bs keep (r_process r i) p))); auto.
    intros i p l L. apply thread_prefetch_lawful; [easy|]. now apply process_prefetch_lawful.
Qed.

(** The output, when all workers have an output. *)
Lemma seq_output {S A B} W bs keep r st (t : MTree S A) (s : Stack A B) ls : (1 <= bs)%nat -> (1 <= W)%nat -> length ls = W ->
  (forall i l, nth_error ls i = Some l -> exists p, seq_worker W i st t s = Ok p /\ lawful p l true true true) ->
  forall out, interleaved W ls out -> exists it, mp_seq_prefetch W bs keep r st t s = Ok it /\ elements it (map snd out).
Proof.
  intros Hb HW El Hw out Hout.
  assert (G : forall ls k, (forall i l, nth_error ls i = Some l -> exists p, seq_worker W (k + i) st t s = Ok p /\ lawful p l true true true) ->
    exists ps, sequence (map (fun i => seq_worker W i st t s) (seq k (length ls))) = Ok ps /\ length ps = length ls /\
      Forall2 (fun p l => lawful p l true true true) ps ls).
  { clear. induction ls as [|l ls IH]; intros k H; [exists []; spl; constructor|].
    destruct (H 0%nat l eq_refl) as (p & Ep & L). rewrite Nat.add_0_r in Ep.
    destruct (IH (Datatypes.S k)) as (ps & E & El & F).
    { intros i q Hq. replace (Datatypes.S k + i)%nat with (k + Datatypes.S i)%nat by lia. now apply H. }
    exists (p :: ps). cbn [length seq map sequence]. rewrite Ep. cbn [bind]. rewrite E. cbn [bind]. spl; [easy|cbn; lia|now constructor]. }
  destruct (G ls 0%nat Hw) as (ps & E & Ep & F). rewrite El in *.
  destruct (seq_shards_lawful W bs keep r st t s ps _ Hb E Ep F) as (qs & Es & Eq & Fq).
  unfold mp_seq_prefetch. destruct (Nat.eqb_spec W 0) as [->|_]; [lia|]. rewrite Es. cbn [bind].
  eexists. split; [reflexivity|].
  assert (Hp : places qs W = W) by (unfold places; rewrite Eq; lia).
  apply (proj2 (C34_elements qs _ W keep _ true true Fq ltac:(rewrite Hp; lia))). now rewrite Hp.
Qed.

(** A dataset made of a source, maps and filters, and an elementwise pipeline above it; [outs] is what becomes of its
    elements.  Worker [i] of [W] reads the [i]-th part of the dataset and nothing else, and the output is the round robin
    of what the workers make of it; every element that is not filtered out comes exactly once. *)
Theorem C58_output {S A B} (st : list (source_obj S)) (t : MTree S A) (s : Stack A B) ds outs W buffer_size keep r :
  Forall whole st -> plain false t = true -> m_ds st t = Ok ds -> 0 <= mlen ds ->
  elementwise (over s ds) = true -> not_random (over s ds) = true -> outcomes (over s ds) outs ->
  (1 <= buffer_size)%nat -> (1 <= W)%nat ->
  (exists out, interleaved W (map emitted (parts W outs)) out) /\
  forall out, interleaved W (map emitted (parts W outs)) out ->
    Permutation (map snd out) (emitted outs) /\
    exists it, mp_seq_prefetch W buffer_size keep r st t s = Ok it /\ elements it (map snd out).
Proof.
  intros Hw Hp Hds Hn He Hr Ho Hb HW. split; [apply interleaved_exists; lia|]. intros out Hout. split.
  - rewrite (proj1 (C34_each_dataset_complete W _ out Hout)). rewrite <- emitted_concat. now rewrite parts_concat by lia.
  - apply seq_output with (ls := map emitted (parts W outs)); auto.
    { unfold parts. now rewrite !map_length, seq_length. }
    intros i l Hl. rewrite nth_error_map in Hl. unfold parts in Hl. rewrite nth_error_map in Hl.
    destruct (nth_error (seq 0 W) i) as [i'|] eqn:Ei; [|discriminate]. cbn in Hl. injection Hl as <-.
    assert (Hi : (i < W)%nat). { rewrite <- (seq_length W 0). apply nth_error_Some. congruence. }
    assert (i' = i) as ->. { apply (nth_error_nth _ _ 0%nat) in Ei. rewrite seq_nth in Ei by lia. lia. }
    destruct (seq_worker_lawful st t s ds ds outs W i) as (p & o & E & P & Eo & L); auto.
    + now apply plain_weaken.
    + now left.
    + now rewrite unshuffled_plain.
    + rewrite (Eo Hp) in L. eauto.
Qed.

(** Checkpoints: for all histories (with the restriction of interleave, C35) a cursor into that output. *)
Theorem C58_checkpoints {S A B} (st : list (source_obj S)) (t : MTree S A) (s : Stack A B) ds outs W buffer_size keep r :
  Forall whole st -> plain false t = true -> m_ds st t = Ok ds -> 0 <= mlen ds ->
  elementwise (over s ds) = true -> not_random (over s ds) = true -> outcomes (over s ds) outs ->
  (1 <= buffer_size)%nat -> (1 <= W)%nat ->
  exists ps, mp_seq_shards W buffer_size keep r st t s = Ok ps /\
  forall out, interleaved W (map emitted (parts W outs)) out ->
  exists N, forall fuel ops, (N <= fuel)%nat -> saves_ok true false ops = true ->
    il_run (embed ps) W keep (fun _ => true) (json_of (embed ps)) fuel ops (il_init (embed ps) W) [] = cursor (map snd out) ops 0 [].
Proof.
  intros Hw Hp Hds Hn He Hr Ho Hb HW.
  assert (G : forall i, In i (seq 0 W) -> exists p, seq_worker W i st t s = Ok p /\ lawful p (emitted (part W outs i)) true true true).
  { intros i Hi. apply in_seq in Hi. destruct (seq_worker_lawful st t s ds ds outs W i) as (p & o & E & P & Eo & L); auto; try lia.
    - now apply plain_weaken. - now left. - now rewrite unshuffled_plain. - rewrite (Eo Hp) in L. eauto. }
  assert (GG : forall l, (forall i, In i l -> exists p, seq_worker W i st t s = Ok p /\ lawful p (emitted (part W outs i)) true true true) ->
    exists ps, sequence (map (fun i => seq_worker W i st t s) l) = Ok ps /\ length ps = length l /\
      Forall2 (fun p l => lawful p l true true true) ps (map emitted (map (part W outs) l))).
  { clear. induction l as [|i l IH]; intros H; [exists []; spl; constructor|].
    destruct (H i (or_introl eq_refl)) as (p & Ep & L). destruct IH as (ps & E & El & F); [intros; apply H; now right|].
    exists (p :: ps). cbn [length map sequence]. rewrite Ep. cbn [bind]. rewrite E. cbn [bind]. spl; [easy|cbn; lia|now constructor]. }
  destruct (GG _ G) as (ps & E & El & F). rewrite seq_length in El.
  destruct (seq_shards_lawful W buffer_size keep r st t s ps _ Hb E El F) as (qs & Es & Eq & Fq). exists qs. split; [exact Es|]. intros out Hout.
  assert (Hpl : places qs W = W) by (unfold places; rewrite Eq; lia).
  destruct (C35_history qs _ W keep (fun _ => true) true true out Fq ltac:(rewrite Hpl; lia) ltac:(easy)) as (N & H).
  { now rewrite Hpl. }
  exists N. intros fuel ops Hf Hs. rewrite H; [easy|easy|easy|discriminate|discriminate].
Qed.

Lemma unshuffled_len {S A} (t : MTree S A) st : plain true t = true -> forall ds u,
  m_ds st t = Ok ds -> m_ds st (unshuffled t) = Ok u -> mlen u = mlen ds.
Proof.
  induction t; cbn [plain unshuffled m_ds]; try discriminate; intros Hp ds u Hds Hu.
  - congruence.
  - destruct (m_ds st t); try discriminate. destruct (m_ds st (unshuffled t)); try discriminate. cbn [bind] in *.
    injection Hds as <-. injection Hu as <-. cbn [map_ds filter_ds mlen]. now apply (IHt Hp).
  - destruct (m_ds st t); try discriminate. destruct (m_ds st (unshuffled t)); try discriminate. cbn [bind] in *.
    injection Hds as <-. injection Hu as <-. cbn [map_ds filter_ds mlen]. now apply (IHt Hp).
  - destruct (m_ds st t) as [p| |]; try discriminate. cbn [bind] in *. unfold shuffle_ds in Hds.
    destruct ((seed <? 0) || (seed >=? 2 ^ 32)); [discriminate|]. cbv zeta in Hds. injection Hds as <-. now apply (IHt Hp p).
Qed.
Lemma Forall2_choice {X Y} (P : X -> Y -> Prop) l : (forall x, In x l -> exists y, P x y) -> exists ys, Forall2 P l ys.
Proof.
  induction l as [|x l IH]; intros H; [exists []; constructor|]. destruct (H x (or_introl eq_refl)) as (y & Hy).
  destruct IH as (ys & F); [intros; apply H; now right|]. exists (y :: ys). now constructor.
Qed.

(** With shuffles in the dataset: every worker shuffles its part.  [outs] is what becomes of the elements without the
    shuffles.  (A part of 2^k + 1 elements, k even and at least 16, or of more than 2^63, is not shuffled correctly: C04.) *)
Theorem C58_shuffled {S A B} (st : list (source_obj S)) (t : MTree S A) (s : Stack A B) ds u outs W buffer_size keep r :
  Forall whole st -> plain true t = true -> m_ds st t = Ok ds -> 0 <= mlen ds -> m_ds st (unshuffled t) = Ok u ->
  (forall i, (i < W)%nat -> Z.of_nat (part_size (length outs) W i) <= 2 ^ 63 /\
     forall k, 16 <= k <= 62 -> k mod 2 = 0 -> Z.of_nat (part_size (length outs) W i) <> 2 ^ k + 1) ->
  elementwise (over s u) = true -> not_random (over s u) = true -> outcomes (over s u) outs ->
  (1 <= buffer_size)%nat -> (1 <= W)%nat ->
  exists shuffles, Forall2 (@Permutation _) shuffles (parts W outs) /\
  (exists out, interleaved W (map emitted shuffles) out) /\
  forall out, interleaved W (map emitted shuffles) out ->
    Permutation (map snd out) (emitted outs) /\
    exists it, mp_seq_prefetch W buffer_size keep r st t s = Ok it /\ elements it (map snd out).
Proof.
  intros Hw Hp Hds Hn Hu Hz He Hr Ho Hb HW.
  assert (Hlen : length outs = Z.to_nat (mlen ds)).
  { pose proof (Forall2_length _ _ _ Ho) as El. rewrite zrange_length, over_len in El. now rewrite <- El, (unshuffled_len t st Hp ds u Hds Hu). }
  assert (G : forall i, In i (seq 0 W) -> exists outs', exists p, seq_worker W i st t s = Ok p /\ Permutation outs' (part W outs i) /\
    lawful p (emitted outs') true true true).
  { intros i Hi. apply in_seq in Hi. destruct (seq_worker_lawful st t s ds u outs W i) as (p & o & E & P & _ & L); eauto; [lia|].
    right. rewrite <- Hlen. destruct (Hz i ltac:(lia)) as [H1 H2]. split; [easy|]. intros (k & Hk1 & Hk2 & Ek).
    apply (H2 k Hk1 Hk2). lia. }
  apply Forall2_choice in G as (shuffles & F). exists shuffles.
  assert (FP : Forall2 (@Permutation _) shuffles (parts W outs)).
  { unfold parts. clear - F. induction F as [|i o l os (p & _ & P & _) F IH]; cbn [map]; constructor; auto. }
  split; [exact FP|]. split; [apply interleaved_exists; lia|]. intros out Hout. split.
  - rewrite (proj1 (C34_each_dataset_complete W _ out Hout)). rewrite <- emitted_concat. apply emitted_perm.
    rewrite <- (parts_concat W outs) by lia. clear - FP. induction FP; cbn [concat]; [easy|]. now apply Permutation_app.
  - apply seq_output with (ls := map emitted shuffles); auto.
    { rewrite map_length, <- (Forall2_length _ _ _ F), seq_length. easy. }
    intros i l Hl. rewrite nth_error_map in Hl. destruct (nth_error shuffles i) as [o|] eqn:Eo; [|discriminate]. cbn in Hl. injection Hl as <-.
    destruct (IterBasic_proofs.Forall2_nth _ _ _ _ _ F Eo) as (i' & Ei & p & E & P & L).
    assert (Hi : (i < W)%nat). { rewrite <- (seq_length W 0). apply nth_error_Some. congruence. }
    assert (i' = i) as ->. { apply (nth_error_nth _ _ 0%nat) in Ei. rewrite seq_nth in Ei by lia. lia. }
    eauto.
Qed.

(** ** Examples *)

(** 0, ..., 6, without 3, times 10, by three workers: [0 10 20 | 40 | 50 60]. *)
Definition seven : list (source_obj Z) := [SourceObj (range_example 7) (range_example 7)].
Definition some_of_seven : MTree Z Z := MFilter (fun x => Ok (negb (x =? 3))) (MSource 0).
Definition times_ten : Stack Z Z := SMap (fun x => Ok (Some (10 * x))) (SPrefetch false 2 3).
Example C58_example keep r : exists it, mp_seq_prefetch 3 1 keep r seven some_of_seven times_ten = Ok it /\
  elements it (map Some [0; 40; 50; 10; 60; 20]).
Proof.
  destruct (m_ds seven some_of_seven) as [ds| |] eqn:E; try discriminate.
  assert (Ho : outcomes (over times_ten ds) [Some (Some 0); Some (Some 10); Some (Some 20); None; Some (Some 40); Some (Some 50); Some (Some 60)]).
  { injection E as <-. unfold outcomes. vm_compute. repeat constructor. }
  destruct (C58_output seven some_of_seven times_ten ds _ 3 1 keep r ltac:(repeat constructor) eq_refl E
    ltac:(injection E as <-; vm_compute; discriminate) eq_refl eq_refl Ho ltac:(lia) ltac:(lia)) as (_ & H).
  apply (H [(0%nat, Some 0); (1%nat, Some 40); (2%nat, Some 50); (0%nat, Some 10); (2%nat, Some 60); (0%nat, Some 20)]).
  unfold interleaved, numbered, parts, part, part_size, part_start.
  cbn [map seq length Nat.div Nat.modulo Nat.divmod fst snd Nat.sub Nat.ltb Nat.leb Nat.add Nat.mul Nat.min skipn firstn emitted flat_map app combine List.repeat].
  round_robin.
Qed.

(** 0, ..., 6 shuffled by two workers: a permutation of 0, ..., 3 and one of 4, 5, 6, in turn. *)
Example C58_shuffled_example keep r : exists a b out it, Permutation a (map (fun x => Some (Some x)) [0; 1; 2; 3]) /\ Permutation b (map (fun x => Some (Some x)) [4; 5; 6]) /\
  interleaved 2 (map emitted [a; b]) out /\
  mp_seq_prefetch 2 1 keep r seven (MShuffle generate_keys 1 (MSource 0)) (SPrefetch false 2 3) = Ok it /\ elements it (map snd out).
Proof.
  destruct (C58_shuffled seven (MShuffle generate_keys 1 (MSource 0)) (SPrefetch false 2 3)
    {| mlen := 7; mget := fun i => let! j := shuffled_index generate_keys 7 1 i in mget (range_example 7) j;
       mgetitems := reindexed_getitems (shuffled_index generate_keys 7 1) (range_example 7) |}
    (range_example 7) (map (fun x => Some (Some x)) [0; 1; 2; 3; 4; 5; 6]) 2 1 keep r) as (sh & F & (out & Ho) & H);
    try reflexivity; try lia.
  - repeat constructor.
  - cbn. lia.
  - intros i Hi. assert (Hs : Z.of_nat (part_size (length (map (fun x => Some (Some x)) [0; 1; 2; 3; 4; 5; 6])) 2 i) <= 4).
    { destruct i as [|[|i]]; [cbn; lia|cbn; lia|lia]. }
    split; [lia|]. intros k Hk _. pose proof (Z.pow_le_mono_r 2 16 k ltac:(lia) ltac:(lia)). lia.
  - unfold outcomes. vm_compute. repeat constructor.
  - inversion F as [|a ? ? ? Fa F']; subst. inversion F' as [|b ? ? ? Fb F'']; subst. inversion F''; subst.
    destruct (H out Ho) as (_ & it & E & L). exists a, b, out, it. spl; auto.
Qed.

(** ** Where elements are lost or come again *)

(** Two workers, with what they read. *)
Lemma two_workers {S A} keep r st (t : MTree S A) la lb out :
  (exists st' ds, set_slices 0 2 t st = Ok st' /\ m_ds st' t = Ok ds /\ 0 <= mlen ds /\ outcomes (over (SPrefetch false 1 1) ds) (map Some la)) ->
  (exists st' ds, set_slices 1 2 t st = Ok st' /\ m_ds st' t = Ok ds /\ 0 <= mlen ds /\ outcomes (over (SPrefetch false 1 1) ds) (map Some lb)) ->
  interleaved 2 [la; lb] out ->
  exists it, mp_seq_prefetch 2 1 keep r st t (SPrefetch false 1 1) = Ok it /\ elements it (map snd out).
Proof.
  intros Ha Hb. apply seq_output; [lia|lia|easy|].
  assert (G : forall i l, (exists st' ds, set_slices (Z.of_nat i) 2 t st = Ok st' /\ m_ds st' t = Ok ds /\ 0 <= mlen ds /\
    outcomes (over (SPrefetch false 1 1) ds) (map Some l)) -> exists p, seq_worker 2 i st t (SPrefetch false 1 1) = Ok p /\ lawful p l true true true).
  { intros i l (st' & ds & E1 & E2 & Hn & Ho). unfold seq_worker. cbn [Nat.eqb]. change (Z.of_nat 2) with 2. rewrite E1. cbn [bind]. rewrite E2. cbn [bind].
    rewrite <- (emitted_some l). apply tree_lawful; [exact Hn|easy| |now left]. unfold outcomes in Ho. exact Ho. }
  intros [|[|[|i]]] l Hl; cbn in Hl; try discriminate; injection Hl as <-; now apply G.
Qed.
Local Ltac workers := do 2 eexists; split; [reflexivity|]; split; [reflexivity|]; split; [cbn; lia|]; unfold outcomes; vm_compute; repeat constructor.
Definition four : list (source_obj Z) := [SourceObj (range_example 4) (range_example 4)].
Definition pf : Stack Z Z := SPrefetch false 1 1.

(** ds[1:3] is 1, 2; two workers give 1, 3, 0, 2. *)
Theorem C58_slice_refuted keep r : exists t, m_slice four (Some 1) (Some 3) None (MSource 0) = Ok t /\
  (exists ds, m_ds four t = Ok ds /\ map (mget ds) (zrange 0 (Z.to_nat (mlen ds))) = [Ok (Some 1); Ok (Some 2)]) /\
  exists it, mp_seq_prefetch 2 1 keep r four t pf = Ok it /\ elements it (map Some [1; 3; 0; 2]).
Proof.
  eexists. split; [reflexivity|]. split; [eexists; split; reflexivity|].
  apply (two_workers keep r four _ (map Some [1; 0]) (map Some [3; 2]) [(0%nat, Some 1); (1%nat, Some 3); (0%nat, Some 0); (1%nat, Some 2)]).
  - workers. - workers. - unfold interleaved, numbered. round_robin.
Qed.
(** ds.repeat(2) of 0, 1, 2, 3 has 8 elements; two workers give 16. *)
Theorem C58_repeat_refuted keep r : exists t, m_repeat four (Some 2) true (MSource 0) = Ok t /\
  (exists ds, m_ds four t = Ok ds /\ map (mget ds) (zrange 0 (Z.to_nat (mlen ds))) = map (fun x => Ok (Some x)) [0; 1; 2; 3; 0; 1; 2; 3]) /\
  exists it, mp_seq_prefetch 2 1 keep r four t pf = Ok it /\ elements it (map Some [0; 2; 1; 3; 0; 2; 1; 3; 0; 2; 1; 3; 0; 2; 1; 3]).
Proof.
  eexists. split; [reflexivity|]. split; [eexists; split; reflexivity|].
  apply (two_workers keep r four _ (map Some [0; 1; 0; 1; 0; 1; 0; 1]) (map Some [2; 3; 2; 3; 2; 3; 2; 3])
    (concat (List.repeat [(0%nat, Some 0); (1%nat, Some 2); (0%nat, Some 1); (1%nat, Some 3)] 4))).
  - workers. - workers. - unfold interleaved, numbered. cbn [List.repeat concat app]. round_robin.
Qed.
(** Batches of 2 of 0, 1, 2, 3: the dataset of every worker still has two batches, but reading the second one fails. *)
Theorem C58_batch_refuted i : i = 0 \/ i = 1 -> exists t, m_batch four false 2 false make_batch (MSource 0) = Ok t /\
  (exists ds, m_ds four t = Ok ds /\ map (mget ds) [0; 1] = [Ok (Some [Some 0; Some 1]); Ok (Some [Some 2; Some 3])]) /\
  exists st' ds', set_slices i 2 t four = Ok st' /\ m_ds st' t = Ok ds' /\ mlen ds' = 2 /\ mget ds' 1 = Raise ValueError.
Proof. intros [->| ->]; (eexists; split; [reflexivity|]; split; [eexists; split; reflexivity|]; do 2 eexists; repeat split). Qed.
(** Concatenating two sources of four elements each: 16 elements come instead of 8. *)
Definition two_sources : list (source_obj Z) := [SourceObj (range_example 4) (range_example 4); RangeObj (fun x => x) 10 14 1 10 14].
Theorem C58_concatenate_refuted keep r : exists t, m_concat two_sources (MSource 0) (MSource 1) = Ok t /\
  (exists ds, m_ds two_sources t = Ok ds /\ map (mget ds) (zrange 0 (Z.to_nat (mlen ds))) = map (fun x => Ok (Some x)) [0; 1; 2; 3; 10; 11; 12; 13]) /\
  exists it, mp_seq_prefetch 2 1 keep r two_sources t pf = Ok it /\ elements it (map Some [0; 2; 1; 3; 0; 2; 1; 3; 10; 12; 11; 13; 10; 12; 11; 13]).
Proof.
  eexists. split; [reflexivity|]. split; [eexists; split; reflexivity|].
  apply (two_workers keep r two_sources _ (map Some [0; 1; 0; 1; 10; 11; 10; 11]) (map Some [2; 3; 2; 3; 12; 13; 12; 13])
    [(0%nat, Some 0); (1%nat, Some 2); (0%nat, Some 1); (1%nat, Some 3); (0%nat, Some 0); (1%nat, Some 2); (0%nat, Some 1); (1%nat, Some 3);
     (0%nat, Some 10); (1%nat, Some 12); (0%nat, Some 11); (1%nat, Some 13); (0%nat, Some 10); (1%nat, Some 12); (0%nat, Some 11); (1%nat, Some 13)]).
  - workers. - workers. - unfold interleaved, numbered. round_robin.
Qed.
(** The same source object twice: it is sliced twice, and the elements 2 and 3 never come. *)
Theorem C58_shared_source_refuted keep r : exists t, m_concat four (MSource 0) (MSource 0) = Ok t /\
  (exists ds, m_ds four t = Ok ds /\ map (mget ds) (zrange 0 (Z.to_nat (mlen ds))) = map (fun x => Ok (Some x)) [0; 1; 2; 3; 0; 1; 2; 3]) /\
  exists it, mp_seq_prefetch 2 1 keep r four t pf = Ok it /\ elements it (concat (List.repeat (map Some [0; 1]) 8)).
Proof.
  eexists. split; [reflexivity|]. split; [eexists; split; reflexivity|].
  apply (two_workers keep r four _ (List.repeat (Some 0) 8) (List.repeat (Some 1) 8) (concat (List.repeat [(0%nat, Some 0); (1%nat, Some 1)] 8))).
  - workers. - workers. - unfold interleaved, numbered. cbn [List.repeat concat app]. round_robin.
Qed.
(** MapDataset.random_map: the workers use the same generators (here 100 + index), for different elements. *)
Definition drawn_map : MTree Z (Z * Z) := MRandomMap (fun x g => Ok (Some (x, g))) (fun i => 100 + i) (MSource 0).
Theorem C58_random_map_refuted keep r :
  (exists ds, m_ds four drawn_map = Ok ds /\ map (mget ds) (zrange 0 (Z.to_nat (mlen ds))) = map (fun x => Ok (Some x)) [(0, 100); (1, 101); (2, 102); (3, 103)]) /\
  exists it, mp_seq_prefetch 2 1 keep r four drawn_map (SPrefetch false 1 1) = Ok it /\ elements it (map Some [(0, 100); (2, 100); (1, 101); (3, 101)]).
Proof.
  split; [eexists; split; reflexivity|].
  apply (two_workers keep r four _ (map Some [(0, 100); (1, 101)]) (map Some [(2, 100); (3, 101)])
    [(0%nat, Some (0, 100)); (1%nat, Some (2, 100)); (0%nat, Some (1, 101)); (1%nat, Some (3, 101))]).
  - workers. - workers. - unfold interleaved, numbered. round_robin.
Qed.
