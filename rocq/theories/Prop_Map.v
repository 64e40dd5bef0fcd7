(** Property theorems about map datasets (C01-C05, C07-C17, C24, C54).  The
    vocabulary of the statements is in Spec.v; [*_ds] are the modelled
    transformations of MapDatasets.v. *)
From Verif Require Import Base IndexShuffle IndexShuffle_proofs Sharding Sharding_proofs MapDatasets Spec
  ListFacts MapSlice_proofs MapShuffle_proofs MapOther_proofs MixSelect_proofs MapBatched_proofs SeedSeq.

(** ** C01: even_split *)
Theorem C01_even_split_covers n k : 0 <= n -> 1 <= k ->
  concat (map (fun i => interval (even_split n (shard i k false))) (zrange 0 (Z.to_nat k)))
  = zrange 0 (Z.to_nat n).
Proof. exact (even_split_cover n k). Qed.

Theorem C01_even_split_sizes n k i j : 0 <= n -> 1 <= k -> 0 <= i <= j -> j < k ->
  let size i := snd (even_split n (shard i k false)) - fst (even_split n (shard i k false)) in
  size j <= size i <= size j + 1.
Proof.
  intros Hn Hk Hi Hj size. unfold size.
  pose proof (even_split_size n k i Hn Hk ltac:(lia)) as H1.
  pose proof (even_split_size n k j Hn Hk ltac:(lia)) as H2.
  destruct (even_split n (shard i k false)), (even_split n (shard j k false)). cbn [fst snd].
  destruct (i <? n mod k) eqn:?, (j <? n mod k) eqn:?; lia.
Qed.

Theorem C01_even_split_drop_remainder n k : 0 <= n -> 1 <= k ->
  concat (map (fun i => interval (even_split n (shard i k true))) (zrange 0 (Z.to_nat k)))
  = zrange 0 (Z.to_nat (n / k * k)) /\
  forall i, 0 <= i < k -> snd (even_split n (shard i k true)) - fst (even_split n (shard i k true)) = n / k.
Proof.
  intros Hn Hk. destruct (even_split_drop n k Hn Hk) as [H1 H2]. split; [exact H1|].
  intros i Hi. specialize (H2 i Hi). destruct (even_split n (shard i k true)). exact H2.
Qed.

(** The options exist exactly for 0 <= index < count. *)
Theorem C01_shard_options i k drop :
  make_shard_options i k drop = (if (0 <=? i) && (i <? k) then Ok (shard i k drop) else Raise ValueError).
Proof.
  unfold make_shard_options, shard.
  destruct (Z.leb_spec k 0), (Z.leb_spec 0 i), (Z.ltb_spec i k), (Z.ltb_spec i 0), (Z.geb_spec i k); try lia; easy.
Qed.

Example C01_example :
  map (fun i => even_split 10 (shard i 4 false)) [0; 1; 2; 3] = [(0, 3); (3, 6); (6, 8); (8, 10)] /\
  map (fun i => even_split 10 (shard i 4 true)) [0; 1; 2; 3] = [(0, 2); (2, 4); (4, 6); (6, 8)].
Proof. split; reflexivity. Qed.

(** ** C02, C03: index_shuffle.  [gen_keys] is the key schedule std::seed_seq, an
    arbitrary function here. *)
Theorem C02_index_shuffle_permutation gen_keys m seed rounds :
  0 <= seed < 2 ^ 32 -> 4 <= rounds <= 1024 -> rounds mod 2 = 0 -> 0 <= m < 2 ^ 63 ->
  (forall k, 16 <= k <= 62 -> k mod 2 = 0 -> m <> 2 ^ k) ->
  Permutation (map (fun i => index_shuffle gen_keys i m seed rounds) (zrange 0 (Z.to_nat (m + 1))))
              (map Ok (zrange 0 (Z.to_nat (m + 1)))).
Proof.
  intros Hs Hr He Hm Hk. apply index_shuffle_permutation; try easy.
  intros (k & Hk1 & Hk2 & ->). now apply (Hk k).
Qed.

(** Finding: for max_index = 2^k, k even and >= 16, indices 0 and max_index collide. *)
Theorem C02_index_shuffle_refuted gen_keys k seed rounds :
  16 <= k <= 62 -> k mod 2 = 0 ->
  index_shuffle gen_keys (2 ^ k) (2 ^ k) seed rounds = index_shuffle gen_keys 0 (2 ^ k) seed rounds.
Proof. exact (index_shuffle_collision gen_keys k seed rounds). Qed.

(** With the real key schedule. *)
Example C02_example :
  map (fun i => index_shuffle generate_keys i 60000 42 4) [0; 1; 2; 60000] = map Ok [43043; 24683; 1195; 37922].
Proof. vm_compute. reflexivity. Qed.

Theorem C03_index_shuffle_terminates gen_keys index m seed rounds :
  0 <= seed < 2 ^ 32 -> 4 <= rounds <= 1024 -> rounds mod 2 = 0 -> 0 <= index <= m -> m < 2 ^ 63 ->
  exists y, index_shuffle gen_keys index m seed rounds = Ok y /\ 0 <= y <= m.
Proof. exact (index_shuffle_valid gen_keys index m seed rounds). Qed.

Theorem C03_index_shuffle_rejects gen_keys index m seed rounds :
  0 <= seed < 2 ^ 32 ->
  rounds < 4 \/ rounds > 1024 \/ rounds mod 2 <> 0 \/ index < 0 \/ index > m ->
  index_shuffle gen_keys index m seed rounds = Raise ValueError.
Proof. exact (index_shuffle_invalid gen_keys index m seed rounds). Qed.

(** ** C04: shuffle *)
Theorem C04_shuffle_permutes_each_epoch {A} gen_keys seed (p q : MapDs A) e :
  1 <= mlen p <= 2 ^ 63 ->
  (forall k, 16 <= k <= 62 -> k mod 2 = 0 -> mlen p - 1 <> 2 ^ k) ->
  shuffle_ds gen_keys seed p = Ok q ->
  mlen q = mlen p /\ Permutation (epoch q e) (epoch p e).
Proof.
  intros HL Hk. apply shuffle_epoch_permutation; [easy|].
  intros (k & Hk1 & Hk2 & E). now apply (Hk k).
Qed.

Theorem C04_shuffle_seed_range {A} gen_keys seed (p : MapDs A) :
  (exists q, shuffle_ds gen_keys seed p = Ok q) <-> 0 <= seed < 2 ^ 32.
Proof.
  unfold shuffle_ds. destruct ((seed <? 0) || (seed >=? 2 ^ 32)) eqn:E; split.
  - intros (q & Hq). easy.
  - intros H. lia.
  - intros _. lia.
  - intros _. eauto.
Qed.

(** Finding: an element of a dataset of 2^k + 1 distinct elements is lost, for
    every seed and epoch. *)
Theorem C04_shuffle_refuted {A} gen_keys k seed (p q : MapDs A) e :
  16 <= k <= 62 -> k mod 2 = 0 -> mlen p = 2 ^ k + 1 -> NoDup (epoch p e) ->
  shuffle_ds gen_keys seed p = Ok q -> ~ Permutation (epoch q e) (epoch p e).
Proof. exact (shuffle_bad_size_refuted gen_keys k seed p q e). Qed.

Example C04_example : exists q, shuffle_ds generate_keys 42 (range_example 60001) = Ok q /\
  map (mget q) [0; 1; 60001] = map (fun x => Ok (Some x)) [43043; 24683; 32171] /\
  Permutation (epoch q 0) (epoch (range_example 60001) 0).
Proof.
  eexists. split; [reflexivity|]. split; [vm_compute; reflexivity|].
  apply (C04_shuffle_permutes_each_epoch generate_keys 42 (range_example 60001)); [| |reflexivity].
  - rewrite range_example_len; lia.
  - intros k Hk _. rewrite range_example_len by lia. intros E.
    destruct (Z.eq_dec k 16) as [->|]; [easy|].
    assert (2 ^ 17 <= 2 ^ k) by (apply Z.pow_le_mono_r; lia). lia.
Qed.
Example C04_refuted_example : exists q, shuffle_ds generate_keys 42 (range_example 65537) = Ok q /\
  ~ Permutation (epoch q 0) (epoch (range_example 65537) 0).
Proof.
  eexists. split; [reflexivity|].
  apply (C04_shuffle_refuted generate_keys 16 42); [lia|reflexivity| |apply range_example_NoDup; lia|reflexivity].
  now rewrite range_example_len.
Qed.

(** ** C05: window shuffle on a MapDataset *)
Theorem C05_window_permuted gen_keys w seed i :
  1 <= w <= 2 ^ 63 -> (forall k, 16 <= k <= 62 -> k mod 2 = 0 -> w - 1 <> 2 ^ k) -> 0 <= seed + i < 2 ^ 32 ->
  Permutation (map (window_shuffled_index gen_keys w seed) (zrange (i * w) (Z.to_nat w)))
              (map Ok (zrange (i * w) (Z.to_nat w))).
Proof.
  intros Hw Hk. apply window_permutation; [easy|]. intros (k & Hk1 & Hk2 & E). now apply (Hk k).
Qed.

Theorem C05_window_shuffle_epoch {A} gen_keys w seed (p : MapDs A) e :
  1 <= w <= 2 ^ 63 -> (forall k, 16 <= k <= 62 -> k mod 2 = 0 -> w - 1 <> 2 ^ k) ->
  0 <= mlen p -> mlen p mod w = 0 -> 0 <= e -> 0 <= seed -> seed + (e + 1) * (mlen p / w) <= 2 ^ 32 ->
  Permutation (epoch (window_shuffle_ds gen_keys w seed p) e) (epoch p e).
Proof.
  intros Hw Hk. apply window_shuffle_epoch; [easy|]. intros (k & Hk1 & Hk2 & E). now apply (Hk k).
Qed.

(** Finding: the seed of a window is not reduced modulo 2^32. *)
Theorem C05_window_seed_overflow {A} gen_keys w seed (p : MapDs A) i :
  0 < w -> 2 ^ 32 <= seed + i / w ->
  mget (window_shuffle_ds gen_keys w seed p) i = Raise TypeError.
Proof.
  intros Hw Hs. cbn [mget window_shuffle_ds]. unfold window_shuffled_index, pydivmod.
  destruct (Z.eqb_spec w 0); [lia|]. cbn [bind]. unfold index_shuffle.
  destruct (Z.geb_spec (seed + i / w) (2 ^ 32)); [|lia]. now rewrite orb_true_r.
Qed.

(** Finding: when the window size does not divide the length the incomplete
    window reads elements of the next epoch. *)
Theorem C05_window_shuffle_refuted : exists w seed (p : MapDs Z),
  0 < w <= mlen p /\ NoDup (epoch p 0) /\
  ~ Permutation (epoch (window_shuffle_ds generate_keys w seed p) 0) (epoch p 0).
Proof.
  exists 40000, 42, (range_example 60000).
  pose proof (range_example_len 60000 ltac:(lia)) as HL.
  pose proof (range_example_NoDup 60000 ltac:(lia)) as Hnd.
  split; [lia|]. split; [exact Hnd|].
  apply (duplicate_not_permutation _ _ 0 40000 19760); [reflexivity| | |lia| |exact Hnd];
    cbn [mlen mget window_shuffle_ds]; rewrite HL; try lia.
  change (0 * 60000 + 40000) with 40000. change (0 * 60000 + 19760) with 19760.
  assert (window_shuffled_index generate_keys 40000 42 40000 = Ok 72171) as -> by (vm_compute; reflexivity).
  assert (window_shuffled_index generate_keys 40000 42 19760 = Ok 12171) as -> by (vm_compute; reflexivity).
  cbn [bind]. rewrite !range_example_get by lia. reflexivity.
Qed.

Example C05_example :
  map (mget (window_shuffle_ds generate_keys 40000 42 (range_example 80000))) [40000; 19760] =
    [Ok (Some 72171); Ok (Some 12171)] /\
  Permutation (epoch (window_shuffle_ds generate_keys 40000 42 (range_example 80000)) 0)
              (epoch (range_example 80000) 0).
Proof.
  split; [vm_compute; reflexivity|].
  apply C05_window_shuffle_epoch; rewrite ?range_example_len by lia; try lia.
  intros k Hk _ E. destruct (Z.eq_dec k 16) as [->|]; [easy|].
  assert (2 ^ 17 <= 2 ^ k) by (apply Z.pow_le_mono_r; lia). lia.
Qed.

(** ** C07: slices *)
Theorem C07_slice_is_python_slice {A} start stop step (p q : MapDs A) e :
  0 <= mlen p -> slice_ds start stop step p = Ok q ->
  mlen q = Z.of_nat (length (py_slice (mlen p) start stop step)) /\
  epoch q e = map (fun i => mget p (e * mlen p + i)) (py_slice (mlen p) start stop step).
Proof. exact (slice_epoch start stop step p q e). Qed.

Theorem C07_slice_total {A} start stop step (p : MapDs A) :
  step <> Some 0 <-> exists q, slice_ds start stop step p = Ok q.
Proof. exact (slice_valid start stop step p). Qed.

Theorem C07_reindex {A} indices (p : MapDs A) e :
  mlen (reindex_ds indices p) = Z.of_nat (length indices) /\
  epoch (reindex_ds indices p) e = map (fun i => mget p (e * mlen p + i)) indices.
Proof. exact (reindex_epoch indices p e). Qed.

(** The specification agrees with the values printed by CPython. *)
Example C07_example :
  py_slice 10 (Some 1) (Some 8) (Some 3) = [1; 4; 7] /\
  py_slice 10 (Some (-3)) None (Some (-2)) = [7; 5; 3; 1] /\
  py_slice 5 None None (Some (-1)) = [4; 3; 2; 1; 0] /\
  py_slice 5 (Some (-2)) None None = [3; 4] /\ py_slice 5 (Some 4) (Some 2) None = [].
Proof. repeat split. Qed.
Example C07_slice_example : exists q, slice_ds (Some 1) None (Some 2) (range_example 5) = Ok q /\
  epoch q 0 = [Ok (Some 1); Ok (Some 3)].
Proof. eexists. split; reflexivity. Qed.

(** ** C08: strided shards *)
Theorem C08_shards_partition {A} k (ds : MapDs A) ss e :
  1 <= k -> 0 <= mlen ds -> shards k ds ss ->
  Permutation (concat (map (fun s => epoch s e) ss)) (epoch ds e).
Proof. exact (shards_partition k ds ss e). Qed.

Theorem C08_shards_round_robin {A} k (ds : MapDs A) ss j :
  1 <= k -> shards k ds ss -> 0 <= j < mlen ds ->
  exists s, nth_error ss (Z.to_nat (j mod k)) = Some s /\ mget s (j / k) = mget ds j /\ j / k < mlen s.
Proof. exact (shards_round_robin k ds ss j). Qed.

Theorem C08_shards_exist {A} k (ds : MapDs A) : 1 <= k -> exists ss, shards k ds ss.
Proof. exact (shards_exist k ds). Qed.

Example C08_example :
  let ss := map (fun i => match slice_ds (Some i) None (Some 3) (range_example 7) with
                          | Ok s => s | _ => range_example 0 end) [0; 1; 2] in
  shards 3 (range_example 7) ss /\
  map (fun s => epoch s 0) ss =
    [[Ok (Some 0); Ok (Some 3); Ok (Some 6)]; [Ok (Some 1); Ok (Some 4)]; [Ok (Some 2); Ok (Some 5)]].
Proof. split; reflexivity. Qed.

(** ** C09: repeat *)
Theorem C09_repeat_epochs {A} n reseed (p q : MapDs A) e :
  0 <= mlen p -> repeat_ds (Some n) reseed p = Ok q ->
  mlen q = n * mlen p /\
  epoch q e = concat (map (fun j => epoch p (if reseed then j else 0)) (zrange (e * n) (Z.to_nat n))).
Proof.
  intros Hp H. split; [now apply repeat_inv in H as ([_ ->] & _)|]. now apply repeat_epochs.
Qed.

Theorem C09_repeat_index {A} n reseed (p q : MapDs A) i :
  0 < mlen p -> repeat_ds n reseed p = Ok q ->
  mget q i = mget p (if reseed then i else i mod mlen p) /\
  (n = None -> mlen q = maxsize).
Proof.
  intros Hp H. apply repeat_inv in H as (HL & _ & Ht & Hf); [|lia]. split.
  - destruct reseed; [now apply Ht|now apply Hf].
  - intros ->. destruct (Z.eqb_spec (mlen p) 0); [lia|easy].
Qed.

Example C09_example : exists q, repeat_ds (Some 3) true (range_example 2) = Ok q /\
  epoch q 0 = [Ok (Some 0); Ok (Some 1); Ok (Some 0); Ok (Some 1); Ok (Some 0); Ok (Some 1)].
Proof. eexists. split; reflexivity. Qed.

(** ** C10: concatenate *)
Theorem C10_concatenate {A} (ps : list (MapDs A)) q e :
  (forall p, In p ps -> 0 <= mlen p) -> concatenate_ds ps = Ok q ->
  mlen q = sumZ (map mlen ps) /\ epoch q e = concat (map (fun p => epoch p e) ps).
Proof. exact (concatenate_epoch ps q e). Qed.

Theorem C10_concatenate_total {A} (ps : list (MapDs A)) :
  (forall p, In p ps -> mlen p < maxsize) <-> exists q, concatenate_ds ps = Ok q.
Proof. exact (concatenate_valid ps). Qed.

Example C10_example : exists q, concatenate_ds [range_example 2; range_example 0; range_example 3] = Ok q /\
  epoch q 0 = [Ok (Some 0); Ok (Some 1); Ok (Some 0); Ok (Some 1); Ok (Some 2)] /\ epoch q 1 = epoch q 0.
Proof. eexists. split; [|split]; reflexivity. Qed.

(** ** C11-C13: mix *)
Lemma keys_out_of_range ps (picks : list (Z * Z)) c :
  (forall dk, In dk picks -> 0 <= fst dk < Z.of_nat (length (ps : list Z))) ->
  ~ 0 <= c < Z.of_nat (length ps) -> keys_of c picks = [].
Proof.
  intros H Hc. unfold keys_of. induction picks as [|dk picks IH]; [easy|]. cbn [filter].
  pose proof (H dk (or_introl eq_refl)). destruct (Z.eqb_spec (fst dk) c); [lia|].
  apply IH. intros; apply H; now right.
Qed.

(** Whatever component the mixture reads at step k, it reads the element after
    the ones it has already read from it. *)
Theorem C11_mix_reads_in_order {A} (parents : list (MapDs A)) proportions q n :
  (forall w, In w proportions -> 0 < w) -> mix_ds parents proportions = Ok q ->
  exists picks,
    map (mget q) (zrange 0 n) =
      map (fun dk => match nth_error parents (Z.to_nat (fst dk)) with
                     | Some p => mget p (snd dk) | None => Raise IndexError end) picks /\
    (forall dk, In dk picks -> 0 <= fst dk < Z.of_nat (length parents)) /\
    forall c, keys_of c picks = zrange 0 (length (keys_of c picks)).
Proof.
  intros Hpos H. unfold mix_ds in H. apply bind_Ok_iff in H as (sel & Hs & H). injection H as <-.
  apply proportions_map_inv in Hs as (_ & Hlen & _ & Hne & Hget & _).
  rewrite map_length in Hlen.
  destruct (picks_spec proportions n Hpos Hne) as (picks & Hp & Hin & Hk).
  exists picks. split; [|split].
  - cbn [mget mixed_ds].
    assert (forall l ps, map (fun k => dataset_and_key k proportions) l = map Ok ps ->
       (forall dk, In dk ps -> 0 <= fst dk < Z.of_nat (length proportions)) ->
       map (fun i => let! dk := sel_get sel i in let! p := pyindex parents (fst dk) in mget p (snd dk)) l =
       map (fun dk => match nth_error parents (Z.to_nat (fst dk)) with
                     | Some p => mget p (snd dk) | None => Raise IndexError end) ps) as Hgen; [|now apply Hgen].
    induction l as [|k l IH]; intros [|dk ps] Hl Hr; try easy. cbn [map] in *. injection Hl as Hk0 Hl.
    f_equal; [|apply IH; [easy|intros; apply Hr; now right]].
    rewrite Hget, Hk0. cbn [bind]. unfold pyindex. pose proof (Hr dk (or_introl eq_refl)).
    destruct (Z.ltb_spec (fst dk) 0); [lia|]. destruct (nth_error parents _); easy.
  - now rewrite Hlen.
  - intros c. destruct (Z_lt_dec c 0); [now rewrite (keys_out_of_range proportions) by (easy || lia)|].
    destruct (Z_lt_dec c (Z.of_nat (length proportions))).
    + destruct (Hk (Z.to_nat c) ltac:(lia)) as [_ Hc]. now rewrite Z2Nat.id in Hc by lia.
    + now rewrite (keys_out_of_range proportions) by (easy || lia).
Qed.

(** No component is read past its end within the mixture's length. *)
Theorem C11_mix_stays_inside (lens proportions : list Z) sel k c key len :
  (forall w, In w proportions -> 0 < w) -> proportions_map lens proportions = Ok sel ->
  0 <= k < sel_len sel -> sel_get sel k = Ok (c, key) -> nth_error lens (Z.to_nat c) = Some len ->
  0 <= key < len.
Proof.
  intros Hpos Hs Hk Hget Hlen.
  apply proportions_map_inv in Hs as (_ & Hl & _ & Hne & Hg & _ & Hle & _). rewrite Hg in Hget.
  destruct (loop_spec proportions Hpos Hne 0 k) as (j & cnt & Hj & Hloop & _).
  unfold dataset_and_key in Hget. rewrite Hloop in Hget. injection Hget as <- <-.
  change (0 + Z.of_nat j) with (Z.of_nat j) in Hlen. rewrite Nat2Z.id in Hlen.
  assert (j < length proportions)%nat as Hjl.
  { rewrite <- (counts_length k (zsum proportions)). apply nth_error_Some. now rewrite Hj. }
  destruct (nth_error proportions j) as [w|] eqn:Hw; [|apply nth_error_None in Hw; lia].
  assert (0 < w) by (apply Hpos; now apply nth_error_In in Hw).
  split; [eapply (counts_nonneg proportions k); eauto; lia|].
  eapply (mix_key_bound proportions k j w len Hpos Hw).
  - specialize (Hle j len w Hlen Hw).
    assert (k + 1 <= len * zsum proportions / w) by lia.
    apply Z.le_trans with (len * zsum proportions / w * w); [nia|]. rewrite Z.mul_comm. apply Z.mul_div_le. lia.
  - unfold dataset_and_key. rewrite Hloop. f_equal.
Qed.

(** After n steps component c has been read n * w_c / W times, up to a constant. *)
Theorem C12_mix_proportions_prefix (lens proportions : list Z) sel n picks c w :
  (forall w, In w proportions -> 0 < w) -> proportions_map lens proportions = Ok sel ->
  map (sel_get sel) (zrange 0 n) = map Ok picks -> nth_error proportions (Z.to_nat c) = Some w -> 0 <= c ->
  let W := sumZ proportions in
  Z.of_nat n * w - c * W <= Z.of_nat (length (keys_of c picks)) * W < Z.of_nat n * w + W.
Proof.
  intros Hpos Hs Hp Hw Hc W.
  apply proportions_map_inv in Hs as (_ & Hl & _ & Hne & Hg & _).
  destruct (picks_spec proportions n Hpos Hne) as (picks' & Hp' & Hin & Hk).
  assert (picks' = picks) as ->.
  { rewrite (map_ext _ _ Hg) in Hp. rewrite Hp in Hp'. now apply map_Ok_inj in Hp'. }
  assert (Z.to_nat c < length proportions)%nat as Hcl by (apply nth_error_Some; now rewrite Hw).
  destruct (Hk _ Hcl) as [Hcnt _]. rewrite Z2Nat.id in Hcnt by lia.
  pose proof (counts_bounds proportions Hpos _ _ _ _ Hcnt Hw) as Hb. rewrite Z2Nat.id in Hb by lia. exact Hb.
Qed.

(** Over any W consecutive steps component c is read exactly w_c times. *)
Theorem C12_mix_proportions_period (lens proportions : list Z) sel a picks c w :
  (forall w, In w proportions -> 0 < w) -> proportions_map lens proportions = Ok sel ->
  0 <= a -> map (sel_get sel) (zrange a (Z.to_nat (sumZ proportions))) = map Ok picks ->
  nth_error proportions (Z.to_nat c) = Some w -> 0 <= c ->
  Z.of_nat (length (keys_of c picks)) = w.
Proof.
  intros Hpos Hs Ha Hp Hw Hc.
  apply proportions_map_inv in Hs as (_ & Hl & _ & Hne & Hg & _).
  rewrite (map_ext _ _ Hg) in Hp. change (sumZ proportions) with (zsum proportions) in Hp.
  pose proof (zsum_pos proportions Hpos Hne) as HW.
  destruct (picks_spec proportions (Z.to_nat a) Hpos Hne) as (p1 & Hp1 & _ & Hk1).
  destruct (picks_spec proportions (Z.to_nat a + Z.to_nat (zsum proportions)) Hpos Hne) as (p2 & Hp2 & _ & Hk2).
  assert (p2 = p1 ++ picks) as ->.
  { rewrite zrange_app, map_app, Hp1 in Hp2. replace (0 + Z.of_nat (Z.to_nat a)) with a in Hp2 by lia.
    rewrite Hp, <- map_app in Hp2. now apply map_Ok_inj in Hp2. }
  assert (Z.to_nat c < length proportions)%nat as Hcl by (apply nth_error_Some; now rewrite Hw).
  destruct (Hk1 _ Hcl) as [H1 _]. destruct (Hk2 _ Hcl) as [H2 _].
  rewrite keys_of_app, app_length in H2. rewrite !(Z2Nat.id c) in H1 by lia. rewrite !(Z2Nat.id c) in H2 by lia.
  replace (Z.of_nat (Z.to_nat a + Z.to_nat (zsum proportions))) with (a + zsum proportions) in H2 by lia.
  replace (Z.of_nat (Z.to_nat a)) with a in H1 by lia.
  rewrite counts_period, nth_error_map in H2 by easy.
  assert (nth_error (combine (counts a (zsum proportions) proportions) proportions) (Z.to_nat c) =
    Some (Z.of_nat (length (keys_of c p1)), w)) as Hcomb.
  { clear - H1 Hw. revert H1 Hw. generalize (counts a (zsum proportions) proportions) as l.
    generalize (Z.of_nat (length (keys_of c p1))) as cnt. generalize (Z.to_nat c) as i. clear.
    intros i cnt l. revert i proportions.
    induction l as [|x l IH]; intros [|i] [|y ps] H1 H2; cbn in *; try easy.
    - congruence.
    - now apply IH. }
  rewrite Hcomb in H2. cbn [option_map fst snd] in H2. injection H2 as H2. lia.
Qed.

Theorem C13_mix_always_selects proportions k :
  (forall w, In w proportions -> 0 < w) -> proportions <> [] ->
  exists d key, dataset_and_key k proportions = Ok (d, key) /\ 0 <= d < Z.of_nat (length proportions).
Proof. exact (dataset_and_key_total proportions k). Qed.

Theorem C13_mix_constructible (lens proportions : list Z) :
  proportions <> [] -> length lens = length proportions ->
  (forall w, In w proportions -> 0 < w) -> (forall l, In l lens -> 0 < l) ->
  exists sel, proportions_map lens proportions = Ok sel /\ 0 < sel_len sel.
Proof.
  intros Hne Hlen Hpos Hl. 
  assert (forall l, (forall x, In x l -> 0 < x) -> existsb (Z.eqb 0) l = false) as Hex.
  { intros l H. destruct (existsb _ l) eqn:E; [|easy]. apply existsb_exists in E as (x & Hx & Hx0).
    specialize (H x Hx). lia. }
  assert (exists sel, proportions_map lens proportions = Ok sel) as (sel & Hs).
  { unfold proportions_map. rewrite !Hex by easy. rewrite Hlen, Nat.eqb_refl. cbn [negb].
    destruct lens as [|l0 lens], proportions as [|p0 ps]; try easy. cbn. eauto. }
  exists sel. split; [easy|].
  apply proportions_map_inv in Hs as (_ & _ & _ & _ & _ & _ & _ & [->|(j & l & p & Hj & Hp & ->)]); [easy|].
  apply nth_error_In in Hj as Hj', Hp as Hp'. specialize (Hl _ Hj'). specialize (Hpos _ Hp') as Hp0.
  assert (p <= zsum proportions).
  { clear - Hpos Hp. revert j Hp. induction proportions as [|x ps IH]; intros [|j] Hp; try easy; cbn in *; fold (zsum ps) in *.
    - injection Hp as ->. assert (0 <= zsum ps) by (apply zsum_nonneg; intros; apply Hpos; now right). lia.
    - pose proof (Hpos x (or_introl eq_refl)). assert (p <= zsum ps); [|lia].
      apply (IH (fun w Hw => Hpos w (or_intror Hw)) j Hp). }
  apply Z.div_str_pos. nia.
Qed.

Example C11_example : exists q, mix_ds [range_example 10; range_example 10] [2; 1] = Ok q /\
  map (mget q) (zrange 0 6) = map (fun x => Ok (Some x)) [0; 1; 0; 2; 3; 1].
Proof. eexists. split; reflexivity. Qed.

(** ** C14: batch *)
Theorem C14_batch {A B} gen_keys pushdown b drop (fn : list (option A) -> res B) (p : MapDs A) q e vs :
  pipeline gen_keys A p -> 0 <= mlen p ->
  batch_ds pushdown b drop fn p = Ok q -> epoch p e = map Ok vs ->
  let groups := (if drop then full_chunks else chunks) (Z.to_nat b) vs in
  mlen q = Z.of_nat (length groups) /\
  epoch q e = map (fun c => let! v := fn c in Ok (Some v)) groups.
Proof.
  intros Hp Hn Hq He. apply pipeline_batched in Hp.
  destruct (batch_epoch pushdown b drop fn p q e vs Hp Hn Hq He) as (_ & H1 & H2). split; [exact H1|exact H2].
Qed.

(** What the groups are: consecutive, of size b but for the last, nothing lost. *)
Theorem C14_groups_concat {A} b (l : list A) : (0 < b)%nat ->
  concat (chunks b l) = l /\ concat (full_chunks b l) = firstn (length l / b * b) l.
Proof. intros Hb. split; [now apply chunks_concat|now apply full_chunks_concat]. Qed.

Theorem C14_groups_sizes {A} b (l : list A) j c : (0 < b)%nat ->
  nth_error (chunks b l) j = Some c ->
  ((S j < length (chunks b l))%nat -> length c = b) /\ (0 < length c <= b)%nat.
Proof. intros Hb. now apply chunks_sizes. Qed.

Theorem C14_full_groups_sizes {A} b (l : list A) c : In c (full_chunks b l) -> length c = b.
Proof. intros H. unfold full_chunks in H. apply filter_In in H as [_ H]. now apply Nat.eqb_eq. Qed.

Theorem C14_batch_valid {A B} pushdown b drop (fn : list (option A) -> res B) (p : MapDs A) :
  1 <= b <-> exists q, batch_ds pushdown b drop fn p = Ok q.
Proof.
  unfold batch_ds. destruct (Z.leb_spec b 0); split.
  - lia.
  - intros (q & Hq). easy.
  - eauto.
  - lia.
Qed.

Example C14_example : exists q, batch_ds true 2 false make_batch (range_example 5) = Ok q /\
  epoch q 0 = [Ok (Some [Some 0; Some 1]); Ok (Some [Some 2; Some 3]); Ok (Some [Some 4])] /\
  pipeline generate_keys Z (range_example 5).
Proof. eexists. split; [reflexivity|]. split; [reflexivity|]. now apply (p_range _ 5 None 1). Qed.

(** ** C15: zip *)
Theorem C15_zip {A} (ps : list (MapDs A)) q : zip_ds ps = Ok q ->
  (forall p, In p ps -> mlen p = mlen q) /\
  (forall i es, mget q i = Ok (Some es) <-> map (fun p => mget p i) ps = map Ok es) /\
  (forall i, mget q i <> Ok None).
Proof. exact (zip_inv ps q). Qed.

Theorem C15_zip_valid {A} (ps : list (MapDs A)) :
  (ps <> [] /\ forall p p', In p ps -> In p' ps -> mlen p = mlen p') <-> exists q, zip_ds ps = Ok q.
Proof. exact (zip_valid ps). Qed.

Example C15_example : exists q, zip_ds [range_example 2; map_ds (fun x => Ok (Some (x * 10))) (range_example 2)] = Ok q /\
  epoch q 0 = [Ok (Some [Some 0; Some 0]); Ok (Some [Some 1; Some 10])].
Proof. eexists. split; reflexivity. Qed.

(** ** C16: flat_map *)
Theorem C16_flat_map {A B} m (f : A -> res (list (option B))) (g : A -> list B) (p : MapDs A) e vs :
  1 <= m -> 0 <= mlen p -> mlen p * m < maxsize -> epoch p e = map Ok vs ->
  (forall x, In (Some x) vs -> f x = Ok (map Some (g x)) /\ Z.of_nat (length (g x)) <= m) ->
  mlen (flat_map_ds m f p) = mlen p * m /\
  exists ws, epoch (flat_map_ds m f p) e = map Ok ws /\ somes ws = flat_map g (somes vs).
Proof.
  intros Hm Hp Hmax He Hg. destruct (flat_map_epoch m f g p e vs Hm Hp Hmax He Hg) as (H1 & H2 & H3).
  split; [exact H1|]. eauto.
Qed.

Theorem C16_flat_map_position {A B} m (f : A -> res (list (option B))) (p : MapDs A) i j x splits :
  0 <= j < m -> mget p i = Ok (Some x) -> f x = Ok splits ->
  mget (flat_map_ds m f p) (i * m + j) =
    if Z.of_nat (length splits) >? m then Raise ValueError
    else Ok (match nth_error splits (Z.to_nat j) with Some y => y | None => None end).
Proof. exact (flat_map_get m f p i j x splits). Qed.

Example C16_example :
  epoch (flat_map_ds 3 (fun x => Ok (map Some (List.repeat x (Z.to_nat x)))) (range_example 3)) 0 =
  map Ok [None; None; None; Some 1; None; None; Some 2; Some 2; None].
Proof. reflexivity. Qed.

(** ** C17: batched reads *)
Theorem C17_batched_reads gen_keys A (ds : MapDs A) indices vs :
  pipeline gen_keys A ds ->
  (mgetitems ds indices = Ok vs <-> map (mget ds) indices = map Ok vs).
Proof. intros H. now apply (pipeline_batched gen_keys). Qed.

Definition get_ok {A} (d : A) (r : res A) : A := match r with Ok a => a | _ => d end.
Definition C17_a := get_ok (range_example 0) (repeat_ds (Some 2) true (range_example 5)).
Definition C17_b := get_ok (range_example 0) (slice_ds None None (Some (-1)) (range_example 4)).
Definition C17_parents := [C17_a; C17_b; map_ds (fun x => Ok (Some (x + 100))) (range_example 3)].
Definition C17_c := get_ok (range_example 0) (mix_ds C17_parents [2; 1; 1]).
Example C17_example : pipeline generate_keys Z C17_c /\
  mgetitems C17_c [5; 0; 7; 2; 0; 3] = Ok (map Some [2; 0; 101; 1; 0; 100]).
Proof.
  split; [|vm_compute; reflexivity].
  assert (forall n, pipeline generate_keys Z (range_example n)) as Hr by (intros n; now apply (p_range _ n None 1)).
  apply (p_mix _ _ C17_parents [2; 1; 1]); [|reflexivity]. intros p [<-|[<-|[<-|[]]]].
  - now apply (p_repeat _ _ (Some 2) true (range_example 5)).
  - now apply (p_slice _ _ None None (Some (-1)) (range_example 4)).
  - now apply p_map.
Qed.

(** ** C24: batch_and_pad *)
Theorem C24_batch_and_pad {A} b (pad : A) values :
  batch_and_pad b pad values =
    if (1 <=? Z.of_nat (length values)) && (Z.of_nat (length values) <=? b)
    then Ok (values ++ List.repeat pad (Z.to_nat b - length values))
    else Raise ValueError.
Proof. exact (batch_and_pad_spec b pad values). Qed.

Theorem C24_batch_and_pad_size {A} b (pad : A) values rows :
  batch_and_pad b pad values = Ok rows ->
  Z.of_nat (length rows) = b /\ firstn (length values) rows = values /\
  forall i, (length values <= i < length rows)%nat -> nth_error rows i = Some pad.
Proof.
  rewrite batch_and_pad_spec. destruct (_ && _) eqn:E; [|easy]. intros [= <-].
  rewrite app_length, repeat_length. split; [lia|]. split.
  - rewrite firstn_app, Nat.sub_diag. cbn. now rewrite firstn_all, app_nil_r.
  - intros i Hi. rewrite nth_error_app2 by lia. apply nth_error_repeat. lia.
Qed.

Example C24_example : batch_and_pad 4 0 [7; 8; 9] = Ok [7; 8; 9; 0].
Proof. reflexivity. Qed.

(** ** C54: ranges *)
Theorem C54_range_dataset start stop step q e :
  range_ds start stop step = Ok q ->
  let l := match stop with None => py_range 0 start step | Some s => py_range start s step end in
  mlen q = Z.of_nat (length l) /\ epoch q e = map (fun x => Ok (Some x)) l.
Proof. exact (range_ds_epoch start stop step q e). Qed.

Theorem C54_range_source start stop step : step <> 0 ->
  match range_source start stop step with
  | Ok (len, get) =>
      len = Z.of_nat (length (py_range start stop step)) /\
      forall k, get k = if k <? 0 then Raise IndexError else pyindex (py_range start stop step) k
  | r => r = Raise AssertionError /\ py_range start stop step = []
  end.
Proof. exact (range_source_spec start stop step). Qed.

Theorem C54_range_worker_slices start stop step k ds : step <> 0 -> 1 <= k ->
  map (fun w => range_set_slice start stop step w k) (zrange 0 (Z.to_nat k)) = map Ok ds ->
  concat (map (fun d => epoch d 0) ds) = map (fun x => Ok (Some x)) (py_range start stop step).
Proof. exact (range_slices start stop step k ds). Qed.

Theorem C54_range_worker_slices_exist start stop step w k : step <> 0 -> 0 <= w < k ->
  exists d, range_set_slice start stop step w k = Ok d.
Proof. exact (range_set_slice_valid start stop step w k). Qed.

Example C54_example : py_range 1 10 4 = [1; 5; 9] /\ py_range 5 (-4) (-3) = [5; 2; -1] /\ py_range 3 3 1 = [].
Proof. repeat split. Qed.
