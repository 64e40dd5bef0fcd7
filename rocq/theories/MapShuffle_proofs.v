From Verif Require Import Base IndexShuffle IndexShuffle_proofs MapDatasets Spec ListFacts MapSlice_proofs.

Lemma zrange_shift a n : zrange a n = map (fun i => a + i) (zrange 0 n).
Proof. unfold zrange. rewrite map_map. now apply map_ext. Qed.

Section Shuffle.
  Context (gen_keys : Z -> Z -> list Z).

  Lemma shuffled_index_permutation L seed e :
    1 <= L <= 2 ^ 63 -> ~ bad_size (L - 1) ->
    Permutation (map (shuffled_index gen_keys L seed) (zrange (e * L) (Z.to_nat L)))
                (map Ok (zrange (e * L) (Z.to_nat L))).
  Proof.
    intros HL Hbad.
    pose proof (index_shuffle_permutation gen_keys (L - 1) ((seed + e) mod 2 ^ 32) 4
      ltac:(apply Z.mod_pos_bound; lia) ltac:(lia) ltac:(easy) ltac:(lia) Hbad) as HP.
    unfold shuffled in HP. replace (L - 1 + 1) with L in HP by lia.
    apply Permutation_map with (f := fun r => let! s := r in Ok (s + e * L)) in HP.
    rewrite !map_map in HP. cbn [bind] in HP.
    rewrite (zrange_shift (e * L)), !map_map.
    rewrite (map_ext_in (fun x => shuffled_index gen_keys L seed (e * L + x))
      (fun x => bind (index_shuffle gen_keys x (L - 1) ((seed + e) mod 2 ^ 32) 4) (fun s => Ok (s + e * L)))).
    - rewrite HP. apply Permutation_refl'. apply map_ext. intros. f_equal. lia.
    - intros x Hx. apply in_zrange in Hx. unfold shuffled_index.
      rewrite divmod_epoch by lia. reflexivity.
  Qed.

  Lemma shuffle_epoch_permutation {A} seed (p q : MapDs A) e :
    1 <= mlen p <= 2 ^ 63 -> ~ bad_size (mlen p - 1) ->
    shuffle_ds gen_keys seed p = Ok q ->
    mlen q = mlen p /\ Permutation (epoch q e) (epoch p e).
  Proof.
    intros HL Hbad H. unfold shuffle_ds in H.
    destruct ((seed <? 0) || (seed >=? 2 ^ 32)); [easy|]. cbv zeta in H. injection H as <-.
    split; [easy|]. unfold epoch; cbn [mlen mget].
    pose proof (shuffled_index_permutation (mlen p) seed e HL Hbad) as HP.
    apply Permutation_map with (f := fun r => let! j := r in mget p j) in HP.
    rewrite !map_map in HP. exact HP.
  Qed.

  (** The order used in epoch [e] only depends on seed + e modulo 2^32. *)
  Lemma shuffled_index_seed L seed e e' r : 0 <= r < L -> (e - e') mod 2 ^ 32 = 0 ->
    exists x, shuffled_index gen_keys L seed (e * L + r) = (let! s := x in Ok (s + e * L)) /\
              shuffled_index gen_keys L seed (e' * L + r) = (let! s := x in Ok (s + e' * L)).
  Proof.
    intros Hr He. exists (index_shuffle gen_keys r (L - 1) ((seed + e) mod 2 ^ 32) 4).
    unfold shuffled_index. rewrite !divmod_epoch by easy. cbn [bind]. split; [easy|].
    replace ((seed + e') mod 2 ^ 32) with ((seed + e) mod 2 ^ 32); [easy|].
    rewrite (Z.div_mod (e - e') (2 ^ 32)) in He by lia.
    replace (seed + e) with (seed + e' + (e - e') / 2 ^ 32 * 2 ^ 32).
    - now rewrite Z.mod_add by lia.
    - pose proof (Z.div_mod (e - e') (2 ^ 32) ltac:(lia)). lia.
  Qed.

  Lemma shuffle_collision {A} k seed (p q : MapDs A) e :
    16 <= k <= 62 -> k mod 2 = 0 -> mlen p = 2 ^ k + 1 ->
    shuffle_ds gen_keys seed p = Ok q ->
    mget q (e * mlen p + 2 ^ k) = mget q (e * mlen p).
  Proof.
    intros Hk He Hlen H. unfold shuffle_ds in H.
    destruct ((seed <? 0) || (seed >=? 2 ^ 32)); [easy|]. cbv zeta in H. injection H as <-.
    cbn [mget]. unfold shuffled_index.
    assert (0 < 2 ^ k) by (apply Z.pow_pos_nonneg; lia).
    rewrite divmod_epoch by lia. replace (e * mlen p) with (e * mlen p + 0) by lia.
    rewrite divmod_epoch by lia. cbn [bind].
    replace (mlen p - 1) with (2 ^ k) by lia.
    now rewrite index_shuffle_collision.
  Qed.

  (** When the elements of the epoch are distinct, one of them is lost. *)
  Lemma shuffle_bad_size_refuted {A} k seed (p q : MapDs A) e :
    16 <= k <= 62 -> k mod 2 = 0 -> mlen p = 2 ^ k + 1 -> NoDup (epoch p e) ->
    shuffle_ds gen_keys seed p = Ok q -> ~ Permutation (epoch q e) (epoch p e).
  Proof.
    intros Hk He Hlen Hnd H HP. pose proof (shuffle_collision k seed p q e Hk He Hlen H) as Hc.
    apply (Permutation_NoDup (Permutation_sym HP)) in Hnd. clear HP.
    assert (mlen q = mlen p) as Hq.
    { unfold shuffle_ds in H. destruct ((seed <? 0) || (seed >=? 2 ^ 32)); [easy|].
      cbv zeta in H. injection H as <-. easy. }
    assert (0 < 2 ^ k) by (apply Z.pow_pos_nonneg; lia).
    unfold epoch in Hnd. rewrite Hq in Hnd.
    assert (forall i, 0 <= i < mlen p ->
      nth_error (map (mget q) (zrange (e * mlen p) (Z.to_nat (mlen p)))) (Z.to_nat i) = Some (mget q (e * mlen p + i))) as Hnth.
    { intros i Hi. rewrite nth_error_map, nth_error_zrange.
      destruct (Nat.ltb_spec (Z.to_nat i) (Z.to_nat (mlen p))); [|lia]. cbn. do 2 f_equal. lia. }
    pose proof (Hnth 0 ltac:(lia)) as Hz. pose proof (Hnth (2 ^ k) ltac:(lia)) as Hp.
    rewrite Hc in Hp. replace (e * mlen p + 0) with (e * mlen p) in Hz by lia. rewrite <- Hp in Hz.
    rewrite NoDup_nth_error in Hnd. apply Hnd in Hz; [lia|].
    rewrite map_length, zrange_length. lia.
  Qed.

  (** ** Windows *)
  Lemma window_permutation w seed i :
    1 <= w <= 2 ^ 63 -> ~ bad_size (w - 1) -> 0 <= seed + i < 2 ^ 32 ->
    Permutation (map (window_shuffled_index gen_keys w seed) (zrange (i * w) (Z.to_nat w)))
                (map Ok (zrange (i * w) (Z.to_nat w))).
  Proof.
    intros Hw Hbad Hs.
    pose proof (index_shuffle_permutation gen_keys (w - 1) (seed + i) 4
      Hs ltac:(lia) ltac:(easy) ltac:(lia) Hbad) as HP.
    unfold shuffled in HP. replace (w - 1 + 1) with w in HP by lia.
    apply Permutation_map with (f := fun r => let! s := r in Ok (s + i * w)) in HP.
    rewrite !map_map in HP. cbn [bind] in HP.
    rewrite (zrange_shift (i * w)), !map_map.
    rewrite (map_ext_in (fun x => window_shuffled_index gen_keys w seed (i * w + x))
      (fun x => bind (index_shuffle gen_keys x (w - 1) (seed + i) 4) (fun s => Ok (s + i * w)))).
    - rewrite HP. apply Permutation_refl'. apply map_ext. intros. f_equal. lia.
    - intros x Hx. apply in_zrange in Hx. unfold window_shuffled_index.
      rewrite divmod_epoch by lia. reflexivity.
  Qed.

  Lemma windows_permutation w seed i0 n :
    1 <= w <= 2 ^ 63 -> ~ bad_size (w - 1) -> 0 <= seed + i0 -> seed + i0 + Z.of_nat n <= 2 ^ 32 ->
    Permutation (map (window_shuffled_index gen_keys w seed) (zrange (i0 * w) (n * Z.to_nat w)))
                (map Ok (zrange (i0 * w) (n * Z.to_nat w))).
  Proof.
    intros Hw Hbad. revert i0. induction n as [|n IH]; intros i0 Hs0 Hs1; [constructor|].
    cbn [Nat.mul]. rewrite zrange_app, !map_app. apply Permutation_app.
    - apply window_permutation; lia || easy.
    - rewrite Z2Nat.id by lia. replace (i0 * w + w) with ((i0 + 1) * w) by lia. apply IH; lia.
  Qed.

  Lemma window_shuffle_epoch {A} w seed (p : MapDs A) e :
    1 <= w <= 2 ^ 63 -> ~ bad_size (w - 1) -> 0 <= mlen p -> mlen p mod w = 0 -> 0 <= e ->
    0 <= seed -> seed + (e + 1) * (mlen p / w) <= 2 ^ 32 ->
    Permutation (epoch (window_shuffle_ds gen_keys w seed p) e) (epoch p e).
  Proof.
    intros Hw Hbad HL Hdiv He Hs0 Hs. unfold epoch, window_shuffle_ds; cbn [mlen mget].
    pose proof (Z.div_pos (mlen p) w ltac:(lia) ltac:(lia)).
    assert (mlen p = mlen p / w * w) as HLw by (rewrite (Z.div_mod (mlen p) w) at 1; lia).
    pose proof (windows_permutation w seed (e * (mlen p / w)) (Z.to_nat (mlen p / w))
      Hw Hbad ltac:(nia) ltac:(nia)) as HP.
    replace (e * (mlen p / w) * w) with (e * mlen p) in HP by nia.
    replace (Z.to_nat (mlen p / w) * Z.to_nat w)%nat with (Z.to_nat (mlen p)) in HP by nia.
    apply Permutation_map with (f := fun r => let! j := r in mget p j) in HP.
    rewrite !map_map in HP. exact HP.
  Qed.
End Shuffle.

(** A dataset of [n] distinct elements for examples. *)
Definition range_example (n : Z) : MapDs Z :=
  match range_ds n None 1 with Ok d => d | _ => mkMapDs 0 (fun _ => OutOfFuel) (fun _ => OutOfFuel) end.

Lemma range_example_len n : 0 <= n -> mlen (range_example n) = n.
Proof. intros H. unfold range_example, range_ds, range_len; cbn. rewrite Z.div_1_r. lia. Qed.

Lemma range_example_get n i : 0 < n -> mget (range_example n) i = Ok (Some (i mod n)).
Proof.
  intros H. unfold range_example, range_ds. cbn [Z.eqb mget].
  replace (range_len 0 n 1) with n by (unfold range_len; cbn; rewrite Z.div_1_r; lia).
  unfold pymod, pydivmod. destruct (Z.eqb_spec n 0); [lia|]. cbn [bind snd]. do 2 f_equal. lia.
Qed.

Lemma range_example_NoDup n : 0 < n -> NoDup (epoch (range_example n) 0).
Proof.
  intros H. unfold epoch. apply NoDup_map_inj; [|apply NoDup_zrange].
  intros x y Hx Hy. apply in_zrange in Hx, Hy. rewrite range_example_len in Hx, Hy by lia.
  rewrite !range_example_get by lia. rewrite !Z.mod_small by lia. intros [= E]. exact E.
Qed.

(** Reading the same element at two indices of an epoch loses an element. *)
Lemma duplicate_not_permutation {A} (p q : MapDs A) e i j :
  mlen q = mlen p -> 0 <= i < mlen q -> 0 <= j < mlen q -> i <> j ->
  mget q (e * mlen q + i) = mget q (e * mlen q + j) -> NoDup (epoch p e) ->
  ~ Permutation (epoch q e) (epoch p e).
Proof.
  intros Hq Hi Hj Hij Heq Hnd HP. apply (Permutation_NoDup (Permutation_sym HP)) in Hnd. clear HP.
  unfold epoch in Hnd.
  assert (forall i, 0 <= i < mlen q ->
    nth_error (map (mget q) (zrange (e * mlen q) (Z.to_nat (mlen q)))) (Z.to_nat i) = Some (mget q (e * mlen q + i))) as Hnth.
  { intros k Hk. rewrite nth_error_map, nth_error_zrange.
    destruct (Nat.ltb_spec (Z.to_nat k) (Z.to_nat (mlen q))); [|lia]. cbn. do 2 f_equal. lia. }
  pose proof (Hnth i Hi) as H1. rewrite Heq, <- (Hnth j Hj) in H1.
  rewrite NoDup_nth_error in Hnd. apply Hnd in H1; [lia|]. rewrite map_length, zrange_length. lia.
Qed.
