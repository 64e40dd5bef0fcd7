From Verif Require Import Base Sharding MapDatasets Spec.

Lemma concat_intervals (f : Z -> Z * Z) (g : Z -> Z) (k : nat) :
  (forall i, 0 <= i < Z.of_nat k -> f i = (g i, g (i + 1)) /\ g i <= g (i + 1)) ->
  concat (map (fun i => interval (f i)) (zrange 0 k)) = zrange (g 0) (Z.to_nat (g (Z.of_nat k) - g 0)).
Proof.
  induction k as [|k IH]; intros H.
  - cbn. replace (g 0 - g 0) with 0 by lia. reflexivity.
  - replace (S k) with (k + 1)%nat by lia. rewrite zrange_app, map_app, concat_app.
    rewrite IH by (intros; apply H; lia).
    assert (g 0 <= g (Z.of_nat k)) as Hle.
    { clear IH. induction k as [|k IHk]; [cbn; lia|].
      assert (g 0 <= g (Z.of_nat k)) by (apply IHk; intros; apply H; lia).
      destruct (H (Z.of_nat k) ltac:(lia)) as [_ H1].
      replace (Z.of_nat (S k)) with (Z.of_nat k + 1) by lia. lia. }
    destruct (H (Z.of_nat k) ltac:(lia)) as [Hf Hg].
    cbn [zrange seq map concat]. rewrite app_nil_r.
    replace (0 + Z.of_nat k + Z.of_nat 0) with (Z.of_nat k) by lia.
    rewrite Hf. unfold interval; cbn [fst snd].
    replace (Z.of_nat (k + 1)) with (Z.of_nat k + 1) by lia.
    replace (Z.to_nat (g (Z.of_nat k + 1) - g 0))
      with (Nat.add (Z.to_nat (g (Z.of_nat k) - g 0)) (Z.to_nat (g (Z.of_nat k + 1) - g (Z.of_nat k)))) by lia.
    rewrite zrange_app. f_equal. f_equal. lia.
Qed.

Lemma even_split_cover n k : 0 <= n -> 1 <= k ->
  concat (map (fun i => interval (even_split n (shard i k false))) (zrange 0 (Z.to_nat k)))
  = zrange 0 (Z.to_nat n).
Proof.
  intros Hn Hk.
  rewrite (concat_intervals _ (fun i => (n / k) * i + Z.min i (n mod k))).
  - rewrite Z2Nat.id by lia. f_equal; [lia|]. f_equal.
    rewrite (Z.div_mod n k) at 4 by lia. pose proof (Z.mod_pos_bound n k). nia.
  - intros i Hi. unfold even_split, shard; cbn [shard_index shard_count drop_remainder].
    pose proof (Z.mod_pos_bound n k ltac:(lia)). pose proof (Z.div_pos n k ltac:(lia) ltac:(lia)).
    destruct (Z.gtb_spec (n mod k) 0); split; try (f_equal; nia); nia.
Qed.

Lemma even_split_size n k i : 0 <= n -> 1 <= k -> 0 <= i < k ->
  let (a, b) := even_split n (shard i k false) in
  b - a = n / k + (if i <? n mod k then 1 else 0).
Proof.
  intros Hn Hk Hi. unfold even_split, shard; cbn [shard_index shard_count drop_remainder].
  pose proof (Z.mod_pos_bound n k ltac:(lia)).
  destruct (Z.gtb_spec (n mod k) 0); destruct (Z.ltb_spec i (n mod k)); nia.
Qed.

Lemma even_split_drop n k : 0 <= n -> 1 <= k ->
  concat (map (fun i => interval (even_split n (shard i k true))) (zrange 0 (Z.to_nat k)))
  = zrange 0 (Z.to_nat (n / k * k)) /\
  forall i, 0 <= i < k -> let (a, b) := even_split n (shard i k true) in b - a = n / k.
Proof.
  intros Hn Hk. pose proof (Z.div_pos n k ltac:(lia) ltac:(lia)). split.
  - rewrite (concat_intervals _ (fun i => (n / k) * i)).
    + rewrite Z2Nat.id by lia. f_equal; [lia|]. f_equal. lia.
    + intros i Hi. unfold even_split, shard; cbn [shard_index shard_count drop_remainder].
      destruct (n mod k >? 0); split; (f_equal; nia) || nia.
  - intros i Hi. unfold even_split, shard; cbn [shard_index shard_count drop_remainder].
    destruct (n mod k >? 0); nia.
Qed.
