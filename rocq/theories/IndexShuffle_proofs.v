From Verif Require Import Base IndexShuffle.

Lemma lxor_cancel_r a b c : Z.lxor a c = Z.lxor b c -> a = b.
Proof.
  intros H. assert (Z.lxor (Z.lxor a c) c = Z.lxor (Z.lxor b c) c) as E by now rewrite H.
  rewrite !Z.lxor_assoc, !Z.lxor_nilpotent, !Z.lxor_0_r in E. exact E.
Qed.

(** ** W-bit words *)
Definition word (W x : Z) := 0 <= x < 2 ^ W.

Lemma word_testbit W x : 0 <= W -> (word W x <-> (0 <= x /\ forall i, W <= i -> Z.testbit x i = false)).
Proof.
  intros HW. unfold word. split.
  - intros [H0 H]. split; [easy|]. intros i Hi.
    destruct (Z.eq_dec x 0) as [->|]; [apply Z.bits_0|].
    apply Z.bits_above_log2; [easy|]. apply Z.log2_lt_pow2; [lia|].
    apply Z.lt_le_trans with (2 ^ W); [easy|]. apply Z.pow_le_mono_r; lia.
  - intros [H0 H]. split; [easy|].
    destruct (Z_lt_le_dec x (2 ^ W)) as [|Hle]; [easy|exfalso].
    assert (0 < x) by (pose proof (Z.pow_pos_nonneg 2 W); lia).
    assert (W <= Z.log2 x) by (apply Z.log2_le_pow2; lia).
    pose proof (Z.bit_log2 x ltac:(easy)) as Hb. rewrite H in Hb by easy. easy.
Qed.

Lemma word_bitset W v : 0 <= W -> word W (bitset_of W v).
Proof. intros. apply Z.mod_pos_bound. now apply Z.pow_pos_nonneg. Qed.

Lemma word_lxor W a b : 0 <= W -> word W a -> word W b -> word W (Z.lxor a b).
Proof.
  intros HW Ha Hb. apply word_testbit in Ha as [Ha1 Ha2], Hb as [Hb1 Hb2]; try easy.
  apply word_testbit; [easy|]. split.
  - apply Z.lxor_nonneg. lia.
  - intros. rewrite Z.lxor_spec, Ha2, Hb2; easy.
Qed.

Lemma word_land W a b : 0 <= W -> word W a -> word W b -> word W (Z.land a b).
Proof.
  intros HW Ha Hb. apply word_testbit in Ha as [Ha1 Ha2], Hb as [Hb1 Hb2]; try easy.
  apply word_testbit; [easy|]. split.
  - apply Z.land_nonneg. lia.
  - intros. rewrite Z.land_spec, Ha2, Hb2; easy.
Qed.

Lemma word_lor W a b : 0 <= W -> word W a -> word W b -> word W (Z.lor a b).
Proof.
  intros HW Ha Hb. apply word_testbit in Ha as [Ha1 Ha2], Hb as [Hb1 Hb2]; try easy.
  apply word_testbit; [easy|]. split.
  - apply Z.lor_nonneg. lia.
  - intros. rewrite Z.lor_spec, Ha2, Hb2; easy.
Qed.

Lemma word_shiftr W a n : 0 <= W -> 0 <= n -> word W a -> word W (Z.shiftr a n).
Proof.
  intros HW Hn Ha. apply word_testbit in Ha as [Ha1 Ha2]; try easy.
  apply word_testbit; [easy|]. split.
  - now apply Z.shiftr_nonneg.
  - intros. rewrite Z.shiftr_spec by lia. apply Ha2. lia.
Qed.

Lemma word_rotl W x r : 8 <= W -> 0 <= r <= 8 -> word W x -> word W (rotl x r W).
Proof.
  intros. unfold rotl. apply word_lor; [lia|apply word_bitset; lia|].
  apply word_shiftr; [lia|lia|easy].
Qed.

Lemma word_simon_f W x : 8 <= W -> word W x -> word W (simon_f x W).
Proof.
  intros. unfold simon_f. apply word_lxor; [lia| |apply word_rotl; lia || easy].
  apply word_land; [lia| |]; apply word_rotl; lia || easy.
Qed.

Lemma simon_rounds_word W keys lr : 8 <= W ->
  word W (fst lr) -> word W (snd lr) ->
  word W (fst (simon_rounds W keys lr)) /\ word W (snd (simon_rounds W keys lr)).
Proof.
  intros HW. remember (length keys) as n eqn:Hn.
  revert keys Hn lr. induction n as [n IH] using lt_wf_ind. intros keys Hn [l r] Hl Hr.
  destruct keys as [|k1 [|k2 ks]]; cbn [simon_rounds]; try easy.
  assert (forall x y k, word W x -> word W y ->
    word W (Z.lxor (Z.lxor x (simon_f y W)) (bitset_of W k))) as Hx.
  { intros x y k Hx Hy. apply word_lxor; [lia| |apply word_bitset; lia].
    apply word_lxor; [lia|easy|now apply word_simon_f]. }
  cbn [fst snd] in *.
  apply IH with (m := length ks); [cbn in Hn; lia|easy| |]; cbn [fst snd simon_rx2]; auto.
Qed.

Lemma simon_rx2_inj W k1 k2 l r l' r' :
  simon_rx2 l r k1 k2 W = simon_rx2 l' r' k1 k2 W -> (l, r) = (l', r').
Proof.
  unfold simon_rx2. intros H. injection H as Hy Hx.
  rewrite Hy in Hx. apply lxor_cancel_r, lxor_cancel_r in Hx. subst r'.
  apply lxor_cancel_r, lxor_cancel_r in Hy. now subst.
Qed.

Lemma simon_rounds_inj W keys lr lr' :
  simon_rounds W keys lr = simon_rounds W keys lr' -> lr = lr'.
Proof.
  remember (length keys) as n eqn:Hn.
  revert keys Hn lr lr'. induction n as [n IH] using lt_wf_ind. intros keys Hn [l r] [l' r'].
  destruct keys as [|k1 [|k2 ks]]; cbn [simon_rounds fst snd]; try easy.
  intros H. apply IH with (m := length ks) in H; [|cbn in Hn; lia|easy].
  now apply simon_rx2_inj in H.
Qed.

Lemma lor_shiftl_word W a b : 0 <= W -> word W b -> Z.lor (Z.shiftl a W) b = a * 2 ^ W + b.
Proof.
  intros HW Hb. rewrite <- Z.shiftl_mul_pow2 by easy.
  rewrite <- Z.lxor_lor, Z.add_nocarry_lxor; try easy.
  all: apply Z.bits_inj'; intros i Hi; rewrite Z.land_spec, Z.bits_0;
    apply word_testbit in Hb as [Hb0 Hb]; try easy;
    destruct (Z_lt_le_dec i W);
      [rewrite Z.shiftl_spec_low by easy; easy|rewrite Hb by easy; apply andb_false_r].
Qed.

Lemma simon_encrypt_range W v keys : 8 <= W -> 0 <= simon_encrypt W v keys < 2 ^ (2 * W).
Proof.
  intros HW. unfold simon_encrypt.
  pose proof (simon_rounds_word W keys (bitset_of W (Z.shiftr v W), bitset_of W v) HW
    (word_bitset W _ ltac:(lia)) (word_bitset W _ ltac:(lia))) as [Hl Hr].
  rewrite lor_shiftl_word by (easy || lia).
  unfold word in *. replace (2 * W) with (W + W) by lia. rewrite Z.pow_add_r by lia. nia.
Qed.

Lemma simon_encrypt_inj W keys v v' : 8 <= W ->
  0 <= v < 2 ^ (2 * W) -> 0 <= v' < 2 ^ (2 * W) ->
  simon_encrypt W v keys = simon_encrypt W v' keys -> v = v'.
Proof.
  intros HW Hv Hv' H. unfold simon_encrypt in H.
  set (p := (bitset_of W (Z.shiftr v W), bitset_of W v)) in *.
  set (p' := (bitset_of W (Z.shiftr v' W), bitset_of W v')) in *.
  assert (word W (fst (simon_rounds W keys p)) /\ word W (snd (simon_rounds W keys p))) as [Hl Hr]
    by (apply simon_rounds_word; try easy; apply word_bitset; lia).
  assert (word W (fst (simon_rounds W keys p')) /\ word W (snd (simon_rounds W keys p'))) as [Hl' Hr']
    by (apply simon_rounds_word; try easy; apply word_bitset; lia).
  rewrite !lor_shiftl_word in H by (easy || lia).
  assert (simon_rounds W keys p = simon_rounds W keys p') as Heq.
  { destruct (simon_rounds W keys p) as [a b], (simon_rounds W keys p') as [a' b'].
    cbn in *. unfold word in *. assert (a = a') by nia. subst. f_equal. lia. }
  apply simon_rounds_inj in Heq. subst p p'. injection Heq as H1 H2.
  unfold bitset_of in *. rewrite !Z.shiftr_div_pow2 in H1 by lia.
  replace (2 * W) with (W + W) in * by lia. rewrite Z.pow_add_r in * by lia.
  assert (0 < 2 ^ W) by (apply Z.pow_pos_nonneg; lia).
  rewrite !Z.mod_small in H1.
  - rewrite (Z.div_mod v (2 ^ W)), (Z.div_mod v' (2 ^ W)) by lia. congruence.
  - split; [apply Z.div_pos; lia|apply Z.div_lt_upper_bound; lia].
  - split; [apply Z.div_pos; lia|apply Z.div_lt_upper_bound; lia].
Qed.

Lemma iter_add {A} n m (f : A -> A) x : Nat.iter (n + m) f x = Nat.iter n f (Nat.iter m f x).
Proof. induction n as [|n IH]; [easy|]. change (f (Nat.iter (n + m) f x) = f (Nat.iter n f (Nat.iter m f x))). now rewrite IH. Qed.

(** ** Cycle walking *)
Section Walk.
  Context (E : Z -> Z) (m : Z).

  Definition iterE (k : nat) (x : Z) := Nat.iter k E x.

  (** [walk] with fuel 2^d performs the iteration. *)
  Lemma walk_inl d x y : walk E m d x = inl y ->
    exists k, (1 <= k)%nat /\ iterE k x = y /\ y <= m /\
      forall i, (1 <= i < k)%nat -> m < iterE i x.
  Proof.
    revert x. induction d as [|d IH]; intros x; cbn.
    - destruct (Z.leb_spec (E x) m); [|easy]. intros [= <-]. exists 1%nat.
      cbn. repeat split; lia.
    - destruct (walk E m d x) as [y1|x1] eqn:H1; intros H.
      + injection H as ->. eauto.
      + assert (exists j, (1 <= j)%nat /\ iterE j x = x1 /\ forall i, (1 <= i <= j)%nat -> m < iterE i x)
          as (j & Hj & Hjx & Hji).
        { clear -H1. revert x x1 H1. induction d as [|d IH]; intros x x1; cbn.
          - destruct (Z.leb_spec (E x) m); [easy|]. intros [= <-]. exists 1%nat.
            cbn. repeat split; try lia. intros i Hi. assert (i = 1)%nat as -> by lia. cbn. lia.
          - destruct (walk E m d x) as [y1|x2] eqn:H1; [easy|]. intros H2.
            destruct (IH _ _ H1) as (j1 & ? & <- & Hj1). destruct (IH _ _ H2) as (j2 & ? & <- & Hj2).
            exists (j2 + j1)%nat. unfold iterE in *. repeat split; [lia|now rewrite <- iter_add|].
            intros i Hi. destruct (Nat.le_gt_cases i j1); [apply Hj1; lia|].
            specialize (Hj2 (i - j1)%nat ltac:(lia)). rewrite <- iter_add in Hj2.
            now replace (i - j1 + j1)%nat with i in Hj2 by lia. }
        destruct (IH _ H) as (k & Hk & Hkx & Hym & Hki). subst x1.
        unfold iterE in *. exists (k + j)%nat. repeat split; [lia|now rewrite iter_add|easy|].
        intros i Hi. destruct (Nat.le_gt_cases i j); [apply Hji; lia|].
        specialize (Hki (i - j)%nat ltac:(lia)). rewrite <- iter_add in Hki.
        now replace (i - j + j)%nat with i in Hki by lia.
  Qed.

  Lemma walk_inr d x x1 : walk E m d x = inr x1 ->
    forall i, 1 <= Z.of_nat i <= 2 ^ Z.of_nat d -> m < iterE i x.
  Proof.
    assert (forall d x x1, walk E m d x = inr x1 ->
      exists j, Z.of_nat j = 2 ^ Z.of_nat d /\ iterE j x = x1 /\
      forall i, (1 <= i <= j)%nat -> m < iterE i x) as Hgen.
    { clear. intros d. induction d as [|d IH]; intros x x1; cbn [walk].
      - destruct (Z.leb_spec (E x) m); [easy|]. intros [= <-]. exists 1%nat.
        cbn. repeat split; try lia. intros i Hi. assert (i = 1)%nat as -> by lia. cbn. lia.
      - destruct (walk E m d x) as [y1|x2] eqn:H1; [easy|]. intros H2.
        destruct (IH _ _ H1) as (j1 & HL1 & <- & Hj1). destruct (IH _ _ H2) as (j2 & HL2 & <- & Hj2).
        exists (j2 + j1)%nat. unfold iterE in *. repeat split.
        + rewrite Nat2Z.inj_succ, Z.pow_succ_r by lia. lia.
        + now rewrite <- iter_add.
        + intros i Hi. destruct (Nat.le_gt_cases i j1); [apply Hj1; lia|].
          specialize (Hj2 (i - j1)%nat ltac:(lia)). rewrite <- iter_add in Hj2.
          now replace (i - j1 + j1)%nat with i in Hj2 by lia. }
    intros H i Hi. destruct (Hgen _ _ _ H) as (j & Hj & _ & Hall). apply Hall. lia.
  Qed.

  Context (N : Z).
  Hypothesis HN : 0 < N.
  Hypothesis Erange : forall x, 0 <= E x < N.
  Hypothesis Einj : forall x y, 0 <= x < N -> 0 <= y < N -> E x = E y -> x = y.

  Lemma iterE_range k x : 0 <= x < N -> 0 <= iterE k x < N.
  Proof. destruct k; [easy|]. intros _. cbn. apply Erange. Qed.

  Lemma iterE_inj k x y : 0 <= x < N -> 0 <= y < N -> iterE k x = iterE k y -> x = y.
  Proof.
    revert x y. induction k as [|k IH]; intros x y Hx Hy; [easy|].
    cbn. intros H. apply Einj in H; [|now apply iterE_range..]. now apply IH.
  Qed.

  Lemma iterE_return x : 0 <= x < N ->
    exists k, (1 <= k)%nat /\ Z.of_nat k <= N /\ iterE k x = x.
  Proof.
    intros Hx. set (n := Z.to_nat N).
    destruct (ListDec.NoDup_dec Z.eq_dec (map (fun i => iterE i x) (seq 0 (S n)))) as [Hnd|Hnd].
    - exfalso. apply NoDup_incl_length with (l' := zrange 0 n) in Hnd.
      + rewrite map_length, seq_length, zrange_length in Hnd. lia.
      + intros y Hy. apply in_map_iff in Hy as (i & <- & _). apply in_zrange.
        pose proof (iterE_range i x Hx). lia.
    - assert (exists i j, (i < j <= n)%nat /\ iterE i x = iterE j x) as (i & j & Hij & Heq).
      { clear -Hnd.
        assert (forall a k, ~ NoDup (map (fun i => iterE i x) (seq a k)) ->
          exists i j, (a <= i < j)%nat /\ (j < a + k)%nat /\ iterE i x = iterE j x) as G.
        { intros a k. revert a. induction k as [|k IH]; intros a H; cbn in H.
          - destruct H. constructor.
          - destruct (in_dec Z.eq_dec (iterE a x) (map (fun i => iterE i x) (seq (S a) k))) as [Hin|Hni].
            + apply in_map_iff in Hin as (j & Hj & Hjs). apply in_seq in Hjs.
              exists a, j. repeat split; lia || easy.
            + destruct (IH (S a)) as (i & j & ? & ? & ?).
              * intros Hnd2. apply H. now constructor.
              * exists i, j. repeat split; lia || easy. }
        destruct (G _ _ Hnd) as (i & j & ? & ? & ?). exists i, j. split; [lia|easy]. }
      exists (j - i)%nat. repeat split; [lia|lia|].
      symmetry. apply (iterE_inj i); [easy|now apply iterE_range|].
      rewrite Heq. unfold iterE. rewrite <- iter_add. f_equal. lia.
  Qed.

  (** The loop finds a value in range (fuel 2^d with N <= 2^d). *)
  Lemma walk_terminates d x : N <= 2 ^ Z.of_nat d -> 0 <= x < N -> x <= m ->
    exists y, walk E m d x = inl y.
  Proof.
    intros Hd Hx Hxm. destruct (walk E m d x) as [y|x1] eqn:H; [eauto|exfalso].
    destruct (iterE_return x Hx) as (k & Hk & HkN & Hkx).
    pose proof (walk_inr _ _ _ H k ltac:(lia)). lia.
  Qed.

  Lemma walk_inj d x1 x2 y : 0 <= x1 < N -> 0 <= x2 < N -> x1 <= m -> x2 <= m ->
    walk E m d x1 = inl y -> walk E m d x2 = inl y -> x1 = x2.
  Proof.
    intros Hx1 Hx2 Hm1 Hm2 H1 H2.
    apply walk_inl in H1 as (k1 & Hk1 & He1 & _ & Hi1).
    apply walk_inl in H2 as (k2 & Hk2 & He2 & _ & Hi2).
    destruct (Nat.lt_trichotomy k1 k2) as [Hlt|[->|Hlt]].
    - exfalso. assert (x1 = iterE (k2 - k1) x2).
      { apply (iterE_inj k1); [easy|now apply iterE_range|]. rewrite He1, <- He2.
        unfold iterE. rewrite <- iter_add. f_equal. lia. }
      specialize (Hi2 (k2 - k1)%nat ltac:(lia)). lia.
    - apply (iterE_inj k2); try easy. congruence.
    - exfalso. assert (x2 = iterE (k1 - k2) x1).
      { apply (iterE_inj k2); [easy|now apply iterE_range|]. rewrite He2, <- He1.
        unfold iterE. rewrite <- iter_add. f_equal. lia. }
      specialize (Hi1 (k1 - k2)%nat ltac:(lia)). lia.
  Qed.
End Walk.

(** ** Properties of [index_shuffle] *)
Lemma walk_fuel_large W : W <= 32 -> 2 ^ (2 * W) <= 2 ^ Z.of_nat walk_fuel.
Proof. intros. apply Z.pow_le_mono_r; [lia|]. unfold walk_fuel. lia. Qed.
Lemma walk_fuel_pos : 1 <= 2 ^ Z.of_nat walk_fuel.
Proof. now vm_compute. Qed.
Local Opaque walk_fuel walk.

Lemma block_size_even m : exists W, block_size m = 2 * W /\ 8 <= W <= 32.
Proof.
  unfold block_size. set (b := Z.log2_up m).
  destruct (Z.leb_spec (Z.max (b + b mod 2) 16) 62).
  - exists (Z.max (b + b mod 2) 16 / 2). lia.
  - exists 32. lia.
Qed.

Lemma block_size_covers m : 0 < m < 2 ^ 63 -> m <= 2 ^ block_size m.
Proof.
  intros Hm. unfold block_size.
  assert (m <= 2 ^ Z.log2_up m) as Hlog.
  { destruct (Z.eq_dec m 1) as [->|]; [cbn; lia|]. apply Z.log2_up_spec. lia. }
  set (b := Z.log2_up m) in *.
  destruct (Z.leb_spec (Z.max (b + b mod 2) 16) 62).
  - apply Z.le_trans with (2 ^ b); [easy|]. apply Z.pow_le_mono_r; lia.
  - apply Z.le_trans with (2 ^ 63); [lia|]. apply Z.pow_le_mono_r; lia.
Qed.

Lemma impl_ok W index m keys : 8 <= W <= 32 -> 0 <= index <= m -> m <= 2 ^ (2 * W) ->
  exists y, index_shuffle_impl (2 * W) index m keys = Ok y /\ 0 <= y <= m.
Proof.
  intros HW Hi Hm. unfold index_shuffle_impl.
  replace (2 * W / 2) with W by (rewrite Z.mul_comm, Z.div_mul; lia).
  set (E := fun v => simon_encrypt W v keys).
  assert (forall x, 0 <= E x < 2 ^ (2 * W)) as HE by (intros; apply simon_encrypt_range; lia).
  assert (exists y, walk E m walk_fuel index = inl y) as (y & Hy).
  { destruct (Z.eq_dec index (2 ^ (2 * W))) as [Heq|Hne].
    - destruct (walk E m walk_fuel index) as [y|x1] eqn:H; [eauto|exfalso].
      pose proof (walk_inr _ _ _ _ _ H 1%nat ltac:(pose proof walk_fuel_pos; lia)) as H1. cbn in H1.
      specialize (HE index). lia.
    - apply (walk_terminates E m (2 ^ (2 * W))); try easy; try lia.
      + intros a b Ha Hb. now apply simon_encrypt_inj.
      + apply walk_fuel_large; lia. }
  rewrite Hy. exists y. split; [easy|].
  apply walk_inl in Hy as (k & Hk & <- & Hym & _).
  split; [|easy]. destruct k; [lia|]. apply HE.
Qed.

Lemma impl_inj W i1 i2 m keys y : 8 <= W <= 32 -> 0 <= i1 <= m -> 0 <= i2 <= m -> m < 2 ^ (2 * W) ->
  index_shuffle_impl (2 * W) i1 m keys = Ok y ->
  index_shuffle_impl (2 * W) i2 m keys = Ok y -> i1 = i2.
Proof.
  intros HW H1 H2 Hm. unfold index_shuffle_impl.
  replace (2 * W / 2) with W by (rewrite Z.mul_comm, Z.div_mul; lia).
  set (E := fun v => simon_encrypt W v keys).
  assert (forall x, 0 <= E x < 2 ^ (2 * W)) as HE by (intros; apply simon_encrypt_range; lia).
  intros Hy1 Hy2.
  destruct (walk E m walk_fuel i1) as [y1|] eqn:HW1; [|easy].
  destruct (walk E m walk_fuel i2) as [y2|] eqn:HW2; [|easy].
  injection Hy1 as ->. injection Hy2 as ->.
  apply (walk_inj E m (2 ^ (2 * W)) HE) with (d := walk_fuel) (y := y); try easy; try lia.
  intros a b Ha Hb. apply simon_encrypt_inj; lia.
Qed.

(** Sizes whose cipher block is one value too small. *)
Definition bad_size (m : Z) : Prop := exists k, 16 <= k <= 62 /\ k mod 2 = 0 /\ m = 2 ^ k.

Lemma block_size_strict m : 0 < m < 2 ^ 63 -> ~ bad_size m -> m < 2 ^ block_size m.
Proof.
  intros Hm Hbad. pose proof (block_size_covers m Hm) as Hc.
  destruct (Z.eq_dec m (2 ^ block_size m)) as [Heq|]; [exfalso|lia].
  apply Hbad. exists (block_size m).
  destruct (block_size_even m) as (W & HB & HW).
  assert (block_size m <= 62).
  { destruct (Z_lt_le_dec 62 (block_size m)); [exfalso|easy].
    assert (2 ^ 63 <= 2 ^ block_size m) by (apply Z.pow_le_mono_r; lia). lia. }
  repeat split; lia || easy.
Qed.

Lemma block_size_bad k : 16 <= k <= 62 -> k mod 2 = 0 -> block_size (2 ^ k) = k.
Proof.
  intros Hk He. unfold block_size. rewrite Z.log2_up_pow2 by lia.
  destruct (Z.leb_spec (Z.max (k + k mod 2) 16) 62); lia.
Qed.

Lemma simon_encrypt_wrap W keys : 0 <= W ->
  simon_encrypt W (2 ^ (2 * W)) keys = simon_encrypt W 0 keys.
Proof.
  intros HW. unfold simon_encrypt, bitset_of.
  rewrite !Z.shiftr_div_pow2 by easy.
  assert (0 < 2 ^ W) by (apply Z.pow_pos_nonneg; lia).
  replace (2 * W) with (W + W) by lia. rewrite Z.pow_add_r by easy.
  rewrite Z.div_mul, Z.mod_same, Z_mod_mult, Z.div_0_l, Z.mod_0_l by lia. reflexivity.
Qed.

Lemma walk_congr E m d x x' : E x = E x' -> walk E m d x = walk E m d x'.
Proof.
  intros H. revert x x' H. induction d as [|d IH]; intros x x' H.
  Local Transparent walk. all: cbn. Local Opaque walk.
  - now rewrite H.
  - rewrite (IH x x' H). reflexivity.
Qed.

Section Binding.
  Context (gen_keys : Z -> Z -> list Z).

  Lemma index_shuffle_valid index m seed rounds :
    0 <= seed < 2 ^ 32 -> 4 <= rounds <= 1024 -> rounds mod 2 = 0 -> 0 <= index <= m -> m < 2 ^ 63 ->
    exists y, index_shuffle gen_keys index m seed rounds = Ok y /\ 0 <= y <= m.
  Proof.
    intros Hs Hr He Hi Hm. unfold index_shuffle.
    replace ((seed <? 0) || (seed >=? 2 ^ 32)) with false by lia.
    replace ((rounds <? 4) || negb (rounds mod 2 =? 0) || (rounds >? 1024)) with false by lia.
    replace ((index <? 0) || (index >? m)) with false by lia.
    unfold index_shuffle_cc. destruct (Z.eqb_spec m 0); [exists 0; split; [easy|lia]|].
    destruct (block_size_even m) as (W & HB & HW).
    pose proof (block_size_covers m ltac:(lia)) as Hc. rewrite HB in *.
    now apply impl_ok.
  Qed.

  Lemma index_shuffle_invalid index m seed rounds :
    0 <= seed < 2 ^ 32 ->
    rounds < 4 \/ rounds > 1024 \/ rounds mod 2 <> 0 \/ index < 0 \/ index > m ->
    index_shuffle gen_keys index m seed rounds = Raise ValueError.
  Proof.
    intros Hs H. unfold index_shuffle.
    replace ((seed <? 0) || (seed >=? 2 ^ 32)) with false by lia.
    destruct ((rounds <? 4) || negb (rounds mod 2 =? 0) || (rounds >? 1024)) eqn:E1; [easy|].
    destruct ((index <? 0) || (index >? m)) eqn:E2; [easy|]. exfalso.
    repeat rewrite orb_false_iff in *. lia.
  Qed.

  Lemma index_shuffle_inj i1 i2 m seed rounds y :
    m < 2 ^ 63 -> ~ bad_size m ->
    index_shuffle gen_keys i1 m seed rounds = Ok y ->
    index_shuffle gen_keys i2 m seed rounds = Ok y -> i1 = i2.
  Proof.
    intros Hm Hbad. unfold index_shuffle.
    destruct ((seed <? 0) || (seed >=? 2 ^ 32)); [easy|].
    destruct ((rounds <? 4) || negb (rounds mod 2 =? 0) || (rounds >? 1024)) eqn:E1; [easy|].
    destruct ((i1 <? 0) || (i1 >? m)) eqn:E2; [easy|].
    destruct ((i2 <? 0) || (i2 >? m)) eqn:E3; [easy|].
    unfold index_shuffle_cc. destruct (Z.eqb_spec m 0); [lia|].
    pose proof (block_size_strict m ltac:(lia) Hbad) as Hs.
    destruct (block_size_even m) as (W & HB & HW). rewrite HB in *.
    apply impl_inj; lia || easy.
  Qed.

  (** The values at 0..max_index, when all calls succeed. *)
  Definition shuffled (m seed rounds : Z) : list (res Z) :=
    map (fun i => index_shuffle gen_keys i m seed rounds) (zrange 0 (Z.to_nat (m + 1))).

  Lemma index_shuffle_permutation m seed rounds :
    0 <= seed < 2 ^ 32 -> 4 <= rounds <= 1024 -> rounds mod 2 = 0 -> 0 <= m < 2 ^ 63 -> ~ bad_size m ->
    Permutation (shuffled m seed rounds) (map Ok (zrange 0 (Z.to_nat (m + 1)))).
  Proof.
    intros Hs Hr He Hm Hbad. unfold shuffled.
    set (f := fun i => match index_shuffle gen_keys i m seed rounds with Ok y => y | _ => -1 end).
    assert (forall i, 0 <= i <= m -> index_shuffle gen_keys i m seed rounds = Ok (f i) /\ 0 <= f i <= m) as Hf.
    { intros i Hi. destruct (index_shuffle_valid i m seed rounds Hs Hr He Hi ltac:(lia)) as (y & Hy & Hyr).
      unfold f. rewrite Hy. easy. }
    rewrite (map_ext_in _ (fun i => Ok (f i))), <- map_map.
    2:{ intros i Hi. apply in_zrange in Hi. apply Hf. lia. }
    apply Permutation_map. apply inj_self_permutation; [apply NoDup_zrange| |].
    - intros i Hi. apply in_zrange in Hi. apply in_zrange. specialize (Hf i). lia.
    - intros i j Hi Hj Heq. apply in_zrange in Hi, Hj.
      apply (index_shuffle_inj i j m seed rounds (f i)).
      + lia.
      + exact Hbad.
      + apply Hf. lia.
      + rewrite Heq. apply Hf. lia.
  Qed.

  Lemma index_shuffle_collision k seed rounds :
    16 <= k <= 62 -> k mod 2 = 0 ->
    index_shuffle gen_keys (2 ^ k) (2 ^ k) seed rounds = index_shuffle gen_keys 0 (2 ^ k) seed rounds.
  Proof.
    intros Hk He. unfold index_shuffle.
    assert (0 < 2 ^ k) by (apply Z.pow_pos_nonneg; lia).
    destruct ((seed <? 0) || (seed >=? 2 ^ 32)); [easy|].
    destruct ((rounds <? 4) || negb (rounds mod 2 =? 0) || (rounds >? 1024)); [easy|].
    replace ((2 ^ k <? 0) || (2 ^ k >? 2 ^ k)) with false by lia.
    replace ((0 <? 0) || (0 >? 2 ^ k)) with false by lia.
    unfold index_shuffle_cc. destruct (Z.eqb_spec (2 ^ k) 0); [easy|].
    rewrite block_size_bad by easy. unfold index_shuffle_impl.
    rewrite (walk_congr _ _ _ (2 ^ k) 0); [easy|].
    replace k with (2 * (k / 2)) at 2 by lia. apply simon_encrypt_wrap. lia.
  Qed.
End Binding.
