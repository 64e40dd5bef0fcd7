(** Proofs about sequential slices. *)
From Verif Require Import Base ListFacts Sharding MapDatasets Spec Sharding_proofs MapSlice_proofs IndexShuffle_proofs MapShuffle_proofs MapOther_proofs Iter IterSpec
  IterLaw Interleave InterleaveSpec Interleave_proofs Scheduled Scheduled_proofs Multiprocess MultiprocessSpec Multiprocess_proofs Prop_Interleave
  SequentialSlice SequentialSliceSpec.

Local Ltac spl := repeat match goal with |- _ /\ _ => split end.

(** ** Parts *)

Lemma even_split_part n W i : (i < W)%nat ->
  even_split (Z.of_nat n) (shard (Z.of_nat i) (Z.of_nat W) false) =
  (Z.of_nat (part_start n W i), Z.of_nat (part_start n W i + part_size n W i)).
Proof.
  intros Hi. unfold even_split, shard, part_start, part_size; cbn [shard_index shard_count drop_remainder].
  rewrite <- Nat2Z.inj_div, <- Nat2Z.inj_mod.
  pose proof (Nat.mod_upper_bound n W ltac:(lia)).
  destruct (Z.gtb_spec (Z.of_nat (n mod W)) 0); destruct (Nat.ltb_spec i (n mod W));
    rewrite ?Nat2Z.inj_add, ?Nat2Z.inj_mul, ?Nat2Z.inj_min; f_equal; lia.
Qed.
Lemma part_bound n W i : (i < W)%nat -> (part_start n W i + part_size n W i <= n)%nat.
Proof.
  intros Hi. unfold part_start, part_size. pose proof (Nat.mod_upper_bound n W ltac:(lia)).
  pose proof (Nat.div_mod n W ltac:(lia)) as E. set (q := (n / W)%nat) in *. set (r := (n mod W)%nat) in *.
  assert (S i * q <= W * q)%nat by (apply Nat.mul_le_mono_r; lia).
  destruct (Nat.ltb_spec i r); lia.
Qed.
Lemma part_next n W i : part_start n W (S i) = (part_start n W i + part_size n W i)%nat.
Proof. unfold part_start, part_size. set (q := (n / W)%nat). set (r := (n mod W)%nat). destruct (Nat.ltb_spec i r); lia. Qed.
Lemma part_length {A} W (l : list A) i : (i < W)%nat -> length (part W l i) = part_size (length l) W i.
Proof. intros Hi. unfold part. rewrite firstn_length, skipn_length. pose proof (part_bound (length l) W i Hi). lia. Qed.
Lemma parts_concat {A} W (l : list A) : (0 < W)%nat -> concat (parts W l) = l.
Proof.
  intros HW. unfold parts.
  assert (G : forall k, (k <= W)%nat -> concat (map (part W l) (seq 0 k)) = firstn (part_start (length l) W k) l).
  { induction k as [|k IH]; intros Hk.
    - unfold part_start. cbn. easy.
    - rewrite seq_S, map_app, concat_app, IH by lia. cbn [map concat Nat.add]. rewrite app_nil_r, part_next. unfold part.
      rewrite <- (firstn_skipn (part_start (length l) W k) (firstn (part_start (length l) W k + part_size (length l) W k) l)).
      rewrite firstn_firstn, Nat.min_l by lia. f_equal. rewrite skipn_firstn_comm. f_equal. lia. }
  rewrite G by lia. apply firstn_all2. unfold part_start.
  pose proof (Nat.mod_upper_bound (length l) W ltac:(lia)). pose proof (Nat.div_mod (length l) W ltac:(lia)). nia.
Qed.

(** ** Sources *)

Lemma shard_ok i W : (i < W)%nat -> make_shard_options (Z.of_nat i) (Z.of_nat W) false = Ok (shard (Z.of_nat i) (Z.of_nat W) false).
Proof.
  intros Hi. unfold make_shard_options. destruct (Z.leb_spec (Z.of_nat W) 0); [lia|].
  destruct (Z.ltb_spec (Z.of_nat i) 0), (Z.geb_spec (Z.of_nat i) (Z.of_nat W)); try lia. easy.
Qed.
Lemma slice_part {A} (d : MapDs A) (a b : Z) : 0 <= a <= b -> b <= mlen d ->
  exists sl, slice_ds (Some a) (Some b) None d = Ok sl /\ mlen sl = b - a /\ forall k, 0 <= k < b - a -> mget sl k = mget d (a + k).
Proof.
  intros Ha Hb. unfold slice_ds, slice_indices. cbn [Z.eqb bind]. cbv zeta. change (1 <? 0) with false. cbn iota.
  destruct (Z.ltb_spec a 0); [lia|]. destruct (Z.ltb_spec b 0); [lia|]. rewrite !Z.min_l by lia.
  assert (E : range_len a b 1 = b - a). { unfold range_len. change (1 >? 0) with true. cbn iota. rewrite Z.div_1_r. lia. }
  rewrite E. eexists. split; [reflexivity|]. cbn [mlen mget]. split; [easy|]. intros k Hk. unfold sliced_index, pydivmod.
  destruct (Z.eqb_spec (b - a) 0); [lia|]. cbn [bind fst snd]. rewrite Z.div_small, Z.mod_small by lia.
  f_equal. lia.
Qed.

Lemma slice_source {S} (o : source_obj S) d W i : whole o -> source_now o = Ok d -> 0 <= mlen d -> (i < W)%nat ->
  exists o' d', set_slice_source (Z.of_nat i) (Z.of_nat W) o = Ok o' /\ source_now o' = Ok d' /\
    mlen d' = Z.of_nat (part_size (Z.to_nat (mlen d)) W i) /\
    forall k, 0 <= k < mlen d' -> mget d' k = mget d (Z.of_nat (part_start (Z.to_nat (mlen d)) W i) + k).
Proof.
  intros Hw Hd Hn Hi. destruct o as [original now|inj start stop step a b]; cbn [whole source_now set_slice_source] in *.
  - subst original. injection Hd as <-. rewrite shard_ok by easy. cbn [bind].
    pose proof (even_split_part (Z.to_nat (mlen now)) W i Hi) as E. rewrite Z2Nat.id in E by easy. rewrite E. cbn iota.
    pose proof (part_bound (Z.to_nat (mlen now)) W i Hi) as Hb.
    destruct (slice_part now (Z.of_nat (part_start (Z.to_nat (mlen now)) W i))
      (Z.of_nat (part_start (Z.to_nat (mlen now)) W i + part_size (Z.to_nat (mlen now)) W i)) ltac:(lia) ltac:(lia)) as (sl & -> & El & Eg).
    cbn [bind]. do 2 eexists. split; [reflexivity|]. cbn [source_now]. split; [reflexivity|]. cbn [mlen mget source_ds]. split; [lia|].
    intros k Hk. rewrite pymod_ok by lia. cbn [bind]. rewrite Z.mod_small by lia. apply Eg. lia.
  - destruct Hw as [-> ->]. destruct (range_ds start (Some stop) step) as [r| |] eqn:Er; try discriminate.
    cbn [bind] in Hd. injection Hd as <-. rewrite shard_ok by easy. cbn [bind]. cbn [map_ds mlen] in Hn.
    assert (Hs : step <> 0) by (intros ->; discriminate).
    assert (El : mlen r = range_len start stop step /\ forall k, 0 <= k < mlen r -> mget r k = Ok (Some (start + k * step))).
    { unfold range_ds in Er. destruct (Z.eqb_spec step 0); [easy|]. cbv zeta in Er. injection Er as <-. cbn [mlen mget]. split; [easy|].
      intros k Hk. rewrite pymod_ok by lia. cbn [bind]. now rewrite Z.mod_small by lia. }
    destruct El as [El Eg]. cbn [map_ds mlen mget].
    pose proof (even_split_part (Z.to_nat (mlen r)) W i Hi) as E. rewrite Z2Nat.id in E by easy. rewrite <- El, E. cbn iota.
    pose proof (part_bound (Z.to_nat (mlen r)) W i Hi) as Hb.
    set (a := part_start (Z.to_nat (mlen r)) W i) in *. set (n := part_size (Z.to_nat (mlen r)) W i) in *.
    do 2 eexists. split; [reflexivity|]. cbn [source_now]. unfold range_ds. destruct (Z.eqb_spec step 0); [easy|]. cbn [bind].
    split; [reflexivity|]. cbn [mlen mget map_ds].
    assert (Hl : range_len (start + Z.of_nat a * step) (start + Z.of_nat (a + n) * step) step = Z.of_nat n).
    { unfold range_len. destruct (Z.gtb_spec step 0).
      - replace (start + Z.of_nat (a + n) * step - (start + Z.of_nat a * step) + step - 1) with (step - 1 + Z.of_nat n * step) by lia.
        rewrite Z.div_add, Z.div_small by lia. lia.
      - replace (start + Z.of_nat a * step - (start + Z.of_nat (a + n) * step) - step - 1) with (- step - 1 + Z.of_nat n * - step) by lia.
        rewrite Z.div_add, Z.div_small by lia. lia. }
    rewrite Hl. split; [easy|]. intros k Hk. rewrite pymod_ok by lia. cbn [bind]. rewrite Z.mod_small by lia.
    rewrite Eg by lia. cbn [bind map_element]. do 3 f_equal. lia.
Qed.

Lemma nth_update_nth {A} (l : list A) : forall k x, (k < length l)%nat -> nth_error (update_nth k x l) k = Some x.
Proof. induction l as [|y l IH]; intros [|k] x H; cbn in *; try lia; [easy|]. apply IH. lia. Qed.

(** ** Trees *)

Lemma plain_weaken {S A} (t : MTree S A) : plain false t = true -> plain true t = true.
Proof. induction t; cbn [plain] in *; try easy; auto. Qed.
Lemma unshuffled_plain {S A} (t : MTree S A) : plain false t = true -> unshuffled t = t.
Proof. induction t; cbn [plain unshuffled] in *; try easy; intros H; now rewrite IHt. Qed.

Lemma nth_map_nth {A} (d : A) (l : list A) : map (fun k => nth (Z.to_nat k) l d) (zrange 0 (length l)) = l.
Proof.
  unfold zrange. rewrite map_map. induction l as [|x l IH]; [easy|]. cbn [length seq map]. f_equal.
  rewrite <- seq_shift, map_map. rewrite <- IH at 2. apply map_ext. intros k.
  replace (Z.to_nat (0 + Z.of_nat (Datatypes.S k))) with (Datatypes.S k) by lia. now replace (Z.to_nat (0 + Z.of_nat k)) with k by lia.
Qed.

Definition big_enough (L : nat) : Prop := Z.of_nat L <= 2 ^ 63 /\ ~ bad_size (Z.of_nat L - 1).

Lemma Forall2_get {A} (P : Z -> A -> Prop) n l k d : Forall2 P (zrange 0 n) l -> 0 <= k < Z.of_nat n -> P k (nth (Z.to_nat k) l d).
Proof.
  intros H Hk. pose proof (Forall2_length _ _ _ H) as El. rewrite zrange_length in El.
  assert (E : nth_error l (Z.to_nat k) = Some (nth (Z.to_nat k) l d)) by (apply nth_error_nth'; lia).
  destruct (IterBasic_proofs.Forall2_nth _ _ _ _ _ H E) as (j & Hj & HP). rewrite nth_error_zrange in Hj.
  destruct (Nat.ltb_spec (Z.to_nat k) n); [|easy]. injection Hj as Hj. replace j with k in HP by lia. exact HP.
Qed.

Lemma Forall2_impl' {A B} (P Q : A -> B -> Prop) l m : (forall x y, P x y -> Q x y) -> Forall2 P l m -> Forall2 Q l m.
Proof. intros H. induction 1; constructor; auto. Qed.
Lemma shuffled_reads {X} (f : Z -> res Z) (g h : Z -> res X) L js : Forall2 (fun k j => g k = h j) (zrange 0 L) js ->
  forall l sigma, map f l = map Ok sigma -> (forall k, In k sigma -> 0 <= k < Z.of_nat L) ->
  Forall2 (fun k j => (let! x := f k in g x) = h j) l (map (fun k => nth (Z.to_nat k) js 0) sigma).
Proof.
  intros H. induction l as [|z l IH]; intros [|k sigma] E Hin; try discriminate; [constructor|].
  cbn [map] in *. injection E as Ez E. constructor.
  - rewrite Ez. cbn [bind]. apply (Forall2_get (fun k j => g k = h j) L js k 0 H). apply Hin. now left.
  - apply IH; [easy|]. intros j Hj. apply Hin. now right.
Qed.

(** Shuffling changes the order of the elements. *)
Lemma shuffle_step {X} gen_keys seed (p' u : MapDs X) L js : (seed <? 0) || (seed >=? 2 ^ 32) = false -> big_enough L ->
  mlen p' = Z.of_nat L -> Forall2 (fun k j => mget p' k = mget u j) (zrange 0 L) js ->
  exists q' js', shuffle_ds gen_keys seed p' = Ok q' /\ mlen q' = Z.of_nat L /\ Permutation js' js /\ Forall2 (fun k j => mget q' k = mget u j) (zrange 0 L) js'.
Proof.
  intros Hs Hb E5 E8.
  assert (Hsig : exists sigma, map (shuffled_index gen_keys (mlen p') seed) (zrange 0 L) = map Ok sigma /\ Permutation sigma (zrange 0 L)).
  { rewrite E5. destruct (Nat.eq_dec L 0) as [->|HL]; [exists []; easy|]. destruct Hb as [Hb1 Hb2].
    pose proof (shuffled_index_permutation gen_keys (Z.of_nat L) seed 0 ltac:(lia) Hb2) as HP.
    replace (0 * Z.of_nat L) with 0 in HP by lia. rewrite Nat2Z.id in HP.
    apply Permutation_map_inv in HP as (sigma & E & HP). exists sigma. split; [exact E|now symmetry]. }
  destruct Hsig as (sigma & Es & HP).
  pose proof (Forall2_length _ _ _ E8) as Ej. rewrite zrange_length in Ej.
  unfold shuffle_ds. rewrite Hs. cbv zeta. eexists. exists (map (fun k => nth (Z.to_nat k) js 0) sigma).
  split; [reflexivity|]. cbn [mlen mget]. split; [exact E5|]. split.
  - transitivity (map (fun k => nth (Z.to_nat k) js 0) (zrange 0 (length js))).
    + apply Permutation_map. now rewrite <- Ej.
    + now rewrite nth_map_nth.
  - assert (Hin : forall k, In k sigma -> 0 <= k < Z.of_nat L).
    { intros k Hk. apply (Permutation_in _ HP), in_zrange in Hk. lia. }
    now apply (shuffled_reads (shuffled_index gen_keys (mlen p') seed) (mget p') (mget u) L js).
Qed.

Lemma slice_m {S A} (t : MTree S A) st W i : (i < W)%nat -> Forall whole st -> plain true t = true ->
  forall ds, m_ds st t = Ok ds -> 0 <= mlen ds ->
  (plain false t = true \/ big_enough (part_size (Z.to_nat (mlen ds)) W i)) ->
  exists st' ds' u js, set_slices (Z.of_nat i) (Z.of_nat W) t st = Ok st' /\ m_ds st' t = Ok ds' /\
    m_ds st (unshuffled t) = Ok u /\ mlen u = mlen ds /\ mlen ds' = Z.of_nat (part_size (Z.to_nat (mlen ds)) W i) /\
    Permutation js (zrange (Z.of_nat (part_start (Z.to_nat (mlen ds)) W i)) (part_size (Z.to_nat (mlen ds)) W i)) /\
    (plain false t = true -> js = zrange (Z.of_nat (part_start (Z.to_nat (mlen ds)) W i)) (part_size (Z.to_nat (mlen ds)) W i)) /\
    Forall2 (fun k j => mget ds' k = mget u j) (zrange 0 (part_size (Z.to_nat (mlen ds)) W i)) js.
Proof.
  intros Hi Hw. induction t; cbn [plain unshuffled m_ds set_slices]; try discriminate; intros Hp ds Hds Hn Hb.
  - destruct (nth_error st k) as [o|] eqn:Eo; [|discriminate].
    assert (Ho : whole o) by (eapply (proj1 (Forall_forall _ _) Hw), nth_error_In, Eo).
    destruct (slice_source o ds W i Ho Hds Hn Hi) as (o' & d' & E1 & E2 & E3 & E4). rewrite E1. cbn [bind].
    exists (update_nth k o' st), d', ds, (zrange (Z.of_nat (part_start (Z.to_nat (mlen ds)) W i)) (part_size (Z.to_nat (mlen ds)) W i)).
    spl; auto.
    + rewrite nth_update_nth; [exact E2|]. apply nth_error_Some. congruence.
    + rewrite E3 in E4. rewrite (zrange_shift (Z.of_nat (part_start _ _ _))).
      assert (Hz : forall k, In k (zrange 0 (part_size (Z.to_nat (mlen ds)) W i)) -> 0 <= k < Z.of_nat (part_size (Z.to_nat (mlen ds)) W i))
        by (intros j Hj; apply in_zrange in Hj; lia).
      induction (zrange 0 _) as [|z l IH]; cbn [map]; constructor; [apply E4, Hz; now left|]. apply IH. intros j Hj. apply Hz. now right.
  - destruct (m_ds st t) as [p| |] eqn:Ep; try discriminate. cbn [bind] in Hds. injection Hds as <-. cbn [map_ds mlen] in *.
    destruct (IHt Hp p eq_refl Hn Hb) as (st' & p' & u & js & E1 & E2 & E3 & E4 & E5 & E6 & E7 & E8).
    exists st', (map_ds f p'), (map_ds f u), js. rewrite E1, E2, E3. spl; auto.
    eapply Forall2_impl'; [|exact E8]. intros x y H. cbn [map_ds mget]. now rewrite H.
  - destruct (m_ds st t) as [p| |] eqn:Ep; try discriminate. cbn [bind] in Hds. injection Hds as <-. cbn [filter_ds mlen] in *.
    destruct (IHt Hp p eq_refl Hn Hb) as (st' & p' & u & js & E1 & E2 & E3 & E4 & E5 & E6 & E7 & E8).
    exists st', (filter_ds f p'), (filter_ds f u), js. rewrite E1, E2, E3. spl; auto.
    eapply Forall2_impl'; [|exact E8]. intros x y H. cbn [filter_ds mget]. now rewrite H.
  - cbn [andb] in *. destruct (m_ds st t) as [p| |] eqn:Ep; try discriminate. cbn [bind] in Hds.
    destruct Hb as [Hb|Hb]; [discriminate|].
    assert (Hl : mlen ds = mlen p /\ (seed <? 0) || (seed >=? 2 ^ 32) = false).
    { unfold shuffle_ds in Hds. destruct ((seed <? 0) || (seed >=? 2 ^ 32)); [easy|]. cbv zeta in Hds. now injection Hds as <-. }
    destruct Hl as [Hl Hs]. rewrite Hl in *.
    destruct (IHt Hp p eq_refl Hn (or_intror Hb)) as (st' & p' & u & js & E1 & E2 & E3 & E4 & E5 & E6 & E7 & E8).
    set (L := part_size (Z.to_nat (mlen p)) W i) in *. set (a := part_start (Z.to_nat (mlen p)) W i) in *.
    destruct (shuffle_step gen_keys seed p' u L js Hs Hb E5 E8) as (q' & js' & F1 & F2 & F3 & F4).
    exists st', q', u, js'. cbn [m_ds]. rewrite E2. cbn [bind]. spl; auto; [now rewrite F3|discriminate].
Qed.

Lemma whole_m {S A} (t : MTree S A) st : plain true t = true ->
  forall ds, m_ds st t = Ok ds -> 0 <= mlen ds -> (plain false t = true \/ big_enough (Z.to_nat (mlen ds))) ->
  exists u js, m_ds st (unshuffled t) = Ok u /\ mlen u = mlen ds /\ Permutation js (zrange 0 (Z.to_nat (mlen ds))) /\
    (plain false t = true -> js = zrange 0 (Z.to_nat (mlen ds))) /\
    Forall2 (fun k j => mget ds k = mget u j) (zrange 0 (Z.to_nat (mlen ds))) js.
Proof.
  induction t; cbn [plain unshuffled m_ds]; try discriminate; intros Hp ds Hds Hn Hb.
  - exists ds, (zrange 0 (Z.to_nat (mlen ds))). spl; auto. induction (zrange _ _); constructor; easy.
  - destruct (m_ds st t) as [p| |] eqn:Ep; try discriminate. cbn [bind] in Hds. injection Hds as <-. cbn [map_ds mlen] in *.
    destruct (IHt Hp p eq_refl Hn Hb) as (u & js & E3 & E4 & E6 & E7 & E8).
    exists (map_ds f u), js. rewrite E3. spl; auto.
    eapply Forall2_impl'; [|exact E8]. intros x y H. cbn [map_ds mget]. now rewrite H.
  - destruct (m_ds st t) as [p| |] eqn:Ep; try discriminate. cbn [bind] in Hds. injection Hds as <-. cbn [filter_ds mlen] in *.
    destruct (IHt Hp p eq_refl Hn Hb) as (u & js & E3 & E4 & E6 & E7 & E8).
    exists (filter_ds f u), js. rewrite E3. spl; auto.
    eapply Forall2_impl'; [|exact E8]. intros x y H. cbn [filter_ds mget]. now rewrite H.
  - cbn [andb] in *. destruct (m_ds st t) as [p| |] eqn:Ep; try discriminate. cbn [bind] in Hds.
    destruct Hb as [Hb|Hb]; [discriminate|].
    assert (Hl : mlen ds = mlen p /\ (seed <? 0) || (seed >=? 2 ^ 32) = false).
    { unfold shuffle_ds in Hds. destruct ((seed <? 0) || (seed >=? 2 ^ 32)); [easy|]. cbv zeta in Hds. now injection Hds as <-. }
    destruct Hl as [Hl Hs]. rewrite Hl in *.
    destruct (IHt Hp p eq_refl Hn (or_intror Hb)) as (u & js & E3 & E4 & E6 & E7 & E8).
    destruct (shuffle_step gen_keys seed p u _ js Hs Hb ltac:(lia) E8) as (q' & js' & F1 & F2 & F3 & F4).
    rewrite Hds in F1. injection F1 as <-. exists u, js'. spl; auto; [now rewrite F3|discriminate].
Qed.

(** ** Workers *)

(** A pipeline that treats elements one by one only sees the element. *)
Lemma outcome_over {A B} (s : Stack A B) ds u pi pc k j : elementwise (over s u) = true -> not_random (over s u) = true ->
  mget ds k = mget u j -> outcome_at pi pc (over s ds) k = outcome (over s u) j.
Proof.
  induction s; cbn [over elementwise not_random outcome_at outcome]; try discriminate; intros He Hr E.
  - now rewrite E.
  - now rewrite IHs.
  - now rewrite IHs.
Qed.
Lemma over_len {A B} (s : Stack A B) ds : tree_len (over s ds) = mlen ds.
Proof. induction s; cbn [over tree_len]; auto. Qed.
Lemma over_elementwise {A B} (s : Stack A B) ds u : elementwise (over s ds) = elementwise (over s u).
Proof. induction s; cbn [over elementwise]; auto. Qed.
Lemma over_not_random {A B} (s : Stack A B) ds u : not_random (over s ds) = not_random (over s u).
Proof. induction s; cbn [over not_random]; auto. Qed.

Definition nth_of {X} (outs : list X) (j : Z) : list X := match nth_error outs (Z.to_nat j) with Some o => [o] | None => [] end.

Lemma outcomes_at {X} (g : Z -> res X) n outs : Forall2 (fun k o => g k = Ok o) (zrange 0 n) outs ->
  forall js, (forall j, In j js -> 0 <= j < Z.of_nat n) -> Forall2 (fun j o => g j = Ok o) js (flat_map (nth_of outs) js).
Proof.
  intros H js. pose proof (Forall2_length _ _ _ H) as El. rewrite zrange_length in El.
  induction js as [|j js IH]; intros Hj; [constructor|]. cbn [flat_map]. unfold nth_of at 1.
  pose proof (Hj j (or_introl eq_refl)) as Hj0.
  destruct (nth_error outs (Z.to_nat j)) as [o|] eqn:E; [|apply nth_error_None in E; lia].
  cbn [app]. constructor; [|apply IH; intros; apply Hj; now right].
  destruct (IterBasic_proofs.Forall2_nth _ _ _ _ _ H E) as (j' & Hj' & Ho). rewrite nth_error_zrange in Hj'.
  destruct (Nat.ltb_spec (Z.to_nat j) n); [|easy]. injection Hj' as Hj'. now replace j with j' by lia.
Qed.
Lemma flat_map_range {X} (outs : list X) : forall n a, (a + n <= length outs)%nat ->
  flat_map (nth_of outs) (zrange (Z.of_nat a) n) = firstn n (skipn a outs).
Proof.
  intros n a H. unfold zrange. rewrite flat_map_concat_map, map_map. revert a H. induction n as [|n IH]; intros a H; [easy|].
  cbn [seq map concat]. rewrite <- seq_shift, map_map.
  destruct (nth_error outs a) as [x|] eqn:E; [|apply nth_error_None in E; lia].
  assert (Es : skipn a outs = x :: skipn (S a) outs).
  { clear IH H. revert a E. induction outs as [|y outs IH]; intros [|a] E; try discriminate; [now injection E as ->|]. now apply IH. }
  rewrite Es. cbn [firstn]. rewrite <- (IH (S a)) by lia.
  unfold nth_of at 1. replace (Z.to_nat (Z.of_nat a + Z.of_nat 0)) with a by lia. rewrite E. cbn [app]. f_equal. f_equal.
  apply map_ext. intros k. f_equal. lia.
Qed.

Lemma emitted_perm {X} (a b : list (option X)) : Permutation a b -> Permutation (emitted a) (emitted b).
Proof. intros H. now apply Permutation_flat_map. Qed.

Definition good_worker {S A} (st : list (source_obj S)) (t : MTree S A) (n : nat) W i : Prop :=
  plain false t = true \/ big_enough (part_size n W i).

Lemma seq_worker_lawful {S A B} (st : list (source_obj S)) (t : MTree S A) (s : Stack A B) ds u outs W i :
  (i < W)%nat -> Forall whole st -> plain true t = true -> m_ds st t = Ok ds -> 0 <= mlen ds ->
  good_worker st t (Z.to_nat (mlen ds)) W i -> m_ds st (unshuffled t) = Ok u ->
  elementwise (over s u) = true -> not_random (over s u) = true -> outcomes (over s u) outs ->
  exists p outs', seq_worker W i st t s = Ok p /\ Permutation outs' (part W outs i) /\ (plain false t = true -> outs' = part W outs i) /\
    lawful p (emitted outs') true true true.
Proof.
  intros Hi Hw Hp Hds Hn Hg Hu He Hr Ho.
  destruct (slice_m t st W i Hi Hw Hp ds Hds Hn Hg) as (st' & ds' & u' & js & E1 & E2 & E3 & E4 & E5 & E6 & E7 & E8).
  rewrite Hu in E3. injection E3 as <-. unfold outcomes in Ho. rewrite over_len, E4 in Ho.
  pose proof (Forall2_length _ _ _ Ho) as El. rewrite zrange_length in El. rewrite El in *.
  assert (Hj : forall j, In j js -> 0 <= j < Z.of_nat (length outs)).
  { intros j Hj. apply (Permutation_in _ E6), in_zrange in Hj. pose proof (part_bound (length outs) W i Hi). lia. }
  assert (Eq : part W outs i = flat_map (nth_of outs) (zrange (Z.of_nat (part_start (length outs) W i)) (part_size (length outs) W i))).
  { unfold part. rewrite flat_map_range; [easy|]. now apply part_bound. }
  assert (Hrun : forall pi pc ds0 n js, (forall j, In j js -> 0 <= j < Z.of_nat (length outs)) -> mlen ds0 = Z.of_nat n -> Forall2 (fun k j => mget ds0 k = mget u j) (zrange 0 n) js ->
     exists p, tree_iter pi pc (over s ds0) = Ok p /\ lawful p (emitted (flat_map (nth_of outs) js)) true true true).
  { clear js E6 E7 E8 Hj. intros pi pc ds0 n js Hj En F. pose proof (outcomes_at _ _ _ Ho js Hj) as Hout. apply tree_lawful.
    - rewrite over_len. lia.
    - now rewrite (over_elementwise s ds0 u).
    - rewrite over_len, En, Nat2Z.id. revert Hout. generalize (flat_map (nth_of outs) js). clear - F He Hr. induction F as [|k j l js E F IH]; intros os H; inversion H; subst; constructor.
      + now rewrite (outcome_over s ds0 u pi pc k j).
      + now apply IH.
    - left. now rewrite (over_not_random s ds0 u). }
  unfold seq_worker. destruct (Nat.eqb_spec W 1) as [HW|HW].
  - assert (i = 0%nat) as -> by lia. subst W. cbn [bind]. rewrite Hds. cbn [bind].
    assert (Es : part_start (length outs) 1 0 = 0%nat /\ part_size (length outs) 1 0 = length outs).
    { unfold part_start, part_size. rewrite Nat.div_1_r, Nat.mod_1_r. cbn. lia. }
    destruct Es as [Es Ez]. unfold good_worker in Hg. rewrite Ez in *. rewrite Es in *.
    destruct (whole_m t st Hp ds Hds Hn) as (u' & js' & G1 & G2 & G3 & G4 & G5); [now rewrite El|].
    rewrite Hu in G1. injection G1 as <-. rewrite El in *.
    assert (Hrun' : exists p, tree_iter (Z.of_nat 0) (Z.of_nat 1) (over s ds) = Ok p /\ lawful p (emitted (flat_map (nth_of outs) js')) true true true).
    { apply (Hrun (Z.of_nat 0) (Z.of_nat 1) ds (length outs) js'); [|lia|exact G5].
      intros j Hjj. apply (Permutation_in _ G3), in_zrange in Hjj. lia. }
    destruct Hrun' as (p & Ep & L). exists p, (flat_map (nth_of outs) js'). spl; auto.
    + rewrite Eq. now apply Permutation_flat_map.
    + intros Hq. rewrite Eq. now rewrite (G4 Hq).
  - rewrite E1. cbn [bind]. rewrite E2. cbn [bind]. destruct (Hrun (Z.of_nat i) (Z.of_nat W) ds' _ js Hj E5 E8) as (p & Ep & L).
    exists p, (flat_map (nth_of outs) js). spl; auto.
    + rewrite Eq. now apply Permutation_flat_map.
    + intros Hq. rewrite Eq. now rewrite (E7 Hq).
Qed.

(** ** Before they are sliced, datasets are those of MapDatasets.v *)

Lemma built_slice {S A} st a b c (t t' : MTree S A) p : m_slice st a b c t = Ok t' -> m_ds st t = Ok p -> m_ds st t' = slice_ds a b c p.
Proof.
  unfold m_slice, slice_ds. intros H E. rewrite E in H. cbn [bind] in H. destruct (slice_indices a b c (mlen p)) as [[[x y] z]| |]; try discriminate.
  cbn [bind] in *. injection H as <-. cbn [m_ds]. now rewrite E.
Qed.
Lemma built_repeat {S A} st n reseed (t t' : MTree S A) p : m_repeat st n reseed t = Ok t' -> m_ds st t = Ok p -> m_ds st t' = repeat_ds n reseed p.
Proof.
  unfold m_repeat, repeat_ds. intros H E. rewrite E in H. cbn [bind] in H.
  destruct (match n with Some n => n <=? 0 | None => false end); [discriminate|]. destruct (mlen p >=? maxsize); [discriminate|].
  injection H as <-. cbn [m_ds]. now rewrite E.
Qed.
Lemma built_batch {S A B} st pushdown n drop (f : list (option A) -> res B) (t : MTree S A) t' p : m_batch st pushdown n drop f t = Ok t' -> m_ds st t = Ok p ->
  m_ds st t' = batch_ds pushdown n drop f p.
Proof.
  unfold m_batch, batch_ds. intros H E. rewrite E in H. cbn [bind] in H. destruct (n <=? 0); [discriminate|].
  injection H as <-. cbn [m_ds]. now rewrite E.
Qed.
Lemma built_concat {S A} st (t u t' : MTree S A) p q : m_concat st t u = Ok t' -> m_ds st t = Ok p -> m_ds st u = Ok q ->
  m_ds st t' = concatenate_ds [p; q].
Proof.
  unfold m_concat, concatenate_ds. intros H E E'. rewrite E, E' in H. cbn [bind map] in *. destruct (concat_selection_map _); try discriminate.
  cbn [bind] in *. injection H as <-. cbn [m_ds]. now rewrite E, E'.
Qed.
