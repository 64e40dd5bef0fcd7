(** The proportional selection of mix.py:314-348. *)
From Verif Require Import Base MapDatasets Spec ListFacts MapSlice_proofs MapShuffle_proofs MapOther_proofs.

(** [counts k r ps]: how often each component has been chosen before step [k]
    (the quantities curr_k - next_k of the loop). *)
Fixpoint counts (k r : Z) (ps : list Z) : list Z :=
  match ps with
  | [] => []
  | p :: ps' => let k' := k * (r - p) / r in (k - k') :: counts k' (r - p) ps'
  end.

Lemma zsum_pos ps : (forall p, In p ps -> 0 < p) -> ps <> [] -> 0 < zsum ps.
Proof.
  induction ps as [|p ps IH]; [easy|]. intros H _. cbn. fold (zsum ps).
  pose proof (H p (or_introl eq_refl)).
  destruct ps as [|p' ps]; [cbn; lia|]. assert (0 < zsum (p' :: ps)); [|lia].
  apply IH; [intros; apply H; now right|easy].
Qed.

Lemma zsum_nonneg ps : (forall p, In p ps -> 0 < p) -> 0 <= zsum ps.
Proof. intros H. destruct ps; [easy|]. apply Z.lt_le_incl, zsum_pos; easy. Qed.

Lemma div_step k r p : 0 < p <= r ->
  let d := (k + 1) * (r - p) / r - k * (r - p) / r in d = 0 \/ d = 1.
Proof.
  intros Hp d. assert (k * (r - p) / r <= (k + 1) * (r - p) / r) by (apply Z.div_le_mono; nia).
  assert ((k + 1) * (r - p) / r <= k * (r - p) / r + 1); [|lia].
  replace (k * (r - p) / r + 1) with ((k * (r - p) + 1 * r) / r) by (apply Z.div_add; lia).
  apply Z.div_le_mono; nia.
Qed.

(** The loop selects exactly the component whose count grows. *)
Lemma loop_spec ps : (forall p, In p ps -> 0 < p) -> ps <> [] -> forall i k,
  exists j c, nth_error (counts k (zsum ps) ps) j = Some c /\
    next_element_loop i k (k + 1) (zsum ps) ps = Ok (i + Z.of_nat j, c) /\
    counts (k + 1) (zsum ps) ps = update_nth j (c + 1) (counts k (zsum ps) ps).
Proof.
  induction ps as [|p ps IH]; [easy|]. intros Hpos _ i k.
  pose proof (Hpos p (or_introl eq_refl)) as Hp.
  assert (0 <= zsum ps) as Hsum by (apply zsum_nonneg; intros; apply Hpos; now right).
  assert (zsum (p :: ps) = p + zsum ps) as Hz by easy.
  cbn [next_element_loop counts]. rewrite Hz. set (r := p + zsum ps) in *.
  replace (r - p) with (zsum ps) by lia.
  pose proof (div_step k r p ltac:(lia)) as Hd. cbv zeta in Hd.
  replace (r - p) with (zsum ps) in Hd by lia.
  set (nk := k * zsum ps / r) in *. set (nk1 := (k + 1) * zsum ps / r) in *.
  destruct Hd as [Hd|Hd].
  - exists 0%nat, (k - nk). cbn [nth_error]. split; [easy|].
    destruct (Z.eqb_spec (k - nk) (k + 1 - nk1)); [lia|]. cbn [negb].
    split; [f_equal; f_equal; lia|]. cbn [update_nth].
    replace nk1 with nk by lia. f_equal. lia.
  - assert (ps <> []) as Hne.
    { intros ->. unfold nk, nk1 in Hd. cbn in Hd. rewrite !Z.mul_0_r, !Z.div_0_l in Hd by lia. lia. }
    assert (nk1 = nk + 1) as Hnk1 by lia. rewrite Hnk1.
    destruct (Z.eqb_spec (k - nk) (k + 1 - (nk + 1))); [|lia]. cbn [negb].
    destruct (IH (fun q Hq => Hpos q (or_intror Hq)) Hne (i + 1) nk) as (j & c & Hj & Hl & Hc).
    exists (S j), c. cbn [nth_error]. split; [easy|]. split.
    + rewrite Hl. f_equal. f_equal. lia.
    + cbn [update_nth]. rewrite Hc. f_equal. lia.
Qed.

Lemma counts_length k r ps : length (counts k r ps) = length ps.
Proof. revert k r. induction ps; intros; cbn; auto. Qed.

Lemma counts_zero r ps : (forall p, In p ps -> 0 < p) -> r = zsum ps ->
  counts 0 r ps = List.repeat 0 (length ps).
Proof.
  revert r. induction ps as [|p ps IH]; intros r Hpos Hr; [easy|].
  cbn [counts length List.repeat]. assert (zsum (p :: ps) = p + zsum ps) as Hz by easy.
  rewrite Z.mul_0_l, Zdiv_0_l. f_equal. apply IH; [intros; apply Hpos; now right|lia].
Qed.

(** Bounds on the counts. *)
Lemma counts_bounds ps : (forall p, In p ps -> 0 < p) -> forall j c p k,
  nth_error (counts k (zsum ps) ps) j = Some c -> nth_error ps j = Some p ->
  k * p - Z.of_nat j * zsum ps <= c * zsum ps < k * p + zsum ps.
Proof.
  induction ps as [|p ps IH]; intros Hpos [|j] c q k Hc Hq; try easy; cbn [nth_error counts] in *;
  pose proof (Hpos p (or_introl eq_refl)) as Hp;
  assert (0 <= zsum ps) as Hsum by (apply zsum_nonneg; intros; apply Hpos; now right);
  assert (zsum (p :: ps) = p + zsum ps) as Hz by easy; rewrite Hz in *; set (r := p + zsum ps) in *;
  replace (r - p) with (zsum ps) in * by lia;
  pose proof (Z.div_mod (k * zsum ps) r ltac:(lia)) as Hdm;
  pose proof (Z.mod_pos_bound (k * zsum ps) r ltac:(lia)) as Hmb;
  set (nk := k * zsum ps / r) in *; set (m := (k * zsum ps) mod r) in *.
  - injection Hc as <-. injection Hq as <-. split; nia.
  - specialize (IH (fun q Hq => Hpos q (or_intror Hq)) j c q nk Hc Hq).
    assert (0 < q) by (apply Hpos; right; now apply nth_error_In in Hq).
    assert (q <= zsum ps).
    { clear - Hpos Hq. assert (forall p, In p ps -> 0 < p) as Hpos' by (intros; apply Hpos; now right). clear Hpos.
      revert j Hq. induction ps as [|x ps IH]; intros [|j] Hq; try easy; cbn in *; fold (zsum ps) in *.
      - injection Hq as <-. assert (0 <= zsum ps) by (apply zsum_nonneg; intros; apply Hpos'; now right). lia.
      - assert (q <= zsum ps) by (apply (IH (fun p Hp => Hpos' p (or_intror Hp)) j); easy).
        pose proof (Hpos' x (or_introl eq_refl)). lia. }
    assert (0 < zsum ps) by lia.
    set (s := zsum ps) in *.
    (* r * nk = k * s - m, 0 <= m < r *)
    split.
    + (* from nk*q - j*s <= c*s *)
      assert (r * (nk * q - Z.of_nat j * s) <= r * (c * s)) by nia.
      assert (r * (nk * q) = k * s * q - m * q) by nia.
      assert (s * (k * q - Z.of_nat (S j) * r) <= s * (c * r)); [|nia]. nia.
    + assert (r * (c * s) < r * (nk * q + s)) by nia.
      assert (r * (nk * q) = k * s * q - m * q) by nia.
      assert (s * (c * r) < s * (k * q + r)); [|nia]. nia.
Qed.

(** Counts advance by exactly the proportions over a period. *)
Lemma counts_period ps : (forall p, In p ps -> 0 < p) -> forall k,
  counts (k + zsum ps) (zsum ps) ps = map (fun cp => fst cp + snd cp) (combine (counts k (zsum ps) ps) ps).
Proof.
  induction ps as [|p ps IH]; intros Hpos k; [easy|].
  pose proof (Hpos p (or_introl eq_refl)) as Hp.
  assert (0 <= zsum ps) as Hsum by (apply zsum_nonneg; intros; apply Hpos; now right).
  assert (zsum (p :: ps) = p + zsum ps) as Hz by easy. rewrite Hz. set (r := p + zsum ps) in *.
  cbn [counts combine map fst snd]. replace (r - p) with (zsum ps) by lia.
  replace ((k + r) * zsum ps / r) with (k * zsum ps / r + zsum ps).
  - f_equal; [lia|]. apply IH. intros; apply Hpos; now right.
  - replace ((k + r) * zsum ps) with (k * zsum ps + zsum ps * r) by lia. now rewrite Z.div_add by lia.
Qed.

Lemma keys_of_app c a b : keys_of c (a ++ b) = keys_of c a ++ keys_of c b.
Proof. unfold keys_of. now rewrite filter_app, map_app. Qed.

Lemma picks_spec ps n : (forall p, In p ps -> 0 < p) -> ps <> [] ->
  exists picks, map (fun k => dataset_and_key k ps) (zrange 0 n) = map Ok picks /\
    (forall dk, In dk picks -> 0 <= fst dk < Z.of_nat (length ps)) /\
    (forall c, (c < length ps)%nat ->
       nth_error (counts (Z.of_nat n) (zsum ps) ps) c = Some (Z.of_nat (length (keys_of (Z.of_nat c) picks))) /\
       keys_of (Z.of_nat c) picks = zrange 0 (length (keys_of (Z.of_nat c) picks))).
Proof.
  intros Hpos Hne. induction n as [|n (picks & Hp & Hin & Hk)].
  - exists []. split; [easy|]. split; [easy|]. intros c Hc. cbn. split; [|easy].
    rewrite counts_zero by easy. now rewrite nth_error_repeat.
  - destruct (loop_spec ps Hpos Hne 0 (Z.of_nat n)) as (j & c & Hj & Hl & Hcs).
    assert (j < length ps)%nat as Hjl.
    { rewrite <- (counts_length (Z.of_nat n) (zsum ps)). apply nth_error_Some. now rewrite Hj. }
    exists (picks ++ [(Z.of_nat j, c)]). split; [|split].
    + replace (S n) with (n + 1)%nat by lia. rewrite zrange_app, !map_app, Hp. f_equal.
      cbn. rewrite Z.add_0_r. unfold dataset_and_key. rewrite Hl. easy.
    + intros dk Hdk. apply in_app_iff in Hdk as [Hdk|[<-|[]]]; [auto|]. cbn [fst]. lia.
    + intros c' Hc'. rewrite keys_of_app, app_length.
      replace (Z.of_nat (S n)) with (Z.of_nat n + 1) by lia. rewrite Hcs, nth_update_nth.
      rewrite counts_length. destruct (Hk c' Hc') as [Hk1 Hk2].
      assert (keys_of (Z.of_nat c') [(Z.of_nat j, c)] = if Nat.eqb c' j then [c] else []) as ->.
      { unfold keys_of. cbn [filter fst]. destruct (Nat.eqb_spec c' j), (Z.eqb_spec (Z.of_nat j) (Z.of_nat c')); try lia; easy. }
      destruct (Nat.eqb_spec c' j) as [->|Hcj].
      * destruct (Nat.ltb_spec j (length ps)); [|lia]. cbn [andb length].
        rewrite Hj in Hk1. injection Hk1 as ->.
        split; [f_equal; lia|]. rewrite zrange_app, <- Hk2. f_equal.
        cbn [zrange seq map]. f_equal. lia.
      * cbn [andb length]. rewrite Nat.add_0_r, app_nil_r. split; easy.
Qed.

Lemma dataset_and_key_total ps k : (forall p, In p ps -> 0 < p) -> ps <> [] ->
  exists d key, dataset_and_key k ps = Ok (d, key) /\ 0 <= d < Z.of_nat (length ps).
Proof.
  intros Hpos Hne. destruct (loop_spec ps Hpos Hne 0 k) as (j & c & Hj & Hl & _).
  exists (0 + Z.of_nat j), c. split; [exact Hl|].
  assert (j < length ps)%nat; [|lia].
  rewrite <- (counts_length k (zsum ps)). apply nth_error_Some. now rewrite Hj.
Qed.

(** The selection within the length of the mixture stays inside each component. *)
Lemma proportions_map_inv lens ps sel : proportions_map lens ps = Ok sel ->
  (forall p, In p ps -> p <> 0) /\ length lens = length ps /\ (forall l, In l lens -> l <> 0) /\
  ps <> [] /\ (forall k, sel_get sel k = dataset_and_key k ps) /\
  sel_len sel <= maxsize /\
  (forall j l p, nth_error lens j = Some l -> nth_error ps j = Some p -> sel_len sel <= l * zsum ps / p) /\
  (sel_len sel = maxsize \/ exists j l p, nth_error lens j = Some l /\ nth_error ps j = Some p /\ sel_len sel = l * zsum ps / p).
Proof.
  unfold proportions_map. destruct (existsb (Z.eqb 0) ps) eqn:E1; [easy|].
  destruct (Nat.eqb_spec (length lens) (length ps)) as [Hlen|]; [|easy]. cbn [negb].
  destruct (existsb (Z.eqb 0) lens) eqn:E2; [easy|].
  destruct (map _ (combine lens ps)) as [|l0 ls] eqn:El; [easy|]. intros [= <-]. cbn [sel_get sel_len].
  assert (forall l, existsb (Z.eqb 0) l = false -> forall x, In x l -> x <> 0) as Hex.
  { intros l Hl x Hx ->. assert (existsb (Z.eqb 0) l = true); [|congruence].
    apply existsb_exists. exists 0. now rewrite Z.eqb_refl. }
  assert (forall m l, fold_left Z.min l m <= m /\ (forall x, In x l -> fold_left Z.min l m <= x) /\
      (fold_left Z.min l m = m \/ In (fold_left Z.min l m) l)) as Hmin.
  { intros m l. revert m. induction l as [|x l IH]; intros m; cbn; [split; [lia|]; split; [easy|now left]|].
    destruct (IH (Z.min m x)) as (H1 & H2 & H3). split; [lia|]. split.
    - intros y [<-|Hy]; [lia|auto].
    - destruct H3 as [H3|H3]; [|auto]. rewrite H3. destruct (Z.min_spec m x) as [[? ->]|[? ->]]; auto. }
  destruct (Hmin l0 ls) as (H1 & H2 & H3).
  repeat split; try easy; try lia.
  - now apply Hex.
  - now apply Hex.
  - intros ->. now rewrite combine_nil in El.
  - intros j l p Hl Hp.
    assert (nth_error (combine lens ps) j = Some (l, p)) as Hc.
    { clear - Hl Hp. revert j ps Hl Hp. induction lens as [|x lens IH]; intros [|j] [|y ps] Hl Hp; cbn in *; try easy.
      - congruence.
      - now apply IH. }
    assert (In (l * zsum ps / p) (l0 :: ls)) as Hin.
    { rewrite <- El. apply nth_error_In in Hc. apply in_map_iff. exists (l, p). easy. }
    destruct Hin as [->|Hin]; [lia|]. apply H2 in Hin. lia.
  - assert (In (fold_left Z.min ls l0) (l0 :: ls)) as Hin by (destruct H3 as [->|H3]; [now left|now right]).
    destruct (Z.le_ge_cases maxsize (fold_left Z.min ls l0)); [left; lia|]. right.
    rewrite Z.min_r by easy. rewrite <- El in Hin. apply in_map_iff in Hin as ([l p] & Heq & Hin).
    apply In_nth_error in Hin as (j & Hj). exists j, l, p.
    assert (nth_error lens j = Some l /\ nth_error ps j = Some p) as [? ?]; [|easy].
    { clear - Hj. revert j ps Hj. induction lens as [|x lens IH]; intros [|j] [|y ps] Hj; cbn in *; try easy.
      - now injection Hj as -> ->.
      - now apply IH. }
Qed.

Lemma mix_key_bound ps k j p l : (forall p, In p ps -> 0 < p) ->
  nth_error ps j = Some p -> (k + 1) * p <= l * zsum ps ->
  forall key, dataset_and_key k ps = Ok (Z.of_nat j, key) -> key < l.
Proof.
  intros Hpos Hj Hle key Hk.
  assert (ps <> []) as Hne by (intros ->; now destruct j).
  destruct (loop_spec ps Hpos Hne 0 k) as (j' & c & Hc & Hl & Hcs).
  unfold dataset_and_key in Hk. rewrite Hl in Hk. injection Hk as Hjj <-.
  assert (j' = j) as -> by lia.
  assert (nth_error (counts (k + 1) (zsum ps) ps) j = Some (c + 1)) as Hc1.
  { rewrite Hcs, nth_update_nth, Nat.eqb_refl. cbn [andb].
    assert (j < length (counts k (zsum ps) ps))%nat by (apply nth_error_Some; now rewrite Hc).
    destruct (Nat.ltb_spec j (length (counts k (zsum ps) ps))); [easy|lia]. }
  destruct (counts_bounds ps Hpos j (c + 1) p (k + 1) Hc1 Hj) as [_ Hub].
  pose proof (zsum_pos ps Hpos Hne). nia.
Qed.

Lemma counts_nonneg ps k : (forall p, In p ps -> 0 < p) -> ps <> [] -> 0 <= k ->
  forall j c, nth_error (counts k (zsum ps) ps) j = Some c -> 0 <= c.
Proof.
  intros Hpos Hne Hk j c Hc. destruct (picks_spec ps (Z.to_nat k) Hpos Hne) as (picks & _ & _ & H).
  assert (j < length ps)%nat as Hj by (rewrite <- (counts_length k (zsum ps)); apply nth_error_Some; now rewrite Hc).
  destruct (H j Hj) as [H1 _]. rewrite Z2Nat.id in H1 by easy. rewrite H1 in Hc. injection Hc as <-. lia.
Qed.
