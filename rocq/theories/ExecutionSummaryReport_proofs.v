(** Proofs about what the nodes of an execution summary record. *)
From Coq Require Import QArith Lqa String.
From Verif Require Import Base Tree ExecutionSummary ExecutionSummarySpec ExecutionSummary_proofs ExecutionSummaryBuild_proofs.
Open Scope Z_scope.

Local Ltac spl := repeat match goal with |- _ /\ _ => split end.

(** ** report *)

(** What is true of a node after the records [rs]. *)
Record recorded (i : info) (rs : list (Z * Z)) : Prop := {
  rec_count : i_count i = zsum (map snd rs);
  rec_total : i_total i = zsum (map fst rs);
  rec_min : forall r, In r rs -> i_min i <= fst r / snd r;
  rec_max : forall r, In r rs -> fst r / snd r <= i_max i;
  rec_min_is : i_min i = maxsize \/ exists r, In r rs /\ i_min i = fst r / snd r;
  rec_max_is : i_max i = 0 \/ exists r, In r rs /\ i_max i = fst r / snd r;
  rec_min_le : i_min i <= maxsize;
  rec_max_ge : 0 <= i_max i;
}.
Lemma zsum_app l l' : zsum (l ++ l') = zsum l + zsum l'.
Proof. unfold zsum. induction l as [|x l IH]; cbn; [lia|]. rewrite IH. lia. Qed.
Lemma zsum_rev l : zsum (rev l) = zsum l.
Proof. induction l as [|x l IH]; [reflexivity|]. cbn [rev]. rewrite zsum_app, IH. unfold zsum. cbn [fold_right]. lia. Qed.
Lemma recorded_fresh name : recorded (fresh_info name) [].
Proof. constructor; cbn; try tauto; try lia; reflexivity. Qed.
Lemma recorded_one i rs r : recorded i rs -> recorded (record_time i r) (if 0 <? snd r then rs ++ [r] else rs).
Proof.
  intros H. destruct r as [d n]. unfold record_time. cbn [snd]. destruct (n <=? 0) eqn:E1; destruct (0 <? n) eqn:E2; try lia; [exact H|].
  destruct H as [H1 H2 H3 H4 H5 H6 H7 H8]. constructor; cbn [i_count i_total i_min i_max].
  - rewrite map_app, zsum_app. cbn. lia.
  - rewrite map_app, zsum_app. cbn. lia.
  - intros r Hr. apply in_app_iff in Hr. destruct Hr as [Hr|[<-|[]]]; cbn [fst snd]; [specialize (H3 r Hr)|]; lia.
  - intros r Hr. apply in_app_iff in Hr. destruct Hr as [Hr|[<-|[]]]; cbn [fst snd]; [specialize (H4 r Hr)|]; lia.
  - destruct (Z.le_gt_cases (d / n) (i_min i)) as [L|L].
    + right. exists (d, n). split; [apply in_app_iff; right; now left|]. cbn. lia.
    + rewrite Z.min_l by lia. destruct H5 as [H5|(r & Hr & H5)]; [now left|right]. exists r. split; [apply in_app_iff; now left|exact H5].
  - destruct (Z.le_gt_cases (i_max i) (d / n)) as [L|L].
    + right. exists (d, n). split; [apply in_app_iff; right; now left|]. cbn. lia.
    + rewrite Z.max_l by lia. destruct H6 as [H6|(r & Hr & H6)]; [now left|right]. exists r. split; [apply in_app_iff; now left|exact H6].
  - lia.
  - lia.
Qed.
Lemma recorded_all times : forall i rs, recorded i rs -> recorded (fold_left record_time times i) (rs ++ filter (fun r => 0 <? snd r) times).
Proof.
  induction times as [|r times IH]; intros i rs H; cbn [fold_left filter]; [now rewrite app_nil_r|].
  specialize (IH _ _ (recorded_one i rs r H)). destruct (0 <? snd r); [|exact IH]. rewrite <- app_assoc in IH. exact IH.
Qed.
Lemma recorded_perm i rs rs' : Permutation rs rs' -> recorded i rs -> recorded i rs'.
Proof.
  intros P [H1 H2 H3 H4 H5 H6 H7 H8].
  assert (forall f : Z * Z -> Z, zsum (map f rs) = zsum (map f rs')) as Z0.
  { intros f. unfold zsum. clear - P. induction P; cbn in *; lia. }
  constructor.
  - now rewrite <- Z0.
  - now rewrite <- Z0.
  - intros r Hr. apply H3. eapply Permutation_in; [symmetry; exact P|exact Hr].
  - intros r Hr. apply H4. eapply Permutation_in; [symmetry; exact P|exact Hr].
  - destruct H5 as [H5|(r & Hr & H5)]; [now left|right]. exists r. split; [eapply Permutation_in; eassumption|exact H5].
  - destruct H6 as [H6|(r & Hr & H6)]; [now left|right]. exists r. split; [eapply Permutation_in; eassumption|exact H6].
  - exact H7.
  - exact H8.
Qed.
Lemma fold_add l : forall a, fold_left Z.add l a = a + zsum l.
Proof. induction l as [|x l IH]; intros a; cbn [fold_left zsum fold_right]; [lia|]. rewrite IH. unfold zsum. lia. Qed.
Lemma filter_rev {A} (f : A -> bool) l : filter f (rev l) = rev (filter f l).
Proof.
  induction l as [|x l IH]; [reflexivity|]. cbn [rev filter]. rewrite filter_app, IH. cbn [filter]. destruct (f x); [reflexivity|]. apply app_nil_r.
Qed.
Lemma record_other times : forall i, i_name (fold_left record_time times i) = i_name i /\
  i_consumed (fold_left record_time times i) = i_consumed i /\ i_produced (fold_left record_time times i) = i_produced i.
Proof.
  induction times as [|[d n] times IH]; intros i; cbn [fold_left]; [tauto|]. destruct (IH (record_time i (d, n))) as (-> & -> & ->).
  unfold record_time. destruct (n <=? 0); cbn; tauto.
Qed.
Lemma report_spec i rs call : recorded i rs ->
  let i' := report i (fst (fst call)) (snd (fst call)) (snd call) in
  recorded i' (rs ++ filter (fun r => 0 <? snd r) (fst (fst call))) /\
  i_name i' = i_name i /\ i_consumed i' = i_consumed i + zsum (snd (fst call)) /\ i_produced i' = i_produced i + zsum (snd call).
Proof.
  intros H. destruct call as [[times consumed] produced]. cbn [fst snd]. unfold report. cbv zeta.
  pose proof (recorded_all (rev times) i rs H) as R. rewrite filter_rev in R.
  destruct (record_other (rev times) i) as (O1 & O2 & O3). cbn [i_name i_consumed i_produced]. split; [|spl].
  - eapply recorded_perm; [|destruct R as [R1 R2 R3 R4 R5 R6 R7 R8]; constructor; eassumption].
    apply Permutation_app_head. symmetry. apply Permutation_rev.
  - exact O1.
  - rewrite fold_add, zsum_rev. lia.
  - rewrite fold_add, zsum_rev. lia.
Qed.
Lemma after_reports_spec name calls :
  recorded (after_reports name calls) (records calls) /\ i_name (after_reports name calls) = name /\
  i_consumed (after_reports name calls) = zsum (flat_map (fun call => snd (fst call)) calls) /\
  i_produced (after_reports name calls) = zsum (flat_map (fun call => snd call) calls).
Proof.
  unfold after_reports, records.
  cut (forall i rs, recorded i rs ->
    let i' := fold_left (fun i call => report i (fst (fst call)) (snd (fst call)) (snd call)) calls i in
    recorded i' (rs ++ filter (fun r => 0 <? snd r) (flat_map (fun call => fst (fst call)) calls)) /\ i_name i' = i_name i /\
    i_consumed i' = i_consumed i + zsum (flat_map (fun call => snd (fst call)) calls) /\
    i_produced i' = i_produced i + zsum (flat_map (fun call => snd call) calls)).
  { intros H. exact (H (fresh_info name) [] (recorded_fresh name)). }
  induction calls as [|call calls IH]; intros i rs H; cbn [fold_left flat_map]; [rewrite app_nil_r; cbn; spl; try lia; tauto|].
  destruct (report_spec i rs call H) as (R & E1 & E2 & E3). destruct (IH _ _ R) as (R' & F1 & F2 & F3). cbv zeta. spl.
  - rewrite filter_app, app_assoc. exact R'.
  - congruence.
  - rewrite F2, E2, zsum_app. lia.
  - rewrite F3, E3, zsum_app. lia.
Qed.

(** ** Averages *)

Definition sane (i : info) : Prop :=
  0 <= i_count i /\ 0 <= i_total i /\ i_count i * i_min i <= i_total i /\ i_total i <= i_count i * i_max i + Z.max 0 (i_count i - 1).
Lemma recorded_sane i rs : recorded i rs -> (forall r, In r rs -> 0 <= fst r /\ 0 < snd r) -> sane i.
Proof.
  intros [H1 H2 H3 H4 _ _ _ H8] P. unfold sane. rewrite H1, H2. clear H1 H2. revert H3 H4 P. generalize (i_min i) as lo, (i_max i) as hi, H8. clear.
  intros lo hi Hhi H3 H4 P.
  assert (0 <= zsum (map snd rs) /\ 0 <= zsum (map fst rs) /\ zsum (map snd rs) * lo <= zsum (map fst rs) /\
          (rs = [] \/ zsum (map fst rs) < zsum (map snd rs) * hi + zsum (map snd rs)) /\ (rs = [] \/ 0 < zsum (map snd rs))) as A.
  { induction rs as [|[d n] rs IH]; [cbn; spl; try lia; now left|].
    destruct IH as (I1 & I2 & I3 & I4 & I5); [intros; apply H3; now right|intros; apply H4; now right|intros; apply P; now right|].
    destruct (P (d, n) (or_introl eq_refl)) as [P1 P2]. specialize (H3 (d, n) (or_introl eq_refl)). specialize (H4 (d, n) (or_introl eq_refl)). cbn [fst snd] in *.
    change (zsum (map snd ((d, n) :: rs))) with (n + zsum (map snd rs)). change (zsum (map fst ((d, n) :: rs))) with (d + zsum (map fst rs)).
    pose proof (Z.mul_div_le d n P2) as D1. pose proof (Z.mul_succ_div_gt d n P2) as D2.
    assert (n * lo <= n * (d / n)) by (apply Z.mul_le_mono_nonneg_l; lia).
    assert (n * (d / n) <= n * hi) by (apply Z.mul_le_mono_nonneg_l; lia).
    rewrite !Z.mul_add_distr_r. rewrite Z.mul_succ_r in D2. spl; try (lia || (right; lia)).
    right. destruct I4 as [->|I4]; [cbn; lia|lia]. }
  destruct A as (A1 & A2 & A3 & A4 & A5). spl; try assumption. destruct A4 as [->|A4]; [cbn; lia|]. lia.
Qed.
Lemma sane_add a b : sane a -> sane b -> sane (add_info a b).
Proof.
  unfold sane, add_info. cbn. intros (A1 & A2 & A3 & A4) (B1 & B2 & B3 & B4). rewrite !Z.mul_add_distr_r.
  assert (i_count a * Z.min (i_min a) (i_min b) <= i_count a * i_min a) by (apply Z.mul_le_mono_nonneg_l; lia).
  assert (i_count b * Z.min (i_min a) (i_min b) <= i_count b * i_min b) by (apply Z.mul_le_mono_nonneg_l; lia).
  assert (i_count a * i_max a <= i_count a * Z.max (i_max a) (i_max b)) by (apply Z.mul_le_mono_nonneg_l; lia).
  assert (i_count b * i_max b <= i_count b * Z.max (i_max a) (i_max b)) by (apply Z.mul_le_mono_nonneg_l; lia).
  spl; lia.
Qed.
Lemma sane_average n : sane (n_info n) -> 0 < i_count (n_info n) -> i_min (n_info n) <= avg_processing_time n <= i_max (n_info n).
Proof.
  intros (A1 & A2 & A3 & A4) C. unfold avg_processing_time. destruct (i_count (n_info n) =? 0) eqn:E; [lia|].
  rewrite Z.quot_div_nonneg by lia. split.
  - apply Z.div_le_lower_bound; [exact C|exact A3].
  - apply Z.lt_succ_r. apply Z.div_lt_upper_bound; [exact C|]. rewrite Z.mul_succ_r. lia.
Qed.

(** ** Properties of all nodes of a tree *)

Section All.
Variable P : info -> Prop.
Hypothesis Padd : forall a b, P a -> P b -> P (add_info a b).
Hypothesis Pcon : forall a k, P a -> P (consuming a k).
Definition all_infos (v : view) : Prop := Forall P (view_infos v).
Lemma all_infos_eq i p ks : all_infos (V i p ks) <-> P i /\ Forall all_infos ks.
Proof.
  unfold all_infos. cbn [view_infos]. rewrite Forall_cons_iff. apply and_iff_compat_l. induction ks as [|k ks IH]; cbn [flat_map].
  - split; constructor.
  - rewrite Forall_app, Forall_cons_iff, IH. reflexivity.
Qed.
Lemma all_vmerge v : forall w, all_infos v -> all_infos w -> all_infos (vmerge v w).
Proof.
  induction v as [i p ks IH] using view_ind'. intros [j q ls]. rewrite vmerge_eq, !all_infos_eq. intros [A1 A2] [B1 B2]. split; [now apply Padd|].
  revert ls B2. induction IH as [|k ks Hk _ IHks]; intros [|l ls] B2; cbn [zip_views]; try constructor.
  - inversion A2; subst. inversion B2; subst. now apply Hk.
  - inversion A2; subst. inversion B2; subst. now apply IHks.
Qed.
Lemma all_expected t : Forall P (infos t) -> all_infos (expected t).
Proof.
  induction t as [i p ps IH|i ps IH|i|i p IH] using stats_ind'; cbn [infos expected]; intros H; apply Forall_cons_iff in H; destruct H as [Hi H].
  - apply all_infos_eq. split; [exact Hi|]. clear Hi. induction IH as [|q ps Hq _ IHps]; cbn [map flat_map] in *; [constructor|].
    apply Forall_app in H. destruct H. constructor; auto.
  - assert (Forall all_infos (map expected ps)) as A.
    { clear Hi. induction IH as [|q ps Hq _ IHps]; cbn [map flat_map] in *; [constructor|]. apply Forall_app in H. destruct H. constructor; auto. }
    destruct (same_size _); [|apply all_infos_eq; split; [exact Hi|constructor]].
    destruct (map expected ps) as [|v vs]; cbn [over]; apply all_infos_eq; (split; [now apply Pcon|]); [constructor|].
    constructor; [|constructor]. inversion A as [|? ? A1 A2]; subst. clear A. revert v A1. induction A2 as [|w vs Hw _ IHvs]; intros v A1; cbn [fold_left]; [exact A1|].
    apply IHvs. now apply all_vmerge.
  - cbn [over]. apply all_infos_eq. split; [now apply Pcon|constructor].
  - cbn [over fold_left]. apply all_infos_eq. split; [now apply Pcon|]. constructor; [now apply IH|constructor].
Qed.
Lemma shows_infos s v : forall id k, shows s id v -> (id <= k < id + vsize v)%nat -> In (n_info (node_at s k)) (view_infos v).
Proof.
  induction v as [i p ks IH] using view_ind'. intros id k H K. apply shows_eq in H. destruct H as (H1 & _ & _ & H4). cbn [view_infos].
  destruct (Nat.eq_dec k id) as [->|NE]; [now left|right]. cbn [vsize] in K. assert (S id <= k < S id + list_sum (map vsize ks))%nat as K' by lia. clear K NE H1.
  revert H4 K'. generalize (S id). induction IH as [|x ks Hx _ IHks]; intros next H4 K; cbn in K; [lia|].
  change (fold_right Nat.add 0%nat (map vsize ks)) with (list_sum (map vsize ks)) in K. cbn [shows_all] in H4. destruct H4 as [H1 H2].
  cbn [flat_map]. apply in_app_iff. destruct (Nat.lt_ge_cases k (next + vsize x)) as [L|L].
  - left. apply Hx with next; [exact H1|lia].
  - right. apply IHks with (next + vsize x)%nat; [exact H2|lia].
Qed.
Lemma draws_all s t : draws s (expected t) -> Forall P (infos t) -> forall k n, In (k, n) s -> P (n_info n).
Proof.
  intros (K & S0 & _) H k n Hn. assert (NoDup (map fst s)) as N by (rewrite K; apply seq_NoDup).
  pose proof (node_at_In s k N n Hn) as E. apply (in_map fst) in Hn. cbn in Hn. rewrite K in Hn. apply in_seq in Hn.
  pose proof (shows_infos s (expected t) 0 k S0 ltac:(lia)) as I. rewrite E in I.
  exact (proj1 (Forall_forall _ _) (all_expected t H) _ I).
Qed.
End All.

Lemma positive_measured v : narrow v -> all_infos (fun i => 0 < i_total i) v -> 0 < group_time v /\ measured v.
Proof.
  induction v as [i p ks IH] using view_ind'. intros N A. apply all_infos_eq in A. destruct A as [A1 A2]. inversion N as [? ? ? N1 N2]; subst.
  assert (Forall (fun k => 0 < group_time k /\ measured k) ks) as B.
  { clear N1 A1 N. induction IH as [|k ks Hk _ IHks]; [constructor|]. inversion A2; subst. inversion N2; subst. constructor; auto. }
  split.
  - cbn [group_time]. destruct p; [lia|]. assert (0 <= fold_right Z.add 0 (map group_time ks)); [|lia].
    clear - B. induction B as [|k ks [B1 _] _ IH]; cbn; lia.
  - constructor.
    + intros E. split; [now apply N1|]. eapply Forall_impl; [|exact B]. cbn. intros k [G _]. lia.
    + eapply Forall_impl; [|exact B]. cbn. tauto.
Qed.

(** ** Sorting *)

Definition ratio_le (a b : node) : Prop := (n_ratio a <= n_ratio b)%Q.
Inductive ascending : list node -> Prop :=
| ascending_nil : ascending []
| ascending_cons n l : Forall (ratio_le n) l -> ascending l -> ascending (n :: l).
Lemma insert_perm n l : Permutation (insert_by_ratio n l) (n :: l).
Proof.
  induction l as [|m l IH]; cbn [insert_by_ratio]; [reflexivity|]. destruct (Qle_bool _ _); [reflexivity|]. rewrite IH. apply perm_swap.
Qed.
Lemma insert_ascending n l : ascending l -> ascending (insert_by_ratio n l).
Proof.
  induction 1 as [|m l H1 H2 IH]; cbn [insert_by_ratio]; [constructor; constructor|].
  destruct (Qle_bool (n_ratio n) (n_ratio m)) eqn:E.
  - apply Qle_bool_iff in E. constructor; [|now constructor]. constructor; [exact E|]. eapply Forall_impl; [|exact H1].
    unfold ratio_le. intros x Hx. lra.
  - assert (n_ratio m <= n_ratio n)%Q as L. { apply Qlt_le_weak. apply Qnot_le_lt. intros C. apply Qle_bool_iff in C. congruence. }
    constructor; [|exact IH]. eapply Permutation_Forall; [symmetry; apply insert_perm|]. constructor; [exact L|exact H1].
Qed.
Lemma sort_perm l : Permutation (sort_by_ratio l) l.
Proof. unfold sort_by_ratio. induction l as [|n l IH]; cbn [fold_right]; [reflexivity|]. rewrite insert_perm. now constructor. Qed.
Lemma sort_ascending l : ascending (sort_by_ratio l).
Proof. unfold sort_by_ratio. induction l as [|n l IH]; cbn [fold_right]; [constructor|]. now apply insert_ascending. Qed.
Lemma ascending_last l d : ascending l -> Forall (fun n => ratio_le n (last l d)) l.
Proof.
  induction 1 as [|n l H1 H2 IH]; [constructor|]. destruct l as [|m l].
  - constructor; [unfold ratio_le; cbn; lra|constructor].
  - constructor.
    + change (last (n :: m :: l) d) with (last (m :: l) d). apply (proj1 (Forall_forall _ _) H1).
      destruct (exists_last (l := m :: l) ltac:(discriminate)) as (l' & x & E). rewrite E, last_last. apply in_app_iff. right. now left.
    + exact IH.
Qed.
Lemma combine_fst {A B} (l : list A) : forall l' : list B, length l = length l' -> map fst (combine l l') = l.
Proof. induction l as [|x l IH]; intros [|y l'] H; cbn in *; try discriminate; [reflexivity|]. injection H as H. now rewrite IH. Qed.
Lemma combine_snd {A B} (l : list A) : forall l' : list B, length l = length l' -> map snd (combine l l') = l'.
Proof. induction l as [|x l IH]; intros [|y l'] H; cbn in *; try discriminate; [reflexivity|]. injection H as H. now rewrite IH. Qed.
