(** Proofs about execution summaries. *)
From Coq Require Import QArith Lqa String.
From Verif Require Import Base Tree ExecutionSummary ExecutionSummarySpec.
Open Scope Z_scope.

Local Ltac spl := repeat match goal with |- _ /\ _ => split end.

(** ** Views *)

Section ViewInd.
Variable P : view -> Prop.
Hypothesis HV : forall i p ks, Forall P ks -> P (V i p ks).
Fixpoint view_ind' (v : view) : P v :=
  match v with
  | V i p ks => HV i p ks ((fix all (ks : list view) : Forall P ks :=
      match ks with [] => Forall_nil _ | k :: ks => Forall_cons _ (view_ind' k) (all ks) end) ks)
  end.
End ViewInd.

Fixpoint shows_all (s : summary) (next : nat) (ks : list view) : Prop :=
  match ks with [] => True | k :: ks => shows s next k /\ shows_all s (next + vsize k)%nat ks end.
Lemma shows_eq s id i p ks :
  shows s id (V i p ks) <->
  n_info (node_at s id) = i /\ n_prefetch (node_at s id) = p /\ n_inputs (node_at s id) = starts (S id) ks /\ shows_all s (S id) ks.
Proof.
  cbn [shows]. assert (forall next, (fix all (next : nat) (ks : list view) : Prop :=
         match ks with [] => True | k :: ks => shows s next k /\ all (next + vsize k)%nat ks end) next ks <-> shows_all s next ks) as E.
  { induction ks as [|k ks IH]; intros next; cbn [shows_all]; [tauto|]. now rewrite IH. }
  now rewrite E.
Qed.
Lemma vsize_pos v : (1 <= vsize v)%nat. Proof. destruct v. cbn [vsize]. lia. Qed.
Notation sizes ks := (list_sum (map vsize ks)).

Lemma like_refl n : like_node n n. Proof. unfold like_node. tauto. Qed.
Lemma like_trans a b c : like_node a b -> like_node b c -> like_node a c.
Proof. unfold like_node. intuition congruence. Qed.

(** [shows] looks at the nodes of the tree only, and not at the ratios. *)
Lemma shows_ext s s' v : forall id,
  (forall k, (id <= k < id + vsize v)%nat -> like_node (node_at s k) (node_at s' k)) -> shows s id v -> shows s' id v.
Proof.
  induction v as [i p ks IH] using view_ind'. intros id L. rewrite !shows_eq.
  pose proof (vsize_pos (V i p ks)) as P0.
  destruct (L id ltac:(lia)) as (_ & E1 & E2 & _ & E3). rewrite E1, E2, E3.
  intros (-> & -> & -> & H). spl; try reflexivity.
  assert (forall next, (id < next)%nat -> (next + sizes ks <= id + vsize (V i p ks))%nat -> shows_all s next ks -> shows_all s' next ks) as A.
  { clear H. set (top := (id + vsize (V i p ks))%nat) in *. clearbody top. clear E1 E2 E3 P0.
    induction IH as [|k ks Hk _ IHks]; intros next G B; cbn [shows_all map list_sum fold_right] in *; [tauto|].
    intros [H1 H2]. split.
    - apply Hk; [|exact H1]. intros j Hj. apply L. cbn in B. lia.
    - apply IHks; [lia|cbn in B; change (fold_right Nat.add 0%nat (map vsize ks)) with (sizes ks) in B; lia|exact H2]. }
  apply A; [lia| |exact H]. cbn [vsize]. lia.
Qed.
Lemma shows_all_ext s s' ks : forall next,
  (forall k, (next <= k < next + sizes ks)%nat -> like_node (node_at s k) (node_at s' k)) -> shows_all s next ks -> shows_all s' next ks.
Proof.
  induction ks as [|k ks IH]; intros next L; cbn [shows_all]; [tauto|]. cbn in L. change (fold_right Nat.add 0%nat (map vsize ks)) with (sizes ks) in L.
  intros [H1 H2]. split.
  - eapply shows_ext; [|exact H1]. intros j Hj. apply L. lia.
  - apply IH; [|exact H2]. intros j Hj. apply L. lia.
Qed.

(** ** Maps *)

Lemma lookup_cons {X} k (kx : nat * X) l : lookup k (kx :: l) = if Nat.eqb (fst kx) k then Some (snd kx) else lookup k l.
Proof. unfold lookup. cbn. now destruct (fst kx =? k)%nat. Qed.
Lemma node_at_put s k n j : node_at (put_node s k n) j = if Nat.eqb k j then n else node_at s j.
Proof.
  induction s as [|[k0 m] s IH]; cbn [put_node].
  - unfold node_at. rewrite lookup_cons. cbn [fst snd]. destruct (k =? j)%nat; reflexivity.
  - destruct (k0 =? k)%nat eqn:E.
    + apply Nat.eqb_eq in E. subst k0. unfold node_at. rewrite !lookup_cons. cbn [fst snd]. destruct (k =? j)%nat; reflexivity.
    + unfold node_at in *. rewrite !lookup_cons. cbn [fst snd]. destruct (k0 =? j)%nat eqn:E2.
      * apply Nat.eqb_eq in E2. subst j. rewrite Nat.eqb_sym, E. reflexivity.
      * exact IH.
Qed.
Lemma keys_put s k n : In k (map fst s) -> map fst (put_node s k n) = map fst s.
Proof.
  induction s as [|[k0 m] s IH]; cbn [put_node map fst In]; [tauto|]. intros H.
  destruct (k0 =? k)%nat eqn:E; cbn [map fst]; [reflexivity|]. f_equal. apply IH. destruct H as [->|H]; [|exact H].
  rewrite Nat.eqb_refl in E. discriminate.
Qed.
Lemma node_at_In s k : NoDup (map fst s) -> forall n, In (k, n) s -> node_at s k = n.
Proof.
  induction s as [|[k0 m] s IH]; cbn [map fst In]; [tauto|]. intros N n H. inversion N as [|? ? N1 N2]; subst.
  unfold node_at. rewrite lookup_cons. cbn [fst snd]. destruct H as [H|H].
  - injection H as -> ->. now rewrite Nat.eqb_refl.
  - destruct (k0 =? k)%nat eqn:E; [|apply IH; assumption]. apply Nat.eqb_eq in E. subst k0.
    exfalso. apply N1. apply (in_map fst) in H. exact H.
Qed.

(** ** Waiting times *)

Lemma before_prefetch s : forall fuel stack vs,
  Forall2 (fun id v => shows s id v) stack vs -> (sizes vs <= fuel)%nat ->
  exists ids, nodes_before_prefetch fuel s stack = Ok ids /\
              aggregated_time s ids = fold_right Z.add 0 (map group_time vs).
Proof.
  induction fuel as [|fuel IH]; intros stack vs H F.
  - destruct H as [|id v stack vs _ _]; [exists []; now split|]. exfalso. cbn in F. pose proof (vsize_pos v). lia.
  - destruct H as [|id v stack vs H1 H2]; [exists []; now split|]. destruct v as [i p ks]. apply shows_eq in H1.
    destruct H1 as (E1 & E2 & E3 & H3). cbn [nodes_before_prefetch]. rewrite E2.
    cbn [map] in F. change (vsize (V i p ks) + sizes vs <= S fuel)%nat in F. cbn [vsize] in F.
    destruct p.
    + destruct (IH stack vs H2 ltac:(lia)) as (ids & -> & E). exists (id :: ids). split; [reflexivity|].
      unfold aggregated_time in *. cbn [map fold_right group_time]. rewrite E. unfold total. rewrite E1. lia.
    + rewrite E3.
      assert (forall next, shows_all s next ks -> Forall2 (fun id v => shows s id v) (starts next ks) ks) as A.
      { clear. induction ks as [|k ks IH]; intros next; cbn [shows_all starts]; [constructor|]. intros [H1 H2]. constructor; auto. }
      assert (forall X Y (R : X -> Y -> Prop) l l', Forall2 R l l' -> Forall2 R (rev l) (rev l')) as RV.
      { clear. intros X Y R l l' H. induction H as [|x y l l' H _ IH]; cbn [rev]; [constructor|]. apply Forall2_app; [exact IH|constructor; [exact H|constructor]]. }
      assert (forall l l', sizes (l ++ l') = (sizes l + sizes l')%nat) as SA.
      { intros. now rewrite map_app, list_sum_app. }
      assert (sizes (rev ks) = sizes ks) as SR.
      { clear -SA. induction ks as [|k ks IH]; [reflexivity|]. cbn [rev]. rewrite SA, IH. cbn. change (fold_right Nat.add 0%nat (map vsize ks)) with (sizes ks). lia. }
      destruct (IH (rev (starts (S id) ks) ++ stack) (rev ks ++ vs)) as (ids & -> & E).
      { apply Forall2_app; [apply RV, A, H3|exact H2]. }
      { rewrite SA, SR. lia. }
      exists (id :: ids). split; [reflexivity|].
      unfold aggregated_time in *. cbn [map fold_right group_time]. rewrite E. unfold total. rewrite E1.
      assert (forall l l', fold_right Z.add 0 (map group_time (l ++ l')) = fold_right Z.add 0 (map group_time l) + fold_right Z.add 0 (map group_time l')) as ZA.
      { clear. induction l as [|x l IH]; intros l'; cbn; [lia|]. rewrite IH. lia. }
      rewrite ZA.
      assert (fold_right Z.add 0 (map group_time (rev ks)) = fold_right Z.add 0 (map group_time ks)) as ZR.
      { clear -ZA. induction ks as [|k ks IH]; [reflexivity|]. cbn [rev]. rewrite ZA, IH. cbn. lia. }
      rewrite ZR. lia.
Qed.

Definition ratios (s : summary) (a n : nat) : list Q := map (fun k => n_ratio (node_at s k)) (seq a n).
Lemma ratios_app s a n m : ratios s a (n + m) = ratios s a n ++ ratios s (a + n) m.
Proof. unfold ratios. now rewrite seq_app, map_app. Qed.
Lemma ratios_ext s s' a n : (forall k, (a <= k < a + n)%nat -> node_at s' k = node_at s k) -> ratios s' a n = ratios s a n.
Proof. intros H. unfold ratios. apply map_ext_in. intros k Hk. apply in_seq in Hk. now rewrite H. Qed.

Definition like (s s' : summary) : Prop := map fst s' = map fst s /\ forall k, like_node (node_at s k) (node_at s' k).
Lemma like_put_ratio s id r : In id (map fst s) -> like s (put_node s id (with_ratio (node_at s id) r)).
Proof.
  intros H. split; [now apply keys_put|]. intros k. rewrite node_at_put. destruct (id =? k)%nat eqn:E; [|apply like_refl].
  apply Nat.eqb_eq in E. subst k. unfold like_node. cbn. tauto.
Qed.
Lemma like_all_trans a b c : like a b -> like b c -> like a c.
Proof. intros [K1 L1] [K2 L2]. split; [congruence|]. intros k. eapply like_trans; eauto. Qed.

(** At most one input for every prefetch. *)
Inductive narrow : view -> Prop :=
| narrow_v i p ks : (p = true -> (length ks <= 1)%nat) -> Forall narrow ks -> narrow (V i p ks).
Lemma measured_narrow v : measured v -> narrow v.
Proof.
  induction v as [i p ks IH] using view_ind'. intros H. inversion H as [? ? ? H1 H2]; subst. constructor.
  - intros E. now apply H1.
  - clear -IH H2. induction IH; [constructor|]. inversion H2; subst. constructor; auto.
Qed.
Lemma measured_inputs i p ks : measured (V i p ks) -> Forall measured ks.
Proof. intros H. now inversion H. Qed.

Section Rounding.
Variable rnd : Q -> Q.

Definition computed (s s' : summary) (id : nat) (size : nat) (agg : Z) (m : Prop) (l : list Q) : Prop :=
  like s s' /\ (forall k, (k < id \/ id + size <= k)%nat -> node_at s' k = node_at s k) /\
  (agg <> 0 -> m -> ratios s' id size = l).

Lemma compute_spec v : forall fuel s id factor agg, shows s id v -> narrow v -> (vsize v < fuel)%nat ->
  (forall k, (id <= k < id + vsize v)%nat -> In k (map fst s)) ->
  exists s', compute_ratio rnd fuel s id agg factor = Ok s' /\
             computed s s' id (vsize v) agg (measured v) (waits rnd factor agg v).
Proof.
  induction v as [i p ks IH] using view_ind'. intros fuel s id factor agg Hs N F K.
  apply shows_eq in Hs. destruct Hs as (E1 & E2 & E3 & H3). inversion N as [? ? ? N1 N2]; subst i0 p0 ks0.
  destruct fuel as [|fuel]; [lia|]. cbn [compute_ratio]. destruct (agg =? 0) eqn:A0.
  { exists s. split; [reflexivity|]. split; [|split].
    - split; [reflexivity|]. intros k. apply like_refl.
    - reflexivity.
    - intros A. lia. }
  rewrite E3, E1. cbn [waits]. set (r := rnd _). set (s1 := put_node s id _).
  assert (like s s1) as L1. { apply like_put_ratio. apply K. cbn [vsize]. lia. }
  assert (forall k, k <> id -> node_at s1 k = node_at s k) as O1.
  { intros k Hk. unfold s1. rewrite node_at_put. destruct (id =? k)%nat eqn:E; [apply Nat.eqb_eq in E; lia|reflexivity]. }
  assert (node_at s1 id = with_ratio (node_at s id) r) as I1. { unfold s1. now rewrite node_at_put, Nat.eqb_refl. }
  assert (shows_all s1 (S id) ks) as H4.
  { eapply shows_all_ext; [|exact H3]. intros k _. apply L1. }
  assert (forall k, (id <= k < id + vsize (V i p ks))%nat -> In k (map fst s1)) as K1.
  { destruct L1 as [-> _]. exact K. }
  cbn [vsize] in F, K1. clear K. clearbody s1 r. clear E1.
  destruct p.
  - destruct ks as [|k [|k' ks]]; [| |specialize (N1 eq_refl); cbn in N1; lia].
    + cbn [starts ratio_inputs]. exists s1. split; [reflexivity|]. split; [exact L1|]. split.
      * cbn. intros k Hk. apply O1. lia.
      * intros _ _. unfold ratios. cbn [vsize map list_sum fold_right seq]. now rewrite I1.
    + cbn [starts ratio_inputs]. rewrite I1. cbn [with_ratio n_prefetch]. rewrite E2. cbn [n_ratio].
      cbn [shows_all] in H4. destruct H4 as [H4 _].
      assert (vsize (V i true [k]) = S (vsize k)) as VS by (cbn; lia). cbn in F, K1.
      destruct (before_prefetch s1 fuel [S id] [k]) as (ids & -> & EA).
      { constructor; [exact H4|constructor]. }
      { cbn. lia. }
      cbn [bind]. cbn in EA. rewrite Z.add_0_r in EA. rewrite EA.
      set (s2 := put_node s1 id _).
      assert (like s1 s2) as L2.
      { unfold s2. assert (with_ratio (with_ratio (node_at s id) r) 0 = with_ratio (node_at s1 id) 0) as -> by now rewrite I1.
        apply like_put_ratio. apply K1. lia. }
      assert (forall k, k <> id -> node_at s2 k = node_at s1 k) as O2.
      { intros j Hj. unfold s2. rewrite node_at_put. destruct (id =? j)%nat eqn:E; [apply Nat.eqb_eq in E; lia|reflexivity]. }
      assert (n_ratio (node_at s2 id) = 0%Q) as I2. { unfold s2. now rewrite node_at_put, Nat.eqb_refl. }
      change (n_ratio (with_ratio (node_at s id) r)) with r.
      clearbody s2. inversion IH as [|? ? IHk _]; subst. inversion N2 as [|? ? Nk _]; subst.
      destruct (IHk fuel s2 (S id) r (group_time k)) as (s3 & -> & L3 & O3 & R3).
      { eapply shows_ext; [|exact H4]. intros j _. apply L2. }
      { exact Nk. }
      { lia. }
      { destruct L2 as [-> _]. intros j Hj. apply K1. lia. }
      cbn [bind]. exists s3. split; [reflexivity|]. split; [|split].
      * eapply like_all_trans; [exact L1|]. eapply like_all_trans; [exact L2|exact L3].
      * rewrite VS. intros j Hj. rewrite O3 by lia. rewrite O2 by lia. apply O1. lia.
      * intros A M. rewrite VS. inversion M as [? ? ? M1 M2]; subst. destruct (M1 eq_refl) as [_ G].
        inversion G as [|? ? G0 _]; subst. inversion M2 as [|? ? Mk _]; subst. rewrite <- (R3 G0 Mk).
        unfold ratios. cbn [seq map]. rewrite O3 by lia. now rewrite I2.
  - assert (forall next s1, shows_all s1 next ks -> (id < next)%nat -> (sizes ks < fuel)%nat ->
              (forall k, (next <= k < next + sizes ks)%nat -> In k (map fst s1)) -> n_prefetch (node_at s1 id) = false ->
              exists s', ratio_inputs fuel (compute_ratio rnd fuel) (starts next ks) id s1 agg factor = Ok s' /\
                         computed s1 s' next (sizes ks) agg (Forall measured ks) (flat_map (waits rnd factor agg) ks)) as A.
    { clear - IH N2 A0. induction IH as [|k ks IHk _ IHks]; intros next s Hs G F K P.
      - cbn [starts ratio_inputs]. exists s. split; [reflexivity|]. split; [split; [reflexivity|intros; apply like_refl]|]. split; [reflexivity|].
        intros _ _. reflexivity.
      - inversion N2 as [|? ? Nk Nks]; subst. cbn [starts ratio_inputs]. rewrite P. cbn [shows_all] in Hs. destruct Hs as [H1 H2].
        assert (sizes (k :: ks) = (vsize k + sizes ks)%nat) as VS by reflexivity. rewrite VS in *.
        destruct (IHk fuel s next factor agg H1 Nk ltac:(lia)) as (s2 & -> & L2 & O2 & R2).
        { intros j Hj. apply K. lia. }
        cbn [bind]. destruct (IHks Nks (next + vsize k)%nat s2) as (s3 & -> & L3 & O3 & R3).
        { eapply shows_all_ext; [|exact H2]. intros j _. apply L2. }
        { lia. }
        { lia. }
        { destruct L2 as [-> _]. intros j Hj. apply K. lia. }
        { rewrite O2 by lia. exact P. }
        exists s3. split; [reflexivity|]. split; [eapply like_all_trans; eassumption|]. split.
        + intros j Hj. rewrite O3 by lia. apply O2. lia.
        + intros Ag M. inversion M as [|? ? Mk Mks]; subst. cbn [flat_map]. rewrite <- (R2 Ag Mk), <- (R3 Ag Mks), ratios_app. f_equal.
          apply ratios_ext. intros j Hj. apply O3. lia. }
    destruct (A (S id) s1) as (s2 & -> & L2 & O2 & R2).
    { exact H4. }
    { lia. }
    { lia. }
    { intros j Hj. apply K1. lia. }
    { rewrite I1. exact E2. }
    exists s2. split; [reflexivity|]. cbn [vsize]. split; [eapply like_all_trans; eassumption|]. split.
    + intros j Hj. rewrite O2 by lia. apply O1. lia.
    + intros Ag M. rewrite <- (R2 Ag (measured_inputs _ _ _ M)). unfold ratios. cbn [seq map]. rewrite O2 by lia. now rewrite I1.
Qed.

Lemma node_ratios_eq s n : map fst s = seq 0 n -> node_ratios s = ratios s 0 n.
Proof.
  intros H. unfold node_ratios, ratios. rewrite <- H. rewrite map_map. apply map_ext_in. intros [k m] Hk. cbn [fst snd].
  f_equal. symmetry. apply node_at_In; [|exact Hk]. rewrite H. apply seq_NoDup.
Qed.

Lemma populate_spec s v fuel : map fst s = seq 0 (vsize v) -> shows s 0 v -> narrow v -> (vsize v < fuel)%nat ->
  exists s', populate_ratio rnd fuel s = Ok s' /\ like s s' /\
    (group_time v <> 0 -> measured v -> node_ratios s' = waits rnd 1 (group_time v) v).
Proof.
  intros K H N F. unfold populate_ratio.
  destruct (before_prefetch s fuel [0%nat] [v]) as (ids & -> & EA).
  { constructor; [exact H|constructor]. }
  { cbn. lia. }
  cbn [bind]. cbn in EA. rewrite Z.add_0_r in EA. rewrite EA.
  destruct (compute_spec v fuel s 0%nat 1%Q (group_time v) H N F) as (s' & -> & L & _ & R).
  { intros k Hk. rewrite K. apply in_seq. lia. }
  exists s'. split; [reflexivity|]. split; [exact L|]. intros G M. rewrite <- (R G M).
  apply node_ratios_eq. destruct L; congruence.
Qed.

(** The shares add up to the factor. *)
Variable eps : Q.
Hypothesis Hrnd : forall x, (- eps <= rnd x - x <= eps)%Q.

Definition share (factor : Q) (agg t : Z) : Q := (factor * (inject_Z t / inject_Z agg))%Q.
Lemma share_add f g a b : (share f g (a + b) == share f g a + share f g b)%Q.
Proof. unfold share, Qdiv. rewrite inject_Z_plus. ring. Qed.
Lemma share_0 f g : (share f g 0 == 0)%Q.
Proof. unfold share, Qdiv. change (inject_Z 0) with 0%Q. ring. Qed.
Lemma share_self f g : g <> 0 -> (share f g g == f)%Q.
Proof. intros H. unfold share. field. intros E. apply H. unfold Qeq in E. cbn in E. lia. Qed.

Definition err (n : nat) : Q := (inject_Z (Z.of_nat n) * eps)%Q.
Lemma err_add a b : (err (a + b) == err a + err b)%Q.
Proof. unfold err. rewrite Nat2Z.inj_add, inject_Z_plus. ring. Qed.
Lemma err_1 : (err 1 == eps)%Q. Proof. unfold err. change (inject_Z (Z.of_nat 1)) with 1%Q. ring. Qed.
Lemma err_0 : (err 0 == 0)%Q. Proof. unfold err. change (inject_Z (Z.of_nat 0)) with 0%Q. ring. Qed.
Lemma qsum_app l l' : (qsum (l ++ l') == qsum l + qsum l')%Q.
Proof.
  unfold qsum. induction l as [|x l IH]; cbn [app fold_right]; [ring|]. rewrite IH. ring.
Qed.

Lemma waits_sum v : forall f g, g <> 0 -> measured v ->
  (- err (vsize v) <= qsum (waits rnd f g v) - share f g (group_time v) <= err (vsize v))%Q.
Proof.
  induction v as [i p ks IH] using view_ind'. intros f g G M. inversion M as [? ? ? M1 M2]; subst i0 p0 ks0. cbn [waits group_time vsize].
  set (r := rnd _). assert (- eps <= r - share f g (i_total i) <= eps)%Q as Hr by apply Hrnd. clearbody r.
  pose proof err_1 as E1. pose proof err_0 as E0.
  pose proof (err_add 1 (sizes ks)) as EE. change (1 + sizes ks)%nat with (S (sizes ks)) in EE.
  destruct p.
  - rewrite Z.add_0_r. destruct (M1 eq_refl) as [N1 G1]. destruct ks as [|k [|k' ks]]; [| |cbn in N1; lia].
    + cbn [qsum fold_right map list_sum] in *. change (sizes []) with 0%nat in *. lra.
    + inversion IH as [|? ? Hk _]; subst. inversion M2 as [|? ? Mk _]; subst. inversion G1 as [|? ? Gk _]; subst.
      specialize (Hk r (group_time k) Gk Mk). pose proof (share_self r _ Gk) as SS.
      assert (sizes [k] = vsize k) as Z1 by (cbn; lia). rewrite Z1 in EE.
      change (qsum (0%Q :: waits rnd r (group_time k) k)) with (0 + qsum (waits rnd r (group_time k) k))%Q. change (list_sum (map vsize [k])) with (sizes [k]). rewrite Z1. lra.
  - assert (- err (sizes ks) <= qsum (flat_map (waits rnd f g) ks) - share f g (fold_right Z.add 0%Z (map group_time ks)) <= err (sizes ks))%Q as A.
    { clear - IH M2 G. induction IH as [|k ks Hk _ IHks].
      - change (list_sum (map vsize [])) with 0%nat. cbn [flat_map map fold_right qsum]. pose proof (share_0 f g). pose proof err_0. lra.
      - inversion M2 as [|? ? Mk Mks]; subst. specialize (Hk f g G Mk). specialize (IHks Mks). cbn [flat_map map fold_right].
        change (list_sum (vsize k :: map vsize ks)) with (vsize k + sizes ks)%nat.
        pose proof (err_add (vsize k) (sizes ks)). pose proof (qsum_app (waits rnd f g k) (flat_map (waits rnd f g) ks)).
        pose proof (share_add f g (group_time k) (fold_right Z.add 0 (map group_time ks))). lra. }
    pose proof (share_add f g (i_total i) (fold_right Z.add 0 (map group_time ks))).
    change (qsum (r :: flat_map (waits rnd f g) ks)) with (r + qsum (flat_map (waits rnd f g) ks))%Q. lra.
Qed.
End Rounding.
