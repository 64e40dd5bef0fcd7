(** Proofs about performance configurations. *)
From Coq Require Import QArith Qround Qfield Lqa String.
From Verif Require Import Base PerfConfig PerfConfigSpec.
Open Scope Z_scope.

Lemma sum_app l1 l2 : fold_right Z.add 0 (l1 ++ l2) = fold_right Z.add 0 l1 + fold_right Z.add 0 l2.
Proof. induction l1; cbn; lia. Qed.

Section ObjInd.
Variable P : obj -> Prop.
Hypothesis HD : forall items, Forall (fun kv => P (snd kv)) items -> P (ODict items).
Hypothesis HS : forall items, Forall P items -> P (OSeq items).
Hypothesis HA : forall n, P (OArray n).
Hypothesis HO : forall n, P (OOther n).
Fixpoint obj_all (o : obj) : P o :=
  match o with
  | ODict items => HD items ((fix many (l : list (string * obj)) : Forall (fun kv => P (snd kv)) l :=
      match l with [] => Forall_nil _ | kv :: l => Forall_cons kv (obj_all (snd kv)) (many l) end) items)
  | OSeq items => HS items ((fix many (l : list obj) : Forall P l :=
      match l with [] => Forall_nil _ | v :: l => Forall_cons v (obj_all v) (many l) end) items)
  | OArray n => HA n
  | OOther n => HO n
  end.
End ObjInd.
Lemma element_size_bytes o : element_size o = bytes o.
Proof.
  unfold bytes. induction o using obj_all; cbn.
  - induction H as [|kv l Hk F IH]; cbn; [reflexivity|]. rewrite sum_app, Hk, IH. reflexivity.
  - induction H as [|v l Hk F IH]; cbn; [reflexivity|]. rewrite sum_app, Hk, IH. reflexivity.
  - lia.
  - lia.
Qed.
Lemma map_element_size l : map element_size l = map bytes l.
Proof. apply map_ext. apply element_size_bytes. Qed.

Lemma ceil_div_share a b : 0 < b -> ceil_div a b = share a b.
Proof.
  intros H. unfold ceil_div, share.
  pose proof (Z.div_mod (- a) b ltac:(lia)). pose proof (Z.mod_pos_bound (- a) b H).
  apply (Z.div_unique _ _ _ (b - 1 - (- a) mod b)); lia.
Qed.
Lemma share_enough a b : 0 < b -> a <= share a b * b.
Proof. intros H. unfold share. pose proof (Z.div_mod (a + b - 1) b ltac:(lia)). pose proof (Z.mod_pos_bound (a + b - 1) b H). lia. Qed.
Lemma share_pos a b : 0 < a -> 0 < b -> 0 < share a b.
Proof. intros Ha H. unfold share. apply Z.div_str_pos. lia. Qed.

Lemma sequence_ok {A B} (f : A -> B) l : sequence (map (fun a => Ok (f a)) l) = Ok (map f l).
Proof. induction l; cbn; [reflexivity|]. now rewrite IHl. Qed.

(** int(a / b) *)
Lemma int_of_spec ram mb : 0 <= ram -> (0 < mb)%Q ->
  0 <= int_of (inject_Z ram / mb) /\ (inject_Z (int_of (inject_Z ram / mb)) * mb <= inject_Z ram)%Q /\
  (inject_Z ram < inject_Z (int_of (inject_Z ram / mb) + 1) * mb)%Q.
Proof.
  intros H M. set (q := (inject_Z ram / mb)%Q).
  assert (q * mb == inject_Z ram)%Q as E by (unfold q; field; lra).
  assert (0 <= q)%Q as Q0.
  { unfold q. apply Qle_shift_div_l; [exact M|]. rewrite Qmult_0_l. change 0%Q with (inject_Z 0). rewrite <- Zle_Qle. exact H. }
  clearbody q. assert (0 <= Qnum q) as N by (destruct q; unfold Qle in Q0; cbn in *; lia).
  assert (int_of q = Qfloor q) as F.
  { unfold int_of, Qfloor. destruct q as [n d]. cbn in *. apply Z.quot_div_nonneg; lia. }
  rewrite F. pose proof (Qfloor_le q) as L. pose proof (Qlt_floor q) as U. split.
  - unfold Qfloor. destruct q as [n d]. apply Z.div_pos; cbn in *; lia.
  - rewrite <- E. split.
    + apply Qmult_le_compat_r; [exact L|lra].
    + apply Qmult_lt_compat_r; assumption.
Qed.

(** The mean over several samples of the same length. *)
Lemma length_concat_const (l : list (list obj)) k : Forall (fun s => List.length s = k) l -> List.length (concat l) = (List.length l * k)%nat.
Proof. induction 1; cbn; [reflexivity|]. rewrite app_length. lia. Qed.
Lemma mean_concat (l : list (list obj)) k : (0 < k)%nat -> l <> [] -> Forall (fun s => List.length s = k) l ->
  (mean_mb (concat l) * inject_Z (Z.of_nat (List.length l)) == qsum (map mean_mb l))%Q.
Proof.
  intros Hk Hl F. unfold mean_mb at 1. rewrite (length_concat_const l k F), Nat2Z.inj_mul.
  assert (0 < Z.of_nat (List.length l)) as Hn by (destruct l; [contradiction|cbn; lia]).
  assert (0 < Z.of_nat k) as Hk' by lia. set (n := Z.of_nat (List.length l)) in *. set (z := Z.of_nat k) in *.
  rewrite !inject_Z_mult.
  assert (~ inject_Z n == 0)%Q as N1 by (intros E; unfold Qeq in E; cbn in E; lia).
  assert (~ inject_Z z == 0)%Q as N2 by (intros E; unfold Qeq in E; cbn in E; lia).
  assert (~ inject_Z 1048576 == 0)%Q as N3 by (intros E; discriminate E).
  assert (qsum (map mean_mb l) == inject_Z (fold_right Z.add 0%Z (map bytes (concat l))) / (inject_Z 1048576 * inject_Z z))%Q as S.
  { clear Hn N1 n. clear Hl. induction F as [|s l Hs F IH]; cbn [map qsum fold_right concat].
    - change (0 == 0 / (inject_Z 1048576 * inject_Z z))%Q. unfold Qdiv. now rewrite Qmult_0_l.
    - fold (qsum (map mean_mb l)). rewrite IH. rewrite map_app, sum_app. unfold mean_mb. rewrite Hs. fold z. rewrite !inject_Z_mult, inject_Z_plus.
      field. repeat split; assumption. }
  rewrite S. field. repeat split; assumption.
Qed.

(** The average of enough elements. *)
Lemma average_spec dss samples : 0 < samples -> dss <> [] ->
  average_mb dss samples =
    let l := concat (map (first_elements (share samples (Z.of_nat (List.length dss)))) dss) in
    if Z.of_nat (List.length l) <? samples then Ok (Some 0%Q)
    else Ok (Some (inject_Z (fold_right Z.add 0%Z (map bytes l)) / inject_Z (Z.of_nat (List.length l)) / inject_Z 1048576)%Q).
Proof.
  intros Hs Hd. unfold average_mb. destruct dss as [|d0 dss']; [contradiction|]. remember (d0 :: dss') as dss.
  assert (0 < Z.of_nat (List.length dss)) as Hn by (subst; cbn; lia).
  rewrite ceil_div_share by exact Hn. pose proof (share_pos samples _ Hs Hn) as Hp. set (k := share samples (Z.of_nat (List.length dss))) in *.
  unfold islice. replace (k <? 0) with false by (symmetry; apply Z.ltb_ge; lia). rewrite sequence_ok. cbn [bind].
  change (map (fun d => firstn (Z.to_nat k) (elements d)) dss) with (map (first_elements k) dss). cbv zeta.
  destruct (Z.of_nat (List.length (concat (map (first_elements k) dss))) <? samples) eqn:E; [reflexivity|].
  destruct (concat (map (first_elements k) dss)) as [|o l] eqn:El; [apply Z.ltb_ge in E; cbn in E; lia|].
  rewrite map_element_size. reflexivity.
Qed.
Lemma mean_alt l : l <> [] ->
  (inject_Z (fold_right Z.add 0%Z (map bytes l)) / inject_Z (Z.of_nat (List.length l)) / inject_Z 1048576 == mean_mb l)%Q.
Proof.
  intros H. unfold mean_mb. rewrite inject_Z_mult. field. repeat split; intros E; unfold Qeq in E; cbn in E; try discriminate E.
  destruct l; [contradiction|]. cbn in E. lia.
Qed.
Lemma fit_compat ram q q' : (q == q')%Q -> (0 < q)%Q -> 0 <= ram -> fit (Some ram) (Some q) = Ok (int_of (inject_Z ram / q')%Q).
Proof.
  intros E P R. cbn. f_equal. assert (0 < q')%Q as P' by lra. destruct (int_of_spec ram q R P) as (A1 & A2 & A3).
  destruct (int_of_spec ram q' R P') as (B1 & B2 & B3). set (a := int_of (inject_Z ram / q)) in *. set (b := int_of (inject_Z ram / q')) in *.
  rewrite E in A2, A3.
  assert (inject_Z a * q' < inject_Z (b + 1) * q')%Q as L1 by lra. assert (inject_Z b * q' < inject_Z (a + 1) * q')%Q as L2 by lra.
  apply Qmult_lt_r in L1; [|exact P']. apply Qmult_lt_r in L2; [|exact P']. rewrite <- Zlt_Qlt in L1, L2. lia.
Qed.

Theorem workers_spec cpu ds ram mw samples : 0 < samples -> 0 <= ram -> samples <= Z.of_nat (List.length (elements ds)) ->
  (0 < mean_mb (first_elements samples ds))%Q ->
  let most := match mw with None => cpu | Some m => m end in
  exists w, get_num_workers cpu ds (Some ram) mw samples = Ok w /\ w <= most /\
    (inject_Z w * mean_mb (first_elements samples ds) <= inject_Z ram)%Q /\
    (w = most \/ (inject_Z ram < inject_Z (w + 1) * mean_mb (first_elements samples ds))%Q).
Proof.
  intros Hs Hr He Hm most. unfold get_num_workers. rewrite average_spec by (assumption || discriminate). cbv zeta. cbn [List.length map concat].
  assert (share samples (Z.of_nat 1) = samples) as -> by (unfold share; cbn; rewrite Z.div_1_r; lia). rewrite app_nil_r.
  set (l := first_elements samples ds) in *. assert (Z.of_nat (List.length l) = samples) as Hl.
  { unfold l, first_elements. rewrite firstn_length. lia. }
  rewrite Hl. rewrite Z.ltb_irrefl. cbn [bind]. assert (l <> []) as Hn by (intros E; rewrite E in Hl; cbn in Hl; lia).
  pose proof (mean_alt l Hn) as M. rewrite Hl in M.
  set (q := (inject_Z (fold_right Z.add 0%Z (map bytes l)) / inject_Z samples / inject_Z 1048576)%Q) in *.
  cbn [zero_or_less]. replace (Qle_bool q 0) with false.
  2:{ symmetry. destruct (Qle_bool q 0) eqn:E; [|reflexivity]. apply Qle_bool_iff in E. lra. }
  rewrite (fit_compat ram q (mean_mb l)) by (lra || assumption). cbn [bind]. fold most.
  destruct (int_of_spec ram (mean_mb l) Hr Hm) as (A1 & A2 & A3). set (a := int_of _) in *.
  exists (Z.min a most). split; [reflexivity|]. split; [lia|]. split.
  - apply Qle_trans with (inject_Z a * mean_mb l)%Q; [|exact A2]. apply Qmult_le_compat_r; [|lra]. rewrite <- Zle_Qle. lia.
  - destruct (Z.le_gt_cases most a); [left; lia|right]. now rewrite Z.min_l by lia.
Qed.

Theorem buffer_spec ds ram mb samples : 0 < samples -> 0 <= ram ->
  let dss := prefetch_parents ds in let k := share samples (Z.of_nat (List.length dss)) in
  let sizes := qsum (map (fun d => mean_mb (first_elements k d)) dss) in
  (forall d, In d dss -> k <= Z.of_nat (List.length (elements d))) -> (0 < sizes)%Q ->
  let most := match mb with None => 1000 | Some m => m end in 0 <= most ->
  exists b, get_buffer_size ds (Some ram) mb samples = Ok b /\ 0 <= b <= most /\
    (inject_Z b * sizes <= inject_Z ram)%Q /\ (b = most \/ (inject_Z ram < inject_Z (b + 1) * sizes)%Q).
Proof.
  intros Hs Hr dss k sizes Hk Hz most Hm. unfold get_buffer_size. fold dss.
  assert (dss <> []) as Hd by (intros E; unfold sizes in Hz; rewrite E in Hz; cbn in Hz; lra).
  rewrite average_spec by assumption. cbv zeta. fold k. assert (0 < Z.of_nat (List.length dss)) as Hn by (destruct dss; [contradiction|cbn; lia]).
  pose proof (share_pos samples _ Hs Hn) as Kp. fold k in Kp. pose proof (share_enough samples (Z.of_nat (List.length dss)) Hn) as Ke. fold k in Ke.
  assert (Forall (fun s => List.length s = Z.to_nat k) (map (first_elements k) dss)) as F.
  { apply Forall_forall. intros s Hin. apply in_map_iff in Hin. destruct Hin as (d & <- & Hd'). unfold first_elements. rewrite firstn_length.
    specialize (Hk d Hd'). lia. }
  set (l := concat (map (first_elements k) dss)) in *.
  assert (List.length l = (List.length dss * Z.to_nat k)%nat) as Hl.
  { unfold l. rewrite (length_concat_const _ _ F), map_length. reflexivity. }
  assert (samples <= Z.of_nat (List.length l)) as Hsl by (rewrite Hl, Nat2Z.inj_mul, Z2Nat.id; lia).
  replace (Z.of_nat (List.length l) <? samples) with false by (symmetry; apply Z.ltb_ge; lia). cbn [bind].
  assert (l <> []) as Hne by (intros E; rewrite E in Hsl; cbn in Hsl; lia).
  pose proof (mean_alt l Hne) as M.
  assert (mean_mb l * inject_Z (Z.of_nat (List.length dss)) == sizes)%Q as C.
  { unfold l. rewrite <- (map_length (first_elements k) dss). rewrite (mean_concat _ (Z.to_nat k)); [|lia| |exact F].
    - unfold sizes. rewrite map_map. reflexivity.
    - intros E. destruct dss; [contradiction|discriminate]. }
  set (q := (inject_Z (fold_right Z.add 0%Z (map bytes l)) / inject_Z (Z.of_nat (List.length l)) / inject_Z 1048576)%Q) in *.
  assert (0 < inject_Z (Z.of_nat (List.length dss)))%Q as Np by (rewrite <- (Zlt_Qlt 0); exact Hn).
  assert (0 < q)%Q as Qp.
  { destruct (Qlt_le_dec 0 q) as [L|L]; [exact L|]. exfalso. rewrite <- M in C.
    assert (q * inject_Z (Z.of_nat (List.length dss)) <= 0 * inject_Z (Z.of_nat (List.length dss)))%Q by (apply Qmult_le_compat_r; lra). lra. }
  cbn [zero_or_less]. replace (Qle_bool q 0) with false.
  2:{ symmetry. destruct (Qle_bool q 0) eqn:E; [|reflexivity]. apply Qle_bool_iff in E. lra. }
  rewrite (fit_compat ram _ sizes); [|rewrite M; exact C| |exact Hr].
  2:{ rewrite M, C. exact Hz. }
  cbn [bind]. fold most. destruct (int_of_spec ram sizes Hr Hz) as (A1 & A2 & A3). set (a := int_of _) in *.
  unfold read_options. replace (Z.min a most <? 0) with false by (symmetry; apply Z.ltb_ge; lia).
  exists (Z.min a most). split; [reflexivity|]. split; [lia|]. split.
  - apply Qle_trans with (inject_Z a * sizes)%Q; [|exact A2]. apply Qmult_le_compat_r; [|lra]. rewrite <- Zle_Qle. lia.
  - destruct (Z.le_gt_cases most a); [left; lia|right]. now rewrite Z.min_l by lia.
Qed.

(** The datasets that are found. *)
Section DsInd.
Variable P : dataset -> Prop.
Hypothesis H : forall b e ps, Forall P ps -> P (Ds b e ps).
Fixpoint ds_all (d : dataset) : P d :=
  let '(Ds b e ps) := d in
  H b e ps ((fix many (l : list dataset) : Forall P l := match l with [] => Forall_nil _ | d :: l => Forall_cons d (ds_all d) (many l) end) ps).
End DsInd.
Lemma prefetch_parents_spec d : well_formed d -> forall p, In p (prefetch_parents d) <-> prefetched d p.
Proof.
  induction d as [b e ps IH] using ds_all. cbn [well_formed prefetch_parents]. intros [W1 W2] p. destruct b.
  - destruct (W1 eq_refl) as (q & ->). cbn. split.
    + intros [->|[]]. constructor.
    + inversion 1; subst. now left.
  - assert (forall q, In q ps -> well_formed q) as W.
    { clear - W2. induction ps as [|q ps IH]; [easy|]. destruct W2 as [W W2]. intros r [->|Hr]; [exact W|now apply IH]. }
    rewrite in_flat_map. rewrite Forall_forall in IH. split.
    + intros (q & Hq & Hp). apply (IH q Hq (W q Hq)) in Hp. econstructor; eassumption.
    + inversion 1; subst. exists q. split; [assumption|]. now apply (IH q H2 (W q H2)).
Qed.
