(** rebatch satisfies the law. *)
From Verif Require Import Base MapDatasets Spec Iter IterSpec ListFacts IterLaw IterBasic_proofs IterBatch_proofs IterFlat_proofs.

(** Rows a to c of every leaf. *)
Definition cols {X} (k : nat) (l : list (leaves X)) (a c : nat) : leaves X :=
  map (fun m => firstn (c - a) (skipn a (leaf_rows m l))) (seq 0 k).

Section Rebatch.
  Context {X} (k : nat) (bs : Z) (drop : bool) (p : Iter (leaves X)) (l : list (leaves X)) (fin used json : bool).
  Context (N : nat) (rep : ist p -> nat -> Prop) (crep : ick p -> nat -> Prop).
  Context (L : Law p l fin used json N rep crep).
  Context (Hk : (1 <= k)%nat) (Hreg : Forall (regular k) l) (Hbs : 1 <= bs).
  Let b := Z.to_nat bs.

  Definition R (q : nat) : nat := list_sum (map rows_of (firstn q l)).
  Notation T := (total_rows l).

  Lemma reg q e : nth_error l q = Some e -> regular k e.
  Proof. intros H. rewrite Forall_forall in Hreg. apply Hreg. eapply nth_error_In; eassumption. Qed.

  Lemma R_S q e : nth_error l q = Some e -> R (S q) = (R q + rows_of e)%nat.
  Proof.
    intros H. unfold R. rewrite (firstn_S_nth _ _ _ H), map_app, list_sum_app. cbn. lia.
  Qed.
  Lemma R_le q : (R q <= T)%nat.
  Proof. unfold R, total_rows. rewrite <- (firstn_skipn q l) at 2. rewrite map_app, list_sum_app. lia. Qed.
  Lemma R_all : R (length l) = T.
  Proof. unfold R, total_rows. now rewrite firstn_all. Qed.
  Lemma R_lt q : (q < length l)%nat -> (R q < T)%nat.
  Proof.
    intros H. destruct (nth_error l q) as [e|] eqn:E; [|apply nth_error_None in E; lia].
    pose proof (R_S q e E). pose proof (R_le (S q)). destruct (reg q e E) as (_ & ? & _). lia.
  Qed.

  Lemma leaf_len m (e : leaves X) : regular k e -> (m < k)%nat -> length (nth m e []) = rows_of e.
  Proof.
    intros (Hl & _ & Hf) Hm. rewrite Forall_forall in Hf. apply Hf. apply nth_In. lia.
  Qed.

  Lemma leaf_rows_firstn m q : (m < k)%nat -> length (leaf_rows m (firstn q l)) = R q.
  Proof.
    intros Hm. unfold leaf_rows, R.
    assert (H : forall l' : list (leaves X), Forall (regular k) l' -> length (concat (map (fun e => nth m e []) l')) = list_sum (map rows_of l')).
    { induction 1 as [|e l' He Hl' IH]; [easy|]. cbn. rewrite app_length, IH, leaf_len; easy. }
    apply H. rewrite <- (firstn_skipn q l) in Hreg. now apply Forall_app in Hreg.
  Qed.

  Lemma leaf_rows_length m : (m < k)%nat -> length (leaf_rows m l) = T.
  Proof. intros Hm. pose proof (leaf_rows_firstn m (length l) Hm) as H. now rewrite firstn_all, R_all in H. Qed.

  (* rows [R q + i, R q + i + n) of leaf m are rows [i, i + n) of leaf m of element q *)
  Lemma rows_in_element m q e i n : (m < k)%nat -> nth_error l q = Some e -> (i + n <= rows_of e)%nat ->
    firstn n (skipn (R q + i) (leaf_rows m l)) = firstn n (skipn i (nth m e [])).
  Proof.
    intros Hm He Hi.
    assert (E : leaf_rows m l = leaf_rows m (firstn q l) ++ leaf_rows m (skipn q l)).
    { unfold leaf_rows. now rewrite <- concat_app, <- map_app, firstn_skipn. }
    rewrite E, Nat.add_comm, <- skipn_skipn.
    rewrite skipn_app, (skipn_all2 (leaf_rows m (firstn q l))) by (rewrite leaf_rows_firstn; lia).
    rewrite leaf_rows_firstn, Nat.sub_diag by easy. cbn [app skipn]. unfold leaf_rows.
    rewrite (skipn_nth_cons _ _ _ He). cbn [map concat].
    rewrite skipn_app, firstn_app. rewrite (leaf_len m e (reg q e He) Hm).
    replace (i - rows_of e)%nat with 0%nat by lia.
    rewrite skipn_length, (leaf_len m e (reg q e He) Hm).
    replace (n - (rows_of e - i))%nat with 0%nat by lia. cbn. now rewrite app_nil_r.
  Qed.

  Lemma slice_cols q e i c : nth_error l q = Some e -> (i <= c)%nat -> (c <= rows_of e)%nat ->
    map (slice_rows (Z.of_nat i) (Z.of_nat c)) e = cols k l (R q + i) (R q + c).
  Proof.
    intros He Hi Hc. destruct (reg q e He) as (Hlen & _ & _). unfold cols.
    apply nth_error_ext. intros m. rewrite !nth_error_map.
    destruct (Nat.lt_ge_cases m k) as [Hm|Hm].
    - rewrite (nth_error_nth' e []) by lia. rewrite (nth_error_nth' (seq 0 k) 0%nat) by (rewrite seq_length; lia).
      rewrite seq_nth by easy. cbn. f_equal. unfold slice_rows. rewrite !Nat2Z.id.
      replace (R q + c - (R q + i))%nat with (c - i)%nat by lia.
      symmetry. apply rows_in_element; auto. lia.
    - assert (nth_error e m = None) as -> by (apply nth_error_None; lia).
      assert (nth_error (seq 0 k) m = None) as -> by (apply nth_error_None; rewrite seq_length; lia). easy.
  Qed.

  Lemma append_cols a c d : (a <= c <= d)%nat -> (d <= T)%nat ->
    append_rows (Some (cols k l a c)) (cols k l c d) = cols k l a d.
  Proof.
    intros H Hd. unfold append_rows, cols.
    apply nth_error_ext. intros m. rewrite nth_error_map.
    assert (Hcomb : forall (u v : list (list X)) i, nth_error (combine u v) i =
      match nth_error u i, nth_error v i with Some x, Some y => Some (x, y) | _, _ => None end).
    { clear. induction u as [|x u IH]; intros [|y v] [|i]; cbn; try easy.
      now destruct (nth_error u i). }
    rewrite Hcomb, !nth_error_map.
    destruct (nth_error (seq 0 k) m) as [m'|] eqn:E; [cbn|easy]. f_equal.
    assert (Hm : (m' < k)%nat) by (apply nth_error_In, in_seq in E; lia).
    replace (d - a)%nat with ((c - a) + (d - c))%nat by lia.
    rewrite firstn_plus. f_equal. rewrite skipn_skipn. do 2 f_equal. lia.
  Qed.

  Definition acc_is (acc : option (leaves X)) (r0 r : nat) : Prop :=
    (acc = None /\ r0 = r) \/ (acc = Some (cols k l r0 r)).

  Lemma acc_append acc r0 r r' : acc_is acc r0 r -> (r0 <= r <= r')%nat -> (r' <= T)%nat ->
    append_rows acc (cols k l r r') = cols k l r0 r'.
  Proof.
    intros [(-> & ->)| ->] H H'; [easy|]. now apply append_cols.
  Qed.

  Definition St := rb_st (ist p) (ick p) X.
  (* positioned at row r with a current batch *)
  Definition rb_cur (s : St) (r : nat) : Prop :=
    exists q e i, nth_error l q = Some e /\ rb_current s = Some e /\ rb_idx s = Z.of_nat i /\
      (i <= rows_of e)%nat /\ r = (R q + i)%nat /\ rep (rb_parent s) (S q) /\ crep (rb_last s) q.
  (* just constructed or restored: the current batch will be read again *)
  Definition rb_none (s : St) (r : nat) : Prop :=
    exists q i, rb_current s = None /\ rb_idx s = Z.of_nat i /\ r = (R q + i)%nat /\
      (i = 0%nat \/ exists e, nth_error l q = Some e /\ (i <= rows_of e)%nat) /\
      rep (rb_parent s) q /\ crep (rb_last s) q.
  (* the parent has stopped *)
  Definition rb_over (s : St) : Prop :=
    fin = true /\ rep (rb_parent s) (length l) /\ crep (rb_last s) (length l) /\
    match rb_current s with None => True | Some e => Z.of_nat (rows_of e) <= rb_idx s /\ regular k e end.

  Lemma len0_reg (e : leaves X) : regular k e -> len0 e = Ok (Z.of_nat (rows_of e)).
  Proof. intros (H & _ & _). destruct e; [cbn in H; lia|easy]. Qed.


  Definition rb_use (fuel' : nat) (needed : Z) acc (e : leaves X) (s1 : St) :=
    match len0 e with
    | Ok n =>
        if n <=? 0 then (Fail ValueError, s1)
        else if rb_idx s1 + needed <=? n then
          rebatch_loop drop p fuel' 0
            (Some (append_rows acc (map (slice_rows (rb_idx s1) (rb_idx s1 + needed)) e)))
            (mkRb (rb_parent s1) (rb_current s1) (rb_idx s1 + needed) (rb_last s1))
        else
          rebatch_loop drop p fuel' (needed - (n - rb_idx s1))
            (Some (append_rows acc (map (slice_rows (rb_idx s1) n) e)))
            (mkRb (rb_parent s1) (rb_current s1) (rb_idx s1 + (n - rb_idx s1)) (rb_last s1))
    | r => (of_res (let! _ := r in Raise IndexError), s1)
    end.
  Definition rb_fetch (fuel' : nat) (needed : Z) acc (s : St) (is_first : bool) :=
    let last := get_state p (rb_parent s) in
    match next p fuel' (rb_parent s) with
    | (Yield e, s') => rb_use fuel' needed acc e (mkRb s' (Some e) (if is_first then rb_idx s else 0) last)
    | (Stop, s') =>
        let s1 := mkRb s' (rb_current s) (rb_idx s) last in
        if drop then (Stop, s1) else (Yield acc, s1)
    | (Fail e, s') => (Fail e, mkRb s' (rb_current s) (rb_idx s) last)
    | (NoFuel, s') => (NoFuel, mkRb s' (rb_current s) (rb_idx s) last)
    end.

  Lemma loop_S fuel needed acc (s : St) : 0 < needed ->
    rebatch_loop drop p (S fuel) needed acc s =
      match rb_current s with
      | None => rb_fetch fuel needed acc s true
      | Some e =>
          match len0 e with
          | Ok n => if rb_idx s >=? n then rb_fetch fuel needed acc s false else rb_use fuel needed acc e s
          | r => (of_res (let! _ := r in Raise IndexError), s)
          end
      end.
  Proof. intros H. cbn [rebatch_loop]. rewrite (proj2 (Z.leb_gt needed 0)) by lia. reflexivity. Qed.

  Lemma loop_zero fuel acc s : rebatch_loop drop p fuel 0 acc s = (Yield acc, s).
  Proof. destruct fuel; reflexivity. Qed.

  (* the current batch is used up; [q] batches have been read *)
  Definition rb_done (s : St) (q : nat) : Prop :=
    exists q' e, q = S q' /\ nth_error l q' = Some e /\ rb_current s = Some e /\
      rb_idx s = Z.of_nat (rows_of e) /\ rep (rb_parent s) q /\ crep (rb_last s) q'.

  Lemma use_ok fuel needed acc (s : St) q e i r0 : nth_error l q = Some e ->
    rb_current s = Some e -> rb_idx s = Z.of_nat i -> (i <= rows_of e)%nat ->
    rep (rb_parent s) (S q) -> crep (rb_last s) q -> acc_is acc r0 (R q + i) -> (r0 <= R q + i)%nat ->
    (1 <= needed)%nat ->
    if (i + needed <=? rows_of e)%nat then
      exists s', rb_use fuel (Z.of_nat needed) acc e s = (Yield (Some (cols k l r0 (R q + i + needed))), s') /\
        rb_cur s' (R q + i + needed)
    else exists s', rb_done s' (S q) /\ rb_use fuel (Z.of_nat needed) acc e s =
      rebatch_loop drop p fuel (Z.of_nat (R q + i + needed - R (S q))) (Some (cols k l r0 (R (S q)))) s'.
  Proof.
    intros He Hcur Hidx Hi Hrep Hcrep Hacc Hr0 Hn.
    pose proof (reg q e He) as Hre. unfold rb_use. rewrite (len0_reg e Hre). destruct Hre as (_ & Hrows & _).
    rewrite (proj2 (Z.leb_gt (Z.of_nat (rows_of e)) 0)) by lia.
    pose proof (R_S q e He) as HRS. pose proof (R_le (S q)) as HRle. rewrite Hidx.
    destruct (Nat.leb_spec (i + needed) (rows_of e)) as [Hle|Hgt].
    - rewrite (proj2 (Z.leb_le _ _)) by lia. rewrite loop_zero.
      replace (Z.of_nat i + Z.of_nat needed) with (Z.of_nat (i + needed)) by lia.
      rewrite (slice_cols q e i (i + needed) He) by lia.
      replace (R q + (i + needed))%nat with (R q + i + needed)%nat by lia.
      rewrite (acc_append acc r0 (R q + i) _ Hacc) by lia.
      eexists. split; [reflexivity|]. exists q, e, (i + needed)%nat. cbn. repeat split; auto; lia.
    - rewrite (proj2 (Z.leb_gt _ _)) by lia.
      rewrite (slice_cols q e i (rows_of e) He) by lia.
      rewrite (acc_append acc r0 (R q + i) _ Hacc) by lia. rewrite <- HRS.
      replace (Z.of_nat needed - (Z.of_nat (rows_of e) - Z.of_nat i)) with (Z.of_nat (R q + i + needed - R (S q))) by lia.
      replace (Z.of_nat i + (Z.of_nat (rows_of e) - Z.of_nat i)) with (Z.of_nat (rows_of e)) by lia.
      eexists. split; [|reflexivity]. exists q, e. cbn. repeat split; auto.
  Qed.

  (* enough rows left *)
  Lemma done_full d : forall fuel needed acc (s : St) q r0, d = (length l - q)%nat ->
    rb_done s q -> acc_is acc r0 (R q) -> (r0 <= R q)%nat ->
    (1 <= needed)%nat -> (R q + needed <= T)%nat -> (N + d < fuel)%nat ->
    exists s', rebatch_loop drop p fuel (Z.of_nat needed) acc s = (Yield (Some (cols k l r0 (R q + needed))), s')
      /\ rb_cur s' (R q + needed).
  Proof.
    induction d as [|d IH]; intros fuel needed acc s q r0 Hd Hs Hacc Hr0 Hn HT Hf;
      destruct Hs as (q' & e & Hq & He & Hcur & Hidx & Hrep & Hcrep).
    - pose proof (law_le L _ _ Hrep). assert (Hql : q = length l) by lia. rewrite Hql, R_all in HT. lia.
    - destruct fuel as [|fuel]; [lia|]. rewrite loop_S by lia. rewrite Hcur, (len0_reg e (reg q' e He)), Hidx.
      rewrite Z.geb_leb, Z.leb_refl. unfold rb_fetch.
      destruct (nth_error l q) as [e2|] eqn:E2; [|apply nth_error_None in E2; lia].
      destruct (law_next L fuel _ q e2 ltac:(lia) Hrep E2) as (s1 & -> & Hr1).
      pose proof (use_ok fuel needed acc (mkRb s1 (Some e2) 0 (get_state p (rb_parent s))) q e2 0 r0 E2 eq_refl eq_refl ltac:(lia) Hr1 (law_get L _ _ Hrep)) as HU.
      rewrite Nat.add_0_r in HU. specialize (HU Hacc Hr0 Hn).
      destruct (Nat.leb_spec (0 + needed) (rows_of e2)) as [Hle|Hgt]; [exact HU|].
      destruct HU as (s' & Hdone & ->). pose proof (R_S q e2 E2) as HRS.
      destruct (IH fuel (R q + needed - R (S q))%nat (Some (cols k l r0 (R (S q)))) s' (S q) r0) as (s2 & E & Hc);
        try lia; auto; [now right|].
      replace (R (S q) + (R q + needed - R (S q)))%nat with (R q + needed)%nat in * by lia. eauto.
  Qed.

  (* not enough rows left *)
  Lemma done_short d : fin = true -> forall fuel needed acc (s : St) q r0, d = (length l - q)%nat ->
    rb_done s q -> acc_is acc r0 (R q) -> (r0 <= R q)%nat ->
    (T < R q + needed)%nat -> (N + d < fuel)%nat ->
    exists s', rebatch_loop drop p fuel (Z.of_nat needed) acc s =
      (if drop then Stop else Yield (if (R q <? T)%nat then Some (cols k l r0 T) else acc), s') /\ rb_over s'.
  Proof.
    intros F. induction d as [|d IH]; intros fuel needed acc s q r0 Hd Hs Hacc Hr0 HT Hf;
      destruct Hs as (q' & e & Hq & He & Hcur & Hidx & Hrep & Hcrep);
      pose proof (law_le L _ _ Hrep); pose proof (R_le q);
      (destruct fuel as [|fuel]; [lia|]); rewrite loop_S by lia;
      rewrite Hcur, (len0_reg e (reg q' e He)), Hidx; rewrite Z.geb_leb, Z.leb_refl; unfold rb_fetch.
    - assert (Hql : q = length l) by lia. clear Hd. rewrite Hql in Hrep |- *.
      destruct (law_stop L fuel _ ltac:(lia) F Hrep) as (s1 & -> & Hr1).
      rewrite R_all, Nat.ltb_irrefl. exists (mkRb s1 (rb_current s) (rb_idx s) (get_state p (rb_parent s))).
      split; [rewrite Hcur, Hidx; now destruct drop|].
      repeat split; cbn; auto; [now apply (law_get L)|]. rewrite Hcur, Hidx. split; [lia|]. now apply (reg q').
    - destruct (nth_error l q) as [e2|] eqn:E2; [|apply nth_error_None in E2; lia].
      destruct (law_next L fuel _ q e2 ltac:(lia) Hrep E2) as (s1 & -> & Hr1).
      pose proof (use_ok fuel needed acc (mkRb s1 (Some e2) 0 (get_state p (rb_parent s))) q e2 0 r0 E2 eq_refl eq_refl ltac:(lia) Hr1 (law_get L _ _ Hrep)) as HU.
      rewrite Nat.add_0_r in HU. specialize (HU Hacc Hr0 ltac:(lia)).
      pose proof (R_S q e2 E2) as HRS. pose proof (R_le (S q)) as HSle.
      destruct (Nat.leb_spec (0 + needed) (rows_of e2)) as [Hle|Hgt]; [lia|].
      destruct HU as (s' & Hdone & ->).
      destruct (IH fuel (R q + needed - R (S q))%nat (Some (cols k l r0 (R (S q)))) s' (S q) r0) as (s2 & -> & Ho);
        try lia; auto; [now right|].
      exists s2. split; [|easy]. rewrite (proj2 (Nat.ltb_lt (R q) T)).
      + destruct (Nat.ltb_spec (R (S q)) T); [easy|]. now replace (R (S q)) with T by lia.
      + destruct (reg q e2 E2) as (_ & ? & _). lia.
  Qed.

  Lemma cur_of_done (s : St) q : rb_done s q -> rb_cur s (R q).
  Proof.
    intros (q' & e & -> & He & Hcur & Hidx & Hrep & Hcrep). exists q', e, (rows_of e).
    rewrite (R_S q' e He). repeat split; auto.
  Qed.

  Lemma step_full fuel (s : St) r : rb_cur s r \/ rb_none s r -> (r + b <= T)%nat -> (N + length l + 1 < fuel)%nat ->
    exists s', rebatch_loop drop p fuel bs None s = (Yield (Some (cols k l r (r + b))), s') /\ rb_cur s' (r + b).
  Proof.
    intros Hs HT Hf. assert (Hb : (1 <= b)%nat) by (unfold b; lia).
    replace bs with (Z.of_nat b) by (unfold b; lia).
    destruct fuel as [|fuel]; [lia|].
    assert (Huse : forall q e i (s1 : St), nth_error l q = Some e ->
      rb_current s1 = Some e -> rb_idx s1 = Z.of_nat i -> (i <= rows_of e)%nat ->
      rep (rb_parent s1) (S q) -> crep (rb_last s1) q -> r = (R q + i)%nat ->
      exists s', rb_use fuel (Z.of_nat b) None e s1 = (Yield (Some (cols k l r (r + b))), s') /\ rb_cur s' (r + b)).
    { intros q e i s1 He Hcur Hidx Hi Hrep Hcrep ->.
      pose proof (use_ok fuel b None s1 q e i (R q + i) He Hcur Hidx Hi Hrep Hcrep ltac:(now left) ltac:(lia) Hb) as HU.
      destruct (Nat.leb_spec (i + b) (rows_of e)) as [Hle|Hgt]; [exact HU|].
      destruct HU as (s' & Hdone & ->). pose proof (R_S q e He) as HRS. pose proof (nth_lt _ _ _ He).
      destruct (done_full _ fuel (R q + i + b - R (S q)) (Some (cols k l (R q + i) (R (S q)))) s' (S q) (R q + i) eq_refl Hdone) as (s2 & E & Hc); try lia.
      { now right. }
      replace (R (S q) + (R q + i + b - R (S q)))%nat with (R q + i + b)%nat in * by lia. eauto. }
    rewrite loop_S by lia. destruct Hs as [(q & e & i & He & Hcur & Hidx & Hi & Hr & Hrep & Hcrep)|(q & i & Hcur & Hidx & Hr & Hi & Hrep & Hcrep)].
    - rewrite Hcur, (len0_reg e (reg q e He)), Hidx.
      destruct (Z.geb_spec (Z.of_nat i) (Z.of_nat (rows_of e))) as [Hge|Hlt].
      + assert (Hdone : rb_done s (S q)).
        { exists q, e. repeat split; auto. rewrite Hidx. lia. }
        pose proof (done_full _ (S fuel) b None s (S q) r eq_refl Hdone) as HD.
        rewrite loop_S, Hcur, (len0_reg e (reg q e He)), Hidx in HD by lia.
        rewrite (proj2 (Z.geb_le _ _)) in HD by lia.
        pose proof (R_S q e He). replace (R (S q)) with r in HD by lia. apply HD; auto; try lia. now left.
      + now apply (Huse q e i).
    - rewrite Hcur. unfold rb_fetch.
      destruct (nth_error l q) as [e|] eqn:He.
      + destruct (law_next L fuel _ q e ltac:(lia) Hrep He) as (s1 & -> & Hr1).
        apply (Huse q e i); cbn; auto.
        * destruct Hi as [->|(e' & E & Hi)]; [lia|congruence].
        * now apply (law_get L).
      + destruct Hi as [->|(e' & E & _)]; [|discriminate]. apply nth_error_None in He.
        pose proof (law_le L _ _ Hrep). replace q with (length l) in Hr by lia. rewrite R_all in Hr. lia.
  Qed.

  Lemma step_short fuel (s : St) r : fin = true -> rb_cur s r \/ rb_none s r -> (T < r + b)%nat -> (N + length l + 1 < fuel)%nat ->
    (r <= T)%nat -> (drop = true \/ (r < T)%nat \/ T = 0%nat) ->
    exists s', rebatch_loop drop p fuel bs None s = (if drop then Stop else Yield (if (r <? T)%nat then Some (cols k l r T) else None), s') /\ rb_over s'.
  Proof.
    intros F Hs HT Hf HrT Hcase. assert (Hb : (1 <= b)%nat) by (unfold b; lia).
    replace bs with (Z.of_nat b) by (unfold b; lia).
    destruct fuel as [|fuel]; [lia|].
    assert (Huse : forall q e i (s1 : St), nth_error l q = Some e ->
      rb_current s1 = Some e -> rb_idx s1 = Z.of_nat i -> (i <= rows_of e)%nat ->
      rep (rb_parent s1) (S q) -> crep (rb_last s1) q -> r = (R q + i)%nat ->
      exists s', rb_use fuel (Z.of_nat b) None e s1 = (if drop then Stop else Yield (if (r <? T)%nat then Some (cols k l r T) else None), s') /\ rb_over s').
    { intros q e i s1 He Hcur Hidx Hi Hrep Hcrep ->.
      pose proof (use_ok fuel b None s1 q e i (R q + i) He Hcur Hidx Hi Hrep Hcrep ltac:(now left) ltac:(lia) Hb) as HU.
      pose proof (R_S q e He) as HRS. pose proof (R_le (S q)) as HSle. pose proof (nth_lt _ _ _ He).
      destruct (reg q e He) as (_ & Hpos & _).
      destruct (Nat.leb_spec (i + b) (rows_of e)) as [Hle|Hgt]; [lia|].
      destruct HU as (s' & Hdone & ->).
      destruct (done_short _ F fuel (R q + i + b - R (S q)) (Some (cols k l (R q + i) (R (S q)))) s' (S q) (R q + i) eq_refl Hdone) as (s2 & -> & Ho); try lia.
      { now right. }
      exists s2. split; [|easy]. destruct drop; [easy|].
      destruct Hcase as [?|Hcase]; [easy|].
      rewrite (proj2 (Nat.ltb_lt (R q + i) T)) by lia.
      destruct (Nat.ltb_spec (R (S q)) T); [easy|]. now replace (R (S q)) with T by lia. }
    rewrite loop_S by lia. destruct Hs as [(q & e & i & He & Hcur & Hidx & Hi & Hr & Hrep & Hcrep)|(q & i & Hcur & Hidx & Hr & Hi & Hrep & Hcrep)].
    - rewrite Hcur, (len0_reg e (reg q e He)), Hidx.
      destruct (Z.geb_spec (Z.of_nat i) (Z.of_nat (rows_of e))) as [Hge|Hlt].
      + assert (Hdone : rb_done s (S q)).
        { exists q, e. repeat split; auto. rewrite Hidx. lia. }
        pose proof (done_short _ F (S fuel) b None s (S q) r eq_refl Hdone) as HD.
        rewrite loop_S, Hcur, (len0_reg e (reg q e He)), Hidx in HD by lia.
        rewrite (proj2 (Z.geb_le _ _)) in HD by lia.
        pose proof (R_S q e He). replace (R (S q)) with r in HD by lia. apply HD; auto; try lia. now left.
      + now apply (Huse q e i).
    - rewrite Hcur. unfold rb_fetch.
      destruct (nth_error l q) as [e|] eqn:He.
      + destruct (law_next L fuel _ q e ltac:(lia) Hrep He) as (s1 & -> & Hr1).
        apply (Huse q e i); cbn; auto.
        * destruct Hi as [->|(e' & E & Hi)]; [lia|congruence].
        * now apply (law_get L).
      + destruct Hi as [->|(e' & E & _)]; [|discriminate]. apply nth_error_None in He.
        pose proof (law_le L _ _ Hrep). assert (q = length l) by lia. subst q. rewrite R_all in Hr.
        destruct (law_stop L fuel _ ltac:(lia) F Hrep) as (s1 & -> & Hr1).
        exists (mkRb s1 (rb_current s) (rb_idx s) (get_state p (rb_parent s))).
        rewrite (proj2 (Nat.ltb_ge r T)) by lia. rewrite Hcur. split; [now destruct drop|].
        repeat split; cbn; auto. now apply (law_get L).
  Qed.

  Lemma step_over fuel (s : St) : rb_over s -> (N < fuel)%nat ->
    exists s', rebatch_loop drop p fuel bs None s = (if drop then Stop else Yield None, s') /\ rb_over s'.
  Proof.
    intros (F & Hrep & Hcrep & Hcur) Hf. destruct fuel as [|fuel]; [lia|]. rewrite loop_S by lia.
    destruct (law_stop L fuel _ ltac:(lia) F Hrep) as (s1 & E1 & Hr1).
    assert (Hover : rb_over (mkRb s1 (rb_current s) (rb_idx s) (get_state p (rb_parent s)))).
    { repeat split; cbn; auto. now apply (law_get L). }
    assert (HF : forall b0, rb_fetch fuel bs None s b0 =
      (if drop then Stop else Yield None, mkRb s1 (rb_current s) (rb_idx s) (get_state p (rb_parent s)))).
    { intros b0. unfold rb_fetch. rewrite E1. now destruct drop. }
    destruct (rb_current s) as [e|] eqn:Ec.
    - destruct Hcur as [Hge Hre]. rewrite (len0_reg e Hre). rewrite (proj2 (Z.geb_le _ _)) by lia.
      rewrite HF. eauto.
    - rewrite HF. eauto.
  Qed.

  (** Number of output batches. *)
  Definition cnt : nat := if fin && negb drop then ((T + b - 1) / b)%nat else (T / b)%nat.
  Definition out_batches : list (leaves X) :=
    map (fun j => cols k l (j * b) (Nat.min (j * b + b) T)) (seq 0 cnt).

  Lemma cnt_spec : (if fin && negb drop then cnt * b < T + b /\ T <= cnt * b else cnt * b <= T /\ T < cnt * b + b)%nat.
  Proof.
    assert (Hb : (1 <= b)%nat) by (unfold b; lia). unfold cnt. destruct (fin && negb drop).
    - pose proof (Nat.div_mod (T + b - 1) b ltac:(lia)). pose proof (Nat.mod_upper_bound (T + b - 1) b ltac:(lia)). nia.
    - pose proof (Nat.div_mod T b ltac:(lia)). pose proof (Nat.mod_upper_bound T b ltac:(lia)). nia.
  Qed.

  Lemma rebatch_law it : rebatch_it bs drop p = Ok it -> (fin = false \/ drop = true \/ (T mod b)%nat <> 0%nat \/ T = 0%nat) ->
    lawful it out_batches fin used json.
  Proof.
    intros Hit Hcase. unfold rebatch_it in Hit. rewrite (proj2 (Z.leb_gt bs 0)) in Hit by lia.
    match type of Hit with Ok ?X = _ => assert (it = X) as -> by congruence end. clear Hit.
    assert (Hb : (1 <= b)%nat) by (unfold b; lia). pose proof cnt_spec as HC.
    assert (Hlen : length out_batches = cnt) by (unfold out_batches; now rewrite map_length, seq_length).
    assert (Hnth : forall j, (j < cnt)%nat -> nth_error out_batches j = Some (cols k l (j * b) (Nat.min (j * b + b) T))).
    { intros j Hj. unfold out_batches. rewrite nth_error_map, (nth_error_nth' _ 0%nat) by now rewrite seq_length.
      now rewrite seq_nth. }
    (* between batches, fewer than T rows have been used unless the input ends here *)
    assert (Hmid : forall j, (j * b <= T)%nat -> drop = false -> fin = true -> (j * b < T)%nat \/ T = 0%nat).
    { intros j Hj D F. destruct (Nat.eq_dec (j * b) T) as [E|]; [|lia].
      destruct Hcase as [?|[?|[H|H]]]; [congruence|congruence| |auto]. exfalso. apply H. rewrite <- E. now rewrite Nat.mod_mul by lia. }
    exists (N + length l + 2)%nat,
      (fun s j => (j <= cnt)%nat /\ (((rb_cur s (j * b) \/ rb_none s (j * b)) /\ j * b <= T)%nat \/ (rb_over s /\ j = cnt))),
      (fun c j => (j <= cnt)%nat /\ exists q, (q <= length l)%nat /\ crep (fst c) q /\
        ((exists i, snd c = Z.of_nat i /\ (j * b = R q + i)%nat /\ (j * b <= T)%nat /\
           (i = 0%nat \/ exists e, nth_error l q = Some e /\ (i <= rows_of e)%nat)) \/
         (fin = true /\ q = length l /\ j = cnt))).
    assert (Hlive : forall j q i, (j * b = R q + i)%nat -> (j * b <= T)%nat -> (q <= length l)%nat ->
      live out_batches fin j -> live l fin q).
    { intros j q i E Hle Hq [Hv|[Hv F]]; [|now apply live_any]. rewrite Hlen in Hv.
      left. destruct (Nat.eq_dec q (length l)) as [->|]; [|lia]. exfalso. rewrite R_all in E.
      destruct (fin && negb drop); nia. }
    assert (Hset : forall fuel (s : St) c q j, (j <= cnt)%nat -> crep c q -> (q <= length l)%nat ->
      (exists s1, set_state p fuel (rb_parent s) c = Ok s1 /\ rep s1 q) -> forall idx,
      ((exists i, idx = Z.of_nat i /\ (j * b = R q + i)%nat /\ (j * b <= T)%nat /\
           (i = 0%nat \/ exists e, nth_error l q = Some e /\ (i <= rows_of e)%nat)) \/
         (fin = true /\ q = length l /\ j = cnt)) ->
      exists s' : St, (let! s1 := set_state p fuel (rb_parent s) c in Ok (mkRb s1 None idx (get_state p s1))) = Ok s' /\
        (j <= cnt)%nat /\ (((rb_cur s' (j * b) \/ rb_none s' (j * b)) /\ j * b <= T)%nat \/ (rb_over s' /\ j = cnt))).
    { intros fuel s c q j Hj Hc Hq (s1 & E & Hr1) idx Hk'. rewrite E. cbn [bind].
      eexists. split; [reflexivity|]. split; [easy|].
      destruct Hk' as [(i & Hi & E2 & Hle & Hi2)|(F & -> & ->)].
      - left. split; [|easy]. right. exists q, i. cbn. repeat split; auto. now apply (law_get L).
      - right. split; [|easy]. repeat split; cbn; auto. now apply (law_get L). }
    split.
    - split; [lia|]. left. split; [|lia]. right. exists 0%nat, 0%nat. cbn.
      repeat split; auto; [apply (law_init L)|apply (law_get L), (law_init L)].
    - intros s j (H & _). now rewrite Hlen.
    - intros fuel s j a Hf (Hj & H) Ha. cbn [next]. pose proof (nth_lt _ _ _ Ha) as Hlt. rewrite Hlen in Hlt.
      rewrite Hnth in Ha by easy. injection Ha as <-.
      destruct H as [(Hs & Hle)|(_ & ->)]; [|lia].
      destruct (Nat.le_gt_cases (j * b + b) T) as [Hfull|Hshort].
      + rewrite Nat.min_l by easy. destruct (step_full fuel s _ Hs Hfull ltac:(lia)) as (s' & -> & Hc). cbn [bindn].
        exists s'. split; [easy|]. split; [lia|]. left. replace (S j * b)%nat with (j * b + b)%nat by lia. auto.
      + rewrite Nat.min_r by lia. destruct (fin && negb drop) eqn:FD; [|nia].
        apply andb_true_iff in FD as [F D]. apply negb_true_iff in D.
        assert (Hmid' := Hmid j Hle D F).
        destruct (step_short fuel s _ F Hs Hshort ltac:(lia) Hle ltac:(auto)) as (s' & -> & Ho).
        rewrite D. rewrite (proj2 (Nat.ltb_lt (j * b) T)) by nia. cbn [bindn].
        exists s'. split; [easy|]. split; [lia|]. right. split; [easy|]. nia.
    - intros fuel s Hf F H. rewrite Hlen in H |- *. cbn [next]. destruct H as (_ & [(Hs & Hle)|(Ho & _)]).
      + assert (Hsh : (T < cnt * b + b)%nat) by (destruct (fin && negb drop); lia).
        assert (Hc' : drop = true \/ (cnt * b < T)%nat \/ T = 0%nat).
        { destruct drop eqn:D; [now left|]. right. now apply Hmid. }
        destruct (step_short fuel s _ F Hs Hsh ltac:(lia) Hle Hc') as (s' & -> & Ho). exists s'.
        assert (Hrep : (cnt <= cnt)%nat /\ (((rb_cur s' (cnt * b) \/ rb_none s' (cnt * b)) /\ cnt * b <= T)%nat \/ rb_over s' /\ cnt = cnt)) by auto.
        split; [|exact Hrep]. destruct drop eqn:D; [easy|].
        rewrite F in HC. cbn [andb negb] in HC. rewrite (proj2 (Nat.ltb_ge _ _)) by lia. easy.
      + destruct (step_over fuel s Ho ltac:(lia)) as (s' & -> & Ho'). exists s'.
        split; [now destruct drop|]. auto.
    - intros s j (Hj & H). cbn [get_state fst snd]. split; [easy|].
      destruct H as [([(q & e & i & He & Hcur & Hidx & Hi & Hr & Hrep & Hcrep)|(q & i & Hcur & Hidx & Hr & Hi & Hrep & Hcrep)] & Hle)|((F & Hrep & Hcrep & _) & ->)].
      + exists q. split; [apply nth_lt in He; lia|]. split; [easy|]. left. exists i. repeat split; eauto.
      + exists q. split; [apply (law_le L _ _ Hrep)|]. split; [easy|]. left. exists i. repeat split; eauto.
      + exists (length l). split; [lia|]. split; [easy|]. right. auto.
    - intros [c i] j Hj (Hle & q & Hq & Hc & H). split; [easy|]. exists q. split; [easy|].
      split; [now apply (law_json L)|easy].
    - intros fuel s j Hf (Hj & H) Hv. cbn [set_state get_state init rb_last rb_idx].
      assert (exists q, rep (rb_parent s) q) as (q & Hr).
      { destruct H as [([(q & e & i & _ & _ & _ & _ & _ & Hrep & _)|(q & i & _ & _ & _ & _ & Hrep & _)] & _)|((_ & Hrep & _) & _)]; eauto. }
      assert (Hl0 : live l fin 0) by (apply (Hlive 0%nat 0%nat 0%nat); auto; lia).
      apply (Hset fuel s _ 0%nat 0%nat); auto; try lia.
      + apply (law_get L), (law_init L).
      + apply (law_start L fuel _ q); auto; lia.
      + left. exists 0%nat. cbn. repeat split; auto; lia.
    - intros fuel [c idx] j Hf (Hj & q & Hq & Hc & H) Hv. cbn [set_state init rb_parent fst snd] in *.
      apply (Hset fuel (mkRb (init p) None 0 (get_state p (init p))) c q j); auto.
      apply (law_fresh L); auto; [lia|].
      destruct H as [(i & _ & E & Hle & _)|(F & -> & _)]; [now apply (Hlive j q i)|now right].
    - intros fuel s q0 [c idx] j Hf U (Hj0 & H0) (Hj & q & Hq & Hc & H) Hv. cbn [set_state fst snd] in *.
      assert (exists q, rep (rb_parent s) q) as (q1 & Hr).
      { destruct H0 as [([(q1 & e & i & _ & _ & _ & _ & _ & Hrep & _)|(q1 & i & _ & _ & _ & _ & Hrep & _)] & _)|((_ & Hrep & _) & _)]; eauto. }
      apply (Hset fuel s c q j); auto.
      apply (law_used L fuel _ q1); auto; [lia|].
      destruct H as [(i & _ & E & Hle & _)|(F & -> & _)]; [now apply (Hlive j q i)|now right].
  Qed.

  (** Reading to the end works in all cases. *)
  Lemma step_end fuel (s : St) : fin = true -> rb_cur s T -> (N + length l + 1 < fuel)%nat ->
    exists s', rebatch_loop drop p fuel bs None s = (if drop then Stop else Yield None, s') /\ rb_over s'.
  Proof.
    intros F (q & e & i & He & Hcur & Hidx & Hi & Hr & Hrep & Hcrep) Hf. assert (Hb : (1 <= b)%nat) by (unfold b; lia).
    replace bs with (Z.of_nat b) by (unfold b; lia).
    pose proof (R_S q e He) as HRS. pose proof (R_le (S q)) as HSle. destruct (reg q e He) as (_ & Hpos & _).
    pose proof (nth_lt _ _ _ He). assert (i = rows_of e) by lia. subst i.
    assert (Hdone : rb_done s (S q)) by (exists q, e; repeat split; auto).
    destruct (done_short _ F fuel b None s (S q) T eq_refl Hdone) as (s2 & -> & Ho); try lia.
    { left. split; [easy|lia]. }
    exists s2. split; [|easy]. replace (R (S q)) with T by lia. now rewrite Nat.ltb_irrefl.
  Qed.

  Lemma rebatch_drain it : rebatch_it bs drop p = Ok it -> outputs it out_batches fin.
  Proof.
    intros Hit.
    assert (D : (fin = false \/ drop = true \/ (T mod b)%nat <> 0%nat \/ T = 0%nat) \/
                (fin = true /\ drop = false /\ (T mod b)%nat = 0%nat /\ T <> 0%nat)).
    { destruct fin, drop; auto 6. destruct (Nat.eq_dec (T mod b) 0), (Nat.eq_dec T 0); auto 6. }
    destruct D as [D|(F & Dr & Hm & H0)].
    - eapply lawful_outputs, (rebatch_law it Hit D).
    - unfold rebatch_it in Hit. rewrite (proj2 (Z.leb_gt bs 0)) in Hit by lia.
      match type of Hit with Ok ?X = _ => assert (it = X) as -> by congruence end. clear Hit.
      assert (Hb : (1 <= b)%nat) by (unfold b; lia). pose proof cnt_spec as HC. rewrite F, Dr in HC. cbn [andb negb] in HC.
      assert (Hlen : length out_batches = cnt) by (unfold out_batches; now rewrite map_length, seq_length).
      assert (Hnth : forall j, (j < cnt)%nat -> nth_error out_batches j = Some (cols k l (j * b) (Nat.min (j * b + b) T))).
      { intros j Hj. unfold out_batches. rewrite nth_error_map, (nth_error_nth' _ 0%nat) by now rewrite seq_length.
        now rewrite seq_nth. }
      assert (HT : T = (cnt * b)%nat).
      { pose proof (Nat.div_mod T b ltac:(lia)) as E. rewrite Hm in E. set (d := (T / b)%nat) in *. clearbody d.
        assert (cnt = d) by nia. nia. }
      unfold outputs. rewrite F. exists (N + length l + 2)%nat. intros fuel Hf.
      set (it := {| ist := _ |}).
      assert (G : forall n j (s : St), (j + n = cnt)%nat -> rb_cur s (j * b) \/ (rb_none s (j * b) /\ j = 0%nat) ->
        drain it fuel (S n) s = (skipn j out_batches, Stop)).
      { induction n as [|n IH]; intros j s Hj Hs.
        - rewrite skipn_all2 by lia. cbn [drain next it]. unfold it at 1. cbn [next].
          assert (j = cnt) by lia. subst j. destruct Hs as [Hs|[_ Hs]]; [|nia].
          rewrite <- HT in Hs. destruct (step_end fuel s F Hs ltac:(lia)) as (s' & -> & _). rewrite Dr. easy.
        - assert (Hjc : (j < cnt)%nat) by lia. pose proof (Hnth j Hjc) as E. assert (Hfull : (j * b + b <= T)%nat) by nia.
          rewrite Nat.min_l in E by easy. rewrite (skipn_nth_cons _ _ _ E).
          destruct (step_full fuel s (j * b)%nat ltac:(tauto) Hfull ltac:(lia)) as (s' & E' & Hc).
          change (drain it fuel (S (S n)) s) with (match next it fuel s with
            | (Yield a, s') => let (l, o) := drain it fuel (S n) s' in (a :: l, o) | (o, _) => ([], o) end).
          unfold it at 1. cbn [next]. rewrite E'. cbn [bindn].
          rewrite (IH (S j) s') by (try lia; left; now replace (S j * b)%nat with (j * b + b)%nat by lia). easy. }
      rewrite Hlen. apply (G cnt 0%nat (init it)); [easy|]. right. split; [|easy].
      exists 0%nat, 0%nat. cbn. repeat split; auto; [apply (law_init L)|apply (law_get L), (law_init L)].
  Qed.
End Rebatch.

(** ** What the output batches are *)
Lemma nth_cols {X} k (l : list (leaves X)) a c m : (m < k)%nat ->
  nth m (cols k l a c) [] = firstn (c - a) (skipn a (leaf_rows m l)).
Proof.
  intros Hm. unfold cols. apply nth_error_nth. rewrite nth_error_map.
  rewrite (nth_error_nth' (seq 0 k) 0%nat) by (rewrite seq_length; lia). now rewrite seq_nth.
Qed.

Lemma leaf_rows_total {X} k (l : list (leaves X)) m : Forall (regular k) l -> (m < k)%nat ->
  length (leaf_rows m l) = total_rows l.
Proof.
  intros H Hm. unfold leaf_rows, total_rows. induction H as [|e l' He Hl' IH]; [easy|].
  cbn. rewrite app_length, IH. f_equal. destruct He as (Hl & _ & Hf). rewrite Forall_forall in Hf.
  apply Hf, nth_In. lia.
Qed.

Lemma slices_chunks {X} (xs : list X) b : (0 < b)%nat ->
  map (fun j => firstn (Nat.min (j * b + b) (length xs) - j * b) (skipn (j * b) xs)) (seq 0 (length (chunks b xs))) = chunks b xs.
Proof.
  intros Hb. apply nth_error_ext. intros j. rewrite nth_error_map, chunks_nth by easy.
  pose proof (chunks_length_nat b xs Hb) as [H1 H2].
  destruct (Nat.ltb_spec (j * b) (length xs)) as [H|H].
  - assert (Hj : (j < length (chunks b xs))%nat) by nia.
    rewrite (nth_error_nth' _ 0%nat), seq_nth by (rewrite ?seq_length; lia). cbn. f_equal.
    destruct (Nat.le_gt_cases (j * b + b) (length xs)) as [G|G].
    + rewrite Nat.min_l by easy. f_equal. lia.
    + rewrite Nat.min_r by lia. rewrite !firstn_all2; rewrite ?skipn_length; lia || easy.
  - assert (Hj : (length (chunks b xs) <= j)%nat) by nia.
    replace (nth_error (seq 0 (length (chunks b xs))) j) with (@None nat); [easy|].
    symmetry. apply nth_error_None. rewrite seq_length. lia.
Qed.

Lemma out_batches_rebatched {X} k bs drop (l : list (leaves X)) (fin : bool) : 1 <= bs ->
  Forall (regular k) l ->
  rebatched k (Z.to_nat bs) (drop || negb fin) l (out_batches k bs drop l fin).
Proof.
  intros Hbs Hreg. set (b := Z.to_nat bs). assert (Hb : (0 < b)%nat) by (unfold b; lia).
  unfold out_batches. fold b. split.
  - apply Forall_forall. intros e He. apply in_map_iff in He as (j & <- & _). unfold cols.
    now rewrite map_length, seq_length.
  - intros m Hm. rewrite map_map. pose proof (leaf_rows_total k l m Hreg Hm) as HT. set (xs := leaf_rows m l) in *.
    rewrite (map_ext _ (fun j => firstn (Nat.min (j * b + b) (length xs) - j * b) (skipn (j * b) xs)))
      by (intros j; rewrite HT; now apply nth_cols).
    pose proof (chunks_length_nat b xs Hb) as [H1 H2]. unfold cnt. fold b.
    replace (drop || negb fin) with (negb (fin && negb drop)) by (destruct fin, drop; easy).
    destruct (fin && negb drop); cbn [negb].
    + rewrite <- (slices_chunks xs b Hb) at 1. f_equal. f_equal. rewrite <- HT.
      symmetry. apply Nat.div_unique with (r := (length xs + b - 1 - length (chunks b xs) * b)%nat); lia.
    + rewrite full_chunks_firstn, <- (slices_chunks xs b Hb), firstn_map by easy. f_equal. rewrite <- HT.
      pose proof (Nat.div_mod (length xs) b ltac:(lia)). pose proof (Nat.mod_upper_bound (length xs) b ltac:(lia)).
      replace (length (chunks b xs)) with (length xs / b + (length (chunks b xs) - length xs / b))%nat by nia.
      rewrite seq_app, firstn_app, seq_length, Nat.sub_diag. cbn [firstn]. rewrite app_nil_r, firstn_all2; [easy|].
      rewrite seq_length. lia.
Qed.

Lemma rebatched_fun {X} k b drop (l : list (leaves X)) out out' : (1 <= k)%nat ->
  rebatched k b drop l out -> rebatched k b drop l out' -> out = out'.
Proof.
  intros Hk [H1 H2] [H1' H2'].
  assert (G : forall m, (m < k)%nat -> map (fun e => nth m e []) out = map (fun e => nth m e []) out')
    by (intros m Hm; rewrite H2, H2' by easy; easy).
  clear H2 H2'. revert out' H1' G. induction H1 as [|e out He Hout IH]; intros out' H1' G.
  - specialize (G 0%nat ltac:(lia)). destruct out'; [easy|discriminate].
  - destruct out' as [|e' out']; [specialize (G 0%nat ltac:(lia)); discriminate|].
    inversion H1' as [|? ? He' Hout']; subst. f_equal.
    + apply nth_ext with (d := []) (d' := []); [congruence|]. intros m Hm. specialize (G m Hm). now injection G.
    + apply IH; [easy|]. intros m Hm. specialize (G m Hm). now injection G.
Qed.

Lemma lawful_rebatch {X} k bs drop (p : Iter (leaves X)) it l out (fin used json : bool) :
  (1 <= k)%nat -> Forall (regular k) l -> rebatch_it bs drop p = Ok it ->
  (fin = false \/ drop = true \/ (total_rows l mod Z.to_nat bs)%nat <> 0%nat \/ l = []) -> lawful p l fin used json ->
  rebatched k (Z.to_nat bs) (drop || negb fin) l out -> lawful it out fin used json.
Proof.
  intros Hk Hreg Hit Hcase (N & rep & crep & L) Hout.
  assert (Hbs : 1 <= bs).
  { unfold rebatch_it in Hit. destruct (Z.leb_spec bs 0); [easy|lia]. }
  replace out with (out_batches k bs drop l fin).
  - eapply rebatch_law; eauto. destruct Hcase as [?|[?|[?| ->]]]; auto.
  - eapply rebatched_fun; [exact Hk| |exact Hout]. now apply out_batches_rebatched.
Qed.
