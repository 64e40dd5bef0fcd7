(** The rows of concat-then-split have the properties of ConcatSplitSpec.v. *)
From Coq Require Import Sorted.
From Verif Require Import Base ListFacts MapDatasets Iter IterSpec IterLaw Packing ConcatSplit ConcatSplitSpec Packing_proofs ConcatSplit_proofs.
Local Arguments Nat.ltb : simpl never. Local Arguments Nat.leb : simpl never. Local Arguments Nat.sub : simpl never. Local Arguments Nat.eqb : simpl never.

Section Rows.
Context {A : Type}.
Variable cfg : config A.
Notation fs0 := (cs_feats cfg).
Hypothesis Hcfg : good_config cfg.
Notation vel := (@vel A).
Notation piece := (@piece A).
Definition tag (v : vel) : nat := fst (fst v).
Definition as_piece (v : vel) : piece := (tag v, snd v).
Definition np (v : vel) : bool := negb (snd (fst v) && passb cfg (snd v)).

(** ** Passing full elements does not change the other rows *)

Lemma fill_filter tok st bf ps r : fill cfg tok st = (bf, ps, r) ->
  fill cfg tok (filter np st) = (bf, [], filter np r) /\ map as_piece (filter (fun v => negb (np v)) st) = ps ++ map as_piece (filter (fun v => negb (np v)) r) /\
  (r <> [] -> filter np r <> []).
Proof.
  revert tok bf ps r. induction st as [|[[k b] cs] st IH]; intros tok bf ps r E; cbn [fill] in E.
  - inversion E; subst. easy.
  - assert (Hnp : np (k, b, cs) = negb (b && passb cfg cs)) by reflexivity. cbn [filter]. rewrite Hnp. destruct (b && passb cfg cs) eqn:Ep; cbn [negb] in *.
    + destruct (fill cfg tok st) as [[bf' ps'] r'] eqn:E'. inversion E; subst. destruct (IH _ _ _ _ E') as (I1 & I2 & I3). split; [easy|]. split; [|easy].
      cbn [map app]. now rewrite I2.
    + cbn [fill]. rewrite Ep. destruct (add cfg tok cs) as [| |x y].
      * inversion E; subst. cbn [filter]. rewrite Hnp. now split.
      * destruct (fill cfg (plus_tok tok cs) st) as [[bf' ps'] r'] eqn:E'. inversion E; subst. destruct (IH _ _ _ _ E') as (I1 & I2 & I3). now rewrite I1.
      * inversion E; subst. now split.
Qed.

Inductive packs1 : list vel -> list (list piece) -> Prop :=
| p1_nil : packs1 [] []
| p1_more st bf r rows : st <> [] -> fill cfg (tok0 cfg) st = (bf, [], r) -> bf <> [] -> packs1 r rows -> packs1 st (bf :: rows).

Lemma merge_right_app {X} (ps : list X) xs ys zs : merge xs ys zs -> merge xs (ps ++ ys) (ps ++ zs).
Proof. intros H. induction ps; cbn; [easy|]. now apply merge_right. Qed.

Lemma filter_nonempty_vok (st : list vel) : Forall (fun v : vel => vok cfg (snd v)) st -> Forall (fun v : vel => vok cfg (snd v)) (filter np st).
Proof. intros H. rewrite Forall_forall in *. intros v Hv. apply filter_In in Hv. now apply H. Qed.

Lemma packsv_merge st rows : packsv cfg true st rows -> Forall (fun v : vel => vok cfg (snd v)) st ->
  exists normal, packs1 (filter np st) normal /\ merge normal (map (fun q => [q]) (map as_piece (filter (fun v => negb (np v)) st))) rows.
Proof.
  intros H. induction H as [|st bf ps Hne E|st bf ps r rows Hne E Hr H IH]; intros Hv.
  - exists []. split; [apply p1_nil|]. apply merge_nil.
  - destruct (fill_filter _ _ _ _ _ E) as (F1 & F2 & _). cbn [filter map] in F1, F2. rewrite app_nil_r in F2. rewrite F2. unfold group.
    destruct (filter np st) as [|v st'] eqn:Ef.
    + assert (bf = []) as -> by (cbn in F1; congruence). clear F1. exists []. split; [apply p1_nil|]. cbn [app]. rewrite <- (app_nil_r (map _ ps)).
      apply merge_right_app. apply merge_nil.
    + assert (Hbf : bf <> []). { assert (Hvf : Forall (fun u : vel => vok cfg (snd u)) (v :: st')) by (rewrite <- Ef; now apply filter_nonempty_vok).
        assert (Hc : v :: st' <> []) by discriminate. destruct (fill_nonempty cfg Hcfg _ _ _ _ Hc Hvf F1); [easy|congruence]. }
      exists [bf]. split; [eapply p1_more; [easy|exact F1|easy|apply p1_nil]|].
      destruct bf as [|q bf]; [easy|]. cbn [app]. apply merge_left. rewrite <- (app_nil_r (map _ ps)). apply merge_right_app. apply merge_nil.
  - destruct (fill_filter _ _ _ _ _ E) as (F1 & F2 & F3). rewrite F2.
    destruct (fill_rows cfg _ _ _ _ _ Hv (tok_ok0 cfg) E) as (Hvr & _).
    destruct (IH Hvr) as (normal & N1 & N2). rewrite map_app. unfold group.
    assert (Hf : filter np st <> []). { intros Ef. rewrite Ef in F1. cbn in F1. inversion F1 as [[E1 E2]]. now apply F3. }
    assert (Hbf : bf <> []). { destruct (fill_nonempty cfg Hcfg _ _ _ _ Hf (filter_nonempty_vok _ Hv) F1); [easy|congruence]. }
    exists (bf :: normal). split; [eapply p1_more; [easy|exact F1|easy|exact N1]|].
    destruct bf as [|q bf]; [easy|]. cbn [app]. apply merge_left. now apply merge_right_app.
Qed.

(** ** What is taken, feature by feature *)

Lemma takes_nth fs tok (cs : list (list A)) tk needs : takes fs tok cs = Some (tk, needs) -> length tok = length fs -> length cs = length fs ->
  (forall i f, nth_error fs i = Some f ->
     if cf_meta f then nth i tk 0%nat = length (nth i cs []) /\ ((nth i tok 0%nat + length (nth i cs []) <= cf_len f)%nat \/ length (nth i cs (@nil A)) = 0%nat)
     else nth i tk 0%nat = Nat.min (length (nth i cs [])) (cf_len f - nth i tok 0%nat)) /\
  (needs = true -> exists i f, nth_error fs i = Some f /\ cf_meta f = false /\ (cf_len f - nth i tok 0%nat < length (nth i cs []))%nat).
Proof.
  revert tok cs tk needs. induction fs as [|f fs IH]; intros [|t tok] [|c cs] tk needs E H1 H2; cbn [length] in *; try lia.
  - inversion E; subst. split; [intros [|i]; easy|easy].
  - cbn [takes] in E. destruct (takes fs tok cs) as [[tk' n']|] eqn:E'; [|destruct (cf_meta f), (Nat.ltb _ _); easy].
    destruct (IH tok cs tk' n' E' ltac:(lia) ltac:(lia)) as [I1 I2]. clear IH.
    destruct (cf_meta f) eqn:Hm; destruct (Nat.ltb_spec (cf_len f - t) (length c)); cbn in E; inversion E; subst; (split; [intros [|i] g Hg; cbn in Hg; [inversion Hg; subst g; rewrite Hm; cbn|exact (I1 i g Hg)]|]);
      try (split; lia); try lia; try (intros N; destruct (I2 N) as (i & g & Hi); exists (S i), g; exact Hi).
    intros _. exists 0%nat, f. easy.
Qed.
Lemma takes_none fs tok (cs : list (list A)) : takes fs tok cs = None -> exists i f, nth_error fs i = Some f /\ cf_meta f = true /\ (cf_len f - nth i tok 0%nat < length (nth i cs []))%nat.
Proof.
  revert tok cs. induction fs as [|f fs IH]; intros [|t tok] [|c cs] E; cbn [takes] in E; try discriminate.
  destruct (takes fs tok cs) as [[tk' n']|] eqn:E'.
  - destruct (cf_meta f) eqn:Hm; destruct (Nat.ltb_spec (cf_len f - t) (length c)); try discriminate. exists 0%nat, f. easy.
  - destruct (IH tok cs E') as (i & g & Hi). exists (S i), g. exact Hi.
Qed.
Lemma lefts_nth fs tk cs i f : length tk = length fs -> length cs = length fs -> nth_error fs i = Some f ->
  nth i (lefts fs tk cs) [] = (if cf_meta f then nth i cs [] else firstn (nth i tk 0%nat) (nth i cs [])) /\
  nth i (rights fs tk cs) [] = (if cf_meta f then nth i cs [] else @skipn A (nth i tk 0%nat) (nth i cs [])).
Proof.
  revert tk cs i. induction fs as [|g fs IH]; intros [|t tk] [|c cs] [|i] H1 H2 E; cbn in *; try discriminate.
  - now inversion E; subst.
  - apply IH; easy || lia.
Qed.
Lemma zero_takes_nth fs tk : length tk = length fs -> zero_takes fs tk = true -> forall i f, nth_error fs i = Some f -> cf_meta f = false -> nth i tk 0%nat = 0%nat.
Proof.
  revert tk. induction fs as [|g fs IH]; intros [|t tk] Hl Hz [|i] f E Hm; cbn in *; try discriminate.
  - inversion E; subst. rewrite Hm in Hz. cbn in Hz. apply andb_true_iff in Hz as [Hz _]. now apply Nat.eqb_eq.
  - apply andb_true_iff in Hz as [_ Hz]. apply (IH tk ltac:(lia) Hz i f); easy.
Qed.

(** Nothing of [cs] has place in a row with [tok] values. *)
Definition no_place (n : nat -> nat) (cs : list (list A)) : Prop :=
  (exists i, is_meta cfg i /\ (limit cfg i < n i + length (nth i cs []))%nat) \/
  ((forall i, is_data cfg i -> n i = limit cfg i \/ nth i cs [] = []) /\
   exists i, is_data cfg i /\ n i = limit cfg i /\ nth i cs [] <> []).

Lemma limit_nth i f : nth_error fs0 i = Some f -> limit cfg i = cf_len f.
Proof. intros H. unfold limit. now rewrite H. Qed.

Lemma stuck_no_place tok cs : length cs = length fs0 -> tok_ok fs0 tok -> add cfg tok cs = Stuck -> no_place (fun i => nth i tok 0%nat) cs.
Proof.
  intros Lc Ht E. pose proof (eq_sym (Forall2_length _ _ _ Ht)) as Lt. unfold add in E.
  destruct (takes fs0 tok cs) as [[tk [|]]|] eqn:Et; [|discriminate|].
  - destruct (zero_takes fs0 tk) eqn:Ez; [|discriminate]. right.
    destruct (takes_nth _ _ _ _ _ Et Lt Lc) as [T1 T2]. pose proof (zero_takes_nth _ _ (takes_length _ _ _ _ _ Et Lt Lc) Ez) as Hz.
    split.
    + intros i (f & Hi & Hm). specialize (T1 i f Hi). rewrite Hm in T1. rewrite (Hz i f Hi Hm) in T1. rewrite (limit_nth _ _ Hi).
      pose proof (tok_ok_limit _ _ _ _ Ht Hi). destruct (nth i cs []) as [|]; [now right|left]. cbn [length] in T1. lia.
    + destruct (T2 eq_refl) as (i & f & Hi & Hm & Hlt). exists i. split; [now exists f|]. specialize (T1 i f Hi). rewrite Hm in T1. rewrite (Hz i f Hi Hm) in T1.
      rewrite (limit_nth _ _ Hi). pose proof (tok_ok_limit _ _ _ _ Ht Hi). split; [lia|]. intros En. rewrite En in Hlt. cbn in Hlt. lia.
  - left. destruct (takes_none _ _ _ Et) as (i & f & Hi & Hm & Hlt). exists i. split; [now exists f|]. rewrite (limit_nth _ _ Hi). lia.
Qed.

Lemma cut_facts tok cs x y : length cs = length fs0 -> tok_ok fs0 tok -> add cfg tok cs = Cut x y ->
  no_place (fun i => nth i tok 0%nat + length (nth i x []))%nat y /\
  (forall i, is_data cfg i -> nth i x [] ++ nth i y [] = nth i cs []) /\
  (forall i, is_meta cfg i -> nth i x [] = nth i cs [] /\ nth i y [] = nth i cs []) /\
  length x = length fs0 /\
  (forall i, is_data cfg i -> (nth i tok 0%nat = 0)%nat -> nth i x [] = [] -> nth i cs [] = []).
Proof.
  intros Lc Ht E. pose proof (eq_sym (Forall2_length _ _ _ Ht)) as Lt. unfold add in E.
  destruct (takes fs0 tok cs) as [[tk [|]]|] eqn:Et; try discriminate. destruct (zero_takes fs0 tk) eqn:Ez; inversion E; subst. clear E.
  pose proof (takes_length _ _ _ _ _ Et Lt Lc) as Lk.
  destruct (takes_nth _ _ _ _ _ Et Lt Lc) as [T1 T2]. repeat split.
  - right. split.
    + intros i (f & Hi & Hm). specialize (T1 i f Hi). rewrite Hm in T1. destruct (lefts_nth _ tk cs i f Lk Lc Hi) as [L1 L2]. rewrite Hm in L1, L2. rewrite L1, L2.
      rewrite (limit_nth _ _ Hi). pose proof (tok_ok_limit _ _ _ _ Ht Hi). rewrite firstn_length.
      destruct (Nat.le_gt_cases (length (nth i cs [])) (cf_len f - nth i tok 0%nat)); [right; apply skipn_all2; lia|left; lia].
    + destruct (T2 eq_refl) as (i & f & Hi & Hm & Hlt). exists i. split; [now exists f|]. specialize (T1 i f Hi). rewrite Hm in T1.
      destruct (lefts_nth _ tk cs i f Lk Lc Hi) as [L1 L2]. rewrite Hm in L1, L2. rewrite L1, L2.
      rewrite (limit_nth _ _ Hi). pose proof (tok_ok_limit _ _ _ _ Ht Hi). rewrite firstn_length. split; [lia|].
      intros En. apply (f_equal (@length A)) in En. rewrite skipn_length in En. cbn in En. lia.
  - intros i (f & Hi & Hm). destruct (lefts_nth _ tk cs i f Lk Lc Hi) as [L1 L2]. rewrite Hm in L1, L2. rewrite L1, L2. apply firstn_skipn.
  - destruct H as (f & Hi & Hm). destruct (lefts_nth _ tk cs i f Lk Lc Hi) as [L1 L2]. now rewrite Hm in L1.
  - destruct H as (f & Hi & Hm). destruct (lefts_nth _ tk cs i f Lk Lc Hi) as [L1 L2]. now rewrite Hm in L2.
  - now destruct (takes_cut _ _ _ _ Et Lt Lc Ht) as (_ & ? & _).
  - intros i (f & Hi & Hm) Hz Hx. destruct (lefts_nth _ tk cs i f Lk Lc Hi) as [L1 L2]. rewrite Hm in L1. rewrite L1 in Hx.
    specialize (T1 i f Hi). rewrite Hm in T1. apply (f_equal (@length A)) in Hx. rewrite firstn_length in Hx. cbn in Hx.
    pose proof (cfg_len cfg Hcfg) as Hc. rewrite Forall_forall in Hc. specialize (Hc f (nth_error_In _ _ Hi)). apply length_zero_iff_nil. lia.
Qed.

(** ** The shape of a row *)

Inductive shape (tok : list nat) : list vel -> list piece -> list vel -> Prop :=
| sh_end w : shape tok w (map as_piece w) []
| sh_stuck w v st : no_place (fun i => nth i tok 0%nat + used i (map as_piece w))%nat (snd v) -> shape tok (w ++ v :: st) (map as_piece w) (v :: st)
| sh_cut w v st x y : no_place (fun i => nth i tok 0%nat + used i (map as_piece w ++ [(tag v, x)]))%nat y ->
    (forall i, is_data cfg i -> nth i x [] ++ nth i y [] = nth i (snd v) []) ->
    (forall i, is_meta cfg i -> nth i x [] = nth i (snd v) [] /\ nth i y [] = nth i (snd v) []) ->
    length x = length fs0 ->
    (w = [] -> forall i, is_data cfg i -> (nth i tok 0%nat = 0)%nat -> nth i x [] = [] -> nth i (snd v) [] = []) ->
    shape tok (w ++ v :: st) (map as_piece w ++ [(tag v, x)]) ((tag v, false, y) :: st).

Lemma no_place_ext n m cs : (forall i, n i = m i) -> no_place n cs -> no_place m cs.
Proof.
  intros H [(i & H1 & H2)|[H1 (i & H2 & H3 & H4)]].
  - left. exists i. split; [easy|]. now rewrite <- H.
  - right. split; [intros j Hj; rewrite <- H; now apply H1|]. exists i. rewrite <- H. auto.
Qed.

Lemma fill_shape st : Forall (fun v : vel => vok cfg (snd v)) st -> Forall (fun v => np v = true) st ->
  forall tok bf ps r, tok_ok fs0 tok -> fill cfg tok st = (bf, ps, r) -> shape tok st bf r.
Proof.
  induction st as [|[[k b] cs] st IH]; intros Hv Hn tok bf ps r Ht E; cbn [fill] in E.
  - inversion E; subst. apply (sh_end tok []).
  - inversion Hv as [|? ? Hv1 Hv2]; subst. inversion Hn as [|? ? Hn1 Hn2]; subst. cbn [snd] in Hv1. unfold np in Hn1. cbn [fst snd] in Hn1.
    apply negb_true_iff in Hn1. rewrite Hn1 in E. pose proof (vok_length _ _ Hv1) as Lc.
    pose proof (add_ok cfg tok cs Hv1 Ht) as Ha. pose proof (eq_sym (Forall2_length _ _ _ Ht)) as Lt.
    destruct (add cfg tok cs) as [| |x y] eqn:Eadd.
    + inversion E; subst. apply (sh_stuck tok []). cbn [map snd]. eapply no_place_ext; [|exact (stuck_no_place tok cs Lc Ht Eadd)]. intros i. unfold used. cbn. lia.
    + destruct (fill cfg (plus_tok tok cs) st) as [[bf' ps'] r'] eqn:E'. inversion E; subst.
      specialize (IH Hv2 Hn2 _ _ _ _ Ha E').
      assert (Hu : forall i row, (nth i (plus_tok tok cs) 0 + used i row)%nat = (nth i tok 0%nat + used i ((k, cs) :: row))%nat).
      { intros i row. rewrite plus_tok_nth by lia. change (used i ((k, cs) :: row)) with (length (nth i cs []) + used i row)%nat. lia. }
      inversion IH as [w E1 E2 E3|w v st' Hnp E1 E2 E3|w v st' x y Hnp Hd Hm Hl Hz E1 E2 E3]; subst.
      * exact (sh_end tok ((k, b, cs) :: st)).
      * apply (sh_stuck tok ((k, b, cs) :: w)). eapply no_place_ext; [|exact Hnp]. intros i. apply Hu.
      * apply (sh_cut tok ((k, b, cs) :: w)); try easy. eapply no_place_ext; [|exact Hnp]. intros i. apply Hu.
    + destruct (cut_facts tok cs x y Lc Ht Eadd) as (C1 & C2 & C3 & C4 & C5). inversion E; subst.
      apply (sh_cut tok [] (k, b, cs) st x y); try easy.
      eapply no_place_ext; [|exact C1]. intros i. unfold used. cbn. unfold part. cbn. lia.
Qed.

(** The first piece of a row. *)
Lemma shape_head v st bf r : shape (tok0 cfg) (v :: st) bf r -> bf <> [] -> exists x bf', bf = (tag v, x) :: bf' /\
  (forall i, is_meta cfg i -> nth i x [] = nth i (snd v) []) /\ (forall i, is_data cfg i -> nth i x [] = [] <-> nth i (snd v) [] = []).
Proof.
  intros H Hne. inversion H as [w E1 E2 E3|w v' st' Hnp E1 E2 E3|w v' st' x y Hnp Hd Hm Hl Hz E1 E2 E3]; subst.
  - exists (snd v), (map as_piece st). easy.
  - destruct w as [|u w]; [easy|]. cbn in E1. inversion E1; subst. exists (snd v), (map as_piece w). easy.
  - destruct w as [|u w]; cbn in E1; inversion E1; subst.
    + exists x, []. split; [easy|]. split; [intros i Hi; now apply Hm|]. intros i Hi. split.
      * intros Hx. apply Hz; try easy. apply tok0_nth.
      * intros Hx. specialize (Hd i Hi). rewrite Hx in Hd. now apply app_eq_nil in Hd.
    + exists (snd v), (map as_piece w ++ [(tag v', x)]). easy.
Qed.

(** ** All rows *)

Definition pieces_of (k i : nat) (qs : list piece) : list A := concat (map (part i) (filter (fun q => Nat.eqb (fst q) k) qs)).
Lemma pieces_of_app k i a b : pieces_of k i (a ++ b) = pieces_of k i a ++ pieces_of k i b.
Proof. unfold pieces_of. now rewrite filter_app, map_app, concat_app. Qed.
Lemma pieces_of_cons k i q qs : pieces_of k i (q :: qs) = (if Nat.eqb (fst q) k then part i q else []) ++ pieces_of k i qs.
Proof. unfold pieces_of. cbn [filter]. now destruct (Nat.eqb (fst q) k). Qed.

Record good_rows (st : list vel) (rows : list (list piece)) : Prop := {
  g_tags : forall q, In q (concat rows) -> In (fst q) (map tag st) /\ length (snd q) = length fs0;
  g_all : forall v, In v st -> In (tag v) (map fst (concat rows));
  g_data : forall k i, is_data cfg i -> pieces_of k i (concat rows) = pieces_of k i (map as_piece st);
  g_meta : forall q, In q (concat rows) -> exists v, In v st /\ tag v = fst q /\ forall i, is_meta cfg i -> part i q = nth i (snd v) [];
  g_sorted : StronglySorted lt (map tag st) -> StronglySorted le (map fst (concat rows));
  g_once : StronglySorted lt (map tag st) -> forall row, In row rows -> StronglySorted lt (map fst row);
  g_full : forall k row q row', nth_error rows k = Some row -> nth_error rows (S k) = Some (q :: row') -> no_place (fun i => used i row) (snd q);
  g_head : match st, rows with
           | v :: _, (q :: _) :: _ => (forall i, is_meta cfg i -> part i q = nth i (snd v) []) /\ (forall i, is_data cfg i -> part i q = [] <-> nth i (snd v) [] = [])
           | [], [] => True
           | _, _ => False
           end;
}.

Lemma sorted_app_le (a b : list nat) : StronglySorted le a -> StronglySorted le b -> (forall x y, In x a -> In y b -> (x <= y)%nat) -> StronglySorted le (a ++ b).
Proof.
  induction 1 as [|x a Ha IH Hx]; intros Hb H; [easy|]. cbn. constructor.
  - apply IH; [easy|]. intros; apply H; [now right|easy].
  - apply Forall_app. split; [easy|]. apply Forall_forall. intros y Hy. apply H; [now left|easy].
Qed.
Lemma sorted_lt_le (a : list nat) : StronglySorted lt a -> StronglySorted le a.
Proof. induction 1; constructor; [easy|]. eapply Forall_impl; [|eassumption]. cbn. lia. Qed.
Lemma sorted_app_inv (a b : list nat) : StronglySorted lt (a ++ b) -> StronglySorted lt a /\ StronglySorted lt b /\ forall x y, In x a -> In y b -> (x < y)%nat.
Proof.
  induction a as [|x a IH]; cbn; intros H; [repeat split; [constructor|easy|easy]|].
  inversion H as [|? ? H1 H2]; subst. destruct (IH H1) as (I1 & I2 & I3). apply Forall_app in H2 as [H2 H3].
  repeat split; [constructor; easy|easy|]. intros y z [<-|Hy] Hz; [rewrite Forall_forall in H3; now apply H3|now apply I3].
Qed.

Lemma no_place_head n (v : vel) (q : piece) : (forall i, is_meta cfg i -> part i q = nth i (snd v) []) -> (forall i, is_data cfg i -> part i q = [] <-> nth i (snd v) [] = []) ->
  no_place n (snd v) -> no_place n (snd q).
Proof.
  unfold part. intros Hm Hd [(i & H1 & H2)|[H1 (i & H2 & H3 & H4)]].
  - left. exists i. split; [easy|]. now rewrite (Hm i H1).
  - right. split.
    + intros j Hj. destruct (H1 j Hj) as [H|H]; [now left|right]. now apply (Hd j Hj).
    + exists i. repeat split; try easy. intros H. now apply H4, (Hd i H2).
Qed.

Lemma map_fst_piece w : map fst (map as_piece w) = map tag w.
Proof. rewrite map_map. reflexivity. Qed.

Lemma packs1_good st rows : packs1 st rows -> Forall (fun v : vel => vok cfg (snd v)) st -> Forall (fun v => np v = true) st -> good_rows st rows.
Proof.
  intros H. induction H as [|st bf r rows Hne E Hbf H IH]; intros Hv Hn.
  - split; cbn; try easy; try (intros _; constructor); now intros [|k].
  - pose proof (fill_shape st Hv Hn _ _ _ _ (tok_ok0 cfg) E) as Hs.
    destruct (fill_rows cfg _ _ _ _ _ Hv (tok_ok0 cfg) E) as (Hvr & _).
    assert (Hlen : forall v, In v st -> length (snd v) = length fs0) by (intros v Hin; rewrite Forall_forall in Hv; apply (vok_length cfg); now apply Hv).
    assert (Hhead : match st, bf with v :: _, q :: _ => (forall i, is_meta cfg i -> part i q = nth i (snd v) []) /\ (forall i, is_data cfg i -> part i q = [] <-> nth i (snd v) [] = []) | _, _ => False end).
    { destruct st as [|v st]; [easy|]. destruct (shape_head v st bf r Hs Hbf) as (x & bf' & -> & H1 & H2). easy. }
    assert (Hnr : Forall (fun v => np v = true) r).
    { inversion Hs as [w E1 E2 E3|w v st' Hnp E1 E2 E3|w v st' x y Hnp Hd Hm Hl Hz E1 E2 E3]; subst; [constructor| |].
      - apply Forall_app in Hn. easy.
      - apply Forall_app in Hn as [_ Hn]. inversion Hn; subst. now constructor. }
    specialize (IH Hvr Hnr). destruct IH as [I1 I2 I3 I4 I5 I6 I7 I8].
    assert (Hfull : forall q row' rows', rows = (q :: row') :: rows' -> no_place (fun i => used i bf) (snd q)).
    { intros q row' rows' ->. inversion Hs as [w E1 E2 E3|w v st' Hnp E1 E2 E3|w v st' x y Hnp Hd Hm Hl Hz E1 E2 E3]; subst; [easy| |].
      - destruct I8 as [H1 H2]. apply (no_place_head _ v q H1 H2). eapply no_place_ext; [|exact Hnp]. intros i. cbv beta. now rewrite tok0_nth.
      - destruct I8 as [H1 H2]. apply (no_place_head _ (tag v, false, y) q H1 H2). cbn [snd]. eapply no_place_ext; [|exact Hnp]. intros i. cbv beta. now rewrite tok0_nth. }
    assert (Hfull' : forall k row q row', nth_error (bf :: rows) k = Some row -> nth_error (bf :: rows) (S k) = Some (q :: row') -> no_place (fun i => used i row) (snd q)).
    { intros [|k] row q row' H1 H2; cbn in H1, H2.
      - inversion H1; subst. destruct rows as [|row0 rows]; [easy|]. inversion H2; subst. now apply (Hfull q row' rows).
      - now apply (I7 k row q row'). }
    assert (Hhd : match st, bf :: rows with v :: _, (q :: _) :: _ => (forall i, is_meta cfg i -> part i q = nth i (snd v) []) /\ (forall i, is_data cfg i -> part i q = [] <-> nth i (snd v) [] = []) | [], [] => True | _, _ => False end).
    { destruct st as [|v st], bf as [|q bf]; easy. }
    clear Hfull Hhead I7 I8.
    inversion Hs as [w E1 E2 E3|w v st' Hnp E1 E2 E3|w v st' x y Hnp Hd Hm Hl Hz E1 E2 E3]; subst; cbn [concat].
    + assert (rows = []) as -> by (inversion H; subst; easy). assert (Ec : concat [map as_piece st] = map as_piece st) by apply app_nil_r. split; rewrite ?Ec; try easy.
      * intros q Hq. apply in_map_iff in Hq as (v & <- & Hq). split; [now apply (in_map tag)|now apply Hlen].
      * intros v Hq. rewrite map_fst_piece. now apply (in_map tag).
      * intros q Hq. apply in_map_iff in Hq as (v & <- & Hq). exists v. easy.
      * intros Hsd. rewrite map_fst_piece. now apply sorted_lt_le.
      * intros Hsd row [<-|[]]. now rewrite map_fst_piece.
    + split; try easy.
      * intros q Hq. cbn [concat] in Hq. apply in_app_or in Hq as [Hq|Hq].
        -- apply in_map_iff in Hq as (u & <- & Hq). split; [rewrite map_app; apply in_or_app; left; now apply (in_map tag)|apply Hlen; apply in_or_app; now left].
        -- destruct (I1 q Hq) as [J1 J2]. split; [|easy]. rewrite map_app. apply in_or_app. now right.
      * intros u Hu. cbn [concat]. rewrite map_app. apply in_or_app. apply in_app_or in Hu as [Hu|Hu]; [left; rewrite map_fst_piece; now apply (in_map tag)|right; now apply I2].
      * intros k i Hi. cbn [concat]. rewrite map_app, !pieces_of_app. f_equal. now apply I3.
      * intros q Hq. cbn [concat] in Hq. apply in_app_or in Hq as [Hq|Hq].
        -- apply in_map_iff in Hq as (u & <- & Hq). exists u. split; [apply in_or_app; now left|easy].
        -- destruct (I4 q Hq) as (u & J1 & J2). exists u. split; [apply in_or_app; now right|easy].
      * intros Hsd. cbn [concat]. rewrite map_app in *. apply sorted_app_inv in Hsd as (S1 & S2 & S3). rewrite map_fst_piece.
        apply sorted_app_le; [now apply sorted_lt_le|now apply I5|]. intros a b Ha Hb. apply in_map_iff in Hb as (q & <- & Hq).
        apply I1 in Hq as [Hq _]. specialize (S3 _ _ Ha Hq). lia.
      * intros Hsd row. rewrite map_app in Hsd. apply sorted_app_inv in Hsd as (S1 & S2 & S3). intros [<-|Hin]; [now rewrite map_fst_piece|now apply I6].
    + split; try easy.
      * intros q Hq. cbn [concat] in Hq. apply in_app_or in Hq as [Hq|Hq].
        -- apply in_app_or in Hq as [Hq|[<-|[]]].
           ++ apply in_map_iff in Hq as (u & <- & Hq). split; [rewrite map_app; apply in_or_app; left; now apply (in_map tag)|apply Hlen; apply in_or_app; now left].
           ++ split; [|easy]. rewrite map_app. apply in_or_app. right. now left.
        -- destruct (I1 q Hq) as [J1 J2]. split; [|easy]. rewrite map_app. apply in_or_app. now right.
      * intros u Hu. cbn [concat]. rewrite !map_app. apply in_or_app. apply in_app_or in Hu as [Hu|[<-|Hu]].
        -- left. apply in_or_app. left. rewrite map_fst_piece. now apply (in_map tag).
        -- left. apply in_or_app. right. now left.
        -- right. apply (I2 u). now right.
      * intros k i Hi. cbn [concat]. rewrite map_app, !pieces_of_app, (I3 k i Hi), <- app_assoc. f_equal. cbn [map].
        rewrite !pieces_of_cons. unfold as_piece, part. cbn [fst snd tag]. rewrite <- (Hd i Hi). unfold pieces_of at 1. cbn [filter map concat].
        destruct (Nat.eqb (tag v) k) eqn:Ek; cbn; rewrite ?app_nil_r, ?Ek, <- ?app_assoc; unfold tag; cbn; reflexivity.
      * intros q Hq. cbn [concat] in Hq. apply in_app_or in Hq as [Hq|Hq].
        -- apply in_app_or in Hq as [Hq|[<-|[]]].
           ++ apply in_map_iff in Hq as (u & <- & Hq). exists u. split; [apply in_or_app; now left|easy].
           ++ exists v. split; [apply in_or_app; right; now left|]. split; [easy|]. intros i Hi. now apply Hm.
        -- destruct (I4 q Hq) as (u & [<-|J1] & J2 & J3).
           ++ exists v. split; [apply in_or_app; right; now left|]. split; [easy|]. intros i Hi. rewrite (J3 i Hi). cbn [snd]. now apply Hm.
           ++ exists u. split; [apply in_or_app; right; now right|easy].
      * intros Hsd. cbn [concat]. rewrite !map_app in *. apply sorted_app_inv in Hsd as (S1 & S2 & S3). rewrite map_fst_piece. cbn [map fst] in *.
        inversion S2 as [|? ? S4 S5]; subst.
        apply sorted_app_le.
        -- apply sorted_app_le; [now apply sorted_lt_le|repeat constructor|]. intros a b Ha [<-|[]]. specialize (S3 _ _ Ha (or_introl eq_refl)). lia.
        -- apply I5. constructor; easy.
        -- intros a b Ha Hb. apply in_map_iff in Hb as (q & <- & Hq). apply I1 in Hq as [Hq _]. cbn [map] in Hq.
           apply in_app_or in Ha as [Ha|[<-|[]]].
           ++ specialize (S3 _ _ Ha Hq). lia.
           ++ destruct Hq as [<-|Hq]; [easy|]. rewrite Forall_forall in S5. specialize (S5 _ Hq). lia.
      * intros Hsd row. rewrite map_app in Hsd. pose proof Hsd as Hsd'. apply sorted_app_inv in Hsd as (S1 & S2 & S3). intros [<-|Hin].
        -- rewrite map_app, map_fst_piece. cbn [map fst]. cbn [map] in Hsd'.
           replace (map tag w ++ tag v :: map tag st') with ((map tag w ++ [tag v]) ++ map tag st') in Hsd' by now rewrite <- app_assoc.
           now apply sorted_app_inv in Hsd'.
        -- apply I6; [|easy]. exact S2.
Qed.

(** ** The output *)

Lemma fullb_spec fs cs has : length cs = length fs -> fullb fs cs has = true <->
  (forall i f, nth_error fs i = Some f -> (length (nth i cs (@nil A)) <= cf_len f)%nat) /\
  (has = true \/ exists i f, nth_error fs i = Some f /\ length (nth i cs []) = cf_len f).
Proof.
  revert cs has. induction fs as [|g fs IH]; intros [|c cs] has Hl; cbn [length] in Hl; try lia.
  - cbn. split; [intros ->; split; [now intros [|]|now left]|]. intros [_ [H|(i & f & H & _)]]; [easy|now destruct i].
  - cbn [fullb]. destruct (Nat.ltb_spec (cf_len g) (length c)) as [Hlt|Hle].
    + split; [easy|]. intros [H _]. specialize (H 0%nat g eq_refl). cbn in H. lia.
    + rewrite IH by lia. rewrite orb_true_iff, Nat.eqb_eq. split.
      * intros [H1 H2]. split.
        -- intros [|i] f E; cbn in E; [inversion E; now subst|now apply H1].
        -- destruct H2 as [[H2|H2]|(i & f & H2)]; [now left|right; now exists 0%nat, g|right; now exists (S i), f].
      * intros [H1 H2]. split; [intros i f E; now apply (H1 (S i) f)|].
        destruct H2 as [H2|([|i] & f & H2 & H3)]; [left; now left| |right; now exists i, f].
        cbn in H2. inversion H2; subst. left. now right.
Qed.

Lemma fullb_full cs : length cs = length fs0 -> fullb fs0 cs false = true <-> full_element cfg cs.
Proof.
  intros Hl. rewrite fullb_spec by easy. unfold full_element. split; intros [H1 H2]; split.
  - intros i Hi. destruct (nth_error fs0 i) as [f|] eqn:E; [|apply nth_error_None in E; lia]. rewrite (limit_nth _ _ E). now apply H1.
  - destruct H2 as [H2|(i & f & H2 & H3)]; [easy|]. exists i. split; [apply nth_error_Some; congruence|]. now rewrite (limit_nth _ _ H2).
  - intros i f E. rewrite <- (limit_nth _ _ E). apply H1. apply nth_error_Some. congruence.
  - right. destruct H2 as (i & Hi & H2). destruct (nth_error fs0 i) as [f|] eqn:E; [|apply nth_error_None in E; lia]. exists i, f.
    split; [easy|]. now rewrite <- (limit_nth _ _ E).
Qed.

Lemma number_in i (l : list (list (value A))) v : In v (number i l) <-> exists k e, nth_error l k = Some e /\ v = ((i + k)%nat, true, values_of e).
Proof.
  revert i. induction l as [|e l IH]; intros i; cbn [number].
  - split; [easy|]. intros (k & e & H & _). now destruct k.
  - cbn [In]. rewrite IH. split.
    + intros [<-|(k & e' & H & ->)]; [exists 0%nat, e; now rewrite Nat.add_0_r|]. exists (S k), e'. split; [easy|]. now rewrite Nat.add_succ_r.
    + intros ([|k] & e' & H & ->); [left; cbn in H; inversion H; now rewrite Nat.add_0_r|]. right. exists k, e'. split; [easy|]. now rewrite Nat.add_succ_r.
Qed.
Lemma number_sorted i (l : list (list (value A))) : StronglySorted lt (map tag (number i l)).
Proof.
  revert i. induction l as [|e l IH]; intros i; cbn [number map]; constructor; [easy|]. apply Forall_forall. intros x Hx.
  apply in_map_iff in Hx as (v & <- & Hv). apply number_in in Hv as (k & e' & _ & ->). unfold tag. cbn. lia.
Qed.
Lemma sorted_filter (p : vel -> bool) (st : list vel) : StronglySorted lt (map tag st) -> StronglySorted lt (map tag (filter p st)).
Proof.
  induction st as [|v st IH]; cbn [filter map]; intros H; [easy|]. inversion H as [|? ? H1 H2]; subst.
  destruct (p v); [|now apply IH]. cbn [map]. constructor; [now apply IH|]. rewrite Forall_forall in *. intros x Hx.
  apply in_map_iff in Hx as (u & <- & Hu). apply filter_In in Hu as [Hu _]. apply H2. now apply in_map.
Qed.
Lemma pieces_none k i (st : list vel) : ~ In k (map tag st) -> pieces_of k i (map as_piece st) = [].
Proof.
  induction st as [|v st IH]; intros H; [easy|]. cbn [map] in *. rewrite pieces_of_cons. cbn [as_piece fst].
  destruct (Nat.eqb_spec (tag v) k) as [E|]; [exfalso; apply H; now left|]. apply IH. intros Hin. apply H. now right.
Qed.
Lemma pieces_one v i (st : list vel) : StronglySorted lt (map tag st) -> In v st -> pieces_of (tag v) i (map as_piece st) = nth i (snd v) [].
Proof.
  induction st as [|u st IH]; intros Hs Hin; [easy|]. cbn [map] in *. inversion Hs as [|? ? H1 H2]; subst. rewrite pieces_of_cons. cbn [as_piece fst].
  rewrite Forall_forall in H2. destruct Hin as [->|Hin].
  - rewrite Nat.eqb_refl, pieces_none; [apply app_nil_r|]. intros H. apply H2 in H. lia.
  - specialize (H2 _ (in_map tag _ _ Hin)). destruct (Nat.eqb_spec (tag u) (tag v)); [lia|]. now apply IH.
Qed.
Lemma sorted_nth (R : nat -> nat -> Prop) (l : list nat) : StronglySorted R l -> forall i j a b, (i < j)%nat -> nth_error l i = Some a -> nth_error l j = Some b -> R a b.
Proof.
  induction 1 as [|x l Hs IH Hx]; intros [|i] [|j] a b Hij Ha Hb; cbn in *; try lia; try easy.
  - inversion Ha; subst. rewrite Forall_forall in Hx. apply Hx. now apply nth_error_In in Hb.
  - apply (IH i j); easy || lia.
Qed.
Lemma sorted_lt_nodup l : StronglySorted lt l -> NoDup l.
Proof. induction 1 as [|x l Hs IH Hx]; constructor; [|easy]. intros Hin. rewrite Forall_forall in Hx. specialize (Hx x Hin). lia. Qed.

Lemma merge_in {X} (xs ys zs : list X) : merge xs ys zs -> forall x, In x xs \/ In x ys -> In x zs.
Proof. induction 1; intros z [Hz|Hz]; cbn in *; try easy; intuition. Qed.

Lemma packsv_output (l : list (list (value A))) all : Forall (good_element cfg) l -> Forall (fun v : vel => vok cfg (snd v)) (number 0 l) ->
  packsv cfg true (number 0 l) all -> cts_output cfg (map values_of l) (map (show_row cfg) all).
Proof.
  intros Hg Hv Hp. destruct (packsv_merge _ _ Hp Hv) as (normal & N1 & N2).
  pose proof (packsv_rows_ok cfg true _ _ Hp Hv) as Hrows. rewrite Forall_forall in Hrows.
  assert (Hnp : Forall (fun v => np v = true) (filter np (number 0 l))) by (apply Forall_forall; intros v Hin; now apply filter_In in Hin).
  destruct (packs1_good _ _ N1 (filter_nonempty_vok _ Hv) Hnp) as [G1 G2 G3 G4 G5 G6 G7 _].
  pose proof (sorted_filter np _ (number_sorted 0 l)) as Hsd. specialize (G5 Hsd). specialize (G6 Hsd).
  set (full := map tag (filter (fun v => negb (np v)) (number 0 l))).
  assert (Hpass : forall k e, nth_error l k = Some e -> np (k, true, values_of e) = false <-> passed cfg (map values_of l) k).
  { intros k e He. unfold np, passed. cbn [fst snd andb]. rewrite negb_false_iff. unfold passb. rewrite andb_true_iff, negb_true_iff.
    assert (Hl : length (values_of e) = length fs0). { rewrite Forall_forall in Hg. destruct (Hg e (nth_error_In _ _ He)) as [H _]. unfold values_of. now rewrite map_length. }
    rewrite fullb_full by easy. split; intros [H1 H2]; (split; [easy|]).
    - exists (values_of e). split; [|easy]. now rewrite nth_error_map, He.
    - destruct H2 as (e' & H2 & H3). rewrite nth_error_map, He in H2. inversion H2; now subst. }
  assert (Hsel : forall v, In v (filter np (number 0 l)) <-> exists k e, nth_error l k = Some e /\ v = (k, true, values_of e) /\ ~ passed cfg (map values_of l) k).
  { intros v. rewrite filter_In, number_in. split.
    - intros [(k & e & He & ->) H]. exists k, e. split; [easy|]. split; [easy|]. intros Hpk. apply (Hpass k e He) in Hpk. cbn [Nat.add] in H. congruence.
    - intros (k & e & He & -> & H). split; [now exists k, e|]. destruct (np (k, true, values_of e)) eqn:E; [easy|]. now apply (Hpass k e He) in E. }
  exists normal, full, all. split; [|split; [|split; [|split]]].
  - split.
    + intros i j q r Hij Hq Hr. apply (sorted_nth _ _ G5 i j); [easy|rewrite nth_error_map; exact (f_equal (option_map fst) Hq)|rewrite nth_error_map; exact (f_equal (option_map fst) Hr)].
    + intros row Hr. apply sorted_lt_nodup. now apply G6.
    + intros q Hq. destruct (G1 q Hq) as [H1 H2]. apply in_map_iff in H1 as (v & Ht & Hin). apply Hsel in Hin as (k & e & He & -> & Hn).
      unfold tag in Ht. cbn in Ht. rewrite <- Ht. split; [easy|]. split; [|easy]. rewrite map_length. apply nth_error_Some. congruence.
    + intros k Hk Hlt. rewrite map_length in Hlt. destruct (nth_error l k) as [e|] eqn:He; [|apply nth_error_None in He; lia].
      assert (Hin : In (k, true, values_of e) (filter np (number 0 l))) by (apply Hsel; now exists k, e).
      apply G2 in Hin. apply in_map_iff in Hin as (q & Hq1 & Hq2). now exists q.
    + intros k e i Hk He Hi. rewrite nth_error_map in He. destruct (nth_error l k) as [e0|] eqn:He0; [|easy]. cbn in He. inversion He; subst e.
      specialize (G3 k i Hi). unfold pieces_of at 1 in G3. rewrite G3. apply (pieces_one (k, true, values_of e0)); [easy|].
      apply Hsel. now exists k, e0.
    + intros q e i Hq He Hi. destruct (G4 q Hq) as (v & Hin & Ht & Hm). apply Hsel in Hin as (k & e0 & He0 & -> & Hn). unfold tag in Ht. cbn in Ht. subst k.
      rewrite nth_error_map, He0 in He. cbn in He. inversion He; subst e. now apply Hm.
    + intros row Hr. apply (Hrows row). eapply merge_in; [exact N2|now left].
    + intros row i Hr Hi. destruct (Hrows row) as [_ (_ & H & _)]; [eapply merge_in; [exact N2|now left]|].
      destruct (nth_error fs0 i) as [f|] eqn:E; [|apply nth_error_None in E; lia]. rewrite (limit_nth _ _ E). now apply H.
    + exact G7.
  - intros k. unfold full. rewrite in_map_iff. split.
    + intros (v & Ht & Hin). apply filter_In in Hin as [Hin Hn]. apply number_in in Hin as (k' & e & He & ->). unfold tag in Ht. cbn in Ht. subst k'.
      apply (Hpass k e He). now apply negb_true_iff in Hn.
    + intros Hk. pose proof Hk as Hk'. destruct Hk' as (_ & e' & He' & _). rewrite nth_error_map in He'. destruct (nth_error l k) as [e|] eqn:He; [|easy].
      exists (k, true, values_of e). split; [easy|]. apply filter_In. split; [apply number_in; now exists k, e|]. apply (Hpass k e He) in Hk. now rewrite Hk.
  - apply sorted_nth. apply sorted_filter, number_sorted.
  - replace (map (fun k => [(k, nth k (map values_of l) [])]) full) with (map (fun q => [q]) (map as_piece (filter (fun v => negb (np v)) (number 0 l)))); [exact N2|].
    unfold full. rewrite !map_map. apply map_ext_in. intros v Hin. apply filter_In in Hin as [Hin _]. apply number_in in Hin as (k & e & He & ->).
    unfold as_piece, tag. cbn [fst snd Nat.add]. do 2 f_equal. symmetry. apply nth_error_nth. now rewrite nth_error_map, He.
  - reflexivity.
Qed.

Lemma packsv_open st rows : packsv cfg false st rows ->
  exists missing, packsv cfg true st (rows ++ missing) /\
    forall row, In row (tl missing) -> exists v, In v (filter (fun v => negb (np v)) st) /\ row = [as_piece v].
Proof.
  intros H. induction H as [|st bf ps Hne E|st bf ps r rows Hne E Hr H IH].
  - exists []. split; [apply pv_nil|easy].
  - exists (group bf ps). split; [exact (pv_last cfg true st bf ps Hne E)|]. intros row Hrow.
    destruct (fill_filter _ _ _ _ _ E) as (_ & F2 & _). cbn [filter map] in F2. rewrite app_nil_r in F2.
    assert (Hin : In row (map (fun q => [q]) ps)).
    { unfold group in Hrow. destruct bf; [|exact Hrow]. cbn [app] in Hrow. destruct ps; [easy|]. now right. }
    rewrite <- F2, map_map in Hin. apply in_map_iff in Hin as (v & <- & Hv). now exists v.
  - destruct IH as (missing & I1 & I2). exists missing. rewrite <- app_assoc. split; [now apply (pv_more cfg true st bf ps r)|].
    intros row Hrow. destruct (I2 row Hrow) as (v & Hv & ->). destruct (fill_filter _ _ _ _ _ E) as (_ & F2 & _).
    apply (in_map as_piece) in Hv. assert (Hv' : In (as_piece v) (map as_piece (filter (fun v => negb (np v)) st))) by (rewrite F2; apply in_or_app; now right).
    apply in_map_iff in Hv' as (w & <- & Hw). now exists w.
Qed.
Lemma packsv_emitted (l : list (list (value A))) all : Forall (good_element cfg) l -> Forall (fun v : vel => vok cfg (snd v)) (number 0 l) ->
  packsv cfg false (number 0 l) all -> cts_emitted cfg (map values_of l) (map (show_row cfg) all).
Proof.
  intros Hg Hv Hp. destruct (packsv_open _ _ Hp) as (missing & Hp' & Hm). exists (map (show_row cfg) missing). rewrite <- map_app.
  split; [now apply packsv_output|]. intros r Hr.
  assert (Hr' : In r (map (show_row cfg) (tl missing))) by (destruct missing; exact Hr). apply in_map_iff in Hr' as (row & <- & Hrow).
  destruct (Hm row Hrow) as (v & Hin & ->). apply filter_In in Hin as [Hin Hn]. apply number_in in Hin as (k & e & He & ->).
  apply negb_true_iff in Hn. unfold np in Hn. cbn [fst snd andb] in Hn. apply negb_false_iff in Hn. unfold passb in Hn.
  apply andb_true_iff in Hn as [Hn1 Hn2]. apply negb_true_iff in Hn1.
  assert (Hl : length (values_of e) = length fs0). { rewrite Forall_forall in Hg. destruct (Hg e (nth_error_In _ _ He)) as [H _]. unfold values_of. now rewrite map_length. }
  apply fullb_full in Hn2; [|easy].
  exists k, (values_of e). rewrite nth_error_map, He. split; [|now split]. split; [easy|]. exists (values_of e). now rewrite nth_error_map, He.
Qed.
End Rows.

(** ** The dataset *)
Lemma cts_lawful {A} (cfg : config A) (p : Iter (list (value A))) l fin used json :
  good_config cfg -> accepted cfg -> lawful p l fin used json -> Forall (good_element cfg) l ->
  exists it out, dataset_of cfg p = Ok it /\ lawful it out fin used false /\
    (fin = true -> cts_output cfg (map values_of l) out) /\ (fin = false -> cts_emitted cfg (map values_of l) out).
Proof.
  intros Hc (Hne & Hb) (N & rep & crep & L) Hg. pose proof (from_vok cfg l 0%nat Hg 0) as Hv.
  destruct (packsv_exists cfg Hc fin (from l 0) Hv) as (all & Hall).
  exists (concat_split cfg p), (map (show_row cfg) all). split; [|split; [|split]].
  - unfold dataset_of, concat_split_dataset. destruct cfg as [fs sf bos z]. cbn [cs_feats cs_split_full cs_bos cs_zero] in *.
    assert (Hm : existsb (fun f => cf_meta f && cf_bos f) fs = false).
    { unfold good_config in Hc. cbn in Hc. clear -Hc. induction fs as [|f fs IH]; [easy|]. inversion Hc as [|? ? [_ H1] H2]; subst. cbn. now rewrite H1, IH. }
    destruct bos as [b|]; cbn; [rewrite Hm; now destruct fs|]. rewrite (Hb eq_refl), Hm. now destruct fs.
  - eexists _, _, _. exact (concat_split_law cfg Hc p l fin used json N rep crep L Hg all Hall).
  - intros ->. apply (packsv_output cfg Hc l all Hg); [exact Hv|exact Hall].
  - intros ->. apply (packsv_emitted cfg Hc l all Hg); [exact Hv|exact Hall].
Qed.
