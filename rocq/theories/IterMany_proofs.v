(** Transformations with several parents: zip and mix. *)
From Verif Require Import Base MapDatasets Spec Iter IterSpec ListFacts MapOther_proofs MixSelect_proofs
  IterLaw IterBasic_proofs IterFlat_proofs.

Lemma Law_mono {A} (it : Iter A) l fin used json N N' rep crep : (N <= N')%nat ->
  Law it l fin used json N rep crep -> Law it l fin used json N' rep crep.
Proof.
  intros H L. destruct L. split; auto; intros fuel; intros; eauto with arith.
Qed.

(** A parent with its law. *)
Record pack (A : Type) (fin used json : bool) (N : nat) := mkPack {
  lp_it : Iter A; lp_l : list A; lp_rep : ist lp_it -> nat -> Prop; lp_crep : ick lp_it -> nat -> Prop;
  lp_law : Law lp_it lp_l fin used json N lp_rep lp_crep }.
Arguments mkPack {A fin used json N}. Arguments lp_it {A fin used json N}. Arguments lp_l {A fin used json N}.
Arguments lp_rep {A fin used json N}. Arguments lp_crep {A fin used json N}. Arguments lp_law {A fin used json N}.

Lemma pack_mono {A fin used json N} N' (ks : list (pack A fin used json N)) : (N <= N')%nat ->
  exists ks' : list (pack A fin used json N'), map lp_it ks' = map lp_it ks /\ map lp_l ks' = map lp_l ks.
Proof.
  intros H. exists (map (fun k => mkPack (lp_it k) (lp_l k) (lp_rep k) (lp_crep k)
    (Law_mono _ _ _ _ _ _ _ _ _ H (lp_law k))) ks).
  rewrite !map_map. easy.
Qed.

Lemma pack_all {A} fin used json (ps : list (Iter A)) ls :
  Forall2 (fun p l => lawful p l fin used json) ps ls ->
  exists N (ks : list (pack A fin used json N)), map lp_it ks = ps /\ map lp_l ks = ls.
Proof.
  induction 1 as [|p l ps ls (N & rep & crep & L) _ (M & ks & <- & <-)].
  - now exists 0%nat, [].
  - destruct (pack_mono (Nat.max N M) ks ltac:(lia)) as (ks' & <- & <-).
    exists (Nat.max N M), (mkPack p l rep crep (Law_mono _ _ _ _ _ N (Nat.max N M) _ _ (Nat.le_max_l N M) L) :: ks').
    easy.
Qed.

Section Many.
  Context {A : Type} (fin used json : bool) (N : nat).
  Notation P := (pack A fin used json N).

  Fixpoint hrep (ks : list P) : hst (map lp_it ks) -> list nat -> Prop :=
    match ks with
    | [] => fun _ qs => qs = []
    | k :: ks' => fun s qs =>
        match qs with [] => False | q :: qs' => lp_rep k (fst s) q /\ hrep ks' (snd s) qs' end
    end.
  Fixpoint hcrep (ks : list P) : hck (map lp_it ks) -> list nat -> Prop :=
    match ks with
    | [] => fun _ qs => qs = []
    | k :: ks' => fun s qs =>
        match qs with [] => False | q :: qs' => lp_crep k (fst s) q /\ hcrep ks' (snd s) qs' end
    end.

  Lemma hrep_init ks : hrep ks (hinit _) (List.repeat 0%nat (length ks)).
  Proof. induction ks as [|k ks IH]; cbn; [easy|]. split; [apply (law_init (lp_law k))|easy]. Qed.

  Lemma hrep_le ks : forall s qs, hrep ks s qs -> Forall2 (fun k q => q <= length (lp_l k))%nat ks qs.
  Proof.
    induction ks as [|k ks IH]; intros s qs H; cbn in H; [subst; constructor|].
    destruct qs as [|q qs]; [easy|]. destruct H as [H1 H2]. constructor; [apply (law_le (lp_law k) _ _ H1)|eauto].
  Qed.

  Lemma hget_ok ks : forall s qs, hrep ks s qs -> hcrep ks (hget _ s) qs.
  Proof.
    induction ks as [|k ks IH]; intros s qs H; cbn in *; [easy|].
    destruct qs as [|q qs]; [easy|]. destruct H as [H1 H2]. split; [now apply (law_get (lp_law k))|eauto].
  Qed.

  Lemma hjson_ok ks : json = true -> forall c qs, hcrep ks c qs -> hcrep ks (hjson _ c) qs.
  Proof.
    intros J. induction ks as [|k ks IH]; intros s qs H; cbn in *; [easy|].
    destruct qs as [|q qs]; [easy|]. destruct H as [H1 H2]. split; [now apply (law_json (lp_law k))|eauto].
  Qed.

  (* the projections' type arguments differ up to conversion *)
  Local Ltac hrw E := match type of E with ?x = Ok ?y =>
    match goal with |- context [bind ?z _] => change z with x; rewrite E; cbn [bind] end end.

  Lemma hset_fresh ks fuel : (N <= fuel)%nat -> forall c qs, hcrep ks c qs ->
    Forall2 (fun k q => live (lp_l k) fin q) ks qs ->
    exists s', hset (map lp_it ks) fuel (hinit _) c = Ok s' /\ hrep ks s' qs.
  Proof.
    intros Hf. induction ks as [|k ks IH]; intros c qs H Hv; cbn in *; [now exists tt|].
    destruct qs as [|q qs]; [easy|]. destruct H as [H1 H2]. inversion Hv as [|? ? ? ? Hv1 Hv2]; subst.
    destruct (law_fresh (lp_law k) fuel _ q Hf H1 Hv1) as (s1 & E1 & R1). hrw E1.
    destruct (IH _ qs H2 Hv2) as (s2 & E2 & R2). hrw E2. exists (s1, s2). easy.
  Qed.

  Lemma hset_used ks fuel : (N <= fuel)%nat -> used = true -> forall s qs0 c qs, hrep ks s qs0 -> hcrep ks c qs ->
    Forall2 (fun k q => live (lp_l k) fin q) ks qs ->
    exists s', hset (map lp_it ks) fuel s c = Ok s' /\ hrep ks s' qs.
  Proof.
    intros Hf U. induction ks as [|k ks IH]; intros s qs0 c qs Hs H Hv; cbn in *; [now exists tt|].
    destruct qs as [|q qs]; [easy|]. destruct qs0 as [|q0 qs0]; [easy|].
    destruct H as [H1 H2], Hs as [G1 G2]. inversion Hv as [|? ? ? ? Hv1 Hv2]; subst.
    destruct (law_used (lp_law k) fuel _ q0 _ q Hf U G1 H1 Hv1) as (s1 & E1 & R1). hrw E1.
    destruct (IH _ qs0 _ qs G2 H2 Hv2) as (s2 & E2 & R2). hrw E2. exists (s1, s2). easy.
  Qed.

  Lemma hset_start ks fuel : (N <= fuel)%nat -> forall s qs0, hrep ks s qs0 ->
    Forall (fun k => live (lp_l k) fin 0) ks ->
    exists s', hset (map lp_it ks) fuel s (hget _ (hinit _)) = Ok s' /\ hrep ks s' (List.repeat 0%nat (length ks)).
  Proof.
    intros Hf. induction ks as [|k ks IH]; intros s qs0 Hs Hv; cbn in *; [now exists tt|].
    destruct qs0 as [|q0 qs0]; [easy|]. destruct Hs as [G1 G2]. inversion Hv as [|? ? Hv1 Hv2]; subst.
    destruct (law_start (lp_law k) fuel _ q0 Hf G1 Hv1) as (s1 & E1 & R1). hrw E1.
    destruct (IH _ qs0 G2 Hv2) as (s2 & E2 & R2). hrw E2. exists (s1, s2). easy.
  Qed.

  Lemma hnext_yield ks fuel : (N <= fuel)%nat -> forall i s qs k q a, hrep ks s qs ->
    nth_error ks i = Some k -> nth_error qs i = Some q -> nth_error (lp_l k) q = Some a ->
    exists s', hnext (map lp_it ks) fuel i s = (Yield a, s') /\ hrep ks s' (update_nth i (S q) qs).
  Proof.
    intros Hf. induction ks as [|k0 ks IH]; intros i s qs k q a Hs Hk Hq Ha; [now destruct i|].
    cbn in Hs. destruct qs as [|q0 qs]; [easy|]. destruct Hs as [G1 G2]. destruct s as [sa sb]. cbn [fst snd hnext map] in *.
    destruct i as [|i]; cbn in Hk, Hq.
    - injection Hk as <-. injection Hq as <-.
      destruct (law_next (lp_law k0) fuel _ q0 a Hf G1 Ha) as (s1 & -> & R1). exists (s1, sb). now cbn.
    - destruct (IH i sb qs k q a G2 Hk Hq Ha) as (s2 & -> & R2). exists (sa, s2). now cbn.
  Qed.

  Lemma hnext_stop ks fuel : (N <= fuel)%nat -> fin = true -> forall i s qs k, hrep ks s qs ->
    nth_error ks i = Some k -> nth_error qs i = Some (length (lp_l k)) ->
    exists s', hnext (map lp_it ks) fuel i s = (Stop, s') /\ hrep ks s' qs.
  Proof.
    intros Hf F. induction ks as [|k0 ks IH]; intros i s qs k Hs Hk Hq; [now destruct i|].
    cbn in Hs. destruct qs as [|q0 qs]; [easy|]. destruct Hs as [G1 G2]. destruct s as [sa sb]. cbn [fst snd hnext map] in *.
    destruct i as [|i]; cbn in Hk, Hq.
    - injection Hk as <-. injection Hq as ->.
      destruct (law_stop (lp_law k0) fuel _ Hf F G1) as (s1 & -> & R1). exists (s1, sb). now cbn.
    - destruct (IH i sb qs k G2 Hk Hq) as (s2 & -> & R2). exists (sa, s2). now cbn.
  Qed.

  (** *** zip *)
  Lemma zip_pull_yield ks fuel : (N <= fuel)%nat -> forall strict first s j row, hrep ks s (List.repeat j (length ks)) ->
    Forall2 (fun k a => nth_error (lp_l k) j = Some a) ks row ->
    exists s', zip_pull strict first (map lp_it ks) fuel s = (Yield row, s') /\ hrep ks s' (List.repeat (S j) (length ks)).
  Proof.
    intros Hf. induction ks as [|k ks IH]; intros strict first s j row Hs Hrow.
    - inversion Hrow; subst. exists s. easy.
    - inversion Hrow as [|? a ? row' Ha Hrow']; subst. cbn [length List.repeat hrep] in Hs. destruct Hs as [G1 G2].
      destruct s as [sa sb]. cbn [fst snd zip_pull map] in *. destruct (law_next (lp_law k) fuel _ j a Hf G1 Ha) as (s1 & -> & R1).
      destruct (IH strict false sb j row' G2 Hrow') as (s2 & -> & R2). exists (s1, s2). easy.
  Qed.

  (* some parent is at its end *)
  Definition one_over (ks : list P) (qs : list nat) : Prop :=
    exists i k, nth_error ks i = Some k /\ nth_error qs i = Some (length (lp_l k)).

  Lemma zip_pull_stop ks fuel : (N <= fuel)%nat -> fin = true -> forall first s qs, hrep ks s qs -> one_over ks qs ->
    exists s' qs', zip_pull false first (map lp_it ks) fuel s = (Stop, s') /\ hrep ks s' qs' /\ one_over ks qs'.
  Proof.
    intros Hf F. induction ks as [|k ks IH]; intros first s qs Hs Ho.
    - destruct Ho as (i & k & E & _). now destruct i.
    - cbn [hrep] in Hs. destruct qs as [|q qs]; [easy|]. destruct Hs as [G1 G2]. destruct s as [sa sb]. cbn [fst snd zip_pull map] in *.
      pose proof (law_le (lp_law k) _ _ G1) as Hle.
      destruct (nth_error (lp_l k) q) as [a|] eqn:Ea.
      + destruct (law_next (lp_law k) fuel _ q a Hf G1 Ea) as (s1 & -> & R1).
        assert (Ho' : one_over ks qs).
        { destruct Ho as ([|i] & k' & E1 & E2); cbn in E1, E2; [|exists i, k'; auto].
          injection E1 as <-. injection E2 as ->. apply nth_lt in Ea. lia. }
        destruct (IH false sb qs G2 Ho') as (s2 & qs2 & -> & R2 & (i & k' & E1 & E2)).
        exists (s1, s2), (S q :: qs2). split; [easy|]. split; [easy|]. exists (S i), k'. auto.
      + apply nth_error_None in Ea. assert (q = length (lp_l k)) as -> by lia.
        destruct (law_stop (lp_law k) fuel _ Hf F G1) as (s1 & -> & R1).
        exists (s1, sb), (length (lp_l k) :: qs). split; [easy|]. split; [easy|]. exists 0%nat, k. auto.
  Qed.

  Lemma zip_check_all_stopped ks fuel : (N <= fuel)%nat -> fin = true -> forall s n,
    hrep ks s (List.repeat n (length ks)) -> Forall (fun k => length (lp_l k) = n) ks ->
    exists s', zip_check_stopped (map lp_it ks) fuel s = (Yield tt, s') /\ hrep ks s' (List.repeat n (length ks)).
  Proof.
    intros Hf F. induction ks as [|k ks IH]; intros s n Hs Hn; [now exists s|].
    cbn [length List.repeat hrep] in Hs. destruct Hs as [G1 G2]. inversion Hn as [|? ? Hn1 Hn2]; subst.
    destruct s as [sa sb]. cbn [fst snd zip_check_stopped map] in *. destruct (law_stop (lp_law k) fuel _ Hf F G1) as (s1 & -> & R1).
    destruct (IH sb _ G2 Hn2) as (s2 & -> & R2). exists (s1, s2). easy.
  Qed.

  Lemma zip_check_not_stopped ks fuel : (N <= fuel)%nat -> fin = true -> forall s n,
    hrep ks s (List.repeat n (length ks)) -> Exists (fun k => length (lp_l k) <> n) ks ->
    exists s', zip_check_stopped (map lp_it ks) fuel s = (Fail ValueError, s').
  Proof.
    intros Hf F. induction ks as [|k ks IH]; intros s n Hs Hn; [inversion Hn|].
    cbn [length List.repeat hrep] in Hs. destruct Hs as [G1 G2].
    destruct s as [sa sb]. cbn [fst snd zip_check_stopped map] in *. pose proof (law_le (lp_law k) _ _ G1) as Hle.
    destruct (nth_error (lp_l k) n) as [a|] eqn:Ea.
    - destruct (law_next (lp_law k) fuel _ n a Hf G1 Ea) as (s1 & -> & R1). eauto.
    - apply nth_error_None in Ea. assert (n = length (lp_l k)) as -> by lia.
      destruct (law_stop (lp_law k) fuel _ Hf F G1) as (s1 & -> & R1).
      inversion Hn as [? ? C|? ? Hn2]; subst; [easy|].
      destruct (IH sb _ G2 Hn2) as (s2 & ->). eauto.
  Qed.

  Lemma zip_pull_strict_end ks fuel : (N <= fuel)%nat -> fin = true -> forall s n, ks <> [] ->
    hrep ks s (List.repeat n (length ks)) -> Forall (fun k => length (lp_l k) = n) ks ->
    exists s', zip_pull true true (map lp_it ks) fuel s = (Stop, s') /\ hrep ks s' (List.repeat n (length ks)).
  Proof.
    intros Hf F s n Hne Hs Hn. destruct ks as [|k ks]; [easy|].
    cbn [length List.repeat hrep] in Hs. destruct Hs as [G1 G2]. inversion Hn as [|? ? Hn1 Hn2]; subst.
    destruct s as [sa sb]. cbn [fst snd zip_pull map] in *.
    destruct (law_stop (lp_law k) fuel _ Hf F G1) as (s1 & -> & R1).
    destruct (zip_check_all_stopped ks fuel Hf F sb _ G2 Hn2) as (s2 & -> & R2). exists (s1, s2). easy.
  Qed.

  (* strict mode, at the end of the shortest parent, lengths differ *)
  Lemma zip_pull_later ks fuel : (N <= fuel)%nat -> fin = true -> forall s n,
    hrep ks s (List.repeat n (length ks)) -> Exists (fun k => length (lp_l k) = n) ks ->
    exists s', zip_pull true false (map lp_it ks) fuel s = (Fail ValueError, s').
  Proof.
    intros Hf F. induction ks as [|k ks IH]; intros s n Hs Hn; [inversion Hn|].
    cbn [length List.repeat hrep] in Hs. destruct Hs as [G1 G2].
    destruct s as [sa sb]. cbn [fst snd zip_pull map] in *. pose proof (law_le (lp_law k) _ _ G1) as Hle.
    destruct (nth_error (lp_l k) n) as [a|] eqn:Ea.
    - destruct (law_next (lp_law k) fuel _ n a Hf G1 Ea) as (s1 & -> & R1).
      inversion Hn as [? ? C|? ? Hn2]; subst; [apply nth_lt in Ea; lia|].
      destruct (IH sb _ G2 Hn2) as (s2 & ->). eauto.
    - apply nth_error_None in Ea. assert (n = length (lp_l k)) as -> by lia.
      destruct (law_stop (lp_law k) fuel _ Hf F G1) as (s1 & -> & R1). eauto.
  Qed.

  Lemma zip_pull_strict_mismatch ks fuel : (N <= fuel)%nat -> fin = true -> forall s n,
    hrep ks s (List.repeat n (length ks)) -> Exists (fun k => length (lp_l k) = n) ks ->
    Exists (fun k => length (lp_l k) <> n) ks ->
    exists s', zip_pull true true (map lp_it ks) fuel s = (Fail ValueError, s').
  Proof.
    intros Hf F s n Hs Hn Hm. destruct ks as [|k ks]; [inversion Hn|].
    cbn [length List.repeat hrep] in Hs. destruct Hs as [G1 G2].
    destruct s as [sa sb]. cbn [fst snd zip_pull map] in *. pose proof (law_le (lp_law k) _ _ G1) as Hle.
    destruct (nth_error (lp_l k) n) as [a|] eqn:Ea.
    - destruct (law_next (lp_law k) fuel _ n a Hf G1 Ea) as (s1 & -> & R1).
      inversion Hn as [? ? C|? ? Hn2]; subst; [apply nth_lt in Ea; lia|].
      destruct (zip_pull_later ks fuel Hf F sb _ G2 Hn2) as (s2 & ->). eauto.
    - apply nth_error_None in Ea. assert (n = length (lp_l k)) as -> by lia.
      destruct (law_stop (lp_law k) fuel _ Hf F G1) as (s1 & -> & R1).
      inversion Hm as [? ? C|? ? Hm2]; subst; [easy|].
      destruct (zip_check_not_stopped ks fuel Hf F sb _ G2 Hm2) as (s2 & ->). eauto.
  Qed.
End Many.

Lemma nth_error_combine {A B} (u : list A) (v : list B) i : nth_error (combine u v) i =
  match nth_error u i, nth_error v i with Some x, Some y => Some (x, y) | _, _ => None end.
Proof.
  revert v i. induction u as [|x u IH]; intros [|y v] [|i]; cbn; try easy.
  now destruct (nth_error u i).
Qed.

Lemma zip_lists_nth {A} (ls : list (list A)) j row : ls <> [] -> nth_error (zip_lists ls) j = Some row ->
  Forall2 (fun l a => nth_error l j = Some a) ls row.
Proof.
  revert row. induction ls as [|l ls IH]; intros row Hne H; [easy|].
  destruct ls as [|l' ls].
  - cbn in H. rewrite nth_error_map in H. destruct (nth_error l j) eqn:E; [|easy]. injection H as <-.
    constructor; [easy|constructor].
  - change (zip_lists (l :: l' :: ls)) with (map (fun ar => fst ar :: snd ar) (combine l (zip_lists (l' :: ls)))) in H.
    rewrite nth_error_map, nth_error_combine in H.
    destruct (nth_error l j) eqn:E; [|easy]. destruct (nth_error (zip_lists (l' :: ls)) j) as [row'|] eqn:E'; [|easy].
    injection H as <-. constructor; [easy|]. now apply IH.
Qed.

(** Its length is the smallest of the lengths. *)
Lemma zip_lists_length {A} (ls : list (list A)) : ls <> [] ->
  Forall (fun l => length (zip_lists ls) <= length l)%nat ls /\ Exists (fun l => length l = length (zip_lists ls)) ls.
Proof.
  induction ls as [|l ls IH]; intros Hne; [easy|]. destruct ls as [|l' ls].
  - cbn [zip_lists]. rewrite map_length. split; constructor; auto; lia || easy.
  - destruct (IH ltac:(easy)) as [H1 H2].
    assert (E : length (zip_lists (l :: l' :: ls)) = Nat.min (length l) (length (zip_lists (l' :: ls)))).
    { change (zip_lists (l :: l' :: ls)) with (map (fun ar => fst ar :: snd ar) (combine l (zip_lists (l' :: ls)))).
      now rewrite map_length, combine_length. }
    rewrite E. split.
    + constructor; [lia|]. eapply Forall_impl; [|exact H1]. cbn. lia.
    + destruct (Nat.le_gt_cases (length l) (length (zip_lists (l' :: ls)))) as [C|C].
      * constructor. lia.
      * apply Exists_cons_tl. eapply Exists_exists in H2 as (x & Hx & Hl). apply Exists_exists. exists x. split; [easy|lia].
Qed.

Lemma Forall_map_iff {A B} (f : A -> B) (P : B -> Prop) l : Forall P (map f l) <-> Forall (fun a => P (f a)) l.
Proof. rewrite !Forall_forall. split; intros H x Hx; [apply H; now apply in_map|]. apply in_map_iff in Hx as (y & <- & Hy). auto. Qed.
Lemma Exists_map_iff {A B} (f : A -> B) (P : B -> Prop) l : Exists P (map f l) <-> Exists (fun a => P (f a)) l.
Proof. rewrite !Exists_exists. split; [intros (x & Hx & Px); apply in_map_iff in Hx as (y & <- & Hy); eauto|intros (x & Hx & Px); exists (f x); split; [now apply in_map|easy]]. Qed.
Lemma Forall2_map_l {A B C} (f : A -> B) (R : B -> C -> Prop) l m : Forall2 R (map f l) m <-> Forall2 (fun a => R (f a)) l m.
Proof. revert m. induction l as [|x l IH]; intros [|y m]; cbn; split; intros H; inversion H; subst; constructor; auto; now apply IH. Qed.
Lemma Forall2_repeat {A B} (R : A -> B -> Prop) l b : Forall2 R l (List.repeat b (length l)) <-> Forall (fun a => R a b) l.
Proof. induction l as [|x l IH]; cbn; split; intros H; inversion H; subst; constructor; auto; now apply IH. Qed.

(** zip: rows until the shortest parent ends; in strict mode the same when the
    lengths agree (and a prefix otherwise). *)
Lemma lawful_zip {A} strict (ps : list (Iter A)) it ls (fin used json : bool) :
  zip_it strict ps = Ok it -> Forall2 (fun p l => lawful p l fin used json) ps ls ->
  lawful it (zip_lists ls)
    (fin && (negb strict || forallb (fun l => Nat.eqb (length l) (length (zip_lists ls))) ls)) used json.
Proof.
  intros Hit Hps. apply pack_all in Hps as (N & ks & <- & <-).
  destruct ks as [|k0 ks0] eqn:Eks; [easy|]. rewrite <- Eks in *.
  assert (Hne : map lp_l ks <> []) by (subst ks; easy).
  set (L := zip_lists (map lp_l ks)) in *. set (fin' := fin && _).
  destruct (zip_lists_length (map lp_l ks) Hne) as [Hmin Hex]. fold L in Hmin, Hex.
  rewrite Forall_map_iff in Hmin. rewrite Exists_map_iff in Hex.
  assert (it = {| ist := hst (map lp_it ks); ick := hck (map lp_it ks); init := hinit (map lp_it ks);
     next := fun fuel => zip_pull strict true (map lp_it ks) fuel;
     get_state := hget (map lp_it ks); set_state := hset (map lp_it ks); jsonck := hjson (map lp_it ks) |}) as ->.
  { enough (Ok it = Ok _) as E by (injection E as E; exact E). rewrite <- Hit. subst ks. reflexivity. }
  clear Hit.
  assert (Hlive : forall j, live L fin' j -> (j < length L)%nat -> Forall (fun k => live (lp_l k) fin j) ks).
  { intros j _ Hj. eapply Forall_impl; [|exact Hmin]. cbn. intros k Hk. left. lia. }
  exists N,
    (fun s j => (j <= length L)%nat /\ exists qs, hrep fin used json N ks s qs /\
        (qs = List.repeat j (length ks) \/ (fin = true /\ strict = false /\ j = length L /\ one_over fin used json N ks qs))),
    (fun c j => (j <= length L)%nat /\ exists qs, hcrep fin used json N ks c qs /\ Forall2 (fun k q => q <= length (lp_l k))%nat ks qs /\
        (qs = List.repeat j (length ks) \/ (fin = true /\ strict = false /\ j = length L /\ one_over fin used json N ks qs))).
  assert (Hlive2 : forall j qs, live L fin' j -> Forall2 (fun k q => q <= length (lp_l k))%nat ks qs ->
     (qs = List.repeat j (length ks) \/ (fin = true /\ strict = false /\ j = length L /\ one_over fin used json N ks qs)) ->
     Forall2 (fun k q => live (lp_l k) fin q) ks qs).
  { intros j qs Hv Hqs Hcase. destruct fin eqn:F.
    - clear -Hqs. induction Hqs; constructor; auto. now apply live_any.
    - destruct Hv as [Hv|[_ Hv]]; [|easy]. destruct Hcase as [->|(? & _)]; [|easy].
      apply Forall2_repeat. apply Hlive; [now left|easy]. }
  assert (Hover : one_over fin used json N ks (List.repeat (length L) (length ks))).
  { apply Exists_exists in Hex as (k & Hin & Hlen). apply In_nth_error in Hin as (i & Hi).
    exists i, k. split; [easy|]. rewrite Hlen. apply nth_error_repeat. now apply nth_lt in Hi. }
  split.
  - split; [lia|]. eexists. split; [apply hrep_init|now left].
  - easy.
  - intros fuel s j row Hf (Hj & qs & Hs & Hcase) Hrow. cbn [next].
    pose proof (nth_lt _ _ _ Hrow) as Hlt. destruct Hcase as [->|(_ & _ & -> & _)]; [|lia].
    unfold L in Hrow. apply zip_lists_nth in Hrow; [|easy]. rewrite Forall2_map_l in Hrow.
    destruct (zip_pull_yield fin used json N ks fuel Hf strict true s j row Hs Hrow) as (s' & -> & Hs').
    exists s'. split; [easy|]. split; [lia|]. eauto.
  - intros fuel s Hf F' (_ & qs & Hs & Hcase). cbn [next]. unfold fin' in F'.
    apply andb_true_iff in F' as [F Hstrict]. destruct strict.
    + cbn in Hstrict. destruct Hcase as [->|(_ & ? & _)]; [|easy].
      assert (Hall : Forall (fun k => length (lp_l k) = length L) ks).
      { apply (Forall_map_iff lp_l (fun l => length l = length L)). apply Forall_forall. intros l Hl. rewrite forallb_forall in Hstrict.
        now apply Nat.eqb_eq, Hstrict. }
      destruct (zip_pull_strict_end fin used json N ks fuel Hf F s (length L) ltac:(now rewrite Eks) Hs Hall) as (s' & -> & Hs').
      exists s'. split; [easy|]. split; [lia|]. eauto.
    + assert (Ho : one_over fin used json N ks qs) by (destruct Hcase as [->|(_ & _ & _ & ?)]; easy).
      destruct (zip_pull_stop fin used json N ks fuel Hf F true s qs Hs Ho) as (s' & qs' & -> & Hs' & Ho').
      exists s'. split; [easy|]. split; [lia|]. exists qs'. split; [easy|]. right. auto.
  - intros s j (Hj & qs & Hs & Hcase). cbn [get_state]. split; [easy|]. exists qs.
    split; [now apply hget_ok|]. split; [eapply hrep_le; eassumption|easy].
  - intros c j J (Hj & qs & Hs & Hcase). cbn [jsonck]. split; [easy|]. exists qs. split; [now apply hjson_ok|easy].
  - intros fuel s j Hf (Hj & qs & Hs & _) Hv. cbn [set_state get_state init].
    destruct (hset_start fin used json N ks fuel Hf s qs Hs) as (s' & -> & Hs').
    + apply (Forall2_repeat (fun k q => live (lp_l k) fin q)). apply (Hlive2 0%nat); auto.
      apply Forall2_repeat. apply Forall_forall. intros; lia.
    + exists s'. split; [easy|]. split; [lia|]. eauto.
  - intros fuel c j Hf (Hj & qs & Hc & Hqs & Hcase) Hv. cbn [set_state init].
    destruct (hset_fresh fin used json N ks fuel Hf c qs Hc) as (s' & -> & Hs'); [now apply (Hlive2 j)|].
    exists s'. split; [easy|]. split; [easy|]. eauto.
  - intros fuel s q c j Hf U (_ & qs0 & Hs & _) (Hj & qs & Hc & Hqs & Hcase) Hv. cbn [set_state].
    destruct (hset_used fin used json N ks fuel Hf U s qs0 c qs Hs Hc) as (s' & -> & Hs'); [now apply (Hlive2 j)|].
    exists s'. split; [easy|]. split; [easy|]. eauto.
Qed.

(** strict mode with different lengths: ValueError right after the rows. *)
Lemma zip_strict_mismatch {A} (ps : list (Iter A)) it ls (used json : bool) :
  zip_it true ps = Ok it -> Forall2 (fun p l => lawful p l true used json) ps ls ->
  (exists l, In l ls /\ length l <> length (zip_lists ls)) ->
  exists N, forall fuel, (N <= fuel)%nat ->
    drain it fuel (S (length (zip_lists ls))) (init it) = (zip_lists ls, Fail ValueError).
Proof.
  intros Hit Hps (l0 & Hin0 & Hlen0). apply pack_all in Hps as (N & ks & <- & <-).
  destruct ks as [|k0 ks0] eqn:Eks; [easy|]. rewrite <- Eks in *.
  assert (Hne : map lp_l ks <> []) by (subst ks; easy).
  destruct (zip_lists_length (map lp_l ks) Hne) as [Hmin Hex].
  set (L := zip_lists (map lp_l ks)) in *.
  rewrite Forall_map_iff in Hmin. rewrite Exists_map_iff in Hex.
  exists N. intros fuel Hf.
  assert (it = {| ist := hst (map lp_it ks); ick := hck (map lp_it ks); init := hinit (map lp_it ks);
     next := fun fuel => zip_pull true true (map lp_it ks) fuel;
     get_state := hget (map lp_it ks); set_state := hset (map lp_it ks); jsonck := hjson (map lp_it ks) |}) as ->.
  { enough (Ok it = Ok _) as E by (injection E as E; exact E). rewrite <- Hit. subst ks. reflexivity. }
  cbn [init].
  assert (G : forall n j s, (n + j)%nat = length L -> hrep true used json N ks s (List.repeat j (length ks)) ->
    drain {| ist := hst (map lp_it ks); ick := hck (map lp_it ks); init := hinit (map lp_it ks);
     next := fun fuel => zip_pull true true (map lp_it ks) fuel;
     get_state := hget (map lp_it ks); set_state := hset (map lp_it ks); jsonck := hjson (map lp_it ks) |} fuel (S n) s
    = (skipn j L, Fail ValueError)).
  { induction n as [|n IH]; intros j s Hn Hs.
    - cbn [plus] in Hn. subst j. cbn [drain next]. rewrite skipn_all.
      assert (exists s', zip_pull true true (map lp_it ks) fuel s = (Fail ValueError, s')) as (s' & ->); [|easy].
      apply (zip_pull_strict_mismatch true used json N ks fuel Hf eq_refl s (length L)); [easy|easy|].
      apply (Exists_map_iff lp_l (fun l => length l <> length L)). apply Exists_exists. eauto.
    - destruct (nth_error L j) as [row|] eqn:Er; [|apply nth_error_None in Er; lia].
      pose proof Er as Er'. unfold L in Er'. apply zip_lists_nth in Er'; [|easy]. rewrite Forall2_map_l in Er'.
      destruct (zip_pull_yield true used json N ks fuel Hf true true s j row Hs Er') as (s' & E & Hs').
      cbn [drain next]. rewrite E. pose proof (IH (S j) s' ltac:(lia) Hs') as IH'. cbn [drain next] in IH'. rewrite IH'.
      now rewrite (skipn_nth_cons _ _ _ Er). }
  apply (G (length L) 0%nat); [lia|]. apply hrep_init.
Qed.

(** *** mix *)

Lemma map_update_nth {A B} (f : A -> B) i x l : map f (update_nth i x l) = update_nth i (f x) (map f l).
Proof. revert i. induction l as [|y l IH]; intros [|i]; cbn; auto. now rewrite IH. Qed.

Lemma counts_nat ps j : (forall p, In p ps -> 0 < p) -> ps <> [] ->
  exists qs, map Z.of_nat qs = counts (Z.of_nat j) (zsum ps) ps.
Proof.
  intros Hp Hne. exists (map Z.to_nat (counts (Z.of_nat j) (zsum ps) ps)). rewrite map_map.
  rewrite <- map_id. apply map_ext_in. intros c Hc. apply In_nth_error in Hc as (i & Hi).
  pose proof (counts_nonneg ps (Z.of_nat j) Hp Hne ltac:(lia) _ _ Hi). lia.
Qed.

Lemma counts_select ps j qs : (forall p, In p ps -> 0 < p) -> ps <> [] ->
  map Z.of_nat qs = counts (Z.of_nat j) (zsum ps) ps ->
  exists d key, nth_error qs d = Some key /\ dataset_and_key (Z.of_nat j) ps = Ok (Z.of_nat d, Z.of_nat key) /\
    map Z.of_nat (update_nth d (S key) qs) = counts (Z.of_nat (S j)) (zsum ps) ps.
Proof.
  intros Hp Hne Hqs. destruct (loop_spec ps Hp Hne 0 (Z.of_nat j)) as (d & c & Hd & Hl & Hc).
  rewrite <- Hqs, nth_error_map in Hd. destruct (nth_error qs d) as [key|] eqn:E; [|easy]. cbn in Hd. injection Hd as <-.
  exists d, key. split; [easy|]. split; [exact Hl|].
  rewrite map_update_nth, Hqs. replace (Z.of_nat (S j)) with (Z.of_nat j + 1) by lia. rewrite Hc. f_equal. lia.
Qed.

Lemma map_of_nat_inj a b : map Z.of_nat a = map Z.of_nat b -> a = b.
Proof. revert b. induction a as [|x a IH]; intros [|y b] H; try easy. cbn in H. injection H as H1 H2. f_equal; [lia|auto]. Qed.

Lemma repeat_of_nat n : map Z.of_nat (List.repeat 0%nat n) = List.repeat 0 n.
Proof. induction n; cbn; congruence. Qed.

Lemma counts_within {A} props (ls : list (list A)) out : (forall p, In p props -> 0 < p) -> props <> [] ->
  length ls = length props -> mixture_within props ls out -> Forall (fun l => l <> []) ls ->
  forall j qs, (j <= length out)%nat -> map Z.of_nat qs = counts (Z.of_nat j) (zsum props) props ->
  Forall2 (fun l q => q < length l)%nat ls qs.
Proof.
  intros Hp Hne Hlen Hw Hnn. induction j as [|j IH]; intros qs Hj Hqs.
  - change (Z.of_nat 0) with 0 in Hqs. rewrite (counts_zero _ _ Hp eq_refl), <- Hlen in Hqs.
    rewrite <- repeat_of_nat in Hqs.
    apply map_of_nat_inj in Hqs. subst qs. apply Forall2_repeat. eapply Forall_impl; [|exact Hnn].
    cbn. intros [|? ?]; [easy|cbn; lia].
  - destruct (counts_nat props j Hp Hne) as (qs0 & Hqs0). specialize (IH qs0 ltac:(lia) Hqs0).
    destruct (counts_select props j qs0 Hp Hne Hqs0) as (d & key & Hd & Hsel & Hupd).
    rewrite <- Hqs in Hupd. apply map_of_nat_inj in Hupd. subst qs.
    specialize (Hw j d key ltac:(lia) Hsel). clear -IH Hw Hd.
    revert d Hd Hw. induction IH as [|l q ls qs H1 H2 IH]; intros [|d] Hd Hw; try easy.
    + cbn in Hd. constructor; [exact Hw|easy].
    + cbn [update_nth]. constructor; [easy|]. now apply IH.
Qed.

Lemma lawful_mixed {A} props (ps : list (Iter A)) it ls out (fin pfin used json : bool) :
  (forall p, In p props -> 0 < p) -> mixed_it props ps = Ok it -> length ps = length props ->
  Forall2 (fun p l => lawful p l pfin used json) ps ls -> mixture props ls out ->
  (fin = true -> pfin = true /\ mixture_ends props ls out) ->
  (pfin = false -> mixture_within props ls out /\ Forall (fun l => l <> []) ls) ->
  lawful it out fin used json.
Proof.
  intros Hpos Hit Hlen Hps Hout Hfin Hpfin.
  assert (Hne : props <> []).
  { intros ->. destruct ps; [|easy]. unfold mixed_it in Hit. cbn in Hit. easy. }
  assert (Hll : length ls = length props) by (rewrite <- (Forall2_length _ _ _ Hps); easy).
  apply pack_all in Hps as (N & ks & <- & <-). rewrite map_length in Hlen, Hll.
  unfold mixed_it in Hit.
  repeat match type of Hit with (if ?b then _ else _) = _ => destruct b; [easy|] end.
  match type of Hit with Ok ?X = _ => assert (it = X) as -> by congruence end. clear Hit.
  set (cnt := fun j => counts (Z.of_nat j) (zsum props) props).
  set (okpos := fun (qs : list nat) (idx : Z) (stop : bool) (j : nat) => (j <= length out)%nat /\ map Z.of_nat qs = cnt j /\
    if stop then fin = true /\ j = length out else idx = Z.of_nat j).
  exists N,
    (fun s j => exists qs, hrep pfin used json N ks (fst (fst s)) qs /\ okpos qs (snd (fst s)) (snd s) j),
    (fun c j => exists qs, hcrep pfin used json N ks (fst (fst c)) qs /\ Forall2 (fun k q => q <= length (lp_l k))%nat ks qs
       /\ okpos qs (snd (fst c)) (snd c) j).
  assert (Hzero : okpos (List.repeat 0%nat (length ks)) 0 false 0%nat).
  { split; [lia|]. split; [|easy]. unfold cnt. change (Z.of_nat 0) with 0. rewrite (counts_zero _ _ Hpos eq_refl), <- Hll.
    apply repeat_of_nat. }
  assert (Hlive : forall j qs, (j <= length out)%nat -> map Z.of_nat qs = cnt j -> Forall2 (fun k q => q <= length (lp_l k))%nat ks qs ->
     Forall2 (fun k q => live (lp_l k) pfin q) ks qs).
  { intros j qs Hj Hqs Hle. destruct pfin eqn:F.
    - clear -Hle. induction Hle; constructor; auto. now apply live_any.
    - destruct (Hpfin eq_refl) as [Hw Hnn].
      assert (H2 : Forall2 (fun l q => q < length l)%nat (map lp_l ks) qs).
      { eapply counts_within; eauto. now rewrite map_length. }
      rewrite Forall2_map_l in H2. clear -H2. induction H2; constructor; auto. now left. }
  assert (Hnthk : forall d a key, nth_error (nth d (map lp_l ks) []) key = Some a -> exists k, nth_error ks d = Some k /\ nth_error (lp_l k) key = Some a).
  { intros d a key Ha. destruct (nth_error ks d) as [k|] eqn:E.
    - exists k. split; [easy|]. rewrite (nth_error_nth (map lp_l ks) d [] (x := lp_l k)) in Ha; [easy|].
      now rewrite nth_error_map, E.
    - rewrite nth_overflow in Ha; [now destruct key|]. rewrite map_length. now apply nth_error_None. }
  split.
  - exists (List.repeat 0%nat (length ks)). split; [apply hrep_init|exact Hzero].
  - intros s j (qs & _ & Hj & _). easy.
  - intros fuel [[hs idx] stop] j a Hf (qs & Hs & Hj & Hqs & Hst) Ha. cbn [fst snd] in *. cbn [next].
    pose proof (nth_lt _ _ _ Ha) as Hlt. destruct stop; [lia|]. subst idx.
    destruct (counts_select props j qs Hpos Hne Hqs) as (d & key & Hd & Hsel & Hupd). rewrite Hsel.
    destruct (Hout _ _ Ha) as (d' & key' & Hsel' & Hel). rewrite Hsel' in Hsel. injection Hsel as H1 H2.
    apply Nat2Z.inj in H1, H2. subst d' key'.
    destruct (Hnthk _ _ _ Hel) as (k & Hk & Hka). rewrite Nat2Z.id.
    destruct (hnext_yield pfin used json N ks fuel Hf d hs qs k key a Hs Hk Hd Hka) as (hs' & -> & Hs').
    eexists. split; [reflexivity|]. exists (update_nth d (S key) qs). cbn [fst snd]. split; [easy|].
    split; [lia|]. split; [exact Hupd|]. cbn. lia.
  - intros fuel [[hs idx] stop] Hf F (qs & Hs & Hj & Hqs & Hst). cbn [fst snd] in *. cbn [next].
    destruct stop.
    + eexists. split; [reflexivity|]. exists qs. cbn [fst snd]. split; [easy|]. split; [easy|]. split; easy.
    + subst idx. destruct (Hfin F) as [PF (d' & key' & Hsel' & Hel)].
      destruct (counts_select props _ qs Hpos Hne Hqs) as (d & key & Hd & Hsel & _). rewrite Hsel.
      rewrite Hsel' in Hsel. injection Hsel as H1 H2. apply Nat2Z.inj in H1, H2. subst d' key'.
      assert (Hdk : (d < length ks)%nat).
      { apply nth_lt in Hd. rewrite <- (map_length Z.of_nat), Hqs in Hd. unfold cnt in Hd. rewrite counts_length in Hd. lia. }
      destruct (nth_error ks d) as [k|] eqn:Ek; [|apply nth_error_None in Ek; lia].
      assert (key = length (lp_l k)) as ->.
      { rewrite (nth_error_nth (map lp_l ks) d [] (x := lp_l k)) in Hel by now rewrite nth_error_map, Ek.
        apply nth_error_None in Hel. pose proof (hrep_le _ _ _ _ _ _ _ Hs) as Hle.
        pose proof (Forall2_nth_error _ _ _ _ _ _ Hle Ek Hd). cbn in *. lia. }
      rewrite Nat2Z.id.
      destruct (hnext_stop pfin used json N ks fuel Hf PF d hs qs k Hs Ek Hd) as (hs' & -> & Hs').
      eexists. split; [reflexivity|]. exists qs. cbn [fst snd]. split; [easy|]. split; [easy|]. split; easy.
  - intros [[hs idx] stop] j (qs & Hs & Hp). cbn [get_state fst snd] in *. exists qs.
    split; [now apply hget_ok|]. split; [eapply hrep_le; eassumption|easy].
  - intros [[c idx] stop] j J (qs & Hc & Hle & Hp). cbn [jsonck fst snd] in *. exists qs. split; [now apply hjson_ok|easy].
  - intros fuel [[hs idx] stop] j Hf (qs & Hs & Hp) Hv. cbn [set_state get_state init fst snd] in *.
    destruct (hset_start pfin used json N ks fuel Hf hs qs Hs) as (hs' & E & Hs').
    + apply (Forall2_repeat (fun k q => live (lp_l k) pfin q)). apply (Hlive 0%nat); [lia|apply Hzero|].
      apply Forall2_repeat. apply Forall_forall. intros; lia.
    + rewrite E. cbn [bind]. eexists. split; [reflexivity|]. exists (List.repeat 0%nat (length ks)). cbn [fst snd]. easy.
  - intros fuel [[c idx] stop] j Hf (qs & Hc & Hle & Hp) Hv. cbn [set_state init fst snd] in *.
    destruct (hset_fresh pfin used json N ks fuel Hf c qs Hc) as (hs' & E & Hs').
    { destruct Hp as (Hj & Hqs & _). now apply (Hlive j). }
    rewrite E. cbn [bind]. eexists. split; [reflexivity|]. exists qs. easy.
  - intros fuel [[hs i0] s0] q [[c idx] stop] j Hf U (qs0 & Hs & _) (qs & Hc & Hle & Hp) Hv. cbn [set_state fst snd] in *.
    destruct (hset_used pfin used json N ks fuel Hf U hs qs0 c qs Hs Hc) as (hs' & E & Hs').
    { destruct Hp as (Hj & Hqs & _). now apply (Hlive j). }
    rewrite E. cbn [bind]. eexists. split; [reflexivity|]. exists qs. easy.
Qed.
