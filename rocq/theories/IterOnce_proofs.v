(** repeat over cache reads the parent only once. *)
From Verif Require Import Base Spec Iter IterSpec ListFacts IterLaw IterBasic_proofs IterBatch_proofs IterFlat_proofs.

Section Once.
  Context {A : Type} (p : Iter A) (l : list A) (used json : bool) (N : nat)
    (rep : ist p -> nat -> Prop) (crep : ick p -> nat -> Prop) (L : Law p l true used json N rep crep).
  Let b := budget (S (length l)) p.
  Let C := cache_it b.

  (* reading the first pass, or reading from the complete cache *)
  Definition once (s : ist C) (q : nat) : Prop :=
    ca_pos s = q /\ (q <= length l)%nat /\ ca_rebuild s = false /\
    (exists q', rep (fst (ca_parent s)) q') /\
    ((ca_filled s = false /\ ca_cache s = firstn q l /\ rep (fst (ca_parent s)) q /\ snd (ca_parent s) = q) \/
     (ca_filled s = true /\ ca_cache s = l)).

  Lemma once_next fuel s q a : (N <= fuel)%nat -> once s q -> nth_error l q = Some a ->
    exists s', next C fuel s = (Yield a, s') /\ once s' (S q).
  Proof.
    intros Hf (Hp & Hq & Hr & Hx & [(F & Hc & Hs & Hn)|(F & Hc)]) Ha;
    pose proof (nth_lt _ _ _ Ha) as Hlt; cbn [C cache_it next]; unfold cache_next; rewrite F.
    - rewrite Hr. unfold cache_fetch. destruct (ca_parent s) as [sp n] eqn:Es. cbn [fst snd] in *. subst n.
      cbn [b budget next]. destruct (Nat.ltb_spec q (S (length l))); [|lia].
      destruct (law_next L fuel sp q a Hf Hs Ha) as (sp' & -> & Hs').
      eexists. split; [reflexivity|]. unfold once. cbn [ca_pos ca_rebuild ca_parent ca_filled ca_cache fst snd].
      rewrite Hp, Hc. rewrite firstn_length, Nat.min_l, Nat.eqb_refl by lia.
      split; [easy|]. split; [lia|]. split; [easy|]. split; [eauto|]. left.
      split; [easy|]. split; [now rewrite (firstn_S_nth _ _ _ Ha)|easy].
    - rewrite Hc, Hp, Ha. eexists. split; [reflexivity|]. unfold once. cbn [ca_pos ca_rebuild ca_parent ca_filled ca_cache].
      split; [easy|]. split; [lia|]. split; [easy|]. split; [easy|]. right. easy.
  Qed.

  Lemma once_stop fuel s : (N <= fuel)%nat -> once s (length l) ->
    exists s', next C fuel s = (Stop, s') /\ once s' (length l) /\ ca_filled s' = true.
  Proof.
    intros Hf (Hp & Hq & Hr & Hx & [(F & Hc & Hs & Hn)|(F & Hc)]);
    cbn [C cache_it next]; unfold cache_next; rewrite F.
    - rewrite Hr. unfold cache_fetch. destruct (ca_parent s) as [sp n] eqn:Es. cbn [fst snd] in *. subst n.
      cbn [b budget next]. destruct (Nat.ltb_spec (length l) (S (length l))); [|lia].
      destruct (law_stop L fuel sp Hf eq_refl Hs) as (sp' & -> & Hs').
      eexists. split; [reflexivity|]. split; [|easy]. unfold once. cbn [ca_pos ca_rebuild ca_parent ca_filled ca_cache fst snd].
      split; [easy|]. split; [lia|]. split; [easy|]. split; [eauto|]. right. split; [easy|]. rewrite Hc. apply firstn_all.
    - rewrite Hc, Hp. destruct (nth_error l (length l)) eqn:E; [apply nth_lt in E; lia|].
      eexists. split; [reflexivity|]. split; [|easy]. unfold once. tauto.
  Qed.

  Lemma once_start fuel s q : (N <= fuel)%nat -> once s q -> ca_filled s = true ->
    exists s', set_state C fuel s (get_state C (init C)) = Ok s' /\ once s' 0.
  Proof.
    intros Hf (Hp & Hq & Hr & (q' & Hx) & [(F & Hc & Hs & Hn)|(F & Hc)]) F'; [congruence|].
    destruct s as [[sp n] cache pos filled reb]. cbn [ca_parent ca_cache ca_pos ca_filled ca_rebuild fst snd] in *.
    destruct (law_start L fuel sp q' Hf Hx (live_zero _ _ eq_refl)) as (sp' & E & Hs').
    assert (Es : set_state C fuel (mkCa (sp, n) cache pos filled reb) (get_state C (init C)) = Ok (mkCa (sp', n) cache 0 filled false)).
    { subst filled reb. unfold C, cache_it, b. cbn [set_state get_state init ca_parent ca_pos ca_filled ca_rebuild ca_cache budget].
      rewrite E. cbn [bind negb andb orb]. rewrite andb_false_r. easy. }
    exists (mkCa (sp', n) cache 0%nat filled false). split; [exact Es|]. unfold once. cbn [ca_pos ca_rebuild ca_parent ca_filled ca_cache fst snd].
    split; [easy|]. split; [lia|]. split; [easy|]. split; [eauto|]. right. easy.
  Qed.

  Context (ne : option Z) (fuel : nat).
  Let R : Iter A := 
    {| ist := ist C * Z; ick := ick C * Z; init := (init C, 0);
       next := fun fuel '(s, epoch) =>
         if is_last ne epoch then (Stop, (s, epoch)) else repeat_loop ne C (get_state C (init C)) fuel s epoch;
       get_state := fun '(s, epoch) => (get_state C s, epoch);
       set_state := fun fuel '(s, _) '(c, epoch) => let! s' := set_state C fuel s c in Ok (s', epoch);
       jsonck := fun '(c, epoch) => (jsonck C c, epoch) |}.
  Definition ends (k : nat) (T : list A) : list A * out A :=
    (firstn k T, if Nat.leb k (length T) then NoFuel else Stop).

  Lemma ends_cons k a T : (let (l, o) := ends k T in (a :: l, o)) = ends (S k) (a :: T).
  Proof. easy. Qed.

  Lemma once_drain r : forall d fuel' k s q e, d = (length l - q)%nat -> (1 <= r)%nat ->
    match ne with Some n => e + Z.of_nat r = n | None => True end ->
    (N + r + 1 <= fuel')%nat -> (N + r + 1 <= fuel)%nat -> once s q ->
    let T := skipn q l ++ concat (List.repeat l (r - 1)) in
    (ne = None -> (S k <= length T)%nat) ->
    match repeat_loop ne C (get_state C (init C)) fuel' s e with
    | (Yield a, st) => let (l, o) := drain R fuel k st in (a :: l, o)
    | (o, _) => ([], o)
    end = ends (S k) T.
  Proof.
    induction r as [|r IHr]; [lia|].
    induction d as [|d IHd]; intros fuel' k s q e Hd Hr He Hf' Hf Hs T HT;
      assert (Hq : (q <= length l)%nat) by apply Hs; destruct fuel' as [|fuel']; try lia; cbn [repeat_loop].
    - assert (q = length l) as -> by lia. clear Hd.
      destruct (once_stop fuel' s ltac:(lia) Hs) as (s1 & E1 & Hs1 & Hf1). rewrite E1.
      assert (ET : T = concat (List.repeat l r)).
      { unfold T. rewrite skipn_all. cbn [app]. f_equal. f_equal. lia. }
      destruct (is_last ne (e + 1)) eqn:El.
      + unfold is_last in El. destruct ne as [n|]; [|easy]. apply Z.eqb_eq in El. assert (r = 0%nat) as -> by lia.
        rewrite ET. reflexivity.
      + destruct r as [|r].
        { destruct ne as [n|]; [|specialize (HT eq_refl); rewrite ET in HT; cbn in HT; lia].
          unfold is_last in El. apply Z.eqb_neq in El. lia. }
        destruct (once_start fuel' s1 _ ltac:(lia) Hs1 Hf1) as (s2 & E2 & Hs2). rewrite E2.
        assert (ET' : T = skipn 0 l ++ concat (List.repeat l (S r - 1))).
        { rewrite ET. cbn [skipn]. replace (S r - 1)%nat with r by lia. reflexivity. }
        rewrite ET'. apply (IHr (length l - 0)%nat fuel' k s2 0%nat (e + 1)); auto; try lia.
        * destruct ne; lia.
        * now rewrite <- ET'.
    - destruct (nth_error l q) as [a|] eqn:Ea; [|apply nth_error_None in Ea; lia].
      destruct (once_next fuel' s q a ltac:(lia) Hs Ea) as (s1 & E1 & Hs1). rewrite E1.
      assert (ET : T = a :: (skipn (S q) l ++ concat (List.repeat l (S r - 1)))).
      { unfold T. now rewrite (skipn_nth_cons _ _ _ Ea). }
      rewrite ET. rewrite <- ends_cons. destruct k as [|k]; [reflexivity|].
      assert (Hlast : is_last ne e = false).
      { destruct ne as [n|]; [|easy]. unfold is_last. apply Z.eqb_neq. lia. }
      rewrite <- (IHd fuel k s1 (S q) e); auto; try lia.
      + cbn [drain R next]. rewrite Hlast.
        destruct (repeat_loop ne C (get_state C (init C)) fuel s1 e) as [[x| |x|] st]; reflexivity.
      + intros Hn. specialize (HT Hn). rewrite ET in HT. cbn [length] in HT. lia.
  Qed.
End Once.

Lemma once_init {A} (p : Iter A) l used json N rep crep :
  Law p l true used json N rep crep -> once p l rep (init (cache_it (budget (S (length l)) p))) 0.
Proof.
  intros L. unfold once. cbn. split; [easy|]. split; [lia|]. split; [easy|]. split; [exists 0%nat; apply (law_init L)|].
  left. split; [easy|]. split; [easy|]. split; [apply (law_init L)|easy].
Qed.

(** Over a parent that raises when it is read more than [length l + 1] times,
    repeat over cache still outputs all epochs. *)
Lemma cache_reads_once {A} (p : Iter A) l used json num_epochs it :
  lawful p l true used json ->
  repeat_it num_epochs (cache_it (budget (S (length l)) p)) = Ok it ->
  match num_epochs with
  | Some k => elements it (concat (List.repeat l (Z.to_nat k)))
  | None => l <> [] -> forall n, elements_prefix it (concat (List.repeat l n))
  end.
Proof.
  intros (N & rep & crep & L) Hit. unfold repeat_it in Hit.
  destruct (match num_epochs with None => false | Some k => k <=? 0 end) eqn:Epos; [discriminate|].
  match type of Hit with Ok ?X = _ => assert (it = X) as -> by congruence end. clear Hit.
  pose proof (once_init p l used json N rep crep L) as H0.
  destruct num_epochs as [k|].
  - apply Z.leb_gt in Epos. exists (N + Z.to_nat k + 1)%nat. intros fuel Hf.
    set (R := concat (List.repeat l (Z.to_nat k))).
    pose proof (once_drain p l used json N rep crep L (Some k) fuel (Z.to_nat k) (length l - 0)%nat fuel (length R)
      (init (cache_it (budget (S (length l)) p))) 0%nat 0 eq_refl ltac:(lia) ltac:(cbv beta iota; lia) ltac:(lia) ltac:(lia) H0 ltac:(easy)) as H.
    cbn zeta in H. cbn [skipn] in H.
    assert (ER : l ++ concat (List.repeat l (Z.to_nat k - 1)) = R).
    { unfold R. replace (Z.to_nat k) with (S (Z.to_nat k - 1)) at 2 by lia. reflexivity. }
    rewrite ER in H. unfold ends in H. rewrite firstn_all2 in H by lia.
    destruct (Nat.leb_spec (S (length R)) (length R)); [lia|]. rewrite <- H.
    cbn [drain next init]. unfold is_last at 1. destruct (Z.eqb_spec 0 k); [lia|].
    match goal with |- match ?a with _ => _ end = match ?b with _ => _ end => change b with a end.
    destruct (repeat_loop (Some k) _ _ fuel _ 0) as [[x| |x|] st]; reflexivity.
  - intros Hl [|n]; [exists 0%nat; easy|]. exists (N + S n + 1)%nat. intros fuel Hf.
    set (R := concat (List.repeat l (S n))).
    assert (HR : (1 <= length R)%nat).
    { unfold R. cbn [List.repeat concat]. rewrite app_length. destruct l; [easy|cbn; lia]. }
    assert (ER : l ++ concat (List.repeat l (S n - 1)) = R).
    { unfold R. replace (S n - 1)%nat with n by lia. reflexivity. }
    assert (HT : (S (length R - 1) <= length (skipn 0 l ++ concat (List.repeat l (S n - 1))))%nat).
    { cbn [skipn]. rewrite ER. lia. }
    pose proof (once_drain p l used json N rep crep L None fuel (S n) (length l - 0)%nat fuel (length R - 1)
      (init (cache_it (budget (S (length l)) p))) 0%nat 0 eq_refl ltac:(lia) ltac:(easy) ltac:(lia) ltac:(lia) H0 (fun _ => HT)) as H.
    cbn zeta in H. cbn [skipn] in H. rewrite ER in H. unfold ends in H. rewrite firstn_all2 in H by lia.
    destruct (Nat.leb_spec (S (length R - 1)) (length R)); [|lia]. rewrite <- H.
    replace (length R) with (S (length R - 1)) at 1 by lia.
    cbn [drain next init]. unfold is_last at 1.
    destruct (repeat_loop None _ _ fuel _ 0) as [[x| |x|] st]; reflexivity.
Qed.
