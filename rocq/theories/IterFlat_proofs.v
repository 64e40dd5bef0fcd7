(** flat_map, cache and to_iter_dataset (PrefetchDatasetIterator) preserve / satisfy the law. *)
From Verif Require Import Base MapDatasets Spec Iter IterSpec ListFacts IterLaw IterBasic_proofs.

(** ** flat_map *)
Lemma flat_map_split {A B} (g : A -> list B) l q :
  flat_map g l = flat_map g (firstn q l) ++ flat_map g (skipn q l).
Proof. now rewrite <- flat_map_app, firstn_skipn. Qed.

Lemma flat_map_firstn_S {A B} (g : A -> list B) l q v : nth_error l q = Some v ->
  flat_map g (firstn (S q) l) = flat_map g (firstn q l) ++ g v.
Proof. intros H. rewrite (firstn_S_nth _ _ _ H), flat_map_app. cbn. now rewrite app_nil_r. Qed.

Section FlatMap.
  Context {A B} (f : A -> res (list B)) (g : A -> list B) (p : Iter A) (l : list A) (fin used json : bool).
  Context (N : nat) (rep : ist p -> nat -> Prop) (crep : ick p -> nat -> Prop).
  Context (L : Law p l fin used json N rep crep) (Hg : Forall (fun v => f v = Ok (g v)) l).

  Let at_ (q : nat) : nat := length (flat_map g (firstn q l)).

  Lemma at_S q v : nth_error l q = Some v -> at_ (S q) = (at_ q + length (g v))%nat.
  Proof. intros H. unfold at_. rewrite (flat_map_firstn_S _ _ _ _ H), app_length. reflexivity. Qed.

  Lemma at_le q : (at_ q <= length (flat_map g l))%nat.
  Proof. unfold at_. rewrite (flat_map_split g l q), app_length. lia. Qed.

  Lemma at_all : at_ (length l) = length (flat_map g l).
  Proof. unfold at_. now rewrite firstn_all. Qed.

  (* inside the buffer of element q *)
  Definition fm_in (s : flat_st (ist p) (ick p) B) (j : nat) : Prop :=
    exists q v, nth_error l q = Some v /\ fm_buffer s = g v /\ (fm_index s <= length (g v))%nat /\
      rep (fm_parent s) (S q) /\ crep (fm_last s) q /\ j = (at_ q + fm_index s)%nat.
  (* before the first element *)
  Definition fm_begin (s : flat_st (ist p) (ick p) B) (j : nat) : Prop :=
    fm_buffer s = [] /\ fm_index s = 0%nat /\ rep (fm_parent s) 0 /\ crep (fm_last s) 0 /\ j = 0%nat.
  (* after the parent stopped *)
  Definition fm_end (s : flat_st (ist p) (ick p) B) (j : nat) : Prop :=
    nth_error (fm_buffer s) (fm_index s) = None /\ (l = [] -> fm_buffer s = []) /\
    rep (fm_parent s) (length l) /\ crep (fm_last s) (length l) /\ j = length (flat_map g l).
  Definition fm_rep s j := fm_in s j \/ fm_begin s j \/ fm_end s j.
  Definition fm_crep (c : ick p * nat) (j : nat) : Prop :=
    exists q, crep (fst c) q /\
      ((exists v, nth_error l q = Some v /\ snd c <= length (g v) /\ j = at_ q + snd c) \/
       (q = length l /\ j = length (flat_map g l)))%nat.

  Lemma fm_ok v : In v l -> f v = Ok (g v).
  Proof. rewrite Forall_forall in Hg. apply Hg. Qed.

  Lemma flat_next_yield a d : forall q s fuel, d = (length l - q)%nat -> rep (fm_parent s) q ->
    nth_error (fm_buffer s) (fm_index s) = None -> (N + d < fuel)%nat ->
    nth_error (flat_map g (skipn q l)) 0 = Some a ->
    exists s', flat_next f p fuel s = (Yield a, s') /\ fm_in s' (S (at_ q)).
  Proof.
    induction d as [|d IH]; intros q s fuel Hd Hr Hn Hf Ha.
    - rewrite skipn_all2 in Ha by lia. discriminate.
    - destruct fuel as [|fuel]; [lia|]. cbn [flat_next]. rewrite Hn.
      destruct (nth_error l q) as [v|] eqn:Ev; [|apply nth_error_None in Ev; lia].
      destruct (law_next L fuel _ q v ltac:(lia) Hr Ev) as (s1 & -> & Hr1). cbn [bindn].
      rewrite fm_ok by (eapply nth_error_In; eassumption).
      rewrite (skipn_nth_cons _ _ _ Ev) in Ha. cbn [flat_map] in Ha.
      destruct (g v) as [|b bs] eqn:Egv.
      + cbn [app] in Ha.
        destruct (IH (S q) (mkFlat s1 [] 0 (get_state p (fm_parent s))) fuel) as (s' & E & Hi); auto; try lia.
        exists s'. rewrite E. split; [easy|]. rewrite (at_S q v Ev), Egv, Nat.add_0_r in Hi. exact Hi.
      + cbn in Ha. injection Ha as <-.
        exists (mkFlat s1 (b :: bs) 1 (get_state p (fm_parent s))). split.
        * destruct fuel; reflexivity.
        * exists q, v. rewrite Egv. cbn. repeat split; auto; try lia. now apply (law_get L).
  Qed.

  Lemma flat_next_stop d : forall q s fuel, d = (length l - q)%nat -> rep (fm_parent s) q ->
    nth_error (fm_buffer s) (fm_index s) = None -> (l = [] -> fm_buffer s = []) -> (N + d < fuel)%nat ->
    fin = true -> flat_map g (skipn q l) = [] ->
    exists s', flat_next f p fuel s = (Stop, s') /\ fm_end s' (length (flat_map g l)).
  Proof.
    induction d as [|d IH]; intros q s fuel Hd Hr Hn He Hf F Ha;
      (destruct fuel as [|fuel]; [lia|]); cbn [flat_next]; rewrite Hn; pose proof (law_le L _ _ Hr).
    - replace q with (length l) in * by lia.
      destruct (law_stop L fuel _ ltac:(lia) F Hr) as (s1 & -> & Hr1). cbn [bindn].
      eexists. split; [reflexivity|]. repeat split; cbn; auto. now apply (law_get L).
    - destruct (nth_error l q) as [v|] eqn:Ev; [|apply nth_error_None in Ev; lia].
      destruct (law_next L fuel _ q v ltac:(lia) Hr Ev) as (s1 & -> & Hr1). cbn [bindn].
      rewrite fm_ok by (eapply nth_error_In; eassumption).
      rewrite (skipn_nth_cons _ _ _ Ev) in Ha. cbn [flat_map] in Ha. apply app_eq_nil in Ha as [Hgv Ha].
      apply (IH (S q)); cbn; auto; try lia. rewrite Hgv. easy.
  Qed.

  (* restoring a checkpoint into a state whose buffer is exhausted or whose parent is not at the end *)
  Lemma flat_set_ok fuel s c q j : (N <= fuel)%nat ->
    (exists s1, set_state p fuel (fm_parent s) (fst c) = Ok s1 /\ rep s1 q) -> crep (fst c) q ->
    (q = length l -> fin = true) ->
    (q = length l -> fm_buffer s = []) ->
    ((exists v, nth_error l q = Some v /\ snd c <= length (g v) /\ j = at_ q + snd c) \/
       (q = length l /\ j = length (flat_map g l)))%nat ->
    exists s', flat_set f p fuel s c = Ok s' /\ fm_rep s' j.
  Proof.
    intros Hf (s1 & E & Hr) Hc Hfin Hb Hj. unfold flat_set. rewrite E. cbn [bind].
    destruct Hj as [(v & Ev & Hi & ->)|(-> & ->)].
    - destruct (law_next L fuel s1 q v Hf Hr Ev) as (s2 & -> & Hr2).
      rewrite fm_ok by (eapply nth_error_In; eassumption). cbn [bind].
      eexists. split; [reflexivity|]. left. exists q, v. cbn. repeat split; auto.
    - destruct (law_stop L fuel s1 Hf (Hfin eq_refl) Hr) as (s2 & -> & Hr2).
      eexists. split; [reflexivity|]. right. right. repeat split; cbn; auto. now rewrite Hb.
  Qed.

  Lemma flat_map_law : lawful (flat_map_it f p) (flat_map g l) fin false json.
  Proof.
    exists (N + length l + 1)%nat, fm_rep, fm_crep.
    assert (Hlive0 : live (flat_map g l) fin 0 -> live l fin 0).
    { unfold live. destruct l; cbn; [easy|]. left. lia. }
    split.
    - right. left. repeat split; cbn; auto; [apply (law_init L)|]. apply (law_get L), (law_init L).
    - intros s j [(q & v & Ev & _ & Hi & _ & _ & ->)|[(_ & _ & _ & _ & ->)|(_ & _ & _ & _ & ->)]]; try lia.
      pose proof (at_S q v Ev). pose proof (at_le (S q)). lia.
    - intros fuel s j a Hf H Ha. cbn [next flat_map_it].
      destruct H as [(q & v & Ev & Eb & Hi & Hr & Hc & ->)|[(Eb & Ei & Hr & _ & ->)|(Eb & _ & Hr & _ & ->)]].
      + destruct (Nat.eq_dec (fm_index s) (length (g v))) as [Hx|Hx].
        * pose proof (at_S q v Ev) as HS. rewrite <- Hx in HS. rewrite <- HS in Ha |- *.
          assert (Ha' : nth_error (flat_map g (skipn (S q) l)) 0 = Some a).
          { rewrite (flat_map_split g l (S q)), nth_error_app2 in Ha; [|reflexivity].
            unfold at_ in Ha. now rewrite Nat.sub_diag in Ha. }
          destruct (flat_next_yield a _ (S q) s fuel eq_refl Hr) as (s' & E & Hin); auto; [|lia|].
          { apply nth_error_None. rewrite Eb. lia. }
          exists s'. split; [easy|now left].
        * destruct (nth_error (g v) (fm_index s)) as [b|] eqn:Eb'; [|apply nth_error_None in Eb'; lia].
          assert (b = a).
          { rewrite (flat_map_split g l (S q)), nth_error_app1 in Ha.
            - rewrite (flat_map_firstn_S _ _ _ _ Ev), nth_error_app2 in Ha by (unfold at_; lia).
              unfold at_ in Ha. replace (_ + _ - _)%nat with (fm_index s) in Ha by lia. congruence.
            - rewrite (flat_map_firstn_S _ _ _ _ Ev), app_length. unfold at_. lia. }
          subst b. eexists. split.
          { destruct fuel; cbn [flat_next]; rewrite Eb, Eb'; reflexivity. }
          left. exists q, v. cbn. repeat split; auto; lia.
      + destruct (flat_next_yield a _ 0%nat s fuel eq_refl Hr) as (s' & E & Hin); auto; [|lia|].
        { rewrite Eb. now rewrite Ei. }
        exists s'. split; [easy|now left].
      + assert (nth_error (flat_map g l) (length (flat_map g l)) = None) by now apply nth_error_None.
        congruence.
    - intros fuel s Hf F H. cbn [next flat_map_it].
      assert (G : forall q, rep (fm_parent s) q -> nth_error (fm_buffer s) (fm_index s) = None ->
        (l = [] -> fm_buffer s = []) -> flat_map g (skipn q l) = [] ->
        exists s', flat_next f p fuel s = (Stop, s') /\ fm_rep s' (length (flat_map g l))).
      { intros q Hr Hb He Hn.
        destruct (flat_next_stop _ q s fuel eq_refl Hr Hb He ltac:(lia) F Hn) as (s' & E & Hend).
        exists s'. split; [easy|]. right. now right. }
      assert (Hnil : forall q, length (flat_map g l) = at_ q -> flat_map g (skipn q l) = []).
      { intros q Hq. apply length_zero_iff_nil. rewrite (flat_map_split g l q), app_length in Hq. unfold at_ in Hq. lia. }
      destruct H as [(q & v & Ev & Eb & Hi & Hr & Hc & Hj)|[(Eb & Ei & Hr & _ & Hj)|(Eb & He & Hr & _ & _)]].
      + pose proof (at_S q v Ev). pose proof (at_le (S q)).
        apply (G (S q)); auto; [|intros E0; rewrite E0 in Ev; now destruct q|apply Hnil; lia].
        rewrite Eb. apply nth_error_None. lia.
      + apply (G 0%nat); [easy|now rewrite Eb, Ei|easy|]. apply Hnil. unfold at_. cbn. lia.
      + apply (G (length l)); auto. now rewrite skipn_all.
    - intros s j H. cbn. destruct H as [(q & v & Ev & Eb & Hi & Hr & Hc & ->)|[(Eb & Ei & Hr & Hc & ->)|(Eb & _ & Hr & Hc & ->)]].
      + exists q. split; [easy|]. left. exists v. auto.
      + exists 0%nat. split; [easy|]. cbn. rewrite Ei. destruct (nth_error l 0) as [v|] eqn:El.
        * left. exists v. split; [easy|]. split; [lia|]. reflexivity.
        * right. apply nth_error_None in El. assert (Hl : l = []) by (apply length_zero_iff_nil; lia). split; [lia|]. now rewrite Hl.
      + exists (length l). split; [easy|]. right. auto.
    - intros [c i] j Hj (q & Hc & H). exists q. split; [now apply (law_json L)|easy].
    - intros fuel s j Hf H Hv. cbn [set_state flat_map_it get_state init fm_last fm_index].
      assert (exists q, rep (fm_parent s) q /\ (l = [] -> fm_buffer s = [])) as (q & Hr & He).
      { destruct H as [(q & v & Ev & _ & _ & Hr & _)|[(Eb & _ & Hr & _)|(_ & He & Hr & _)]]; eauto.
        exists (S q). split; [easy|]. intros E0; rewrite E0 in Ev; now destruct q. }
      destruct (law_start L fuel _ q ltac:(lia) Hr (Hlive0 Hv)) as (s1 & E & Hr1).
      apply flat_set_ok with (q := 0%nat); cbn; eauto; try lia.
      + apply (law_get L), (law_init L).
      + intros E0. destruct (Hlive0 Hv) as [?|[_ ?]]; [lia|easy].
      + intros E0. apply He. now apply length_zero_iff_nil.
      + destruct (nth_error l 0) as [v|] eqn:El.
        * left. exists v. split; [easy|]. split; [lia|]. reflexivity.
        * right. apply nth_error_None in El. assert (Hl : l = []) by (apply length_zero_iff_nil; lia). split; [lia|]. now rewrite Hl.
    - intros fuel c j Hf (q & Hc & Hj) Hv. cbn [set_state flat_map_it init].
      assert (Hq : live l fin q).
      { destruct Hj as [(v & Ev & _)|(-> & ->)].
        - left. now apply (nth_lt _ _ _ Ev).
        - destruct Hv as [?|[_ ?]]; [lia|]. right. auto. }
      destruct (law_fresh L fuel (fst c) q ltac:(lia) Hc Hq) as (s1 & E & Hr1).
      apply flat_set_ok with (q := q); cbn; eauto; try lia.
      intros ->. destruct Hq as [?|[_ ?]]; [lia|easy].
    - discriminate.
  Qed.
End FlatMap.

Lemma lawful_flat_map {A B} (f : A -> res (list B)) g p l fin used json :
  Forall (fun v => f v = Ok (g v)) l -> lawful p l fin used json ->
  lawful (flat_map_it f p) (flat_map g l) fin false json.
Proof. intros Hg (N & rep & crep & L). eapply flat_map_law; eassumption. Qed.

(** ** cache *)
Lemma live_zero {A} (l : list A) fin : fin = true -> live l fin 0.
Proof. intros F. unfold live. destruct l; cbn; [now right|left; lia]. Qed.

Lemma live_any {A} (l : list A) fin q : (q <= length l)%nat -> fin = true -> live l fin q.
Proof. intros H F. unfold live. destruct (Nat.eq_dec q (length l)); [now right|left; lia]. Qed.

Section Cache.
  Context {A} (p : Iter A) (l : list A) (fin used json : bool).
  Context (N : nat) (rep : ist p -> nat -> Prop) (crep : ick p -> nat -> Prop).
  Context (L : Law p l fin used json N rep crep).

  Definition ca_rep (s : ca_st (ist p) A) (j : nat) : Prop :=
    ca_pos s = j /\ (j <= length l)%nat /\ ca_cache s = firstn (length (ca_cache s)) l /\
    exists q, rep (ca_parent s) q /\ (j = 0 -> q = 0)%nat /\ (fin = false -> q = j) /\
      (ca_filled s = true /\ ca_cache s = l /\ fin = true \/
       ca_filled s = false /\ ca_rebuild s = true \/
       ca_filled s = false /\ ca_rebuild s = false /\ q = j /\ (j <= length (ca_cache s))%nat).
  Definition ca_crep (c : ick p * nat * bool) (j : nat) : Prop :=
    snd (fst c) = j /\ (j <= length l)%nat /\
    exists q, crep (fst (fst c)) q /\ (q <= length l)%nat /\ (j = 0 -> q = 0)%nat /\ (fin = false -> q = j).

  Lemma rebuild_ok fuel : (N <= fuel)%nat -> forall n q s, rep s q -> (q + n <= length l)%nat ->
    exists s', rebuild p fuel n (firstn q l) s = (Yield (firstn (q + n) l), s') /\ rep s' (q + n)%nat.
  Proof.
    intros Hf. induction n as [|n IH]; intros q s Hr Hq.
    - exists s. rewrite Nat.add_0_r. easy.
    - cbn [rebuild]. destruct (nth_error l q) as [v|] eqn:Ev; [|apply nth_error_None in Ev; lia].
      destruct (law_next L fuel s q v Hf Hr Ev) as (s1 & -> & Hr1). cbn [bindn].
      rewrite <- (firstn_S_nth _ _ _ Ev).
      destruct (IH (S q) s1 Hr1 ltac:(lia)) as (s' & E & Hr').
      replace (q + S n)%nat with (S q + n)%nat by lia. eauto.
  Qed.

  Lemma cache_fetch_yield fuel s j a : (N <= fuel)%nat -> rep (ca_parent s) j -> ca_pos s = j ->
    ca_filled s = false -> ca_rebuild s = false -> (j <= length (ca_cache s))%nat ->
    ca_cache s = firstn (length (ca_cache s)) l -> nth_error l j = Some a ->
    exists s', cache_fetch p fuel s = (Yield a, s') /\ ca_rep s' (S j).
  Proof.
    intros Hf Hr Hpos Hfi Hre Hlen Hc Ha. unfold cache_fetch.
    destruct (law_next L fuel _ j a Hf Hr Ha) as (s1 & -> & Hr1).
    eexists. split; [reflexivity|]. pose proof (nth_lt _ _ _ Ha).
    rewrite Hpos. assert (Hlenl : (length (ca_cache s) <= length l)%nat).
    { rewrite Hc, firstn_length. lia. }
    split; [cbn; lia|]. split; [lia|]. split; cbn.
    - destruct (Nat.eqb_spec (length (ca_cache s)) j) as [E|E]; [|easy].
      rewrite app_length. cbn. rewrite Nat.add_1_r. rewrite Hc at 1. rewrite E.
      now rewrite (firstn_S_nth _ _ _ Ha).
    - exists (S j). split; [easy|]. split; [easy|]. split; [easy|]. right. right.
      repeat split; auto. destruct (Nat.eqb_spec (length (ca_cache s)) j); [rewrite app_length; cbn|]; lia.
  Qed.

  Lemma cache_fetch_stop fuel s : (N <= fuel)%nat -> fin = true -> rep (ca_parent s) (length l) ->
    ca_pos s = length l -> (length l <= length (ca_cache s))%nat ->
    ca_cache s = firstn (length (ca_cache s)) l ->
    exists s', cache_fetch p fuel s = (Stop, s') /\ ca_rep s' (length l).
  Proof.
    intros Hf F Hr Hpos Hlen Hc. unfold cache_fetch.
    destruct (law_stop L fuel _ Hf F Hr) as (s1 & -> & Hr1).
    eexists. split; [reflexivity|]. repeat split; cbn; auto.
    exists (length l). repeat split; auto. left. repeat split; auto. rewrite Hc. now apply firstn_all2.
  Qed.

  Lemma cache_rebuild_ready fuel s j : (N <= fuel)%nat -> live l fin 0 -> ca_rep s j ->
    ca_filled s = false -> ca_rebuild s = true ->
    exists s2, rep s2 j /\ cache_next p fuel s =
      cache_fetch p fuel (mkCa s2 (firstn j l) j false false).
  Proof.
    intros Hf Hv (Hpos & Hj & _ & q & Hr & _) Hfi Hre. unfold cache_next. rewrite Hfi, Hre.
    destruct (law_start L fuel _ q Hf Hr Hv) as (s1 & -> & Hr1).
    rewrite Hpos. destruct (rebuild_ok fuel Hf j 0 s1 Hr1 ltac:(lia)) as (s2 & E & Hr2).
    cbn [firstn] in E. rewrite E. cbn. eauto.
  Qed.

  Lemma cache_law : lawful (cache_it p) l fin false json.
  Proof.
    exists N, ca_rep, ca_crep.
    split.
    - repeat split; cbn; try lia. exists 0%nat. split; [apply (law_init L)|].
      split; [easy|]. split; [easy|]. right. right. auto.
    - intros s j (_ & H & _). exact H.
    - intros fuel s j a Hf H Ha. cbn [next cache_it]. pose proof H as (Hpos & Hj & Hc & q & Hr & H0 & Hfin & Hcase).
      pose proof (nth_lt _ _ _ Ha) as Hlt.
      destruct Hcase as [(Hfi & Hca & F)|[(Hfi & Hre)|(Hfi & Hre & -> & Hlen)]].
      + unfold cache_next. rewrite Hfi, Hca, Hpos, Ha. eexists. split; [reflexivity|].
        split; [cbn; lia|]. split; [lia|]. split; [cbn; now rewrite firstn_all|]. cbn.
        exists q. split; [easy|]. split; [lia|]. split; [now rewrite F|]. left. auto.
      + destruct (cache_rebuild_ready fuel s j Hf ltac:(left; lia) H Hfi Hre) as (s2 & Hr2 & ->).
        apply cache_fetch_yield; cbn; auto; rewrite firstn_length, Nat.min_l by lia; easy.
      + unfold cache_next. rewrite Hfi, Hre. now apply cache_fetch_yield.
    - intros fuel s Hf F H. cbn [next cache_it]. pose proof H as (Hpos & Hj & Hc & q & Hr & H0 & Hfin & Hcase).
      destruct Hcase as [(Hfi & Hca & _)|[(Hfi & Hre)|(Hfi & Hre & -> & Hlen)]].
      + unfold cache_next. rewrite Hfi, Hca, Hpos.
        assert (nth_error l (length l) = None) as -> by now apply nth_error_None.
        eauto.
      + destruct (cache_rebuild_ready fuel s _ Hf (live_zero _ _ F) H Hfi Hre) as (s2 & Hr2 & ->).
        apply cache_fetch_stop; cbn; auto; rewrite firstn_length, Nat.min_id; easy.
      + unfold cache_next. rewrite Hfi, Hre. now apply cache_fetch_stop.
    - intros s j (Hpos & Hj & Hc & q & Hr & H0 & Hfin & _). repeat split; cbn; auto.
      exists q. split; [now apply (law_get L)|]. split; [apply (law_le L _ _ Hr)|easy].
    - intros [[c n] b] j Hj (H1 & H2 & q & Hc & H3). repeat split; auto. exists q.
      split; [now apply (law_json L)|easy].
    - intros fuel s j Hf (Hpos & Hj & Hc & q & Hr & H0 & Hfin & Hcase) Hv. cbn.
      destruct (law_start L fuel _ q Hf Hr Hv) as (s1 & -> & Hr1). cbn.
      rewrite Bool.andb_false_l, !Bool.orb_false_r || idtac.
      eexists. split; [reflexivity|]. repeat split; cbn; auto; [lia|].
      exists 0%nat. repeat split; auto.
      destruct Hcase as [(Hfi & Hca & F)|[(Hfi & Hre)|(Hfi & Hre & -> & Hlen)]]; [left; auto|right; left|right; right].
      + rewrite Hre. auto.
      + rewrite Hre. cbn. repeat split; auto. lia.
    - intros fuel [[c n] b] j Hf (H1 & H2 & q & Hc & Hq & H0 & Hfin) Hv. cbn in H1, Hc. subst n.
      assert (Hql : live l fin q).
      { destruct fin eqn:F; [now apply live_any|]. now rewrite Hfin. }
      destruct (law_fresh L fuel c q Hf Hc Hql) as (s1 & E & Hr1).
      cbn [set_state cache_it init ca_rebuild ca_filled ca_parent ca_cache]. rewrite E. cbn [bind].
      eexists. split; [reflexivity|]. repeat split; cbn; auto.
      exists q. repeat split; auto. right.
      destruct b, j; cbn; auto. right. rewrite H0 by easy. auto.
    - discriminate.
  Qed.
End Cache.

Lemma lawful_cache {A} (p : Iter A) l fin used json :
  lawful p l fin used json -> lawful (cache_it p) l fin false json.
Proof. intros (N & rep & crep & L). eapply cache_law; eassumption. Qed.
