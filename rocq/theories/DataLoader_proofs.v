(** Proofs about DataLoader.v: as many datasets interleaved as there are places, so worker [k] is always in place [k]. *)
From Verif Require Import Base ListFacts MapDatasets Iter IterSpec IterLaw Interleave InterleaveSpec Interleave_proofs.

Local Ltac spl := repeat match goal with |- _ /\ _ => split end.

(** ** Free places and places with a finished dataset *)
Definition finished {A} (t : option (nat * list A)) : Prop := t = None \/ exists j, t = Some (j, []).
Lemma finished_lead {A} (view : list (option (nat * list A))) : Forall finished view ->
  (exists k j r, view = List.repeat None k ++ Some (j, []) :: r) \/ view = List.repeat None (length view).
Proof.
  induction 1 as [|t view Ht F IH]; [now right|]. destruct Ht as [->|(j & ->)].
  - destruct IH as [(k & j & r & ->)|IH]; [left; exists (S k), j, r; reflexivity|right]. cbn. now f_equal.
  - left. exists 0%nat, j, view. reflexivity.
Qed.
Lemma robin_finished {A} (view : list (option (nat * list A))) : Forall finished view -> view <> [] -> robin view [] [].
Proof.
  remember (length (held view)) as m eqn:Em. revert view Em. induction m as [m IHm] using lt_wf_ind. intros view Em F Hne.
  destruct (finished_lead view F) as [(k & j & r & Ev)|Ev].
  - clear Hne. revert view r Em F Ev. induction k as [|k IHk]; intros view r Em F Ev; cbn [List.repeat app] in Ev; subst view.
    + apply robin_end. apply (IHm (length (held (r ++ [None])))); [| reflexivity| |now destruct r].
      * subst m. rewrite held_app, held_some, held_none, held_nil, app_nil_r. cbn. lia.
      * inversion F; subst. apply Forall_app. split; [assumption|]. constructor; [now left|constructor].
    + apply robin_skip; [exists (j, []); apply in_or_app; right; now left|].
      apply (IHk _ (r ++ [None])); [| |now rewrite <- app_assoc].
      * subst m. rewrite held_none, !held_app, !held_some, !held_none, held_nil. now rewrite app_nil_r.
      * inversion F; subst. apply Forall_app. split; [assumption|]. constructor; [now left|constructor].
  - destruct view as [|t view]; [easy|]. rewrite Ev. cbn [length List.repeat]. apply robin_stop. intros s Hs. now apply repeat_spec in Hs.
Qed.
Definition refilled {A} (a b : option (nat * list A)) : Prop := b = a \/ (a = None /\ exists j, b = Some (j, [])).
Lemma robin_refill {A} (view view' : list (option (nat * list A))) out : robin view [] out -> Forall2 refilled view view' -> robin view' [] out.
Proof.
  remember [] as pend eqn:Ep. intros H. revert view'.
  induction H as [j x l slots pend out H IH|j slots pend out H IH|d slots pend out H IH|slots out Hex H IH|slots Hno]; intros view' HF; subst; try discriminate;
    inversion HF as [|a b la lb Hab Hrest]; subst.
  - destruct Hab as [->|(? & _)]; [|discriminate]. apply robin_take, IH; [easy|]. apply Forall2_app; [easy|]. constructor; [now left|constructor].
  - destruct Hab as [->|(? & _)]; [|discriminate]. apply robin_end, IH; [easy|]. apply Forall2_app; [easy|]. constructor; [now left|constructor].
  - assert (IH' := IH eq_refl (lb ++ [None]) ltac:(apply Forall2_app; [easy|]; constructor; [now left|constructor])).
    destruct Hab as [->|(_ & j & ->)]; [|now apply robin_end]. apply robin_skip; [|exact IH'].
    destruct Hex as (d & Hd). exists d. clear - Hrest Hd. induction Hrest as [|a b la lb Hab Hrest IH]; [easy|].
    destruct Hd as [->|Hd]; [left|right; now apply IH]. now destruct Hab as [->|(? & _)].
  - apply robin_finished; [|easy]. constructor.
    + destruct Hab as [->|(_ & j & ->)]; [now left|right; now exists j].
    + clear - Hrest Hno. induction Hrest as [|a b la lb Hab Hrest IH]; constructor.
      * pose proof (Hno a (or_introl eq_refl)) as Ha. destruct Hab as [->|(_ & j & ->)]; [now left|right; now exists j].
      * apply IH. intros s Hs. apply Hno. now right.
Qed.

Section Own.
Context {S C A : Type}.
Variable ds : list (hiter S C A).
Variable keep : bool.
Variable truthy : C -> bool.
Variable ls : list (list A).
Variables (json : bool) (N0 : nat).
Variable rep : nat -> S -> nat -> Prop.
Variable crep : nat -> C -> nat -> Prop.
Notation lst d := (nth d ls []).
Notation n := (length ds).
Hypothesis F : family ds truthy ls true json N0 rep crep.
Hypothesis Hn : (0 < n)%nat.

Lemma cl_all : cl ds n = n.
Proof. unfold cl. lia. Qed.

(** Worker [k] is in place [k]; a free place that has been used holds the state at the end. *)
Record own0 (s : il S C) : Prop := {
  o_its : length (il_its s) = n;
  o_exh : length (il_exh s) = n;
  o_idx : il_idx s = seq 0 n;
  o_nd : (il_nd s <= n)%nat;
  o_active : forall k d it, nth_error (il_its s) k = Some (Some (d, it)) -> d = k /\ (k < il_nd s)%nat /\ exists p, rep k it p;
  o_ended : forall k, nth_error (il_its s) k = Some None -> (k < il_nd s)%nat ->
    exists c, nth_error (il_exh s) k = Some (Some c) /\ crep k c (length (lst k));
  o_blank : forall k, (il_nd s <= k < n)%nat -> nth_error (il_its s) k = Some None /\ nth_error (il_exh s) k = Some None;
}.
Record own (s : il S C) : Prop := {
  o_own0 : own0 s;
  o_pf : il_pf s = il_nd s;
  o_fut : il_fut s = [];
  o_nclt : (il_nc s < n)%nat;
  o_nc : (il_nd s < n)%nat -> il_nc s = il_nd s \/ (Datatypes.S (il_nc s) = il_nd s /\ exists x, nth_error (il_its s) (il_nc s) = Some (Some x));
}.

Lemma own_init : own (il_init ds n).
Proof.
  unfold il_init. rewrite cl_all. split; [split| | | |]; cbn [il_its il_exh il_idx il_nd il_pf il_fut il_nc]; rewrite ?repeat_length; try easy; try lia.
  - intros k d it H. apply nth_error_In, repeat_spec in H. discriminate.
  - intros k Hk. rewrite !nth_error_repeat by lia. easy.
Qed.

Lemma ds_nth d : (d < n)%nat -> exists h, nth_error ds d = Some h.
Proof. intros H. destruct (nth_error ds d) as [h|] eqn:E; [now exists h|]. apply nth_error_None in E. lia. Qed.

Lemma own_loop fuel0 : (N0 <= fuel0)%nat -> forall fuel s, own s ->
  own (snd (il_loop ds n keep fuel0 fuel s)) /\ (il_nd s <= il_nd (snd (il_loop ds n keep fuel0 fuel s)))%nat.
Proof.
  intros Hf. induction fuel as [|fuel IH]; intros s O; [now split|]. cbn [il_loop].
  pose proof O as OO. destruct O as [[O1 O2 O3 O4 O5 O6 O7] P1 P2 P3 P4].
  destruct (nth_error (il_its s) (il_nc s)) as [[[d it]|]|] eqn:E.
  - destruct (O5 _ _ _ E) as (-> & Hlt & p & Hr). destruct (ds_nth (il_nc s) P3) as (h & Eh). rewrite Eh.
    assert (Hsucc : (succ_cycle ds n (il_nc s) < n)%nat) by (unfold succ_cycle; rewrite cl_all; apply Nat.mod_upper_bound; lia).
    assert (Hnc : (il_nd s < n)%nat -> succ_cycle ds n (il_nc s) = il_nd s).
    { intros H. destruct (P4 H) as [H'|(H' & _)]; [lia|]. unfold succ_cycle. rewrite cl_all, Nat.add_1_r, H'. now apply Nat.mod_small. }
    destruct (nth_error (lst (il_nc s)) p) as [a|] eqn:Ea.
    + destruct (f_next _ _ _ _ _ _ _ _ F (il_nc s) h fuel0 it p a Eh Hf Hr Ea) as (it' & -> & Hr'). cbn [snd il_nd]. split; [|lia].
      split; [split| | | |]; cbn [il_its il_exh il_idx il_nd il_pf il_fut il_nc]; rewrite ?update_nth_length; try easy.
      * intros k d it0. rewrite nth_upd by lia. destruct (Nat.eqb_spec k (il_nc s)) as [->|]; [|apply O5]. injection 1 as <- <-. eauto.
      * intros k. rewrite nth_upd by lia. destruct (Nat.eqb_spec k (il_nc s)) as [->|]; [easy|apply O6].
      * intros k Hk. rewrite nth_upd by lia. destruct (Nat.eqb_spec k (il_nc s)) as [->|]; [lia|now apply O7].
      * intros H. left. now apply Hnc.
    + assert (p = length (lst (il_nc s))) as ->. { apply nth_error_None in Ea. pose proof (f_le _ _ _ _ _ _ _ _ F _ _ _ Hr). lia. }
      destruct (f_stop _ _ _ _ _ _ _ _ F (il_nc s) h fuel0 it Eh Hf Hr) as (it' & -> & Hr').
      match goal with |- own (snd (il_loop _ _ _ _ _ ?x)) /\ _ => assert (O' : own x); [|now destruct (IH x O')] end.
      split; [split| | | |]; cbn [il_its il_exh il_idx il_nd il_pf il_fut il_nc]; rewrite ?update_nth_length; try easy.
      * intros k d it0. rewrite nth_upd by lia. destruct (Nat.eqb_spec k (il_nc s)) as [->|]; [easy|apply O5].
      * intros k. rewrite !nth_upd by lia. destruct (Nat.eqb_spec k (il_nc s)) as [->|]; [|apply O6]. intros _ _. eexists. split; [reflexivity|].
        now apply (f_get _ _ _ _ _ _ _ _ F).
      * intros k Hk. rewrite !nth_upd by lia. destruct (Nat.eqb_spec k (il_nc s)) as [->|]; [lia|now apply O7].
      * intros H. left. now apply Hnc.
  - destruct (Nat.ltb_spec (il_nd s) n) as [Hnd|Hnd].
    + assert (Hnc : il_nc s = il_nd s). { destruct (P4 Hnd) as [H|(_ & x & H)]; [easy|congruence]. }
      unfold make_next. rewrite P1. destruct (ds_nth (il_nd s) Hnd) as (h & Eh). rewrite Eh, P2. cbn [fd_get find].
      match goal with |- own (snd (il_loop _ _ _ _ _ ?x)) /\ _ => assert (O' : own x); [|destruct (IH x O') as (G1 & G2); split; [exact G1|]; cbn [il_nd] in G2; lia] end.
      split; [split| | | |]; cbn [il_its il_exh il_idx il_nd il_pf il_fut il_nc]; rewrite ?update_nth_length; try easy; try lia.
      * rewrite O3, Hnc. apply nth_error_ext. intros k. rewrite nth_upd by (rewrite seq_length; lia). destruct (Nat.eqb_spec k (il_nd s)) as [->|]; [|easy].
        rewrite (nth_error_nth' _ 0%nat) by (rewrite seq_length; lia). now rewrite seq_nth by lia.
      * intros k d it0. rewrite nth_upd by lia. destruct (Nat.eqb_spec k (il_nc s)) as [->|Hk].
        -- injection 1 as <- <-. spl; try lia. exists 0%nat. rewrite Hnc. now apply (f_init _ _ _ _ _ _ _ _ F).
        -- intros H. destruct (O5 _ _ _ H) as (-> & H2 & H3). spl; try easy. lia.
      * intros k. rewrite !nth_upd by lia. destruct (Nat.eqb_spec k (il_nc s)) as [->|]; [easy|]. intros H Hk. apply O6; [exact H|lia].
      * intros k Hk. rewrite !nth_upd by lia. destruct (Nat.eqb_spec k (il_nc s)) as [->|]; [lia|]. apply O7. lia.
      * intros H. right. split; [lia|]. rewrite nth_upd by lia. rewrite Nat.eqb_refl. eauto.
    + destruct (existsb is_some (il_its s)); [|split; [exact OO|reflexivity]].
      match goal with |- own (snd (il_loop _ _ _ _ _ ?x)) /\ _ => assert (O' : own x); [|now destruct (IH x O')] end.
      split; [split| | | |]; cbn [il_its il_exh il_idx il_nd il_pf il_fut il_nc]; try easy; try lia.
      unfold succ_cycle. rewrite cl_all. apply Nat.mod_upper_bound. lia.
  - split; [exact OO|reflexivity].
Qed.

(** get_state fills the places; what it reports is [entry] of the iterator afterwards. *)
Lemma own_get_slots : forall m i s, own0 s -> (i + m = n)%nat -> (i <= il_nd s)%nat -> (il_started s = true -> il_pf s = il_nd s) ->
  exists cs s', il_get_slots ds i m s = Ok (cs, s') /\ own0 s' /\ il_nd s' = n /\ il_nc s' = il_nc s /\ il_fut s' = il_fut s /\ il_started s' = il_started s /\
    (il_started s' = true -> il_pf s' = il_nd s') /\ (m = 0%nat \/ il_nd s = n -> s' = s) /\ il_exh s' = il_exh s /\
    (forall k, (k < i)%nat -> nth_error (il_its s') k = nth_error (il_its s) k) /\
    length cs = m /\ (forall k, (k < m)%nat -> nth_error cs k = Some (entry ds s' (i + k))).
Proof.
  induction m as [|m IH]; intros i s O Hi Hnd Hpf.
  - exists [], s. cbn [il_get_slots]. spl; try easy. pose proof (o_nd _ O). lia.
  - cbn [il_get_slots]. assert (Hin : (i < n)%nat) by lia.
    assert (Hgo : forall s1 c0, own0 s1 -> (i + 1 <= il_nd s1)%nat -> (il_started s1 = true -> il_pf s1 = il_nd s1) ->
        il_nc s1 = il_nc s -> il_fut s1 = il_fut s -> il_started s1 = il_started s -> il_exh s1 = il_exh s ->
        (forall k, (k < i)%nat -> nth_error (il_its s1) k = nth_error (il_its s) k) -> (il_nd s = n -> s1 = s) ->
        (forall s', nth_error (il_its s') i = nth_error (il_its s1) i -> il_exh s' = il_exh s1 -> entry ds s' i = c0) ->
        exists cs s', (let! (cs, s') := il_get_slots ds (i + 1) m s1 in Ok (c0 :: cs, s')) = Ok (cs, s') /\
          own0 s' /\ il_nd s' = n /\ il_nc s' = il_nc s /\ il_fut s' = il_fut s /\ il_started s' = il_started s /\
          (il_started s' = true -> il_pf s' = il_nd s') /\ (Datatypes.S m = 0%nat \/ il_nd s = n -> s' = s) /\ il_exh s' = il_exh s /\
          (forall k, (k < i)%nat -> nth_error (il_its s') k = nth_error (il_its s) k) /\
          length cs = Datatypes.S m /\ (forall k, (k < Datatypes.S m)%nat -> nth_error cs k = Some (entry ds s' (i + k)))).
    { intros s1 c0 O1 H1 H2 H3 H4 H5 H6 H7 H8 H9.
      destruct (IH (i + 1)%nat s1 O1 ltac:(lia) H1 H2) as (cs & s' & E & B1 & B2 & B3 & B4 & B5 & B6 & B7 & B8 & B9 & B10 & B11).
      rewrite E. cbn [bind]. exists (c0 :: cs), s'. spl; try easy; try congruence.
      - intros [?|Hn']; [easy|]. assert (s1 = s) as -> by auto. apply B7. now right.
      - intros k Hk. rewrite B9 by lia. now apply H7.
      - cbn. lia.
      - intros [|k] Hk; cbn [nth_error].
        + rewrite Nat.add_0_r. f_equal. symmetry. apply H9; [apply B9; lia|exact B8].
        + rewrite B11 by lia. do 2 f_equal. lia. }
    destruct (nth_error (il_its s) i) as [[[d it]|]|] eqn:E.
    + destruct (o_active _ O _ _ _ E) as (-> & Hlt & p & Hr). destruct (ds_nth i Hin) as (h & Eh). rewrite Eh.
      apply Hgo; try easy; try lia. intros s' Hs _. unfold entry. now rewrite Hs, E, Eh.
    + destruct (Nat.lt_ge_cases i (il_nd s)) as [Hlt|Hge].
      * destruct (o_ended _ O _ E Hlt) as (c & Ec & Hc). rewrite Ec. apply Hgo; try easy; try lia.
        intros s' Hs He. unfold entry. now rewrite Hs, E, He, Ec.
      * assert (Hnd' : il_nd s = i) by lia. destruct (o_blank _ O i ltac:(lia)) as (_ & Ex). rewrite Ex.
        destruct (Nat.leb_spec n (il_nd s)) as [?|_]; [lia|].
        assert (Hm : (if il_started s then make_next ds s else match nth_error ds (il_nd s) with Some h => Some (il_nd s, h_init h) | None => None end)
                     = match nth_error ds i with Some h => Some (i, h_init h) | None => None end).
        { unfold make_next. destruct (il_started s); [rewrite Hpf by easy|]; now rewrite Hnd'. }
        rewrite Hm. destruct (ds_nth i Hin) as (h & Eh). rewrite Eh, Eh. rewrite Hnd' in Hgo |- *.
        destruct O as [O1 O2 O3 O4 O5 O6 O7].
        apply Hgo; cbn [il_its il_exh il_idx il_nd il_pf il_fut il_nc il_started]; try easy; try lia.
        -- split; cbn [il_its il_exh il_idx il_nd]; rewrite ?update_nth_length; try easy; try lia.
           ++ rewrite O3. apply nth_error_ext. intros k. rewrite nth_upd by (rewrite seq_length; lia). destruct (Nat.eqb_spec k i) as [->|]; [|easy].
              rewrite (nth_error_nth' _ 0%nat) by (rewrite seq_length; lia). now rewrite seq_nth by lia.
           ++ intros k d it0. rewrite nth_upd by lia. destruct (Nat.eqb_spec k i) as [->|Hk].
              ** injection 1 as <- <-. spl; try lia. exists 0%nat. now apply (f_init _ _ _ _ _ _ _ _ F).
              ** intros H. destruct (O5 _ _ _ H) as (-> & H2 & H3). spl; try easy. lia.
           ++ intros k. rewrite nth_upd by lia. destruct (Nat.eqb_spec k i) as [->|]; [easy|]. intros H Hk. apply O6; [exact H|lia].
           ++ intros k Hk. rewrite nth_upd by lia. destruct (Nat.eqb_spec k i) as [->|]; [lia|]. apply O7. lia.
        -- intros Hs. rewrite Hs. now rewrite (Hpf Hs), Hnd'.
        -- intros k Hk. rewrite nth_upd by lia. destruct (Nat.eqb_spec k i) as [->|]; [lia|easy].
        -- intros s' Hs _. unfold entry. rewrite Hs, nth_upd, Nat.eqb_refl, Eh by lia. reflexivity.
    + apply nth_error_None in E. rewrite (o_its _ O) in E. lia.
Qed.
Lemma own_get s c s' : own s -> il_get ds n s = Ok (c, s') -> own s' /\ il_nd s' = n /\ (il_nd s = n -> s' = s) /\ ck_nc c = il_nc s' /\
  length (ck_states c) = n /\ forall k, (k < n)%nat -> nth_error (ck_states c) k = Some (entry ds s' k).
Proof.
  intros [O P1 P2 P3 P4]. unfold il_get. rewrite cl_all.
  destruct (own_get_slots n 0 s O eq_refl ltac:(lia) ltac:(easy)) as (cs & s2 & E & B1 & B2 & B3 & B4 & B5 & B6 & B7 & B8 & B9 & B10 & B11).
  rewrite E. cbn [bind].
  assert (Hs : (if il_started s2 then s2 else mkIl (il_nc s2) (il_nd s2) (il_idx s2) (il_its s2) (il_exh s2) (il_kept s2) (il_fut s2) (il_nd s2) false) =
    mkIl (il_nc s2) (il_nd s2) (il_idx s2) (il_its s2) (il_exh s2) (il_kept s2) (il_fut s2) (il_nd s2) (il_started s2)).
  { destruct (il_started s2) eqn:Es; [|reflexivity]. rewrite <- (B6 eq_refl) at 2. destruct s2. cbn in *. now subst. }
  rewrite Hs. intros H. injection H as <- <-. cbn [ck_nc ck_states il_nc il_nd]. split; [|spl; try easy].
  - split; cbn [il_nc il_nd il_pf il_fut]; try easy; try congruence; try lia.
    destruct B1. split; assumption.
  - intros Hn'. pose proof (B7 (or_intror Hn')) as ->. rewrite <- P1 at 2. destruct s. reflexivity.
Qed.

(** A checkpoint as the DataLoader makes it: no exhausted marks. *)
Definition plain (nc : nat) (states : list (option C)) : ilck C := mkCk nc n (seq 0 n) states (List.repeat false n) [].
Lemma plain_gives s slots pend out states : own s -> il_nd s = n -> reads ds n ls rep crep s slots pend -> robin (rotate (il_nc s) slots) pend out ->
  length states = n -> (forall k, (k < n)%nat -> nth_error states k = Some (entry ds s k)) -> ck_to_give ds n ls crep (plain (il_nc s) states) out.
Proof.
  intros [[O1 O2 O3 O4 O5 O6 O7] P1 P2 P3 P4] Hnd R Hr Hlen Hst.
  assert (Hpend : pend = []).
  { pose proof (r_pend _ _ _ _ _ _ _ _ R) as Hp. apply Forall2_length in Hp. rewrite Hnd, Nat.sub_diag in Hp. now destruct pend. }
  subst pend. pose proof (r_slots _ _ _ _ _ _ _ _ R) as Hs. apply Forall2_nth in Hs. destruct Hs as (Hsl & Hs).
  set (slots' := map (fun k => match nth_error slots k with Some (Some t) => Some t | _ => Some (k, []) end) (seq 0 n)).
  assert (Hslots : length slots = n) by congruence.
  exists slots', []. split.
  - split; unfold plain; cbn [ck_nc ck_nd ck_idx ck_states ck_exh ck_fut]; rewrite ?cl_all, ?seq_length, ?repeat_length; try easy; try lia.
    + unfold slots'. now rewrite map_length, seq_length.
    + intros k d st e t Hd Hst' He Ht.
      assert (Hk : (k < n)%nat). { rewrite <- (seq_length n 0). apply nth_error_Some. now rewrite Hd. }
      rewrite (nth_error_nth' _ 0%nat) in Hd by (rewrite seq_length; lia). rewrite seq_nth in Hd by lia. cbn in Hd. injection Hd as <-.
      rewrite nth_error_repeat in He by exact Hk. injection He as <-. rewrite (Hst k Hk) in Hst'. injection Hst' as <-.
      unfold slots' in Ht. rewrite nth_error_map_seq in Ht by exact Hk. cbn [Nat.add] in Ht. injection Ht as <-.
      destruct (ds_nth k Hk) as (h & Eh). unfold entR, entry.
      destruct (nth_error (il_its s) k) as [[[d it]|]|] eqn:E; [| |apply nth_error_None in E; lia].
      * destruct (O5 _ _ _ E) as (-> & _ & _). rewrite Eh.
        destruct (nth_error slots k) as [t|] eqn:Et; [|apply nth_error_None in Et; lia]. specialize (Hs k _ _ E Et).
        destruct t as [[d l]|]; [|easy]. destruct Hs as (-> & h' & p & _ & Hr' & ->). exists h, p. spl; try easy.
        -- now apply (f_get _ _ _ _ _ _ _ _ F).
        -- now apply (f_le _ _ _ _ _ _ _ _ F) in Hr'.
      * destruct (O6 _ E ltac:(lia)) as (c & -> & Hc). destruct (nth_error slots k) as [t|] eqn:Et; [|apply nth_error_None in Et; lia]. specialize (Hs k _ _ E Et).
        destruct t as [[d l]|]; [easy|]. exists h, (length (lst k)). spl; try easy. now rewrite skipn_all.
    + unfold pendR. rewrite Nat.sub_diag. constructor.
    + split; [apply seq_NoDup|]. intros d Hd. apply in_seq in Hd. lia.
  - unfold plain. cbn [ck_nc]. apply (robin_refill _ _ _ Hr). unfold rotate.
    assert (HF : Forall2 refilled slots slots').
    { apply Forall2_nth. unfold slots'. rewrite map_length, seq_length. split; [easy|]. intros k a b Ha Hb.
      assert (Hk : (k < n)%nat) by (rewrite <- Hslots; apply nth_error_Some; now rewrite Ha).
      rewrite nth_error_map_seq in Hb by exact Hk. cbn [Nat.add] in Hb. rewrite Ha in Hb. injection Hb as <-. destruct a; [now left|right; eauto]. }
    clear - HF. generalize (il_nc s). intros m. apply Forall2_app.
    + revert m. induction HF; intros [|m]; cbn; auto.
    + revert m. induction HF; intros [|m]; cbn; auto.
Qed.

(** Restoring such a checkpoint, whatever was done before with the iterator. *)
Lemma plain_set fuel s slots0 pend0 nc states out : (N0 <= fuel)%nat -> own s -> reads ds n ls rep crep s slots0 pend0 ->
  ck_to_give ds n ls crep (plain nc states) out ->
  exists s', il_set ds keep truthy fuel s (plain nc states) = Ok s' /\ own s' /\ il_nd s' = n /\ to_give ds n ls rep crep s' out.
Proof.
  intros Hf O R Hc.
  assert (T : settable ds n true rep 0 s) by (eapply reads_settable; [exact R|reflexivity]).
  destruct (set_ok _ _ keep _ _ _ _ _ _ _ F fuel s _ _ Hf T Hc) as (s' & E & Hg & Hfu & _). exists s'. split; [exact E|].
  assert (Hs' : own s' /\ il_nd s' = n); [|tauto].
  unfold il_set in E. destruct Hc as (slots & pend & K & Hr).
  assert (Hlen : length (combine (seq 0 n) states) = n).
  { rewrite combine_length, seq_length. pose proof (c_states _ _ _ _ _ _ _ K) as H. cbn [plain ck_states] in H. rewrite cl_all in H. lia. }
  destruct (set_slots_ok ds n keep truthy ls true json N0 rep crep F (List.repeat false n) slots fuel Hf) with (entries := combine (seq 0 n) states) (k := 0%nat) (s := s) as (s1 & E1 & SF).
  - rewrite repeat_length. now rewrite cl_all.
  - apply K.
  - now rewrite cl_all, Hlen.
  - exact T.
  - intros i d st e t H1 H2 H3. cbn [Nat.add] in *.
    assert (H1' : nth_error (seq 0 n) i = Some d /\ nth_error states i = Some st).
    { revert H1. clear. revert i. generalize (seq 0 n). intros q. revert states. induction q as [|a q IH]; intros [|b l'] [|i]; cbn; try easy; [now injection 1 as -> ->|apply IH]. }
    apply (c_slots _ _ _ _ _ _ _ K i d st e t); try easy.
  - unfold plain in E. cbn [ck_idx ck_states ck_exh ck_nc ck_nd ck_fut] in E. rewrite E1 in E. cbn [bind] in E. injection E as <-.
    destruct SF as [B1 B2 B3 B4 B5 B6 B7 B8 B9]. rewrite cl_all in *.
    assert (Hact : forall k, (k < n)%nat -> exists it p, nth_error (il_its s1) k = Some (Some (k, it)) /\ rep k it p).
    { intros k Hk. pose proof (B9 k false ltac:(lia) (nth_error_repeat _ _ _ Hk)) as H. destruct H as (([d it] & Ex) & _).
      destruct (B8 k d it ltac:(lia) Ex) as (st & Hst). rewrite Nat.sub_0_r in Hst.
      assert (d = k). { apply nth_error_nth with (d := (0%nat, None)) in Hst. rewrite combine_nth in Hst.
        - rewrite seq_nth in Hst by exact Hk. now injection Hst.
        - rewrite combine_length, seq_length in Hlen. pose proof (c_states _ _ _ _ _ _ _ K) as H'. cbn [plain ck_states] in H'. rewrite cl_all in H'. now rewrite seq_length. }
      subst d. destruct (nth_error slots k) as [t|] eqn:Et; [|apply nth_error_None in Et; rewrite (c_len _ _ _ _ _ _ _ K), cl_all in Et; lia].
      specialize (B7 k _ _ ltac:(lia) Ex Et). destruct t as [[d l]|]; [|easy]. destruct B7 as (-> & h & p & _ & Hr' & _). exists it, p. easy. }
    assert (Hin : forall k x, nth_error (il_its s1) k = Some x -> (k < n)%nat) by (intros k x Hk; rewrite <- B2; apply nth_error_Some; now rewrite Hk).
    split; [|reflexivity]. split; [split| | | |]; cbn [il_its il_exh il_idx il_nd il_pf il_fut il_nc]; try easy; try lia.
    + intros k d it Hk. pose proof (Hin _ _ Hk) as Hlt. destruct (Hact k Hlt) as (it' & p & Ex & Hr'). rewrite Ex in Hk. injection Hk as <- <-. eauto.
    + intros k Hk Hlt. destruct (Hact k Hlt) as (it' & p & Ex & Hr'). congruence.
    + pose proof (c_nc _ _ _ _ _ _ _ K) as H. cbn [plain ck_nc] in H. now rewrite cl_all in H.
Qed.
End Own.

(** ** The workers of a DataLoader *)
From Verif Require Import Spec Sharding Samplers IterMany_proofs IterBasic_proofs IterBatch_proofs IterSource_proofs MapSlice_proofs Scheduled Scheduled_proofs
  Multiprocess MultiprocessSpec Multiprocess_proofs DataLoader DataLoaderSpec.

Definition zok {A} (z : zit A) : Prop := forall c, z_of z (z_to z c) = c.
Lemma choose_z {A} (zs : list (zit A)) ls : Forall2 (fun z l => zok z /\ lawful (z_it z) l true true true) zs ls ->
  exists N (rep : forall d, ist (z_it (nth_z zs d)) -> nat -> Prop) (crep : forall d, ick (z_it (nth_z zs d)) -> nat -> Prop),
    forall d, (d < length zs)%nat -> Law (z_it (nth_z zs d)) (nth d ls []) true true true N (rep d) (crep d) /\ zok (nth_z zs d).
Proof.
  induction 1 as [|p l ps ls (Hz & N & rep & crep & L) _ (M & reps & creps & IH)].
  - exists 0%nat, (fun d _ _ => True), (fun d _ _ => True). intros d Hd. cbn in Hd. lia.
  - exists (Nat.max N M), (fun d => match d return ist (z_it (nth_z (p :: ps) d)) -> nat -> Prop with O => rep | S d' => reps d' end),
      (fun d => match d return ick (z_it (nth_z (p :: ps) d)) -> nat -> Prop with O => crep | S d' => creps d' end).
    intros [|d] Hd.
    + cbn. split; [|exact Hz]. apply (Law_mono _ _ _ _ _ N); [lia|exact L].
    + cbn in *. destruct (IH d ltac:(lia)) as (IH1 & IH2). split; [|exact IH2]. apply (Law_mono _ _ _ _ _ M); [lia|]. exact IH1.
Qed.
Lemma nth_embed_z {A} (zs : list (zit A)) d h : nth_error (embed_z zs) d = Some h -> h = embed_z1 zs d /\ (d < length zs)%nat.
Proof.
  intros H. assert (Hd : (d < length zs)%nat).
  { assert (d < length (embed_z zs))%nat by (apply nth_error_Some; now rewrite H). unfold embed_z in *. rewrite map_length, seq_length in *. easy. }
  split; [|exact Hd]. unfold embed_z in H. rewrite nth_error_map_seq in H by exact Hd. now injection H as <-.
Qed.
Lemma embed_z_length {A} (zs : list (zit A)) : length (embed_z zs) = length zs.
Proof. unfold embed_z. now rewrite map_length, seq_length. Qed.
Lemma embed_z_family {A} (zs : list (zit A)) ls : Forall2 (fun z l => zok z /\ lawful (z_it z) l true true true) zs ls ->
  exists N rep crep, family (embed_z zs) (fun _ => true) ls true true N rep crep.
Proof.
  intros HL. pose proof (Forall2_length _ _ _ HL) as Hlen. destruct (choose_z _ _ HL) as (N & rep & crep & LZ).
  assert (L : forall d, (d < length zs)%nat -> Law (z_it (nth_z zs d)) (nth d ls []) true true true N (rep d) (crep d)) by (intros d Hd; apply (LZ d Hd)).
  assert (Z : forall d, (d < length zs)%nat -> zok (nth_z zs d)) by (intros d Hd; apply (LZ d Hd)). clear LZ.
  exists N, (fun d s p => (d < length zs)%nat /\ exists x, s = existT _ d x /\ rep d x p),
    (fun d c p => (d < length zs)%nat /\ exists x, c = z_to (nth_z zs d) x /\ crep d x p).
  assert (Hlive : forall d p, (p <= length (nth d ls []))%nat -> live (nth d ls []) true p) by (intros; unfold live; lia).
  split.
  - rewrite embed_z_length. congruence.
  - intros d h H. apply nth_embed_z in H as [-> Hd]. split; [exact Hd|]. eexists. split; [reflexivity|]. apply (law_init (L d Hd)).
  - intros d s p (Hd & x & -> & Hr). apply (law_le (L d Hd) _ _ Hr).
  - intros d h fuel s p a H Hf (Hd & x & -> & Hr) Ha. apply nth_embed_z in H as [-> _].
    destruct (law_next (L d Hd) fuel x p a Hf Hr Ha) as (x' & E & Hr'). exists (existT _ d x'). cbn [embed_z1 h_next].
    rewrite (cast_same (X := fun e => ist (z_it (nth_z zs e)))), E.
    split; [reflexivity|]. split; [exact Hd|]. exists x'. split; [reflexivity|]. now rewrite Nat.add_1_r.
  - intros d h fuel s H Hf (Hd & x & -> & Hr). apply nth_embed_z in H as [-> _].
    destruct (law_stop (L d Hd) fuel x Hf eq_refl Hr) as (x' & E & Hr'). exists (existT _ d x'). cbn [embed_z1 h_next].
    rewrite (cast_same (X := fun e => ist (z_it (nth_z zs e)))), E.
    split; [reflexivity|]. split; [exact Hd|]. now exists x'.
  - intros d h s p H (Hd & x & -> & Hr). apply nth_embed_z in H as [-> _]. cbn [embed_z1 h_get].
    rewrite (cast_same (X := fun e => ist (z_it (nth_z zs e)))). split; [exact Hd|].
    eexists. split; [reflexivity|]. now apply (law_get (L d Hd)).
  - intros d h c p H J Hc. apply nth_embed_z in H as [-> _]. exact Hc.
  - intros d h fuel c p H Hf (Hd & x & -> & Hc) Hp. apply nth_embed_z in H as [-> _]. cbn [embed_z1 h_set h_init].
    rewrite (cast_same (X := fun e => ist (z_it (nth_z zs e)))), (Z d Hd).
    destruct (law_fresh (L d Hd) fuel x p Hf Hc (Hlive _ _ Hp)) as (x' & -> & Hr'). cbn [bind]. eexists. split; [reflexivity|].
    split; [exact Hd|]. now exists x'.
  - intros d h fuel s q c p H Hf U (_ & y & -> & Hr) (Hd & x & -> & Hc) Hp. apply nth_embed_z in H as [-> _]. cbn [embed_z1 h_set].
    rewrite (cast_same (X := fun e => ist (z_it (nth_z zs e)))), (Z d Hd).
    destruct (law_used (L d Hd) fuel y q x p Hf U Hr Hc (Hlive _ _ Hp)) as (x' & -> & Hr'). cbn [bind]. eexists. split; [reflexivity|].
    split; [exact Hd|]. now exists x'.
  - discriminate.
  - reflexivity.
Qed.

(** ** The state *)
Lemma sequence_map_ok {X Y} (f : X -> res Y) (g : X -> Y) l : (forall x, In x l -> f x = Ok (g x)) -> sequence (map f l) = Ok (map g l).
Proof.
  induction l as [|x l IH]; intros H; [reflexivity|]. cbn [map sequence]. rewrite H by now left. cbn [bind]. rewrite IH by (intros; apply H; now right). reflexivity.
Qed.
Lemma all_some {X} (l : list (option X)) m : length l = m -> (forall k, (k < m)%nat -> exists x, nth_error l k = Some (Some x)) -> exists l', l = map Some l' /\ length l' = m.
Proof.
  revert m. induction l as [|o l IH]; intros m Hm H.
  - exists []. cbn in *. easy.
  - destruct m as [|m]; [easy|]. destruct (IH m) as (l' & -> & Hl'); [now injection Hm|intros k Hk; apply (H (S k)); lia|].
    destruct (H 0%nat ltac:(lia)) as (x & Hx). cbn in Hx. injection Hx as ->. exists (x :: l'). cbn. now rewrite Hl'.
Qed.

(** From the states of the workers to the loader's state and back. *)
Lemma state_round_trip o W sr dr nc ns : (0 < W)%nat -> length ns = W -> 1 <= shard_count o -> (nc < W)%nat ->
  of_loader_state o (to_loader_state o (Z.of_nat W) sr dr (Z.of_nat nc) ns) = Ok (mkCk nc W (seq 0 W) (map Some ns) (List.repeat false W) []).
Proof.
  intros HW Hl HS Hnc. unfold of_loader_state, to_loader_state. cbn [last_seen last_worker state_workers]. rewrite Nat2Z.id, Hl.
  set (S0 := shard_count o) in *. set (G := Z.of_nat W * S0). assert (HG : 0 < G) by (unfold G; nia).
  assert (E : sequence (map (fun i => match nth_error (map (fun '(i, n) => shard_index o - G + Z.of_nat i * S0 + n * G) (combine (seq 0 W) ns)) i with
      | Some n => Ok (Some ((n + G - shard_index o - Z.of_nat i * S0) / G)) | None => Raise KeyError end) (seq 0 W)) = Ok (map Some ns)).
  { transitivity (Ok (map (fun i => Some (nth i ns 0)) (seq 0 W))).
    - apply sequence_map_ok. intros i Hi. apply in_seq in Hi. rewrite nth_error_map.
      assert (En : nth_error (combine (seq 0 W) ns) i = Some (i, nth i ns 0)).
      { rewrite (nth_error_nth' _ (0%nat, 0)) by (rewrite combine_length, seq_length; lia). rewrite combine_nth by (rewrite seq_length; lia). now rewrite seq_nth by lia. }
      rewrite En. cbn [option_map]. do 2 f_equal.
      replace (shard_index o - G + Z.of_nat i * S0 + nth i ns 0 * G + G - shard_index o - Z.of_nat i * S0) with (nth i ns 0 * G) by ring.
      now rewrite Z.div_mul by lia.
    - f_equal. rewrite <- (map_map (fun i => nth i ns 0) Some). f_equal. rewrite <- Hl. clear. apply nth_error_ext. intros k.
      rewrite nth_error_map. destruct (Nat.lt_ge_cases k (length ns)) as [H|H].
      + rewrite (nth_error_nth' _ 0%nat) by (rewrite seq_length; lia). rewrite seq_nth by lia. cbn. now rewrite (nth_error_nth' ns 0) by lia.
      + rewrite !(proj2 (nth_error_None _ _)); [easy|lia|rewrite seq_length; lia]. }
  fold S0. fold G. rewrite E. cbn [bind]. repeat f_equal.
  rewrite Z.sub_add, Z.mod_small by lia. now rewrite Nat2Z.id.
Qed.
Lemma valid_state W sr dr o nc ns : validate_state W sr dr (to_loader_state o (Z.of_nat W) sr dr nc ns) = Ok tt.
Proof. unfold validate_state, to_loader_state. cbn [state_workers state_sampler state_source]. now rewrite Z.eqb_refl, !String.eqb_refl. Qed.

(** All histories of a loader with workers. *)
Lemma loaderW_history {A} o sr dr W (zs : list (zit A)) ls out : (0 < W)%nat -> length zs = W -> 1 <= shard_count o ->
  Forall2 (fun z l => zok z /\ lawful (z_it z) l true true true) zs ls -> interleaved W ls out ->
  exists N, forall fuel ops, (N <= fuel)%nat ->
    loader_run (loaderW o sr dr W zs) fuel ops (ld_init (loaderW o sr dr W zs)) [] = cursor (map snd out) ops 0 [].
Proof.
  intros HW Hlen HS HL Ho. destruct (embed_z_family zs ls HL) as (N & rep & crep & F).
  assert (En : length (embed_z zs) = W) by now rewrite embed_z_length.
  assert (Hcl : cl (embed_z zs) W = W) by (unfold cl; lia).
  set (gives := to_give (embed_z zs) W ls rep crep). set (ckgives := ck_to_give (embed_z zs) W ls crep).
  set (mine := fun s => own (embed_z zs) ls rep crep s /\ ((il_nd s < W)%nat -> marks (embed_z zs) W s)).
  assert (Hinit : gives (il_init (embed_z zs) W) out) by (apply (init_gives _ _ _ _ _ _ _ _ _ F); rewrite Hcl; assumption).
  assert (Hmine : mine (il_init (embed_z zs) W)).
  { split; [|intros _; apply init_marks; lia]. rewrite <- En. apply own_init. lia. }
  exists (enough (embed_z zs) W N). intros fuel ops Hf.
  assert (HfN : (N <= fuel)%nat) by (unfold enough in Hf; lia).
  (* a loader state [c] and what it has still to give *)
  set (lgives := fun c out => validate_state W sr dr c = Ok tt /\ exists nc states, of_loader_state o c = Ok (plain (embed_z zs) nc states) /\ ckgives (plain (embed_z zs) nc states) out).
  assert (H : forall ops s p cks qs, gives s (skipn p out) -> mine s -> (p <= length out)%nat ->
    Forall2 (fun c q => lgives c (skipn q out) /\ (q <= length out)%nat) cks qs ->
    loader_run (loaderW o sr dr W zs) fuel ops s cks = cursor (map snd out) ops p qs);
    [|apply (H ops _ 0%nat [] []); [exact Hinit|exact Hmine|lia|constructor]].
  clear ops. induction ops as [|op ops IH]; intros s p cks qs Hg (Hown & Hmk) Hp Hcks; [reflexivity|].
  destruct op as [| |k j|]; cbn [loader_run cursor].
  - destruct (next_ok _ _ false _ _ _ _ _ _ _ F fuel s _ Hf Hg) as (s' & E & Hg' & _ & Hm').
    assert (Hmine' : mine s').
    { destruct (own_loop _ false _ _ _ _ _ _ F ltac:(lia) fuel HfN fuel (mkIl (il_nc s) (il_nd s) (il_idx s) (il_its s) (il_exh s) (il_kept s) (il_fut s) (il_pf s) true)) as (O1 & O2).
      - destruct Hown as [[]]. split; [split|..]; assumption.
      - unfold il_next in E. rewrite En in O1, O2. rewrite E in O1, O2. cbn [snd il_nd] in O1, O2. split; [exact O1|]. intros Hlt. apply Hm', Hmk. lia. }
    cbn [loaderW ld_next]. rewrite E, nth_error_map. assert (Hh : hd_error (skipn p out) = nth_error out p) by (clear; revert out; induction p; intros [|? ?]; cbn; auto). rewrite <- Hh.
    assert (Ht : tl (skipn p out) = skipn (S p) out) by (clear; revert out; induction p as [|p IHp]; intros [|? ?]; cbn; auto; apply IHp). rewrite Ht in Hg'.
    destruct (skipn p out) as [|[jj x] r] eqn:Er; cbn [hd_error option_map snd].
    + f_equal. assert (Hp' : p = length out). { assert (length (skipn p out) = 0%nat) by now rewrite Er. rewrite skipn_length in *. lia. }
      subst p. apply IH; auto. rewrite skipn_all2 in Hg' by lia. now rewrite skipn_all.
    + f_equal. assert (p < length out)%nat. { assert (length (skipn p out) <> 0%nat) by now rewrite Er. rewrite skipn_length in *. lia. }
      apply IH; auto.
  - cbn [loaderW ld_get].
    assert (Hget : exists c s', il_get (embed_z zs) W s = Ok (c, s') /\ gives s' (skipn p out) /\ mine s' /\ (ck_nc c < W)%nat /\
        length (ck_states c) = W /\ (forall k, (k < W)%nat -> exists st, nth_error (ck_states c) k = Some (Some st)) /\
        ckgives (plain (embed_z zs) (ck_nc c) (ck_states c)) (skipn p out)).
    { assert (Hg0 : exists c s', il_get (embed_z zs) W s = Ok (c, s') /\ gives s' (skipn p out)).
      { destruct (Nat.lt_ge_cases (il_nd s) W) as [Hlt|Hge].
        - destruct (get_ok _ _ _ _ _ _ _ _ _ F s _ (Hmk Hlt) Hg) as (c & s' & E & Hg' & _). eauto.
        - destruct (own_get_slots _ _ _ _ _ _ _ F ltac:(lia) W 0 s (o_own0 _ _ _ _ _ Hown) ltac:(lia) ltac:(lia) ltac:(intros _; apply Hown))
            as (cs & s2 & E & B1 & B2 & B3 & B4 & B5 & B6 & B7 & _).
          rewrite B7 in E by (right; pose proof (o_nd _ _ _ _ _ (o_own0 _ _ _ _ _ Hown)); lia).
          assert (E' : exists c s', il_get (embed_z zs) W s = Ok (c, s')) by (unfold il_get; rewrite Hcl, E; cbn [bind]; eauto).
          destruct E' as (c & s' & E'). exists c, s'. split; [exact E'|]. rewrite <- En in E'.
          destruct (own_get _ _ _ _ _ _ _ F ltac:(lia) s c s' Hown E') as (_ & _ & Hsame & _). rewrite Hsame by (pose proof (o_nd _ _ _ _ _ (o_own0 _ _ _ _ _ Hown)); lia). exact Hg. }
      destruct Hg0 as (c & s' & E & Hg'). exists c, s'. assert (E' := E). rewrite <- En in E'.
      destruct (own_get _ _ _ _ _ _ _ F ltac:(lia) s c s' Hown E') as (O' & Hnd & _ & Hnc & Hlc & Hst).
      assert (Hck : ckgives (plain (embed_z zs) (ck_nc c) (ck_states c)) (skipn p out)).
      { rewrite Hnc. destruct Hg' as (slots & pend & R & Hr). unfold ckgives. rewrite <- En in R |- *.
        eapply plain_gives; try eassumption; lia. }
      spl; try assumption; try lia.
      - split; [exact O'|]. lia.
      - rewrite Hnc, <- En. apply O'.
      - intros k Hk. destruct Hck as (slots & pend & K & _). unfold ckgives in K. cbn in *.
        destruct (nth_error (ck_states c) k) as [st|] eqn:Est; [|apply nth_error_None in Est; lia].
        destruct (nth_error slots k) as [t|] eqn:Et; [|apply nth_error_None in Et; pose proof (c_len _ _ _ _ _ _ _ K); lia].
        pose proof (c_slots _ _ _ _ _ _ _ K k k st false t) as Hent. cbn [plain ck_idx ck_states ck_exh] in Hent.
        rewrite En in Hent. specialize (Hent ltac:(rewrite (nth_error_nth' _ 0%nat) by (rewrite seq_length; lia); now rewrite seq_nth by lia) Est ltac:(now apply nth_error_repeat) Et).
        unfold entR in Hent. destruct st as [c0|]; [now exists c0|easy]. }
    destruct Hget as (c & s' & E & Hg' & Hm' & Hnc & Hlc & Hsome & Hck). rewrite E. cbn [bind].
    destruct (all_some _ _ Hlc Hsome) as (ns & Ens & Hns). rewrite Ens.
    rewrite map_map, (sequence_map_ok _ (fun n => n)) by reflexivity. cbn [bind]. rewrite map_id. f_equal. apply IH; auto.
    apply Forall2_app; [exact Hcks|]. constructor; [|constructor]. split; [|exact Hp]. split; [apply valid_state|].
    exists (ck_nc c), (ck_states c). rewrite state_round_trip by assumption. unfold plain. rewrite En, Ens. split; [reflexivity|].
    unfold plain in Hck. now rewrite En, Ens in Hck.
  - pose proof (Forall2_nth_None _ _ _ k Hcks) as Hnn.
    destruct (nth_error qs k) as [q|] eqn:Eq.
    + destruct (nth_error cks k) as [c|] eqn:Ec; [|now assert (Some q = None) by now apply Hnn].
      destruct (Forall2_nth_error _ _ _ _ _ _ Hcks Ec Eq) as ((Hv & nc & states & Ec' & Hc) & Hq).
      cbn [loaderW ld_set]. rewrite Hv. cbn [bind]. rewrite Ec'. cbn [bind].
      destruct Hg as (slots & pend & R & _). 
      assert (Hset : exists s', il_set (embed_z zs) false (fun _ => true) fuel s (plain (embed_z zs) nc states) = Ok s' /\ own (embed_z zs) ls rep crep s' /\ il_nd s' = W /\ gives s' (skipn q out)).
      { unfold gives, ckgives in *. rewrite <- En in R, Hc |- *. eapply plain_set; try eassumption. lia. }
      destruct Hset as (s' & E & O' & Hnd & Hg'). rewrite E. f_equal. apply IH; auto. split; [exact O'|]. lia.
    + destruct (nth_error cks k) as [c|] eqn:Ec; [now assert (Some c = None) by now apply Hnn|]. f_equal. apply IH; auto. now split.
  - f_equal. apply (IH _ 0%nat); auto. lia.
Qed.

(** Without workers. *)
Lemma loader0_history {A} o sr dr (z : zit A) l : 1 <= shard_count o -> zok z -> lawful (z_it z) l true true true ->
  exists N, forall fuel ops, (N <= fuel)%nat ->
    loader_run (loader0 o sr dr z) fuel ops (ld_init (loader0 o sr dr z)) [] = cursor l ops 0 [].
Proof.
  intros HS Hz (N & rep & crep & L). exists N. intros fuel ops Hf.
  assert (H : forall ops s p cks qs, rep s p ->
    Forall2 (fun c q => validate_state 0 sr dr c = Ok tt /\ (q <= length l)%nat /\ exists x, of_loader_state0 o c = Ok (z_to z x) /\ crep x q) cks qs ->
    loader_run (loader0 o sr dr z) fuel ops s cks = cursor l ops p qs); [|apply (H ops _ 0%nat [] []); [apply (law_init L)|constructor]].
  clear ops. induction ops as [|op ops IH]; intros s p cks qs Hr Hcks; [reflexivity|].
  pose proof (law_le L _ _ Hr) as Hp.
  destruct op as [| |k j|]; cbn [loader_run cursor].
  - cbn [loader0 ld_next]. destruct (nth_error l p) as [a|] eqn:Ea.
    + destruct (law_next L fuel s p a Hf Hr Ea) as (s' & E & Hr'). rewrite E. f_equal. now apply IH.
    + assert (p = length l) as -> by (apply nth_error_None in Ea; lia). destruct (law_stop L fuel s Hf eq_refl Hr) as (s' & E & Hr'). rewrite E. f_equal. now apply IH.
  - cbn [loader0 ld_get]. f_equal. apply IH; [exact Hr|]. apply Forall2_app; [exact Hcks|]. constructor; [|constructor]. split; [apply (valid_state 0)|]. split; [exact Hp|].
    exists (get_state (z_it z) s). split; [|now apply (law_get L)]. unfold of_loader_state0, to_loader_state. cbn [last_seen length seq combine map nth_error].
    f_equal. replace (shard_index o - Z.of_nat 1 * shard_count o + Z.of_nat 0 * shard_count o + z_to z (get_state (z_it z) s) * (Z.of_nat 1 * shard_count o) + shard_count o - shard_index o)
      with (z_to z (get_state (z_it z) s) * shard_count o) by lia. apply Z.div_mul. lia.
  - pose proof (Forall2_nth_None _ _ _ k Hcks) as Hnn.
    destruct (nth_error qs k) as [q|] eqn:Eq.
    + destruct (nth_error cks k) as [c|] eqn:Ec; [|now assert (Some q = None) by now apply Hnn].
      destruct (Forall2_nth_error _ _ _ _ _ _ Hcks Ec Eq) as (Hv & Hq & x & Ex & Hx).
      cbn [loader0 ld_set]. rewrite Hv. cbn [bind]. rewrite Ex. cbn [bind]. rewrite Hz.
      destruct (law_used L fuel s p x q Hf eq_refl Hr Hx) as (s' & E & Hr'); [unfold live; lia|]. rewrite E. f_equal. now apply IH.
    + destruct (nth_error cks k) as [c|] eqn:Ec; [now assert (Some c = None) by now apply Hnn|]. f_equal. now apply IH.
  - f_equal. apply (IH _ 0%nat); auto. apply (law_init L).
Qed.

(** ** The pipeline of a worker *)
Lemma bind_ok' {X Y} (r : res X) (f : X -> res Y) y : bind r f = Ok y -> exists x, r = Ok x /\ f x = Ok y.
Proof. destruct r; try discriminate. cbn. eauto. Qed.
Lemma sequence_ok {X} (l : list (res X)) l' : sequence l = Ok l' -> Forall2 (fun r x => r = Ok x) l l'.
Proof.
  revert l'. induction l as [|r l IH]; intros l'; cbn [sequence].
  - injection 1 as <-. constructor.
  - intros H. apply bind_ok' in H as (x & -> & H). apply bind_ok' in H as (rest & E & H). injection H as <-. constructor; auto.
Qed.
Lemma Forall2_map_l {X Y Z} (f : X -> Y) (R : Y -> Z -> Prop) l l' : Forall2 R (map f l) l' <-> Forall2 (fun x => R (f x)) l l'.
Proof.
  split.
  - revert l'. induction l as [|x l IH]; intros l' H; inversion H; subst; constructor; auto.
  - induction 1; cbn; constructor; auto.
Qed.
Lemma Forall2_map_r {X Y Z} (f : X -> Y) (R : Z -> Y -> Prop) l l' : Forall2 R l' (map f l) <-> Forall2 (fun z x => R z (f x)) l' l.
Proof.
  split.
  - revert l'. induction l as [|x l IH]; intros l' H; inversion H; subst; constructor; auto.
  - induction 1; cbn; constructor; auto.
Qed.
Lemma Forall2_weaken {X Y} (R Q : X -> Y -> Prop) l l' : (forall x y, R x y -> Q x y) -> Forall2 R l l' -> Forall2 Q l l'.
Proof. intros H. induction 1; constructor; auto. Qed.
Lemma chunks_map {X Y} (f : X -> Y) b l : chunks b (map f l) = map (map f) (chunks b l).
Proof.
  unfold chunks. rewrite map_length. generalize (length l). intros m. revert l.
  induction m as [|m IH]; intros l; [reflexivity|]. cbn [chunks_aux]. destruct l as [|x l]; [reflexivity|]. cbn [map].
  change (f x :: map f l) with (map f (x :: l)). rewrite firstn_map, skipn_map, IH. reflexivity.
Qed.
Lemma full_chunks_map {X Y} (f : X -> Y) b l : full_chunks b (map f l) = map (map f) (full_chunks b l).
Proof.
  unfold full_chunks. rewrite chunks_map. induction (chunks b l) as [|c cs IH]; [reflexivity|]. cbn [map filter]. rewrite map_length.
  destruct (Nat.eqb (length c) b); cbn [map]; now rewrite IH.
Qed.

Definition truth (r : res bool) : bool := match r with Ok b => b | _ => false end.
Lemma apply_lawful {G A} pi pc (op : loader_op G A) t l l' z :
  tree_z pi pc t = Ok z -> zok z -> lawful (z_it z) (map Some l) true true true -> load1 op l = Ok l' ->
  exists z', tree_z pi pc (apply_transform op t) = Ok z' /\ zok z' /\ lawful (z_it z') (map Some l') true true true.
Proof.
  intros Ez Hz HL E. destruct op as [f|f|f|n drop fn]; cbn [load1 apply_transform tree_z] in *; rewrite Ez; cbn [bind].
  - eexists. split; [reflexivity|]. split; [exact Hz|]. cbn [z_it]. apply (lawful_map _ _ (map Some l)); [|exact HL].
    apply sequence_ok in E. rewrite Forall2_map_l in E. rewrite Forall2_map_l, Forall2_map_r. eapply Forall2_weaken; [|exact E].
    intros r r' H. cbn [map_element]. apply bind_ok' in H as (d & Ed & H). injection H as <-. cbn. unfold on_map. rewrite Ed. reflexivity.
  - eexists. split; [reflexivity|]. split; [exact Hz|]. cbn [z_it]. apply (lawful_map _ _ (map Some l)); [|exact HL].
    apply sequence_ok in E. rewrite Forall2_map_l in E. rewrite Forall2_map_l, Forall2_map_r. eapply Forall2_weaken; [|exact E].
    intros r r' H. cbn [map_element]. apply bind_ok' in H as (d & Ed & H). injection H as <-. cbn. unfold on_random_map. rewrite Ed. reflexivity.
  - apply bind_ok' in E as (bs & E & Hk). injection Hk as <-. apply sequence_ok in E. rewrite Forall2_map_l in E.
    eexists. split; [reflexivity|]. split; [exact Hz|]. cbn [z_it].
    replace (map Some (map fst (filter snd (combine l bs)))) with (filter (fun r => truth (on_filter f r)) (map Some l)).
    + apply lawful_filter; [|exact HL]. clear - E. induction E as [|r b l bs H E IH]; [constructor|]. cbn [map]. constructor; [|exact IH].
      cbn [on_filter]. now rewrite H.
    + clear - E. induction E as [|r b l bs H E IH]; [reflexivity|]. cbn [map combine filter snd]. cbn [on_filter]. rewrite H. cbn [truth].
      destruct b; cbn [map fst]; now rewrite IH.
  - destruct (n <=? 0) eqn:Hn; [discriminate|]. eexists. split; [reflexivity|]. split; [exact Hz|]. cbn [z_it].
    apply (lawful_batch n drop (on_batch fn) (z_it z) _ (map Some l) (map Some l') true true true); [unfold batch_it; now rewrite Hn| |exact HL].
    cbn [andb]. apply sequence_ok in E. rewrite Forall2_map_l in E.
    assert (Hc : (if negb drop then chunks (Z.to_nat n) (map Some l) else full_chunks (Z.to_nat n) (map Some l)) =
                 map (map Some) ((if drop then full_chunks else chunks) (Z.to_nat n) l)).
    { destruct drop; cbn [negb]; [apply full_chunks_map|apply chunks_map]. }
    rewrite Hc, Forall2_map_l, Forall2_map_r. eapply Forall2_weaken; [|exact E]. intros g r' H. cbn beta.
    unfold on_batch. rewrite map_map, (sequence_map_ok _ (fun r => r)) by reflexivity. cbn [bind]. rewrite map_id.
    apply bind_ok' in H as (d & -> & H). cbn [bind]. destruct (rev g); [discriminate|]. now injection H as <-.
Qed.
Lemma fold_lawful {G A} pi pc (ops : list (loader_op G A)) : forall t l l' z,
  tree_z pi pc t = Ok z -> zok z -> lawful (z_it z) (map Some l) true true true -> load ops l = Ok l' ->
  exists z', tree_z pi pc (fold_left (fun t op => apply_transform op t) ops t) = Ok z' /\ zok z' /\ lawful (z_it z') (map Some l') true true true.
Proof.
  induction ops as [|op ops IH]; intros t l l' z Ez Hz HL E; cbn [load fold_left] in *.
  - injection E as <-. eauto.
  - apply bind_ok' in E as (l1 & E1 & E). destruct (apply_lawful pi pc op t l l1 z Ez Hz HL E1) as (z1 & Ez1 & Hz1 & HL1). eapply IH; eassumption.
Qed.
Lemma slice_fold {G A} i W (ops : list (loader_op G A)) : forall t,
  slice_tree i W (fold_left (fun t op => apply_transform op t) ops t) = let! t' := slice_tree i W t in Ok (fold_left (fun t op => apply_transform op t) ops t').
Proof.
  induction ops as [|op ops IH]; intros t; cbn [fold_left]; [now destruct (slice_tree i W t)|]. rewrite IH.
  destruct op; cbn [apply_transform slice_tree]; destruct (slice_tree i W t); reflexivity.
Qed.

(** What a worker outputs: what the operations make of its records. *)
Lemma worker_loads {G A} (ds : MapDs (lrec G A)) nt pb ops rs W i l : (i < W)%nat -> 0 <= mlen ds ->
  Forall2 (fun k r => mget ds k = Ok (Some r)) (zrange 0 (Z.to_nat (mlen ds))) rs -> load ops (stride W i rs) = Ok l ->
  exists z, worker_z W i (loader_tree ds nt pb ops) = Ok z /\ zok z /\ lawful (z_it z) (map rec_data l) true true true.
Proof.
  intros Hi Hn Hrs E.
  assert (Hsrc : exists t', (if Nat.eqb W 1 then Ok (TSource ds false nt pb) else slice_tree (Z.of_nat i) (Z.of_nat W) (TSource ds false nt pb)) = Ok t' /\
    exists z, tree_z (Z.of_nat i) (Z.of_nat W) t' = Ok z /\ zok z /\ lawful (z_it z) (map Some (stride W i rs)) true true true).
  { assert (Ho : outcomes (TSource ds false nt pb) (map (fun r => Some (Some r)) rs)).
    { unfold outcomes. cbn [tree_len]. rewrite Forall2_map_r. eapply Forall2_weaken; [|exact Hrs]. intros k r H. cbn [outcome]. rewrite H. reflexivity. }
    destruct (worker_lawful (TSource ds false nt pb) _ W i Hi Hn eq_refl Ho (or_introl eq_refl)) as (p & Ep & Lp).
    assert (Hem : emitted (stride W i (map (fun r => Some (Some r)) rs)) = map Some (stride W i rs)).
    { rewrite <- map_stride. rewrite <- (map_map Some Some). apply kept_all. }
    rewrite Hem in Lp. unfold worker_iter in Ep. apply bind_ok' in Ep as (t' & Et & Ep). exists t'. split; [exact Et|].
    assert (Hshape : exists ds', t' = TSource ds' false nt pb).
    { destruct (Nat.eqb W 1); [injection Et as <-; eauto|]. cbn [slice_tree] in Et. apply bind_ok' in Et as (ds' & _ & Et). injection Et as <-. eauto. }
    destruct Hshape as (ds' & ->). cbn [tree_iter] in Ep. injection Ep as <-. cbn [tree_z]. eexists. split; [reflexivity|]. split; [intros c; reflexivity|exact Lp]. }
  destruct Hsrc as (t' & Et & z & Ez & Hz & Lz).
  destruct (fold_lawful _ _ ops t' _ l z Ez Hz Lz E) as (z1 & Ez1 & Hz1 & Lz1).
  assert (Hw : (if Nat.eqb W 1 then Ok (loader_tree ds nt pb ops) else slice_tree (Z.of_nat i) (Z.of_nat W) (loader_tree ds nt pb ops)) =
    Ok (TMap (fun r => Ok (rec_data r)) (fold_left (fun t op => apply_transform op t) ops t'))).
  { unfold loader_tree. destruct (Nat.eqb W 1); [injection Et as <-; reflexivity|]. cbn [slice_tree]. rewrite slice_fold, Et. reflexivity. }
  unfold worker_z. rewrite Hw. cbn [bind tree_z]. rewrite Ez1. cbn [bind]. eexists. split; [reflexivity|]. split; [exact Hz1|]. cbn [z_it].
  apply (lawful_map _ _ (map Some l)); [|exact Lz1]. rewrite Forall2_map_l, Forall2_map_r. clear. induction l; constructor; auto.
Qed.
Lemma shards_load {G A} (ds : MapDs (lrec G A)) nt pb ops rs W bs r ls : (1 <= bs)%nat -> 0 <= mlen ds ->
  Forall2 (fun k r => mget ds k = Ok (Some r)) (zrange 0 (Z.to_nat (mlen ds))) rs ->
  Forall2 (fun i l => load ops (stride W i rs) = Ok l) (seq 0 W) ls ->
  exists zs, shards_z W bs r (loader_tree ds nt pb ops) = Ok zs /\ length zs = W /\
    Forall2 (fun z l => zok z /\ lawful (z_it z) (map rec_data l) true true true) zs ls.
Proof.
  intros Hb Hn Hrs Hls. unfold shards_z.
  assert (H : exists zs, sequence (map (fun i => worker_z W i (loader_tree ds nt pb ops)) (seq 0 W)) = Ok zs /\ length zs = W /\
    Forall2 (fun z l => zok z /\ lawful (z_it z) (map rec_data l) true true true) zs ls).
  { assert (Hlt : forall i, In i (seq 0 W) -> (i < W)%nat) by (intros i H; apply in_seq in H; lia).
    assert (Hq : length (seq 0 W) = W) by apply seq_length.
    cut (exists zs, sequence (map (fun i => worker_z W i (loader_tree ds nt pb ops)) (seq 0 W)) = Ok zs /\ length zs = length (seq 0 W) /\
      Forall2 (fun z l => zok z /\ lawful (z_it z) (map rec_data l) true true true) zs ls); [now rewrite Hq|]. clear Hq.
    revert Hlt Hls. generalize (seq 0 W). intros q Hlt Hls. induction Hls as [|i l q ls H Hls IH].
    - exists []. cbn. now spl.
    - destruct IH as (zs & E & El & F); [intros; apply Hlt; now right|].
      destruct (worker_loads ds nt pb ops rs W i l (Hlt i (or_introl eq_refl)) Hn Hrs H) as (z & Ez & Hz & Lz).
      exists (z :: zs). cbn [map sequence]. rewrite Ez. cbn [bind]. rewrite E. spl; [easy|cbn; lia|now constructor]. }
  destruct H as (zs & -> & El & F). cbn [bind]. eexists. split; [reflexivity|]. split; [rewrite map_length, combine_length, seq_length; lia|].
  clear Hls Hrs. revert El. generalize 0%nat. revert W. induction F as [|z l zs ls (Hz & Lz) F IH]; intros W k El.
  - cbn in El. subst W. constructor.
  - cbn in El. subst W. cbn [length seq combine map]. constructor.
    + split; [exact Hz|]. cbn [z_it fst snd]. apply thread_prefetch_lawful; [easy|]. now apply process_prefetch_lawful.
    + now apply IH.
Qed.

Lemma records_ds {G A} (philox : Z -> G) (source : MapDs A) s o rs : records philox source s o rs ->
  Forall2 (fun k r => mget (record_ds philox source s o) k = Ok (Some r)) (zrange 0 (Z.to_nat (mlen (record_ds philox source s o)))) rs.
Proof.
  intros H. unfold records in H. eapply Forall2_weaken; [|exact H]. intros k r (H1 & H2 & key & H3 & H4).
  cbn [record_ds mget sampler_ds]. rewrite H1. cbn [bind]. rewrite H3, H4. cbn [bind option_map fst snd]. do 2 f_equal. rewrite <- H2. now destruct r.
Qed.
