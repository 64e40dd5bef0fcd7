(** window_shuffle on iterators satisfies the law. *)
From Verif Require Import Base IndexShuffle IndexShuffle_proofs MapDatasets Spec Iter IterSpec ListFacts
  IterLaw IterBasic_proofs IterBatch_proofs IterFlat_proofs.

Lemma reshuffle_length {A} gk (c : list A) s o : reshuffle_window gk c s = Ok o -> length o = length c.
Proof.
  unfold reshuffle_window. intros H. apply sequence_Ok_iff in H.
  apply length_map_Ok in H. now rewrite zrange_length in H.
Qed.

Lemma pyindex_nth {A} (l : list A) i : 0 <= i < Z.of_nat (length l) ->
  exists a, pyindex l i = Ok a /\ nth_error l (Z.to_nat i) = Some a.
Proof.
  intros H. unfold pyindex. rewrite (proj2 (Z.ltb_ge i 0)) by lia.
  destruct (nth_error l (Z.to_nat i)) as [a|] eqn:E; [eauto|].
  apply nth_error_None in E. lia.
Qed.

Lemma reshuffle_total {A} gk (c : list A) s : 0 <= s < 2 ^ 32 -> Z.of_nat (length c) <= 2 ^ 63 ->
  exists o, reshuffle_window gk c s = Ok o.
Proof.
  intros Hs Hc. unfold reshuffle_window.
  set (f := fun pos : Z => let! i := index_shuffle gk pos (Z.of_nat (length c) - 1) s 4 in pyindex c i).
  assert (H : forall xs, (forall x, In x xs -> exists y, f x = Ok y) -> exists o, sequence (map f xs) = Ok o).
  { induction xs as [|x xs IH]; intros Hx; [now exists []|].
    destruct (Hx x (or_introl eq_refl)) as (y & Hy). destruct IH as (o & Ho); [intros; apply Hx; now right|].
    exists (y :: o). apply sequence_Ok_iff. cbn. rewrite Hy. f_equal. now apply sequence_Ok_iff. }
  apply H. intros x Hx. apply in_zrange in Hx. unfold f.
  destruct (index_shuffle_valid gk x (Z.of_nat (length c) - 1) s 4) as (y & -> & Hy); try lia.
  cbn. destruct (pyindex_nth c y) as (a & -> & _); [lia|eauto].
Qed.

Lemma map_nth_seq {A} (l : list A) : map (fun i => nth_error l (Z.to_nat i)) (zrange 0 (length l)) = map Some l.
Proof.
  apply nth_error_ext. intros i. rewrite !nth_error_map, nth_error_zrange.
  destruct (Nat.ltb_spec i (length l)) as [H|H]; cbn.
  - rewrite Nat2Z.id. destruct (nth_error l i) eqn:E; [easy|]. apply nth_error_None in E. lia.
  - apply nth_error_None in H. now rewrite H.
Qed.

Lemma reshuffle_permutation {A} gk (c : list A) s o : Z.of_nat (length c) <= 2 ^ 63 ->
  ~ bad_size (Z.of_nat (length c) - 1) -> reshuffle_window gk c s = Ok o -> Permutation o c.
Proof.
  intros Hc Hb H. destruct c as [|x c'] eqn:Ec; [cbn in H; injection H as <-; constructor|].
  rewrite <- Ec in *. assert (Hlen : 1 <= Z.of_nat (length c)) by (subst c; cbn; lia). clear x c' Ec.
  pose proof H as H0. unfold reshuffle_window in H. apply sequence_Ok_iff in H.
  assert (Hs : 0 <= s < 2 ^ 32).
  { destruct (length c) as [|n] eqn:En; [lia|]. destruct o as [|y o]; [apply (f_equal (@length _)) in H; rewrite !map_length, zrange_length in H; easy|].
    rewrite zrange_S in H. cbn [map] in H. injection H as H _.
    unfold index_shuffle in H. destruct ((s <? 0) || (s >=? 2 ^ 32)) eqn:E; [easy|]. lia. }
  pose proof (index_shuffle_permutation gk (Z.of_nat (length c) - 1) s 4 Hs ltac:(lia) eq_refl ltac:(lia) Hb) as HP.
  unfold shuffled in HP. replace (Z.of_nat (length c) - 1 + 1) with (Z.of_nat (length c)) in HP by lia.
  rewrite Nat2Z.id in HP.
  apply Permutation_map with (f := fun r => let! i := r in pyindex c i) in HP. rewrite !map_map in HP.
  rewrite H in HP. cbn [bind] in HP.
  rewrite (map_ext_in _ (fun i => match nth_error c (Z.to_nat i) with Some a => Ok a | None => Raise IndexError end)) in HP.
  2:{ intros i Hi. apply in_zrange in Hi. destruct (pyindex_nth c i) as (a & -> & ->); [lia|easy]. }
  rewrite <- (map_map (fun i => nth_error c (Z.to_nat i)) (fun o => match o with Some a => Ok a | None => Raise IndexError end)) in HP.
  rewrite map_nth_seq, map_map in HP.
  apply Permutation_map_inv in HP as (o' & E & HP). apply map_Ok_inj in E. subst o'. now symmetry.
Qed.

Section Window.
  Context {A} (gk : Z -> Z -> list Z) (ws seed : Z) (p : Iter A) (l : list A) (fin used json : bool).
  Context (N : nat) (rep : ist p -> nat -> Prop) (crep : ick p -> nat -> Prop).
  Context (L : Law p l fin used json N rep crep).
  Context (Hws : 1 <= ws).
  Let b := Z.to_nat ws.
  Let C := if fin then chunks b l else full_chunks b l.
  Context (W : list (list A)).
  (* each window's output: the reshuffled window in popping order *)
  Context (HW : Forall2 (fun wc o => reshuffle_window gk (snd wc) (seed + fst wc) = Ok (rev o))
                        (combine (zrange 0 (length C)) C) W).
  (* reshuffling any window with the seed of the next one does not raise (a restore may do it) *)
  Context (HW' : forall c w, In c C -> 0 <= w <= Z.of_nat (length C) -> exists o, reshuffle_window gk c (seed + w) = Ok o).

  Lemma b_pos : (0 < b)%nat. Proof. unfold b. lia. Qed.

  Lemma C_nth w c : nth_error C w = Some c ->
    c = firstn b (skipn (w * b) l) /\ (1 <= length c <= b)%nat /\ (w * b + length c <= length l)%nat /\
    (length c < b -> fin = true /\ w * b + length c = length l /\ S w = length C)%nat.
  Proof.
    pose proof b_pos as Hb. unfold C. destruct fin.
    - intros H. pose proof (nth_lt _ _ _ H) as Hw. rewrite chunks_nth in H by easy.
      pose proof (chunks_length_nat b l Hb) as HC.
      destruct (Nat.ltb_spec (w * b) (length l)) as [Hlt|]; [|easy]. injection H as <-.
      rewrite firstn_length, skipn_length. split; [easy|]. split; [lia|]. split; [lia|].
      intros Hlb. split; [easy|]. split; [lia|]. nia.
    - intros H. pose proof H as H'. apply full_chunks_nth in H as [Hle ->]; [|easy].
      rewrite firstn_length, skipn_length. split; [easy|]. split; [lia|]. split; lia.
  Qed.

  Lemma C_none w : fin = true -> nth_error C w = None -> (length l <= w * b)%nat.
  Proof.
    intros F H. apply nth_error_None in H. unfold C in H. rewrite F in H.
    pose proof (chunks_length_nat b l b_pos). nia.
  Qed.

  Lemma W_length : length W = length C.
  Proof.
    pose proof (Forall2_length _ _ _ HW) as H. rewrite combine_length, zrange_length in H. lia.
  Qed.

  Lemma C_W w c : nth_error C w = Some c ->
    exists o, nth_error W w = Some o /\ length o = length c /\ reshuffle_window gk c (seed + Z.of_nat w) = Ok (rev o).
  Proof.
    intros H. pose proof (nth_lt _ _ _ H) as Hlt.
    destruct (nth_error W w) as [o|] eqn:Eo; [|apply nth_error_None in Eo; rewrite W_length in Eo; lia].
    exists o. split; [easy|].
    assert (HR : reshuffle_window gk c (seed + Z.of_nat w) = Ok (rev o)).
    { apply (Forall2_nth_error _ _ _ w (Z.of_nat w, c) o HW); [|easy].
      assert (Hz : nth_error (zrange 0 (length C)) w = Some (Z.of_nat w)).
      { rewrite nth_error_zrange. destruct (Nat.ltb_spec w (length C)); [easy|lia]. }
      revert H Hz. generalize (zrange 0 (length C)). generalize C, (Z.of_nat w). clear. intros C' zw Z'. revert Z' w.
      induction C' as [|x C' IH]; intros [|z Z'] [|w] H Hz; cbn in *; try easy.
      - congruence.
      - eapply IH; eassumption. }
    split; [|easy]. apply reshuffle_length in HR. now rewrite rev_length in HR.
  Qed.

  Lemma W_split w o : nth_error W w = Some o ->
    length (concat (firstn (S w) W)) = (length (concat (firstn w W)) + length o)%nat.
  Proof.
    intros H. rewrite (firstn_S_nth _ _ _ H), concat_app, app_length. cbn. now rewrite app_nil_r.
  Qed.

  Lemma W_le w : (length (concat (firstn w W)) <= length (concat W))%nat.
  Proof.
    rewrite <- (firstn_skipn w W) at 2. rewrite concat_app, app_length. lia.
  Qed.

  Lemma W_nth w o i : nth_error W w = Some o -> (i < length o)%nat ->
    nth_error (concat W) (length (concat (firstn w W)) + i) = nth_error o i.
  Proof.
    intros H Hi. rewrite <- (firstn_skipn w W) at 1. rewrite concat_app, nth_error_app2 by lia.
    replace (_ + i - _)%nat with i by lia. rewrite (skipn_nth_cons _ _ _ H). cbn. now rewrite nth_error_app1.
  Qed.

  Lemma read_window_ok fuel : (N <= fuel)%nat -> forall n q s acc, rep s q -> (q + n <= length l)%nat ->
    exists s', read_window p fuel n acc s = Ok (acc ++ firstn n (skipn q l), false, s') /\ rep s' (q + n)%nat.
  Proof.
    intros Hf. induction n as [|n IH]; intros q s acc Hr Hq.
    - exists s. cbn. now rewrite app_nil_r, Nat.add_0_r.
    - cbn [read_window]. destruct (nth_error l q) as [v|] eqn:Ev; [|apply nth_error_None in Ev; lia].
      destruct (law_next L fuel s q v Hf Hr Ev) as (s1 & -> & Hr1).
      destruct (IH (S q) s1 (acc ++ [v]) Hr1 ltac:(lia)) as (s' & -> & Hr').
      exists s'. rewrite (skipn_nth_cons _ _ _ Ev). cbn [firstn]. rewrite <- app_assoc. cbn.
      split; [easy|]. now replace (q + S n)%nat with (S q + n)%nat by lia.
  Qed.

  Lemma read_window_end fuel : (N <= fuel)%nat -> fin = true -> forall n q s acc, rep s q -> (length l < q + n)%nat ->
    exists s', read_window p fuel n acc s = Ok (acc ++ skipn q l, true, s') /\ rep s' (length l).
  Proof.
    intros Hf F. induction n as [|n IH]; intros q s acc Hr Hq; pose proof (law_le L _ _ Hr).
    - lia.
    - cbn [read_window]. destruct (nth_error l q) as [v|] eqn:Ev.
      + destruct (law_next L fuel s q v Hf Hr Ev) as (s1 & -> & Hr1).
        destruct (IH (S q) s1 (acc ++ [v]) Hr1 ltac:(lia)) as (s' & -> & Hr').
        exists s'. rewrite (skipn_nth_cons _ _ _ Ev), <- app_assoc. easy.
      + apply nth_error_None in Ev. replace q with (length l) in * by lia.
        destruct (law_stop L fuel s Hf F Hr) as (s' & -> & Hr'). exists s'.
        now rewrite skipn_all, app_nil_r.
  Qed.

  (* reading a window of C from its start *)
  Lemma read_chunk fuel s w c : (N <= fuel)%nat -> nth_error C w = Some c -> rep s (w * b)%nat ->
    exists s', read_window p fuel b [] s = Ok (c, (length c <? b)%nat, s') /\ rep s' (w * b + length c)%nat.
  Proof.
    intros Hf Hc Hr. destruct (C_nth w c Hc) as (E & Hlen & Hle & Hlast).
    destruct (Nat.ltb_spec (length c) b) as [H|H].
    - destruct (Hlast H) as (F & Hl & _).
      destruct (read_window_end fuel Hf F b (w * b) s [] Hr ltac:(lia)) as (s' & -> & Hr').
      exists s'. rewrite Hl. split; [|easy]. cbn [app]. rewrite E, firstn_all2; [easy|].
      rewrite skipn_length. lia.
    - replace (length c) with b in * by lia.
      destruct (read_window_ok fuel Hf b (w * b) s [] Hr ltac:(lia)) as (s' & -> & Hr').
      exists s'. now rewrite <- E.
  Qed.

  Definition ws_in (s : ws_st (ist p) (ick p) A) (j : nat) : Prop :=
    exists w c o i, nth_error C w = Some c /\ nth_error W w = Some o /\ (i <= length o)%nat /\
      ws_window s = skipn i o /\ ws_pos s = i /\
      ws_index s = (if (i =? length o)%nat then Z.of_nat w + 1 else Z.of_nat w) /\
      crep (ws_start s) (w * b)%nat /\ rep (ws_parent s) (w * b + length c)%nat /\
      ws_exhausted s = (length c <? b)%nat /\ j = (length (concat (firstn w W)) + i)%nat.
  Definition ws_begin (s : ws_st (ist p) (ick p) A) (j : nat) : Prop :=
    ws_window s = [] /\ ws_pos s = 0%nat /\ ws_index s = 0 /\ crep (ws_start s) 0%nat /\
    rep (ws_parent s) 0%nat /\ ws_exhausted s = false /\ j = 0%nat.
  Definition ws_end (s : ws_st (ist p) (ick p) A) (j : nat) : Prop :=
    fin = true /\ ws_window s = [] /\ ws_pos s = 0%nat /\ ws_index s = Z.of_nat (length C) /\
    crep (ws_start s) (length l) /\ rep (ws_parent s) (length l) /\ ws_exhausted s = true /\
    j = length (concat W).
  Definition ws_rep s j := ws_in s j \/ ws_begin s j \/ ws_end s j.
  Definition ws_crep (k : ick p * Z * nat) (j : nat) : Prop :=
    let '(start, index, pos) := k in
    (exists w c o, nth_error C w = Some c /\ nth_error W w = Some o /\ (pos <= length o)%nat /\
       index = (if (pos =? length o)%nat then Z.of_nat w + 1 else Z.of_nat w) /\
       crep start (w * b)%nat /\ j = (length (concat (firstn w W)) + pos)%nat) \/
    (pos = 0%nat /\ j = length (concat W) /\ (fin = true -> crep start (length l) /\ index = Z.of_nat (length C))).

  (* filling and popping the first element of window w *)
  Lemma ws_next_fill fuel s w a : (N <= fuel)%nat -> ws_window s = [] -> ws_exhausted s = false ->
    ws_index s = Z.of_nat w -> rep (ws_parent s) (w * b)%nat ->
    nth_error (concat W) (length (concat (firstn w W))) = Some a ->
    exists s', ws_next gk ws seed p fuel s = (Yield a, s') /\ ws_in s' (S (length (concat (firstn w W)))).
  Proof.
    intros Hf Ew Ex Ei Hr Ha.
    destruct (nth_error C w) as [c|] eqn:Ec.
    2:{ apply nth_error_None in Ec. rewrite firstn_all2 in Ha by (rewrite W_length; lia).
        assert (nth_error (concat W) (length (concat W)) = None) by now apply nth_error_None. congruence. }
    destruct (C_W w c Ec) as (o & Eo & Ho & HR). destruct (C_nth w c Ec) as (_ & Hlen & _ & _).
    unfold ws_next, fill_window. rewrite Ew, Ex. fold b.
    destruct (read_chunk fuel _ w c Hf Ec Hr) as (s1 & -> & Hr1). cbn [bind].
    rewrite Ei, HR. cbn [bind orb]. rewrite rev_involutive. unfold ws_pop. cbn [ws_window].
    replace (length (concat (firstn w W))) with (length (concat (firstn w W)) + 0)%nat in Ha by lia.
    rewrite (W_nth w o 0 Eo ltac:(lia)) in Ha.
    destruct o as [|a' o']; [cbn in Ho; lia|]. cbn in Ha. injection Ha as ->.
    eexists. split; [reflexivity|]. exists w, c, (a :: o'), 1%nat. cbn [ws_window ws_pos ws_index ws_start ws_parent ws_exhausted length].
    split; [easy|]. split; [easy|]. split; [lia|]. split; [easy|]. split; [easy|]. split.
    { destruct o'; cbn; lia. }
    split; [apply (law_get L); exact Hr|]. split; [easy|]. split; [easy|]. lia.
  Qed.

  Lemma ws_next_end fuel s w : (N <= fuel)%nat -> fin = true -> ws_window s = [] -> ws_exhausted s = false ->
    ws_index s = Z.of_nat w -> rep (ws_parent s) (w * b)%nat ->
    length (concat (firstn w W)) = length (concat W) -> (w <= length C)%nat ->
    exists s', ws_next gk ws seed p fuel s = (Stop, s') /\ ws_end s' (length (concat W)).
  Proof.
    intros Hf F Ew Ex Ei Hr Hj Hw.
    destruct (nth_error C w) as [c|] eqn:Ec.
    { destruct (C_W w c Ec) as (o & Eo & Ho & _). destruct (C_nth w c Ec) as (_ & Hlen & _ & _).
      pose proof (W_split w o Eo). pose proof (W_le (S w)). lia. }
    pose proof (C_none w F Ec) as Hl. pose proof (law_le L _ _ Hr) as Hle.
    assert (Hq : (w * b = length l)%nat) by lia. rewrite Hq in Hr.
    unfold ws_next, fill_window. rewrite Ew, Ex. fold b.
    destruct (read_window_end fuel Hf F b (length l) _ [] Hr) as (s1 & -> & Hr1); [pose proof b_pos; lia|].
    cbn [bind app]. rewrite skipn_all.
    change (reshuffle_window gk [] (seed + ws_index s)) with (Ok (@nil A)). cbn [bind rev orb]. unfold ws_pop. cbn [ws_window].
    eexists. split; [reflexivity|]. apply nth_error_None in Ec.
    repeat split; cbn; auto; [|now apply (law_get L)]. rewrite Ei. f_equal. lia.
  Qed.

  Lemma ws_set_ok fuel s k j : (N <= fuel)%nat ->
    (forall c q, crep c q -> live l fin q -> exists s1, set_state p fuel (ws_parent s) c = Ok s1 /\ rep s1 q) ->
    ws_crep k j -> live (concat W) fin j ->
    exists s', ws_set gk ws seed p fuel s k = Ok s' /\ ws_rep s' j.
  Proof.
    intros Hf Hset Hk Hv. destruct k as [[start index] pos]. unfold ws_set, fill_window. fold b.
    destruct Hk as [(w & c & o & Ec & Eo & Hpos & -> & Hc & ->)|(-> & -> & Hfin)].
    - destruct (C_W w c Ec) as (o1 & Eo1 & Ho & HR). assert (o1 = o) by congruence. subst o1.
      destruct (C_nth w c Ec) as (_ & Hlen & Hle & _).
      destruct (Hset start (w * b)%nat Hc) as (s1 & -> & Hr1); [left; lia|]. cbn [bind].
      destruct (read_chunk fuel s1 w c Hf Ec Hr1) as (s2 & -> & Hr2). cbn [bind].
      assert (exists o', reshuffle_window gk c (seed + (if (pos =? length o)%nat then Z.of_nat w + 1 else Z.of_nat w)) = Ok (rev o')
        /\ skipn (Nat.min pos (length o')) o' = skipn pos o) as (o' & -> & Hsk).
      { destruct (Nat.eqb_spec pos (length o)) as [->|Hn].
        - destruct (HW' c (Z.of_nat w + 1)) as (o' & Ho').
          + eapply nth_error_In; eassumption.
          + apply nth_lt in Ec. lia.
          + exists (rev o'). rewrite rev_involutive. split; [easy|].
            apply reshuffle_length in Ho'. rewrite rev_length, Ho', Ho, Nat.min_id.
            rewrite !skipn_all2; rewrite ?rev_length; lia || easy.
        - exists o. split; [easy|]. now rewrite Nat.min_l. }
      cbn [bind orb]. rewrite rev_involutive, Hsk. eexists. split; [reflexivity|]. left.
      exists w, c, o, pos. cbn. repeat split; auto.
    - destruct Hv as [Hv|[_ F]]; [lia|]. destruct (Hfin F) as [Hc ->].
      destruct (Hset start (length l) Hc) as (s1 & -> & Hr1); [now right|]. cbn [bind].
      destruct (read_window_end fuel Hf F b (length l) _ [] Hr1) as (s2 & -> & Hr2); [pose proof b_pos; lia|].
      cbn [bind app]. rewrite skipn_all.
      change (reshuffle_window gk [] (seed + Z.of_nat (length C))) with (Ok (@nil A)). cbn [bind rev orb length Nat.min skipn].
      eexists. split; [reflexivity|]. right. right. repeat split; cbn; auto.
  Qed.

  Lemma W_nil : length C = 0%nat -> length (concat W) = 0%nat.
  Proof.
    intros H. assert (HWn : W = []) by (apply length_zero_iff_nil; rewrite W_length; exact H).
    now rewrite HWn.
  Qed.

  Lemma ws_start_crep : ws_crep (get_state p (init p), 0, 0%nat) 0%nat.
  Proof.
    pose proof (law_get L _ _ (law_init L)) as Hc. cbn.
    destruct (nth_error C 0) as [c|] eqn:Ec.
    - left. destruct (C_W 0 c Ec) as (o & Eo & Ho & _). destruct (C_nth 0 c Ec) as (_ & Hlen & _ & _).
      exists 0%nat, c, o. split; [easy|]. split; [easy|]. split; [lia|]. split; [|easy].
      destruct (length o); [lia|easy].
    - right. pose proof Ec as Ec0. apply nth_error_None in Ec. repeat split.
      + symmetry. apply W_nil. lia.
      + pose proof (C_none 0 H Ec0). replace (length l) with 0%nat by lia. easy.
      + lia.
  Qed.

  Lemma window_law : lawful (window_shuffle_it gk ws seed p) (concat W) fin used json.
  Proof.
    exists N, ws_rep, ws_crep.
    assert (Hend : forall w c o, nth_error C w = Some c -> nth_error W w = Some o -> (length c < b)%nat ->
      (length (concat (firstn w W)) + length o)%nat = length (concat W)).
    { intros w c o Ec Eo Hb. destruct (C_nth w c Ec) as (_ & _ & _ & H). destruct (H Hb) as (_ & _ & HC).
      rewrite <- (W_split w o Eo), firstn_all2; [easy|]. rewrite W_length. lia. }
    split.
    - right. left. repeat split; cbn; auto; [apply (law_get L), (law_init L)|apply (law_init L)].
    - intros s j [(w & c & o & i & Ec & Eo & Hi & _ & _ & _ & _ & _ & _ & ->)|[(_ & _ & _ & _ & _ & _ & ->)|(_ & _ & _ & _ & _ & _ & _ & ->)]]; try lia.
      pose proof (W_split w o Eo). pose proof (W_le (S w)). lia.
    - intros fuel s j a Hf H Ha. cbn [next window_shuffle_it].
      destruct H as [(w & c & o & i & Ec & Eo & Hi & Ewin & Epos & Eidx & Hc & Hr & Eex & ->)|[(Ewin & Epos & Eidx & Hc & Hr & Eex & ->)|(_ & _ & _ & _ & _ & _ & _ & ->)]].
      + destruct (C_nth w c Ec) as (_ & Hlen & _ & Hl).
        destruct (C_W w c Ec) as (o1 & Eo1 & Ho & HR). assert (o1 = o) by congruence. subst o1. clear Eo1.
        destruct (Nat.eq_dec i (length o)) as [->|Hn].
        * rewrite Nat.eqb_refl in Eidx. rewrite skipn_all in Ewin.
          destruct (Nat.ltb_spec (length c) b) as [Hb|Hb].
          { rewrite (Hend w c o Ec Eo Hb) in Ha.
            assert (nth_error (concat W) (length (concat W)) = None) by now apply nth_error_None. congruence. }
          replace (w * b + length c)%nat with (S w * b)%nat in Hr by lia.
          rewrite <- (W_split w o Eo) in Ha |- *.
          destruct (ws_next_fill fuel s (S w) a Hf Ewin Eex ltac:(lia) Hr Ha) as (s' & E & Hin).
          exists s'. split; [easy|now left].
        * rewrite (W_nth w o i Eo ltac:(lia)) in Ha.
          unfold ws_next. rewrite Ewin, (skipn_nth_cons _ _ _ Ha). unfold ws_pop.
          rewrite Ewin, (skipn_nth_cons _ _ _ Ha). eexists. split; [reflexivity|]. left.
          exists w, c, o, (S i). cbn [ws_window ws_pos ws_index ws_start ws_parent ws_exhausted].
          destruct (Nat.eqb_spec i (length o)); [lia|].
          split; [easy|]. split; [easy|]. split; [lia|]. split; [easy|]. split; [lia|]. split.
          { destruct (Nat.eqb_spec (S i) (length o)) as [E|E].
            - rewrite E, skipn_all. lia.
            - destruct (skipn (S i) o) eqn:Es; [|easy]. apply (f_equal (@length _)) in Es.
              rewrite skipn_length in Es. cbn in Es. lia. }
          repeat split; auto; lia.
      + change 0%nat with (length (concat (firstn 0 W))) in Ha |- *.
        destruct (ws_next_fill fuel s 0%nat a Hf Ewin Eex Eidx Hr Ha) as (s' & E & Hin).
        exists s'. split; [easy|now left].
      + assert (nth_error (concat W) (length (concat W)) = None) by now apply nth_error_None. congruence.
    - intros fuel s Hf F H. cbn [next window_shuffle_it]. pose proof H as Hrep.
      destruct H as [(w & c & o & i & Ec & Eo & Hi & Ewin & Epos & Eidx & Hc & Hr & Eex & Hj)|[(Ewin & Epos & Eidx & Hc & Hr & Eex & Hj)|(_ & Ewin & _ & _ & _ & _ & Eex & _)]].
      + destruct (C_nth w c Ec) as (_ & Hlen & _ & Hl).
        destruct (C_W w c Ec) as (o1 & Eo1 & Ho & HR). assert (o1 = o) by congruence. subst o1. clear Eo1.
        pose proof (W_split w o Eo) as HS. pose proof (W_le (S w)) as HSle.
        assert (i = length o) as -> by lia. rewrite Nat.eqb_refl in Eidx. rewrite skipn_all in Ewin.
        destruct (Nat.ltb_spec (length c) b) as [Hb|Hb].
        * unfold ws_next. rewrite Ewin, Eex. eauto.
        * replace (w * b + length c)%nat with (S w * b)%nat in Hr by lia.
          destruct (ws_next_end fuel s (S w) Hf F Ewin Eex ltac:(lia) Hr ltac:(lia)) as (s' & E & He).
          { apply nth_lt in Ec. lia. }
          exists s'. split; [easy|]. right. now right.
      + destruct (ws_next_end fuel s 0%nat Hf F Ewin Eex Eidx Hr) as (s' & E & He); [cbn; lia|lia|].
        exists s'. split; [easy|]. right. now right.
      + unfold ws_next. rewrite Ewin, Eex. eauto.
    - intros s j [(w & c & o & i & Ec & Eo & Hi & Ewin & Epos & Eidx & Hc & Hr & Eex & ->)|[(Ewin & Epos & Eidx & Hc & Hr & Eex & ->)|(F & Ewin & Epos & Eidx & Hc & Hr & Eex & ->)]]; cbn [get_state window_shuffle_it].
      + left. exists w, c, o. rewrite Epos, Eidx. repeat split; auto.
      + rewrite Epos, Eidx. pose proof ws_start_crep as [(w & c & o & H1 & H2 & H3 & H4 & H5 & H6)|(H1 & H2 & H3)].
        * left. exists w, c, o. repeat split; auto.
          destruct (C_nth w c H1) as (_ & Hlen & _). destruct (C_W w c H1) as (o1 & Eo1 & Ho & _).
          assert (o1 = o) by congruence. subst o1. destruct (Nat.eqb_spec 0 (length o)); [lia|].
          replace w with 0%nat by lia. easy.
        * right. split; [easy|]. split; [easy|]. intros F. destruct (H3 F) as [H4 H5].
          split; [|easy]. pose proof (C_none (length C) F ltac:(now apply nth_error_None)) as Hn.
          replace (length C) with 0%nat in Hn by lia. now replace (length l) with 0%nat by lia.
      + right. rewrite Epos, Eidx. auto.
    - intros [[c i] n] j Hj [(w & c' & o & H1 & H2 & H3 & H4 & H5 & H6)|(H1 & H2 & H3)].
      + left. exists w, c', o. repeat split; auto. now apply (law_json L).
      + right. split; [easy|]. split; [easy|]. intros F. destruct (H3 F). split; [now apply (law_json L)|easy].
    - intros fuel s j Hf H Hv. cbn [set_state window_shuffle_it get_state init ws_start ws_index ws_pos].
      assert (exists q, rep (ws_parent s) q) as (q & Hr).
      { destruct H as [(w & c & o & i & _ & _ & _ & _ & _ & _ & _ & Hr & _)|[(_ & _ & _ & _ & Hr & _)|(_ & _ & _ & _ & _ & Hr & _)]]; eauto. }
      (* only the start checkpoint is restored here *)
      assert (Hl0 : live l fin 0).
      { destruct Hv as [Hv|[Hv F]]; [|now apply live_zero]. left.
        destruct (Nat.eq_dec (length l) 0) as [Hl|]; [|lia]. exfalso. apply length_zero_iff_nil in Hl.
        assert (HC : C = []) by (unfold C; rewrite Hl; case fin; reflexivity).
        rewrite W_nil in Hv; [lia|]. now rewrite HC. }
      destruct (law_start L fuel _ q Hf Hr Hl0) as (s1 & E1 & Hr1).
      pose proof ws_start_crep as Hk. pose proof (ws_set_ok fuel (mkWs (ws_parent s) (ws_window s) (ws_index s) (ws_pos s) (ws_start s) (ws_exhausted s)) (get_state p (init p), 0, 0%nat) 0%nat Hf) as G.
      unfold ws_set. rewrite E1. cbn [bind].
      destruct (nth_error C 0) as [c|] eqn:Ec.
      + destruct (C_W 0 c Ec) as (o & Eo & Ho & HR). destruct (C_nth 0 c Ec) as (_ & Hlen & _ & _).
        unfold fill_window. fold b. destruct (read_chunk fuel s1 0 c Hf Ec Hr1) as (s2 & -> & Hr2). cbn [bind].
        cbn [Z.of_nat] in HR. rewrite HR. cbn [bind orb]. rewrite rev_involutive. cbn [Nat.min skipn].
        eexists. split; [reflexivity|]. left. exists 0%nat, c, o, 0%nat. cbn. repeat split; auto; try lia.
        * destruct (length o); [lia|easy].
        * apply (law_get L), (law_init L).
      + assert (F : fin = true).
        { destruct Hv as [Hv|[_ F]]; [|easy]. exfalso. apply nth_error_None in Ec. rewrite W_nil in Hv; lia. }
        pose proof (C_none 0 F Ec) as Hl. assert (Hl' : length l = 0%nat) by lia.
        rewrite <- Hl' in Hr1.
        unfold fill_window. fold b.
        destruct (read_window_end fuel Hf F b (length l) _ [] Hr1) as (s2 & -> & Hr2); [pose proof b_pos; lia|].
        cbn [bind app]. rewrite skipn_all.
        change (reshuffle_window gk [] (seed + 0)) with (Ok (@nil A)). cbn [bind rev orb length Nat.min skipn].
        eexists. split; [reflexivity|]. right. right. apply nth_error_None in Ec.
        repeat split; cbn; auto; [lia|rewrite Hl'; apply (law_get L), (law_init L)|].
        symmetry. apply W_nil. lia.
    - intros fuel c j Hf Hc Hv. apply ws_set_ok; auto.
      intros c' q Hc' Hq. now apply (law_fresh L).
    - intros fuel s q c j Hf U Hr Hc Hv. apply ws_set_ok; auto.
      assert (exists q, rep (ws_parent s) q) as (q0 & Hr0).
      { destruct Hr as [(w & c0 & o & i & _ & _ & _ & _ & _ & _ & _ & Hr & _)|[(_ & _ & _ & _ & Hr & _)|(_ & _ & _ & _ & _ & Hr & _)]]; eauto. }
      intros c' q' Hc' Hq. now apply (law_used L fuel _ q0).
  Qed.
End Window.

Lemma lawful_window {A} gk ws seed (p : Iter A) l (fin used json : bool) :
  let C := if fin then chunks (Z.to_nat ws) l else full_chunks (Z.to_nat ws) l in
  1 <= ws <= 2 ^ 63 -> 0 <= seed -> seed + Z.of_nat (length C) < 2 ^ 32 ->
  lawful p l fin used json ->
  exists W, Forall2 (fun wc o => reshuffle_window gk (snd wc) (seed + fst wc) = Ok (rev o))
                    (combine (zrange 0 (length C)) C) W /\
    lawful (window_shuffle_it gk ws seed p) (concat W) fin used json.
Proof.
  intros C Hws Hs Hn (N & rep & crep & L).
  assert (Hc : forall c, In c C -> Z.of_nat (length c) <= 2 ^ 63).
  { intros c Hc. apply In_nth_error in Hc as (w & Hw).
    assert (Hb : (0 < Z.to_nat ws)%nat) by lia.
    assert (exists t, c = firstn (Z.to_nat ws) t) as (t & ->).
    { unfold C in Hw. destruct fin.
      - rewrite chunks_nth in Hw by easy. destruct (_ <? _)%nat; [|easy]. injection Hw as <-. eauto.
      - apply full_chunks_nth in Hw as [_ ->]; eauto. }
    pose proof (firstn_le_length (Z.to_nat ws) t). lia. }
  assert (Hok : forall c w, In c C -> 0 <= w <= Z.of_nat (length C) -> exists o, reshuffle_window gk c (seed + w) = Ok o).
  { intros c w Hin Hw. apply reshuffle_total; [lia|auto]. }
  assert (HW : exists W, Forall2 (fun wc o => reshuffle_window gk (snd wc) (seed + fst wc) = Ok (rev o))
                    (combine (zrange 0 (length C)) C) W).
  { assert (G : forall wcs : list (Z * list A), (forall wc, In wc wcs -> exists o, reshuffle_window gk (snd wc) (seed + fst wc) = Ok o) ->
      exists W, Forall2 (fun wc o => reshuffle_window gk (snd wc) (seed + fst wc) = Ok (rev o)) wcs W).
    { induction wcs as [|wc wcs IH]; intros H; [exists []; constructor|].
      destruct (H wc (or_introl eq_refl)) as (o & Ho).
      destruct IH as (W & HW); [intros; apply H; now right|].
      exists (rev o :: W). constructor; [now rewrite rev_involutive|easy]. }
    apply G. intros [w c] Hin. apply in_combine_l in Hin as H1. apply in_combine_r in Hin as H2.
    apply in_zrange in H1. cbn. apply Hok; [easy|lia]. }
  destruct HW as (W & HW). exists W. split; [exact HW|].
  eapply window_law; eauto. lia.
Qed.
