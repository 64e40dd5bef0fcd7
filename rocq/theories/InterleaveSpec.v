(** What interleaving means, without iterators: the specification for C34 and C35, and its
    consequences. *)
From Verif Require Import Base ListFacts.

(** Round robin.  The first list are the places ("cycle"), the one to visit next first; a place
    is free or holds a dataset (its number and its remaining elements).  The second list are
    the datasets not started yet.  The third is what comes out, each element with the number
    of its dataset. *)
Inductive robin {A} : list (option (nat * list A)) -> list (nat * list A) -> list (nat * A) -> Prop :=
| robin_take j x l slots pend out :      (* take one element and go to the next place *)
    robin (slots ++ [Some (j, l)]) pend out -> robin (Some (j, x :: l) :: slots) pend ((j, x) :: out)
| robin_end j slots pend out :           (* finished: the place becomes free *)
    robin (slots ++ [None]) pend out -> robin (Some (j, []) :: slots) pend out
| robin_open d slots pend out :          (* a free place gets the next dataset *)
    robin (Some d :: slots) pend out -> robin (None :: slots) (d :: pend) out
| robin_skip slots out :
    (exists d, In (Some d) slots) -> robin (slots ++ [None]) [] out -> robin (None :: slots) [] out
| robin_stop slots :
    (forall s, In s slots -> s = None) -> robin (None :: slots) [] [].

(** All datasets, numbered. *)
Definition numbered {A} (ls : list (list A)) : list (nat * list A) := combine (seq 0 (length ls)) ls.
(** Interleaving [ls] with [cl] places gives [out]. *)
Definition interleaved {A} (cl : nat) (ls : list (list A)) (out : list (nat * A)) : Prop :=
  robin (List.repeat None cl) (numbered ls) out.

(** ** Every element once, in the order of its dataset *)

(** The datasets in the places. *)
Definition held {A} (slots : list (option (nat * list A))) : list (nat * list A) :=
  flat_map (fun s => match s with Some d => [d] | None => [] end) slots.
Definition of_dataset {A} (j : nat) (out : list (nat * A)) : list A := map snd (filter (fun e => Nat.eqb (fst e) j) out).
Definition rest_of {A} (j : nat) (dsets : list (nat * list A)) : list A :=
  flat_map (fun d => if Nat.eqb (fst d) j then snd d else []) dsets.

Lemma held_app {A} (a b : list (option (nat * list A))) : held (a ++ b) = held a ++ held b.
Proof. apply flat_map_app. Qed.
Lemma rest_of_app {A} j (a b : list (nat * list A)) : rest_of j (a ++ b) = rest_of j a ++ rest_of j b.
Proof. apply flat_map_app. Qed.
Lemma held_some {A} d (a : list (option (nat * list A))) : held (Some d :: a) = d :: held a.
Proof. reflexivity. Qed.
Lemma held_none {A} (a : list (option (nat * list A))) : held (None :: a) = held a.
Proof. reflexivity. Qed.
Lemma held_nil {A} : @held A [] = [].
Proof. reflexivity. Qed.
Lemma rest_of_cons {A} j d (a : list (nat * list A)) : rest_of j (d :: a) = (if Nat.eqb (fst d) j then snd d else []) ++ rest_of j a.
Proof. reflexivity. Qed.
Lemma rest_of_nil {A} j : @rest_of A j [] = [].
Proof. reflexivity. Qed.
#[local] Arguments held : simpl never.
#[local] Arguments rest_of : simpl never.
Ltac hs := repeat (rewrite ?held_app, ?held_some, ?held_none, ?held_nil, ?app_nil_r, ?map_app, ?concat_app, ?rest_of_app, ?rest_of_cons, ?rest_of_nil; progress cbn [map fst snd app concat]);
  rewrite ?held_app, ?held_some, ?held_none, ?held_nil, ?app_nil_r, ?map_app, ?concat_app, ?rest_of_app, ?rest_of_cons, ?rest_of_nil.
Ltac hsi H := repeat (rewrite ?held_app, ?held_some, ?held_none, ?held_nil, ?app_nil_r, ?map_app, ?concat_app, ?rest_of_app, ?rest_of_cons, ?rest_of_nil in H; progress cbn [map fst snd app concat] in H);
  rewrite ?held_app, ?held_some, ?held_none, ?held_nil, ?app_nil_r, ?map_app, ?concat_app, ?rest_of_app, ?rest_of_cons, ?rest_of_nil in H.
Ltac inh H := hsi H; hs; rewrite ?in_app_iff in *; cbn [In map fst] in *; intuition auto.
Lemma rest_of_absent {A} j (a : list (nat * list A)) : ~ In j (map fst a) -> rest_of j a = [].
Proof.
  induction a as [|[i l] a IH]; [easy|]. rewrite rest_of_cons. cbn. intros H. destruct (Nat.eqb_spec i j); [exfalso; apply H; now left|].
  apply IH. intros Hi. apply H. now right.
Qed.
Lemma held_empty {A} (slots : list (option (nat * list A))) : (forall s, In s slots -> s = None) -> held slots = [].
Proof. induction slots as [|s slots IH]; intros Hno; [easy|]. rewrite (Hno s) by now left. rewrite held_none. apply IH. intros. apply Hno. now right. Qed.
Lemma nodup_app_inv {X} (a b : list X) : NoDup (a ++ b) -> NoDup a /\ NoDup b /\ forall x, In x a -> In x b -> False.
Proof.
  induction a as [|x a IH]; cbn; intros H; [repeat split; [constructor|exact H|easy]|].
  inversion H as [|? ? Hx Ha]; subst. destruct (IH Ha) as (H1 & H2 & H3). repeat split; [|exact H2|].
  - constructor; [|exact H1]. intros Hi. apply Hx, in_or_app. now left.
  - intros y [->|Hy] Hb; [apply Hx, in_or_app; now right|now apply (H3 y)].
Qed.

(** The numbers of the datasets of a state are different. *)
Definition distinct {A} (slots : list (option (nat * list A))) (pend : list (nat * list A)) : Prop :=
  NoDup (map fst (held slots) ++ map fst pend).
Lemma distinct_take {A} j (x : A) l slots pend : distinct (Some (j, x :: l) :: slots) pend -> distinct (slots ++ [Some (j, l)]) pend.
Proof.
  unfold distinct. hs. intros H. eapply Permutation_NoDup; [|exact H]. rewrite <- app_assoc. cbn. apply Permutation_middle.
Qed.
Lemma distinct_end {A} j slots (pend : list (nat * list A)) : distinct (Some (j, []) :: slots) pend -> distinct (slots ++ [None]) pend.
Proof. unfold distinct. hs. intros H. now inversion H. Qed.
Lemma distinct_open {A} d slots (pend : list (nat * list A)) : distinct (None :: slots) (d :: pend) -> distinct (Some d :: slots) pend.
Proof. unfold distinct. hs. intros H. eapply Permutation_NoDup; [|exact H]. symmetry. apply Permutation_middle. Qed.
Lemma distinct_skip {A} slots (pend : list (nat * list A)) : distinct (None :: slots) pend -> distinct (slots ++ [None]) pend.
Proof. unfold distinct. now hs. Qed.

Lemma robin_of_dataset {A} slots pend (out : list (nat * A)) : robin slots pend out -> distinct slots pend ->
  forall j, of_dataset j out = rest_of j (held slots ++ pend).
Proof.
  induction 1 as [i x l slots pend out H IH|i slots pend out H IH|d slots pend out H IH|slots out Hex H IH|slots Hno]; intros Hd j.
  - pose proof (distinct_take _ _ _ _ _ Hd) as Hd'. specialize (IH Hd' j). unfold of_dataset in *. hs. hsi IH. cbn [filter fst].
    destruct (Nat.eqb_spec i j) as [->|Hne]; cbn [map snd].
    + rewrite IH. unfold distinct in Hd. hsi Hd. inversion Hd as [|? ? Hx _]; subst. rewrite in_app_iff in Hx.
      rewrite !rest_of_absent by tauto. now rewrite !app_nil_r.
    + rewrite IH, ?app_nil_r. reflexivity.
  - pose proof (distinct_end _ _ _ Hd) as Hd'. rewrite (IH Hd'). hs. destruct (Nat.eqb i j); reflexivity.
  - rewrite (IH (distinct_open _ _ _ Hd)). unfold distinct in Hd. hsi Hd. hs.
    destruct (Nat.eqb_spec (fst d) j) as [<-|Hne]; [|reflexivity].
    apply nodup_app_inv in Hd. destruct Hd as (_ & Hd & Hdis). inversion Hd; subst.
    rewrite !rest_of_absent; [now rewrite ?app_nil_r|easy|]. intros Hi. apply (Hdis _ Hi). now left.
  - rewrite (IH (distinct_skip _ _ Hd)). now hs.
  - hs. now rewrite (held_empty _ Hno).
Qed.

Lemma robin_perm {A} slots pend (out : list (nat * A)) : robin slots pend out ->
  Permutation (map snd out) (concat (map snd (held slots ++ pend))).
Proof.
  induction 1 as [i x l slots pend out H IH|i slots pend out H IH|d slots pend out H IH|slots out Hex H IH|slots Hno].
  - cbn [map snd]. hs. hsi IH. rewrite IH. apply perm_skip. cbn [app]. rewrite ?app_nil_r, ?app_assoc. apply Permutation_app_tail, Permutation_app_comm.
  - hs. hsi IH. exact IH.
  - hs. hsi IH. rewrite IH. rewrite !app_assoc. apply Permutation_app_tail, Permutation_app_comm.
  - hs. hsi IH. exact IH.
  - hs. now rewrite (held_empty _ Hno).
Qed.

(** A dataset with nothing left to come is not in the rest of the output. *)
Lemma robin_absent {A} slots pend (out : list (nat * A)) i : robin slots pend out -> distinct slots pend ->
  ~ In i (map fst (held slots ++ pend)) -> ~ In i (map fst out).
Proof.
  intros H Hd Hi Hb. pose proof (robin_of_dataset _ _ _ H Hd i) as Hr. rewrite rest_of_absent in Hr by exact Hi.
  apply in_map_iff in Hb. destruct Hb as ([i' y] & E & Hb). cbn in E. subst i'. unfold of_dataset in Hr.
  assert (Hy : In (i, y) (filter (fun e => Nat.eqb (fst e) i) out)) by (apply filter_In; split; [exact Hb|apply Nat.eqb_refl]).
  destruct (filter _ out); [exact Hy|discriminate].
Qed.

(** ** At most as many datasets as places are being read *)

Lemma robin_open_bound {A} : forall slots pend (out : list (nat * A)), robin slots pend out -> distinct slots pend ->
  forall pre post js, out = pre ++ post -> NoDup js ->
  (forall j, In j js -> (In j (map fst (held slots)) \/ In j (map fst pre)) /\ In j (map fst post)) ->
  (length js <= length slots)%nat.
Proof.
  assert (Hbase : forall slots js, NoDup js -> (forall j, In j js -> In j (map fst (@held A slots))) -> (length js <= length slots)%nat).
  { clear. intros slots js Hnd Hin. assert (Hl : (length (map fst (held slots)) <= length slots)%nat).
    { rewrite map_length. clear. induction slots as [|[d|] slots IH]; [easy| |]; rewrite ?held_some, ?held_none; cbn; lia. }
    pose proof (NoDup_incl_length Hnd Hin). lia. }
  induction 1 as [i x l slots pend out H IH|i slots pend out H IH|d slots pend out H IH|slots out Hex H IH|slots Hno];
    intros Hd pre post js Hout Hnd Hjs.
  - destruct pre as [|e pre].
    + apply Hbase; [easy|]. intros j Hj. apply Hjs in Hj. destruct Hj as [[Hj|[]] _]. exact Hj.
    + cbn in Hout. injection Hout as <- Hout. rewrite <- (app_length _ [Some (i, l)]) || idtac.
      assert (Hlen : length (slots ++ [Some (i, l)]) = length (Some (i, x :: l) :: slots)) by (rewrite app_length; cbn; lia).
      rewrite <- Hlen. apply (IH (distinct_take _ _ _ _ _ Hd) pre post js Hout Hnd). intros j Hj.
      destruct (Hjs j Hj) as (Ha & Hb). split; [|exact Hb]. inh Ha.
  - assert (Hlen : length (slots ++ [None]) = length (Some (i, @nil A) :: slots)) by (rewrite app_length; cbn; lia).
    rewrite <- Hlen. apply (IH (distinct_end _ _ _ Hd) pre post js Hout Hnd). intros j Hj.
    destruct (Hjs j Hj) as (Ha & Hb). split; [|exact Hb]. hsi Ha. hs. cbn [In] in Ha.
    destruct Ha as [[<-|Ha]|Ha]; [|tauto|tauto]. exfalso. subst out. apply (robin_absent _ _ _ i H (distinct_end _ _ _ Hd)).
    + unfold distinct in Hd. hsi Hd. hs. now inversion Hd.
    + rewrite map_app, in_app_iff. now right.
  - change (length (None :: slots)) with (length (Some d :: slots)). apply (IH (distinct_open _ _ _ Hd) pre post js Hout Hnd).
    intros j Hj. destruct (Hjs j Hj) as (Ha & Hb). split; [|exact Hb]. inh Ha.
  - assert (Hlen : length (slots ++ [None]) = length (@None (nat * list A) :: slots)) by (rewrite app_length; cbn; lia).
    rewrite <- Hlen. apply (IH (distinct_skip _ _ Hd) pre post js Hout Hnd). intros j Hj.
    destruct (Hjs j Hj) as (Ha & Hb). split; [|exact Hb]. inh Ha.
  - symmetry in Hout. apply app_eq_nil in Hout. destruct Hout as [-> ->]. destruct js as [|j js]; [cbn; lia|].
    destruct (Hjs j) as [_ []]; now left.
Qed.

(** ** Fairness: a full round between two elements of the same dataset *)

Lemma robin_round {A} j l : forall todo done pend (out : list (nat * A)),
  robin (todo ++ Some (j, l) :: done) pend out -> distinct (todo ++ Some (j, l) :: done) pend ->
  exists mid out' done' pend', out = mid ++ out' /\ robin (Some (j, l) :: done') pend' out' /\
    (length mid <= length todo)%nat /\ NoDup (map fst mid) /\ ~ In j (map fst mid) /\
    (forall i x r, In (Some (i, x :: r)) todo -> In (i, x) mid) /\
    (forall i, In i (map fst mid) -> In i (map fst (held todo ++ pend))).
Proof.
  induction todo as [|s todo IH]; intros done pend out H Hd.
  - exists [], out, done, pend. cbn. repeat split; try easy. constructor.
  - (* visit the first place, which holds dataset [k] with [r] left *)
    assert (Hvisit : forall k (r : list A) pend', robin (Some (k, r) :: todo ++ Some (j, l) :: done) pend' out ->
        distinct (Some (k, r) :: todo ++ Some (j, l) :: done) pend' ->
        (In k (map fst (held (s :: todo) ++ pend)) /\ (forall i, In i (map fst (held todo ++ pend')) -> In i (map fst (held (s :: todo) ++ pend)))) ->
        (forall i x r', s = Some (i, x :: r') -> i = k /\ x :: r' = r) ->
        exists mid out' done' pend'', out = mid ++ out' /\ robin (Some (j, l) :: done') pend'' out' /\
          (length mid <= length (s :: todo))%nat /\ NoDup (map fst mid) /\ ~ In j (map fst mid) /\
          (forall i x r, In (Some (i, x :: r)) (s :: todo) -> In (i, x) mid) /\
          (forall i, In i (map fst mid) -> In i (map fst (held (s :: todo) ++ pend)))).
    { intros k r pend' H1 Hd1 (Hk & Hsub) Hs.
      assert (Hne : k <> j /\ ~ In k (map fst (held todo ++ pend'))).
      { unfold distinct in Hd1. hsi Hd1. inversion Hd1 as [|? ? Hx _]; subst. rewrite ?in_app_iff in Hx. cbn [In] in Hx.
        hs. rewrite !in_app_iff in *. split; [intros ->; apply Hx; tauto|tauto]. }
      inversion H1 as [j' x l' slots0 pend0 out0 H1'|j' slots0 pend0 out0 H1'| | | ]; subst.
      - rewrite <- app_assoc in H1'. cbn in H1'.
        assert (Hd2 : distinct (todo ++ Some (j, l) :: done ++ [Some (k, l')]) pend').
        { apply distinct_take in Hd1. rewrite <- app_assoc in Hd1. exact Hd1. }
        destruct (IH _ _ _ H1' Hd2) as (mid & out' & done' & pend'' & -> & Hr & Hlen & Hnd & Hj & Hact & Hin).
        exists ((k, x) :: mid), out', done', pend''. cbn [app map fst length]. split; [easy|]. split; [exact Hr|]. split; [lia|].
        split; [constructor; [|exact Hnd]; intros Hi; now apply Hin in Hi|].
        split; [intros [->|Hi]; [now apply Hne|now apply Hj]|]. split.
        + intros i y r' [Hi|Hi]; [|right; now apply (Hact i y r')]. destruct (Hs i y r' Hi) as (-> & E). injection E as -> _. now left.
        + intros i [<-|Hi]; [exact Hk|]. apply Hsub. now apply Hin.
      - rewrite <- app_assoc in H1'. cbn in H1'.
        assert (Hd2 : distinct (todo ++ Some (j, l) :: done ++ [None]) pend').
        { apply distinct_end in Hd1. rewrite <- app_assoc in Hd1. exact Hd1. }
        destruct (IH _ _ _ H1' Hd2) as (mid & out' & done' & pend'' & -> & Hr & Hlen & Hnd & Hj & Hact & Hin).
        exists mid, out', done', pend''. split; [easy|]. split; [exact Hr|]. split; [cbn; lia|]. split; [exact Hnd|]. split; [exact Hj|]. split.
        + intros i y r' [Hi|Hi]; [|now apply (Hact i y r')]. destruct (Hs i y r' Hi) as (_ & E). discriminate.
        + intros i Hi. apply Hsub. now apply Hin. }
    destruct s as [[k r]|].
    + apply (Hvisit k r pend H Hd); [|intros i x r' E; injection E as -> ->; easy]. split; [now left|]. intros i Hi. now right.
    + inversion H as [ | |d slots0 pend0 out0 H1|slots0 out0 Hex H1|slots0 Hno]; subst.
      * destruct d as [k r]. apply (Hvisit k r pend0 H1); [now apply distinct_open in Hd| |easy]. hs. rewrite !in_app_iff. cbn [In]. split; [tauto|].
        intros i. rewrite !in_app_iff. cbn [In]. tauto.
      * rewrite <- app_assoc in H1. cbn in H1.
        assert (Hd2 : distinct (todo ++ Some (j, l) :: done ++ [None]) []).
        { apply distinct_skip in Hd. rewrite <- app_assoc in Hd. exact Hd. }
        destruct (IH _ _ _ H1 Hd2) as (mid & out' & done' & pend'' & -> & Hr & Hlen & Hnd & Hj & Hact & Hin).
        exists mid, out', done', pend''. split; [easy|]. split; [exact Hr|]. split; [cbn; lia|]. split; [exact Hnd|]. split; [exact Hj|]. split.
        -- intros i y r' [Hi|Hi]; [discriminate|now apply (Hact i y r')].
        -- exact Hin.
      * specialize (Hno (Some (j, l)) ltac:(apply in_or_app; right; now left)). discriminate.
Qed.

(** The state right after some output. *)
Lemma robin_suffix {A} slots pend (out : list (nat * A)) : robin slots pend out -> distinct slots pend ->
  forall pre i x post, out = pre ++ (i, x) :: post ->
  exists slots' pend' l, robin (slots' ++ [Some (i, l)]) pend' post /\ distinct (slots' ++ [Some (i, l)]) pend' /\
    length slots' = pred (length slots) /\
    (forall k, In k (map fst (held slots)) \/ In k (map fst pre) -> In k (map fst post) -> In k (map fst (held slots')) \/ k = i).
Proof.
  induction 1 as [i x l slots pend out H IH|i slots pend out H IH|d slots pend out H IH|slots out Hex H IH|slots Hno];
    intros Hd pre i0 x0 post Hout.
  - pose proof (distinct_take _ _ _ _ _ Hd) as Hd'. destruct pre as [|e pre]; cbn in Hout.
    + injection Hout as <- <- Hout. subst out. exists slots, pend, l. repeat split; try easy. intros k Hk _. inh Hk.
    + injection Hout as <- Hout. destruct (IH Hd' pre i0 x0 post Hout) as (slots' & pend' & l' & Hr & Hd2 & Hlen & Hact).
      exists slots', pend', l'. repeat split; try easy.
      * rewrite Hlen, app_length. cbn. lia.
      * intros k Hk. apply Hact. inh Hk.
  - pose proof (distinct_end _ _ _ Hd) as Hd'. destruct (IH Hd' pre i0 x0 post Hout) as (slots' & pend' & l' & Hr & Hd2 & Hlen & Hact).
    exists slots', pend', l'. repeat split; try easy; [rewrite Hlen, app_length; cbn; lia|].
    intros k Hk Hp. apply Hact; [|exact Hp]. hsi Hk. hs. cbn [In] in Hk.
    destruct Hk as [[<-|Hk]|Hk]; [|tauto|tauto]. exfalso. subst out. apply (robin_absent _ _ _ i H Hd').
    + unfold distinct in Hd. hsi Hd. hs. now inversion Hd.
    + rewrite map_app, in_app_iff. right. now right.
  - destruct (IH (distinct_open _ _ _ Hd) pre i0 x0 post Hout) as (slots' & pend' & l' & Hr & Hd2 & Hlen & Hact).
    exists slots', pend', l'. repeat split; try easy. intros k Hk. apply Hact. inh Hk.
  - destruct (IH (distinct_skip _ _ Hd) pre i0 x0 post Hout) as (slots' & pend' & l' & Hr & Hd2 & Hlen & Hact).
    exists slots', pend', l'. repeat split; try easy; [rewrite Hlen, app_length; cbn; lia|].
    intros k Hk. apply Hact. inh Hk.
  - now destruct pre.
Qed.

(** Between two consecutive elements of dataset [j], every other dataset gives at most one
    element, and one exactly if it had been started and still had elements. *)
Lemma robin_fair {A} slots pend (out : list (nat * A)) : robin slots pend out -> distinct slots pend ->
  forall pre j x mid y post, out = pre ++ (j, x) :: mid ++ (j, y) :: post -> ~ In j (map fst mid) ->
  (length mid < length slots)%nat /\ NoDup (map fst mid) /\
  (forall k, k <> j -> In k (map fst pre) -> In k (map fst (mid ++ post)) -> In k (map fst mid)).
Proof.
  intros H Hd pre j x mid y post Hout Hj. destruct slots as [|s0 slots0] eqn:Es; [inversion H|]. rewrite <- Es in *.
  assert (Hpos : (0 < length slots)%nat) by (subst; cbn; lia). clear Es s0 slots0.
  destruct (robin_suffix _ _ _ H Hd _ _ _ _ Hout) as (slots' & pend' & l & Hr & Hd' & Hlen & Hact).
  destruct (robin_round j l slots' [] pend' _ Hr Hd') as (mid' & out' & done' & pend'' & E & Hr' & Hl & Hnd & Hj' & Hin & _).
  (* the dataset has [y] left *)
  assert (Hof := robin_of_dataset _ _ _ Hr Hd' j).
  assert (Hy : exists r, l = y :: r).
  { unfold of_dataset in Hof. rewrite filter_app, map_app in Hof. cbn [filter fst] in Hof. rewrite Nat.eqb_refl in Hof.
    replace (filter (fun e => Nat.eqb (fst e) j) mid) with (@nil (nat * A)) in Hof.
    - cbn [map app snd] in Hof. hsi Hof. rewrite Nat.eqb_refl in Hof.
      unfold distinct in Hd'. hsi Hd'. rewrite <- app_assoc in Hd'. cbn [app] in Hd'.
      apply NoDup_remove_2 in Hd'. rewrite in_app_iff in Hd'. rewrite !rest_of_absent in Hof by tauto. rewrite ?app_nil_r in Hof. cbn [app] in Hof. eauto.
    - symmetry. clear - Hj. induction mid as [|[k z] mid IH]; [easy|]. cbn in *. destruct (Nat.eqb_spec k j); [exfalso; tauto|]. apply IH. tauto. }
  destruct Hy as [r ->]. inversion Hr' as [? ? ? ? ? out'' Hr''| | | | ]; subst.
  assert (Hmid : mid = mid').
  { clear - E Hj Hj'. revert mid' E Hj'. induction mid as [|[a b] mid IH]; intros [|[a' b'] mid'] E Hj'; cbn in *.
    - easy. - injection E as -> -> _. tauto. - injection E as <- <- _. tauto.
    - injection E as -> -> E. f_equal. apply IH; tauto || (intros Hi; apply Hj'; tauto). }
  subst mid'. split; [lia|]. split; [exact Hnd|]. intros k Hk Hpre Hrest.
  destruct (in_dec Nat.eq_dec k (map fst mid)) as [Hi|Hni]; [exact Hi|exfalso].
  assert (Hpost : In k (map fst (mid ++ (j, y) :: post))).
  { rewrite map_app, in_app_iff in *. cbn. tauto. }
  destruct (Hact k (or_intror Hpre) Hpost) as [Hheld| ->]; [|easy].
  (* it is in a place; if something is left it gave one in this round *)
  unfold held in Hheld. apply in_map_iff in Hheld. destruct Hheld as ([k' lk] & Ek & Hheld). cbn in Ek. subst k'.
  apply in_flat_map in Hheld. destruct Hheld as (sl & Hsl & Hsl'). destruct sl as [dk|]; [|easy]. destruct Hsl' as [->|[]].
  destruct lk as [|z lk]; [|apply Hni; apply in_map_iff; exists (k, z); split; [easy|now apply (Hin k z lk)]].
  (* nothing left: nothing of [k] in the rest *)
  assert (Hofk := robin_of_dataset _ _ _ Hr Hd' k).
  assert (Hrk : rest_of k (held (slots' ++ [Some (j, y :: r)]) ++ pend') = []).
  { apply in_split in Hsl. destruct Hsl as (s1 & s2 & ->). unfold distinct in Hd'. hsi Hd'. hs.
    destruct (Nat.eqb_spec j k); [congruence|]. rewrite Nat.eqb_refl. rewrite <- !app_assoc in Hd'. cbn [app] in Hd'. apply NoDup_remove_2 in Hd'.
    rewrite !in_app_iff in Hd'. cbn [In] in Hd'. rewrite !rest_of_absent; tauto. }
  rewrite Hrk in Hofk. apply in_map_iff in Hpost. destruct Hpost as ([k' z] & E2 & Hz). cbn in E2. subst k'. unfold of_dataset in Hofk.
  assert (Hz' : In (k, z) (filter (fun e => Nat.eqb (fst e) k) (mid ++ (j, y) :: post))) by (apply filter_In; split; [exact Hz|apply Nat.eqb_refl]).
  destruct (filter _ _); [exact Hz'|discriminate].
Qed.

(** ** With one place: concatenation *)
Lemma robin_one {A} s pend (out : list (nat * A)) : robin [s] pend out -> map snd out = concat (map snd (held [s] ++ pend)).
Proof.
  remember [s] as slots eqn:E. intros H. revert s E.
  induction H as [i x l slots pend out H IH|i slots pend out H IH|d slots pend out H IH|slots out Hex H IH|slots Hno]; intros s E.
  - injection E as <- ->. cbn in *. now rewrite (IH _ eq_refl).
  - injection E as <- ->. cbn in *. now rewrite (IH _ eq_refl).
  - injection E as <- ->. cbn in *. now rewrite (IH _ eq_refl).
  - injection E as <- ->. destruct Hex as [? []].
  - injection E as <- ->. reflexivity.
Qed.

(** ** The output exists and is unique *)
Lemma robin_det {A} slots pend (out : list (nat * A)) : robin slots pend out -> forall out', robin slots pend out' -> out = out'.
Proof.
  induction 1 as [i x l slots pend out H IH|i slots pend out H IH|d slots pend out H IH|slots out Hex H IH|slots Hno]; intros out' H'.
  - inversion H'; subst. f_equal. now apply IH.
  - inversion H'; subst. now apply IH.
  - inversion H'; subst. now apply IH.
  - inversion H' as [ | | |? ? ? H1|? Hno]; subst; [now apply IH|]. destruct Hex as [d Hd]. discriminate (Hno _ Hd).
  - inversion H' as [ | | |? ? Hex H1| ]; subst; [|reflexivity]. destruct Hex as [d Hd]. discriminate (Hno _ Hd).
Qed.

(** Number of free places before the first dataset. *)
Fixpoint lead {A} (slots : list (option (nat * list A))) : nat :=
  match slots with None :: r => S (lead r) | _ => 0 end.
Definition nheld {A} (slots : list (option (nat * list A))) : nat := length (held slots).
(** Bounds the steps until the next element. *)
Definition effort {A} (slots : list (option (nat * list A))) (pend : list (nat * list A)) : nat :=
  (2 * length pend + nheld slots) * S (length slots) + lead slots.

Lemma lead_le {A} (slots : list (option (nat * list A))) : (lead slots <= length slots)%nat.
Proof. induction slots as [|[d|] slots IH]; cbn; lia. Qed.
Lemma lead_snoc {A} (slots : list (option (nat * list A))) s : (exists d, In (Some d) slots) -> lead (slots ++ [s]) = lead slots.
Proof. induction slots as [|[d|] slots IH]; cbn; intros [d' H]; [easy|easy|]. destruct H as [H|H]; [easy|]. f_equal. apply IH. eauto. Qed.
Lemma nheld_snoc {A} (slots : list (option (nat * list A))) s : nheld (slots ++ [s]) = (nheld slots + match s with Some _ => 1 | None => 0 end)%nat.
Proof. unfold nheld. rewrite held_app, app_length. destruct s; reflexivity. Qed.

Lemma nheld_cons {A} s (slots : list (option (nat * list A))) : nheld (s :: slots) = (match s with Some _ => 1 | None => 0 end + nheld slots)%nat.
Proof. destruct s; reflexivity. Qed.
Lemma effort_end {A} j slots (pend : list (nat * list A)) : (effort (slots ++ [None]) pend < effort (Some (j, []) :: slots) pend)%nat.
Proof.
  unfold effort. rewrite nheld_snoc, nheld_cons, app_length.
  pose proof (lead_le (slots ++ [None])) as Hl. rewrite app_length in Hl. cbn [length lead] in *. nia.
Qed.
Lemma effort_open {A} d slots (pend : list (nat * list A)) : (effort (Some d :: slots) pend < effort (None :: slots) (d :: pend))%nat.
Proof. unfold effort. rewrite !nheld_cons. cbn [length lead]. nia. Qed.
Lemma effort_skip {A} (slots : list (option (nat * list A))) : (exists d, In (Some d) slots) -> (effort (slots ++ [None]) [] < effort (None :: slots) [])%nat.
Proof. intros H. unfold effort. rewrite nheld_snoc, nheld_cons, app_length, (lead_snoc _ _ H). cbn [length lead]. nia. Qed.

Lemma has_held_dec {A} (slots : list (option (nat * list A))) : {exists d, In (Some d) slots} + {forall s, In s slots -> s = None}.
Proof.
  induction slots as [|[d|] slots IH]; [right; easy|left; exists d; now left|].
  destruct IH as [H|H]; [left; destruct H as [d H]; exists d; now right|right; intros s [<-|Hs]; auto].
Qed.

Lemma robin_exists_n {A} : forall n m (slots : list (option (nat * list A))) pend,
  slots <> [] -> length (concat (map snd (held slots ++ pend))) = n -> (effort slots pend <= m)%nat -> exists out, robin slots pend out.
Proof.
  induction n as [n IHn] using (well_founded_induction lt_wf). induction m as [m IHm] using (well_founded_induction lt_wf).
  intros slots pend Hne Hn Hm. destruct slots as [|[[j [|x l]]|] slots]; [easy| | |].
  - destruct (IHm (effort (slots ++ [None]) pend)) with (slots := slots ++ [@None (nat * list A)]) (pend := pend) as [out H].
    + pose proof (effort_end j slots pend). lia. + now destruct slots. + rewrite <- Hn. now hs. + lia.
    + exists out. now constructor.
  - destruct (IHn (pred n)) with (m := effort (slots ++ [Some (j, l)]) pend) (slots := slots ++ [Some (j, l)]) (pend := pend) as [out H].
    + rewrite <- Hn. rewrite held_some. cbn. lia. + now destruct slots.
    + rewrite <- Hn. hs. cbn [app length pred]. rewrite ?app_length. cbn [length]. rewrite ?app_length. lia.
    + lia.
    + exists ((j, x) :: out). now constructor.
  - destruct pend as [|d pend].
    + destruct (has_held_dec slots) as [Hex|Hno]; [|exists []; now constructor].
      destruct (IHm (effort (slots ++ [None]) [])) with (slots := slots ++ [@None (nat * list A)]) (pend := @nil (nat * list A)) as [out H].
      * pose proof (effort_skip slots Hex). lia. * now destruct slots. * rewrite <- Hn. now hs. * lia.
      * exists out. now constructor.
    + destruct (IHm (effort (Some d :: slots) pend)) with (slots := Some d :: slots) (pend := pend) as [out H].
      * pose proof (effort_open d slots pend). lia. * easy.
      * rewrite <- Hn. hs. rewrite !app_length. lia.
      * lia.
      * exists out. now constructor.
Qed.
Lemma robin_exists {A} (slots : list (option (nat * list A))) pend : slots <> [] -> exists out, robin slots pend out.
Proof. intros H. now apply (robin_exists_n _ _ slots pend H eq_refl (le_n _)). Qed.

(** Giving the free places ahead their datasets early changes nothing. *)
Lemma robin_prefill {A} : forall (dsets : list (nat * list A)) pre pend out,
  robin (List.repeat None (length dsets) ++ pre) (dsets ++ pend) out -> robin (map Some dsets ++ pre) pend out.
Proof.
  induction dsets as [|[j l] dsets IH]; intros pre pend out H; [exact H|]. cbn [length List.repeat app map] in *.
  inversion H as [ | |d s p o H1|? ? Hex H1| ]; subst. inversion H1 as [? x l' ? ? o' H2|? ? ? ? H2| | | ]; subst.
  - constructor. rewrite <- app_assoc in *. now apply IH.
  - constructor. rewrite <- app_assoc in *. now apply IH.
Qed.
