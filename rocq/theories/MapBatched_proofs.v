(** Batched reads ([_getitems]) agree with single reads. *)
From Verif Require Import Base IndexShuffle MapDatasets Spec ListFacts MapOther_proofs.

Lemma map_bind_Ok {A B C} (f : A -> res B) (g : B -> res C) l vs :
  map (fun i => bind (f i) g) l = map Ok vs <-> exists es, map f l = map Ok es /\ map g es = map Ok vs.
Proof.
  revert vs. induction l as [|i l IH]; intros vs; cbn [map].
  - split.
    + intros H. destruct vs; [|easy]. now exists [].
    + intros ([|e es] & He & H); [|easy]. destruct vs; easy.
  - destruct vs as [|v vs]; cbn [map].
    + split; [easy|]. intros ([|e es] & He & H); easy.
    + split.
      * intros [= Hv H]. apply IH in H as (es & He & Hg). apply bind_Ok_iff in Hv as (e & Hf & Hge).
        exists (e :: es). cbn. now rewrite Hf, He, Hge, Hg.
      * intros ([|e es] & He & Hg); [easy|]. cbn [map] in *. injection He as Hf He. injection Hg as Hg Hgs.
        rewrite Hf. cbn. f_equal; [easy|]. apply IH. now exists es.
Qed.

Lemma ok_all_iff {A B} (f : A -> res B) l :
  (exists vs, map f l = map Ok vs) <-> forall x, In x l -> exists v, f x = Ok v.
Proof.
  induction l as [|a l IH]; split.
  - easy.
  - intros _. now exists [].
  - intros ([|v vs] & H) x Hx; [easy|]. cbn in H. injection H as Hv H.
    destruct Hx as [<-|Hx]; [eauto|]. apply IH; [now exists vs|easy].
  - intros H. destruct (H a (or_introl eq_refl)) as (v & Hv).
    destruct (proj2 IH (fun x Hx => H x (or_intror Hx))) as (vs & Hvs).
    exists (v :: vs). cbn. now rewrite Hv, Hvs.
Qed.

Lemma default_ok {A} n (get : Z -> res (option A)) : batched_ok (mkMapDs n get (default_getitems get)).
Proof. intros idx vs. cbn. apply sequence_Ok_iff. Qed.

Lemma reindexed_ok {A} n (f : Z -> res Z) (p : MapDs A) : batched_ok p ->
  batched_ok (mkMapDs n (fun i => let! j := f i in mget p j) (reindexed_getitems f p)).
Proof.
  intros Hp idx vs. cbn [mget mgetitems]. unfold reindexed_getitems. rewrite bind_Ok_iff, map_bind_Ok.
  split; intros (js & H1 & H2); exists js; (split; [now apply sequence_Ok_iff|now apply Hp]).
Qed.

Lemma elementwise_ok {A B} (g : option A -> res (option B)) (p : MapDs A) : batched_ok p ->
  batched_ok (mkMapDs (mlen p) (fun i => let! e := mget p i in g e)
                      (fun indices => let! es := mgetitems p indices in sequence (map g es))).
Proof.
  intros Hp idx vs. cbn [mget mgetitems]. rewrite bind_Ok_iff, map_bind_Ok.
  split; intros (es & H1 & H2); exists es; (split; [now apply Hp|now apply sequence_Ok_iff]).
Qed.

Lemma indexed_ok {A B} (g : Z -> option A -> res (option B)) (p : MapDs A) idx vs :
  map (fun i => let! e := mget p i in g i e) idx = map Ok vs <->
  exists es, map (mget p) idx = map Ok es /\
             map (fun ie => g (fst ie) (snd ie)) (combine idx es) = map Ok vs.
Proof.
  revert vs. induction idx as [|i idx IH]; intros vs; cbn [map].
  - split.
    + intros H. destruct vs; [|easy]. now exists [].
    + intros ([|e es] & He & H); [|easy]. destruct vs; easy.
  - destruct vs as [|v vs]; cbn [map].
    + split; [easy|]. intros ([|e es] & He & H); easy.
    + split.
      * intros [= Hv H]. apply IH in H as (es & He & Hg). apply bind_Ok_iff in Hv as (e & Hf & Hge).
        exists (e :: es). cbn. now rewrite Hf, He, Hge, Hg.
      * intros ([|e es] & He & Hg); [easy|]. cbn [map combine fst snd] in *. injection He as Hf He. injection Hg as Hg Hgs.
        rewrite Hf. cbn. f_equal; [easy|]. apply IH. now exists es.
Qed.

Lemma combine_swap {A B} (l : list A) (l' : list B) : combine l' l = map (fun ab => (snd ab, fst ab)) (combine l l').
Proof. revert l'. induction l as [|a l IH]; intros [|b l']; cbn; try easy. now rewrite IH. Qed.

(** ** Zip *)
Lemma zip_columns {A} (ps : list (MapDs A)) idx ess :
  Forall2 (fun p es => map (mget p) idx = map Ok es) ps ess ->
  map (fun i => sequence (map (fun p => mget p i) ps)) idx = map Ok (transpose (length idx) ess).
Proof.
  revert ess. induction idx as [|i idx IH]; intros ess H; [easy|].
  cbn [map length transpose].
  assert (exists hs ts, ess = map (fun ht => fst ht :: snd ht) (combine hs ts) /\ length hs = length ts /\
     map (fun p => mget p i) ps = map Ok hs /\ Forall2 (fun p es => map (mget p) idx = map Ok es) ps ts)
    as (hs & ts & -> & Hl & Hh & Ht).
  { clear IH. induction H as [|p es ps ess Hp H (hs & ts & -> & Hl & Hh & Ht)].
    - exists [], []. now repeat split.
    - destruct es as [|e es]; [easy|]. cbn in Hp. injection Hp as He Hes.
      exists (e :: hs), (es :: ts). cbn. rewrite Hl, He, Hh. repeat split. now constructor. }
  f_equal.
  - rewrite Hh, sequence_map_Ok. f_equal. rewrite map_map. cbn [firstn].
    clear - Hl. revert ts Hl. induction hs as [|h hs IH]; intros [|t ts] Hl; cbn in *; try easy.
    f_equal. apply IH. lia.
  - rewrite (IH ts Ht). f_equal. f_equal. rewrite map_map. cbn [skipn snd].
    clear - Hl. revert ts Hl. induction hs as [|h hs IH]; intros [|t ts] Hl; cbn in *; try easy.
    f_equal. apply IH. lia.
Qed.

Lemma zip_rows {A} (ps : list (MapDs A)) idx cols :
  map (fun i => sequence (map (fun p => mget p i) ps)) idx = map Ok cols ->
  exists ess, Forall2 (fun p es => map (mget p) idx = map Ok es) ps ess.
Proof.
  intros H.
  assert (forall p i, In p ps -> In i idx -> exists v, mget p i = Ok v) as Hall.
  { intros p i Hp Hi.
    assert (exists col, sequence (map (fun p => mget p i) ps) = Ok col) as (col & Hc).
    { apply (proj1 (ok_all_iff (fun i => sequence (map (fun p => mget p i) ps)) idx)); [now exists cols|easy]. }
    apply sequence_Ok_iff in Hc.
    apply (proj1 (ok_all_iff (fun p => mget p i) ps)); [now exists col|easy]. }
  clear H. induction ps as [|p ps IH]; [exists []; constructor|].
  destruct IH as (ess & He); [intros; apply Hall; [now right|easy]|].
  destruct (proj2 (ok_all_iff (mget p) idx)) as (es & Hes); [intros; apply Hall; [now left|easy]|].
  exists (es :: ess). now constructor.
Qed.

Lemma min_length_const {A} (ls : list (list A)) n :
  ls <> [] -> (forall l, In l ls -> length l = n) -> min_length ls = n.
Proof.
  intros Hne H. destruct ls as [|l ls]; [easy|]. cbn. rewrite (H l (or_introl eq_refl)).
  assert (forall l', In l' ls -> length l' = n) as H' by (intros; apply H; now right). clear H Hne l.
  induction ls as [|l ls IH]; [easy|]. cbn. rewrite (H' l (or_introl eq_refl)), Nat.min_id.
  apply IH. intros; apply H'; now right.
Qed.


Lemma map_Ok_Forall2 {A B} (f : A -> res B) l vs : map f l = map Ok vs <-> Forall2 (fun a v => f a = Ok v) l vs.
Proof.
  split.
  - revert vs. induction l as [|a l IH]; intros [|v vs] H; try easy. cbn in H. injection H as Hv H.
    constructor; auto.
  - induction 1; [easy|]. cbn. congruence.
Qed.

Lemma zip_ds_eq {A} (ps : list (MapDs A)) q : zip_ds ps = Ok q ->
  ps <> [] /\
  q = mkMapDs (mlen q) (fun i => let! es := sequence (map (fun p => mget p i) ps) in Ok (Some es))
       (fun indices => let! ess := sequence (map (fun p => mgetitems p indices) ps) in Ok (map Some (pyzip ess))).
Proof.
  unfold zip_ds. destruct ps as [|p0 ps]; [easy|]. destruct (forallb _ _); [|easy]. intros [= <-]. easy.
Qed.

Lemma zip_ok {A} (ps : list (MapDs A)) q : (forall p, In p ps -> batched_ok p) -> zip_ds ps = Ok q -> batched_ok q.
Proof.
  intros Hps H. apply zip_ds_eq in H as [Hne ->]. intros idx vs. cbn [mget mgetitems].
  rewrite bind_Ok_iff, map_bind_Ok.
  assert (forall ess, sequence (map (fun p => mgetitems p idx) ps) = Ok ess <->
                      Forall2 (fun p es => map (mget p) idx = map Ok es) ps ess) as Hs.
  { intros ess. rewrite sequence_Ok_iff, map_Ok_Forall2. split; intros H.
    - clear - H Hps. induction H as [|p es ps' ess Hp H IH]; constructor.
      + apply Hps; [now left|easy].
      + apply IH. intros; apply Hps; now right.
    - clear - H Hps. induction H as [|p es ps' ess Hp H IH]; constructor.
      + apply Hps; [now left|easy].
      + apply IH. intros; apply Hps; now right. }
  assert (forall ess, Forall2 (fun p es => map (mget p) idx = map Ok es) ps ess -> pyzip ess = transpose (length idx) ess) as Hpz.
  { intros ess H. unfold pyzip. rewrite (min_length_const ess (length idx)); [easy| |].
    - intros ->. inversion H. now subst ps.
    - clear - H. induction H as [|p es ps' ess Hp H IH]; [easy|]. intros l [<-|Hl]; [|auto].
      now apply length_map_Ok in Hp. }
  split.
  - intros (ess & He & Hv). injection Hv as <-. apply Hs in He. exists (pyzip ess). split.
    + rewrite Hpz by easy. now apply zip_columns.
    + now rewrite map_map.
  - intros (cols & Hc & Hv). destruct (zip_rows ps idx cols Hc) as (ess & He). exists ess. split; [now apply Hs|].
    rewrite Hpz by easy. rewrite (zip_columns ps idx ess He) in Hc. apply map_Ok_inj in Hc as <-.
    rewrite <- map_map in Hv. apply map_Ok_inj in Hv. now rewrite Hv.
Qed.

(** ** Mixed datasets *)
Definition flat_groups {A} (gs : list (Z * list (Z * A))) : list (A * (Z * Z)) :=
  flat_map (fun g => map (fun ki => (snd ki, (fst g, fst ki))) (snd g)) gs.

Lemma group_add_perm {A} d key (i : A) gs :
  Permutation (flat_groups (group_add Z.eqb d (key, i) gs)) ((i, (d, key)) :: flat_groups gs).
Proof.
  induction gs as [|[d' l] gs IH]; [easy|]. cbn [group_add].
  destruct (Z.eqb_spec d d') as [<-|Hd].
  - cbn [flat_groups flat_map fst snd]. rewrite map_app. cbn [map fst snd].
    rewrite <- app_assoc. symmetry. apply Permutation_middle.
  - unfold flat_groups in *. cbn [flat_map]. rewrite IH. symmetry. apply Permutation_middle.
Qed.

Lemma group_add_nonempty {A} d (v : Z * A) gs : (forall g, In g gs -> snd g <> []) ->
  forall g, In g (group_add Z.eqb d v gs) -> snd g <> [].
Proof.
  induction gs as [|[d' l] gs IH]; intros H g; cbn [group_add].
  - intros [<-|[]]. easy.
  - destruct (d =? d').
    + intros [<-|Hg]; [|apply H; now right]. cbn. now destruct l.
    + intros [<-|Hg]; [apply (H (d', l)); now left|]. apply IH; [|easy]. intros; apply H; now right.
Qed.

Lemma groups_spec (entries : list (nat * (Z * Z))) gs :
  (forall g, In g gs -> snd g <> []) ->
  let gs' := fold_left (fun g ipk => let '(i, (d, key)) := ipk : nat * (Z * Z) in
                                        group_add Z.eqb d (key, i) g) entries gs in
  Permutation (flat_groups gs') (flat_groups gs ++ entries) /\ (forall g, In g gs' -> snd g <> []).
Proof.
  revert gs. induction entries as [|(i & d & key) es IH]; intros gs H; cbn [fold_left].
  - cbv zeta. now rewrite app_nil_r.
  - destruct (IH (group_add Z.eqb d (key, i) gs)) as [HP Hn]; [now apply group_add_nonempty|].
    split; [|easy]. cbv zeta. rewrite HP. rewrite group_add_perm. cbn. apply Permutation_middle.
Qed.

Definition read_parent {A} (parents : list (MapDs A)) (dk : Z * Z) : res (option A) :=
  let! p := pyindex parents (fst dk) in mget p (snd dk).

Definition writes {A} (ws : list (nat * A)) (m : list A) : list A :=
  fold_left (fun m ie => update_nth (fst ie) (snd ie) m) ws m.

Lemma writes_length {A} (ws : list (nat * A)) m : length (writes ws m) = length m.
Proof.
  revert m. induction ws as [|w ws IH]; intros m; [easy|]. cbn. fold (writes ws (update_nth (fst w) (snd w) m)).
  rewrite IH. apply update_nth_length.
Qed.

Lemma writes_other {A} (ws : list (nat * A)) m i : ~ In i (map fst ws) -> nth_error (writes ws m) i = nth_error m i.
Proof.
  revert m. induction ws as [|w ws IH]; intros m H; [easy|]. cbn. fold (writes ws (update_nth (fst w) (snd w) m)).
  rewrite IH; [|intros Hi; apply H; now right]. rewrite nth_update_nth.
  destruct (Nat.eqb_spec i (fst w)); [|easy]. exfalso. apply H. now left.
Qed.

Lemma writes_nth {A} (ws : list (nat * A)) m i v :
  NoDup (map fst ws) -> In (i, v) ws -> (i < length m)%nat -> nth_error (writes ws m) i = Some v.
Proof.
  revert m. induction ws as [|w ws IH]; intros m Hnd Hin Hi; [easy|].
  cbn in Hnd. inversion Hnd as [|? ? Hx Hnd']; subst. cbn. fold (writes ws (update_nth (fst w) (snd w) m)).
  destruct Hin as [->|Hin].
  - cbn [fst snd] in *. rewrite writes_other by easy. rewrite nth_update_nth, Nat.eqb_refl.
    destruct (Nat.ltb_spec i (length m)); [easy|lia].
  - apply IH; [easy|easy|]. now rewrite update_nth_length.
Qed.

Lemma pyindex_In {A} (l : list A) i a : pyindex l i = Ok a -> In a l.
Proof.
  unfold pyindex. destruct (i <? 0); [easy|]. destruct (nth_error l (Z.to_nat i)) eqn:E; [|easy].
  intros [= <-]. now apply nth_error_In in E.
Qed.

Lemma combine_app {A B} (a a' : list A) (b b' : list B) : length a = length b ->
  combine (a ++ a') (b ++ b') = combine a b ++ combine a' b'.
Proof. revert b. induction a as [|x a IH]; intros [|y b] H; cbn in *; try easy. f_equal. apply IH. lia. Qed.

Lemma fold_groups {A} (parents : list (MapDs A)) (gs : list (Z * list (Z * nat))) m0 m :
  (forall p, In p parents -> batched_ok p) -> (forall g, In g gs -> snd g <> []) ->
  fold_left (fun acc g =>
      let! mixed := acc in
      let! parent := pyindex parents (fst g) in
      let! els := mgetitems parent (map fst (snd g)) in
      Ok (fold_left (fun m ie => update_nth (fst ie) (snd ie) m)
                    (combine (map snd (snd g)) els) mixed)) gs (Ok m0) = Ok m <->
  exists ws, map (fun e => read_parent parents (snd e)) (flat_groups gs) = map Ok ws /\
             m = writes (combine (map fst (flat_groups gs)) ws) m0.
Proof.
  intros Hps. set (F := fun acc g => _). 
  assert (forall gs r, (forall x, r <> Ok x) -> forall x, fold_left F gs r <> Ok x) as Hfail.
  { induction gs0 as [|g gs0 IH]; intros r Hr; [exact Hr|]. cbn [fold_left]. apply IH.
    intros x. unfold F. destruct r; cbn; try easy. exfalso. now apply (Hr a). }
  revert m0. induction gs as [|[d kis] gs IH]; intros m0 Hne.
  - cbn. split.
    + intros [= <-]. now exists [].
    + intros ([|w ws] & Hw & ->); easy.
  - specialize (fun m0 => IH m0 (fun g Hg => Hne g (or_intror Hg))).
    pose proof (Hne (d, kis) (or_introl eq_refl)) as Hkis. cbn [snd] in Hkis.
    cbn [fold_left flat_groups flat_map fst snd]. fold (flat_groups gs).
    rewrite !map_app, !map_map. cbn [fst snd].
    assert (forall els : list (option A),
       (exists parent, pyindex parents d = Ok parent /\ mgetitems parent (map fst kis) = Ok els) <->
       map (fun x : Z * nat => read_parent parents (d, fst x)) kis = map Ok els) as Hread.
    { intros els. unfold read_parent; cbn [fst snd]. split.
      - intros (parent & Hp & He). rewrite Hp. cbn [bind]. apply (Hps parent) in He; [|now apply pyindex_In in Hp].
        now rewrite map_map in He.
      - intros H. destruct (pyindex parents d) as [parent| |] eqn:Hp.
        + exists parent. split; [easy|]. cbn [bind] in H. apply (Hps parent); [now apply pyindex_In in Hp|].
          now rewrite map_map.
        + destruct kis; [easy|]. destruct els; easy.
        + destruct kis; [easy|]. destruct els; easy. }
    split.
    + intros H.
      assert (exists parent els, pyindex parents d = Ok parent /\ mgetitems parent (map fst kis) = Ok els) as (parent & els & Hp & He).
      { destruct (pyindex parents d) as [parent| |] eqn:Hp.
        - destruct (mgetitems parent (map fst kis)) as [els| |] eqn:He; [eauto| |];
            exfalso; unfold F in H at 2; cbn [bind fst snd] in H; rewrite Hp in H; cbn [bind] in H; rewrite He in H;
            apply (Hfail gs) in H; easy.
        - exfalso; unfold F in H at 2; cbn [bind fst snd] in H; rewrite Hp in H; apply (Hfail gs) in H; easy.
        - exfalso; unfold F in H at 2; cbn [bind fst snd] in H; rewrite Hp in H; apply (Hfail gs) in H; easy. }
      unfold F in H at 2. cbn [bind fst snd] in H. rewrite Hp in H. cbn [bind] in H. rewrite He in H. cbn [bind] in H.
      apply IH in H as (ws & Hws & ->). exists (els ++ ws).
      assert (map (fun x : Z * nat => read_parent parents (d, fst x)) kis = map Ok els) as Hr by (apply Hread; eauto).
      rewrite map_app, Hr, Hws. split; [easy|].
      rewrite combine_app.
      * unfold writes. rewrite fold_left_app. reflexivity.
      * rewrite map_length. now apply length_map_Ok in Hr.
    + intros (ws & Hws & ->).
      set (k := length kis).
      assert (map (fun x : Z * nat => read_parent parents (d, fst x)) kis = map Ok (firstn k ws) /\
              map (fun e => read_parent parents (snd e)) (flat_groups gs) = map Ok (skipn k ws)) as [Hr Hws'].
      { apply (f_equal (fun l => (firstn k l, skipn k l))) in Hws. injection Hws as H1 H2.
        rewrite firstn_app, map_length in H1. unfold k in H1 at 2. rewrite Nat.sub_diag, firstn_O, app_nil_r in H1.
        rewrite firstn_all2 in H1 by (rewrite map_length; unfold k; lia).
        rewrite skipn_app, map_length in H2. unfold k in H2 at 2. rewrite Nat.sub_diag in H2.
        rewrite skipn_all2 in H2 by (rewrite map_length; unfold k; lia). cbn [skipn app] in H2.
        rewrite firstn_map in H1. rewrite skipn_map in H2. easy. }
      destruct (proj2 (Hread (firstn k ws)) Hr) as (parent & Hp & He).
      unfold F at 2. cbn [bind fst snd]. rewrite Hp. cbn [bind]. rewrite He. cbn [bind].
      apply IH. exists (skipn k ws). split; [easy|].
      rewrite <- (firstn_skipn k ws) at 1. rewrite combine_app.
      * unfold writes. now rewrite fold_left_app.
      * rewrite map_length. now apply length_map_Ok in Hr.
Qed.

Lemma mixed_ok {A} (parents : list (MapDs A)) sel :
  (forall p, In p parents -> batched_ok p) -> batched_ok (mixed_ds parents sel).
Proof.
  intros Hps idx vs. cbn [mget mgetitems mixed_ds]. unfold mixed_getitems.
  rewrite bind_Ok_iff.
  change (map (fun i => let! dk := sel_get sel i in let! p := pyindex parents (fst dk) in mget p (snd dk)) idx)
    with (map (fun i => bind (sel_get sel i) (read_parent parents)) idx).
  rewrite map_bind_Ok.
  enough (forall pairs, map (sel_get sel) idx = map Ok pairs ->
    (let groups := fold_left (fun g ipk => let '(i, (d, key)) := ipk : nat * (Z * Z) in
                                        group_add Z.eqb d (key, i) g)
                          (combine (seq 0 (List.length pairs)) pairs) [] in
     fold_left (fun acc g =>
      let! mixed := acc in
      let! parent := pyindex parents (fst g) in
      let! els := mgetitems parent (map fst (snd g)) in
      Ok (fold_left (fun m ie => update_nth (fst ie) (snd ie) m)
                    (combine (map snd (snd g)) els) mixed))
    groups (Ok (List.repeat None (List.length idx)))) = Ok vs <->
    map (read_parent parents) pairs = map Ok vs) as Hcore.
  { split; intros (pairs & H1 & H2); exists pairs.
    - apply sequence_Ok_iff in H1. split; [easy|]. now apply Hcore.
    - split; [now apply sequence_Ok_iff|]. now apply Hcore. }
  intros pairs Hpairs. cbv zeta. apply length_map_Ok in Hpairs.
  set (entries := combine (seq 0 (length pairs)) pairs).
  destruct (groups_spec entries [] ltac:(easy)) as [HP Hne]. cbn [flat_groups flat_map app] in HP.
  set (groups := fold_left _ entries []) in *. cbv zeta in HP, Hne.
  rewrite fold_groups by easy.
  assert (map snd entries = pairs) as Hsnd.
  { unfold entries. clear. generalize 0%nat. induction pairs as [|a l IH]; intros s; cbn; [easy|]. now rewrite IH. }
  assert (map fst entries = seq 0 (length pairs)) as Hfst.
  { unfold entries. clear. generalize 0%nat. induction pairs as [|a l IH]; intros s; cbn; [easy|]. now rewrite IH. }
  assert (forall ws us, map (fun e => read_parent parents (snd e)) (flat_groups groups) = map Ok ws ->
    map (read_parent parents) pairs = map Ok us ->
    writes (combine (map fst (flat_groups groups)) ws) (List.repeat None (length idx)) = us) as Heq.
  { intros ws us Hws Hus.
    assert (length ws = length (flat_groups groups)) as Hlw by now apply length_map_Ok in Hws.
    assert (length us = length pairs) as Hlu by now apply length_map_Ok in Hus.
    apply nth_error_ext. intros i.
    destruct (Nat.lt_ge_cases i (length pairs)) as [Hi|Hi].
    2: { rewrite !(proj2 (nth_error_None _ _)); try easy; [lia|]. rewrite writes_length, repeat_length. lia. }
    destruct (nth_error us i) as [v|] eqn:Hv; [|apply nth_error_None in Hv; lia].
    apply writes_nth.
    - assert (map fst (combine (map fst (flat_groups groups)) ws) = map fst (flat_groups groups)) as ->.
      { clear - Hlw. revert ws Hlw. induction (flat_groups groups) as [|a l IH]; intros [|w ws] H; cbn in *; try easy.
        f_equal. apply IH. lia. }
      apply (Permutation_NoDup (l := map fst entries)).
      + now rewrite HP.
      + rewrite Hfst. apply seq_NoDup.
    - destruct (nth_error pairs i) as [dk|] eqn:Hdk; [|apply nth_error_None in Hdk; lia].
      assert (In (i, dk) (flat_groups groups)) as Hin.
      { apply (Permutation_in (l := entries)); [now symmetry|]. apply nth_error_In with (n := i).
        clear - Hdk Hi. unfold entries.
        assert (forall s, nth_error (combine (seq s (length pairs)) pairs) i = Some (s + i, dk)%nat) as H; [|now rewrite H].
        clear Hi. revert i Hdk. induction pairs as [|a l IH]; intros [|i] Hdk s; cbn in *; try easy.
        - injection Hdk as ->. now rewrite Nat.add_0_r.
        - rewrite IH by easy. do 2 f_equal. lia. }
      apply In_nth_error in Hin as (t & Ht).
      assert (nth_error ws t = Some v) as Hwt.
      { assert (nth_error (map Ok us) i = Some (Ok v)) as H1 by now rewrite nth_error_map, Hv.
        rewrite <- Hus, nth_error_map, Hdk in H1. cbn in H1.
        assert (nth_error (map Ok ws) t = Some (read_parent parents dk)) as H2.
        { rewrite <- Hws, nth_error_map, Ht. easy. }
        injection H1 as H1. rewrite H1, nth_error_map in H2. destruct (nth_error ws t); [|easy]. now injection H2 as ->. }
      apply nth_error_In with (n := t).
      assert (nth_error (map fst (flat_groups groups)) t = Some i) as Hft by now rewrite nth_error_map, Ht.
      clear - Hft Hwt. revert t ws Hft Hwt. induction (map fst (flat_groups groups)) as [|a l IH]; intros [|t] [|w ws] H1 H2; cbn in *; try easy.
      + congruence.
      + now apply IH.
    - rewrite repeat_length. lia. }
  split.
  - intros (ws & Hws & ->).
    assert (exists us, map (read_parent parents) pairs = map Ok us) as (us & Hus).
    { apply ok_all_iff. intros dk Hdk. rewrite <- Hsnd in Hdk. apply in_map_iff in Hdk as (e & <- & He).
      apply (proj1 (ok_all_iff (fun e => read_parent parents (snd e)) (flat_groups groups))); [now exists ws|].
      apply (Permutation_in (l := entries)); [now symmetry|easy]. }
    now rewrite (Heq ws us Hws Hus).
  - intros Hvs.
    assert (exists ws, map (fun e => read_parent parents (snd e)) (flat_groups groups) = map Ok ws) as (ws & Hws).
    { apply ok_all_iff. intros e He. apply (Permutation_in _ HP) in He.
      apply (proj1 (ok_all_iff (read_parent parents) pairs)); [now exists vs|].
      rewrite <- Hsnd. now apply in_map. }
    exists ws. split; [easy|]. symmetry. now apply Heq.
Qed.

(** ** Pipelines of map datasets *)
Inductive pipeline (gen_keys : Z -> Z -> list Z) : forall A : Type, MapDs A -> Prop :=
| p_source A n src batched :
    match batched with
    | None => True
    | Some b => forall js vs, b js = Ok vs <-> map src js = map Ok vs
    end -> pipeline gen_keys A (source_ds n src batched)
| p_range start stop step q : range_ds start stop step = Ok q -> pipeline gen_keys Z q
| p_map A B f p : pipeline gen_keys A p -> pipeline gen_keys B (map_ds f p)
| p_map_with_index A B f p : pipeline gen_keys A p -> pipeline gen_keys B (map_with_index_ds f p)
| p_random_map A B G f (rng : Z -> G) p : pipeline gen_keys A p -> pipeline gen_keys B (random_map_ds f rng p)
| p_filter A f p : pipeline gen_keys A p -> pipeline gen_keys A (filter_ds f p)
| p_shuffle A seed p q : pipeline gen_keys A p -> shuffle_ds gen_keys seed p = Ok q -> pipeline gen_keys A q
| p_window_shuffle A w seed p : pipeline gen_keys A p -> pipeline gen_keys A (window_shuffle_ds gen_keys w seed p)
| p_slice A start stop step p q : pipeline gen_keys A p -> slice_ds start stop step p = Ok q -> pipeline gen_keys A q
| p_reindex A indices p : pipeline gen_keys A p -> pipeline gen_keys A (reindex_ds indices p)
| p_repeat A n reseed p q : pipeline gen_keys A p -> repeat_ds n reseed p = Ok q -> pipeline gen_keys A q
| p_zip A ps q : (forall p, In p ps -> pipeline gen_keys A p) -> zip_ds ps = Ok q -> pipeline gen_keys _ q
| p_flat_map A B m f p : pipeline gen_keys A p -> pipeline gen_keys B (flat_map_ds m f p)
| p_batch A B pushdown b drop fn p q :
    pipeline gen_keys A p -> @batch_ds A B pushdown b drop fn p = Ok q -> pipeline gen_keys B q
| p_mix A ps proportions q :
    (forall p, In p ps -> pipeline gen_keys A p) -> mix_ds ps proportions = Ok q -> pipeline gen_keys A q
| p_concatenate A ps q :
    (forall p, In p ps -> pipeline gen_keys A p) -> concatenate_ds ps = Ok q -> pipeline gen_keys A q
| p_select A ps sel :
    (forall p, In p ps -> pipeline gen_keys A p) -> pipeline gen_keys A (mixed_ds ps sel).

Lemma pipeline_batched gen_keys A (ds : MapDs A) : pipeline gen_keys A ds -> batched_ok ds.
Proof.
  induction 1 as [A n src batched Hb|start stop step q Hq|A B f p Hp IH|A B f p Hp IH|A B G f rng p Hp IH
    |A f p Hp IH|A seed p q Hp IH Hq|A w seed p Hp IH|A start stop step p q Hp IH Hq|A indices p Hp IH
    |A n reseed p q Hp IH Hq|A ps q Hp IH Hq|A B m f p Hp IH|A B pushdown b drop fn p q Hp IH Hq
    |A ps props q Hp IH Hq|A ps q Hp IH Hq|A ps sel Hp IH].
  - unfold source_ds. destruct batched as [b|]; [|apply default_ok].
    intros idx vs. cbn [mget mgetitems]. rewrite bind_Ok_iff, map_bind_Ok.
    split; intros (js & H1 & H2); exists js; (split; [now apply sequence_Ok_iff|now apply Hb]).
  - unfold range_ds in Hq. destruct (step =? 0); [easy|]. injection Hq as <-. apply default_ok.
  - now apply elementwise_ok.
  - intros idx vs. cbn [mget mgetitems map_with_index_ds]. rewrite bind_Ok_iff.
    pose proof (indexed_ok (fun i => map_element (f i)) p idx vs) as Hi. rewrite Hi. clear Hi.
    split; intros (es & H1 & H2); exists es; (split; [now apply IH|now apply sequence_Ok_iff]).
  - intros idx vs. cbn [mget mgetitems random_map_ds]. rewrite bind_Ok_iff.
    pose proof (indexed_ok (fun i => map_element (fun x => f x (rng i))) p idx vs) as Hi. rewrite Hi. clear Hi.
    split; intros (es & H1 & H2); exists es; (split; [now apply IH|]).
    + apply sequence_Ok_iff in H2. now rewrite combine_swap, map_map in H2.
    + apply sequence_Ok_iff. now rewrite combine_swap, map_map.
  - now apply elementwise_ok.
  - unfold shuffle_ds in Hq. destruct ((seed <? 0) || (seed >=? 2 ^ 32)); [easy|]. cbv zeta in Hq. injection Hq as <-.
    now apply reindexed_ok.
  - now apply reindexed_ok.
  - unfold slice_ds in Hq. apply bind_Ok_iff in Hq as ([[a b] c] & _ & Hq). cbv zeta in Hq. injection Hq as <-.
    now apply reindexed_ok.
  - now apply reindexed_ok.
  - unfold repeat_ds in Hq. destruct (match n with Some _ => _ | None => _ end); [easy|].
    destruct (mlen p >=? maxsize); [easy|]. injection Hq as <-. now apply reindexed_ok.
  - eapply zip_ok; eauto.
  - apply default_ok.
  - unfold batch_ds in Hq. destruct (b <=? 0); [easy|]. cbv zeta in Hq. injection Hq as <-. apply default_ok.
  - unfold mix_ds in Hq. apply bind_Ok_iff in Hq as (sel & _ & Hq). injection Hq as <-. now apply mixed_ok.
  - unfold concatenate_ds in Hq. apply bind_Ok_iff in Hq as (sel & _ & Hq). injection Hq as <-. now apply mixed_ok.
  - now apply mixed_ok.
Qed.
