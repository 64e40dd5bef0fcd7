(** Properties C43-C45: concat-then-split packing. *)
From Coq Require Import Sorted.
From Verif Require Import Base ListFacts MapDatasets Iter IterSpec IterLaw IterBasic_proofs Pipeline_proofs Prop_Iter Packing ConcatSplit ConcatSplitSpec ConcatSplit_proofs ConcatSplitRows_proofs.

(** The values of feature [i] in an emitted row, without the padding. *)
Definition tokens {A} (i : nat) (row : cts_row A) : list A :=
  match nth_error row i with
  | Some (vals, Some (ids, _)) => map fst (filter (fun x => negb (snd x =? 0)) (combine vals ids))
  | _ => []
  end.

(** ** From pieces to tokens *)

Lemma order_sorted {X} (qs : list (nat * X)) :
  (forall i j q r, (i < j)%nat -> nth_error qs i = Some q -> nth_error qs j = Some r -> (fst q <= fst r)%nat) -> StronglySorted le (map fst qs).
Proof.
  induction qs as [|q qs IH]; intros H; cbn; constructor.
  - apply IH. intros i j a b Hij Ha Hb. apply (H (S i) (S j)); easy || lia.
  - apply Forall_forall. intros x Hx. apply in_map_iff in Hx as (r & <- & Hr). apply In_nth_error in Hr as (j & Hj). apply (H 0%nat (S j)); easy || lia.
Qed.
Lemma split_min {A} k (qs : list (@piece A)) : StronglySorted le (map fst qs) -> Forall (fun q => k <= fst q)%nat qs ->
  qs = filter (fun q => Nat.eqb (fst q) k) qs ++ filter (fun q => negb (Nat.eqb (fst q) k)) qs.
Proof.
  induction qs as [|q qs IH]; intros Hs Hk; [easy|]. cbn [map] in Hs. inversion Hs as [|? ? H1 H2]; subst. inversion Hk as [|? ? H3 H4]; subst.
  cbn [filter]. destruct (Nat.eqb_spec (fst q) k) as [E|E]; cbn [negb].
  - cbn [app]. f_equal. now apply IH.
  - assert (Hall : Forall (fun r => fst r <> k) qs).
    { apply Forall_forall. intros r Hr. rewrite Forall_forall in H2. specialize (H2 _ (in_map fst _ _ Hr)). lia. }
    assert (E1 : filter (fun r => Nat.eqb (fst r) k) qs = []).
    { clear -Hall. induction Hall as [|r qs Hr H IH]; cbn; [easy|]. now destruct (Nat.eqb_spec (fst r) k). }
    specialize (IH H1 H4). rewrite E1 in *. cbn [app] in *. now rewrite <- IH.
Qed.
Lemma regroup {A} i (qs : list (@piece A)) m k : StronglySorted le (map fst qs) -> Forall (fun q => k <= fst q < k + m)%nat qs ->
  concat (map (part i) qs) = concat (map (fun j => pieces_of j i qs) (seq k m)).
Proof.
  revert k qs. induction m as [|m IH]; intros k qs Hs Hk.
  - destruct qs as [|q qs]; [easy|]. inversion Hk; lia.
  - assert (Hk' : Forall (fun q => k <= fst q)%nat qs) by (eapply Forall_impl; [|exact Hk]; cbn; lia).
    pose proof (split_min k qs Hs Hk') as E. set (lo := filter (fun q => Nat.eqb (fst q) k) qs) in *. set (hi := filter (fun q => negb (Nat.eqb (fst q) k)) qs) in *.
    assert (Hhi : Forall (fun q => S k <= fst q < S k + m)%nat hi).
    { apply Forall_forall. intros q Hq. apply filter_In in Hq as [Hq Hn]. rewrite Forall_forall in Hk. specialize (Hk q Hq). apply negb_true_iff, Nat.eqb_neq in Hn. lia. }
    assert (Hsh : StronglySorted le (map fst hi)).
    { rewrite E, map_app in Hs. clear -Hs. induction (map fst lo) as [|x xs IH]; [easy|]. cbn in Hs. inversion Hs; subst. now apply IH. }
    cbn [seq map concat]. rewrite E at 1. rewrite map_app, concat_app. f_equal.
    refine (eq_trans (IH (S k) hi Hsh Hhi) _). f_equal. apply map_ext_in. intros j Hj. apply in_seq in Hj.
    assert (En : pieces_of j i lo = []).
    { unfold pieces_of. replace (filter (fun q => Nat.eqb (fst q) j) lo) with (@nil (@piece A)); [easy|]. symmetry.
      assert (Hlo : Forall (fun q => fst q = k) lo) by (apply Forall_forall; intros q Hq; apply filter_In in Hq as [_ Hq]; now apply Nat.eqb_eq in Hq).
      clear -Hlo Hj. induction Hlo as [|r qs' Hr H IH]; cbn; [easy|]. destruct (Nat.eqb_spec (fst r) j); [lia|easy]. }
    transitivity (pieces_of j i (lo ++ hi)); [|now rewrite <- E]. refine (eq_sym (eq_trans (pieces_of_app j i lo hi) _)). now rewrite En.
Qed.
Lemma concat_nth_seq {A} i (l : list (list (list A))) k : concat (map (fun j => nth i (nth (j - k) l []) []) (seq k (length l))) = concat (map (fun e => nth i e []) l).
Proof.
  revert k. induction l as [|e l IH]; intros k; [easy|]. cbn [length seq map concat]. rewrite Nat.sub_diag. cbn [nth]. f_equal.
  rewrite <- (IH (S k)). f_equal. apply map_ext_in. intros j Hj. apply in_seq in Hj. replace (j - k)%nat with (S (j - S k)) by lia. reflexivity.
Qed.

(** Nothing is lost, duplicated or reordered by concatenating and splitting. *)
Lemma stream_of {A} (cfg : config A) l rows i : concatenated_and_split cfg l (fun _ => True) rows -> is_data cfg i ->
  concat (map (fun row => concat (map (part i) row)) rows) = concat (map (fun e => nth i e []) l).
Proof.
  intros H Hi. replace (concat (map (fun row => concat (map (part i) row)) rows)) with (concat (map (part i) (concat rows))).
  2:{ clear. induction rows as [|r rows IH]; [easy|]. cbn [concat map]. now rewrite map_app, concat_app, IH. }
  rewrite (regroup i (concat rows) (length l) 0).
  - rewrite <- (concat_nth_seq i l 0). f_equal. apply map_ext_in. intros j Hj. apply in_seq in Hj. rewrite Nat.sub_0_r.
    destruct (nth_error l j) as [e|] eqn:E; [|apply nth_error_None in E; lia]. rewrite (nth_error_nth _ _ _ E).
    exact (cs_data _ _ _ _ H j e i I E Hi).
  - apply order_sorted. exact (cs_order _ _ _ _ H).
  - apply Forall_forall. intros q Hq. destruct (cs_from _ _ _ _ H q Hq) as (_ & H1 & _). lia.
Qed.

Lemma filter_ids_pos {A} (vals : list A) ids : length vals = length ids -> Forall (fun k => 1 <= k) ids -> map fst (filter (fun x => negb (snd x =? 0)) (combine vals ids)) = vals.
Proof.
  revert ids. induction vals as [|v vals IH]; intros [|k ids] Hl Hp; cbn in *; try easy. inversion Hp; subst. destruct (Z.eqb_spec k 0); [lia|]. cbn. f_equal. apply IH; [lia|easy].
Qed.
Lemma filter_ids_pad {A} (z : A) n : map fst (filter (fun x => negb (snd x =? 0)) (combine (List.repeat z n) (List.repeat 0 n))) = [].
Proof. induction n; cbn; easy. Qed.
Lemma segment_ids_pos {A} k (col : list (list A)) : 1 <= k -> Forall (fun x => 1 <= x) (segment_ids k col).
Proof.
  revert k. induction col as [|q col IH]; intros k Hk; cbn; [constructor|]. apply Forall_app. split; [|apply IH; lia].
  apply Forall_forall. intros x Hx. apply repeat_spec in Hx. lia.
Qed.
Lemma used_length {A} i (row : list (@piece A)) : length (concat (map (part i) row)) = used i row.
Proof. unfold used. rewrite concat_length'. now rewrite map_map. Qed.
Lemma combine_app_eq {X Y} (a b : list X) (c d : list Y) : length a = length c -> combine (a ++ b) (c ++ d) = combine a c ++ combine b d.
Proof. revert c. induction a as [|x a IH]; intros [|y c] H; cbn in *; try easy. f_equal. apply IH. lia. Qed.

Lemma show_features_nth {A} (cfg : config A) k fs row i f : nth_error fs i = Some f -> nth_error (show_features cfg k fs row) i = Some (show_feature cfg (k + i) f row).
Proof.
  revert k i. induction fs as [|g fs IH]; intros k [|i] E; cbn in *; try easy.
  - inversion E; subst. now rewrite Nat.add_0_r.
  - rewrite (IH (S k) i E). now rewrite Nat.add_succ_r.
Qed.
(** The tokens of an emitted row are those of its pieces. *)
Lemma tokens_show {A} (cfg : config A) row i f : nth_error (cs_feats cfg) i = Some f -> cf_meta f = false ->
  tokens i (show_row cfg row) = concat (map (with_bos cfg f) (map (part i) row)).
Proof.
  intros Hi Hm. unfold tokens, show_row. rewrite (show_features_nth cfg 0 _ row i f Hi). cbn [Nat.add]. unfold show_feature. rewrite Hm.
  set (col := map (part i) row). unfold pad.
  assert (E : length (concat (map (with_bos cfg f) col)) = length (segment_ids 1 col)).
  { rewrite segment_ids_length, concat_length', map_map. f_equal. apply map_ext. intros q. apply with_bos_length. }
  rewrite <- E. rewrite combine_app_eq by easy. rewrite filter_app, map_app, filter_ids_pad, app_nil_r. apply filter_ids_pos; [easy|]. now apply segment_ids_pos.
Qed.
Lemma no_bos {A} (cfg : config A) f (col : list (list A)) : cs_bos cfg = None -> map (with_bos cfg f) col = col.
Proof. intros H. rewrite <- (map_id col) at 2. apply map_ext. intros q. unfold with_bos. rewrite H. now destruct (cf_bos f). Qed.

Lemma merge_right_nil {X} (xs zs : list X) : merge xs [] zs -> zs = xs.
Proof. remember (@nil X) as ys. induction 1; subst; try easy. f_equal. now apply IHmerge. Qed.
Lemma all_rows {A} (cfg : config A) l out : cs_split_full cfg = true -> cts_output cfg l out ->
  exists rows, concatenated_and_split cfg l (fun _ => True) rows /\ out = map (show_row cfg) rows.
Proof.
  intros Hs (rows & full & all & H & Hf & _ & Hm & ->). exists rows.
  assert (Hn : forall k, ~ passed cfg l k) by (intros k [H1 _]; congruence).
  assert (full = []) as -> by (destruct full as [|k full]; [easy|]; exfalso; apply (Hn k), Hf; now left).
  apply merge_right_nil in Hm as ->. split; [|easy]. destruct H as [H1 H2 H3 H4 H5 H6 H7 H8 H9]. split; try easy.
  - intros q Hq. now destruct (H3 q Hq) as (_ & ?).
  - intros k _. now apply H4.
  - intros k e i _. now apply H5.
Qed.

(** ** C43: one data feature *)

(** What is emitted for one data feature (and any meta features), elements of any lengths, both
    values of split_full_length_features, with and without BOS tokens: see ConcatSplitSpec.v. *)
Theorem C43_rows {A} (cfg : config A) (p : Iter (list (value A))) l used json :
  good_config cfg -> accepted cfg -> one_data_feature cfg -> lawful p l true used json -> Forall (good_element cfg) l ->
  exists it out, dataset_of cfg p = Ok it /\ elements it out /\ cts_output cfg (map values_of l) out.
Proof.
  intros Hc Ha _ HL Hg. destruct (cts_lawful cfg p l true used json Hc Ha HL Hg) as (it & out & E & Hl & Ho & _).
  exists it, out. split; [exact E|]. split; [exact (lawful_elements _ _ _ _ Hl)|now apply Ho].
Qed.

(** A single feature: the rows without padding are the stream of tokens, cut every [len] tokens. *)
Theorem C43_one_feature {A} len (zero : A) (p : Iter (list (value A))) (l : list (value A)) used json :
  (1 <= len)%nat -> lawful p (map (fun v => [v]) l) true used json ->
  exists it out, concat_split_dataset [mkCfeat len false false] true false None zero p = Ok it /\ elements it out /\
    concat (map (tokens 0) out) = concat (map vlist l) /\
    (forall k row, nth_error out k = Some row -> (S k < length out)%nat -> length (tokens 0 row) = len) /\
    (forall row, In row out -> exists ids pos, row = [(tokens 0 row ++ List.repeat zero (len - length (tokens 0 row)), Some (ids, pos))] /\ (length (tokens 0 row) <= len)%nat).
Proof.
  intros Hlen HL. set (cfg := mkConfig [mkCfeat len false false] true None zero).
  assert (Hc : good_config cfg) by (constructor; [cbn; split; [exact Hlen|easy]|constructor]).
  assert (Ha : accepted cfg) by (split; [discriminate|easy]).
  assert (Hmeta : forall i, ~ is_meta cfg i) by (intros [|[|i]] (f & Hf & Hm); cbn in Hf; try discriminate; inversion Hf; subst; discriminate).
  assert (Hg : Forall (good_element cfg) (map (fun v => [v]) l)).
  { apply Forall_forall. intros e He. apply in_map_iff in He as (v & <- & _). split; [easy|]. split; [intros i Hi; now apply Hmeta in Hi|]. split; now left. }
  destruct (cts_lawful cfg p _ true used json Hc Ha HL Hg) as (it & out & E & Hl & Ho & _).
  specialize (Ho eq_refl). apply all_rows in Ho as (rows & Hr & ->); [|easy].
  exists it, (map (show_row cfg) rows). split; [exact E|]. split; [exact (lawful_elements _ _ _ _ Hl)|].
  assert (Ht : forall row, tokens 0 (show_row cfg row) = concat (map (part 0) row)).
  { intros row. rewrite (tokens_show cfg row 0 (mkCfeat len false false)) by easy. now rewrite no_bos. }
  assert (Hd : is_data cfg 0) by (now exists (mkCfeat len false false)).
  split; [|split].
  - rewrite map_map. rewrite (map_ext _ _ Ht). rewrite (stream_of cfg _ rows 0 Hr Hd). rewrite !map_map. reflexivity.
  - intros k row Hk Hlt. rewrite map_length in Hlt. rewrite nth_error_map in Hk. destruct (nth_error rows k) as [r|] eqn:Er; [|easy].
    assert (row = show_row cfg r) as -> by (cbn [option_map] in Hk; congruence). rewrite Ht, used_length. destruct (nth_error rows (S k)) as [r'|] eqn:Er'; [|apply nth_error_None in Er'; lia].
    destruct r' as [|q r']; [exfalso; apply (cs_nonempty _ _ _ _ Hr [] (nth_error_In _ _ Er')); easy|].
    destruct (cs_full _ _ _ _ Hr k r q r' Er Er') as [(i & Hi & _)|[_ (i & (f & Hf & Hm) & Hu & _)]]; [now apply Hmeta in Hi|].
    destruct i as [|[|i]]; [exact Hu|discriminate|discriminate].
  - intros row Hrow. apply in_map_iff in Hrow as (r & <- & Hin). rewrite Ht.
    pose proof (cs_room _ _ _ _ Hr r 0 Hin ltac:(cbn; lia)) as Hu. change (limit cfg 0) with len in Hu. rewrite <- used_length in Hu.
    cbn [show_row show_features cs_feats]. unfold show_row. cbn [cs_feats cfg show_features]. unfold show_feature, pad. cbn [cf_meta cf_len]. rewrite no_bos by easy.
    eexists _, _. split; [reflexivity|exact Hu].
Qed.

(** Two elements of 5 and 2 tokens, rows of 3 tokens. *)
Definition cts_source {A} (f : Z -> list (value A)) (n : Z) : Iter (list (value A)) := retype f (srcz n).
Lemma cts_source_lawful {A} (f : Z -> list (value A)) n : (0 < n)%nat -> lawful (cts_source f (Z.of_nat n)) (map f (zrange 0 n)) true true true.
Proof. intros Hn. apply lawful_retype. now apply srcz_lawful. Qed.
Definition nums (a n : Z) : list Z := zrange a (Z.to_nat n).
Example C43_example : exists it out, concat_split_dataset [mkCfeat 3 false false] true false None 0
    (cts_source (fun x => [Array (if x =? 0 then [1; 2; 3; 4; 5] else [6; 7])]) 2) = Ok it /\ elements it out /\
  out = [[([1; 2; 3], Some ([1; 1; 1], [0; 1; 2]))]; [([4; 5; 6], Some ([1; 1; 2], [0; 1; 0]))]; [([7; 0; 0], Some ([1; 0; 0], [0; 0; 0]))]].
Proof.
  eexists _, _. split; [reflexivity|]. split; [|reflexivity]. exists 20%nat. intros fuel Hf. do 20 (destruct fuel as [|fuel]; [lia|]). vm_compute. reflexivity.
Qed.
Example C43_hypotheses : lawful (cts_source (fun x => [Array (if x =? 0 then [1; 2; 3; 4; 5] else [6; 7])]) 2)
  (map (fun v => [v]) [Array [1; 2; 3; 4; 5]; Array [6; 7]]) true true true.
Proof. exact (cts_source_lawful _ 2 ltac:(lia)). Qed.

(** The documentation says that positions "indicate the position within the unpacked sequence".
    They start at 0 again in the rest of an element that has been split. *)
Theorem C43_positions_refuted : exists (p : Iter (list (value Z))) it,
  elements p [[Array [7; 8; 9]]] /\ concat_split_dataset [mkCfeat 2 false false] true false None 0 p = Ok it /\
  elements it [[([7; 8], Some ([1; 1], [0; 1]))]; [([9; 0], Some ([1; 0], [0; 0]))]].
Proof.
  eexists (cts_source (fun _ => [Array [7; 8; 9]]) 1), _. split; [exact (lawful_elements _ _ _ _ (cts_source_lawful _ 1 ltac:(lia)))|]. split; [reflexivity|].
  exists 20%nat. intros fuel Hf. do 20 (destruct fuel as [|fuel]; [lia|]). vm_compute. reflexivity.
Qed.

(** ** C44: several data features *)

(** If no data feature is longer than a row (and data features are arrays), the rows are those
    of the specification. *)
Theorem C44_rows {A} (cfg : config A) (p : Iter (list (value A))) l used json :
  good_config cfg -> accepted cfg -> lawful p l true used json -> Forall (good_element cfg) l ->
  exists it out, dataset_of cfg p = Ok it /\ elements it out /\ cts_output cfg (map values_of l) out.
Proof.
  intros Hc Ha HL Hg. destruct (cts_lawful cfg p l true used json Hc Ha HL Hg) as (it & out & E & Hl & Ho & _).
  exists it, out. split; [exact E|]. split; [exact (lawful_elements _ _ _ _ Hl)|now apply Ho].
Qed.
(** For each data feature, the rows without padding are the tokens of the elements in order. *)
Theorem C44_streams {A} (cfg : config A) (p : Iter (list (value A))) l used json :
  good_config cfg -> accepted cfg -> cs_bos cfg = None -> cs_split_full cfg = true -> lawful p l true used json -> Forall (good_element cfg) l ->
  exists it out, dataset_of cfg p = Ok it /\ elements it out /\
    forall i, is_data cfg i -> concat (map (tokens i) out) = concat (map (fun e => nth i (values_of e) []) l).
Proof.
  intros Hc Ha Hb Hs HL Hg. destruct (cts_lawful cfg p l true used json Hc Ha HL Hg) as (it & out & E & Hl & Ho & _).
  specialize (Ho eq_refl). apply all_rows in Ho as (rows & Hr & ->); [|easy].
  exists it, (map (show_row cfg) rows). split; [exact E|]. split; [exact (lawful_elements _ _ _ _ Hl)|].
  intros i Hi. pose proof Hi as (f & Hf & Hm). rewrite map_map.
  rewrite (map_ext _ (fun row => concat (map (part i) row))) by (intros row; rewrite (tokens_show cfg row i f) by easy; now rewrite no_bos).
  rewrite (stream_of cfg _ rows i Hr Hi). now rewrite map_map.
Qed.

(** Two data features and a meta feature. *)
Definition C44_config : config Z := mkConfig [mkCfeat 4 false false; mkCfeat 3 false false; mkCfeat 2 true false] true None 0.
Definition C44_elements : list (list (value Z)) := [[Array [1; 2; 3]; Array [10; 11]; Scalar 100]; [Array [4; 5]; Array [12; 13; 14]; Scalar 101]].
Definition C44_element (x : Z) : list (value Z) := nth (Z.to_nat x) C44_elements [].
Lemma C44_good : good_config C44_config /\ accepted C44_config /\ Forall (good_element C44_config) C44_elements.
Proof.
  split; [repeat constructor; cbn; lia|]. split; [split; [discriminate|easy]|].
  assert (Hm : forall i, is_meta C44_config i -> i = 2%nat) by (intros [|[|[|[|i]]]] (f & Hf & H); cbn in Hf; try discriminate; inversion Hf; subst; easy).
  assert (Hd : forall i, is_data C44_config i -> i = 0%nat \/ i = 1%nat) by (intros [|[|[|[|i]]]] (f & Hf & H); cbn in Hf; try discriminate; inversion Hf; subst; auto; discriminate).
  unfold C44_elements. constructor; [|constructor; [|constructor]]; (split; [reflexivity|]); (split; [intros i Hi; apply Hm in Hi as ->; cbn; lia|]);
    (split; [|now left]); right; intros i Hi; apply Hd in Hi as [->| ->]; cbn; (split; [lia|eexists; reflexivity]).
Qed.
Example C44_example : exists it, dataset_of C44_config (cts_source C44_element 2) = Ok it /\
  elements it [[([1; 2; 3; 4], Some ([1; 1; 1; 2], [0; 1; 2; 0])); ([10; 11; 12], Some ([1; 1; 2], [0; 1; 0])); ([100; 101], None)];
               [([5; 0; 0; 0], Some ([1; 0; 0; 0], [0; 0; 0; 0])); ([13; 14; 0], Some ([1; 1; 0], [0; 1; 0])); ([101; 0], None)]].
Proof.
  eexists. split; [reflexivity|]. exists 20%nat. intros fuel Hf. do 20 (destruct fuel as [|fuel]; [lia|]). vm_compute. reflexivity.
Qed.
Example C44_hypotheses : lawful (cts_source C44_element 2) C44_elements true true true.
Proof. exact (cts_source_lawful C44_element 2 ltac:(lia)). Qed.

(** A feature longer than a row, and a second one: the element has 5 tokens of the first feature
    (rows of 10) and 6 of the second (rows of 2). The tokens of the first feature are emitted
    again in the third row. *)
Theorem C44_long_features_refuted : exists (p : Iter (list (value Z))) it out,
  elements p [[Array [1; 2; 3; 4; 5]; Array [11; 12; 13; 14; 15; 16]]] /\
  concat_split_dataset [mkCfeat 10 false false; mkCfeat 2 false false] true false None 0 p = Ok it /\ elements it out /\
  concat (map (tokens 1) out) = [11; 12; 13; 14; 15; 16] /\
  concat (map (tokens 0) out) <> [1; 2; 3; 4; 5].
Proof.
  eexists (cts_source (fun _ => [Array [1; 2; 3; 4; 5]; Array [11; 12; 13; 14; 15; 16]]) 1), _,
    [[([1; 2; 3; 4; 5; 0; 0; 0; 0; 0], Some ([1; 1; 1; 1; 1; 0; 0; 0; 0; 0], [0; 1; 2; 3; 4; 0; 0; 0; 0; 0])); ([11; 12], Some ([1; 1], [0; 1]))];
     [([0; 0; 0; 0; 0; 0; 0; 0; 0; 0], Some ([0; 0; 0; 0; 0; 0; 0; 0; 0; 0], [0; 0; 0; 0; 0; 0; 0; 0; 0; 0])); ([13; 14], Some ([1; 1], [0; 1]))];
     [([1; 2; 3; 4; 5; 0; 0; 0; 0; 0], Some ([1; 1; 1; 1; 1; 0; 0; 0; 0; 0], [0; 1; 2; 3; 4; 0; 0; 0; 0; 0])); ([15; 16], Some ([1; 1], [0; 1]))]].
  split; [exact (lawful_elements _ _ _ _ (cts_source_lawful _ 1 ltac:(lia)))|]. split; [reflexivity|]. split.
  - exists 20%nat. intros fuel Hf. do 20 (destruct fuel as [|fuel]; [lia|]). vm_compute. reflexivity.
  - vm_compute. split; [reflexivity|discriminate].
Qed.

(** "Scalars are treated as 1-dimensional arrays of size 1": a scalar of an element that is split
    is emitted again with the rest; an array of size 1 is not. *)
Theorem C44_scalars_refuted : exists (p q : Iter (list (value Z))) it it' out out',
  elements p [[Array [1; 2; 3]; Scalar 9]] /\ elements q [[Array [1; 2; 3]; Array [9]]] /\
  concat_split_dataset [mkCfeat 2 false false; mkCfeat 2 false false] true false None 0 p = Ok it /\ elements it out /\
  concat_split_dataset [mkCfeat 2 false false; mkCfeat 2 false false] true false None 0 q = Ok it' /\ elements it' out' /\
  concat (map (tokens 1) out) = [9; 9] /\ concat (map (tokens 1) out') = [9].
Proof.
  eexists (cts_source (fun _ => [Array [1; 2; 3]; Scalar 9]) 1), (cts_source (fun _ => [Array [1; 2; 3]; Array [9]]) 1), _, _,
    [[([1; 2], Some ([1; 1], [0; 1])); ([9; 0], Some ([1; 0], [0; 0]))]; [([3; 0], Some ([1; 0], [0; 0])); ([9; 0], Some ([1; 0], [0; 0]))]],
    [[([1; 2], Some ([1; 1], [0; 1])); ([9; 0], Some ([1; 0], [0; 0]))]; [([3; 0], Some ([1; 0], [0; 0])); ([0; 0], Some ([0; 0], [0; 0]))]].
  split; [exact (lawful_elements _ _ _ _ (cts_source_lawful _ 1 ltac:(lia)))|]. split; [exact (lawful_elements _ _ _ _ (cts_source_lawful _ 1 ltac:(lia)))|].
  split; [reflexivity|]. split; [exists 20%nat; intros fuel Hf; do 20 (destruct fuel as [|fuel]; [lia|]); vm_compute; reflexivity|].
  split; [reflexivity|]. split; [exists 20%nat; intros fuel Hf; do 20 (destruct fuel as [|fuel]; [lia|]); vm_compute; reflexivity|].
  vm_compute. split; reflexivity.
Qed.

(** BOS tokens with two data features: a row in which one feature is full and the other has
    place takes an empty piece of the full one, and replacing its first token raises IndexError,
    although every feature of every element has tokens. *)
Theorem C44_bos_refuted : exists (p : Iter (list (value Z))) it,
  elements p [[Array [1; 2]; Array [11]]; [Array [3]; Array [12]]] /\
  concat_split_dataset [mkCfeat 2 false true; mkCfeat 3 false true] true true (Some 77) 0 p = Ok it /\
  forall fuel, (20 <= fuel)%nat -> fst (next it fuel (init it)) = Fail IndexError.
Proof.
  eexists (cts_source (fun x => if x =? 0 then [Array [1; 2]; Array [11]] else [Array [3]; Array [12]]) 2), _.
  split; [exact (lawful_elements _ _ _ _ (cts_source_lawful _ 2 ltac:(lia)))|]. split; [reflexivity|].
  intros fuel Hf. do 20 (destruct fuel as [|fuel]; [lia|]). vm_compute. reflexivity.
Qed.

(** ** C45: checkpoints *)

(** Checkpoints kept in memory continue the same rows from any point, restored in the same or in
    another iterator.  The rows are those of C43 and C44; of a stream of which only the beginning [l] is known, those that are
    complete. *)
Theorem C45_checkpoints {A} (cfg : config A) (p : Iter (list (value A))) l fin used json :
  good_config cfg -> accepted cfg -> lawful p l fin used json -> Forall (good_element cfg) l ->
  exists it out, dataset_of cfg p = Ok it /\ outputs it out fin /\ checkpointable it out fin used false /\
    if fin then cts_output cfg (map values_of l) out else cts_emitted cfg (map values_of l) out.
Proof.
  intros Hc Ha HL Hg. destruct (cts_lawful cfg p l fin used json Hc Ha HL Hg) as (it & out & E & Hl & Ho & Ho').
  exists it, out. split; [exact E|]. split; [exact (lawful_outputs _ _ _ _ _ Hl)|]. split; [exact (lawful_checkpointable _ _ _ _ _ Hl)|].
  destruct fin; auto.
Qed.
Example C45_example : exists it,
  concat_split_dataset [mkCfeat 3 false false] true false None 0 (cts_source (fun x => [Array (if x =? 0 then [1; 2; 3; 4; 5] else [6; 7])]) 2) = Ok it /\
  run it 20 [ONext; OSave; ONext; ONext; OLoad 0 false; ONext; ORestart; OLoad 0 false; ONext] (init it) [] =
    [Got (Yield [([1; 2; 3], Some ([1; 1; 1], [0; 1; 2]))]); Saved; Got (Yield [([4; 5; 6], Some ([1; 1; 2], [0; 1; 0]))]);
     Got (Yield [([7; 0; 0], Some ([1; 0; 0], [0; 0; 0]))]); Loaded; Got (Yield [([4; 5; 6], Some ([1; 1; 2], [0; 1; 0]))]);
     Restarted; Loaded; Got (Yield [([4; 5; 6], Some ([1; 1; 2], [0; 1; 0]))])].
Proof. eexists. split; [reflexivity|]. vm_compute. reflexivity. Qed.

(** A checkpoint passed through JSON, here the one of a new iterator: the next element is lost. *)
Theorem C45_json_refuted : exists (p : Iter (list (value Z))) it,
  elements p [[Array [1; 2]]; [Array [3; 4]]] /\ concat_split_dataset [mkCfeat 2 false false] true false None 0 p = Ok it /\
  elements it [[([1; 2], Some ([1; 1], [0; 1]))]; [([3; 4], Some ([1; 1], [0; 1]))]] /\
  forall fuel, (20 <= fuel)%nat ->
  run it fuel [OSave; OLoad 0 true; ONext; ONext] (init it) [] = [Saved; Loaded; Got (Yield [([3; 4], Some ([2; 2], [0; 1]))]); Got Stop].
Proof.
  eexists (cts_source (fun x => [Array (if x =? 0 then [1; 2] else [3; 4])]) 2), _.
  split; [exact (lawful_elements _ _ _ _ (cts_source_lawful _ 2 ltac:(lia)))|]. split; [reflexivity|].
  split; [exists 20%nat|]; intros fuel Hf; do 20 (destruct fuel as [|fuel]; [lia|]); vm_compute; reflexivity.
Qed.
