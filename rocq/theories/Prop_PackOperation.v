(** C57: the legacy operation PackAndBatchOperation. *)
From Coq Require Import Permutation.
From Verif Require Import Base ListFacts MapDatasets Iter Packing PackingSpec Packing_proofs Samplers DataLoader PackOperation PackOperation_proofs.

(** The operation can be used: there is a feature, and a row and a sequence in it are allowed.  It does not align. *)
Definition packable {A} (fs : list (feature A)) (size : nat) (max_seq : option nat) : Prop :=
  fs <> [] /\ (forall f, In f fs -> alignment f = 1%nat) /\ (1 <= size)%nat /\ max_seq <> Some 0%nat.
Definition operation_on {A} (fs : list (feature A)) size max_seq := pack_operation size (map capacity fs) (map padding fs) max_seq.
(** The batch with the given rows (all of them, also those without elements). *)
Definition batch_of {A} (fs : list (feature A)) (rows : list (list (element A metadata))) : list (list (list A * list Z * list Z)) :=
  map (fun r => fst (show fs r)) rows.
(** The metadata of the last of the records, without its record key. *)
Definition last_metadata {A} (records : list (element A metadata)) (m : metadata) : Prop :=
  exists rs r, records = rs ++ [r] /\ md_index m = md_index (snd r) /\ md_record_key m = None /\ md_rng m = md_rng (snd r).

Lemma max_positive max_seq : max_seq <> Some 0%nat -> match max_seq with Some m => (1 <= m)%nat | None => True end.
Proof. destruct max_seq as [[|m]|]; [easy|lia|easy]. Qed.

(** The records are cut into runs [cs]; each makes a batch by first fit, with every record of the run in one row, the records of
    a row in their order, and the metadata of the last of them.  An operation that starts after any of these batches (at the index in its
    metadata) gives the batches that follow. *)
Theorem C57_batches {A} (fs : list (feature A)) size max_seq (l : list (element A metadata)) :
  packable fs size max_seq -> l <> [] -> Forall (fits_alone fs) l ->
  exists bs cs outs last_batch,
    packs (first_fit_place fs max_seq) size l bs /\ concat cs = l /\
    Forall2 (fun c b => length b = size /\ Permutation (concat b) c /\ Forall (fun r => sub r c) b) cs bs /\
    Forall2 (fun cb out => fst out = batch_of fs (snd cb) /\ last_metadata (fst cb) (snd out)) (combine cs bs) outs /\
    operation_on fs size max_seq None l = (outs, Ok tt, last_batch) /\
    forall k, (k < length cs)%nat -> operation_on fs size max_seq None (concat (skipn k cs)) = (skipn k outs, Ok tt, last_batch).
Proof.
  intros (H1 & H2 & H3 & H4) Hl Hf. apply max_positive in H4.
  assert (St : strategy (M := metadata) fs (first_fit (map capacity fs) (map alignment fs) max_seq) (first_fit_place fs max_seq))
    by now apply (strat fs size max_seq).
  destruct (packs_exist fs size _ _ St H3 l Hf) as (bs & Hbs).
  destruct (operation_batches fs size max_seq H1 H2 H3 H4 l bs Hbs Hl Hf) as (cs & outs & cur & E & F1 & F2 & F3).
  exists bs, cs, outs, cur. split; [exact Hbs|]. split; [exact E|]. split; [exact F1|]. split; [exact F2|]. split; [|exact F3].
  specialize (F3 0%nat). cbn [skipn] in F3. rewrite E in F3. apply F3. destruct cs; [cbn in E; congruence|cbn; lia].
Qed.

(** A record with another structure or a feature longer than a row: ValueError, and no batch with it is emitted. *)
Lemma try_add_bad {A} (fs : list (feature A)) max_seq e b : ~ fits_alone fs e -> try_add (map capacity fs) max_seq e b = Raise ValueError.
Proof.
  intros H. unfold try_add, can_add_at_row. destruct (same_structure (map capacity fs) e) eqn:E; cbn [negb]; [|easy].
  unfold same_structure in E. apply Nat.eqb_eq in E. rewrite map_length in E. now rewrite (too_long_true fs e E H).
Qed.
Theorem C57_bad_record {A} (fs : list (feature A)) size max_seq (l l' : list (element A metadata)) e :
  packable fs size max_seq -> Forall (fits_alone fs) l -> ~ fits_alone fs e ->
  exists outs last_batch, operation_on fs size max_seq None (l ++ e :: l') = (outs, Raise ValueError, last_batch) /\
    (l <> [] -> exists outs' last_batch', operation_on fs size max_seq None l = (outs', Ok tt, last_batch') /\ outs = removelast outs').
Proof.
  intros (H1 & H2 & H3 & H4) Hf He. apply max_positive in H4. unfold operation_on.
  assert (G : forall l (cur : option (@packed_batch A)), Forall (fits_alone fs) l ->
    (cur = None /\ l <> [] \/ exists rs m, rs <> [] /\ cur = Some (map (row_of fs) rs, Some m)) ->
    exists outs last_batch outs' last_batch',
      pack_operation size (map capacity fs) (map padding fs) max_seq cur (l ++ e :: l') = (outs, Raise ValueError, last_batch) /\
      pack_operation size (map capacity fs) (map padding fs) max_seq cur l = (outs', Ok tt, last_batch') /\ outs = removelast outs' /\ outs' <> []).
  { clear l Hf. induction l as [|x l IH]; intros cur Hf Hcur.
    - destruct Hcur as [[_ ?]|(rs & m & Hrs & ->)]; [easy|]. cbn [app pack_operation]. rewrite (try_add_bad fs max_seq e _ He). rewrite packed.
      do 4 eexists. repeat split. easy.
    - inversion Hf as [|? ? Hx Hf']; subst.
      assert (Hstart : exists rs m, rs <> [] /\ match cur with None => new_batch size (map capacity fs) (map padding fs) | Some b => b end = (map (row_of fs) rs, m) /\
        ((forall i, ~ first_fit_place fs max_seq rs x i) -> exists m', m = Some m')).
      { destruct Hcur as [[-> _]|(rs & m & Hrs & ->)].
        - exists (List.repeat [] size), None. split; [destruct size; [lia|easy]|]. split; [apply new_rows; assumption|].
          intros Hn. destruct (new_place fs size max_seq H1 H2 H3 H4 x Hx) as (j & Hj). now apply Hn in Hj.
        - exists rs, (Some m). split; [easy|]. split; [easy|]. eauto. }
      destruct Hstart as (rs & m & Hrs & Eb & Hm). cbn [app pack_operation]. rewrite Eb.
      destruct (try_add_spec fs size max_seq H1 H2 H3 H4 rs m x Hrs Hx) as [(i & r & Hp & Hr & E)|[Hn E]]; rewrite E.
      + apply IH; [exact Hf'|]. right. do 2 eexists. split; [|reflexivity].
        intros E0. apply (f_equal (@length _)) in E0. rewrite update_nth_length in E0. now destruct rs.
      + destruct (Hm Hn) as (m' & ->). rewrite packed.
        assert (Hnew : exists rs' m'', rs' <> [] /\ try_add (map capacity fs) max_seq x (new_batch size (map capacity fs) (map padding fs)) = Ok (Some (map (row_of fs) rs', Some m''))).
        { rewrite (new_rows fs size). assert (Hne : List.repeat (@nil (element A metadata)) size <> []) by (destruct size; [lia|easy]).
          destruct (try_add_spec fs size max_seq H1 H2 H3 H4 _ None x Hne Hx) as [(i & r & _ & _ & E')|[Hn' _]].
          - do 2 eexists. split; [|exact E']. intros E0. apply (f_equal (@length _)) in E0. rewrite update_nth_length, repeat_length in E0. cbn in E0. lia.
          - destruct (new_place fs size max_seq H1 H2 H3 H4 x Hx) as (j & Hj). now apply Hn' in Hj. }
        destruct Hnew as (rs' & m'' & Hrs' & ->).
        destruct (IH (Some (map (row_of fs) rs', Some m'')) Hf') as (o1 & c1 & o2 & c2 & E1 & E2 & E3 & E4); [right; eauto|].
        unfold packed_batch in *. rewrite E1, E2. do 4 eexists. split; [reflexivity|]. split; [reflexivity|]. split; [|easy]. subst o1. now destruct o2. }
  destruct l as [|x l].
  - cbn [app pack_operation]. rewrite (try_add_bad fs max_seq e _ He). do 2 eexists. split; [reflexivity|easy].
  - destruct (G (x :: l) None Hf) as (o1 & c1 & o2 & c2 & E1 & E2 & E3 & _); [now left|]. exists o1, c1. split; [exact E1|]. intros _. now exists o2, c2.
Qed.

(** Findings.  Without records the operation raises (None has no get_packed_batch); with a bound of 0 sequences or 0 rows
    the first record makes it raise AssertionError. *)
Theorem C57_no_records {A} (fs : list (feature A)) size max_seq : operation_on fs size max_seq None [] = ([], Raise InternalError, None).
Proof. reflexivity. Qed.
Theorem C57_no_room {A} (fs : list (feature A)) size max_seq (e : element A metadata) l : fits_alone fs e -> size = 0%nat \/ max_seq = Some 0%nat ->
  fst (operation_on fs size max_seq None (e :: l)) = ([], Raise AssertionError).
Proof.
  intros He H. unfold operation_on. cbn [pack_operation].
  assert (E : try_add (map capacity fs) max_seq e (new_batch size (map capacity fs) (map padding fs)) = Ok None).
  { unfold try_add, can_add_at_row, new_batch. cbn [fst]. destruct (too_long_false fs e He) as [E1 E2]. rewrite E1, E2. cbn [negb bind].
    replace (first_true _) with (@None nat); [easy|]. symmetry. unfold empty_batch. destruct H as [->| ->]; [easy|].
    induction size as [|n IH]; [easy|]. cbn [List.repeat map first_true]. unfold row_is_free at 1. cbn [r_n empty_row Nat.ltb Nat.leb andb]. now rewrite IH. }
  now rewrite E.
Qed.

(** The operation keeps its last batch.  If it is used again (a second pass over a DataLoader without workers, or a restored
    iterator in the same process), the records of that batch are emitted once more. *)
Definition C57_features : list (feature Z) := [mkFeature 3 1 0; mkFeature 4 1 0].
Definition C57_record (i : Z) (n : nat) : element Z metadata := ([List.repeat (10 * i) n; List.repeat (10 * i + 1) (S n)], mkMd i (Some (100 + i)) None).
Definition C57_records : list (element Z metadata) := [C57_record 1 1; C57_record 2 1; C57_record 3 2].
Theorem C57_reuse_refuted : exists outs last_batch outs' last_batch',
  operation_on C57_features 1 None None C57_records = (outs, Ok tt, last_batch) /\
  operation_on C57_features 1 None last_batch C57_records = (outs', Ok tt, last_batch') /\ last_batch' = last_batch /\
  outs = [([[([10; 20; 0], [1; 2; 0], [0; 0; 0]); ([11; 11; 21; 21], [1; 1; 2; 2], [0; 1; 0; 1])]], mkMd 2 None None);
          ([[([30; 30; 0], [1; 1; 0], [0; 1; 0]); ([31; 31; 31; 0], [1; 1; 1; 0], [0; 1; 2; 0])]], mkMd 3 None None)] /\
  outs' = ([[([30; 30; 0], [1; 1; 0], [0; 1; 0]); ([31; 31; 31; 0], [1; 1; 1; 0], [0; 1; 2; 0])]], mkMd 3 None None) :: outs.
Proof. do 4 eexists. split; [vm_compute; reflexivity|]. split; [vm_compute; reflexivity|]. repeat split. Qed.
(** The hypotheses of C57_batches are met by these records. *)
Example C57_example : packable C57_features 1 None /\ Forall (fits_alone C57_features) C57_records.
Proof.
  split; [repeat split; try easy; try lia; intros f [<-|[<-|[]]]; reflexivity|].
  repeat constructor; intros [|[|[|i]]] f Hf; try discriminate; injection Hf as <-; vm_compute; lia.
Qed.
