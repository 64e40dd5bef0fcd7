(** Property C71: mp_prefetch over interleaved datasets. *)
From Verif Require Import Base ListFacts Iter IterSpec IterLaw Interleave InterleaveSpec Interleave_proofs Prop_Interleave
  Scheduled Scheduled_proofs Multiprocess MultiprocessSpec Multiprocess_proofs ElasticJob_proofs MpInterleave MpInterleaveSpec MpInterleave_proofs.

Local Ltac spl := repeat match goal with |- _ /\ _ => split end.

(** For all datasets that keep the contract, every number of workers up to the number of datasets, cycle length, buffer size
    and running of the processes and threads: reading gives the interleaved elements, and these exist.  (Reading does not
    depend on the states at the start, [whole] = false; see below for these.) *)
Theorem C71_elements {S C A} used json (D : list (hiter S C A)) ls cycle_length truthy W buffer_size keep r :
  (forall c, truthy c = true) -> Forall2 (fun h l => renewable (h_it h) l true used json) D ls ->
  (1 <= cycle_length)%nat -> (1 <= W <= length D)%nat -> (1 <= buffer_size)%nat ->
  (exists outs out, files_read W cycle_length ls outs out) /\
  forall outs out, files_read W cycle_length ls outs out ->
    elements (mp_files D cycle_length truthy false W buffer_size keep r) (map snd out).
Proof.
  intros Ht HL Hcyc HW Hb. pose proof (Forall2_length _ _ _ HL) as Hlen. split.
  - assert (G : forall k, (k <= W)%nat -> exists outs, length outs = k /\
      forall i o, nth_error outs i = Some o -> interleaved (Nat.min cycle_length (length (stride W i ls))) (stride W i ls) o).
    { induction k as [|k IH]; intros Hk; [exists []; split; [easy|]; intros [|i] o; discriminate|].
      destruct (IH ltac:(lia)) as (outs & El & Ho).
      destruct (interleaved_exists (Nat.min cycle_length (length (stride W k ls))) (stride W k ls)) as (o & Hk').
      { pose proof (files_length W k ls 1 ltac:(lia) ltac:(lia) ltac:(lia)). lia. }
      exists (outs ++ [o]). split; [rewrite app_length, El; cbn; lia|]. intros i o' Hi.
      destruct (Nat.lt_ge_cases i k) as [Hl|Hl]; [rewrite nth_error_app1 in Hi by lia; now apply Ho|].
      rewrite nth_error_app2 in Hi by lia. destruct (i - length outs)%nat as [|m] eqn:Em; [|now destruct m].
      cbn in Hi. injection Hi as <-. now replace i with k by lia. }
    destruct (G W ltac:(lia)) as (outs & El & Ho).
    destruct (interleaved_exists W (map (map snd) outs) ltac:(lia)) as (out & Hout). exists outs, out. unfold files_read. auto.
  - intros outs out (El & Ho & Hout). unfold mp_files.
    assert (R : Forall2 (fun p l => renewable p l true false json) (file_workers D cycle_length truthy false W buffer_size keep r) (map (map snd) outs)).
    { apply (workers_renewable used json D ls); auto; try lia; try easy. intros i o Hi.
      rewrite (stride_length_eq W i D ls ltac:(lia) Hlen). now apply Ho. }
    assert (Hp : places (file_workers D cycle_length truthy false W buffer_size keep r) W = W)
      by (unfold places, file_workers; rewrite map_length, seq_length; lia).
    apply (proj2 (interleave_elements _ _ W keep _ false json R ltac:(rewrite Hp; lia))). now rewrite Hp.
Qed.

(** Every element of every dataset comes once, and the elements of a dataset come in its order: for every [P] that only
    elements of dataset [d] satisfy, those come as they are in the dataset. *)
Theorem C71_complete {A} W cycle_length (ls : list (list A)) outs out : (1 <= W)%nat -> files_read W cycle_length ls outs out ->
  Permutation (map snd out) (concat ls) /\
  forall d (P : A -> bool), (d < length ls)%nat -> (forall d' x, In x (nth d' ls []) -> P x = true -> d' = d) ->
    filter P (map snd out) = filter P (nth d ls []).
Proof.
  intros HW (El & Ho & Hout).
  destruct (C34_each_dataset_complete W _ _ Hout) as (P1 & O1).
  assert (Hw : forall i o, nth_error outs i = Some o -> Permutation (map snd o) (concat (stride W i ls)) /\ forall j, of_dataset j o = nth j (stride W i ls) []).
  { intros i o Hi. exact (C34_each_dataset_complete _ _ _ (Ho i o Hi)). }
  split.
  - rewrite P1.
    assert (E : Permutation (concat (map (map snd) outs)) (concat (map (fun i => concat (stride W i ls)) (seq 0 W)))).
    { replace (seq 0 W) with (seq 0 (length outs)) by now rewrite El. clear - Hw.
      assert (G : forall k (outs : list (list (nat * A))), (forall i o, nth_error outs i = Some o -> Permutation (map snd o) (concat (stride W (k + i) ls))) ->
        Permutation (concat (map (map snd) outs)) (concat (map (fun i => concat (stride W i ls)) (seq k (length outs))))).
      { clear. intros k outs. revert k. induction outs as [|o outs IH]; intros k H; [easy|]. cbn [map concat length seq]. apply Permutation_app.
        - specialize (H 0%nat o eq_refl). now rewrite Nat.add_0_r in H.
        - apply IH. intros i o' Hi. specialize (H (Datatypes.S i) o' Hi). now rewrite Nat.add_succ_r in H. }
      apply (G 0%nat). intros i o Hi. now apply Hw. }
    rewrite E. clear - HW.
    pose proof (proj1 (C34_each_dataset_complete W _ _ (interleaved_strides W ls HW))) as Hp. rewrite turns_snd in Hp.
    assert (E : concat (map (fun i => concat (stride W i ls)) (seq 0 W)) = concat (concat (strides W ls))).
    { unfold strides. induction (seq 0 W) as [|i l IH]; [easy|]. cbn [map concat]. now rewrite concat_app, IH. }
    rewrite E. clear E. symmetry. induction Hp as [|x l l' _ IH|x y l|l l' l'' _ IH1 _ IH2]; cbn [concat]; [easy|now apply Permutation_app_head| |now transitivity (concat l')].
    rewrite !app_assoc. apply Permutation_app_tail, Permutation_app_comm.
  - intros d P Hd Hone.
    assert (Hdm : (d = d mod W + (d / W) * W)%nat) by (pose proof (Nat.div_mod d W ltac:(lia)); lia).
    pose proof (Nat.mod_upper_bound d W ltac:(lia)) as Hmod.
    assert (Hin : forall i o j x, nth_error outs i = Some o -> In (j, x) o -> P x = true -> (i + j * W)%nat = d).
    { intros i o j x Hi Hx Hp. destruct (Hw i o Hi) as (_ & Hof). specialize (Hof j).
      assert (Hx' : In x (of_dataset j o)). { unfold of_dataset. apply in_map_iff. exists (j, x). split; [easy|]. apply filter_In. split; [exact Hx|]. cbn. apply Nat.eqb_refl. }
      rewrite Hof, nth_strided in Hx' by lia. now apply (Hone _ x). }
    rewrite (filter_one P out (d mod W)).
    + rewrite O1. rewrite nth_indep with (d' := map (@snd nat A) []) by (rewrite map_length, El; exact Hmod). rewrite map_nth.
      destruct (nth_error outs (d mod W)) as [o|] eqn:Eo; [|apply nth_error_None in Eo; lia].
      rewrite (nth_error_nth _ _ _ Eo). rewrite (filter_one P o (d / W)).
      * rewrite (proj2 (Hw _ _ Eo)), nth_strided by lia. now rewrite <- Hdm.
      * intros j x Hx Hp. pose proof (Hin _ _ _ _ Eo Hx Hp) as E. nia.
    + intros i x Hx Hp.
      assert (Hx' : In x (of_dataset i out)). { unfold of_dataset. apply in_map_iff. exists (i, x). split; [easy|]. apply filter_In. split; [exact Hx|]. cbn. apply Nat.eqb_refl. }
      rewrite O1 in Hx'. destruct (nth_error outs i) as [o|] eqn:Eo.
      * rewrite nth_indep with (d' := map (@snd nat A) []) in Hx' by (rewrite map_length; apply nth_error_Some; now rewrite Eo). rewrite map_nth, (nth_error_nth _ _ _ Eo) in Hx'.
        apply in_map_iff in Hx' as ([j y] & <- & Hy). pose proof (Hin _ _ _ _ Eo Hy Hp) as E.
        assert (Hi : (i < W)%nat) by (rewrite <- El; apply nth_error_Some; now rewrite Eo).
        rewrite <- E. rewrite Nat.mod_add by lia. now rewrite Nat.mod_small.
      * rewrite nth_overflow in Hx' by (rewrite map_length; now apply nth_error_None). easy.
Qed.

(** Checkpoints, as the code makes them ([whole] = true): with one worker always, with more if every worker has at least
    [cycle_length] datasets and the iterators of all datasets start in the same state.  Then for all histories of next, get_state,
    restart and restoring into new iterators the pipeline is a cursor into the interleaved elements. *)
Theorem C71_checkpoints {S C A} used json (D : list (hiter S C A)) ls cycle_length truthy W buffer_size keep r outs out :
  (forall c, truthy c = true) -> Forall2 (fun h l => renewable (h_it h) l true used json) D ls ->
  (1 <= cycle_length)%nat -> (1 <= W <= length D)%nat -> (1 <= buffer_size)%nat ->
  (W = 1%nat \/ ((W * cycle_length <= length D)%nat /\ exists c0, forall h, In h D -> h_get h (h_init h) = c0)) ->
  files_read W cycle_length ls outs out ->
  let ps := file_workers D cycle_length truthy true W buffer_size keep r in
  exists N, forall fuel ops, (N <= fuel)%nat -> loads_new true ops = true -> (json = false -> no_json ops = true) ->
    il_run (embed ps) W keep (fun _ => true) (json_of (embed ps)) fuel ops (il_init (embed ps) W) [] = cursor (map snd out) ops 0 [].
Proof.
  intros Ht HL Hcyc HW Hb Hst (El & Ho & Hout) ps. pose proof (Forall2_length _ _ _ HL) as Hlen.
  assert (R : Forall2 (fun p l => renewable p l true false json) ps (map (map snd) outs)).
  { apply (workers_renewable used json D ls); auto; try lia.
    - intros _ H2. destruct Hst as [Hst|Hst]; [lia|exact Hst].
    - intros i o Hi. rewrite (stride_length_eq W i D ls ltac:(lia) Hlen). now apply Ho. }
  assert (Hp : places ps W = W) by (unfold places, ps, file_workers; rewrite map_length, seq_length; lia).
  destruct (interleave_history ps _ W keep (fun _ => true) false json out R ltac:(rewrite Hp; lia) ltac:(easy)) as (N & H).
  { now rewrite Hp. }
  exists N. intros fuel ops Hf Hl Hj. apply H; auto. now apply loads_new_saves.
Qed.

(** ** Examples *)

Lemma list_h_renewable l : renewable (h_it (list_h l)) l true true true.
Proof.
  exists 0%nat, (fun s p => s = p /\ (p <= length l)%nat), (fun c p => c = p). split.
  - split; [easy|cbn; lia].
  - intros s p H. apply H.
  - intros fuel s p a _ (-> & Hp) Ha. exists (Datatypes.S p). cbn. rewrite Ha. split; [easy|]. split; [easy|].
    assert (p < length l)%nat by (apply nth_error_Some; now rewrite Ha). lia.
  - intros fuel s _ _ (-> & _). exists (length l). cbn. rewrite (proj2 (nth_error_None l (length l))) by lia. easy.
  - intros s p (-> & _). easy.
  - easy.
  - intros fuel c p _ -> [Hp|[-> _]]; eexists; (split; [reflexivity|]); split; easy || lia.
  - intros fuel s q c p _ _ _ -> [Hp|[-> _]]; eexists; (split; [reflexivity|]); split; easy || lia.
Qed.
Definition four_files := [[0; 1; 2]; [10; 11]; [20]; [30; 31; 32]].
Lemma four_renewable : Forall2 (fun h l => renewable (h_it h) l true true true) (map list_h four_files) four_files.
Proof. repeat constructor; apply list_h_renewable. Qed.

(** Two workers with two files each, one at a time. *)
Example C71_example : exists outs out, files_read 2 1 four_files outs out /\ map snd out = [0; 10; 1; 11; 2; 30; 20; 31; 32].
Proof.
  exists [[(0%nat, 0); (0%nat, 1); (0%nat, 2); (1%nat, 20)]; [(0%nat, 10); (0%nat, 11); (1%nat, 30); (1%nat, 31); (1%nat, 32)]].
  eexists. split.
  - split; [reflexivity|]. split.
    + intros [|[|i]] o Hi; cbn in Hi; [injection Hi as <-|injection Hi as <-|now destruct i]; unfold interleaved, numbered; cbn;
        repeat (round_robin; try (apply robin_stop; now intros ? [])).
    + unfold interleaved, numbered; cbn; round_robin.
  - reflexivity.
Qed.
Example C71_elements_example keep r : exists out : list (nat * Z), map snd out = [0; 10; 1; 11; 2; 30; 20; 31; 32] /\
  elements (mp_files (map list_h four_files) 1 (fun _ => true) false 2 3 keep r) (map snd out).
Proof.
  destruct C71_example as (outs & out & F & E). exists out. split; [exact E|].
  apply (proj2 (C71_elements true true _ _ 1 (fun _ => true) 2 3 keep r ltac:(easy) four_renewable ltac:(lia) ltac:(cbn; lia) ltac:(lia)) outs out F).
Qed.
Example C71_complete_example outs out : files_read 2 1 four_files outs out ->
  filter (fun x => (10 <=? x) && (x <? 20)) (map snd out) = [10; 11].
Proof.
  intros F. destruct (C71_complete 2 1 four_files outs out ltac:(lia) F) as (_ & H).
  rewrite (H 1%nat); [reflexivity|cbn; lia|]. intros d x Hx Hp.
  destruct d as [|[|[|[|d]]]]; cbn in Hx; try (now destruct d); destruct Hx as [<-|Hx]; try discriminate; try easy; repeat (destruct Hx as [<-|Hx]; try discriminate; try easy).
Qed.
(** Two workers, one file at a time: the guard is met, and the checkpoints are right, taken before the first element, in the
    middle and from a restored iterator. *)
Example C71_checkpoints_example keep r : let ps := file_workers (map list_h four_files) 1 (fun _ => true) true 2 3 keep r in
  exists N, forall fuel, (N <= fuel)%nat ->
    il_run (embed ps) 2 keep (fun _ => true) (json_of (embed ps)) fuel
      [OSave; ONext; ONext; ONext; OSave; ONext; ORestart; OLoad 1 true; ONext; OSave; ORestart; OLoad 0 true; ONext; ORestart; OLoad 2 false; ONext]
      (il_init (embed ps) 2) [] =
    [Saved; Got (Yield 0); Got (Yield 10); Got (Yield 1); Saved; Got (Yield 11); Restarted; Loaded; Got (Yield 11); Saved; Restarted; Loaded;
     Got (Yield 0); Restarted; Loaded; Got (Yield 2)].
Proof.
  intros ps. destruct C71_example as (outs & out & F & E).
  destruct (C71_checkpoints true true _ _ 1 (fun _ => true) 2 3 keep r outs out ltac:(easy) four_renewable ltac:(lia) ltac:(cbn; lia) ltac:(lia)) as (N & H).
  - right. split; [cbn; lia|]. exists 0%nat. intros h Hh. apply in_map_iff in Hh as (l & <- & _). reflexivity.
  - exact F.
  - exists N. intros fuel Hf. fold ps in H. rewrite H; [rewrite E; reflexivity|exact Hf|reflexivity|discriminate].
Qed.

(** ** Where it fails *)

(** The guard cannot be dropped.  A checkpoint taken before the first element holds, for every worker, the state of an iterator made
    in the main process, which reads all datasets.  With four files, two workers and cycle_length 4 it has four places
    while a worker has two files: the restored iterator fails. *)
Definition in_turn : running := mkRunning (fun _ i => (Nat.even i, 1%nat)) (fun _ i => (Nat.even i, 1%nat)) (fun _ => false).
Theorem C71_start_refuted keep : let ps := file_workers (map list_h four_files) 4 (fun _ => true) true 2 1 keep in_turn in
  (exists outs out, files_read 2 4 four_files outs out) /\
  il_run (embed ps) 2 keep (fun _ => true) (json_of (embed ps)) 30 [OSave; ORestart; OLoad 0 false; ONext] (il_init (embed ps) 2) [] =
    [Saved; Restarted; Loaded; Got (Fail IndexError)] /\
  il_run (embed ps) 2 keep (fun _ => true) (json_of (embed ps)) 30 [ONext; ONext; OSave; ORestart; OLoad 0 false; ONext] (il_init (embed ps) 2) [] =
    [Got (Yield 0); Got (Yield 10); Saved; Restarted; Loaded; Got (Yield 20)].
Proof.
  intros ps. split.
  - apply (C71_elements true true _ _ 4 (fun _ => true) 2 1 keep in_turn ltac:(easy) four_renewable ltac:(lia) ltac:(cbn; lia) ltac:(lia)).
  - destruct keep; split; vm_compute; reflexivity.
Qed.

(** Nor can the second part: datasets whose states at the start differ (here the state is what is still to be read).  Four
    files, two workers, cycle_length 1: the second worker is given the state of the first file, and elements are read twice
    and lost without an error. *)
Definition rest_h (l : list Z) : hiter (list Z) (list Z) Z :=
  {| h_init := l; h_next := fun _ s => match s with [] => (Stop, []) | x :: s' => (Yield x, s') end;
     h_get := fun s => s; h_set := fun _ _ c => Ok c; h_json := fun c => c |}.
Lemma rest_renewable l : renewable (h_it (rest_h l)) l true true true.
Proof.
  exists 0%nat, (fun s p => s = skipn p l /\ (p <= length l)%nat), (fun c p => c = skipn p l). split.
  - split; [easy|cbn; lia].
  - intros s p H. apply H.
  - intros fuel s p a _ (-> & Hp) Ha. exists (skipn (Datatypes.S p) l). cbn. rewrite (skipn_nth_cons l p a Ha). split; [easy|]. split; [easy|].
    assert (p < length l)%nat by (apply nth_error_Some; now rewrite Ha). lia.
  - intros fuel s _ _ (-> & _). exists []. cbn. now rewrite skipn_all.
  - intros s p (-> & _). easy.
  - easy.
  - intros fuel c p _ -> [Hp|[-> _]]; eexists; (split; [reflexivity|]); split; easy || lia.
  - intros fuel s q c p _ _ _ -> [Hp|[-> _]]; eexists; (split; [reflexivity|]); split; easy || lia.
Qed.
Theorem C71_start_states_refuted keep : let ps := file_workers (map rest_h four_files) 1 (fun _ => true) true 2 1 keep in_turn in
  Forall2 (fun h l => renewable (h_it h) l true true true) (map rest_h four_files) four_files /\
  il_run (embed ps) 2 keep (fun _ => true) (json_of (embed ps)) 30 [OSave; ONext; ONext; ORestart; OLoad 0 false; ONext; ONext; ONext; ONext] (il_init (embed ps) 2) [] =
    [Saved; Got (Yield 0); Got (Yield 10); Restarted; Loaded; Got (Yield 0); Got (Yield 0); Got (Yield 1); Got (Yield 1)].
Proof.
  intros ps. split; [repeat constructor; apply rest_renewable|]. destruct keep; vm_compute; reflexivity.
Qed.

(** With more workers than datasets the workers without a dataset fail. *)
Theorem C71_few_datasets_refuted keep : let ps := file_workers (map list_h four_files) 2 (fun _ => true) true 5 1 keep in_turn in
  il_run (embed ps) 5 keep (fun _ => true) (json_of (embed ps)) 30 [ONext; ONext; ONext; ONext; ONext] (il_init (embed ps) 5) [] =
    [Got (Yield 0); Got (Yield 10); Got (Yield 20); Got (Yield 30); Got (Fail IndexError)].
Proof. destruct keep; vm_compute; reflexivity. Qed.
