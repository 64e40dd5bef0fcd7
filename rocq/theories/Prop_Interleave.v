(** Properties C34 and C35: interleave. *)
From Verif Require Import Base ListFacts MapDatasets Iter IterSpec IterLaw IterBasic_proofs Pipeline_proofs Prop_Iter Interleave InterleaveSpec Interleave_proofs.

(** ** C34: what interleave reads *)

(** The places of the cycle of an interleave of [ps]. *)
Definition places {A} (ps : list (Iter A)) (cycle_length : nat) : nat := Nat.min cycle_length (length ps).

Lemma interleaved_exists {A} cl (ls : list (list A)) : (0 < cl)%nat -> exists out, interleaved cl ls out.
Proof. intros H. apply robin_exists. destruct cl; [lia|easy]. Qed.
Lemma numbered_fst {A} (ls : list (list A)) : map fst (numbered ls) = seq 0 (length ls).
Proof. unfold numbered. generalize 0%nat. induction ls as [|l ls IH]; intros i; cbn; [easy|]. f_equal. apply IH. Qed.
Lemma numbered_snd {A} (ls : list (list A)) : map snd (numbered ls) = ls.
Proof. unfold numbered. generalize 0%nat. induction ls as [|l ls IH]; intros i; cbn; [easy|]. f_equal. apply IH. Qed.
Lemma held_repeat {A} m : @held A (List.repeat None m) = [].
Proof. induction m; [easy|]. cbn [List.repeat]. now rewrite held_none. Qed.
Lemma start_distinct {A} cl (ls : list (list A)) : distinct (List.repeat None cl) (numbered ls).
Proof. unfold distinct. rewrite held_repeat, numbered_fst. apply seq_NoDup. Qed.
Lemma rest_of_numbered {A} j (ls : list (list A)) : rest_of j (numbered ls) = nth j ls [].
Proof.
  unfold numbered. assert (H : forall i, rest_of j (combine (seq i (length ls)) ls) = if Nat.ltb j i then [] else nth (j - i) ls []).
  { induction ls as [|l ls IH]; intros i.
    - cbn [length seq combine]. rewrite rest_of_nil. destruct (Nat.ltb j i); [easy|]. now destruct (j - i)%nat.
    - cbn [length seq combine]. rewrite rest_of_cons, IH. cbn [fst snd].
      destruct (Nat.eqb_spec i j) as [Heq|Hne], (Nat.ltb_spec j (S i)), (Nat.ltb_spec j i); try lia; cbn [app]; try easy.
      + subst j. now rewrite Nat.sub_diag, app_nil_r.
      + replace (j - i)%nat with (S (j - S i)) by lia. easy. }
  rewrite H. cbn. now rewrite Nat.sub_0_r.
Qed.

Lemma to_give_drain {A} (ps : list (Iter A)) ls cycle_length keep truthy truthy' used json N rep crep fuel :
  family (embed ps) truthy' ls used json N rep crep -> (enough (embed ps) cycle_length N <= fuel)%nat ->
  forall out s, to_give (embed ps) cycle_length ls rep crep s out ->
  drain (interleave ps cycle_length keep truthy) fuel (S (length (map snd out))) s = (map snd out, Stop).
Proof.
  intros F Hf. induction out as [|[j x] out IH]; intros s Hg.
  - destruct (next_ok _ _ keep _ _ _ _ _ _ _ F fuel s [] Hf Hg) as (s' & E & _). cbn [length map drain]. cbn [interleave interleave_it next ist]. now rewrite E.
  - destruct (next_ok _ _ keep _ _ _ _ _ _ _ F fuel s _ Hf Hg) as (s' & E & Hg' & _). cbn [tl] in Hg'. specialize (IH s' Hg').
    cbn [length map snd] in *.
    change (drain (interleave ps cycle_length keep truthy) fuel (S (S (length (map snd out)))) s) with
      (match il_next (embed ps) cycle_length keep fuel s with
       | (Yield a, s') => let (l, o) := drain (interleave ps cycle_length keep truthy) fuel (S (length (map snd out))) s' in (a :: l, o)
       | (o, _) => ([], o) end).
    rewrite E, IH. reflexivity.
Qed.
Lemma interleave_elements {A} (ps : list (Iter A)) ls cycle_length keep truthy used json :
  Forall2 (fun p l => renewable p l true used json) ps ls -> (0 < places ps cycle_length)%nat ->
  (exists out, interleaved (places ps cycle_length) ls out) /\
  forall out, interleaved (places ps cycle_length) ls out ->
  elements (interleave ps cycle_length keep truthy) (map snd out).
Proof.
  intros HL Hpl. split; [now apply interleaved_exists|]. intros out Ho.
  assert (HL' : Forall2 (fun p l => renewable p l true false false) ps ls).
  { clear - HL. induction HL as [|p l ps ls H HL IH]; constructor; [|exact IH]. now apply (renewable_flags p l true used json). }
  destruct (embed_new_family false false ps ls (fun _ => true) HL' ltac:(easy)) as (N & rep & crep & F & _).
  assert (Hcl : Interleave.cl (embed ps) cycle_length = places ps cycle_length) by (unfold Interleave.cl, places; now rewrite embed_length).
  exists (enough (embed ps) cycle_length N). intros fuel Hf.
  apply (to_give_drain ps ls cycle_length keep truthy _ _ _ N rep crep fuel F Hf). apply (init_gives _ _ _ _ _ _ _ _ _ F); rewrite Hcl; assumption.
Qed.

(** Reading an interleave of datasets with elements [ls] gives the round robin of [ls]. *)
Theorem C34_elements {A} (ps : list (Iter A)) ls cycle_length keep truthy used json :
  Forall2 (fun p l => lawful p l true used json) ps ls -> (0 < places ps cycle_length)%nat ->
  (exists out, interleaved (places ps cycle_length) ls out) /\
  forall out, interleaved (places ps cycle_length) ls out ->
  elements (interleave ps cycle_length keep truthy) (map snd out).
Proof. intros HL. apply (interleave_elements ps ls cycle_length keep truthy used json), all_renewable, HL. Qed.

(** The round robin has every element of every dataset once, in the dataset's order. *)
Theorem C34_each_dataset_complete {A} cl (ls : list (list A)) out : interleaved cl ls out ->
  Permutation (map snd out) (concat ls) /\ forall j, of_dataset j out = nth j ls [].
Proof.
  intros H. split.
  - rewrite (robin_perm _ _ _ H), held_repeat. cbn [app]. now rewrite numbered_snd.
  - intros j. rewrite (robin_of_dataset _ _ _ H (start_distinct cl ls)), held_repeat. apply rest_of_numbered.
Qed.

(** At any time at most [cl] datasets have been started and not finished. *)
Theorem C34_open_datasets {A} cl (ls : list (list A)) pre post : interleaved cl ls (pre ++ post) ->
  forall js, NoDup js -> (forall j, In j js -> In j (map fst pre) /\ In j (map fst post)) -> (length js <= cl)%nat.
Proof.
  intros H js Hnd Hjs. pose proof (robin_open_bound _ _ _ H (start_distinct cl ls) pre post js eq_refl Hnd) as Hb.
  rewrite repeat_length in Hb. apply Hb. intros j Hj. destruct (Hjs j Hj). tauto.
Qed.

(** Between an element of a dataset and its next one there is at most one element of every
    other dataset, and exactly one of a dataset that has been started and is not finished. *)
Theorem C34_fair {A} cl (ls : list (list A)) pre j x mid y post :
  interleaved cl ls (pre ++ (j, x) :: mid ++ (j, y) :: post) -> ~ In j (map fst mid) ->
  (length mid < cl)%nat /\ NoDup (map fst mid) /\
  (forall k, k <> j -> In k (map fst pre) -> In k (map fst (mid ++ post)) -> In k (map fst mid)).
Proof.
  intros H Hj. pose proof (robin_fair _ _ _ H (start_distinct cl ls) _ _ _ _ _ _ eq_refl Hj) as Hb. now rewrite repeat_length in Hb.
Qed.

(** With one place the datasets are concatenated. *)
Theorem C34_one_place {A} (ls : list (list A)) out : interleaved 1 ls out -> map snd out = concat ls.
Proof. intros H. rewrite (robin_one _ _ _ H). cbn. now rewrite numbered_snd. Qed.

(** Three datasets, two places. *)
Definition shifted (k n : Z) : Iter Z := retype (fun x => x + k) (srcz n).
Lemma shifted_lawful k n : (0 < n)%nat -> lawful (shifted k (Z.of_nat n)) (map (fun x => x + k) (zrange 0 n)) true true true.
Proof.
  intros Hn. apply lawful_retype. now apply srcz_lawful.
Qed.
Definition three : list (Iter Z) := [shifted 0 2; shifted 10 3; shifted 20 1].
Definition three_elements : list (list Z) := [[0; 1]; [10; 11; 12]; [20]].
Lemma three_lawful : Forall2 (fun p l => lawful p l true true true) three three_elements.
Proof.
  constructor; [exact (shifted_lawful 0 2 ltac:(lia))|]. constructor; [exact (shifted_lawful 10 3 ltac:(lia))|].
  constructor; [exact (shifted_lawful 20 1 ltac:(lia))|constructor].
Qed.
Ltac round_robin :=
  repeat (cbn [app List.repeat length seq combine]; first
    [ apply robin_take | apply robin_end | apply robin_open
    | apply robin_stop; now intros ? [<-|[<-|[]]]
    | apply robin_stop; now intros ? [<-|[]]
    | apply robin_skip; [eexists; first [left; reflexivity | right; left; reflexivity]|] ]).
Lemma three_interleaved : interleaved 2 three_elements [(0%nat, 0); (1%nat, 10); (0%nat, 1); (1%nat, 11); (1%nat, 12); (2%nat, 20)].
Proof. unfold interleaved, numbered, three_elements. round_robin. Qed.
Example C34_example keep truthy : elements (interleave three 2 keep truthy) [0; 10; 1; 11; 12; 20].
Proof. exact (proj2 (C34_elements three _ 2 keep truthy _ _ three_lawful ltac:(cbn; lia)) _ three_interleaved). Qed.
Example C34_fair_example : (length [(1%nat, 10)] < 2)%nat.
Proof. exact (proj1 (C34_fair 2 three_elements [] 0%nat 0 [(1%nat, 10)] 1 _ three_interleaved ltac:(cbn; intuition lia))). Qed.

(** Without datasets (or with cycle_length = 0) next() raises IndexError instead of
    StopIteration. *)
Theorem C34_no_datasets_refuted {A} (ps : list (Iter A)) cycle_length keep truthy fuel :
  places ps cycle_length = 0%nat ->
  fst (next (interleave ps cycle_length keep truthy) (S fuel) (init (interleave ps cycle_length keep truthy))) = Fail IndexError.
Proof.
  intros H. unfold interleave. cbn [interleave_it next init ist]. unfold il_next, il_init, Interleave.cl. rewrite embed_length.
  unfold places in H. rewrite H. reflexivity.
Qed.

(** ** C35: checkpoints *)

(** A history as in IterSpec.v on the interleave iterator, where get_state changes the
    iterator (the slots not used yet are filled). *)
Fixpoint il_run {S C A} (ds : list (hiter S C A)) cycle_length keep truthy (json : nat -> C -> C) (fuel : nat) (ops : list op)
    (s : il S C) (cks : list (ilck C)) : list (obs A) :=
  match ops with
  | [] => []
  | ONext :: ops' => let (o, s') := il_next ds cycle_length keep fuel s in Got o :: il_run ds cycle_length keep truthy json fuel ops' s' cks
  | OSave :: ops' =>
      match il_get ds cycle_length s with
      | Ok (c, s') => Saved :: il_run ds cycle_length keep truthy json fuel ops' s' (cks ++ [c])
      | _ => LoadFailed :: il_run ds cycle_length keep truthy json fuel ops' s cks
      end
  | OLoad k j :: ops' =>
      match nth_error cks k with
      | None => NoSuchCheckpoint :: il_run ds cycle_length keep truthy json fuel ops' s cks
      | Some c =>
          match il_set ds keep truthy fuel s (if j then il_json json c else c) with
          | Ok s' => Loaded :: il_run ds cycle_length keep truthy json fuel ops' s' cks
          | _ => LoadFailed :: il_run ds cycle_length keep truthy json fuel ops' s cks
          end
      end
  | ORestart :: ops' => Restarted :: il_run ds cycle_length keep truthy json fuel ops' (il_init ds cycle_length) cks
  end.
(** The histories in which no checkpoint is taken from an iterator after a checkpoint has been
    restored into it while it was in use. [new]: nothing done yet; [dirty]: restored in use. *)
Fixpoint saves_ok (new dirty : bool) (ops : list op) : bool :=
  match ops with
  | [] => true
  | ONext :: ops' => saves_ok false dirty ops'
  | OSave :: ops' => negb dirty && saves_ok false dirty ops'
  | OLoad _ _ :: ops' => saves_ok false (dirty || negb new) ops'
  | ORestart :: ops' => saves_ok true false ops'
  end.
(** The histories in which checkpoints are only restored into new iterators. *)
Fixpoint loads_new (new : bool) (ops : list op) : bool :=
  match ops with
  | [] => true
  | ONext :: ops' | OSave :: ops' => loads_new false ops'
  | OLoad _ _ :: ops' => new && loads_new false ops'
  | ORestart :: ops' => loads_new true ops'
  end.

Lemma skipn_tl {X} p (l : list X) : tl (skipn p l) = skipn (S p) l.
Proof. revert l. induction p as [|p IH]; intros [|x l]; cbn; try easy. apply IH. Qed.
Lemma hd_skipn {X} p (l : list X) : hd_error (skipn p l) = nth_error l p.
Proof. revert l. induction p as [|p IH]; intros [|x l]; cbn; try easy. Qed.

Lemma interleave_history {A} (ps : list (Iter A)) ls cycle_length keep truthy used json out :
  Forall2 (fun p l => renewable p l true used json) ps ls -> (0 < places ps cycle_length)%nat ->
  (forall c, truthy c = true) -> interleaved (places ps cycle_length) ls out ->
  exists N, forall fuel ops, (N <= fuel)%nat -> saves_ok true false ops = true ->
    (used = false -> loads_new true ops = true) -> (json = false -> no_json ops = true) ->
    il_run (embed ps) cycle_length keep truthy (json_of (embed ps)) fuel ops (il_init (embed ps) cycle_length) [] =
    cursor (map snd out) ops 0 [].
Proof.
  intros HL Hpl Ht Ho. destruct (embed_new_family used json ps ls truthy HL Ht) as (N & rep & crep & F & _).
  assert (Hcl : Interleave.cl (embed ps) cycle_length = places ps cycle_length) by (unfold Interleave.cl, places; now rewrite embed_length).
  set (gives := to_give (embed ps) cycle_length ls rep crep). set (ckgives := ck_to_give (embed ps) cycle_length ls crep).
  assert (Hinit : gives (il_init (embed ps) cycle_length) out).
  { apply (init_gives _ _ _ _ _ _ _ _ _ F); rewrite Hcl; assumption. }
  exists (enough (embed ps) cycle_length N). intros fuel ops Hf.
  assert (HfN : (N <= fuel)%nat) by (unfold enough in Hf; lia).
  assert (H : forall ops s p cks qs new dirty,
    gives s (skipn p out) -> il_fut s = [] -> (dirty = false -> marks (embed ps) cycle_length s) ->
    (new = true -> s = il_init (embed ps) cycle_length) -> (p <= length out)%nat ->
    Forall2 (fun c q => ckgives c (skipn q out) /\ ck_fut c = [] /\ (q <= length out)%nat) cks qs ->
    saves_ok new dirty ops = true -> (used = false -> loads_new new ops = true) -> (json = false -> no_json ops = true) ->
    il_run (embed ps) cycle_length keep truthy (json_of (embed ps)) fuel ops s cks = cursor (map snd out) ops p qs).
  { clear ops. induction ops as [|o ops IH]; intros s p cks qs new dirty Hg Hfu Hm Hnew Hp Hcks Hs Hl Hj; [easy|].
    assert (Hj' : json = false -> no_json ops = true).
    { intros J. specialize (Hj J). cbn in Hj. now apply andb_true_iff in Hj as [_ Hj]. }
    destruct o as [| |k j|]; cbn [il_run cursor saves_ok loads_new] in *.
    - destruct (next_ok _ _ keep _ _ _ _ _ _ _ F fuel s _ Hf Hg) as (s' & E & Hg' & Hfu' & Hm').
      rewrite E, nth_error_map, <- hd_skipn. rewrite skipn_tl in Hg'. destruct (skipn p out) as [|[jj x] r] eqn:Er; cbn [hd_error option_map snd].
      + f_equal. assert (Hp' : p = length out). { assert (length (skipn p out) = 0%nat) by now rewrite Er. rewrite skipn_length in *. lia. }
        subst p. rewrite skipn_all2 in Hg' by lia. apply (IH s' (length out) cks qs false dirty); auto; [|discriminate].
        rewrite skipn_all. exact Hg'.
      + f_equal. assert (p < length out)%nat. { assert (length (skipn p out) <> 0%nat) by now rewrite Er. rewrite skipn_length in *. lia. }
        apply (IH s' (S p) cks qs false dirty); auto; discriminate.
    - apply andb_true_iff in Hs as [Hd Hs]. destruct dirty; [discriminate|].
      destruct (get_ok _ _ _ _ _ _ _ _ _ F s _ (Hm eq_refl) Hg) as (c & s' & E & Hg' & Hm' & Hc & Hfu' & Hcf). rewrite E. f_equal.
      apply (IH s' p _ _ false false); auto; [congruence|discriminate|].
      apply Forall2_app; [exact Hcks|]. constructor; [|constructor]. split; [exact Hc|]. split; [congruence|exact Hp].
    - pose proof (Forall2_nth_None _ _ _ k Hcks) as Hn.
      destruct (nth_error qs k) as [q|] eqn:Eq.
      + destruct (nth_error cks k) as [c|] eqn:Ec; [|now assert (Some q = None) by now apply Hn].
        destruct (Forall2_nth_error _ _ _ _ _ _ Hcks Ec Eq) as (Hc & Hcf & Hq).
        assert (Hc' : ckgives (if j then il_json (json_of (embed ps)) c else c) (skipn q out) /\ ck_fut (if j then il_json (json_of (embed ps)) c else c) = []).
        { destruct j; [|easy]. apply (json_ok _ _ _ _ _ _ _ _ _ F); try assumption. destruct json; [easy|]. specialize (Hj eq_refl). now cbn in Hj. }
        destruct Hc' as (Hc' & Hcf').
        assert (Hset : settable (embed ps) cycle_length used rep 0 s /\ (new = true -> forall i, (i < Interleave.cl (embed ps) cycle_length)%nat -> nth_error (il_exh s) i = Some None)).
        { destruct new.
          - rewrite (Hnew eq_refl). split; [apply init_settable|]. intros _ i Hi. cbn [il_init il_exh]. now apply nth_error_repeat.
          - split; [|discriminate]. destruct used; [|specialize (Hl eq_refl); discriminate]. destruct Hg as (slots & pend & R & _).
            now apply (reads_settable _ _ ls true rep crep s slots pend). }
        destruct Hset as (T & Hblank).
        destruct (set_ok _ _ keep _ _ _ _ _ _ _ F fuel s _ _ HfN T Hc') as (s' & E & Hg' & Hfu' & Hm'). rewrite E. f_equal.
        apply (IH s' q cks qs false (dirty || negb new)%bool); auto; [congruence| |discriminate|].
        * intros Hd. apply orb_false_iff in Hd as [_ Hd]. apply Hm', Hblank. now destruct new.
        * intros U. specialize (Hl U). now apply andb_true_iff in Hl as [_ Hl].
      + destruct (nth_error cks k) as [c|] eqn:Ec; [now assert (Some c = None) by now apply Hn|].
        f_equal. apply (IH s p cks qs false (dirty || negb new)%bool); auto.
        * intros Hd. apply orb_false_iff in Hd as [Hd _]. now apply Hm.
        * discriminate.
        * intros U. specialize (Hl U). now apply andb_true_iff in Hl as [_ Hl].
    - f_equal. apply (IH (il_init (embed ps) cycle_length) 0%nat cks qs true false); auto; [|lia].
      intros _. apply init_marks. rewrite Hcl. exact Hpl. }
  intros Hs Hl Hj. apply (H ops _ 0%nat [] [] true false); auto; [|lia].
  intros _. apply init_marks. rewrite Hcl. exact Hpl.
Qed.
(** For all histories of next, get_state, restore (of any checkpoint taken before, also through
    JSON) and restart, the interleave iterator behaves as a cursor into the interleaved
    elements. Restoring into a used iterator needs parents that allow it, and taking a
    checkpoint after that is excluded (it is wrong, see below). *)
Theorem C35_history {A} (ps : list (Iter A)) ls cycle_length keep truthy used json out :
  Forall2 (fun p l => lawful p l true used json) ps ls -> (0 < places ps cycle_length)%nat ->
  (forall c, truthy c = true) -> interleaved (places ps cycle_length) ls out ->
  exists N, forall fuel ops, (N <= fuel)%nat -> saves_ok true false ops = true ->
    (used = false -> loads_new true ops = true) -> (json = false -> no_json ops = true) ->
    il_run (embed ps) cycle_length keep truthy (json_of (embed ps)) fuel ops (il_init (embed ps) cycle_length) [] =
    cursor (map snd out) ops 0 [].
Proof. intros HL. apply (interleave_history ps ls cycle_length keep truthy used json out), all_renewable, HL. Qed.

Example C35_history_example : exists N, forall fuel, (N <= fuel)%nat ->
  il_run (embed three) 2 true (fun _ => true) (json_of (embed three)) fuel
    [ONext; OSave; ONext; ONext; OSave; OLoad 0 true; ONext; ORestart; OLoad 1 true; OSave; ONext; ONext; ONext; ONext]
    (il_init (embed three) 2) [] =
  [Got (Yield 0); Saved; Got (Yield 10); Got (Yield 1); Saved; Loaded; Got (Yield 10); Restarted; Loaded; Saved;
   Got (Yield 11); Got (Yield 12); Got (Yield 20); Got Stop].
Proof.
  destruct (C35_history three _ 2 true (fun _ => true) true true _ three_lawful ltac:(cbn; lia) ltac:(easy) three_interleaved) as (N & H).
  exists N. intros fuel Hf. rewrite H; [reflexivity|exact Hf|reflexivity|discriminate|discriminate].
Qed.

(** A checkpoint taken after a restore into an iterator that had finished a dataset is wrong:
    the dataset is still marked as exhausted (_exhausted_iterator_state is not reset by
    set_state). *)
Definition two : list (Iter Z) := [shifted 0 3; shifted 10 1].
Lemma two_lawful : Forall2 (fun p l => lawful p l true true true) two [[0; 1; 2]; [10]].
Proof. constructor; [exact (shifted_lawful 0 3 ltac:(lia))|]. constructor; [exact (shifted_lawful 10 1 ltac:(lia))|constructor]. Qed.
Lemma two_interleaved : interleaved 2 [[0; 1; 2]; [10]] [(0%nat, 0); (1%nat, 10); (0%nat, 1); (0%nat, 2)].
Proof. unfold interleaved, numbered. round_robin. Qed.
Theorem C35_checkpoint_after_restore_refuted : exists ops,
  il_run (embed two) 2 true (fun _ => true) (json_of (embed two)) 50 ops (il_init (embed two) 2) [] =
    [Saved; Got (Yield 0); Got (Yield 10); Got (Yield 1); Got (Yield 2); Loaded; Saved; Restarted; Loaded;
     Got (Yield 0); Got (Yield 1); Got (Yield 2); Got Stop] /\
  cursor [0; 10; 1; 2] ops 0 [] =
    [Saved; Got (Yield 0); Got (Yield 10); Got (Yield 1); Got (Yield 2); Loaded; Saved; Restarted; Loaded;
     Got (Yield 0); Got (Yield 10); Got (Yield 1); Got (Yield 2)].
Proof.
  exists [OSave; ONext; ONext; ONext; ONext; OLoad 0 false; OSave; ORestart; OLoad 1 false; ONext; ONext; ONext; ONext].
  split; [vm_compute; reflexivity|reflexivity].
Qed.
(** So an interleave repeated twice cannot be resumed in its second epoch, although it is
    read correctly and its checkpoints are only restored into new iterators. *)
Theorem C35_repeat_refuted : exists it ops, repeat_it (Some 2) (interleave two 2 true (fun _ => true)) = Ok it /\
  fresh_loads true ops = true /\ no_json ops = true /\
  drain it 50 9 (init it) = ([0; 10; 1; 2; 0; 10; 1; 2], Stop) /\
  run it 50 ops (init it) [] <> cursor [0; 10; 1; 2; 0; 10; 1; 2] ops 0 [].
Proof.
  eexists. exists [ONext; ONext; ONext; ONext; ONext; OSave; ORestart; OLoad 0 false; ONext]. split; [reflexivity|].
  split; [reflexivity|]. split; [reflexivity|]. split; [vm_compute; reflexivity|]. vm_compute. discriminate.
Qed.

(** set_state keeps the list of dataset indices of the checkpoint it is given and changes it
    later. Restoring the same checkpoint twice (as repeat() does between epochs) with more
    datasets than places reads the wrong datasets the second time. *)
Definition list_h (l : list Z) : hiter nat nat Z :=
  {| h_init := 0%nat;
     h_next := fun _ p => match nth_error l p with Some a => (Yield a, S p) | None => (Stop, p) end;
     h_get := fun p => p; h_set := fun _ _ c => Ok c; h_json := fun c => c |}.
Fixpoint heap_read {S C A} (D : list (hiter S C A)) cycle_length keep (n : nat) (hs : heap_il S C) : list A * heap_il S C :=
  match n with
  | O => ([], hs)
  | Datatypes.S n' => match heap_next D cycle_length keep 50 hs with
                      | (Yield a, hs') => let (l, hs'') := heap_read D cycle_length keep n' hs' in (a :: l, hs'')
                      | (_, hs') => ([], hs')
                      end
  end.
(** Reading to the end [k] times, restoring [c] after each. *)
Fixpoint heap_epochs {S C A} (D : list (hiter S C A)) cycle_length keep (k : nat) (c : heap_ck C) (hs : heap_il S C) : list (list A) :=
  match k with
  | O => []
  | Datatypes.S k' =>
      let (l, hs) := heap_read D cycle_length keep 30 hs in
      match heap_set D keep (fun _ => true) 50 hs c with Ok hs' => l :: heap_epochs D cycle_length keep k' c hs' | _ => [l] end
  end.
Theorem C35_shared_list_refuted : let D := map list_h [[1; 2]; [11; 12; 13]; [21]; [31; 32]] in
  match heap_get D 2 (heap_init D 2) with
  | Ok (c, hs) => heap_epochs D 2 true 3 c hs = [[1; 11; 2; 12; 13; 21; 31; 32]; [1; 11; 2; 12; 13; 21; 31; 32]; [21; 31; 32; 21; 31; 32]]
  | _ => False
  end.
Proof. vm_compute. reflexivity. Qed.

(** ** C37: shards *)

(** [firsts m flags]: the first [m] shards that are not exhausted. *)
Definition firsts (m : nat) (exhausted : nat -> bool) (n : nat) : list nat :=
  firstn m (filter (fun d => negb (exhausted d)) (seq 0 n)).

(** The checkpoint of a dataset's iterator after [k] elements. *)
Definition checkpoint_after {A} (ps : list (Iter A)) (d k fuel : nat) : {e : nat & ick (nth_it ps e)} :=
  existT _ d (get_state (nth_it ps d) (after (nth_it ps d) fuel k (init (nth_it ps d)))).

(** A new interleave that is given shard states by set_shard_states reads the rest of every
    shard that is not exhausted, in order and once, provided every exhausted shard comes
    before one of the shards that are opened at once. *)
Theorem C37_shards_resumed {A} (ps : list (Iter A)) ls cycle_length keep truthy used json :
  Forall2 (fun p l => lawful p l true used json) ps ls -> (0 < places ps cycle_length)%nat -> (forall c, truthy c = true) ->
  exists N, forall fuel exhausted read, (N <= fuel)%nat ->
    (forall d, (d < length ps)%nat -> (read d <= length (nth d ls []))%nat) ->
    (forall d, (d < length ps)%nat -> exhausted d = true -> exists d', In d' (firsts (places ps cycle_length) exhausted (length ps)) /\ (d < d')%nat) ->
    exists s out,
      il_set_shards (embed ps) cycle_length keep truthy fuel (il_init (embed ps) cycle_length)
        (map (fun d => (exhausted d, checkpoint_after ps d (read d) fuel)) (seq 0 (length ps))) = Ok s /\
      drain (interleave ps cycle_length keep truthy) fuel (S (length out)) s = (map snd out, Stop) /\
      forall d, (d < length ps)%nat -> of_dataset d out = if exhausted d then [] else skipn (read d) (nth d ls []).
Proof.
  intros HL Hpl Ht.
  destruct (embed_family used json ps ls truthy HL Ht) as (N & rep & crep & F & Hafter).
  assert (Hcl : Interleave.cl (embed ps) cycle_length = places ps cycle_length) by (unfold Interleave.cl, places; now rewrite embed_length).
  exists (enough (embed ps) cycle_length N). intros fuel exhausted read Hf Hread Hbefore.
  assert (HfN : (N <= fuel)%nat) by (unfold enough in Hf; lia).
  set (shards := map (fun d => (exhausted d, checkpoint_after ps d (read d) fuel)) (seq 0 (length ps))).
  assert (Hnth : forall d e c, nth_error shards d = Some (e, c) -> (d < length ps)%nat /\ e = exhausted d /\ c = checkpoint_after ps d (read d) fuel).
  { intros d e c H. assert (Hd : (d < length ps)%nat).
    { assert (d < length shards)%nat by (apply nth_error_Some; now rewrite H). unfold shards in *. now rewrite map_length, seq_length in *. }
    unfold shards in H. rewrite nth_error_map_seq in H by exact Hd. injection H as <- <-. auto. }
  assert (Hlen : length shards = length (embed ps)) by (unfold shards; now rewrite map_length, seq_length, embed_length).
  assert (Hlen' : length shards = length ps) by (rewrite Hlen; apply embed_length).
  assert (Hexh : forall d, (d < length ps)%nat -> exhausted_shard shards d = exhausted d).
  { intros d Hd. unfold exhausted_shard, shards. now rewrite nth_error_map_seq. }
  assert (Hact : active_shards shards = filter (fun d => negb (exhausted d)) (seq 0 (length ps))).
  { unfold active_shards. rewrite Hlen'. apply filter_ext_in. intros d Hd. apply in_seq in Hd. rewrite Hexh by lia. reflexivity. }
  assert (Hst : forall d c, nth_error shards d = Some (false, c) -> crep d c (read d) /\ (read d <= length (nth d ls []))%nat).
  { intros d c H. destruct (Hnth _ _ _ H) as (Hd & _ & ->). split; [|now apply Hread]. apply Hafter; [exact Hd|exact HfN|now apply Hread]. }
  assert (Hls : length ls = length (embed ps)) by (rewrite embed_length; symmetry; apply (Forall2_length _ _ _ HL)).
  assert (Hcl0 : (0 < Interleave.cl (embed ps) cycle_length)%nat) by (rewrite Hcl; exact Hpl).
  assert (Hbef : forall d, (d < length shards)%nat -> exhausted_shard shards d = true ->
    exists d', In d' (firstn (Interleave.cl (embed ps) cycle_length) (active_shards shards)) /\ (d < d')%nat).
  { intros d Hd He. rewrite Hlen' in Hd. rewrite Hexh in He by exact Hd. rewrite Hcl, Hact. now apply Hbefore. }
  pose proof (shards_stand_for (embed ps) cycle_length truthy ls crep shards read Hlen Hls Hcl0 Ht Hst Hbef) as HS.
  pose proof (shard_distinct (embed ps) cycle_length truthy ls crep shards read Hlen Hls Hcl0 Ht Hst Hbef) as HD.
  pose proof (shard_rest (embed ps) cycle_length truthy ls crep shards read Hlen Hls Hcl0 Ht Hst Hbef) as HR.
  set (slots := shard_slots (embed ps) cycle_length ls shards read) in *.
  set (pend := shard_pend (embed ps) cycle_length ls shards read) in *.
  destruct (robin_exists slots pend) as (out & Ho).
  { pose proof (c_len _ _ _ _ _ _ _ HS) as E. intros E0. rewrite E0 in E. cbn in E. lia. }
  assert (Hck : ck_to_give (embed ps) cycle_length ls crep (shards_ck (embed ps) cycle_length truthy shards) out).
  { exists slots, pend. split; [exact HS|]. unfold shards_ck. cbn [ck_nc]. unfold rotate. cbn. now rewrite app_nil_r. }
  destruct (set_ok _ _ keep _ _ _ _ _ _ _ F fuel _ _ _ HfN (init_settable _ _ used rep) Hck) as (s & E & Hg & _ & _).
  exists s, out. split; [exact E|]. split.
  - pose proof (to_give_drain ps ls cycle_length keep truthy _ _ _ N rep crep fuel F Hf out s Hg) as H. now rewrite map_length in H.
  - intros d Hd. rewrite (robin_of_dataset _ _ _ Ho HD d), HR by lia. now rewrite Hexh.
Qed.
Example C37_shards_resumed_example : exists N, forall fuel, (N <= fuel)%nat -> exists s out,
  il_set_shards (embed three) 2 true (fun _ => true) fuel (il_init (embed three) 2)
    [(false, checkpoint_after three 0 1 fuel); (true, checkpoint_after three 1 3 fuel); (false, checkpoint_after three 2 0 fuel)] = Ok s /\
  drain (interleave three 2 true (fun _ => true)) fuel (S (length out)) s = (map snd out, Stop) /\
  of_dataset 0 out = [1] /\ of_dataset 1 out = [] /\ of_dataset 2 out = [20].
Proof.
  destruct (C37_shards_resumed three _ 2 true (fun _ => true) true true three_lawful ltac:(cbn; lia) ltac:(easy)) as (N & H).
  exists N. intros fuel Hf.
  destruct (H fuel (fun d => Nat.eqb d 1) (fun d => nth d [1; 3; 0] 0)%nat Hf) as (s & out & E & Hd & Ho).
  - intros d Hd. cbn in Hd. destruct d as [|[|[|d]]]; cbn; lia.
  - intros d Hd He. apply Nat.eqb_eq in He. subst d. exists 2%nat. cbn. split; [tauto|lia].
  - exists s, out. split; [exact E|]. split; [exact Hd|]. rewrite !Ho by (cbn; lia). easy.
Qed.

(** Without that condition exhausted shards are read again. After 0, 10, 1 and 2 of the
    two datasets 0, 1, 2, 3 and 10 the second one is exhausted. Its state is reported as
    exhausted, but a new iterator given these states reads it again. *)
Definition states_of {C} (l : list (bool * option C)) : list (bool * C) :=
  flat_map (fun ec => match snd ec with Some c => [(fst ec, c)] | None => [] end) l.
Definition hiter_read {S C A} (D : list (hiter S C A)) cycle_length keep (n : nat) (s : il S C) : list A * il S C :=
  (fix go n s := match n with
                 | O => ([], s)
                 | Datatypes.S n' => match il_next D cycle_length keep 50 s with
                                     | (Yield a, s') => let (l, s'') := go n' s' in (a :: l, s'')
                                     | (_, s') => ([], s')
                                     end
                 end) n s.
(** Read [n] elements, take the shard states, give them to a new iterator: the elements before,
    the marks, the elements after. *)
Definition reshard (D : list (hiter nat nat Z)) (n : nat) : option (list Z * list bool * list Z) :=
  let (before, s) := hiter_read D 2 true n (il_init D 2) in
  match il_get_shards D 2 s with
  | Ok l => match il_set_shards D 2 true (fun _ => true) 50 (il_init D 2) (states_of l) with
            | Ok s' => Some (before, map fst l, fst (hiter_read D 2 true 10 s'))
            | _ => None
            end
  | _ => None
  end.
Theorem C37_exhausted_shard_refuted : reshard (map list_h [[0; 1; 2; 3]; [10]]) 4 = Some ([0; 10; 1; 2], [false; true], [3; 10]).
Proof. vm_compute. reflexivity. Qed.
(** If all shards are exhausted everything is read again. *)
Theorem C37_all_exhausted_refuted : reshard (map list_h [[0; 1]; [10]]) 10 = Some ([0; 10; 1], [true; true], [0; 10; 1]).
Proof. vm_compute. reflexivity. Qed.
(** States of shards that are not opened yet are lost when the iterator's own checkpoint
    passes through JSON (integer keys become strings). *)
Theorem C37_json_refuted : let D := map list_h [[0; 1]; [10; 11]] in
  match il_set_shards D 1 true (fun _ => true) 50 (il_init D 1) [(false, 1%nat); (false, 1%nat)] with
  | Ok s => fst (hiter_read D 1 true 10 s) = [1; 11] /\
      match il_get D 1 s with
      | Ok (c, _) => match il_set D true (fun _ => true) 50 (il_init D 1) (il_json (fun _ x => x) c) with
                     | Ok s' => fst (hiter_read D 1 true 10 s') = [1; 10; 11]
                     | _ => False
                     end
      | _ => False
      end
  | _ => False
  end.
Proof. vm_compute. split; reflexivity. Qed.
