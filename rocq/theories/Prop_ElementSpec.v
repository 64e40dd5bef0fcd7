(** C65: the element spec of a pipeline describes the elements it produces. *)
From Verif Require Import Base MapDatasets Tree SharedMemory Iter IterSpec Interleave ElementSpec ElementConforms
  ElementSpec_proofs ElementSpecIter_proofs.

Local Ltac spl := repeat match goal with |- _ /\ _ => split end.

(** NumPy gives arrays of one element type that element type when it puts them together. *)
Definition keeps_dtype {D V} (np : numpy D V) : Prop :=
  forall d ds, ds <> [] -> Forall (eq d) ds -> np_result np ds = d.

Section C65.
Context {D V : Type} (np : numpy D V) (int64 : D) (of_int : Z -> V) (gen_keys : Z -> Z -> list Z).

(** Every element of a MapDataset, read alone or with others, at any index: it conforms to get_element_spec. *)
Theorem C65_map (p : mpipe D V) sp ds : keeps_dtype np ->
  mright np int64 of_int gen_keys p -> mden np int64 of_int gen_keys p = Ok ds -> mspec int64 p = Ok sp ->
  (forall i x, mget ds i = Ok (Some x) -> conforms sp x) /\
  (forall is l x, mgetitems ds is = Ok l -> In (Some x) l -> conforms sp x).
Proof.
  intros Hnp Hr Ed Es. destruct (mpipe_good np int64 of_int gen_keys Hnp p sp ds Es Hr Ed) as [H1 H2].
  split; [exact H1|]. intros is l x E. now apply H2 with is.
Qed.

(** Every element an iterator yields, in any history of next, get_state, set_state, of any checkpoint taken so far, and of
    restarts. *)
Definition conforming (sp : spec D) (o : obs (option (elem D V))) : Prop :=
  forall x, o = Got (Yield (Some x)) -> conforms sp x.
Theorem C65_iter (p : ipipe D V) sp it : keeps_dtype np ->
  iright np int64 of_int gen_keys p -> iden np int64 of_int gen_keys p = Ok it -> ispec int64 p = Ok sp ->
  forall fuel ops, Forall (conforming sp) (run it fuel ops (init it) []).
Proof.
  intros Hnp Hr Ed Es. pose proof (ipipe_good np int64 of_int gen_keys Hnp p sp it Es Hr Ed) as Ha. intros fuel ops.
  assert (H : forall ops s cks, reach it s -> Forall (reach_ck it) cks -> Forall (conforming sp) (run it fuel ops s cks)).
  { clear ops. induction ops as [|[| |k json|] ops IH]; intros s cks Hs Hc; cbn [run]; [constructor| | | |].
    - destruct (next it fuel s) as [o s'] eqn:En. constructor; [|apply IH; [eapply reach_next; eauto|exact Hc]].
      intros x Ex. injection Ex as ->. exact (Ha _ _ _ _ Hs En x eq_refl).
    - constructor; [intros x; discriminate|]. apply IH; [exact Hs|]. apply Forall_app. split; [exact Hc|]. constructor; [now constructor|constructor].
    - destruct (nth_error cks k) as [c|] eqn:Ek; [|constructor; [intros x; discriminate|now apply IH]].
      assert (Hk : reach_ck it c) by (apply nth_error_In in Ek; rewrite Forall_forall in Hc; auto).
      destruct (set_state it fuel s (if json then jsonck it c else c)) as [s'|e|] eqn:E; (constructor; [intros x; discriminate|]); apply IH; auto.
      eapply reach_set; [exact Hs| |exact E]. destruct json; [now constructor|exact Hk].
    - constructor; [intros x; discriminate|]. apply IH; [constructor|exact Hc]. }
  apply H; constructor.
Qed.

(** The spec of batches is not vague: with drop_remainder it has the batch size, and after rebatching too. *)
Lemma tmap_flatten {A B} (g : A -> B) (t : tree A) : flatten (tmap g t) = map g (flatten t).
Proof.
  induction t as [a|tag ts IH|tag ts IH] using tree_induct; cbn [tmap flatten]; [reflexivity| |].
  - induction IH; cbn; [reflexivity|]. now rewrite map_app, H, IHIH.
  - induction ts as [|[k t] ts IHt]; cbn; [reflexivity|]. inversion IH; subst. rewrite map_app. cbn in H1. rewrite H1, IHt by assumption. reflexivity.
Qed.
Lemma rows_of_spec sp (x : elem D V) n : conforms sp x -> Forall (fun s => exists sh, s_shape s = Some n :: sh) (flatten sp) -> has_rows n x.
Proof.
  intros Hc Hf a Ha. apply conf_flatten in Hc. destruct (F2_in_r _ _ _ _ Hc Ha) as (s & Hs & Hl). rewrite Forall_forall in Hf. destruct (Hf s Hs) as [sh E].
  destruct Hl as [_ Hl]. rewrite E in Hl. inversion Hl; subst. cbn in *. congruence.
Qed.
Lemma tmap_rows sp n (x : elem D V) (g : sds D -> sds D) : (forall s, exists sh, s_shape (g s) = Some n :: sh) -> conforms (tmap g sp) x -> has_rows n x.
Proof.
  intros Hg Hc. eapply rows_of_spec; [exact Hc|]. rewrite tmap_flatten. apply Forall_forall. intros s Hs. apply in_map_iff in Hs. destruct Hs as (s0 & <- & _). apply Hg.
Qed.
Theorem C65_batch_size pd n (p : mpipe D V) (q : ipipe D V) sp (x : elem D V) :
  mspec int64 (MBatch pd n true MakeBatch p) = Ok sp \/ ispec int64 (IBatch n true MakeBatch q) = Ok sp \/
  (exists drop, ispec int64 (IRebatch n drop q) = Ok sp) ->
  conforms sp x -> has_rows n x.
Proof.
  intros [E|[E|[drop E]]]; cbn [mspec ispec] in E; apply bind_ok in E; destruct E as (sp0 & _ & E).
  - apply batch_spec_eq in E. subst sp. apply tmap_rows. intros s. now exists (s_shape s).
  - apply batch_spec_eq in E. subst sp. apply tmap_rows. intros s. now exists (s_shape s).
  - unfold rebatch_spec in E. rewrite (map_leaves_tmap (fun x => mkSds (Some n :: tl (s_shape x)) (s_dtype x))) in E. injection E as <-.
    apply tmap_rows. intros s. now exists (tl (s_shape s)).
Qed.
(** So batches that have been made with drop_remainder can be rebatched: the condition of [iright] on rows holds. *)
Theorem C65_rebatch n m (q : ipipe D V) : keeps_dtype np -> (exists sp, ispec int64 q = Ok sp) ->
  iright np int64 of_int gen_keys q -> iright np int64 of_int gen_keys (IRebatch m true (IBatch n true MakeBatch q)).
Proof.
  intros Hnp [sp Esp] Hr. cbn [iright]. spl; auto; try exact I. intros it Ed. exists n.
  assert (Hq : exists sp', ispec int64 (IBatch n true MakeBatch q) = Ok sp').
  { cbn [ispec]. rewrite Esp. cbn [bind]. unfold batch_spec. rewrite (map_leaves_tmap (fun x => mkSds (Some n :: s_shape x) (s_dtype x))). eauto. }
  destruct Hq as [sp' E']. eapply always_impl; [|eapply (ipipe_good np int64 of_int gen_keys Hnp); [exact E'|split; [exact I|exact Hr]|exact Ed]].
  intros a Ha x ->. apply (C65_batch_size false n (MRange 0 None 1) q sp' x); [right; left; exact E'|]. now apply Ha.
Qed.
End C65.

(** ** A case, and where it fails *)

Definition np0 : numpy nat Z :=
  mkNumpy nat Z (fun _ => 8) (fun _ => false) (fun _ => false) (fun ds => hd 0%nat ds) (fun _ _ => true) (fun _ v => v) (fun _ _ v => Some v).
Lemma np0_ok : keeps_dtype np0.
Proof. intros d [|d' ds] Hne HF; [easy|]. inversion HF; subst. reflexivity. Qed.
Definition mden0 := mden np0 0%nat (fun z => z) (fun _ _ => []).
Definition mspec0 := @mspec nat Z 0%nat.
Definition iden0 := iden np0 0%nat (fun z => z) (fun _ _ => []).
Definition ispec0 := @ispec nat Z 0%nat.
Definition mright0 := mright np0 0%nat (fun z => z) (fun _ _ => []).
Definition iright0 := iright np0 0%nat (fun z => z) (fun _ _ => []).
Definition rng0 n : mpipe nat Z := MRange n None 1.
Definition arr (d : nat) sh v : elem nat Z := Leaf (Some (mkArray d sh v)).

(** x -> {0: x, 1: np.zeros((2,))} as a transform with output_spec *)
Definition to_dict (x : elem nat Z) : res (option (elem nat Z)) := Ok (Some (Dict 0 [(0%nat, x); (1%nat, arr 1 [2] [0; 0])])).
Definition to_dict_spec (sp : spec nat) : res (spec nat) := Ok (Dict 0 [(0%nat, sp); (1%nat, Leaf (mkSds [Some 2] 1%nat))]).
Lemma to_dict_ok : describes (Some to_dict_spec) (fun x y => to_dict x = Ok (Some y)).
Proof.
  intros os sp sp' x y E1 E2 Hx E3. injection E1 as <-. injection E2 as <-. injection E3 as <-. constructor; cbn.
  - repeat constructor; cbn; intuition discriminate.
  - reflexivity.
  - repeat constructor; cbn; auto.
Qed.
(** zip(range(7), range(7) read backwards).map(to_dict).to_iter_dataset().batch(2, drop).rebatch(3, drop).repeat() *)
Definition good_pipe : ipipe nat Z :=
  IRepeat None (IRebatch 3 true (IBatch 2 true MakeBatch
    (IPrefetch None false 2 4 (MMap to_dict (Some to_dict_spec) (MZip [rng0 7; MSlice None None (Some (-1)) (rng0 7)]))))).
Lemma range_not_none a ds : mden0 (MRange a None 1) = Ok ds ->
  (forall i, mget ds i <> Ok None) /\ (forall is l, mgetitems ds is = Ok l -> ~ In None l).
Proof.
  intros E. injection E as <-.
  assert (H : forall i, mget (retype_ds (int_elem 0%nat (fun z => z)) {| mlen := range_len 0 a 1; mget := fun i => let! r := pymod i (range_len 0 a 1) in Ok (Some (0 + r * 1));
      mgetitems := default_getitems (fun i => let! r := pymod i (range_len 0 a 1) in Ok (Some (0 + r * 1))) |}) i <> Ok None).
  { intros i. cbn [retype_ds mget]. destruct (pymod i _); discriminate. }
  split; [exact H|]. intros is l E Hin. cbn [retype_ds mgetitems] in E. apply bind_ok in E. destruct E as (es & E & E'). injection E' as <-.
  apply in_map_iff in Hin. destruct Hin as (e & Ee & He). destruct e; [discriminate|]. apply seq_map in E. destruct (F2_in_r _ _ _ _ E He) as (i & _ & Ei).
  destruct (pymod i _); discriminate.
Qed.
Lemma slice_not_none p b c s ds : (forall d, mden0 p = Ok d -> (forall i, mget d i <> Ok None) /\ (forall is l, mgetitems d is = Ok l -> ~ In None l)) ->
  mden0 (MSlice b c s p) = Ok ds -> (forall i, mget ds i <> Ok None) /\ (forall is l, mgetitems ds is = Ok l -> ~ In None l).
Proof.
  intros Hp E. unfold mden0 in E. cbn [mden] in E. apply bind_ok in E. destruct E as (d & Ed & E). destruct (Hp d Ed) as [H1 H2].
  unfold slice_ds in E. apply bind_ok in E. destruct E as ([[? ?] ?] & _ & E). injection E as <-. cbn [mget mgetitems]. split.
  - intros i Ei. apply bind_ok in Ei. destruct Ei as (j & _ & Ei). exact (H1 _ Ei).
  - intros is l El. apply bind_ok in El. destruct El as (js & _ & El). exact (H2 _ _ El).
Qed.
Lemma good_pipe_right : iright0 good_pipe.
Proof.
  unfold iright0, good_pipe.
  refine (C65_rebatch np0 0%nat (fun z => z) (fun _ _ => []) 2 3 (IPrefetch None false 2 4 (MMap to_dict (Some to_dict_spec)
    (MZip [rng0 7; MSlice None None (Some (-1)) (rng0 7)]))) np0_ok _ _); [eexists; reflexivity|]. cbn [iright mright]. split; [exact to_dict_ok|].
  split; [exact (conj I (conj I I))|]. intros p ds [<-|[<-|[]]] Ed.
  - now apply range_not_none with 7.
  - eapply slice_not_none; [|exact Ed]. intros d. apply range_not_none.
Qed.
(** Its spec, and what calls give. *)
Definition observe (p : ipipe nat Z) (ops : list op) : list (obs (option (elem nat Z))) :=
  match iden0 p with Ok it => run it 20 ops (init it) [] | _ => [] end.
Example C65_example : iright0 good_pipe /\
  ispec0 good_pipe = Ok (Dict 0 [(0%nat, Seq tuple_tag [Leaf (mkSds [Some 3] 0%nat); Leaf (mkSds [Some 3] 0%nat)]);
                                 (1%nat, Leaf (mkSds [Some 3; Some 2] 1%nat))]) /\
  observe good_pipe [ONext; OSave; ONext; OLoad 0 true; ONext] =
  let e1 := Dict 0 [(0%nat, Seq tuple_tag [arr 0 [3] [0; 1; 2]; arr 0 [3] [6; 5; 4]]); (1%nat, arr 1 [3; 2] [0; 0; 0; 0; 0; 0])] in
  let e2 := Dict 0 [(0%nat, Seq tuple_tag [arr 0 [3] [3; 4; 5]; arr 0 [3] [3; 2; 1]]); (1%nat, arr 1 [3; 2] [0; 0; 0; 0; 0; 0])] in
  [Got (Yield (Some e1)); Saved; Got (Yield (Some e2)); Loaded; Got (Yield (Some e2))].
Proof. split; [exact good_pipe_right|]. split; vm_compute; reflexivity. Qed.
Example C65_map_example : let p := MBatch false 2 false MakeBatch (rng0 3) in
  mright0 p /\ mspec0 p = Ok (Leaf (mkSds [None] 0%nat)) /\
  (let! ds := mden0 p in mgetitems ds [0; 1]) = Ok [Some (arr 0 [2] [0; 1]); Some (arr 0 [1] [2])].
Proof.
  cbv zeta. split; [|split; vm_compute; reflexivity]. split; [exact I|]. split; [exact I|]. intros d E. injection E as <-. cbn. lia.
Qed.

(** Rebatching without drop_remainder: the last batch is smaller than the spec says. *)
Definition rebatch_tail : ipipe nat Z := IRebatch 2 false (IBatch 3 true MakeBatch (IPrefetch None false 2 4 (rng0 3))).
Theorem C65_rebatch_tail_refuted : exists sp, ispec0 rebatch_tail = Ok sp /\
  observe rebatch_tail [ONext; ONext] = [Got (Yield (Some (arr 0 [2] [0; 1]))); Got (Yield (Some (arr 0 [1] [2])))] /\
  ~ Forall (conforming sp) (observe rebatch_tail [ONext; ONext]).
Proof.
  eexists. split; [reflexivity|]. assert (E : observe rebatch_tail [ONext; ONext] = [Got (Yield (Some (arr 0 [2] [0; 1]))); Got (Yield (Some (arr 0 [1] [2])))]) by (vm_compute; reflexivity).
  split; [exact E|]. rewrite E. intros H. inversion H as [|? ? _ H1]; subst. inversion H1 as [|? ? H2 _]; subst. specialize (H2 _ eq_refl).
  inversion H2 as [s a _ Hf| |]; subst. inversion Hf as [|? ? ? ? Hd _]; subst. cbn in Hd. discriminate.
Qed.
(** Mixing datasets of different elements: the spec is that of the first. *)
Definition mixed_pipe : mpipe nat Z := MConcatenate [rng0 2; MBatch false 2 true MakeBatch (rng0 2)].
Definition read (p : mpipe nat Z) (i : Z) : res (option (elem nat Z)) := let! ds := mden0 p in mget ds i.
Theorem C65_mix_refuted : exists sp, mspec0 mixed_pipe = Ok sp /\
  read mixed_pipe 0 = Ok (Some (arr 0 [] [0])) /\ read mixed_pipe 2 = Ok (Some (arr 0 [2] [0; 1])) /\ ~ conforms sp (arr 0 [2] [0; 1]).
Proof.
  eexists. split; [reflexivity|]. spl; try (vm_compute; reflexivity). intros H. inversion H as [s a _ Hf| |]; subst. inversion Hf.
Qed.
(** Zipping a dataset with filtered elements: None appears where the spec has an array. *)
Definition zip_filtered : mpipe nat Z := MZip [rng0 2; MFilter (fun _ => Ok false) (rng0 2)].
Theorem C65_zip_refuted : exists sp x, mspec0 zip_filtered = Ok sp /\
  read zip_filtered 0 = Ok (Some x) /\ x = Seq tuple_tag [arr 0 [] [0]; Leaf None] /\ ~ conforms sp x.
Proof.
  do 2 eexists. split; [reflexivity|]. split; [vm_compute; reflexivity|]. split; [reflexivity|]. intros H. inversion H as [|? ? ? Hf|]; subst. inversion Hf as [|? ? ? ? _ Hf2]; subst.
  inversion Hf2 as [|? ? ? ? Hx _]; subst. inversion Hx.
Qed.
