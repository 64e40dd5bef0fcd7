(** C55: legacy operations of a DataLoader. *)
From Verif Require Import Base Spec MapDatasets Samplers Iter IterSpec IterLaw IterBasic_proofs IterFlat_proofs Pipeline_proofs DataLoader DataLoaderSpec DataLoader_proofs
  Operations Operations_proofs Prop_Iter Prop_DataLoader.

Local Ltac spl := repeat match goal with |- _ /\ _ => split end.

(** An operation outputs what the transformation of the same name outputs, record by record: the same data, index and
    generator.  Only the record keys are missing (a batch has none in either case). *)
Theorem C55_agrees {G A} (op : operation G A) p l l' used json :
  lawful p (map Some l) true used json -> load1 (transform_of op) l = Ok l' ->
  exists it it', operation_it op p = Ok it /\ transform_it (transform_of op) p = Ok it' /\
    elements it' (map Some l') /\ elements it (map Some (map without_key l')).
Proof.
  intros HL E. destruct (transform_lawful _ p l l' used json HL E) as (it' & E' & L').
  assert (Ei : operation_it op p = Ok (operation_iter op p)).
  { destruct op; try reflexivity. cbn [operation_it transform_of load1] in *. now destruct (_ <=? 0). }
  exists (operation_iter op p), it'. spl; auto; [now apply lawful_elements in L'|].
  destruct HL as (N & rep & crep & L). eapply checkpointable_elements. eapply generator_checkpointable; [exact L|now apply yielded_load].
Qed.
(** In particular the data are the same. *)
Lemma without_key_keeps {G A} (l : list (lrec G A)) : map rec_data (map without_key l) = map rec_data l /\
  map (fun r => md_index (rec_md r)) (map without_key l) = map (fun r => md_index (rec_md r)) l /\
  map (fun r => md_rng (rec_md r)) (map without_key l) = map (fun r => md_rng (rec_md r)) l /\ map rec_gen (map without_key l) = map rec_gen l.
Proof. rewrite !map_map. spl; apply map_ext; reflexivity. Qed.
(** Checkpoints can be restored into new iterators. *)
Theorem C55_checkpoints {G A} (op : operation G A) p l l' used json it :
  lawful p (map Some l) true used json -> load1 (transform_of op) l = Ok l' -> operation_it op p = Ok it ->
  checkpointable it (map Some (map without_key l')) true false json.
Proof.
  intros (N & rep & crep & L) E Ei. assert (it = operation_iter op p) as ->.
  { destruct op; cbn [operation_it] in Ei; try congruence. destruct (_ <=? 0); congruence. }
  eapply generator_checkpointable; [exact L|now apply yielded_load].
Qed.
(** An operation whose next() has raised or stopped only stops from then on, whatever is restored into it. *)
Theorem C55_ended {G A} (op : operation G A) p it fuel s o s' : operation_it op p = Ok it -> next it fuel s = (o, s') ->
  (o = Stop \/ exists e, o = Fail e) ->
  (forall fuel', fst (next it fuel' s') = Stop) /\
  (forall fuel' c s'', set_state it fuel' s' c = Ok s'' -> forall fuel'', fst (next it fuel'' s'') = Stop).
Proof.
  intros Ei En Ho. assert (it = operation_iter op p) as ->.
  { destruct op; cbn [operation_it] in Ei; try congruence. destruct (_ <=? 0); congruence. }
  assert (Hd : g_done s' = true).
  { cbn [operation_iter next] in En. destruct (g_done s) eqn:Ed; [injection En as _ <-; exact Ed|].
    revert En. generalize fuel at 1 as fuel0. generalize (g_buf s) (g_parent s). induction fuel as [|fuel IH]; intros b sp fuel0; cbn [op_run].
    - intros H. injection H as <- <-. destruct Ho as [H|(e & H)]; discriminate.
    - destruct (next p fuel0 sp) as ([[r|]| |e|] & s1).
      + destruct (op_body op b r) as [[[x|] b']|e|]; try (intros H; injection H as <- <-; destruct Ho as [H|(e' & H)]; (discriminate || reflexivity)). apply IH.
      + intros H; injection H as <- <-. reflexivity.
      + destruct (op_flush op b) as [[x|]|e|]; intros H; injection H as <- <-; reflexivity.
      + intros H; injection H as <- <-. reflexivity.
      + intros H; injection H as <- <-. destruct Ho as [H|(e' & H)]; discriminate. }
  split; [intros; cbn [operation_iter next]; now rewrite Hd|].
  intros fuel' c s'' Hs fuel''. cbn [operation_iter set_state] in Hs. apply bind_ok' in Hs as (s1 & _ & Hs). injection Hs as <-. cbn [operation_iter next g_done]. now rewrite Hd.
Qed.

(** ** Three records *)
Definition records3 : Iter (option (lrec Z (list Z))) := map_it (fun i => Ok (Some (digit i))) (retype Some (srcz 3)).
Lemma records3_lawful : lawful records3 (map Some (map digit [0; 1; 2])) true true true.
Proof.
  apply (lawful_map _ _ (map Some [0; 1; 2])); [repeat constructor|]. apply lawful_retype. exact (srcz_lawful 3 ltac:(lia)).
Qed.
Example C55_example : exists it, operation_it (BatchOp 2 false joined) records3 = Ok it /\
  elements it [Some (mkRec (mkMd 1 None (Some 8)) (Some 8) (Some [0; 1])); Some (mkRec (mkMd 2 None (Some 9)) (Some 9) (Some [2]))].
Proof.
  destruct (C55_agrees (BatchOp 2 false joined) records3 (map digit [0; 1; 2])
    [mkRec (mkMd 1 None (Some 8)) (Some 8) (Some [0; 1]); mkRec (mkMd 2 None (Some 9)) (Some 9) (Some [2])] true true records3_lawful eq_refl) as (it & _ & E & _ & _ & H).
  exists it. split; [exact E|exact H].
Qed.
Example C55_example_filter : exists it, operation_it (FilterOp (fun d => match d with Some [1] => Ok false | _ => Ok true end)) records3 = Ok it /\
  elements it [Some (mkRec (mkMd 0 None (Some 7)) (Some 7) (Some [0])); Some (mkRec (mkMd 2 None (Some 9)) (Some 9) (Some [2]))].
Proof.
  destruct (C55_agrees (FilterOp (fun d => match d with Some [1] => Ok false | _ => Ok true end)) records3 (map digit [0; 1; 2])
    [digit 0; digit 2] true true records3_lawful eq_refl) as (it & _ & E & _ & _ & H).
  exists it. split; [exact E|exact H].
Qed.

(** Restoring into an iterator that has been used fails where a transformation succeeds: after the end, the checkpoint from
    the start gives StopIteration instead of the first record. *)
Theorem C55_restore_into_finished_refuted : exists (op : operation Z (list Z)) it it' history,
  operation_it op records3 = Ok it /\ transform_it (transform_of op) records3 = Ok it' /\
  run it' 50 history (init it') [] = cursor (map Some (map digit [0; 1; 2])) history 0 [] /\
  run it 50 history (init it) [] <> cursor (map Some (map without_key (map digit [0; 1; 2]))) history 0 [] /\
  nth_error (run it 50 history (init it) []) 6 = Some (Got Stop).
Proof.
  exists (MapOp (fun d => Ok d)). eexists _, _, [OSave; ONext; ONext; ONext; ONext; OLoad 0 false; ONext]. spl; [reflexivity|reflexivity|vm_compute; reflexivity|vm_compute; discriminate|vm_compute; reflexivity].
Qed.
(** After an exception in the user's function a Map goes on with the next record; a MapOperation has lost the rest. *)
Definition fails_on_1 (d : option (list Z)) : res (option (list Z)) := match d with Some [1] => Raise UserError | _ => Ok d end.
Theorem C55_after_exception_refuted : exists it it',
  operation_it (MapOp fails_on_1) records3 = Ok it /\ transform_it (LMap fails_on_1) records3 = Ok it' /\
  run it' 50 [ONext; ONext; ONext; ONext] (init it') [] = [Got (Yield (Some (digit 0))); Got (Fail UserError); Got (Yield (Some (digit 2))); Got Stop] /\
  run it 50 [ONext; ONext; ONext; ONext] (init it) [] = [Got (Yield (Some (without_key (digit 0)))); Got (Fail ValueError); Got Stop; Got Stop].
Proof. eexists _, _. spl; [reflexivity|reflexivity|vm_compute; reflexivity|vm_compute; reflexivity]. Qed.

(** ** FlatMap *)
Definition on_flat_map {G A} (max_fan_out : Z) (f : option A -> res (list (option A))) (e : option (lrec G A)) : res (list (option (lrec G A))) :=
  match e with Some r => let! rs := flat_map_adapter max_fan_out f r in Ok (map Some rs) | None => Raise InternalError end.
(** The data are the concatenation of what the user's function returns. *)
Theorem C55_flat_map {G A} max_fan_out (f : option A -> res (list (option A))) g (p : Iter (option (lrec G A))) l used json :
  lawful p (map Some l) true used json -> Forall (fun r => f (rec_data r) = Ok (g r)) l ->
  exists out, elements (flat_map_it (on_flat_map max_fan_out f) p) (map Some out) /\ map rec_data out = flat_map g l.
Proof.
  intros HL Hf.
  set (split r := map (fun '(k, d) => mkRec (mkMd (md_index (rec_md r) * max_fan_out + Z.of_nat k) None None) (@None G) d) (combine (seq 0 (length (g r))) (g r))).
  exists (flat_map split l). split.
  - apply (lawful_elements _ _ false json).
    replace (map Some (flat_map split l)) with (flat_map (fun e => match e with Some r => map Some (split r) | None => [] end) (map Some l)).
    + eapply lawful_flat_map; [|exact HL]. apply Forall_map. eapply Forall_impl; [|exact Hf]. intros r H. cbn [on_flat_map]. unfold flat_map_adapter. rewrite H. reflexivity.
    + clear. induction l as [|r l IH]; [reflexivity|]. cbn [map flat_map]. rewrite map_app. f_equal. exact IH.
  - clear. induction l as [|r l IH]; [reflexivity|]. cbn [flat_map]. rewrite map_app, IH. f_equal. unfold split. rewrite map_map.
    generalize 0%nat. induction (g r) as [|d ds IHd]; intros n; [reflexivity|]. cbn [length seq combine map]. f_equal. apply IHd.
Qed.
(** But the records no longer have a generator: a RandomMap after a FlatMap is called with None. *)
Theorem C55_flat_map_generator_refuted {G A} max_fan_out (f : option A -> res (list (option A))) (h : option A -> option G -> res (option A * option G)) (r : lrec G A) rs :
  flat_map_adapter max_fan_out f r = Ok rs ->
  Forall (fun r' => on_random_map h r' = let! dg := h (rec_data r') None in Ok (Some (mkRec (rec_md r') (snd dg) (fst dg)))) rs.
Proof.
  intros E. unfold flat_map_adapter in E. apply bind_ok' in E as (ds & _ & E). injection E as <-. apply Forall_map. apply Forall_forall. intros (k & d) _. reflexivity.
Qed.
Example C55_flat_map_generator_example : 
  (exists r', on_random_map add_noise (digit 1) = Ok (Some r') /\ rec_data r' = Some [9]) /\
  exists r', flat_map_adapter 1 (fun d => Ok [d]) (digit 1) = Ok [r'] /\ on_random_map add_noise r' = Raise TypeError.
Proof. split; eexists; split; reflexivity. Qed.
