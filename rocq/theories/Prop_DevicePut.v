(** C60: device_put is a map that reads ahead. *)
From Verif Require Import Base MapDatasets Iter IterSpec IterLaw IterBasic_proofs Scheduled Scheduled_proofs DevicePut Prop_Iter.

(** For every pair of buffer sizes (0 turns reading ahead off) and every order in which the two threads and the consumer run:
    the elements are those of the dataset, each put on the device, in order; and every history of next, get_state, set_state
    (also through JSON) and new iterators behaves like a cursor. *)
Theorem C60_device_put {A B} (put : A -> res (option B)) cpu device sched sched' (p : Iter (option A)) l l' :
  0 <= cpu -> 0 <= device -> lawful p l true true true ->
  Forall2 (fun x y => map_element put x = Ok y) l l' ->
  exists it, device_put put cpu device sched sched' p = Ok it /\ elements it l' /\
    exists N, forall fuel history, (N <= fuel)%nat -> run it fuel history (init it) [] = cursor l' history 0 [].
Proof.
  intros Hc Hd L F. unfold device_put, thread_prefetch. replace (cpu <? 0) with false by lia. cbn [bind]. replace (device <? 0) with false by lia.
  eexists. split; [reflexivity|].
  assert (L' : lawful (thread_prefetch_it (Z.to_nat device) false sched' (map_it put (thread_prefetch_it (Z.to_nat cpu) false sched p))) l' true true true).
  { apply thread_prefetch_lawful; [discriminate|]. eapply lawful_map; [exact F|]. apply thread_prefetch_lawful; [discriminate|exact L]. }
  split; [exact (lawful_elements _ _ _ _ L')|]. destruct (lawful_checkpointable _ _ _ _ _ L') as (N & H). exists N. intros fuel history Hf.
  apply H; auto; discriminate.
Qed.
Theorem C60_arguments {A B} (put : A -> res (option B)) cpu device sched sched' (p : Iter (option A)) :
  cpu < 0 \/ device < 0 -> device_put put cpu device sched sched' p = Raise ValueError.
Proof.
  intros H. unfold device_put, thread_prefetch. destruct (Z.ltb_spec cpu 0); [easy|]. cbn [bind].
  now replace (device <? 0) with true by lia.
Qed.

Example C60_example sched sched' : exists it,
  device_put (fun x => Ok (Some (10 * x))) 4 2 sched sched' (src 3) = Ok it /\ elements it [Some 0; Some 10; Some 20] /\
  exists N, forall fuel, (N <= fuel)%nat ->
    run it fuel [ONext; OSave; ONext; OLoad 0 true; ONext; ORestart; OLoad 0 false; ONext; ONext; ONext] (init it) [] =
    [Got (Yield (Some 0)); Saved; Got (Yield (Some 10)); Loaded; Got (Yield (Some 10)); Restarted; Loaded;
     Got (Yield (Some 10)); Got (Yield (Some 20)); Got Stop].
Proof.
  destruct (C60_device_put (fun x => Ok (Some (10 * x))) 4 2 sched sched' (src (Z.of_nat 3)) (map Some (zrange 0 3)) [Some 0; Some 10; Some 20])
    as (it & E & H & N & HN); try lia.
  - exact (Pipeline_proofs.pipe_lawful SeedSeq.generate_keys _ _ _ _ _ _ (src_pipe SeedSeq.generate_keys 3 ltac:(lia))).
  - vm_compute. repeat constructor.
  - exists it. split; [exact E|]. split; [exact H|]. exists N. intros fuel Hf. now rewrite (HN fuel _ Hf).
Qed.
