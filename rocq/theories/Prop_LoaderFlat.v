(** C72: a DataLoader with FlatMap. *)
From Verif Require Import Base Spec ListFacts Sharding MapDatasets Samplers Iter IterSpec IterLaw Interleave InterleaveSpec Interleave_proofs
  Prop_Interleave Scheduled Multiprocess MultiprocessSpec Multiprocess_proofs MpInterleave_proofs DataLoader DataLoaderSpec DataLoader_proofs Operations
  Prop_DataLoader LoaderFlat LoaderFlatSpec LoaderFlat_proofs.

Local Ltac spl := repeat match goal with |- _ /\ _ => split end.

(** Without workers the output is what the operations make of the records of the shard, and every history in which states are
    restored into new iterators behaves like a cursor: the state may be taken in the middle of the records of one FlatMap. *)
Theorem C72_no_workers {G A} (philox : Z -> G) (source : MapDs A) s own arg o ops bs nt pb r rs l :
  chosen own arg o -> 1 <= shard_count o -> 0 <= smp_len s -> 0 <= bs ->
  records philox source s o rs -> flat_load ops rs = Ok l ->
  exists d, flat_data_loader philox source s own arg ops 0 bs nt pb r = Ok d /\
    exists N, forall fuel history, (N <= fuel)%nat -> fresh_loads true history = true ->
      flat_run d fuel history = cursor (map rec_data l) history 0 [].
Proof.
  intros Ho HS Hn Hb Hrs Hl.
  destruct (flat_worker_lawful (record_ds philox source s o) nt pb ops rs 1 0 l ltac:(lia) (sampler_length_nonneg _ _ HS Hn) (records_ds _ _ _ _ _ Hrs)) as (it & Ei & L);
    [now rewrite stride_one|].
  exists (InProcess it). split.
  - unfold flat_data_loader. replace (bs <? 0) with false by lia.
    destruct Ho as [->|(-> & ->)]; change (0 <? 0) with false; change (0 =? 0) with true; cbn [bind]; rewrite Ei; reflexivity.
  - destruct (lawful_checkpointable it _ true false true L) as (N & H). exists N. intros fuel history Hf Hh. cbn [flat_run]. now apply H.
Qed.

(** With workers: worker [i] applies the operations to the records i, i+W, i+2W, ... of the shard, and the outputs of the
    workers are taken in turns. *)
Theorem C72_workers {G A} (philox : Z -> G) (source : MapDs A) s own arg o ops W bs nt pb r rs ls out :
  chosen own arg o -> 1 <= shard_count o -> 0 <= smp_len s -> 1 <= bs -> (1 <= W)%nat ->
  records philox source s o rs ->
  Forall2 (fun i l => flat_load ops (stride W i rs) = Ok l) (seq 0 W) ls -> interleaved W (map (map rec_data) ls) out ->
  exists d, flat_data_loader philox source s own arg ops (Z.of_nat W) bs nt pb r = Ok d /\
    exists N, forall fuel history, (N <= fuel)%nat -> loads_new true history = true ->
      flat_run d fuel history = cursor (map snd out) history 0 [].
Proof.
  intros Ho HS Hn Hb HW Hrs Hls Hout.
  destruct (flat_workers_lawful (record_ds philox source s o) nt pb ops rs W (seq 0 W) ls (sampler_length_nonneg _ _ HS Hn) (records_ds _ _ _ _ _ Hrs)) as (ps & Ep & El & F);
    [intros i Hi; apply in_seq in Hi; lia|exact Hls|]. rewrite seq_length in El.
  assert (F' : Forall2 (fun p l => lawful p l true false true) ps (map (map rec_data) ls)) by (apply Forall2_map_r; exact F).
  pose proof (flat_shards_renewable (Z.to_nat bs) r ps _ ltac:(lia) F' 0) as R. rewrite El in R.
  set (its := map _ (combine (seq 0 W) ps)) in R. exists (InWorkers its). split.
  - unfold flat_data_loader. replace (Z.of_nat W <? 0) with false by lia. replace (bs <? 0) with false by lia.
    replace (Z.of_nat W =? 0) with false by lia. replace (bs <=? 0) with false by lia. rewrite Nat2Z.id.
    destruct Ho as [->|(-> & ->)]; cbn [bind]; rewrite Ep; reflexivity.
  - assert (Hi : length its = W) by (unfold its; rewrite map_length, combine_length, seq_length; lia).
    assert (Hp : places its W = W) by (unfold places; lia).
    destruct (interleave_history its _ W false (fun _ => true) false true out R ltac:(rewrite Hp; lia) ltac:(easy)) as (N & H); [now rewrite Hp|].
    exists N. intros fuel history Hf Hh. cbn [flat_run]. rewrite Hi. apply H; auto; [now apply loads_new_saves|discriminate].
Qed.

(** Without Batch the workers together output exactly the elements that come without workers, in another order. *)
Theorem C72_same_elements {G A} (ops : list (flat_op G A)) W rs l : (1 <= W)%nat -> forallb record_by_record ops = true -> flat_load ops rs = Ok l ->
  exists ls, Forall2 (fun i l => flat_load ops (stride W i rs) = Ok l) (seq 0 W) ls /\
    forall out, interleaved W (map (map rec_data) ls) out -> Permutation (map snd out) (map rec_data l).
Proof.
  intros HW Hr E. destruct (flat_load_records ops Hr rs l E) as (xs & F & ->).
  exists (map (fun i => concat (stride W i xs)) (seq 0 W)). split.
  - apply Forall2_map_r. assert (G' : forall q, Forall2 (fun i i' => flat_load ops (stride W i rs) = Ok (concat (stride W i' xs))) q q); [|apply G'].
    induction q as [|i q IH]; constructor; [|exact IH]. apply flat_load_concat; [exact Hr|]. now apply Forall2_stride.
  - intros out Hout. rewrite (proj1 (C34_each_dataset_complete W _ out Hout)). rewrite <- concat_map. apply Permutation_map, strides_permute; exact HW.
Qed.

(** A single FlatMap: the data are the concatenation of the lists that the user's function returns, whatever max_fan_out. *)
Theorem C72_concatenation {G A} max_fan_out (f : option A -> res (list (option A))) (rs : list (lrec G A)) dss :
  Forall2 (fun r ds => f (rec_data r) = Ok ds) rs dss ->
  exists l, flat_load [FFlatMap max_fan_out f] rs = Ok l /\ map rec_data l = concat dss.
Proof.
  intros F. cbn [flat_load flat_load1].
  assert (Hs : sequence (map (fun r => f (rec_data r)) rs) = Ok dss) by (apply sequence_of; now apply Forall2_map_l).
  rewrite Hs. cbn [bind]. eexists. split; [reflexivity|]. clear Hs. induction F as [|r ds rs dss H F IH]; [reflexivity|].
  cbn [combine map concat]. rewrite map_app, IH. f_equal. unfold split_record. rewrite map_map. clear H. generalize 0%nat.
  induction ds as [|d ds IHd]; intros n; [reflexivity|]. cbn [length seq combine map]. f_equal. apply IHd.
Qed.

(** ** Five records *)
Definition twice (d : option (list Z)) : res (list (option (list Z))) := Ok [d; option_map (map (Z.add 10)) d].
Example C72_example r s : sequential_sampler 5 no_sharding (Some 7) = Ok s ->
  (exists d, flat_data_loader (fun k => k) digits s None (Some no_sharding) [FFlatMap 2 twice; FOp (LBatch 4 true joined)] 0 1 16 500 r = Ok d /\
    exists N, forall fuel history, (N <= fuel)%nat -> fresh_loads true history = true ->
      flat_run d fuel history = cursor [Some [0; 10; 1; 11]; Some [2; 12; 3; 13]] history 0 []) /\
  (exists d, flat_data_loader (fun k => k) digits s None (Some no_sharding) [FFlatMap 2 twice] 2 1 16 500 r = Ok d /\
    exists N, forall fuel history, (N <= fuel)%nat -> loads_new true history = true ->
      flat_run d fuel history = cursor (map (fun x => Some [x]) [0; 1; 10; 11; 2; 3; 12; 13; 4; 14]) history 0 []).
Proof.
  intros E. pose proof (digit_records s E) as Hrs. assert (Hn : 0 <= smp_len s) by (injection E as <-; cbn; lia). split.
  - edestruct (C72_no_workers (fun k => k) digits s None (Some no_sharding) no_sharding [FFlatMap 2 twice; FOp (LBatch 4 true joined)] 1 16 500 r) as (d & Ed & H);
      [now left|cbn; lia|exact Hn|lia|exact Hrs|vm_compute; reflexivity|]. exists d. split; [exact Ed|]. exact H.
  - edestruct (C72_workers (fun k => k) digits s None (Some no_sharding) no_sharding [FFlatMap 2 twice] 2 1 16 500 r) with
      (out := combine [0; 1; 0; 1; 0; 1; 0; 1; 0; 0]%nat (map (fun x => Some [x]) [0; 1; 10; 11; 2; 3; 12; 13; 4; 14])) as (d & Ed & H);
      [now left|cbn; lia|exact Hn|lia|lia|exact Hrs|vm_compute; repeat constructor|unfold interleaved, numbered; cbn; round_robin|].
    exists d. split; [exact Ed|]. exact H.
Qed.
Example C72_same_elements_example s : sequential_sampler 5 no_sharding (Some 7) = Ok s ->
  forallb record_by_record [FFlatMap 2 twice; FOp (@LFilter Z (list Z) (fun d => Ok (match d with Some (x :: _) => Z.even x | _ => false end)))] = true /\
  exists l, flat_load [FFlatMap 2 twice; FOp (LFilter (fun d => Ok (match d with Some (x :: _) => Z.even x | _ => false end)))] (map digit [0; 1; 2; 3; 4]) = Ok l /\
    map rec_data l = map (fun x => Some [x]) [0; 10; 2; 12; 4; 14].
Proof. intros _. split; [reflexivity|]. eexists. split; vm_compute; reflexivity. Qed.

(** ** Where the iterator of a loader with FlatMap does less than that of another loader *)

(** The loader of records that come twice. *)
Definition twice_it (source : MapDs (list Z)) (smp : sampler) : Iter (option (list Z)) :=
  map_it (fun r : lrec Z (list Z) => Ok (rec_data r)) (flat_map_it (on_split 2 twice) (prefetch_it None false 16 500 (record_ds (fun k => k) source smp no_sharding))).
Lemma twice_loader source smp r :
  flat_data_loader (fun k => k) source smp None (Some no_sharding) [FFlatMap 2 twice] 0 1 16 500 r = Ok (InProcess (twice_it source smp)).
Proof. reflexivity. Qed.
(** States of other loaders are not rejected (compare C39_rejects): the state after 0, 10, 1 of a loader is accepted by the loader
    of other data, which goes on in the middle of its data. *)
Definition backwards : MapDs (list Z) :=
  let get i := if (0 <=? i) && (i <? 5) then Ok (Some [4 - i]) else Raise IndexError in
  {| mlen := 5; mget := get; mgetitems := default_getitems get |}.
Theorem C72_rejects_refuted : exists smp, sequential_sampler 5 no_sharding (Some 7) = Ok smp /\
  exists s1 s2 s3, next (twice_it digits smp) 20 (init (twice_it digits smp)) = (Yield (Some [0]), s1) /\
    next (twice_it digits smp) 20 s1 = (Yield (Some [10]), s2) /\ next (twice_it digits smp) 20 s2 = (Yield (Some [1]), s3) /\
  exists s', set_state (twice_it backwards smp) 20 (init (twice_it backwards smp)) (get_state (twice_it digits smp) s3) = Ok s' /\
    fst (next (twice_it backwards smp) 20 s') = Yield (Some [13]).
Proof.
  eexists. split; [reflexivity|]. do 3 eexists. split; [vm_compute; reflexivity|]. split; [vm_compute; reflexivity|]. split; [vm_compute; reflexivity|].
  eexists. split; vm_compute; reflexivity.
Qed.
(** Without workers, the state at the end restored into the iterator that has been read to the end gives the last records again
    (the iterator of a loader without FlatMap: C39_no_workers). *)
Theorem C72_used_refuted : exists smp history, sequential_sampler 5 no_sharding (Some 7) = Ok smp /\
  cursor (map (fun x => Some [x]) [0; 10; 1; 11; 2; 12; 3; 13; 4; 14]) history 0 [] <> flat_run (InProcess (twice_it digits smp)) 20 history /\
  nth_error (flat_run (InProcess (twice_it digits smp)) 20 history) 13 = Some (Got (Yield (Some [4]))).
Proof.
  eexists _, (List.repeat ONext 11 ++ [OSave; OLoad 0 true; ONext]). split; [reflexivity|].
  split; [vm_compute; discriminate|vm_compute; reflexivity].
Qed.
