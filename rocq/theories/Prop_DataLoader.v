(** C39: what an iterator of a DataLoader outputs, and its states. *)
From Coq Require String.
From Verif Require Import Base Spec Sharding MapDatasets Samplers Iter IterSpec IterLaw Interleave InterleaveSpec Interleave_proofs Scheduled
  Multiprocess MultiprocessSpec Multiprocess_proofs DataLoader DataLoaderSpec DataLoader_proofs Prop_Interleave.

Local Ltac spl := repeat match goal with |- _ /\ _ => split end.

(** The shard of a DataLoader: the argument, or else the sampler's. *)
Definition chosen (own arg : option shard_options) (o : shard_options) : Prop := arg = Some o \/ (arg = None /\ own = Some o).

Lemma sampler_length_nonneg n o : 1 <= shard_count o -> 0 <= n -> 0 <= sampler_length n o.
Proof.
  intros H1 H2. unfold sampler_length. assert (0 <= n / shard_count o) by (apply Z.div_pos; lia).
  destruct (drop_remainder o); [easy|]. destruct (_ <? _); lia.
Qed.

(** Without workers the output is what the operations make of the records of the shard, and every history of next,
    get_state, set_state and new iterators behaves like a cursor: a state restored at any time and into an iterator at
    any position continues with the element after the one before the save. *)
Theorem C39_no_workers {G A} (philox : Z -> G) (source : MapDs A) s own arg o ops bs nt pb r sr dr rs l :
  chosen own arg o -> 1 <= shard_count o -> 0 <= smp_len s -> 0 <= bs ->
  records philox source s o rs -> load ops rs = Ok l ->
  exists d, data_loader philox source s own arg ops 0 bs nt pb r sr dr = Ok d /\
    exists N, forall fuel history, (N <= fuel)%nat ->
      loader_run d fuel history (ld_init d) [] = cursor (map rec_data l) history 0 [].
Proof.
  intros Ho HS Hn Hb Hrs Hl.
  destruct (worker_loads (record_ds philox source s o) nt pb ops rs 1 0 l ltac:(lia) (sampler_length_nonneg _ _ HS Hn) (records_ds _ _ _ _ _ Hrs)) as (z & Ez & Hz & Lz);
    [now rewrite stride_one|].
  unfold worker_z in Ez. cbn [Nat.eqb bind] in Ez. change (Z.of_nat 0) with 0 in Ez. change (Z.of_nat 1) with 1 in Ez.
  exists (loader0 o sr dr z). split; [|now apply loader0_history].
  unfold data_loader. replace (bs <? 0) with false by lia.
  destruct Ho as [->|(-> & ->)]; change (0 <? 0) with false; change (0 =? 0) with true; cbn [bind]; rewrite Ez; reflexivity.
Qed.

(** With workers: worker [i] applies the operations to the records i, i+W, i+2W, ... of the shard, and the outputs of the
    workers are taken in turns. *)
Theorem C39_workers {G A} (philox : Z -> G) (source : MapDs A) s own arg o ops W bs nt pb r sr dr rs ls out :
  chosen own arg o -> 1 <= shard_count o -> 0 <= smp_len s -> 1 <= bs -> (1 <= W)%nat ->
  records philox source s o rs ->
  Forall2 (fun i l => load ops (stride W i rs) = Ok l) (seq 0 W) ls -> interleaved W (map (map rec_data) ls) out ->
  exists d, data_loader philox source s own arg ops (Z.of_nat W) bs nt pb r sr dr = Ok d /\
    exists N, forall fuel history, (N <= fuel)%nat ->
      loader_run d fuel history (ld_init d) [] = cursor (map snd out) history 0 [].
Proof.
  intros Ho HS Hn Hb HW Hrs Hls Hout.
  destruct (shards_load (record_ds philox source s o) nt pb ops rs W (Z.to_nat bs) r ls ltac:(lia) (sampler_length_nonneg _ _ HS Hn) (records_ds _ _ _ _ _ Hrs) Hls)
    as (zs & Ez & Hlen & F).
  exists (loaderW o sr dr W zs). split.
  - unfold data_loader. replace (Z.of_nat W <? 0) with false by lia. replace (bs <? 0) with false by lia.
    replace (Z.of_nat W =? 0) with false by lia. replace (bs <=? 0) with false by lia. rewrite Nat2Z.id.
    destruct Ho as [->|(-> & ->)]; cbn [bind]; rewrite Ez; reflexivity.
  - apply (loaderW_history o sr dr W zs (map (map rec_data) ls)); auto. now apply Forall2_map_r.
Qed.

(** One worker gives what no worker gives. *)
Lemma robin_one {A} (l : list A) : interleaved 1 [l] (map (pair 0%nat) l).
Proof.
  unfold interleaved, numbered. cbn [length seq combine List.repeat]. apply robin_open. induction l as [|x l IH]; cbn [map].
  - apply robin_end, robin_stop. easy.
  - apply robin_take. exact IH.
Qed.
Corollary C39_one_worker {G A} (philox : Z -> G) (source : MapDs A) s own arg o ops bs nt pb r sr dr rs l :
  chosen own arg o -> 1 <= shard_count o -> 0 <= smp_len s -> 1 <= bs ->
  records philox source s o rs -> load ops rs = Ok l ->
  exists d, data_loader philox source s own arg ops 1 bs nt pb r sr dr = Ok d /\
    exists N, forall fuel history, (N <= fuel)%nat ->
      loader_run d fuel history (ld_init d) [] = cursor (map rec_data l) history 0 [].
Proof.
  intros Ho HS Hn Hb Hrs Hl.
  destruct (C39_workers philox source s own arg o ops 1 bs nt pb r sr dr rs [l] (map (pair 0%nat) (map rec_data l))) as (d & E & H); auto.
  - cbn [seq]. constructor; [now rewrite stride_one|constructor].
  - apply robin_one.
  - exists d. split; [exact E|]. rewrite !map_map in H. exact H.
Qed.

(** Operations that keep every record: the output is the same for every worker count. *)
Lemma Forall2_stride {X Y} (R : X -> Y -> Prop) W l l' : Forall2 R l l' -> forall c, Forall2 R (stride W c l) (stride W c l').
Proof. induction 1; intros c; cbn [stride]; [constructor|]. destruct c; [constructor|]; auto. Qed.
Lemma sequence_of {X} (l : list (res X)) l' : Forall2 (fun r x => r = Ok x) l l' -> sequence l = Ok l'.
Proof. induction 1 as [|r x l l' -> H IH]; cbn [sequence bind]; [easy|]. now rewrite IH. Qed.
Lemma load_stride {G A} (ops : list (loader_op G A)) W c : forallb one_by_one ops = true -> forall rs l,
  load ops rs = Ok l -> load ops (stride W c rs) = Ok (stride W c l).
Proof.
  induction ops as [|op ops IH]; intros H rs l; cbn [load]; [now injection 1 as <-|]. cbn [forallb] in H. apply andb_prop in H as (H1 & H2).
  intros E. apply bind_ok' in E as (l1 & E1 & E).
  assert (E1' : load1 op (stride W c rs) = Ok (stride W c l1)); [|rewrite E1'; cbn [bind]; now apply IH].
  destruct op; try discriminate; cbn [load1] in *; rewrite map_stride; apply sequence_of; apply Forall2_stride; now apply sequence_ok.
Qed.
Theorem C39_same_for_every_worker_count {G A} (philox : Z -> G) (source : MapDs A) s own arg o ops W bs nt pb r sr dr rs l :
  chosen own arg o -> 1 <= shard_count o -> 0 <= smp_len s -> 1 <= bs -> 0 <= W ->
  records philox source s o rs -> load ops rs = Ok l -> forallb one_by_one ops = true ->
  exists d, data_loader philox source s own arg ops W bs nt pb r sr dr = Ok d /\
    exists N, forall fuel history, (N <= fuel)%nat ->
      loader_run d fuel history (ld_init d) [] = cursor (map rec_data l) history 0 [].
Proof.
  intros Ho HS Hn Hb HW Hrs Hl Hops. destruct (Z.eq_dec W 0) as [->|HW0]; [apply (C39_no_workers philox source s own arg o ops bs nt pb r sr dr rs l); auto; lia|].
  rewrite <- (Z2Nat.id W HW).
  destruct (C39_workers philox source s own arg o ops (Z.to_nat W) bs nt pb r sr dr rs (strides (Z.to_nat W) l) (turns (Z.to_nat W) 0 (map rec_data l))) as (d & E & H); auto.
  - lia.
  - unfold strides. apply Forall2_map_r. assert (F : Forall (fun i => load ops (stride (Z.to_nat W) i rs) = Ok (stride (Z.to_nat W) i l)) (seq 0 (Z.to_nat W)))
      by (apply Forall_forall; intros i _; now apply load_stride).
    clear - F. induction F; constructor; auto.
  - replace (map (map rec_data) (strides (Z.to_nat W) l)) with (strides (Z.to_nat W) (map rec_data l)); [apply interleaved_strides; lia|].
    unfold strides. rewrite map_map. apply map_ext. intros i. now rewrite map_stride.
  - rewrite turns_snd in H. eauto.
Qed.

(** States of other loaders are rejected. *)
Theorem C39_rejects {G A} (philox : Z -> G) (source : MapDs A) s own arg ops W bs nt pb r sr dr d c :
  data_loader philox source s own arg ops W bs nt pb r sr dr = Ok d ->
  state_workers c <> W \/ state_sampler c <> sr \/ state_source c <> dr ->
  forall fuel st, ld_set d fuel st c = Raise ValueError.
Proof.
  unfold data_loader. destruct (W <? 0) eqn:E1; [discriminate|]. destruct (bs <? 0); [discriminate|].
  intros E H. apply bind_ok' in E as (o & _ & E). cbv zeta in E.
  assert (V : forall w, Z.of_nat w = W -> validate_state w sr dr c = Raise ValueError).
  { intros w Hw. unfold validate_state. destruct (Z.eqb_spec (state_workers c) (Z.of_nat w)); [|easy]. cbn [negb].
    destruct (String.eqb_spec (state_sampler c) sr); [|easy]. cbn [negb]. destruct (String.eqb_spec (state_source c) dr); [|easy].
    destruct H as [H|[H|H]]; congruence. }
  destruct (W =? 0) eqn:E0.
  - apply bind_ok' in E as (z & _ & E). injection E as <-. intros fuel st. cbn [loader0 ld_set]. rewrite (V 0%nat); [easy|lia].
  - destruct (bs <=? 0); [discriminate|]. apply bind_ok' in E as (zs & _ & E). injection E as <-. intros fuel st. cbn [loaderW ld_set].
    rewrite (V (Z.to_nat W)); [easy|lia].
Qed.
(** A loader cannot be made with a negative number of workers or buffer, or without a shard. *)
Theorem C39_arguments {G A} (philox : Z -> G) (source : MapDs A) s own arg ops W bs nt pb r sr dr :
  W < 0 \/ bs < 0 \/ (0 < W /\ bs = 0) \/ (own = None /\ arg = None) ->
  data_loader philox source s own arg ops W bs nt pb r sr dr = Raise ValueError.
Proof.
  intros H. unfold data_loader. destruct (Z.ltb_spec W 0); [easy|]. destruct (Z.ltb_spec bs 0); [easy|].
  destruct H as [H|[H|[(HW & ->)|(-> & ->)]]]; try lia; [|reflexivity].
  replace (W =? 0) with false by lia. destruct arg; [reflexivity|]. destruct own; reflexivity.
Qed.

(** ** Five records *)
Definition digits : MapDs (list Z) :=
  let get i := if (0 <=? i) && (i <? 5) then Ok (Some [i]) else Raise IndexError in
  {| mlen := 5; mget := get; mgetitems := default_getitems get |}.
Definition joined (l : list (option (list Z))) : res (option (list Z)) :=
  Ok (Some (flat_map (fun d => match d with Some d => d | None => [] end) l)).
Definition digit (i : Z) : lrec Z (list Z) := mkRec (mkMd i (Some i) (Some (7 + i))) (Some (7 + i)) (Some [i]).
Lemma digit_records s : sequential_sampler 5 no_sharding (Some 7) = Ok s ->
  records (fun k => k) digits s no_sharding (map digit [0; 1; 2; 3; 4]).
Proof. intros E. injection E as <-. unfold records. vm_compute. repeat constructor; eexists; split; reflexivity. Qed.

(** A RandomMap adding the next number of the record's generator gives the same with 0 and 3 workers. *)
Definition add_noise (d : option (list Z)) (g : option Z) : res (option (list Z) * option Z) :=
  match d, g with Some d, Some g => Ok (Some (map (Z.add g) d), Some (g + 1)) | _, _ => Raise TypeError end.
Example C39_example_random r W s : 0 <= W -> sequential_sampler 5 no_sharding (Some 7) = Ok s ->
  exists d, data_loader (fun k => k) digits s None (Some no_sharding) [LRandomMap add_noise; LRandomMap add_noise] W 1 16 500
              r String.EmptyString String.EmptyString = Ok d /\
    exists N, forall fuel history, (N <= fuel)%nat ->
      loader_run d fuel history (ld_init d) [] = cursor (map (fun i => Some [i + (7 + i) + (8 + i)]) [0; 1; 2; 3; 4]) history 0 [].
Proof.
  intros HW E. eapply (C39_same_for_every_worker_count (fun k => k) digits s None (Some no_sharding) no_sharding) with (l := map (fun i => mkRec (mkMd i (Some i) (Some (7 + i))) (Some (9 + i)) (Some [i + (7 + i) + (8 + i)])) [0; 1; 2; 3; 4]);
    [now left|cbn; lia|injection E as <-; cbn; lia|lia|exact HW|now apply digit_records|vm_compute; reflexivity|reflexivity].
Qed.
(** Batches are made by the workers: with no worker [0 1] [2 3] [4], with two [0 2] [1 3] [4]. *)
Example C39_example_batch r s : sequential_sampler 5 no_sharding (Some 7) = Ok s ->
  (exists d, data_loader (fun k => k) digits s None (Some no_sharding) [LBatch 2 false joined] 0 1 16 500 r String.EmptyString String.EmptyString = Ok d /\
    exists N, forall fuel history, (N <= fuel)%nat -> loader_run d fuel history (ld_init d) [] = cursor [Some [0; 1]; Some [2; 3]; Some [4]] history 0 []) /\
  (exists d, data_loader (fun k => k) digits s None (Some no_sharding) [LBatch 2 false joined] 2 1 16 500 r String.EmptyString String.EmptyString = Ok d /\
    exists N, forall fuel history, (N <= fuel)%nat -> loader_run d fuel history (ld_init d) [] = cursor [Some [0; 2]; Some [1; 3]; Some [4]] history 0 []).
Proof.
  intros E. pose proof (digit_records s E) as Hrs. assert (Hn : 0 <= smp_len s) by (injection E as <-; cbn; lia). split.
  - eapply (C39_no_workers (fun k => k) digits s None (Some no_sharding) no_sharding [LBatch 2 false joined] 1 16 500 r) with (l := [mkRec (mkMd 1 None (Some 8)) (Some 8) (Some [0; 1]);
      mkRec (mkMd 3 None (Some 10)) (Some 10) (Some [2; 3]); mkRec (mkMd 4 None (Some 11)) (Some 11) (Some [4])]);
      [now left|cbn; lia|exact Hn|lia|exact Hrs|vm_compute; reflexivity].
  - eapply (C39_workers (fun k => k) digits s None (Some no_sharding) no_sharding [LBatch 2 false joined] 2 1 16 500 r) with
      (ls := [[mkRec (mkMd 2 None (Some 9)) (Some 9) (Some [0; 2]); mkRec (mkMd 4 None (Some 11)) (Some 11) (Some [4])]; [mkRec (mkMd 3 None (Some 10)) (Some 10) (Some [1; 3])]])
      (out := [(0%nat, Some [0; 2]); (1%nat, Some [1; 3]); (0%nat, Some [4])]);
      [now left|cbn; lia|exact Hn|lia|lia|exact Hrs|vm_compute; repeat constructor|unfold interleaved, numbered; round_robin].
Qed.
