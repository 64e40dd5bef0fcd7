(** Property theorems about iterators (C06, C19-C23, C25-C30).  The vocabulary of
    the statements is in IterSpec.v and Spec.v, the documented outputs of whole
    pipelines in Pipeline.v; [*_it] are the modelled iterators of Iter.v.

    Parents are arbitrary iterators satisfying the contract [lawful p l fin used
    json] (IterSpec.v): they return [l], and then stop if [fin = true].  C19 shows
    that all pipelines satisfy it. *)
From Verif Require Import Base IndexShuffle IndexShuffle_proofs SeedSeq MapDatasets MapShuffle_proofs Spec ListFacts Iter IterSpec IterLaw
  IterBasic_proofs IterBatch_proofs IterFlat_proofs IterSource_proofs IterWindow_proofs IterRebatch_proofs
  IterMany_proofs IterThreshold_proofs IterOnce_proofs IterMore_proofs FileSources Packing PackingSpec Scheduled Pipeline Pipeline_proofs.

(** Iterators over 0..n-1 for the examples: 2 reading threads, buffer of 3. *)
Definition src (n : Z) : Iter (option Z) := prefetch_tuned (fun _ => []) None false 2 3 (range_example n).
Definition srcz (n : Z) : Iter Z := retype (fun o => match o with Some x => x | None => 0 end) (src n).

Lemma src_pipe gk n : (0 < n)%nat -> pipe gk (src (Z.of_nat n)) (map Some (zrange 0 n)) true true true.
Proof.
  intros Hn. pose proof (p_source gk Z (range_example (Z.of_nat n)) (map Some (zrange 0 n)) false (fun _ => []) 2 3) as H.
  rewrite map_length, zrange_length, range_example_len, Z.eqb_refl in H by lia.
  replace (filter _ (map Some (zrange 0 n))) with (map Some (zrange 0 n)) in H.
  2:{ symmetry. clear. induction (zrange 0 n) as [|x l IH]; cbn; [easy|]. cbn in IH. now rewrite IH. }
  apply H; [|lia]. intros i e He. rewrite nth_error_map, nth_error_zrange in He.
  destruct (Nat.ltb_spec i n); [|easy]. cbn in He. injection He as <-.
  rewrite range_example_get, Z.mod_small by lia. easy.
Qed.

Lemma srcz_pipe gk n : (0 < n)%nat -> pipe gk (srcz (Z.of_nat n)) (zrange 0 n) true true true.
Proof.
  intros Hn. pose proof (p_retype gk (option Z) Z (fun o => match o with Some x => x | None => 0 end) _ _ _ _ _ (src_pipe gk n Hn)) as H.
  rewrite map_map, map_id in H. exact H.
Qed.

Lemma srcz_lawful n : (0 < n)%nat -> lawful (srcz (Z.of_nat n)) (zrange 0 n) true true true.
Proof. intros Hn. exact (pipe_lawful generate_keys _ _ _ _ _ _ (srcz_pipe generate_keys n Hn)). Qed.

(** ** C06: window_shuffle.  [order n s] are the positions, within a window of [n]
    elements, of the elements returned one after the other. *)
Theorem C06_window_shuffle gen_keys : exists order : nat -> Z -> list nat,
  (forall n s, 0 <= s < 2 ^ 32 -> Z.of_nat n <= 2 ^ 63 ->
     (forall k, 16 <= k <= 62 -> k mod 2 = 0 -> Z.of_nat n <> 2 ^ k + 1) -> Permutation (order n s) (seq 0 n)) /\
  forall A window_size seed (p : Iter A) l (fin used json : bool),
  let windows := if fin then chunks (Z.to_nat window_size) l else full_chunks (Z.to_nat window_size) l in
  1 <= window_size <= 2 ^ 63 -> 0 <= seed -> seed + Z.of_nat (length windows) < 2 ^ 32 ->
  lawful p l fin used json ->
  exists outs, outputs (window_shuffle_it gen_keys window_size seed p) (concat outs) fin /\
    Forall2 (fun iw out => map Some out = map (nth_error (snd iw)) (order (length (snd iw)) (seed + fst iw)))
            (combine (zrange 0 (length windows)) windows) outs.
Proof.
  exists (window_order gen_keys). split.
  - intros n s Hs Hn Hk. apply window_order_permutation; try easy.
    intros (k & Hk1 & Hk2 & E). apply (Hk k Hk1 Hk2). lia.
  - intros A ws seed p l fin used json C Hws Hs Hn L.
    destruct (lawful_window gen_keys ws seed p l fin used json Hws Hs Hn L) as (W & HW & LW).
    exists W. split; [eapply lawful_outputs; eauto|].
    assert (Hc : forall w c, In (w, c) (combine (zrange 0 (length C)) C) -> Z.of_nat (length c) <= 2 ^ 63).
    { intros w c Hin. apply in_combine_r in Hin. apply In_nth_error in Hin as (j & Hj).
      assert (Hb : (0 < Z.to_nat ws)%nat) by lia.
      assert (exists t, c = firstn (Z.to_nat ws) t) as (t & ->).
      { unfold C in Hj. destruct fin.
        - rewrite chunks_nth in Hj by easy. destruct (_ <? _)%nat; [|easy]. injection Hj as <-. eauto.
        - apply full_chunks_nth in Hj as [_ ->]; eauto. }
      pose proof (firstn_le_length (Z.to_nat ws) t). lia. }
    fold C in HW. clear L LW Hn. clearbody C.
    induction HW as [|[w c] o wcs W Ho HW IH]; constructor.
    + cbn [fst snd] in *. apply reshuffle_order; [apply (Hc w c); now left|easy].
    + apply IH. intros w' c' Hin. apply (Hc w' c'). now right.
Qed.

(** The output is a permutation of the input, window by window. *)
Theorem C06_window_shuffle_permutes {A} gen_keys window_size seed (p : Iter A) l used json :
  1 <= window_size <= 2 ^ 63 -> 0 <= seed -> seed + Z.of_nat (length (chunks (Z.to_nat window_size) l)) < 2 ^ 32 ->
  (forall w k, In w (chunks (Z.to_nat window_size) l) -> 16 <= k <= 62 -> k mod 2 = 0 ->
     Z.of_nat (length w) <> 2 ^ k + 1) ->
  lawful p l true used json ->
  exists outs, elements (window_shuffle_it gen_keys window_size seed p) (concat outs) /\
    Forall2 (@Permutation A) (chunks (Z.to_nat window_size) l) outs /\ Permutation (concat outs) l.
Proof.
  intros Hws Hs Hn Hk L. pose proof (C06_window_shuffle gen_keys) as (order & HP & H).
  specialize (H A window_size seed p l true used json). cbv zeta in H.
  destruct (H Hws Hs Hn L) as (outs & Ho & HW). exists outs. split; [exact Ho|].
  set (C := chunks (Z.to_nat window_size) l) in *.
  assert (F : Forall2 (@Permutation A) C outs).
  { assert (Hlen : forall c, In c C -> Z.of_nat (length c) <= 2 ^ 63).
    { intros c Hc. apply In_nth_error in Hc as (j & Hj). unfold C in Hj. rewrite chunks_nth in Hj by lia.
      destruct (_ <? _)%nat; [|easy]. injection Hj as <-.
      pose proof (firstn_le_length (Z.to_nat window_size) (skipn (j * Z.to_nat window_size) l)). lia. }
    clear -HP HW Hlen Hs Hn Hk. revert Hn Hk Hlen HW. clearbody C.
    assert (G : forall a C outs, 0 <= a -> seed + a + Z.of_nat (length C) < 2 ^ 32 ->
       (forall w k, In w C -> 16 <= k <= 62 -> k mod 2 = 0 -> Z.of_nat (length w) <> 2 ^ k + 1) ->
       (forall c, In c C -> Z.of_nat (length c) <= 2 ^ 63) ->
       Forall2 (fun iw (out : list A) => map Some out = map (nth_error (snd iw)) (order (length (snd iw)) (seed + fst iw)))
            (combine (zrange a (length C)) C) outs -> Forall2 (@Permutation A) C outs).
    { clear C outs. intros a C. revert a. induction C as [|c C IH]; intros a outs Ha Hn Hk Hlen HW.
      - inversion HW. constructor.
      - cbn [length] in HW, Hn. rewrite zrange_S in HW. cbn [combine] in HW. inversion HW as [|? o ? outs' Ho HW']; subst.
        constructor.
        + cbn [fst snd] in Ho.
          assert (Hp : Permutation (order (length c) (seed + a)) (seq 0 (length c))).
          { apply HP; [lia|apply Hlen; now left|]. intros k. apply Hk. now left. }
          apply Permutation_map with (f := nth_error c) in Hp. rewrite <- Ho in Hp.
          replace (map (nth_error c) (seq 0 (length c))) with (map Some c) in Hp.
          2:{ symmetry. rewrite <- map_nth_seq. apply nth_error_ext. intros i. rewrite !nth_error_map, nth_error_zrange.
              destruct (Nat.ltb_spec i (length c)).
              - rewrite (nth_error_nth' _ 0%nat), seq_nth by (rewrite ?seq_length; lia). cbn. do 2 f_equal. lia.
              - replace (nth_error (seq 0 (length c)) i) with (@None nat); [easy|].
                symmetry. apply nth_error_None. rewrite seq_length. lia. }
          apply Permutation_map_inv in Hp as (c' & E & Hp).
          assert (o = c') as ->.
          { clear -E. assert (forall (x y : list A), map Some x = map Some y -> x = y) as Inj.
            { induction x as [|a x IH]; intros [|b y] H; try easy. cbn in H. injection H as <- H. f_equal. auto. }
            auto. }
          exact Hp.
        + apply (IH (a + 1)); [lia|lia| | |easy].
          * intros w k Hw. apply Hk. now right.
          * intros c' Hc'. apply Hlen. now right. }
    intros Hn Hk Hlen HW. apply (G 0); try easy; lia. }
  split; [easy|]. rewrite <- (chunks_concat (Z.to_nat window_size) l) by lia. fold C. clear -F.
  induction F; [constructor|]. cbn. apply Permutation_app; [now symmetry|easy].
Qed.

(** Finding (inherited from C02): a window of 2^k+1 elements, k even and >= 16, is
    not permuted, whatever the seed. *)
Theorem C06_window_shuffle_refuted {A} gen_keys k seed (p : Iter A) l used json :
  16 <= k <= 62 -> k mod 2 = 0 -> Z.of_nat (length l) = 2 ^ k + 1 -> NoDup l -> 0 <= seed < 2 ^ 32 - 1 ->
  lawful p l true used json ->
  exists out, elements (window_shuffle_it gen_keys (2 ^ k + 1) seed p) out /\ ~ Permutation out l.
Proof.
  intros Hk He Hlen Hnd Hs L.
  assert (H16 : 2 ^ 16 <= 2 ^ k <= 2 ^ 62) by (split; apply Z.pow_le_mono_r; lia).
  assert (EC : chunks (Z.to_nat (2 ^ k + 1)) l = [l]).
  { rewrite chunks_step by (try lia; intros ->; cbn in Hlen; lia).
    rewrite firstn_all2, skipn_all2 by lia. reflexivity. }
  destruct (lawful_window gen_keys (2 ^ k + 1) seed p l true used json ltac:(lia) ltac:(lia)) as (W & HW & LW); [|exact L|].
  - rewrite EC. cbn. lia.
  - rewrite EC in HW. exists (concat W). split; [exact (lawful_outputs _ _ _ _ _ LW)|].
    inversion HW as [|? o ? W' Ho HW']; subst. inversion HW'; subst. cbn [concat fst snd] in *. rewrite app_nil_r.
    intros HP. assert (Hn : NoDup (rev o)).
    { eapply Permutation_NoDup; [|exact Hnd]. rewrite <- Permutation_rev. now symmetry. }
    unfold reshuffle_window in Ho. apply sequence_Ok_iff in Ho. rewrite Hlen in Ho.
    replace (2 ^ k + 1 - 1) with (2 ^ k) in Ho by lia.
    set (f := fun pos : Z => _) in Ho. set (m := Z.to_nat (2 ^ k)).
    assert (E : f 0 = f (Z.of_nat m)).
    { unfold f, m. rewrite Z2Nat.id by lia. now rewrite index_shuffle_collision. }
    pose proof (f_equal (fun l => nth_error l 0%nat) Ho) as E0.
    pose proof (f_equal (fun l => nth_error l m) Ho) as E1. cbv beta in E0, E1.
    rewrite !nth_error_map, !nth_error_zrange in E0, E1.
    destruct (Nat.ltb_spec 0 (length l)); [|lia]. destruct (Nat.ltb_spec m (length l)); [|lia].
    unfold option_map in E0, E1. change (0 + Z.of_nat 0) with 0 in E0.
    replace (0 + Z.of_nat m) with (Z.of_nat m) in E1 by lia. rewrite <- E, E0 in E1.
    destruct (nth_error (rev o) 0) as [a|] eqn:Ea; [|easy]. destruct (nth_error (rev o) m) as [b|] eqn:Eb; [|easy].
    assert (Hm : 0%nat = m); [|lia].
    apply (proj1 (NoDup_nth_error (rev o)) Hn); [apply (nth_lt _ _ _ Ea)|]. congruence.
Qed.

Example C06_example : exists outs, elements (window_shuffle_it generate_keys 2 7 (srcz 5)) (concat outs) /\
  Forall2 (@Permutation Z) [[0; 1]; [2; 3]; [4]] outs /\ Permutation (concat outs) [0; 1; 2; 3; 4].
Proof.
  apply (C06_window_shuffle_permutes generate_keys 2 7 (srcz 5) [0; 1; 2; 3; 4] true true); [lia|lia|reflexivity| |].
  - intros w k Hw Hk _. assert (2 ^ 16 <= 2 ^ k) by (apply Z.pow_le_mono_r; lia).
    assert (Hl : Z.of_nat (length w) <= 2) by (destruct Hw as [<-|[<-|[<-|[]]]]; vm_compute; discriminate). lia.
  - exact (srcz_lawful 5 ltac:(lia)).
Qed.

(** ** C19: checkpointing *)
Theorem C19_pipelines_checkpointable gen_keys A (it : Iter A) l fin used json :
  pipe gen_keys it l fin used json -> checkpointable it l fin used json.
Proof. intros H. eapply lawful_checkpointable, pipe_lawful, H. Qed.

(** ... and return the documented elements. *)
Theorem C19_pipelines_output gen_keys A (it : Iter A) l fin used json :
  pipe gen_keys it l fin used json -> outputs it l fin.
Proof. intros H. eapply lawful_outputs, pipe_lawful, H. Qed.

(** Findings: three histories in which set_state does not go back to the position
    of the checkpoint.  flat_map: restoring the final state into the iterator that
    has been read to the end replays the last buffer. *)
Theorem C19_flat_map_refuted :
  exists (it : Iter Z) l ops, it = flat_map_it (fun x => Ok [x; x + 10]) (srcz 2) /\ elements it l /\
    forall fuel, (5 <= fuel)%nat -> run it fuel ops (init it) [] <> cursor l ops 0 [].
Proof.
  eexists. exists [0; 10; 1; 11], [ONext; ONext; ONext; ONext; ONext; OSave; OLoad 0 false; ONext].
  split; [reflexivity|]. split.
  - apply (C19_pipelines_output generate_keys Z _ [0; 10; 1; 11] true false true).
    exact (p_flat_map generate_keys Z Z (fun x => Ok [x; x + 10]) (fun x => [x; x + 10]) (srcz 2) [0; 1] true true true
       ltac:(repeat constructor) (srcz_pipe generate_keys 2 ltac:(lia))).
  - intros fuel Hf. do 5 (destruct fuel as [|fuel]; [lia|]). vm_compute. intros E. discriminate.
Qed.

(** rebatch without drop_remainder, when the rows exactly fill the batches: the
    state after the last batch, restored in a new iterator, is followed by an empty
    batch. *)
Definition refuted_batches : Iter (leaves Z) := retype (fun x => [[x; x + 100]]) (srcz 2).
Theorem C19_rebatch_refuted :
  exists (it : Iter (leaves Z)) l ops, rebatch_it 4 false refuted_batches = Ok it /\ elements it l /\
    fresh_loads true ops = true /\
    forall fuel, (5 <= fuel)%nat -> run it fuel ops (init it) [] <> cursor l ops 0 [].
Proof.
  eexists. exists [[[0; 100; 1; 101]]], [ONext; OSave; ORestart; OLoad 0 false; ONext].
  split; [reflexivity|]. split; [|split; [reflexivity|]].
  - exists 5%nat. intros fuel Hf. do 5 (destruct fuel as [|fuel]; [lia|]). vm_compute. reflexivity.
  - intros fuel Hf. do 5 (destruct fuel as [|fuel]; [lia|]). vm_compute. intros E. discriminate.
Qed.

(** cache: states taken in an iterator whose cache is complete, restored into
    iterators in use. *)
Theorem C19_cache_refuted :
  exists (it : Iter Z) l ops, it = cache_it (srcz 2) /\ elements it l /\
    forall fuel, (5 <= fuel)%nat -> run it fuel ops (init it) [] <> cursor l ops 0 [].
Proof.
  eexists. exists [0; 1], [OSave; ONext; ONext; ONext; OLoad 0 false; ONext; OSave; ORestart; OLoad 1 false; OSave;
                           ORestart; ONext; OLoad 2 false; ONext].
  split; [reflexivity|]. split.
  - apply (C19_pipelines_output generate_keys Z _ [0; 1] true false true).
    exact (p_cache generate_keys Z (srcz 2) [0; 1] true true true (srcz_pipe generate_keys 2 ltac:(lia))).
  - intros fuel Hf. do 5 (destruct fuel as [|fuel]; [lia|]). vm_compute. intros E. discriminate.
Qed.

(** A pipeline: source, filter, batch, repeat for 3 epochs, limit. *)
Definition C19_even : Iter Z := filter_it None (fun x => Ok (x mod 2 =? 0)) (srcz 5).
Definition C19_batched : Iter (list Z) :=
  match batch_it 2 false (fun l => Ok l) C19_even with Ok it => it | _ => retype (fun x => [x]) (srcz 5) end.
Definition C19_repeated : Iter (list Z) := match repeat_it (Some 3) C19_batched with Ok it => it | _ => C19_batched end.
Definition C19_pipeline : Iter (list Z) := match limit_it 5 C19_repeated with Ok it => it | _ => C19_batched end.
Example C19_example : pipe generate_keys C19_pipeline [[0; 2]; [4]; [0; 2]; [4]; [0; 2]] true true true.
Proof.
  apply (p_limit generate_keys (list Z) 5 C19_repeated C19_pipeline [[0; 2]; [4]; [0; 2]; [4]; [0; 2]; [4]] true true true);
    [reflexivity|].
  apply (p_repeat generate_keys (list Z) 3 C19_batched C19_repeated [[0; 2]; [4]] true true); [reflexivity|].
  apply (p_batch generate_keys Z (list Z) 2 false (fun l => Ok l) C19_even C19_batched [0; 2; 4] [[0; 2]; [4]] true true true);
    [reflexivity|repeat constructor|].
  apply (p_filter generate_keys Z (fun x => Ok (x mod 2 =? 0)) (fun x => x mod 2 =? 0) (srcz 5) [0; 1; 2; 3; 4] true true true);
    [repeat constructor|]. exact (srcz_pipe generate_keys 5 ltac:(lia)).
Qed.
Example C19_example_run :
  run C19_pipeline 20 [ONext; OSave; ONext; ONext; OSave; ORestart; OLoad 1 true; ONext; OLoad 0 false; ONext] (init C19_pipeline) []
  = [Got (Yield [0; 2]); Saved; Got (Yield [4]); Got (Yield [0; 2]); Saved; Restarted; Loaded; Got (Yield [4]); Loaded;
     Got (Yield [4])].
Proof. vm_compute. reflexivity. Qed.

(** Another one: a Parquet file, packing, a process, a thread (with any schedules), two epochs. *)
Definition C19_feature : list (feature Z) := [mkFeature 4 1 0].
Definition C19_file : Iter Z := match parquet_it [[1; 2]; []; [3]] with Ok it => it | _ => srcz 1 end.
Definition C19_sequences : Iter (element Z unit) := retype (fun x => ([[x; x + 10]], tt)) C19_file.
Definition C19_packed : Iter (packed_row Z unit) :=
  match packing false C19_feature 1 None (fun _ _ => Raise UserError) 0 false None C19_sequences with Ok it => it | _ => retype (fun _ => ([], [])) C19_file end.
Definition C19_prefetched sched sched' : Iter (packed_row Z unit) := thread_prefetch_it 2 true sched (process_prefetch_it 1 false sched' C19_packed).
Definition C19_rows : list (packed_row Z unit) := [([([1; 11; 2; 12], [1; 1; 2; 2], [0; 1; 0; 1])], [tt; tt]); ([([3; 13; 0; 0], [1; 1; 0; 0], [0; 1; 0; 0])], [tt])].
Example C19_example_prefetched sched sched' it : repeat_it (Some 2) (C19_prefetched sched sched') = Ok it ->
  pipe generate_keys it (C19_rows ++ C19_rows) true true true.
Proof.
  intros E. apply (p_repeat generate_keys _ 2 (C19_prefetched sched sched') it C19_rows true true E).
  apply p_thread_prefetch; [lia|]. apply p_process_prefetch; [lia|].
  set (e := fun x : Z => ([[x; x + 10]], tt) : element Z unit).
  assert (Hroom : forall r x, (length r <= 1)%nat -> (forall y, In y r -> exists z, y = e z) -> has_room C19_feature r (e x)).
  { intros r x Hl Hr [|[|i]] f Hf; try discriminate. injection Hf as <-. destruct r as [|y [|]]; cbn in Hl; try lia; cbn; [lia|].
    destruct (Hr y (or_introl eq_refl)) as (z & ->). cbn. lia. }
  apply (p_pack generate_keys Z unit false C19_feature 1 None (fun _ _ => Raise UserError) 0 false None (fun _ rows => seq 0 (length rows))
    C19_sequences C19_packed (map e [1; 2; 3]) [[map e [1; 2]]; [map e [3]]] true true true).
  - repeat split; try easy; try lia. intros f [<-|[]]. cbn. lia.
  - reflexivity.
  - intros T rows. split; [reflexivity|apply Permutation.Permutation_refl].
  - repeat constructor; intros [|[|i]] f Hf; try discriminate; injection Hf as <-; cbn; lia.
  - cbn [map]. apply packs_batch with (rest := [e 3]); [easy| |].
    + apply (fills_add _ [[]] (e 1) _ 0%nat []); [|reflexivity|].
      { split; [exists []; repeat split; apply Hroom; cbn; easy || lia|lia]. }
      apply (fills_add _ _ (e 2) _ 0%nat [e 1]); [|reflexivity|].
      { split; [exists [e 1]; repeat split; apply Hroom; cbn; [lia|]; intros y [<-|[]]; now exists 1|lia]. }
      apply fills_full. intros [|[|i]] [(r & Hr & Hp & _) _]; try discriminate. injection Hr as <-. specialize (Hp 0%nat _ eq_refl). cbn in Hp. lia.
    + apply packs_batch with (rest := []); [easy| |apply packs_nil].
      apply (fills_add _ [[]] (e 3) _ 0%nat []); [|reflexivity|apply fills_end].
      split; [exists []; repeat split; apply Hroom; cbn; easy || lia|lia].
  - apply (p_retype generate_keys Z (element Z unit) e C19_file [1; 2; 3] true true true).
    exact (p_parquet generate_keys Z [[1; 2]; []; [3]] C19_file eq_refl).
Qed.

(** ** C20: JSON.  [plain] replaces restores through JSON by direct ones. *)
Theorem C20_json_makes_no_difference gen_keys A (it : Iter A) l fin used :
  pipe gen_keys it l fin used true ->
  exists N, forall fuel ops, (N <= fuel)%nat ->
    (fin = false -> (length ops <= length l)%nat) -> (used = false -> fresh_loads true ops = true) ->
    run it fuel ops (init it) [] = run it fuel (map plain ops) (init it) [].
Proof. intros H. eapply checkpointable_json, C19_pipelines_checkpointable, H. Qed.
(* hypotheses: C19_example *)

(** ** C21: filter *)
Theorem C21_filter {A} (f : A -> res bool) g (p : Iter A) l fin used json :
  (forall x, In x l -> f x = Ok (g x)) -> lawful p l fin used json ->
  outputs (filter_it None f p) (filter g l) fin.
Proof. intros Hf L. eapply lawful_outputs, lawful_filter; eauto. now apply Forall_forall. Qed.

(** Filtering before or after to_iter_dataset gives the same elements. *)
Theorem C21_filter_map_or_iter {A} (f : A -> res bool) g (ds : MapDs A) E sched num_threads buffer_size :
  (forall i e, nth_error E i = Some e -> mget ds (Z.of_nat i) = Ok e) -> Z.of_nat (length E) = mlen ds ->
  (forall x, In (Some x) E -> f x = Ok (g x)) ->
  elements (prefetch_tuned sched None false num_threads buffer_size (filter_ds f ds)) (map Some (filter g (somes E))) /\
  elements (filter_it None (fun e => match e with Some x => f x | None => Raise UserError end)
              (prefetch_tuned sched None false num_threads buffer_size ds)) (map Some (filter g (somes E))).
Proof.
  intros HE Hlen Hf. split.
  - pose proof (p_source (fun _ _ => []) A (filter_ds f ds)
      (map (fun e => match e with Some x => if g x then Some x else None | None => None end) E) false sched num_threads buffer_size) as H.
    rewrite map_length in H. cbn [orb] in H. rewrite filter_somes in H.
    change (mlen (filter_ds f ds)) with (mlen ds) in H. rewrite Hlen, Z.eqb_refl in H.
    apply (C19_pipelines_output _ _ _ _ _ _ _ (H ltac:(intros i e He; rewrite nth_error_map in He;
      destruct (nth_error E i) as [e0|] eqn:E0; [|easy]; cbn in He; injection He as <-; cbn; rewrite (HE _ _ E0);
      cbn; destruct e0 as [x|]; [|easy]; cbn; rewrite (Hf x) by (apply nth_error_In in E0; exact E0); reflexivity) ltac:(lia))).
  - pose proof (p_source (fun _ _ => []) A ds E false sched num_threads buffer_size HE ltac:(lia)) as H.
    cbn [orb] in H. rewrite filter_kept, Hlen, Z.eqb_refl in H. apply pipe_lawful in H.
    rewrite <- (filter_map_Some g (fun e => match e with Some x => g x | None => false end)) by easy.
    refine (C21_filter _ _ _ _ true true true _ H). intros e He. apply in_map_iff in He as (x & <- & Hx).
    apply Hf. unfold somes in Hx. apply in_flat_map in Hx as ([y|] & Hy & Hx); [|easy]. destruct Hx as [->|[]]. exact Hy.
Qed.
Example C21_example : elements (filter_it None (fun x => Ok (x mod 2 =? 0)) (srcz 5)) [0; 2; 4].
Proof. exact (C21_filter (fun x => Ok (x mod 2 =? 0)) (fun x => x mod 2 =? 0) (srcz 5) [0; 1; 2; 3; 4] true true true
         ltac:(easy) (srcz_lawful 5 ltac:(lia))). Qed.

(** ** C22: the threshold.  Windows are groups of 1000 consecutive filter
    outcomes (check_filtered_interval). *)
Definition interval_size : nat := Z.to_nat check_filtered_interval.

Theorem C22_no_window_reaches_threshold {A} thr (f : A -> res bool) g (p : Iter A) l used json :
  (forall x, In x l -> f x = Ok (g x)) -> lawful p l true used json ->
  (forall m, (S m * interval_size <= length l)%nat -> ~ too_many thr g (nth_window interval_size l m)) ->
  exists N, forall fuel, (N <= fuel)%nat ->
    drain (filter_it thr f p) fuel (S (length l)) (init (filter_it thr f p)) = (filter g l, Stop).
Proof.
  intros Hf L Hm. destruct (filter_drain thr g f p l used json Hf L) as (N & H). exists N. intros fuel Hfuel.
  rewrite H by easy. eapply outcome_ok; eauto.
Qed.

Theorem C22_first_window_reaching_threshold {A} thr (f : A -> res bool) g (p : Iter A) l used json m :
  (forall x, In x l -> f x = Ok (g x)) -> lawful p l true used json ->
  (S m * interval_size <= length l)%nat -> too_many thr g (nth_window interval_size l m) ->
  (forall m', (m' < m)%nat -> ~ too_many thr g (nth_window interval_size l m')) ->
  exists N, forall fuel, (N <= fuel)%nat ->
    drain (filter_it thr f p) fuel (S (length l)) (init (filter_it thr f p))
    = (filter g (firstn (S m * interval_size - 1) l), Fail ValueError).
Proof.
  intros Hf L H1 H2 H3. destruct (filter_drain thr g f p l used json Hf L) as (N & H). exists N. intros fuel Hfuel.
  rewrite H by easy. eapply outcome_fail; eauto.
Qed.

(** The same for None elements of a MapDataset read by to_iter_dataset. *)
Theorem C22_map_no_window {A} thr (ds : MapDs A) E sched num_threads buffer_size :
  let present e := match e with Some _ => true | None => false end in
  let it := prefetch_tuned sched thr false num_threads buffer_size ds in
  (forall i e, nth_error E i = Some e -> mget ds (Z.of_nat i) = Ok e) -> Z.of_nat (length E) = mlen ds ->
  (forall m, (S m * interval_size <= length E)%nat -> ~ too_many thr present (nth_window interval_size E m)) ->
  forall fuel, (S (length E) <= fuel)%nat -> drain it fuel (S (length E)) (init it) = (filter present E, Stop).
Proof.
  intros present it HE Hlen Hm fuel Hf. unfold it. rewrite (prefetch_drain thr false ds E) by easy.
  eapply outcome_ok; eauto.
Qed.
Theorem C22_map_first_window {A} thr (ds : MapDs A) E sched num_threads buffer_size m :
  let present e := match e with Some _ => true | None => false end in
  let it := prefetch_tuned sched thr false num_threads buffer_size ds in
  (forall i e, nth_error E i = Some e -> mget ds (Z.of_nat i) = Ok e) -> Z.of_nat (length E) = mlen ds ->
  (S m * interval_size <= length E)%nat -> too_many thr present (nth_window interval_size E m) ->
  (forall m', (m' < m)%nat -> ~ too_many thr present (nth_window interval_size E m')) ->
  forall fuel, (S (length E) <= fuel)%nat ->
    drain it fuel (S (length E)) (init it) = (filter present (firstn (S m * interval_size - 1) E), Fail ValueError).
Proof.
  intros present it HE Hlen H1 H2 H3 fuel Hf. unfold it. rewrite (prefetch_drain thr false ds E) by easy.
  eapply outcome_fail; eauto.
Qed.

(** Whatever the history, the check changes nothing before it raises. *)
Theorem C22_check_is_transparent {A} thr (f : A -> res bool) (p : Iter A) fuel ops :
  agree_until_error (run (filter_it thr f p) fuel ops (init (filter_it thr f p)) [])
                    (run (filter_it None f p) fuel ops (init (filter_it None f p)) []).
Proof. exact (filter_check_transparent thr f p fuel ops (init p) checker0 checker0 []). Qed.

(** Both cases occur: 90% of the first 1000 elements are removed. *)
Example C22_example : let g := fun x => x mod 10 =? 0 in let l := zrange 0 1000 in
  too_many (Some (9, 10)) g (nth_window interval_size l 0) /\ ~ too_many (Some (91, 100)) g (nth_window interval_size l 0).
Proof.
  cbv zeta. assert (E : Z.of_nat (List.length (filter (fun a => negb (a mod 10 =? 0)) (nth_window interval_size (zrange 0 1000) 0))) = 900
    /\ Z.of_nat (List.length (nth_window interval_size (zrange 0 1000) 0)) = 1000) by (vm_compute; easy).
  destruct E as [E1 E2]. split.
  - exists 9, 10. rewrite E1, E2. clear. split; [reflexivity|]. split; [discriminate|lia].
  - intros (n & d & H & _ & C). injection H as <- <-. rewrite E1, E2 in C. clear -C. lia.
Qed.

(** ** C23: batch *)
Theorem C23_batch {A B} batch_size drop (batch_fn : list A -> res B) (p : Iter A) it l batches fin used json :
  batch_it batch_size drop batch_fn p = Ok it -> lawful p l fin used json ->
  Forall2 (fun c b => batch_fn c = Ok b)
    (if fin && negb drop then chunks (Z.to_nat batch_size) l else full_chunks (Z.to_nat batch_size) l) batches ->
  outputs it batches fin.
Proof. intros Hit L HF. eapply lawful_outputs, lawful_batch; eauto. Qed.
Theorem C23_batch_valid {A B} batch_size drop (batch_fn : list A -> res B) (p : Iter A) :
  (exists it, batch_it batch_size drop batch_fn p = Ok it) <-> 1 <= batch_size.
Proof.
  unfold batch_it. destruct (Z.leb_spec batch_size 0); split; intros H1; try (destruct H1; discriminate); try lia; eauto.
Qed.
(** [chunks] and [full_chunks]: C14_groups_concat, C14_groups_sizes, C14_full_groups_sizes. *)
Theorem C23_batches_restore_input {A} batch_size (p : Iter A) it l used json :
  batch_it batch_size false (fun c => Ok c) p = Ok it -> lawful p l true used json ->
  exists batches, elements it batches /\ concat batches = l /\
    forall j c, nth_error batches j = Some c ->
      (S j < length batches -> Z.of_nat (length c) = batch_size)%nat /\ 0 < Z.of_nat (length c) <= batch_size.
Proof.
  intros Hit L. exists (chunks (Z.to_nat batch_size) l).
  assert (Hb : 1 <= batch_size) by (eapply C23_batch_valid; eauto). split; [|split].
  - eapply (C23_batch batch_size false (fun c => Ok c) p it l _ true); eauto. cbn [andb negb].
    induction (chunks (Z.to_nat batch_size) l); constructor; easy.
  - apply chunks_concat. lia.
  - intros j c Hj. pose proof (chunks_sizes (Z.to_nat batch_size) l ltac:(lia) j c Hj) as [H1 H2]. split; [|lia].
    intros H. specialize (H1 H). lia.
Qed.
Example C23_example : exists it, batch_it 2 false (fun c => Ok c) (srcz 5) = Ok it /\ elements it [[0; 1]; [2; 3]; [4]].
Proof.
  eexists. split; [reflexivity|].
  eapply (C23_batch 2 false (fun c => Ok c) (srcz 5) _ [0; 1; 2; 3; 4] [[0; 1]; [2; 3]; [4]] true true true);
    [reflexivity|exact (srcz_lawful 5 ltac:(lia))|repeat constructor].
Qed.

(** ** C25: limit, zip, map, map_with_index, repeat *)
Theorem C25_limit {A} count (p : Iter A) it l fin used json :
  limit_it count p = Ok it -> lawful p l fin used json ->
  outputs it (firstn (Z.to_nat count) l) (fin || Nat.ltb (Z.to_nat count) (length l)).
Proof. intros Hit L. eapply lawful_outputs, lawful_limit; eauto. Qed.

Theorem C25_zip {A} (ps : list (Iter A)) it ls fin used json :
  zip_it false ps = Ok it -> Forall2 (fun p l => lawful p l fin used json) ps ls -> outputs it (zip_lists ls) fin.
Proof.
  intros Hit Hps. pose proof (lawful_zip false ps it ls fin used json Hit Hps) as H. cbn [negb orb] in H.
  rewrite andb_true_r in H. eapply lawful_outputs, H.
Qed.
(** [zip_lists]: row i is the list of the i-th elements, if all lists have one. *)
Theorem C25_zip_rows {A} (ls : list (list A)) i row : ls <> [] ->
  nth_error (zip_lists ls) i = Some row <-> Forall2 (fun l a => nth_error l i = Some a) ls row.
Proof.
  intros Hne. split; [now apply zip_lists_nth|]. revert row. induction ls as [|l ls IH]; intros row H; [easy|].
  inversion H as [|? a ? row' Ha H']; subst. destruct ls as [|l' ls].
  - inversion H'; subst. cbn. now rewrite nth_error_map, Ha.
  - specialize (IH ltac:(easy) row' H'). cbn [zip_lists] in *. rewrite nth_error_map, nth_error_combine, Ha, IH. easy.
Qed.
(** Strict zip: the same if the lengths agree, otherwise ValueError after the
    complete rows. *)
Theorem C25_zip_strict {A} (ps : list (Iter A)) it ls used json :
  zip_it true ps = Ok it -> Forall2 (fun p l => lawful p l true used json) ps ls ->
  (forall l, In l ls -> length l = length (zip_lists ls)) -> elements it (zip_lists ls).
Proof.
  intros Hit Hps Hl. pose proof (lawful_zip true ps it ls true used json Hit Hps) as H.
  replace (true && _) with true in H; [exact (lawful_outputs _ _ _ _ _ H)|].
  symmetry. cbn [negb orb andb]. apply forallb_forall. intros l Hin. apply Nat.eqb_eq. auto.
Qed.
Theorem C25_zip_strict_mismatch {A} (ps : list (Iter A)) it ls used json :
  zip_it true ps = Ok it -> Forall2 (fun p l => lawful p l true used json) ps ls ->
  (exists l, In l ls /\ length l <> length (zip_lists ls)) ->
  exists N, forall fuel, (N <= fuel)%nat ->
    drain it fuel (S (length (zip_lists ls))) (init it) = (zip_lists ls, Fail ValueError).
Proof. exact (zip_strict_mismatch ps it ls used json). Qed.

Theorem C25_map {A B} (f : A -> res (option B)) p l l' fin used json :
  Forall2 (fun e b => match e with Some x => f x | None => Ok None end = Ok b) l l' -> lawful p l fin used json ->
  outputs (map_it f p) l' fin.
Proof. intros HF L. eapply lawful_outputs, lawful_map; eauto. Qed.
Theorem C25_map_with_index {A B} (f : Z -> A -> res (option B)) p l l' fin used json :
  length l' = length l ->
  (forall i e b, nth_error l i = Some e -> nth_error l' i = Some b ->
     match e with Some x => f (Z.of_nat i) x | None => Ok None end = Ok b) ->
  lawful p l fin used json -> outputs (map_with_index_it f p) l' fin.
Proof.
  intros Hlen HF L. eapply lawful_outputs, lawful_map_with_index; eauto.
  apply Forall2_intro_nth.
  - rewrite combine_length, zrange_length. lia.
  - intros i [k e] b Hi Hb. rewrite nth_error_combine, nth_error_zrange in Hi.
    destruct (Nat.ltb_spec i (length l)); [|easy]. destruct (nth_error l i) as [e'|] eqn:E; [|easy].
    cbn in Hi. injection Hi as <- <-. exact (HF i e' b E Hb).
Qed.

Theorem C25_repeat {A} n (p : Iter A) it l used json :
  repeat_it (Some (Z.of_nat n)) p = Ok it -> lawful p l true used json -> elements it (concat (List.repeat l n)).
Proof.
  intros Hit L. exact (lawful_outputs _ _ _ _ _ (lawful_repeat (Some (Z.of_nat n)) p it l used json n Hit eq_refl L)).
Qed.
Theorem C25_repeat_forever {A} n (p : Iter A) it l used json :
  repeat_it None p = Ok it -> lawful p l true used json -> elements_prefix it (concat (List.repeat l n)).
Proof.
  intros Hit L. exact (lawful_outputs _ _ _ _ _ (lawful_repeat None p it l used json n Hit I L)).
Qed.
(** The constructors reject exactly the meaningless parameters. *)
Theorem C25_valid {A} (p : Iter A) n :
  ((exists it, limit_it n p = Ok it) <-> 1 <= n) /\ ((exists it, repeat_it (Some n) p = Ok it) <-> 1 <= n) /\
  exists it, repeat_it None p = Ok it.
Proof.
  unfold limit_it, repeat_it. destruct (Z.leb_spec n 0); repeat split; intros; try (destruct H0; discriminate); try lia; eauto.
Qed.

Example C25_example :
  (exists it, limit_it 3 (srcz 5) = Ok it /\ elements it [0; 1; 2]) /\
  (exists it, repeat_it (Some 2) (srcz 2) = Ok it /\ elements it [0; 1; 0; 1]) /\
  (exists it, zip_it false [srcz 5; srcz 2] = Ok it /\ elements it [[0; 0]; [1; 1]]) /\
  (exists it N, zip_it true [srcz 5; srcz 2] = Ok it /\
     forall fuel, (N <= fuel)%nat -> drain it fuel 3 (init it) = ([[0; 0]; [1; 1]], Fail ValueError)) /\
  elements (map_with_index_it (fun i x => Ok (Some (i * 100 + x))) (src 3)) [Some 0; Some 101; Some 202].
Proof.
  assert (H5 : lawful (srcz 5) [0; 1; 2; 3; 4] true true true) by exact (srcz_lawful 5 ltac:(lia)).
  assert (H2 : lawful (srcz 2) [0; 1] true true true) by exact (srcz_lawful 2 ltac:(lia)).
  assert (Hz : Forall2 (fun p l => lawful p l true true true) [srcz 5; srcz 2] [[0; 1; 2; 3; 4]; [0; 1]]).
  { constructor; [exact H5|]. constructor; [exact H2|constructor]. }
  split; [|split; [|split; [|split]]].
  - eexists. split; [reflexivity|]. exact (C25_limit 3 (srcz 5) _ _ true true true eq_refl H5).
  - eexists. split; [reflexivity|]. exact (C25_repeat 2 (srcz 2) _ _ true true eq_refl H2).
  - eexists. split; [reflexivity|]. exact (C25_zip [srcz 5; srcz 2] _ _ true true true eq_refl Hz).
  - destruct (C25_zip_strict_mismatch [srcz 5; srcz 2] _ _ true true eq_refl Hz) as (N & HN).
    + exists [0; 1; 2; 3; 4]. split; [now left|]. cbn. lia.
    + eexists. exists N. split; [reflexivity|exact HN].
  - pose proof (pipe_lawful generate_keys _ _ _ _ _ _ (src_pipe generate_keys 3 ltac:(lia))) as H3.
    refine (C25_map_with_index (fun i x => Ok (Some (i * 100 + x))) _ [Some 0; Some 1; Some 2] [Some 0; Some 101; Some 202] true true true eq_refl _ H3).
    intros i e b He Hb. destruct i as [|[|[|i]]]; cbn in He, Hb; try (injection He as <-; injection Hb as <-; reflexivity).
    destruct i; discriminate.
Qed.

(** ** C26: flat_map *)
Theorem C26_flat_map {A B} (f : A -> res (list B)) g p l fin used json :
  (forall x, In x l -> f x = Ok (g x)) -> lawful p l fin used json ->
  outputs (flat_map_it f p) (concat (map g l)) fin.
Proof. intros Hf L. rewrite <- flat_map_concat_map. eapply lawful_outputs, lawful_flat_map; eauto. now apply Forall_forall. Qed.
Example C26_example : elements (flat_map_it (fun x => Ok (List.repeat x (Z.to_nat (x mod 3)))) (srcz 6)) [1; 2; 2; 4; 5; 5].
Proof. exact (C26_flat_map _ (fun x => List.repeat x (Z.to_nat (x mod 3))) (srcz 6) [0; 1; 2; 3; 4; 5] true true true
         ltac:(easy) (srcz_lawful 6 ltac:(lia))). Qed.

(** ** C27: rebatch.  Batches are lists of [k] leaves with equally many rows. *)
Theorem C27_rebatch {X} k batch_size drop (p : Iter (leaves X)) it l fin used json :
  (1 <= k)%nat -> Forall (regular k) l -> rebatch_it batch_size drop p = Ok it -> lawful p l fin used json ->
  exists out, rebatched k (Z.to_nat batch_size) (drop || negb fin) l out /\ outputs it out fin.
Proof.
  intros Hk Hreg Hit (N & rep & crep & L).
  assert (Hbs : 1 <= batch_size) by (unfold rebatch_it in Hit; destruct (Z.leb_spec batch_size 0); [easy|lia]).
  exists (out_batches k batch_size drop l fin). split; [now apply out_batches_rebatched|].
  eapply rebatch_drain; eauto.
Qed.
(** [rebatched] determines the output. *)
Theorem C27_rebatched_unique {X} k b drop (l : list (leaves X)) out out' : (1 <= k)%nat ->
  rebatched k b drop l out -> rebatched k b drop l out' -> out = out'.
Proof. exact (rebatched_fun k b drop l out out'). Qed.
Example C27_example : exists it, rebatch_it 3 false (retype (fun x => [[x; x + 10]; [x + 20; x + 30]]) (srcz 2)) = Ok it /\
  elements it [[[0; 10; 1]; [20; 30; 21]]; [[11]; [31]]].
Proof.
  set (p := retype (fun x => [[x; x + 10]; [x + 20; x + 30]]) (srcz 2)).
  assert (exists it, rebatch_it 3 false p = Ok it) as (it & Hit) by (eexists; reflexivity). exists it. split; [exact Hit|].
  assert (L : lawful p [[[0; 10]; [20; 30]]; [[1; 11]; [21; 31]]] true true true)
    by exact (lawful_retype _ _ _ _ _ _ (srcz_lawful 2 ltac:(lia))).
  destruct (C27_rebatch 2 3 false p it [[[0; 10]; [20; 30]]; [[1; 11]; [21; 31]]] true true true ltac:(lia)) as (out & H & Ho).
  - repeat constructor.
  - exact Hit.
  - exact L.
  - replace [[[0; 10; 1]; [20; 30; 21]]; [[11]; [31]]] with out; [exact Ho|].
    apply (C27_rebatched_unique 2 3 false [[[0; 10]; [20; 30]]; [[1; 11]; [21; 31]]]); [lia|exact H|].
    split; [repeat constructor|]. intros [|[|m]] Hm; [reflexivity|reflexivity|lia].
Qed.

(** ** C28: cache *)
Theorem C28_cache {A} (p : Iter A) l fin used json : lawful p l fin used json ->
  outputs (cache_it p) l fin /\ checkpointable (cache_it p) l fin false json.
Proof.
  intros L. apply lawful_cache in L. split; [eapply lawful_outputs; eauto|now apply lawful_checkpointable].
Qed.
(** Every pass returns the same elements. *)
Theorem C28_cache_passes {A} (p : Iter A) l used json n it : lawful p l true used json ->
  repeat_it (Some (Z.of_nat n)) (cache_it p) = Ok it -> elements it (concat (List.repeat l n)).
Proof. intros L Hit. eapply C25_repeat; eauto. eapply lawful_cache; eauto. Qed.
(** They do so even if the parent raises when it is read more than once
    ([length l] elements and the end): the parent is read at most once. *)
Theorem C28_cache_reads_once {A} (p : Iter A) l used json num_epochs it :
  lawful p l true used json ->
  repeat_it num_epochs (cache_it (budget (S (length l)) p)) = Ok it ->
  match num_epochs with
  | Some k => elements it (concat (List.repeat l (Z.to_nat k)))
  | None => l <> [] -> forall n, elements_prefix it (concat (List.repeat l n))
  end.
Proof. exact (cache_reads_once p l used json num_epochs it). Qed.
Example C28_example : exists it, repeat_it (Some 2) (cache_it (budget 4 (srcz 3))) = Ok it /\ elements it [0; 1; 2; 0; 1; 2].
Proof.
  eexists. split; [reflexivity|].
  exact (C28_cache_reads_once (srcz 3) [0; 1; 2] true true (Some 2) _ (srcz_lawful 3 ltac:(lia)) eq_refl).
Qed.
(* without the cache the second pass fails *)
Example C28_example_no_cache : exists it, repeat_it (Some 2) (budget 4 (srcz 3)) = Ok it /\
  drain it 20 7 (init it) = ([0; 1; 2], Fail UserError).
Proof. eexists. split; [reflexivity|]. vm_compute. reflexivity. Qed.

(** ** C29: mixing.  [mixture props ls out]: the i-th element of [out] is the one
    selected by (component, key) = dataset_and_key i, which C11-C13 describe. *)
Theorem C29_mixed {A} props (ps : list (Iter A)) it ls used json :
  (forall w, In w props -> 0 < w) -> mixed_it props ps = Ok it -> length ps = length props ->
  Forall2 (fun p l => lawful p l true used json) ps ls ->
  exists out, elements it out /\ mixture props ls out /\ mixture_ends props ls out.
Proof.
  intros Hp Hit Hlen Hps.
  assert (Hne : props <> []) by (intros ->; destruct ps; [unfold mixed_it in Hit; cbn in Hit; easy|easy]).
  destruct (mixture_exists props ls Hp Hne) as (out & Hm & He).
  { rewrite <- (Forall2_length _ _ _ Hps). exact Hlen. }
  exists out. split; [|easy].
  assert (L : lawful it out true used json).
  { eapply (lawful_mixed props ps it ls out true true used json); eauto. discriminate. }
  exact (lawful_outputs _ _ _ _ _ L).
Qed.
Theorem C29_mixture_unique {A} props (ls : list (list A)) out out' :
  mixture props ls out -> mixture_ends props ls out -> mixture props ls out' -> mixture_ends props ls out' -> out = out'.
Proof. exact (mixture_unique props ls out out'). Qed.
(** Infinite (or not completely described) parents: a prefix. *)
Theorem C29_mixed_prefix {A} props (ps : list (Iter A)) it ls out used json :
  (forall w, In w props -> 0 < w) -> mixed_it props ps = Ok it -> length ps = length props ->
  Forall2 (fun p l => lawful p l false used json) ps ls -> Forall (fun l => l <> []) ls ->
  mixture props ls out -> mixture_within props ls out -> elements_prefix it out.
Proof.
  intros Hp Hit Hlen Hps Hne Hm Hw.
  assert (L : lawful it out false used json).
  { eapply (lawful_mixed props ps it ls out false false used json); eauto. discriminate. }
  exact (lawful_outputs _ _ _ _ _ L).
Qed.
(** Each parent is consumed in order: the keys read from component [c] are 0, 1, 2, ... *)
Theorem C29_consumed_in_order props n : (forall w, In w props -> 0 < w) -> props <> [] ->
  exists picks, map (fun i => dataset_and_key i props) (zrange 0 n) = map Ok picks /\
    forall c, keys_of (Z.of_nat c) picks = zrange 0 (length (keys_of (Z.of_nat c) picks)).
Proof.
  intros Hp Hne. destruct (MixSelect_proofs.picks_spec props n Hp Hne) as (picks & H & Hin & Hk). exists picks.
  split; [exact H|]. intros c. destruct (Nat.lt_ge_cases c (length props)) as [Hc|Hc]; [apply (Hk c Hc)|].
  replace (keys_of (Z.of_nat c) picks) with (@nil Z); [easy|]. symmetry. unfold keys_of.
  replace (filter (fun dk => fst dk =? Z.of_nat c) picks) with (@nil (Z * Z)); [easy|]. symmetry.
  clear -Hin Hc. induction picks as [|dk picks IH]; [easy|]. cbn. pose proof (Hin dk (or_introl eq_refl)).
  destruct (Z.eqb_spec (fst dk) (Z.of_nat c)); [lia|]. apply IH. intros; apply Hin; now right.
Qed.
Example C29_example : exists it, mixed_it [2; 1] [srcz 4; srcz 5] = Ok it /\ elements it [0; 1; 0; 2; 3; 1].
Proof.
  assert (exists it, mixed_it [2; 1] [srcz 4; srcz 5] = Ok it) as (it & Hit) by (eexists; reflexivity).
  exists it. split; [exact Hit|].
  destruct (C29_mixed [2; 1] [srcz 4; srcz 5] it [[0; 1; 2; 3]; [0; 1; 2; 3; 4]] true true) as (out & Ho & Hm & He).
  - cbn. intros w [<-|[<-|[]]]; lia.
  - exact Hit.
  - reflexivity.
  - constructor; [exact (srcz_lawful 4 ltac:(lia))|]. constructor; [exact (srcz_lawful 5 ltac:(lia))|constructor].
  - replace [0; 1; 0; 2; 3; 1] with out; [exact Ho|].
    apply (C29_mixture_unique [2; 1] [[0; 1; 2; 3]; [0; 1; 2; 3; 4]]); auto.
    + intros i a Ha. destruct i as [|[|[|[|[|[|i]]]]]]; try (destruct i; discriminate); cbn in Ha; injection Ha as <-;
        [exists 0%nat, 0%nat|exists 0%nat, 1%nat|exists 1%nat, 0%nat|exists 0%nat, 2%nat|exists 0%nat, 3%nat|exists 1%nat, 1%nat];
        (split; reflexivity).
    + exists 0%nat, 4%nat. split; reflexivity.
Qed.

(** ** C30: to_iter_dataset *)
Theorem C30_reads_in_order {A} allow_nones (ds : MapDs A) E sched num_threads buffer_size :
  (forall i e, nth_error E i = Some e -> mget ds (Z.of_nat i) = Ok e) -> Z.of_nat (length E) = mlen ds ->
  let it := prefetch_tuned sched None allow_nones num_threads buffer_size ds in
  let l := filter (fun e => allow_nones || match e with Some _ => true | None => false end) E in
  elements it l /\ checkpointable it l true true true.
Proof.
  intros HE Hlen it l.
  assert (H : pipe (fun _ _ => []) it l true true true).
  { replace true with (Z.of_nat (length E) =? mlen ds) at 1 by (apply Z.eqb_eq; exact Hlen).
    apply p_source; [exact HE|lia]. }
  split; [exact (C19_pipelines_output _ _ _ _ _ _ _ H)|exact (C19_pipelines_checkpointable _ _ _ _ _ _ _ H)].
Qed.

(** The state after returning the element of index [q] is [q + 1]. *)
Theorem C30_state_is_next_index {A} allow_nones (ds : MapDs A) E sched num_threads buffer_size :
  (forall i e, nth_error E i = Some e -> mget ds (Z.of_nat i) = Ok e) -> Z.of_nat (length E) <= mlen ds ->
  let kept e := allow_nones || match e with Some _ => true | None => false end in
  let it := prefetch_tuned sched None allow_nones num_threads buffer_size ds in
  get_state it (init it) = 0 /\
  forall q e, nth_error E q = Some e -> kept e = true ->
  forall fuel, (S (length E) <= fuel)%nat ->
  get_state it (after it fuel (length (filter kept (firstn (S q) E))) (init it)) = Z.of_nat (S q).
Proof. intros HE Hlen kept0 it. split; [reflexivity|]. exact (prefetch_state allow_nones ds E sched num_threads buffer_size HE Hlen). Qed.

(** A buffer that grows and shrinks while reading. *)
Definition C30_sched (k : nat) : list pf_tune :=
  match k with 1%nat => [TuneBuffer 10; TuneStart] | 2%nat => [TuneBuffer 0; TuneThreads 0] | 4%nat => [TuneBuffer 1; TuneThreads 3] | _ => [] end.
Example C30_example : let it := prefetch_tuned C30_sched None false 2 1 (filter_ds (fun x => Ok (negb (x =? 2))) (range_example 6)) in
  elements it [Some 0; Some 1; Some 3; Some 4; Some 5] /\ get_state it (after it 10 3 (init it)) = 4.
Proof.
  set (ds := filter_ds _ _).
  assert (HE : forall i e, nth_error [Some 0; Some 1; None; Some 3; Some 4; Some 5] i = Some e -> mget ds (Z.of_nat i) = Ok e).
  { intros i e H. do 6 (destruct i as [|i]; [cbn in H; injection H as <-; reflexivity|]). destruct i; discriminate. }
  split; [|vm_compute; reflexivity].
  exact (proj1 (C30_reads_in_order false ds [Some 0; Some 1; None; Some 3; Some 4; Some 5] C30_sched 2 1 HE eq_refl)).
Qed.

(** Finding: the claim about the state is about elements that do not raise.  After
    an exception at index 1 an iterator with a buffer returns element 2 and its
    state is 2, so that restoring it returns element 2 again. *)
Definition C30_raising : MapDs Z :=
  let get i := if i =? 1 then Raise UserError else Ok (Some i) in
  {| mlen := 4; mget := get; mgetitems := fun is => sequence (map get is) |}.
Theorem C30_after_exception_refuted : let it := prefetch_it None false 2 2 C30_raising in
  forall fuel, (5 <= fuel)%nat ->
  run it fuel [ONext; ONext; ONext; OSave; OLoad 0 false; ONext] (init it) [] =
  [Got (Yield (Some 0)); Got (Fail UserError); Got (Yield (Some 2)); Saved; Loaded; Got (Yield (Some 2))].
Proof. intros it fuel Hf. do 5 (destruct fuel as [|fuel]; [lia|]). vm_compute. reflexivity. Qed.
