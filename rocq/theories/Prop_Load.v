(** C59: grain.load, from the records of the source to the batches of the iterator. *)
From Coq Require String.
From Verif Require Import Base Spec ListFacts Sharding MapDatasets Samplers Iter IterSpec Interleave InterleaveSpec Interleave_proofs Scheduled
  Multiprocess MultiprocessSpec Multiprocess_proofs DataLoader DataLoaderSpec DataLoader_proofs SeedSeq Load Prop_Sampler Prop_Interleave Prop_DataLoader.

Local Ltac spl := repeat match goal with |- _ /\ _ => split end.

(** The record keys that belong to the shard: all of them, or the even_split interval (C01). *)
Definition shard_of (n : Z) (so : option shard_options) : list Z :=
  match so with None => zrange 0 (Z.to_nat n) | Some o => interval (even_split n o) end.

(** What load may be asked for: 1 to 2^63 records; a shard index below the shard count; a shuffled shard is not empty and
    not of a size for which index_shuffle fails (C02); a remainder is not dropped, or there is none, or there is one epoch
    (C38). *)
Definition sensible (n : Z) (so : option shard_options) (shuffle : bool) (E : Z) : Prop :=
  1 <= n <= 2 ^ 63 /\
  (shuffle = true -> shufflable (Z.of_nat (length (shard_of n so))) /\ (1 <= length (shard_of n so))%nat) /\
  match so with
  | None => True
  | Some o => 0 <= shard_index o < shard_count o /\ (drop_remainder o = true \/ n mod shard_count o = 0 \/ E = 1)
  end.

(** [E] epochs over [base]: each is a permutation of it, or is it when not shuffled. *)
Definition epochs_over (base : list Z) (shuffle : bool) (E : Z) (epochs : list (list Z)) : Prop :=
  length epochs = Z.to_nat E /\
  Forall (fun keys => Permutation keys base /\ (shuffle = false -> keys = base)) epochs.

Lemma zrange_epochs (size : Z) E : 0 <= size ->
  zrange 0 (Z.to_nat (Z.of_nat E * size)) = concat (map (fun e => zrange (Z.of_nat e * size) (Z.to_nat size)) (seq 0 E)).
Proof.
  intros H. induction E as [|E IH]; [now cbn|]. rewrite seq_S, map_app, concat_app, <- IH. cbn [map concat plus]. rewrite app_nil_r.
  replace (Z.to_nat (Z.of_nat (S E) * size)) with (Z.to_nat (Z.of_nat E * size) + Z.to_nat size)%nat by nia.
  rewrite zrange_app. f_equal. f_equal. lia.
Qed.
Lemma keys_at_app {A} (ds : MapDs (metadata * A)) l l' : keys_at ds (l ++ l') = keys_at ds l ++ keys_at ds l'.
Proof. apply map_app. Qed.

Lemma epochs_read {A} (ds : MapDs (metadata * A)) size base shuffle E : 0 <= size ->
  (forall e, 0 <= e < Z.of_nat E -> exists ks, keys_at ds (zrange (e * size) (Z.to_nat size)) = map Ok ks /\
     Permutation ks base /\ (shuffle = false -> ks = base)) ->
  exists epochs, epochs_over base shuffle (Z.of_nat E) epochs /\
    keys_at ds (zrange 0 (Z.to_nat (Z.of_nat E * size))) = map Ok (concat epochs).
Proof.
  intros Hs H. rewrite zrange_epochs by easy. unfold epochs_over. rewrite Nat2Z.id.
  induction E as [|E IH]; [exists []; spl; constructor|].
  destruct IH as (epochs & (Hl & HF) & HK); [intros e He; apply H; lia|].
  destruct (H (Z.of_nat E) ltac:(lia)) as (ks & H1 & H2 & H3). exists (epochs ++ [ks]).
  rewrite seq_S, map_app, !concat_app, keys_at_app, HK, map_app. cbn [map concat plus]. rewrite !app_nil_r, H1. spl; try reflexivity.
  - rewrite app_length. cbn [length]. lia.
  - apply Forall_app. split; [easy|]. now repeat constructor.
Qed.

(** The records behind the keys. *)
Lemma records_of {G A} (philox : Z -> G) (source : MapDs A) s o (row : Z -> option A) ks :
  (forall key, In key ks -> mget source key = Ok (row key)) ->
  keys_read (sampler_ds source s o) = map Ok ks ->
  exists rs, records philox source s o rs /\ map rec_data rs = map row ks.
Proof.
  intros Hrow. unfold keys_read, keys_at, records. cbn [mlen sampler_ds].
  generalize (zrange 0 (Z.to_nat (sampler_length (smp_len s) o))). intros l. revert ks Hrow.
  induction l as [|j l IH]; intros [|key ks] Hrow E; try discriminate E; [exists []; spl; constructor|].
  cbn [map] in E. injection E as Ej E. destruct (IH ks) as (rs & H1 & H2); [intros; apply Hrow; now right|easy|].
  cbn [mget sampler_ds] in Ej. destruct (smp_get s (j * shard_count o + shard_index o)) as [md| |] eqn:Es; try discriminate Ej.
  cbn [bind] in Ej. destruct (md_record_key md) as [key'|] eqn:Ek; try discriminate Ej.
  destruct (mget source key') as [d| |] eqn:Ed; try discriminate Ej. cbn [bind key_read] in Ej. rewrite Ek in Ej. injection Ej as ->.
  rewrite (Hrow key (or_introl eq_refl)) in Ed. injection Ed as <-.
  exists (mkRec md (option_map philox (md_rng md)) (row key) :: rs). spl.
  - constructor; [|exact H1]. cbn [rec_md rec_gen rec_data]. spl; auto. exists key. split; [easy|]. apply Hrow. now left.
  - cbn [map rec_data]. now f_equal.
Qed.

(** The sampler of load makes a shard read its records once per epoch. *)
Lemma load_records {G A} gen_keys (philox : Z -> G) (source : MapDs A) (row : Z -> option A) so shuffle E seed s :
  let n := mlen source in
  sensible n so shuffle E -> (forall key, 0 <= key < n -> mget source key = Ok (row key)) ->
  index_sampler gen_keys n so shuffle (Some E) seed = Ok s ->
  exists epochs rs, epochs_over (shard_of n so) shuffle E epochs /\ 0 <= smp_len s /\
    records philox source s (match so with None => no_sharding | Some o => o end) rs /\
    map rec_data rs = map row (concat epochs).
Proof.
  intros n (Hn & Hsh & Hso) Hrow Hs.
  assert (Hr : readable n source) by (intros key Hkey; eauto).
  assert (HE : 1 <= E).
  { unfold index_sampler in Hs. destruct (Z.leb_spec n 0); [lia|]. destruct (Z.leb_spec E 0); [discriminate|lia]. }
  enough (H : exists epochs, epochs_over (shard_of n so) shuffle E epochs /\ 0 <= smp_len s /\
            keys_read (sampler_ds source s (match so with None => no_sharding | Some o => o end)) = map Ok (concat epochs) /\
            (forall key, In key (shard_of n so) -> 0 <= key < n)).
  { destruct H as (epochs & H1 & H2 & H3 & H4). exists epochs.
    assert (Hin' : forall key, In key (concat epochs) -> mget source key = Ok (row key)).
    { intros key Hin. apply Hrow, H4. apply in_concat in Hin as (ks & Hks & Hin). destruct H1 as [_ HF].
      rewrite Forall_forall in HF. destruct (HF ks Hks) as [HP _]. eapply Permutation_in; eassumption. }
    destruct (records_of philox source s _ row (concat epochs) Hin' H3) as (rs & R1 & R2). exists rs. now spl. }
  destruct so as [o|]; cbn [shard_of] in *.
  - destruct Hso as (Hi & Hd). destruct o as [i k drop]. cbn [shard_index shard_count drop_remainder] in *.
    change {| shard_index := i; shard_count := k; drop_remainder := drop |} with (shard i k drop) in *.
    assert (Hk : 1 <= k) by lia. set (size := snd (even_split n (shard i k drop)) - fst (even_split n (shard i k drop))).
    assert (Hint : 0 <= size /\ Z.of_nat (length (interval (even_split n (shard i k drop)))) = size /\
                   forall key, In key (interval (even_split n (shard i k drop))) -> 0 <= key < n).
    { destruct (range_ds n None 1) as [keys| |] eqn:Hkeys; [|discriminate|discriminate].
      pose proof (shard_keys_get n i k drop keys 0 ltac:(lia) Hk Hi Hkeys) as H. unfold size.
      destruct (even_split n (shard i k drop)) as [a b]. destruct H as (_ & _ & Hab & Hbn). cbn [fst snd].
      rewrite interval_length by lia. spl; try lia. intros key Hin. unfold interval in Hin. apply in_zrange in Hin. cbn [fst snd] in Hin. lia. }
    destruct Hint as (Hsz & Hlen & Hin). rewrite Hlen in Hsh.
    assert (Hsh' : shuffle = true -> shufflable size /\ 1 <= size) by (intros Ht; destruct (Hsh Ht); split; [easy|lia]).
    pose proof (C38_index_sampler_length gen_keys source n i k drop shuffle E seed s Hn Hk Hi Hsh' Hs Hd) as HL. fold size in HL.
    assert (0 <= smp_len s).
    { unfold index_sampler in Hs. destruct (Z.leb_spec n 0); [lia|]. destruct (Z.leb_spec E 0); [lia|].
      destruct (shuffle && _); [discriminate|]. destruct (match seed with Some _ => _ | None => false end); [discriminate|].
      apply bind_ok' in Hs as (keys & Hkeys & H1). cbv zeta in H1. apply bind_ok' in H1 as (keys' & Hkeys' & H1).
      injection H1 as <-. cbn [smp_len shard drop_remainder shard_count]. destruct drop; [|nia].
      pose proof (shard_keys_get n i k true keys 0 ltac:(lia) Hk Hi Hkeys) as Hl. unfold size in *.
      destruct (even_split n (shard i k true)) as [a b]. destruct Hl as (-> & _). cbn [fst snd] in *.
      apply Z.min_glb; [nia|]. apply Z.mul_nonneg_nonneg; [|lia]. apply Z.mul_nonneg_nonneg; lia. }
    destruct (epochs_read (sampler_ds source s (shard i k drop)) size (interval (even_split n (shard i k drop))) shuffle (Z.to_nat E) Hsz)
      as (epochs & H1 & H2).
    { intros e He. apply (C38_index_sampler_epoch gen_keys source n i k drop shuffle (Some E) seed s e); auto; [lia|]. rewrite HL. fold size. nia. }
    rewrite Z2Nat.id in H1, H2 by lia. exists epochs. spl; auto. unfold keys_read. now rewrite HL.
  - destruct (index_sampler_inv gen_keys n None shuffle (Some E) seed s (zrange 0 (Z.to_nat n)) ltac:(lia)) as (keys & Hkeyed & _ & Hsl & Hget).
    + intros keys Hkeys. apply range_keyed; [lia|easy].
    + intros Ht. destruct (Hsh Ht). rewrite zrange_length in *. spl; auto; lia.
    + exact Hs.
    + assert (Hlk : mlen keys = n) by (destruct Hkeyed as [-> _]; rewrite zrange_length; lia).
      change no_sharding with (shard 0 1 false).
      assert (HL : mlen (sampler_ds source s (shard 0 1 false)) = E * n).
      { cbn [mlen sampler_ds]. unfold sampler_length. cbn [shard shard_index shard_count drop_remainder]. rewrite Hsl, Z.div_1_r, Z.mod_1_r.
        change (0 <? 0) with false. cbv iota. lia. }
      assert (Hb : forall key, In key (zrange 0 (Z.to_nat n)) -> 0 <= key < n) by (intros key Hin; apply in_zrange in Hin; lia).
      destruct (epochs_read (sampler_ds source s (shard 0 1 false)) n (zrange 0 (Z.to_nat n)) shuffle (Z.to_nat E) ltac:(lia)) as (epochs & H1 & H2).
      { intros e He. destruct (keys_at_epoch (sampler_ds source s (shard 0 1 false)) keys (zrange 0 (Z.to_nat n)) (negb shuffle) e Hkeyed ltac:(lia)) as (ks & K1 & K2 & K3).
        - rewrite Hlk, HL. nia.
        - intros j Hj Hne. apply (sharded_key source s keys (zrange 0 (Z.to_nat n)) (negb shuffle) 0 1 false seed n j); auto; try lia.
        - rewrite Hlk in K1. exists ks. spl; auto; intros ->; now apply K3. }
      rewrite Z2Nat.id in H1, H2 by lia. exists epochs. spl; auto; [rewrite Hsl; nia|]. unfold keys_read. now rewrite HL.
Qed.

(** Lists of groups. *)
Lemma chunks_map {A B} (f : A -> B) b (l : list A) : (0 < b)%nat -> chunks b (map f l) = map (map f) (chunks b l).
Proof.
  intros Hb. pattern l, (chunks b l). apply chunks_ind; [easy|easy|]. intros m Hm IH.
  rewrite chunks_step by (auto; now destruct m). now rewrite firstn_map, skipn_map, IH.
Qed.
Lemma full_chunks_map {A B} (f : A -> B) b (l : list A) : (0 < b)%nat -> full_chunks b (map f l) = map (map f) (full_chunks b l).
Proof.
  intros Hb. unfold full_chunks. rewrite chunks_map by easy. generalize (chunks b l) as cs. induction cs as [|c cs IH]; [easy|].
  cbn [map filter]. rewrite map_length. destruct (Nat.eqb (length c) b); cbn [map]; now rewrite IH.
Qed.
Lemma robin_map {A B} (f : A -> B) slots pend out : robin slots pend out ->
  robin (map (option_map (fun d : nat * list A => (fst d, map f (snd d)))) slots) (map (fun d => (fst d, map f (snd d))) pend)
        (map (fun e => (fst e, f (snd e))) out).
Proof.
  induction 1 as [j x l slots pend out _ IH|j slots pend out _ IH|d slots pend out _ IH|slots out (d & Hd) _ IH|slots Hs];
    cbn [map option_map fst snd]; try rewrite map_app in IH; try (cbn [map option_map fst snd] in IH).
  - now apply robin_take.
  - now apply robin_end.
  - now apply robin_open.
  - apply robin_skip; [|easy]. eexists. apply in_map_iff. exists (Some d). split; [reflexivity|easy].
  - apply robin_stop. intros s Hin. apply in_map_iff in Hin as (s' & <- & Hin). now rewrite (Hs s' Hin).
Qed.
Lemma interleaved_map {A B} (f : A -> B) W ls out : interleaved W ls out ->
  interleaved W (map (map f) ls) (map (fun e => (fst e, f (snd e))) out).
Proof.
  intros H. apply (robin_map f) in H. unfold interleaved, numbered. rewrite map_length.
  replace (List.repeat None W) with (map (option_map (fun d : nat * list A => (fst d, map f (snd d)))) (List.repeat None W))
    by (clear; induction W; cbn; congruence).
  replace (combine (seq 0 (length ls)) (map (map f) ls)) with (map (fun d => (fst d, map f (snd d))) (numbered ls)); [easy|].
  unfold numbered. generalize 0%nat. clear. induction ls as [|l ls IH]; intros i; [easy|]. cbn. now rewrite IH.
Qed.

(** The groups a batch makes of one list: all of it, or without a last incomplete group. *)
Definition groups {A} (drop : bool) (b : nat) (l : list A) : list (list A) := (if drop then full_chunks else chunks) b l.
Lemma groups_map {A B} (f : A -> B) drop b (l : list A) : (0 < b)%nat -> groups drop b (map f l) = map (map f) (groups drop b l).
Proof. unfold groups. destruct drop; [apply full_chunks_map|apply chunks_map]. Qed.
Lemma chunks_bounds {A} b (l : list A) : (0 < b)%nat -> Forall (fun g => (1 <= length g <= b)%nat) (chunks b l).
Proof.
  intros Hb. pattern l, (chunks b l). apply chunks_ind; [easy|constructor|]. intros m Hm IH. constructor; [|easy].
  rewrite firstn_length. destruct m; [easy|]. cbn [length]. lia.
Qed.
Lemma full_chunks_rest {A} b (l : list A) : (0 < b)%nat ->
  exists lost, Permutation (concat (full_chunks b l) ++ lost) l /\ (length lost <= b - 1)%nat.
Proof.
  intros Hb. unfold full_chunks. pattern l, (chunks b l). apply chunks_ind; [easy|exists []; split; [easy|cbn; lia]|].
  intros m Hm (lost & HP & Hl). cbn [filter]. rewrite firstn_length. destruct (Nat.eqb_spec (Nat.min b (length m)) b) as [E|E].
  - exists lost. split; [|easy]. cbn [concat]. rewrite <- app_assoc, HP, firstn_skipn. reflexivity.
  - rewrite skipn_all2 by lia. rewrite chunks_nil. cbn [filter concat app]. exists m. split; [easy|lia].
Qed.
Lemma groups_spec {A} drop b (l : list A) : (0 < b)%nat ->
  Forall (fun g => (1 <= length g <= b)%nat) (groups drop b l) /\
  exists lost, Permutation (concat (groups drop b l) ++ lost) l /\
    if drop then Forall (fun g => length g = b) (groups drop b l) /\ (length lost <= b - 1)%nat else lost = [].
Proof.
  intros Hb. unfold groups. split; [|destruct drop].
  - pose proof (chunks_bounds b l Hb) as H. destruct drop; [|easy]. unfold full_chunks. rewrite Forall_forall in *. intros g Hg.
    apply filter_In in Hg as [Hg _]. auto.
  - destruct (full_chunks_rest b l Hb) as (lost & HP & Hl). exists lost. spl; auto. unfold full_chunks. apply Forall_forall. intros g Hg.
    apply filter_In in Hg as [_ Hg]. now apply Nat.eqb_eq.
  - exists []. rewrite app_nil_r, chunks_concat by easy. now split.
Qed.

(** A Batch with a batch function that works on every list that is not empty. *)
Lemma load_batch {G A} b drop fn (bf : list (option A) -> option A) (rs : list (lrec G A)) : 1 <= b ->
  (forall g, g <> [] -> fn g = Ok (bf g)) ->
  exists l, load [LBatch b drop fn] rs = Ok l /\ map rec_data l = map bf (groups drop (Z.to_nat b) (map rec_data rs)).
Proof.
  intros Hb Hfn. cbn [load load1]. replace (b <=? 0) with false by lia. fold (groups drop (Z.to_nat b) rs).
  rewrite groups_map by lia. destruct (groups_spec drop (Z.to_nat b) rs ltac:(lia)) as (HF & _).
  induction HF as [|g gs Hg HF IH]; [exists []; now split|]. destruct IH as (l & E & Hl).
  destruct (rev g) as [|last g'] eqn:Er. { apply (f_equal (@length _)) in Er. rewrite rev_length in Er. cbn in Er. lia. }
  exists (mkRec (mkMd (md_index (rec_md last)) None (md_rng (rec_md last))) (rec_gen last) (bf (map rec_data g)) :: l).
  cbn [map sequence]. rewrite Hfn by (destruct g; [cbn in Hg; lia|easy]). cbn [bind]. rewrite Er. cbn [bind].
  apply bind_ok' in E as (l' & E & El). injection El as ->. rewrite E. cbn [bind]. split; [easy|]. cbn [map rec_data]. now rewrite Hl.
Qed.
Lemma lost_sum {A} (ls : list (list A)) (mk : list A -> list (list A)) b :
  (forall l, In l ls -> exists lost, Permutation (concat (mk l) ++ lost) l /\ (length lost <= b)%nat) ->
  exists lost, Permutation (concat (concat (map mk ls)) ++ lost) (concat ls) /\ (length lost <= length ls * b)%nat.
Proof.
  induction ls as [|l ls IH]; intros H; [exists []; now split|].
  destruct (H l (or_introl eq_refl)) as (x & Hx & Lx). destruct IH as (y & Hy & Ly); [intros; apply H; now right|].
  exists (x ++ y). cbn [map concat length]. rewrite concat_app, app_length. split; [|lia].
  etransitivity; [|exact (Permutation_app Hx Hy)]. rewrite <- !app_assoc. apply Permutation_app_head.
  rewrite !app_assoc. apply Permutation_app_tail. apply Permutation_app_comm.
Qed.

(** Without transformations and batches: whatever the number of workers, the output is the shard's records once per epoch,
    in order when not shuffled, and every history of next, get_state, set_state and new iterators follows it. *)
Theorem C59_rows {G A} gen_keys (philox : Z -> G) (source : MapDs A) (row : Z -> option A) E shuffle seed so drop fn W nt pb r sr dr s :
  sensible (mlen source) so shuffle E -> (forall key, 0 <= key < mlen source -> mget source key = Ok (row key)) ->
  index_sampler gen_keys (mlen source) so shuffle (Some E) seed = Ok s -> 0 <= W ->
  exists d epochs, grain_load gen_keys philox source (Some E) shuffle seed so [] None drop fn W nt pb r sr dr = Ok d /\
    epochs_over (shard_of (mlen source) so) shuffle E epochs /\
    exists N, forall fuel history, (N <= fuel)%nat ->
      loader_run d fuel history (ld_init d) [] = cursor (map row (concat epochs)) history 0 [].
Proof.
  intros Hg Hrow Hs HW. destruct (load_records gen_keys philox source row so shuffle E seed s Hg Hrow Hs) as (epochs & rs & He & Hlen & Hrs & Hd).
  destruct (C39_same_for_every_worker_count philox source s (Some (match so with None => no_sharding | Some o => o end)) None
              (match so with None => no_sharding | Some o => o end) [] W 1 nt pb r sr dr rs rs) as (d & Ed & H); auto; try lia.
  - now right.
  - destruct so as [o|]; [|cbn; lia]. destruct Hg as (_ & _ & Hg & _). lia.
  - exists d, epochs. rewrite Hd in H. unfold grain_load. rewrite Hs. cbn [bind]. now spl.
Qed.

(** With a batch size: the batches are made of the records of the shard, each record in at most one batch as often as there
    are epochs.  Without drop_remainder no record is missing; with it all batches are full, and each worker (there is at
    least the main process) leaves out fewer records than make a batch. *)
Theorem C59_batches {G A} gen_keys (philox : Z -> G) (source : MapDs A) (row : Z -> option A) E shuffle seed so b drop fn bf W nt pb r sr dr s :
  sensible (mlen source) so shuffle E -> (forall key, 0 <= key < mlen source -> mget source key = Ok (row key)) ->
  index_sampler gen_keys (mlen source) so shuffle (Some E) seed = Ok s -> 1 <= b -> (forall g, g <> [] -> fn g = Ok (bf g)) ->
  exists d epochs batches lost, grain_load gen_keys philox source (Some E) shuffle seed so [] (Some b) drop fn (Z.of_nat W) nt pb r sr dr = Ok d /\
    epochs_over (shard_of (mlen source) so) shuffle E epochs /\
    Permutation (concat batches ++ lost) (map row (concat epochs)) /\
    Forall (fun batch => 1 <= Z.of_nat (length batch) <= b) batches /\
    (if drop then Forall (fun batch => Z.of_nat (length batch) = b) batches /\ Z.of_nat (length lost) <= Z.of_nat (Nat.max 1 W) * (b - 1) else lost = []) /\
    exists N, forall fuel history, (N <= fuel)%nat ->
      loader_run d fuel history (ld_init d) [] = cursor (map bf batches) history 0 [].
Proof.
  intros Hg Hrow Hs Hb Hfn. destruct (load_records gen_keys philox source row so shuffle E seed s Hg Hrow Hs) as (epochs & rs & He & Hlen & Hrs & Hd).
  assert (HS : 1 <= shard_count (match so with None => no_sharding | Some o => o end)).
  { destruct so as [o|]; [|cbn; lia]. destruct Hg as (_ & _ & Hg & _). lia. }
  destruct W as [|W].
  - destruct (load_batch b drop fn bf rs Hb Hfn) as (l & El & Hl).
    destruct (C39_no_workers philox source s (Some (match so with None => no_sharding | Some o => o end)) None
                (match so with None => no_sharding | Some o => o end) [LBatch b drop fn] 1 nt pb r sr dr rs l) as (d & Ed & H); auto; [now right|lia|].
    rewrite Hl, Hd in H. destruct (groups_spec drop (Z.to_nat b) (map row (concat epochs)) ltac:(lia)) as (G1 & lost & G2 & G3).
    exists d, epochs, (groups drop (Z.to_nat b) (map row (concat epochs))), lost. unfold grain_load. rewrite Hs. cbn [bind app]. spl; auto.
    + eapply Forall_impl; [|exact G1]. cbn beta. intros; lia.
    + destruct drop; [|easy]. destruct G3 as (G3 & G4). split; [|lia]. eapply Forall_impl; [|exact G3]. cbn beta. intros; lia.
  - set (V := S W). set (rows := map row (concat epochs)).
    set (gs := map (fun i => groups drop (Z.to_nat b) (stride V i rows)) (seq 0 V)).
    assert (Hls : exists ls, Forall2 (fun i l => load [LBatch b drop fn] (stride V i rs) = Ok l) (seq 0 V) ls /\ map (map rec_data) ls = map (map bf) gs).
    { unfold gs. generalize (seq 0 V). intros is. induction is as [|i is IH]; [exists []; now split|]. destruct IH as (ls & F & Em).
      destruct (load_batch b drop fn bf (stride V i rs) Hb Hfn) as (l & El & Hl). exists (l :: ls). split; [now constructor|].
      cbn [map]. rewrite Em, Hl. f_equal. f_equal. f_equal. rewrite map_stride, Hd. reflexivity. }
    destruct Hls as (ls & F & Em). destruct (interleaved_exists V gs ltac:(unfold V; lia)) as (out & Hout).
    destruct (C39_workers philox source s (Some (match so with None => no_sharding | Some o => o end)) None
                (match so with None => no_sharding | Some o => o end) [LBatch b drop fn] V 1 nt pb r sr dr rs ls (map (fun e => (fst e, bf (snd e))) out))
      as (d & Ed & H); auto; [now right|lia|unfold V; lia|rewrite Em; now apply interleaved_map|].
    rewrite map_map in H. cbn [snd] in H. rewrite <- (map_map snd bf) in H.
    destruct (C34_each_dataset_complete _ _ _ Hout) as (HP & _).
    assert (Hgs : forall g, In g (map snd out) -> exists i, In g (groups drop (Z.to_nat b) (stride V i rows))).
    { intros g Hin. apply (Permutation_in g HP) in Hin. apply in_concat in Hin as (x & Hx & Hin). unfold gs in Hx. apply in_map_iff in Hx as (i & <- & _). eauto. }
    assert (Hall : Permutation (concat (strides V rows)) rows).
    { destruct (C34_each_dataset_complete _ _ _ (interleaved_strides V rows ltac:(unfold V; lia))) as (HP' & _). now rewrite turns_snd in HP'. }
    assert (Hrest : exists lost, Permutation (concat (concat gs) ++ lost) (concat (strides V rows)) /\
              if drop then (length lost <= V * (Z.to_nat b - 1))%nat else lost = []).
    { unfold gs. rewrite <- (map_map (fun i => stride V i rows) (groups drop (Z.to_nat b))). fold (strides V rows). destruct drop.
      - destruct (lost_sum (strides V rows) (groups true (Z.to_nat b)) (Z.to_nat b - 1)) as (lost & H1 & H2).
        + intros l _. destruct (groups_spec true (Z.to_nat b) l ltac:(lia)) as (_ & lost & P1 & _ & P2). eauto.
        + exists lost. split; [easy|]. unfold strides in H2. rewrite map_length, seq_length in H2. exact H2.
      - exists []. split; [|easy]. rewrite app_nil_r. generalize (strides V rows). intros m. induction m as [|l m IH]; [easy|]. cbn [map concat].
        rewrite concat_app, IH. unfold groups. now rewrite chunks_concat by lia. }
    destruct Hrest as (lost & R1 & R2). exists d, epochs, (map snd out), lost. unfold grain_load. rewrite Hs. cbn [bind app]. spl; auto.
    + etransitivity; [|exact Hall]. etransitivity; [|exact R1]. apply Permutation_app_tail. rewrite HP. reflexivity.
    + apply Forall_forall. intros g Hin. destruct (Hgs g Hin) as (i & Hi). destruct (groups_spec drop (Z.to_nat b) (stride V i rows) ltac:(lia)) as (G1 & _).
      rewrite Forall_forall in G1. specialize (G1 g Hi). lia.
    + destruct drop; [|easy]. split; [|rewrite Nat.max_r by (unfold V; lia); fold V; nia]. apply Forall_forall. intros g Hin. destruct (Hgs g Hin) as (i & Hi).
      destruct (groups_spec true (Z.to_nat b) (stride V i rows) ltac:(lia)) as (_ & lost' & _ & G3 & _). rewrite Forall_forall in G3. specialize (G3 g Hi). lia.
Qed.

(** With transformations they come before the batches: for all transformations [ops] that work on the records ([load],
    DataLoaderSpec.v), without workers, the output is the batches of what they give. *)
Lemma load_app {G A} (a b : list (loader_op G A)) l l' : load a l = Ok l' -> load (a ++ b) l = load b l'.
Proof. revert l. induction a as [|op a IH]; intros l H; [cbn in H; now injection H as ->|]. cbn [app load] in *. destruct (load1 op l) as [m| |] eqn:E; try discriminate. cbn [bind] in *. now apply IH. Qed.
Theorem C59_transformed {G A} gen_keys (philox : Z -> G) (source : MapDs A) (row : Z -> option A) E shuffle seed so s :
  sensible (mlen source) so shuffle E -> (forall key, 0 <= key < mlen source -> mget source key = Ok (row key)) ->
  index_sampler gen_keys (mlen source) so shuffle (Some E) seed = Ok s ->
  exists epochs rs, epochs_over (shard_of (mlen source) so) shuffle E epochs /\ map rec_data rs = map row (concat epochs) /\
    forall ops l b drop fn bf nt pb r sr dr, load ops rs = Ok l -> 1 <= b -> (forall g, g <> [] -> fn g = Ok (bf g)) ->
      exists d batches lost, grain_load gen_keys philox source (Some E) shuffle seed so ops (Some b) drop fn 0 nt pb r sr dr = Ok d /\
        concat batches ++ lost = map rec_data l /\
        Forall (fun batch => 1 <= Z.of_nat (length batch) <= b) batches /\
        (if drop then Forall (fun batch => Z.of_nat (length batch) = b) batches /\ Z.of_nat (length lost) <= b - 1 else lost = []) /\
        exists N, forall fuel history, (N <= fuel)%nat ->
          loader_run d fuel history (ld_init d) [] = cursor (map bf batches) history 0 [].
Proof.
  intros Hg Hrow Hs. destruct (load_records gen_keys philox source row so shuffle E seed s Hg Hrow Hs) as (epochs & rs & He & Hlen & Hrs & Hd).
  exists epochs, rs. split; [exact He|]. split; [exact Hd|]. intros ops l b drop fn bf nt pb r sr dr Hops Hb Hfn.
  assert (HS : 1 <= shard_count (match so with None => no_sharding | Some o => o end)).
  { destruct so as [o|]; [|cbn; lia]. destruct Hg as (_ & _ & Hg & _). lia. }
  destruct (load_batch b drop fn bf l Hb Hfn) as (l' & El & Hl).
  destruct (C39_no_workers philox source s (Some (match so with None => no_sharding | Some o => o end)) None
              (match so with None => no_sharding | Some o => o end) (ops ++ [LBatch b drop fn]) 1 nt pb r sr dr rs l') as (d & Ed & H); auto; [now right|lia|now rewrite (load_app _ _ _ _ Hops)|].
  rewrite Hl in H. set (m := map rec_data l) in *. destruct (groups_spec drop (Z.to_nat b) m ltac:(lia)) as (G1 & lost & _ & G3).
  exists d, (groups drop (Z.to_nat b) m), (if drop then skipn (length m / Z.to_nat b * Z.to_nat b) m else []).
  unfold grain_load. rewrite Hs. cbn [bind app]. spl; auto.
  - destruct drop; unfold groups.
    + rewrite full_chunks_concat by lia. apply firstn_skipn.
    + rewrite chunks_concat by lia. apply app_nil_r.
  - eapply Forall_impl; [|exact G1]. cbn beta. intros; lia.
  - destruct drop; [|easy]. split; [eapply Forall_impl; [|exact (proj1 G3)]; cbn beta; intros; lia|].
    rewrite skipn_length. pose proof (Nat.div_mod (length m) (Z.to_nat b) ltac:(lia)). pose proof (Nat.mod_upper_bound (length m) (Z.to_nat b) ltac:(lia)). nia.
Qed.

(** What load rejects: no records, no epochs, shuffling without a seed, a seed outside 32 bits, a negative number of workers,
    a batch size below 1. *)
Theorem C59_arguments {G A} gen_keys (philox : Z -> G) (source : MapDs A) num_epochs shuffle seed so ops b drop fn W nt pb r sr dr :
  mlen source <= 0 \/ (exists E, num_epochs = Some E /\ E <= 0) \/ (shuffle = true /\ seed = None) \/
  (exists x, seed = Some x /\ (x < 0 \/ 2 ^ 32 <= x)) ->
  grain_load gen_keys philox source num_epochs shuffle seed so ops b drop fn W nt pb r sr dr = Raise ValueError.
Proof.
  intros H. unfold grain_load. replace (index_sampler gen_keys (mlen source) so shuffle num_epochs seed) with (@Raise sampler ValueError); [easy|].
  symmetry. unfold index_sampler. destruct (Z.leb_spec (mlen source) 0); [easy|].
  destruct H as [H|[(E & -> & H)|[(-> & ->)|(x & -> & H)]]]; [lia|..].
  - now replace (E <=? 0) with true by lia.
  - destruct num_epochs as [E|]; [|easy]. now destruct (E <=? 0).
  - replace ((x <? 0) || (x >=? 2 ^ 32))%bool with true by (destruct (Z.ltb_spec x 0), (Z.geb_spec x (2 ^ 32)); cbn; lia || easy).
    destruct num_epochs as [E|]; [destruct (E <=? 0); [easy|]|]; now destruct shuffle.
Qed.

(** Seven records, the second of two shards without the remainder, two epochs, batches of two, one worker. *)
Definition seven : MapDs Z :=
  let get i := if (0 <=? i) && (i <? 7) then Ok (Some i) else Raise IndexError in
  {| mlen := 7; mget := get; mgetitems := default_getitems get |}.
Definition digits_of (l : list (option Z)) : option Z :=
  Some (fold_left (fun acc x => match x with Some x => 10 * acc + x | None => acc end) l 0).
Example C59_example r : let o := shard 1 2 true in
  (sensible 7 (Some o) false 2 /\ shard_of 7 (Some o) = [3; 4; 5] /\
   (forall key, 0 <= key < 7 -> mget seven key = Ok (Some key)) /\
   exists s, index_sampler generate_keys 7 (Some o) false (Some 2) (Some 4) = Ok s) /\
  exists d, grain_load generate_keys (fun k => k) seven (Some 2) false (Some 4) (Some o) [] (Some 2) false
      (fun l => Ok (digits_of l)) 0 16 500 r String.EmptyString String.EmptyString = Ok d /\
    loader_run d 20 [ONext; ONext; OSave; ONext; ONext; OLoad 0 true; ONext] (ld_init d) [] =
    [Got (Yield (Some 34)); Got (Yield (Some 53)); Saved; Got (Yield (Some 45)); Got Stop; Loaded; Got (Yield (Some 45))].
Proof.
  cbn zeta. spl.
  - unfold sensible. spl; try lia; try discriminate; cbn [shard shard_index shard_count drop_remainder]; spl; try lia; now left.
  - reflexivity.
  - intros key H. cbn [seven mget]. replace ((0 <=? key) && (key <? 7))%bool with true by lia. reflexivity.
  - eexists. reflexivity.
  - eexists. split; [reflexivity|]. vm_compute. reflexivity.
Qed.

(** Finding: batches are made by the workers, each from its own records.  Six records make two batches of three, but with
    three workers and drop_remainder there is no batch at all. *)
Definition six : MapDs Z :=
  let get i := if (0 <=? i) && (i <? 6) then Ok (Some i) else Raise IndexError in
  {| mlen := 6; mget := get; mgetitems := default_getitems get |}.
Theorem C59_drop_remainder_refuted gen_keys r W : W = 0 \/ W = 3 -> exists d,
  grain_load gen_keys (fun k => k) six (Some 1) false None None [] (Some 3) true (fun l => Ok (digits_of l)) W 16 500 r
    String.EmptyString String.EmptyString = Ok d /\
  exists N, forall fuel history, (N <= fuel)%nat ->
    loader_run d fuel history (ld_init d) [] = cursor (if W =? 0 then [Some 12; Some 345] else []) history 0 [].
Proof.
  intros HW. destruct (index_sampler gen_keys 6 None false (Some 1) None) as [s| |] eqn:Es; try discriminate.
  assert (Hg : sensible (mlen six) None false 1) by (unfold sensible; cbn [mlen six]; spl; try lia; try discriminate).
  assert (Hrow : forall key, 0 <= key < mlen six -> mget six key = Ok (Some key)).
  { intros key H. cbn [six mget mlen] in *. now replace ((0 <=? key) && (key <? 6))%bool with true by lia. }
  destruct (load_records gen_keys (fun k => k) six Some None false 1 None s Hg Hrow Es) as (epochs & rs & (He1 & He2) & Hlen & Hrs & Hd).
  assert (Hrd : map rec_data rs = map Some [0; 1; 2; 3; 4; 5]).
  { rewrite Hd. f_equal. destruct epochs as [|e [|? ?]]; try discriminate He1. apply Forall_inv in He2 as (_ & He2). rewrite He2 by easy. reflexivity. }
  clear Hd. do 7 (destruct rs as [|? rs]; try discriminate Hrd). injection Hrd as E0 E1 E2 E3 E4 E5. unfold grain_load. cbn [mlen six]. rewrite Es. cbn [bind app].
  destruct HW as [->| ->].
  - destruct (C39_no_workers (fun k : Z => k) six s (Some no_sharding) None no_sharding [LBatch 3 true (fun l => Ok (digits_of l))] 1 16 500 r
                String.EmptyString String.EmptyString [l; l0; l1; l2; l3; l4] [mkRec (mkMd (md_index (rec_md l1)) None (md_rng (rec_md l1))) (rec_gen l1) (Some 12);
                mkRec (mkMd (md_index (rec_md l4)) None (md_rng (rec_md l4))) (rec_gen l4) (Some 345)]) as (d & Ed & H); try exact Hrs; try (cbn; lia).
    + now right.
    + clear - E0 E1 E2 E3 E4 E5. destruct l as [? ? d0], l0 as [? ? d1], l1 as [? ? d2], l2 as [? ? d3], l3 as [? ? d4], l4 as [? ? d5]. cbn [DataLoader.rec_data] in *. subst. reflexivity.
    + eauto.
  - destruct (C39_workers (fun k : Z => k) six s (Some no_sharding) None no_sharding [LBatch 3 true (fun l => Ok (digits_of l))] 3 1 16 500 r
                String.EmptyString String.EmptyString [l; l0; l1; l2; l3; l4] [[]; []; []] []) as (d & Ed & H); try exact Hrs; try (cbn; lia).
    + now right.
    + repeat constructor.
    + unfold interleaved, numbered. round_robin.
    + eauto.
Qed.

(** One is added to every record, then batches of three are made. *)
Example C59_transformed_example gen_keys r : exists d,
  grain_load gen_keys (fun k => k) six (Some 1) false None None [LMap (fun x => Ok (option_map (Z.add 1) x))] (Some 3) true (fun l => Ok (digits_of l)) 0 16 500 r
    String.EmptyString String.EmptyString = Ok d /\
  exists N, forall fuel history, (N <= fuel)%nat -> loader_run d fuel history (ld_init d) [] = cursor [Some 123; Some 456] history 0 [].
Proof.
  destruct (index_sampler gen_keys 6 None false (Some 1) None) as [s| |] eqn:Es; try discriminate.
  assert (Hg : sensible (mlen six) None false 1) by (unfold sensible; cbn [mlen six]; spl; try lia; try discriminate).
  assert (Hrow : forall key, 0 <= key < mlen six -> mget six key = Ok (Some key)).
  { intros key H. cbn [six mget mlen] in *. now replace ((0 <=? key) && (key <? 6))%bool with true by lia. }
  destruct (C59_transformed gen_keys (fun k => k) six Some 1 false None None s Hg Hrow Es) as (epochs & rs & (He1 & He2) & Hd & H).
  assert (Hrd : map rec_data rs = map Some [0; 1; 2; 3; 4; 5]).
  { rewrite Hd. f_equal. destruct epochs as [|e [|? ?]]; try discriminate He1. apply Forall_inv in He2 as (_ & He2). rewrite He2 by easy. reflexivity. }
  clear Hd. do 7 (destruct rs as [|? rs]; try discriminate Hrd).
  destruct l as [? ? d0], l0 as [? ? d1], l1 as [? ? d2], l2 as [? ? d3], l3 as [? ? d4], l4 as [? ? d5]. cbn [map DataLoader.rec_data] in Hrd. injection Hrd as -> -> -> -> -> ->.
  edestruct (fun l => H [LMap (fun x => Ok (option_map (Z.add 1) x))] l 3 true (fun l => Ok (digits_of l)) digits_of 16 500 r String.EmptyString String.EmptyString)
    as (d & batches & lost & Ed & Eb & _ & (Hb & Hl) & Hrun); [reflexivity|lia|reflexivity|].
  exists d. split; [exact Ed|]. clear - Eb Hb Hl Hrun.
  assert (E : batches = [[Some 1; Some 2; Some 3]; [Some 4; Some 5; Some 6]]).
  { cbn in Eb. inversion Hb as [|b1 bs H1 Hb1 E1]; subst; [cbn in Eb; subst lost; cbn in Hl; lia|].
    do 3 (destruct b1 as [|? b1]; try (cbn in H1; lia)). destruct b1; [|cbn in H1; lia]. cbn in Eb. injection Eb as -> -> -> Eb.
    inversion Hb1 as [|b2 bs2 H2 Hb2 E2]; subst; [cbn in Eb; subst lost; cbn in Hl; lia|].
    do 3 (destruct b2 as [|? b2]; try (cbn in H2; lia)). destruct b2; [|cbn in H2; lia]. cbn in Eb. injection Eb as -> -> -> Eb.
    inversion Hb2 as [|b3 bs3 H3 Hb3 E3]; subst; [easy|]. destruct b3; [cbn in H3; lia|discriminate]. }
  subst batches. exact Hrun.
Qed.
