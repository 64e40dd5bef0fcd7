(** C38: samplers and shards. *)
From Verif Require Import Base IndexShuffle IndexShuffle_proofs Sharding Sharding_proofs MapDatasets Spec
  ListFacts MapSlice_proofs MapShuffle_proofs SeedSeq Samplers.

(** The record keys read by a DataLoader shard, in order. *)
Definition key_read {A} (r : res (option (metadata * A))) : res Z :=
  match r with
  | Ok (Some (md, _)) => match md_record_key md with Some k => Ok k | None => Raise KeyError end
  | Ok None => Raise KeyError
  | Raise e => Raise e
  | OutOfFuel => OutOfFuel
  end.
Definition keys_at {A} (ds : MapDs (metadata * A)) (positions : list Z) : list (res Z) :=
  map (fun j => key_read (mget ds j)) positions.
Definition keys_read {A} (ds : MapDs (metadata * A)) : list (res Z) :=
  keys_at ds (zrange 0 (Z.to_nat (mlen ds))).

(** A source whose records can all be read. *)
Definition readable {A} (n : Z) (source : MapDs A) : Prop :=
  forall key, 0 <= key < n -> exists a, mget source key = Ok a.

(** The sizes for which index_shuffle is a permutation (see C02). *)
Definition shufflable (n : Z) : Prop := forall k, 16 <= k <= 62 -> k mod 2 = 0 -> n - 1 <> 2 ^ k.

Lemma shufflable_good n : shufflable n -> ~ bad_size (n - 1).
Proof. intros H (k & Hk & He & E). now apply (H k). Qed.

Lemma perm_eq {A} (l l' : list A) : l = l' -> Permutation l l'.
Proof. intros ->. reflexivity. Qed.

(** *** Strided positions *)
Lemma strided_positions k N : 1 <= k -> 0 <= N ->
  Permutation (concat (map (fun i => map (fun j => j * k + i) (zrange 0 (Z.to_nat (sampler_length N (shard i k false)))))
                           (zrange 0 (Z.to_nat k))))
              (zrange 0 (Z.to_nat N)).
Proof.
  intros Hk HN.
  set (ds := {| mlen := N; mget := fun i => Ok (Some i); mgetitems := fun _ => Ok [] |} : MapDs Z).
  destruct (shards_exist k ds Hk) as (ss & Hss).
  pose proof (shards_partition k ds ss 0 Hk HN Hss) as HP.
  assert (E : map (fun x => Ok (Some x) : res (option Z))
      (concat (map (fun i => map (fun j => j * k + i) (zrange 0 (Z.to_nat (sampler_length N (shard i k false)))))
                   (zrange 0 (Z.to_nat k)))) = concat (map (fun s => epoch s 0) ss)).
  { rewrite concat_map. f_equal. rewrite map_map.
    assert (Hlen : length ss = Z.to_nat k).
    { unfold shards in Hss. apply (f_equal (@length _)) in Hss. now rewrite !map_length, zrange_length in Hss. }
    apply nth_error_ext. intros i. rewrite !nth_error_map, nth_error_zrange.
    destruct (Nat.ltb_spec i (Z.to_nat k)) as [Hi|Hi].
    2:{ cbn. symmetry. replace (nth_error ss i) with (@None (MapDs Z)); [easy|].
        symmetry. apply nth_error_None. lia. }
    destruct (nth_error ss i) as [s|] eqn:Es; [|apply nth_error_None in Es; lia].
    cbn [option_map]. f_equal. change (0 + Z.of_nat i) with (Z.of_nat i).
    assert (Hs : slice_ds (Some (Z.of_nat i)) None (Some k) ds = Ok s).
    { pose proof (f_equal (fun l => nth_error l i) Hss) as E. unfold shards in E.
      rewrite !nth_error_map, nth_error_zrange, Es in E.
      destruct (Nat.ltb_spec i (Z.to_nat k)); [|lia]. cbn [option_map] in E. now injection E. }
    unfold slice_ds, slice_indices in Hs. destruct (Z.eqb_spec k 0); [lia|]. cbv zeta in Hs.
    destruct (Z.ltb_spec k 0); [lia|]. destruct (Z.ltb_spec (Z.of_nat i) 0); [lia|].
    cbn [bind mlen ds] in Hs. injection Hs as <-. unfold epoch; cbn [mlen mget].
    set (L := range_len (Z.min (Z.of_nat i) N) N k).
    assert (HL : L = sampler_length N (shard (Z.of_nat i) k false)).
    { unfold L, range_len, sampler_length, shard; cbn [shard_index shard_count drop_remainder].
      destruct (Z.gtb_spec k 0); [|lia].
      assert (Z.of_nat i < k) by lia. clear - H1 HN H2.
      pose proof (Z.mod_pos_bound N k ltac:(lia)). pose proof (Z.div_mod N k ltac:(lia)).
      set (q := N / k) in *. set (r := N mod k) in *.
      destruct (Z.min_spec (Z.of_nat i) N) as [[? ->]|[? ->]].
      - destruct (Z.ltb_spec (Z.of_nat i) r).
        + replace ((N - Z.of_nat i + k - 1) / k) with (q + 1); [nia|].
          apply Z.div_unique with (r - Z.of_nat i - 1); nia.
        + replace ((N - Z.of_nat i + k - 1) / k) with q; [nia|].
          apply Z.div_unique with (r - Z.of_nat i + k - 1); nia.
      - assert (q = 0) by nia. assert (r = N) by nia.
        destruct (Z.ltb_spec (Z.of_nat i) r); [lia|].
        replace (N - N + k - 1) with (k - 1) by lia. rewrite Z.div_small by lia. lia. }
    rewrite map_map, <- HL. change (0 * L) with 0. apply map_ext_in. intros j Hj. apply in_zrange in Hj.
    unfold sliced_index, pydivmod. destruct (Z.eqb_spec L 0); [lia|]. cbn [bind fst snd].
    rewrite Z.div_small, Z.mod_small by lia. do 2 f_equal.
    assert (Z.of_nat i <= N).
    { destruct (Z_le_gt_dec (Z.of_nat i) N); [easy|exfalso]. unfold L, range_len in Hj.
      rewrite Z.min_r in Hj by lia. destruct (Z.gtb_spec k 0); [|lia].
      replace (N - N + k - 1) with (k - 1) in Hj by lia. rewrite Z.div_small in Hj by lia. lia. }
    rewrite Z.min_l by lia. lia. }
  rewrite <- E in HP. unfold epoch in HP. cbn [mlen mget ds] in HP.
  apply Permutation_map with (f := fun r : res (option Z) => match r with Ok (Some x) => x | _ => 0 end) in HP.
  rewrite !map_map, !map_id in HP. exact HP.
Qed.

Lemma zrange_stop a n m : (n <= m)%nat -> zrange a m = zrange a n ++ zrange (a + Z.of_nat n) (m - n).
Proof. intros H. replace m with (n + (m - n))%nat at 1 by lia. apply zrange_app. Qed.

(** With drop_remainder the shards read the first k * (N / k) positions. *)
Lemma strided_positions_drop k N : 1 <= k -> 0 <= N ->
  Permutation (concat (map (fun i => map (fun j => j * k + i) (zrange 0 (Z.to_nat (sampler_length N (shard i k true)))))
                           (zrange 0 (Z.to_nat k))))
              (zrange 0 (Z.to_nat (N / k * k))).
Proof.
  intros Hk HN. etransitivity; [|apply (strided_positions k (N / k * k)); [easy|apply Z.mul_nonneg_nonneg; [apply Z.div_pos; lia|lia]]].
  apply perm_eq. f_equal. apply map_ext_in. intros i Hi. apply in_zrange in Hi. do 3 f_equal.
  unfold sampler_length, shard; cbn [shard_index shard_count drop_remainder].
  rewrite Z.div_mul, Z.mod_mul by lia. destruct (Z.ltb_spec i 0); lia.
Qed.

(** The total number of positions read by all shards. *)
Definition covered (N k : Z) (drop : bool) : Z := if drop then N / k * k else N.

Lemma all_positions k N drop : 1 <= k -> 0 <= N ->
  Permutation (concat (map (fun i => map (fun j => j * k + i) (zrange 0 (Z.to_nat (sampler_length N (shard i k drop)))))
                           (zrange 0 (Z.to_nat k))))
              (zrange 0 (Z.to_nat (covered N k drop))).
Proof.
  intros Hk HN. destruct drop; [now apply strided_positions_drop|now apply strided_positions].
Qed.

Lemma sampler_length_bound N k drop i j : 1 <= k -> 0 <= N -> 0 <= i < k ->
  0 <= j < sampler_length N (shard i k drop) -> 0 <= j * k + i < N.
Proof.
  intros Hk HN Hi Hj. unfold sampler_length, shard in Hj; cbn [shard_index shard_count drop_remainder] in Hj.
  pose proof (Z.mod_pos_bound N k ltac:(lia)). pose proof (Z.div_mod N k ltac:(lia)).
  set (q := N / k) in *. set (r := N mod k) in *. clearbody q r.
  destruct drop; [nia|]. destruct (Z.ltb_spec i r); nia.
Qed.

(** If a sampler gives the keys [g index], the shards of a DataLoader read [g] at the
    strided positions. *)
Lemma loader_keys {A} (source : MapDs A) (s : sampler) (g : Z -> Z) n k drop i :
  1 <= k -> 0 <= i < k -> 0 <= smp_len s -> readable n source ->
  (forall index, 0 <= index < smp_len s -> exists rng, smp_get s index = Ok (mkMd index (Some (g index)) rng)) ->
  (forall index, 0 <= index < smp_len s -> 0 <= g index < n) ->
  keys_read (sampler_ds source s (shard i k drop)) =
  map (fun p => Ok (g p)) (map (fun j => j * k + i) (zrange 0 (Z.to_nat (sampler_length (smp_len s) (shard i k drop))))).
Proof.
  intros Hk Hi HN Hr Hg Hb. unfold keys_read, keys_at. cbn [mlen mget sampler_ds]. rewrite map_map.
  apply map_ext_in. intros j Hj. apply in_zrange in Hj. cbn [shard shard_index shard_count].
  assert (Hp : 0 <= j * k + i < smp_len s) by (apply (sampler_length_bound _ k drop); lia).
  destruct (Hg _ Hp) as (rng & ->). cbn [bind md_record_key].
  destruct (Hr (g (j * k + i)) (Hb _ Hp)) as (a & ->). cbn [bind key_read md_record_key]. reflexivity.
Qed.

Lemma map_concat_positions (g : Z -> Z) (l : list (list Z)) :
  concat (map (map g) l) = map g (concat l).
Proof. symmetry. apply concat_map. Qed.

(** ** SequentialSampler: every record exactly once over all shards. *)
Theorem C38_sequential {A} (source : MapDs A) n k drop seed :
  1 <= n -> 1 <= k -> readable n source ->
  exists (samplers : Z -> sampler) ks,
    (forall i, 0 <= i < k -> sequential_sampler n (shard i k drop) seed = Ok (samplers i)) /\
    map (fun i => keys_read (sampler_ds source (samplers i) (shard i k drop))) (zrange 0 (Z.to_nat k)) = map (map Ok) ks /\
    Permutation (concat ks) (zrange 0 (Z.to_nat (if drop then n / k * k else n))).
Proof.
  intros Hn Hk Hr.
  assert (Hs : forall i, exists s, sequential_sampler n (shard i k drop) seed = Ok s /\
     smp_len s = covered n k drop /\
     forall index, 0 <= index < smp_len s -> exists rng, smp_get s index = Ok (mkMd index (Some index) rng)).
  { intros i. unfold sequential_sampler. destruct (Z.leb_spec n 0); [lia|]. cbv zeta. eexists. split; [reflexivity|].
    cbn [smp_len smp_get shard drop_remainder shard_count]. split; [now unfold covered|]. intros index Hi.
    destruct (Z.ltb_spec index 0); [lia|].
    destruct (Z.geb_spec index (if drop then n / k * k else n)); [lia|]. cbn [orb]. eauto. }
  exists (fun i => match sequential_sampler n (shard i k drop) seed with Ok s => s | _ => mkSampler 0 (fun _ => OutOfFuel) end).
  exists (map (fun i => map (fun j => j * k + i) (zrange 0 (Z.to_nat (sampler_length (covered n k drop) (shard i k drop)))))
              (zrange 0 (Z.to_nat k))).
  assert (Hc : 0 <= covered n k drop <= n).
  { unfold covered. destruct drop; [|lia]. pose proof (Z.mul_div_le n k ltac:(lia)). pose proof (Z.div_pos n k ltac:(lia) ltac:(lia)). nia. }
  split; [|split].
  - intros i Hi. destruct (Hs i) as (s & -> & _). reflexivity.
  - rewrite map_map. apply map_ext_in. intros i Hi. apply in_zrange in Hi.
    destruct (Hs i) as (s & -> & Hlen & Hget).
    rewrite (loader_keys source s (fun x => x) n); try lia; try easy.
    now rewrite Hlen.
  - etransitivity; [apply all_positions; lia|]. apply perm_eq. do 2 f_equal.
    unfold covered. destruct drop; [|easy]. now rewrite Z.div_mul by lia.
Qed.

(** ** IndexSampler *)

(** The keys of the shard, before shuffling: position j is key start + j mod L. *)
Lemma shard_keys_get n i k drop keys j : 1 <= n -> 1 <= k -> 0 <= i < k ->
  range_ds n None 1 = Ok keys ->
  let (a, b) := even_split n (shard i k drop) in
  mlen (shard_ds (shard i k drop) keys) = b - a /\ (a < b -> mget (shard_ds (shard i k drop) keys) j = Ok (Some (a + j mod (b - a)))) /\ 0 <= a <= b /\ b <= n.
Proof.
  intros Hn Hk Hi Hkeys. unfold range_ds in Hkeys. cbn [Z.eqb] in Hkeys. injection Hkeys as <-.
  assert (Hlen : range_len 0 n 1 = n) by (unfold range_len; cbn; rewrite Z.div_1_r; lia).
  unfold shard_ds. cbn [mlen]. rewrite Hlen.
  assert (Hab : 0 <= fst (even_split n (shard i k drop)) <= snd (even_split n (shard i k drop)) /\
                snd (even_split n (shard i k drop)) <= n).
  { pose proof (Z.mod_pos_bound n k ltac:(lia)). pose proof (Z.div_mod n k ltac:(lia)).
    pose proof (Z.div_pos n k ltac:(lia) ltac:(lia)).
    unfold even_split, shard; cbn [shard_index shard_count drop_remainder].
    set (q := n / k) in *. set (r := n mod k) in *. clearbody q r.
    destruct (Z.gtb_spec r 0); [destruct drop|]; cbn [fst snd]; nia. }
  destruct (even_split n (shard i k drop)) as [a b] eqn:Eab. cbn [fst snd] in Hab. cbn [mlen mget].
  split; [easy|]. split; [|easy]. intros Hlt. unfold pymod, pydivmod.
  destruct (Z.eqb_spec (b - a) 0); [lia|]. cbn [bind fst snd].
  destruct (Z.eqb_spec n 0); [lia|]. cbn [bind snd]. do 2 f_equal.
  pose proof (Z.mod_pos_bound j (b - a) ltac:(lia)).
  replace (j / (b - a) * n + j mod (b - a) + a) with ((j mod (b - a) + a) + j / (b - a) * n) by lia.
  rewrite Z.mod_add by lia. rewrite Z.mod_small by lia. lia.
Qed.

Lemma interval_as_map a b e : a <= b ->
  map (fun j => a + j mod (b - a)) (zrange (e * (b - a)) (Z.to_nat (b - a))) = interval (a, b).
Proof.
  intros Hab. unfold interval. cbn [fst snd]. unfold zrange. rewrite map_map. apply map_ext_in.
  intros x Hx. apply in_seq in Hx.
  replace (e * (b - a) + Z.of_nat x) with (Z.of_nat x + e * (b - a)) by lia.
  rewrite Z.mod_add by lia. rewrite Z.mod_small by lia. lia.
Qed.

Lemma Permutation_map_Ok_inv {A B} (f : A -> res (option B)) l ks :
  Permutation (map f l) (map (fun b => Ok (Some b)) ks) ->
  exists g : list B, map f l = map (fun b => Ok (Some b)) g /\ Permutation g ks.
Proof.
  intros HP. apply Permutation_map_inv in HP as (g & Hg & Hp). exists g. split; [easy|].
  now apply Permutation_sym.
Qed.

(** A dataset of keys: every epoch is a permutation of [base]. *)
Definition keyed (ds : MapDs Z) (base : list Z) (exact : bool) : Prop :=
  mlen ds = Z.of_nat (length base) /\
  forall e, exists ks, epoch ds e = map (fun b => Ok (Some b)) ks /\ Permutation ks base /\ (exact = true -> ks = base).

Lemma keyed_shuffle gen_keys seed ds q base :
  keyed ds base true -> (1 <= length base)%nat -> Z.of_nat (length base) <= 2 ^ 63 ->
  shufflable (Z.of_nat (length base)) ->
  shuffle_ds gen_keys seed ds = Ok q -> keyed q base false.
Proof.
  intros (HL & He) Hn Hmax Hs Hq.
  assert (1 <= mlen ds <= 2 ^ 63) as Hb by (rewrite HL; split; [lia|easy]).
  assert (~ bad_size (mlen ds - 1)) as Hbad by (rewrite HL; now apply shufflable_good).
  split.
  - destruct (shuffle_epoch_permutation gen_keys seed ds q 0 Hb Hbad Hq) as [-> _]. easy.
  - intros e. destruct (shuffle_epoch_permutation gen_keys seed ds q e Hb Hbad Hq) as [HLq HP].
    destruct (He e) as (ks & Hks & _ & Hex). rewrite Hks, (Hex eq_refl) in HP. unfold epoch in HP.
    apply Permutation_map_Ok_inv in HP as (g & Hg & Hp). exists g. split; [exact Hg|]. split; [easy|discriminate].
Qed.

(** The position of the dataset as (epoch, index). *)
Lemma keyed_get ds base exact j : keyed ds base exact -> (1 <= length base)%nat ->
  exists key, mget ds j = Ok (Some key) /\ In key base.
Proof.
  intros (HL & He) Hn. set (L := mlen ds) in *.
  destruct (He (j / L)) as (ks & Hks & HP & _). unfold epoch in Hks. fold L in Hks.
  apply (f_equal (fun l => nth_error l (Z.to_nat (j mod L)))) in Hks.
  rewrite !nth_error_map, nth_error_zrange in Hks.
  pose proof (Z.mod_pos_bound j L ltac:(lia)).
  destruct (Nat.ltb_spec (Z.to_nat (j mod L)) (Z.to_nat L)); [|lia]. cbn [option_map] in Hks.
  rewrite Z2Nat.id in Hks by lia.
  replace (j / L * L + j mod L) with j in Hks by (pose proof (Z.div_mod j L ltac:(lia)); lia).
  destruct (nth_error ks (Z.to_nat (j mod L))) as [key|] eqn:Ek; [|discriminate]. cbn [option_map] in Hks.
  exists key. split; [congruence|]. eapply Permutation_in; [exact HP|]. eapply nth_error_In; eassumption.
Qed.

Lemma interval_length a b : a <= b -> Z.of_nat (length (interval (a, b))) = b - a.
Proof. intros H. unfold interval. rewrite zrange_length. cbn [fst snd]. lia. Qed.

Lemma shard_keyed n i k drop keys : 1 <= n -> 1 <= k -> 0 <= i < k ->
  range_ds n None 1 = Ok keys ->
  keyed (shard_ds (shard i k drop) keys) (interval (even_split n (shard i k drop))) true.
Proof.
  intros Hn Hk Hi Hkeys. split.
  - pose proof (shard_keys_get n i k drop keys 0 Hn Hk Hi Hkeys) as H.
    destruct (even_split n (shard i k drop)) as [a b]. destruct H as (-> & _ & Hab & _).
    now rewrite interval_length.
  - intros e. exists (interval (even_split n (shard i k drop))). split; [|split; reflexivity].
    assert (H := fun j => shard_keys_get n i k drop keys j Hn Hk Hi Hkeys).
    destruct (even_split n (shard i k drop)) as [a b].
    destruct (H 0) as (HL & _ & Hab & _). unfold epoch. rewrite HL.
    destruct (Z.eq_dec a b) as [->|Hne].
    + unfold interval. cbn [fst snd]. replace (b - b) with 0 by lia. reflexivity.
    + rewrite <- (interval_as_map a b e) by lia. rewrite map_map. apply map_ext. intros j. apply H. lia.
Qed.

Lemma range_keyed n keys : 1 <= n -> range_ds n None 1 = Ok keys -> keyed keys (zrange 0 (Z.to_nat n)) true.
Proof.
  intros Hn Hkeys. unfold range_ds in Hkeys. cbn [Z.eqb] in Hkeys. injection Hkeys as <-.
  assert (Hlen : range_len 0 n 1 = n) by (unfold range_len; cbn; rewrite Z.div_1_r; lia).
  split; cbn [mlen mget]; [rewrite zrange_length; lia|].
  intros e. exists (zrange 0 (Z.to_nat n)). split; [|split; reflexivity]. unfold epoch; cbn [mlen mget].
  rewrite Hlen. unfold zrange. rewrite !map_map. apply map_ext_in. intros x Hx. apply in_seq in Hx.
  unfold pymod, pydivmod. destruct (Z.eqb_spec n 0); [lia|]. cbn [bind snd]. do 2 f_equal.
  replace (e * n + Z.of_nat x) with (Z.of_nat x + e * n) by lia. rewrite Z.mod_add by lia.
  rewrite Z.mod_small by lia. lia.
Qed.

(** The number of records the sampler hands out. *)
Definition sampler_total (n k : Z) (o : option bool) (num_epochs : option Z) : Z :=
  match num_epochs with
  | None => maxsize
  | Some E => match o with Some true => n / k * k * E | _ => E * n end
  end.

(** What an IndexSampler is: a keyed dataset read at index // shard_count. *)
Lemma index_sampler_inv gen_keys n o shuffle E seed s base :
  1 <= n <= 2 ^ 63 ->
  (forall keys, range_ds n None 1 = Ok keys ->
     keyed (match o with None => keys | Some o => shard_ds o keys end) base true) ->
  (shuffle = true -> (1 <= length base)%nat /\ Z.of_nat (length base) <= n /\ shufflable (Z.of_nat (length base))) ->
  index_sampler gen_keys n o shuffle E seed = Ok s ->
  exists keys, keyed keys base (negb shuffle) /\ (match E with Some E => 1 <= E | None => True end) /\
    smp_len s = match E with
                | None => maxsize
                | Some E => match o with
                            | Some o => if drop_remainder o
                                        then Z.min (E * n) (Z.of_nat (length base) * shard_count o * E) else E * n
                            | None => E * n end
                end /\
    forall index, 0 <= index < smp_len s ->
      smp_get s index =
        (let! qr := pydivmod index (shard_count (match o with None => no_sharding | Some o => o end)) in
         let! key := mget keys (fst qr) in
         Ok (mkMd index key (record_rng seed index))).
Proof.
  intros Hn Hb Hsh H. unfold index_sampler in H.
  destruct (Z.leb_spec n 0); [lia|].
  destruct (match E with Some e => e <=? 0 | None => false end) eqn:HE; [discriminate|].
  destruct (shuffle && match seed with None => true | Some _ => false end) eqn:Hseed; [discriminate|].
  destruct (match seed with Some s => (s <? 0) || (s >=? 2 ^ 32) | None => false end) eqn:Hrange; [discriminate|].
  apply bind_Ok_iff in H as (keys & Hkeys & H). pose proof (Hb keys Hkeys) as Hk. clear Hb.
  set (keys' := match o with None => keys | Some o => shard_ds o keys end) in *.
  apply bind_Ok_iff in H as (keys'' & Hkeys'' & H). injection H as <-.
  exists keys''. cbn [smp_len smp_get]. split; [|split; [|split]].
  - destruct shuffle; cbn [negb].
    + destruct (Hsh eq_refl) as (H1 & H2 & H3). eapply keyed_shuffle; try eassumption. lia.
    + injection Hkeys'' as <-. exact Hk.
  - destruct E; [lia|easy].
  - destruct Hk as [HL _]. rewrite HL. destruct E as [E|]; [|now destruct o]. destruct o as [o|]; [|easy].
    now destruct (drop_remainder o).
  - intros index Hi. destruct (Z.ltb_spec index 0); [lia|]. cbn [orb].
    destruct E as [E|]; [|now destruct o].
    destruct o as [o|]; [destruct (drop_remainder o)|]; cbv iota beta in *;
      match goal with |- context[index >=? ?m] => destruct (Z.geb_spec index m); [lia|reflexivity] end.
Qed.

(** Positions inside the length of a shard read the keyed dataset. *)
Lemma sharded_key {A} (source : MapDs A) s keys base exact i k drop seed n j :
  1 <= k -> 0 <= i < k -> readable n source -> 0 <= smp_len s ->
  keyed keys base exact -> (1 <= length base)%nat -> (forall key, In key base -> 0 <= key < n) ->
  (forall index, 0 <= index < smp_len s -> smp_get s index =
     (let! qr := pydivmod index k in let! key := mget keys (fst qr) in Ok (mkMd index key (record_rng seed index)))) ->
  0 <= j < mlen (sampler_ds source s (shard i k drop)) ->
  exists key, mget keys j = Ok (Some key) /\ key_read (mget (sampler_ds source s (shard i k drop)) j) = Ok key.
Proof.
  intros Hk Hi Hr HN Hkeyed Hne Hb Hget Hj. cbn [mlen sampler_ds] in Hj.
  pose proof (sampler_length_bound _ k drop i j Hk HN Hi Hj) as Hp.
  destruct (keyed_get keys base exact j Hkeyed Hne) as (key & Hkey & Hin). exists key. split; [easy|].
  cbn [mget sampler_ds shard shard_index shard_count]. rewrite Hget by easy.
  unfold pydivmod. destruct (Z.eqb_spec k 0); [lia|]. cbn [bind fst].
  replace ((j * k + i) / k) with j by (apply Z.div_unique with i; lia).
  rewrite Hkey. cbn [bind md_record_key]. destruct (Hr key (Hb key Hin)) as (a & ->). reflexivity.
Qed.

Lemma keys_at_epoch {A} (ds : MapDs (metadata * A)) keys base exact e :
  keyed keys base exact -> 0 <= e -> (e + 1) * mlen keys <= mlen ds ->
  (forall j, 0 <= j < mlen ds -> (1 <= length base)%nat ->
     exists key, mget keys j = Ok (Some key) /\ key_read (mget ds j) = Ok key) ->
  exists ks, keys_at ds (zrange (e * mlen keys) (Z.to_nat (mlen keys))) = map Ok ks /\
             Permutation ks base /\ (exact = true -> ks = base).
Proof.
  intros (HL & He) H0 Hb Hget. destruct (He e) as (ks & Hks & HP & Hex). exists ks. split; [|easy].
  unfold epoch in Hks. unfold keys_at.
  assert (Hin : forall j, In j (zrange (e * mlen keys) (Z.to_nat (mlen keys))) -> 0 <= j < mlen ds /\ (1 <= length base)%nat).
  { intros j Hj. apply in_zrange in Hj. split; [|lia]. nia. }
  revert ks Hks HP Hex Hin. generalize (zrange (e * mlen keys) (Z.to_nat (mlen keys))) as l. intros l ks Hks _ _.
  revert ks Hks. induction l as [|j l IH]; intros [|key ks] Hks Hin; try discriminate; [reflexivity|].
  cbn [map] in *. injection Hks as Hj Hks.
  destruct (Hin j (or_introl eq_refl)) as [Hj1 Hj2]. destruct (Hget j Hj1 Hj2) as (key' & E1 & E2).
  rewrite E2. f_equal; [congruence|]. apply IH; [easy|]. intros; apply Hin; now right.
Qed.

(** Every epoch of a shard reads each record of the shard exactly once (in order
    when not shuffled); the shard of [n] records is the even_split interval (C01). *)
Theorem C38_index_sampler_epoch {A} gen_keys (source : MapDs A) n i k drop shuffle num_epochs seed s e :
  let o := shard i k drop in
  let ds := sampler_ds source s o in
  let size := snd (even_split n o) - fst (even_split n o) in
  1 <= n <= 2 ^ 63 -> 1 <= k -> 0 <= i < k -> readable n source ->
  (shuffle = true -> shufflable size /\ 1 <= size) ->
  index_sampler gen_keys n (Some o) shuffle num_epochs seed = Ok s ->
  0 <= e -> (e + 1) * size <= mlen ds ->
  exists ks, keys_at ds (zrange (e * size) (Z.to_nat size)) = map Ok ks /\
             Permutation ks (interval (even_split n o)) /\
             (shuffle = false -> ks = interval (even_split n o)).
Proof.
  intros o ds size Hn Hk Hi Hr Hsh Hs He Hlen.
  assert (Hsize : Z.of_nat (length (interval (even_split n o))) = size /\ 0 <= size /\
                  forall key, In key (interval (even_split n o)) -> 0 <= key < n).
  { destruct (range_ds n None 1) as [keys| |] eqn:Hkeys; [|discriminate|discriminate].
    pose proof (shard_keys_get n i k drop keys 0 ltac:(lia) Hk Hi Hkeys) as H. unfold size, o in *.
    destruct (even_split n (shard i k drop)) as [a b]. destruct H as (_ & _ & Hab & Hbn). cbn [fst snd].
    rewrite interval_length by lia. split; [easy|]. split; [lia|]. intros key Hin.
    unfold interval in Hin. apply in_zrange in Hin. cbn [fst snd] in Hin. lia. }
  destruct Hsize as (Hsz & Hsz0 & Hin).
  destruct (index_sampler_inv gen_keys n (Some o) shuffle num_epochs seed s (interval (even_split n o)) ltac:(lia)) as
    (keys & Hkeyed & HE & Hsl & Hget).
  - intros keys Hkeys. apply (shard_keyed n i k drop keys ltac:(lia) Hk Hi Hkeys).
  - intros Ht. destruct (Hsh Ht) as [H1 H2]. rewrite Hsz. split; [lia|]. split; [|easy].
    destruct (Z_le_gt_dec size n); [easy|].
    assert (Hin' : In (fst (even_split n o) + size - 1) (interval (even_split n o))).
    { unfold interval. apply in_zrange. fold size. lia. }
    assert (Hin0 : In (fst (even_split n o)) (interval (even_split n o))).
    { unfold interval. apply in_zrange. fold size. lia. }
    apply Hin in Hin', Hin0. lia.
  - exact Hs.
  - assert (Hlk : mlen keys = size) by (destruct Hkeyed as [-> _]; exact Hsz).
    assert (0 <= smp_len s).
    { rewrite Hsl. destruct num_epochs; [|unfold maxsize; lia]. cbn [o shard drop_remainder shard_count].
      destruct drop; [|nia]. apply Z.min_glb; [nia|]. apply Z.mul_nonneg_nonneg; [|lia]. apply Z.mul_nonneg_nonneg; lia. }
    rewrite <- Hlk. destruct (keys_at_epoch ds keys (interval (even_split n o)) (negb shuffle) e Hkeyed He) as (ks & H1 & H2 & H3).
    + now rewrite Hlk.
    + intros j Hj Hne. apply (sharded_key source s keys (interval (even_split n o)) (negb shuffle) i k drop seed n j); easy.
    + exists ks. split; [exact H1|]. split; [exact H2|]. intros ->. now apply H3.
Qed.

(** A finite number of epochs: each shard reads exactly that many epochs, if the
    remainder is dropped, the records divide evenly or there is one epoch. *)
Theorem C38_index_sampler_length {A} gen_keys (source : MapDs A) n i k drop shuffle E seed s :
  let o := shard i k drop in
  let size := snd (even_split n o) - fst (even_split n o) in
  1 <= n <= 2 ^ 63 -> 1 <= k -> 0 <= i < k -> (shuffle = true -> shufflable size /\ 1 <= size) ->
  index_sampler gen_keys n (Some o) shuffle (Some E) seed = Ok s ->
  drop = true \/ n mod k = 0 \/ E = 1 ->
  mlen (sampler_ds source s o) = E * size.
Proof.
  intros o size Hn Hk Hi Hsh Hs Hg.
  assert (Hsl : smp_len s = if drop then Z.min (E * n) (size * k * E) else E * n).
  { unfold index_sampler in Hs. destruct (Z.leb_spec n 0); [lia|]. destruct (Z.leb_spec E 0); [discriminate|].
    destruct (shuffle && _); [discriminate|]. destruct (match seed with Some _ => _ | None => false end); [discriminate|].
    apply bind_Ok_iff in Hs as (keys & Hkeys & H1). cbv zeta in H1. apply bind_Ok_iff in H1 as (keys' & Hkeys' & H1).
    injection H1 as <-. cbn [smp_len o shard drop_remainder shard_count].
    destruct drop; [|easy]. pose proof (shard_keys_get n i k true keys 0 ltac:(lia) Hk Hi Hkeys) as Hl.
    unfold size, o in *. destruct (even_split n (shard i k true)) as [a b]. destruct Hl as (-> & _). reflexivity. }
  assert (HE : 1 <= E).
  { unfold index_sampler in Hs. destruct (Z.leb_spec n 0); [lia|]. destruct (Z.leb_spec E 0); [discriminate|lia]. }
  cbn [mlen sampler_ds]. rewrite Hsl. unfold sampler_length, size, even_split, o, shard;
    cbn [shard_index shard_count drop_remainder].
  pose proof (Z.mod_pos_bound n k ltac:(lia)). pose proof (Z.div_mod n k ltac:(lia)). clear Hs Hsl Hsh.
  pose proof (Z.div_pos n k ltac:(lia) ltac:(lia)).
  set (q := n / k) in *. set (r := n mod k) in *. clearbody q r. destruct drop.
  - replace (if r >? 0 then (q * i, q * (i + 1)) else (q * i, q * (i + 1))) with (q * i, q * (i + 1)) by (destruct (r >? 0); easy).
    cbn [fst snd]. replace ((q * (i + 1) - q * i) * k * E) with (E * q * k) by nia.
    rewrite Z.min_r by nia. rewrite Z.div_mul by lia. lia.
  - destruct Hg as [Hg|[Hg|Hg]]; [discriminate| |].
    + rewrite Hg. cbn [Z.gtb Z.compare fst snd]. replace (E * n) with (E * q * k) by nia.
      rewrite Z.div_mul, Z.mod_mul by lia. destruct (Z.ltb_spec i 0); lia.
    + subst E. replace (1 * n) with (r + q * k) by lia.
      rewrite Z.div_add, Z.mod_add, Z.div_small, Z.mod_small by lia.
      destruct (Z.gtb_spec r 0); cbn [fst snd]; destruct (Z.ltb_spec i r); lia.
Qed.

(** Finding: several epochs, records that do not divide evenly and no drop_remainder:
    with 5 records, 2 shards and 2 epochs record 2 is read once and record 3 three
    times. *)
Theorem C38_index_sampler_refuted gen_keys :
  exists s0 s1, index_sampler gen_keys 5 (Some (shard 0 2 false)) false (Some 2) None = Ok s0 /\
    index_sampler gen_keys 5 (Some (shard 1 2 false)) false (Some 2) None = Ok s1 /\
    forall (A : Type) (source : MapDs A), readable 5 source ->
    keys_read (sampler_ds source s0 (shard 0 2 false)) = map Ok [0; 1; 2; 0; 1] /\
    keys_read (sampler_ds source s1 (shard 1 2 false)) = map Ok [3; 4; 3; 4; 3].
Proof.
  eexists. eexists. split; [reflexivity|]. split; [reflexivity|]. intros A source Hr.
  destruct (Hr 0 ltac:(lia)) as (a0 & E0). destruct (Hr 1 ltac:(lia)) as (a1 & E1).
  destruct (Hr 2 ltac:(lia)) as (a2 & E2). destruct (Hr 3 ltac:(lia)) as (a3 & E3).
  destruct (Hr 4 ltac:(lia)) as (a4 & E4).
  destruct source as [len get]. cbn in E0, E1, E2, E3, E4.
  split; vm_compute; rewrite ?E0, ?E1, ?E2, ?E3, ?E4; reflexivity.
Qed.
(** With 1 record, 2 shards and 2 epochs the second shard has nothing to read but a
    length of 1: reading it raises ZeroDivisionError. *)
Theorem C38_empty_shard_refuted gen_keys :
  exists s1, index_sampler gen_keys 1 (Some (shard 1 2 false)) false (Some 2) None = Ok s1 /\
    forall (A : Type) (source : MapDs A),
    mlen (sampler_ds source s1 (shard 1 2 false)) = 1 /\
    mget (sampler_ds source s1 (shard 1 2 false)) 0 = Raise ZeroDivisionError.
Proof. eexists. split; [reflexivity|]. intros A source. split; reflexivity. Qed.

(** Sharding in the DataLoader instead of the sampler (NoSharding): the shards
    together read the first positions of one global order, in which each epoch is a
    permutation of all records. *)
Theorem C38_loader_sharding {A} gen_keys (source : MapDs A) n k drop shuffle E seed s :
  1 <= n <= 2 ^ 63 -> 1 <= k -> readable n source -> (shuffle = true -> shufflable n) ->
  index_sampler gen_keys n None shuffle (Some E) seed = Ok s ->
  exists (order : Z -> Z) ks,
    (forall e, Permutation (map order (zrange (e * n) (Z.to_nat n))) (zrange 0 (Z.to_nat n))) /\
    map (fun i => keys_read (sampler_ds source s (shard i k drop))) (zrange 0 (Z.to_nat k)) = map (map Ok) ks /\
    Permutation (concat ks) (map order (zrange 0 (Z.to_nat (if drop then E * n / k * k else E * n)))).
Proof.
  intros Hn Hk Hr Hsh Hs.
  destruct (index_sampler_inv gen_keys n None shuffle (Some E) seed s (zrange 0 (Z.to_nat n)) ltac:(lia)) as
    (keys & Hkeyed & HE & Hsl & Hget).
  - intros keys Hkeys. apply range_keyed; [lia|easy].
  - intros Ht. rewrite zrange_length. split; [lia|]. split; [lia|]. rewrite Z2Nat.id by lia. now apply Hsh.
  - exact Hs.
  - assert (Hlk : mlen keys = n) by (destruct Hkeyed as [-> _]; rewrite zrange_length; lia).
    set (order := fun j => match mget keys j with Ok (Some key) => key | _ => 0 end).
    assert (Hord : forall j, mget keys j = Ok (Some (order j)) /\ 0 <= order j < n).
    { intros j. destruct (keyed_get keys _ _ j Hkeyed) as (key & Hkey & Hin); [rewrite zrange_length; lia|].
      unfold order. rewrite Hkey. split; [easy|]. apply in_zrange in Hin. lia. }
    exists order. exists (map (fun i => map order (map (fun j => j * k + i) (zrange 0 (Z.to_nat (sampler_length (smp_len s) (shard i k drop))))))
              (zrange 0 (Z.to_nat k))).
    split; [|split].
    + intros e. destruct Hkeyed as [_ He]. destruct (He e) as (ks & Hks & HP & _). rewrite <- HP.
      apply perm_eq. unfold epoch in Hks. rewrite Hlk in Hks.
      apply (f_equal (map (fun r : res (option Z) => match r with Ok (Some key) => key | _ => 0 end))) in Hks.
      rewrite !map_map, map_id in Hks. exact Hks.
    + rewrite map_map. apply map_ext_in. intros i Hi. apply in_zrange in Hi.
      assert (0 <= smp_len s) by (rewrite Hsl; nia).
      rewrite (loader_keys source s order n); try lia; try easy.
      * now rewrite !map_map.
      * intros index Hindex. exists (record_rng seed index). rewrite Hget by easy.
        unfold pydivmod. cbn [no_sharding shard_count Z.eqb bind fst]. rewrite Z.div_1_r.
        destruct (Hord index) as [-> _]. reflexivity.
      * intros index _. apply Hord.
    + rewrite <- (map_map (fun i => map (fun j => j * k + i) (zrange 0 (Z.to_nat (sampler_length (smp_len s) (shard i k drop))))) (map order)), <- concat_map.
      apply Permutation_map. rewrite Hsl. etransitivity; [apply all_positions; nia|]. reflexivity.
Qed.

(** A sampler without len(): the binary search finds its size. *)
Theorem C38_sampler_size {R} (get : Z -> res R) n :
  0 <= n <= maxsize ->
  (forall i, 0 <= i < n -> exists r, get i = Ok r) -> (forall i, n <= i -> get i = Raise IndexError) ->
  sampler_size get 64 0 maxsize = Ok n.
Proof.
  intros Hn Hin Hout.
  enough (H : forall f lo hi, 0 <= lo <= n -> n <= hi -> hi - lo < 2 ^ Z.of_nat f -> sampler_size get (S f) lo hi = Ok n).
  { apply (H 63%nat); unfold maxsize in *; [lia|lia|]. change (2 ^ Z.of_nat 63) with (2 ^ 63). lia. }
  clear Hn. induction f as [|f IH]; intros lo hi Hlo Hhi Hd.
  - change (2 ^ Z.of_nat 0) with 1 in Hd. cbn [sampler_size]. destruct (Z.ltb_spec lo hi); [lia|]. f_equal. lia.
  - change (sampler_size get (S (S f)) lo hi) with
      (if lo <? hi then
         match get ((lo + hi) / 2) with
         | Ok _ => sampler_size get (S f) ((lo + hi) / 2 + 1) hi
         | Raise IndexError => sampler_size get (S f) lo ((lo + hi) / 2)
         | Raise e => Raise e
         | OutOfFuel => OutOfFuel
         end else Ok lo).
    destruct (Z.ltb_spec lo hi); [|f_equal; lia].
    replace (Z.of_nat (S f)) with (Z.of_nat f + 1) in Hd by lia. rewrite Z.pow_add_r in Hd by lia.
    change (2 ^ 1) with 2 in Hd.
    destruct (Z_lt_ge_dec ((lo + hi) / 2) n).
    + destruct (Hin ((lo + hi) / 2) ltac:(lia)) as (r & ->). apply IH; lia.
    + rewrite Hout by lia. apply IH; lia.
Qed.

Example C38_example : exists s, index_sampler generate_keys 7 (Some (shard 0 2 true)) false (Some 2) (Some 4) = Ok s /\
  keys_read (sampler_ds (range_example 7) s (shard 0 2 true)) = map Ok [0; 1; 2; 0; 1; 2] /\
  smp_get s 3 = Ok (mkMd 3 (Some 1) (Some 7)) /\ smp_get s 12 = Raise IndexError.
Proof. eexists. split; [reflexivity|]. split; [|split]; reflexivity. Qed.
Example C38_shuffled_example : exists s, index_sampler generate_keys 60001 None true (Some 1) (Some 42) = Ok s /\
  keys_at (sampler_ds (range_example 60001) s (shard 1 2 false)) [0] = [Ok 24683].
Proof. eexists. split; [reflexivity|]. vm_compute. reflexivity. Qed.

(** ** C56: record metadata *)

(** A sampler of this library: SequentialSampler or IndexSampler with the given seed. *)
Inductive library_sampler (gen_keys : Z -> Z -> list Z) (seed : option Z) (s : sampler) : Prop :=
| is_sequential n o : sequential_sampler n o seed = Ok s -> library_sampler gen_keys seed s
| is_index n o shuffle num_epochs : index_sampler gen_keys n o shuffle num_epochs seed = Ok s -> library_sampler gen_keys seed s.

Lemma library_metadata gen_keys seed s index md : library_sampler gen_keys seed s -> smp_get s index = Ok md ->
  md_index md = index /\ md_rng md = option_map (fun x => x + index) seed.
Proof.
  intros [n o H|n o shuffle E H] Hg.
  - unfold sequential_sampler in H. destruct (n <=? 0); [easy|]. injection H as <-. cbn in Hg.
    destruct ((index <? 0) || _); [easy|]. injection Hg as <-. easy.
  - unfold index_sampler in H. destruct (n <=? 0); [easy|]. destruct (match E with Some e => e <=? 0 | None => false end); [easy|].
    destruct (shuffle && _); [easy|]. destruct (match seed with Some s => _ | None => false end); [easy|].
    cbv zeta in H. repeat match type of H with bind ?r _ = Ok _ => destruct r; cbn [bind] in H; [|easy|easy] end.
    injection H as <-. cbn [smp_get] in Hg. destruct (_ || _); [easy|].
    repeat match type of Hg with bind ?r _ = Ok _ => destruct r; cbn [bind] in Hg; [|easy|easy] end.
    injection Hg as <-. easy.
Qed.

(** The record read at position [p] by loader shard [i] of [k] carries its global index p*k+i
    and a generator that depends on nothing but the seed and this index. *)
Theorem C56_metadata {A} gen_keys seed s (source : MapDs A) i k drop p md d :
  library_sampler gen_keys seed s -> mget (sampler_ds source s (shard i k drop)) p = Ok (Some (md, d)) ->
  md_index md = p * k + i /\ md_rng md = option_map (fun x => x + (p * k + i)) seed.
Proof.
  intros Hs Hg. cbn in Hg. destruct (smp_get s (p * k + i)) as [m| |] eqn:E; [|easy|easy]. cbn [bind] in Hg.
  destruct (md_record_key m) as [key|]; [|easy]. destruct (mget source key); [|easy|easy]. cbn [bind] in Hg. injection Hg as <- _.
  exact (library_metadata _ _ _ _ _ Hs E).
Qed.
(** Two records read by any of the shards (each with its own sampler, made with the same
    seed) have the same generator only if they are the same read of the same shard. *)
Theorem C56_generators_distinct {A} gen_keys seed s s' (source : MapDs A) i i' k drop p p' md md' d d' :
  0 <= i < k -> 0 <= i' < k -> library_sampler gen_keys (Some seed) s -> library_sampler gen_keys (Some seed) s' ->
  mget (sampler_ds source s (shard i k drop)) p = Ok (Some (md, d)) ->
  mget (sampler_ds source s' (shard i' k drop)) p' = Ok (Some (md', d')) ->
  md_rng md = md_rng md' -> i = i' /\ p = p'.
Proof.
  intros Hi Hi' Hs Hs' Hg Hg' E. destruct (C56_metadata _ _ _ _ _ _ _ _ _ _ Hs Hg) as [_ E1].
  destruct (C56_metadata _ _ _ _ _ _ _ _ _ _ Hs' Hg') as [_ E2]. rewrite E1, E2 in E. cbn in E. injection E as E.
  assert (p * k + i = p' * k + i') by lia. clear - Hi Hi' H.
  assert (p = (p * k + i) / k) by (apply (Z.div_unique _ k p i); lia).
  assert (p' = (p' * k + i') / k) by (apply (Z.div_unique _ k p' i'); lia). assert (p = p') by congruence. subst p'. lia.
Qed.
Example C56_example gen_keys : exists s md d,
  index_sampler gen_keys 10 (Some (shard 1 2 false)) false (Some 1) (Some 7) = Ok s /\
  mget (sampler_ds (range_example 10) s (shard 1 2 false)) 3 = Ok (Some (md, d)) /\ md_index md = 7 /\ md_rng md = Some 14.
Proof. do 3 eexists. split; [reflexivity|]. split; [reflexivity|]. split; reflexivity. Qed.
