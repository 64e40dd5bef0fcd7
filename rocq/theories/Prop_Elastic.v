(** C36, C37, C52: elastic iterators and checkpoint files. *)
From Verif Require Import Base MapDatasets Spec Iter IterSpec ListFacts Sharding_proofs MapSlice_proofs MapBatched_proofs IterLaw IterBasic_proofs IterSource_proofs Elastic.
From Coq Require Import Sorted.

(** * Specification *)
(** [ds] holds exactly the elements [E] (none of them None). *)
Definition holds {A} (ds : MapDs A) (E : list A) : Prop :=
  mlen ds = Z.of_nat (length E) /\ batched_ok ds /\
  forall j e, nth_error E j = Some e -> mget ds (Z.of_nat j) = Ok (Some e).
(** The positions [p, p + k, p + 2 k, ...] ([h] of them). *)
Definition positions (p k : Z) (h : nat) : list Z := map (fun j => p + j * k) (zrange 0 h).
(** The elements of [E] at some positions. *)
Definition at_positions {A} (E : list A) (ps : list Z) : list (option A) := map (fun p => nth_error E (Z.to_nat p)) ps.

(** * Proofs: MapDatasets *)
Section ElasticMap.
Context {A : Type} (pushdown : bool) (ds : MapDs A) (E : list A) (b i k num_threads buffer_size : Z) (h : Z).
Hypothesis Hds : holds ds E.
Hypothesis Hik : 0 <= i < k.
Hypothesis Hh : 1 <= h.
Hypothesis Hb : b = h * k.
Let it := elastic_map_it pushdown b i k num_threads buffer_size ds.
Let n := mlen ds.

(** The batch number [t] counted from position [g]. *)
Definition host_batch (g t : Z) : list (option A) := at_positions E (positions (g + t * b + i) k (Z.to_nat h)).
(** All its positions are inside the dataset. *)
Definition available (g t : Z) : Prop := g + t * b + (b - k) + i < n.

Lemma inner_ok g : 0 <= g -> exists d, elastic_inner pushdown b i k ds g = Ok d /\ 0 <= mlen d /\
  (forall t, 0 <= t -> t < mlen d <-> available g t) /\
  (forall t, 0 <= t < mlen d -> mget d t = Ok (Some (host_batch g t))).
Proof.
  intros Hg. destruct Hds as (Hn & Hbo & Hget). unfold elastic_inner, slice_ds.
  assert (Hsi : slice_indices (Some (g + i)) None (Some k) (mlen ds) = Ok (Z.min (g + i) n, n, k)).
  { unfold slice_indices. destruct (Z.eqb_spec k 0); [lia|]. destruct (Z.ltb_spec k 0); [lia|].
    destruct (Z.ltb_spec (g + i) 0); [lia|]. reflexivity. }
  rewrite Hsi. cbn [bind]. unfold pydivmod. destruct (Z.eqb_spec k 0); [lia|]. cbn [bind fst snd].
  rewrite Hb, Z.mod_mul, Z.div_mul by lia. cbn [Z.eqb negb]. unfold batch_ds.
  destruct (Z.leb_spec h 0); [lia|]. eexists. split; [reflexivity|].
  set (st := Z.min (g + i) n). set (L := range_len st n k). cbn [mlen mget].
  assert (HL0 : 0 <= L) by apply range_len_nonneg.
  assert (Hn0 : 0 <= n) by (unfold n; lia).
  assert (HL : forall r, 0 <= r -> r < L <-> g + i + r * k < n).
  { intros r Hr. unfold L, range_len. destruct (Z.gtb_spec k 0); [|lia].
    destruct (Z.le_gt_cases (g + i) n) as [Hle|Hgt].
    - replace st with (g + i) by (unfold st; lia). split; intros H1.
      + assert (H2 : r < (n - (g + i) + k - 1) / k) by lia.
        assert (H3 : (r + 1) * k <= n - (g + i) + k - 1).
        { pose proof (Z.mul_div_le (n - (g + i) + k - 1) k ltac:(lia)). nia. }
        nia.
      + assert (H2 : r + 1 <= (n - (g + i) + k - 1) / k) by (apply Z.div_le_lower_bound; nia). lia.
    - replace st with n by (unfold st; lia). replace (n - n + k - 1) with (k - 1) by lia.
      rewrite Z.div_small by lia. split; [lia|nia]. }
  unfold batch_len. assert (HLh : 0 <= L / h) by (apply Z.div_pos; lia).
  split; [lia|]. split.
  - intros t Ht. unfold available. assert (Hth : h <= (t + 1) * h) by (clear - Ht Hh; nia).
    assert (Heq : g + i + ((t + 1) * h - 1) * k = g + t * b + (b - k) + i) by (rewrite Hb; ring).
    specialize (HL ((t + 1) * h - 1) ltac:(lia)). rewrite <- Heq, <- HL.
    assert (Hdiv : t + 1 <= L / h <-> (t + 1) * h <= L).
    { split; intros H1; [|apply Z.div_le_lower_bound; lia].
      pose proof (Z.mul_div_le L h ltac:(lia)) as H2. generalize dependent (L / h). clear - Hh. intros; nia. }
    lia.
  - intros t Ht. set (Q := L / h) in *. unfold pydivmod. destruct (Z.eqb_spec Q 0); [lia|]. cbn [bind].
    rewrite (Z.div_small t), (Z.mod_small t) by lia. rewrite Z.mul_0_l, !Z.add_0_r.
    assert (Hth : (t + 1) * h <= L).
    { pose proof (Z.mul_div_le L h ltac:(lia)) as H2. fold Q in H2. clearbody Q. clear - Hh H2 Ht. nia. }
    replace (Z.min L ((t + 1) * h)) with ((t + 1) * h) by lia.
    replace ((t + 1) * h - t * h) with h by lia.
    assert (Hst : st = g + i). { assert (g + i + 0 * k < n) by (apply HL; nia). unfold st. lia. }
    set (f := sliced_index st k (mlen ds) L).
    assert (Hf : map f (zrange (t * h) (Z.to_nat h)) = map Ok (positions (g + t * b + i) k (Z.to_nat h))).
    { unfold positions. rewrite map_map. apply nth_error_ext. intros j. rewrite !nth_error_map, !nth_error_zrange.
      destruct (Nat.ltb_spec j (Z.to_nat h)) as [Hj|Hj]; [|easy]. cbn. f_equal.
      unfold f, sliced_index, pydivmod. destruct (Z.eqb_spec L 0); [lia|]. cbn.
      rewrite Z.div_small, Z.mod_small by lia. f_equal. rewrite Hst. nia. }
    assert (Hv : map (mget ds) (positions (g + t * b + i) k (Z.to_nat h)) = map Ok (host_batch g t)).
    { unfold host_batch, at_positions, positions. rewrite !map_map. apply map_ext_in. intros j Hj.
      apply in_zrange in Hj. assert (Hj' : g + t * b + i + j * k < n).
      { assert (Hx : t * h + j < L) by nia. apply HL in Hx; [|nia]. nia. }
      assert (Hj0 : 0 <= g + t * b + i + j * k) by nia.
      destruct (nth_error E (Z.to_nat (g + t * b + i + j * k))) as [e|] eqn:Ee.
      - apply Hget in Ee. rewrite Z2Nat.id in Ee by lia. exact Ee.
      - apply nth_error_None in Ee. unfold n in *. lia. }
    assert (Hvals : (if pushdown then reindexed_getitems f ds (zrange (t * h) (Z.to_nat h))
                     else sequence (map (fun x => let! j := f x in mget ds j) (zrange (t * h) (Z.to_nat h)))) = Ok (host_batch g t)).
    { destruct pushdown.
      - unfold reindexed_getitems. rewrite Hf, sequence_map_Ok. cbn. now apply Hbo.
      - apply sequence_Ok_iff. rewrite <- Hv. apply nth_error_ext. intros j.
        assert (Hfj : nth_error (map f (zrange (t * h) (Z.to_nat h))) j = nth_error (map Ok (positions (g + t * b + i) k (Z.to_nat h))) j) by now rewrite Hf.
        rewrite !nth_error_map in Hfj |- *. destruct (nth_error (zrange (t * h) (Z.to_nat h)) j), (nth_error (positions _ _ _) j); try discriminate; [|easy].
        cbn in *. injection Hfj as ->. reflexivity. }
    cbn [mgetitems mget mlen] in *.
    rewrite Hvals. cbn [bind]. unfold make_batch. destruct (host_batch g t) eqn:Eb; [|easy].
    exfalso. apply (f_equal (@length _)) in Eb. unfold host_batch, at_positions, positions in Eb.
    rewrite !map_length, zrange_length in Eb. cbn in Eb. lia.
Qed.

Definition est_ok (s : ist it) : Prop :=
  0 <= fst s /\
  match snd s with
  | None => True
  | Some (d, ps) => exists g, 0 <= g /\ elastic_inner pushdown b i k ds g = Ok d /\ pf_inv d ps /\ g + pf_ret ps * b = fst s
  end.

Lemma elastic_step fuel s : (1 <= fuel)%nat -> est_ok s ->
  exists s', est_ok s' /\
    (available (fst s) 0 -> next it fuel s = (Yield (Some (host_batch (fst s) 0)), s') /\ fst s' = fst s + b) /\
    (~ available (fst s) 0 -> next it fuel s = (Stop, s') /\ fst s' = fst s).
Proof.
  intros Hf (Hg & Hin). destruct s as [g inner]. cbn [fst snd] in Hg, Hin.
  assert (H : exists d ps g1, (match inner with Some ds_s => Ok ds_s
              | None => let! d := elastic_inner pushdown b i k ds g in Ok (d, mkPf 0 0 [] buffer_size num_threads checker0) end) = Ok (d, ps) /\
            0 <= g1 /\ elastic_inner pushdown b i k ds g1 = Ok d /\ pf_inv d ps /\ g1 + pf_ret ps * b = g).
  { destruct inner as [[d ps]|].
    - destruct Hin as (g1 & H1 & H2 & H3 & H4). exists d, ps, g1. auto.
    - destruct (inner_ok g Hg) as (d & Hd & Hd0 & _). rewrite Hd. cbn [bind]. eexists d, _, g. split; [reflexivity|].
      split; [exact Hg|]. split; [exact Hd|]. split; [apply pf_inv_empty; lia|cbn; lia]. }
  destruct H as (d & ps & g1 & Heq & Hg1 & Hd & Hpi & Hgg).
  destruct (inner_ok g1 Hg1) as (d' & Hd' & Hd0 & Hav & Hget). assert (d' = d) as -> by congruence.
  pose proof Hpi as (Hret & _ & _ & _).
  assert (Hav' : available g 0 <-> pf_ret ps < mlen d).
  { rewrite (Hav (pf_ret ps)) by lia. unfold available. rewrite <- Hgg. split; intros; lia. }
  assert (Hhb : host_batch g 0 = host_batch g1 (pf_ret ps)).
  { unfold host_batch. f_equal. f_equal. lia. }
  unfold it, elastic_map_it. cbn [next fst]. destruct fuel as [|fuel]; [lia|]. rewrite Heq. cbn [prefetch_next].
  destruct (Z.eqb_spec (pf_ret ps) (mlen d)) as [Heqr|Hner].
  - exists (g, Some (d, ps)). split; [|split; [intros Ha; apply Hav' in Ha; lia|intros _; split; reflexivity]].
    split; [exact Hg|]. cbn. exists g1. auto.
  - assert (Hlt : pf_ret ps < mlen d) by lia.
    destruct (pf_take_ok d ps (Some (host_batch g1 (pf_ret ps))) Hpi Hlt (Hget (pf_ret ps) ltac:(lia))) as (s1 & -> & Hr1 & Hi1).
    pose proof (check_None (pf_checker s1) true) as Hc. cbn [orb].
    destruct (check None (pf_checker s1) true) as [c err]. cbn in Hc. subst err.
    eexists (g + b, Some (d, _)). split; [|split; [intros Ha; split; [rewrite Hhb|]; reflexivity|intros Ha; exfalso; apply Ha, Hav', Hlt]].
    split; cbn [fst snd]; [nia|]. exists g1. split; [exact Hg1|]. split; [exact Hd|]. split.
    + destruct Hi1 as (I1 & I2 & I3 & I4). cbn [pf_ret pf_buf pf_buffer] in *. repeat split; cbn [pf_ret pf_buf pf_buffer]; try easy.
    + cbn [pf_ret]. rewrite Hr1, <- Hgg. lia.
Qed.

Lemma elastic_reads fuel : (1 <= fuel)%nat -> forall T s, est_ok s ->
  (forall t, 0 <= t < Z.of_nat T -> available (fst s) t) ->
  exists s', est_ok s' /\ fst s' = fst s + Z.of_nat T * b /\ after it fuel T s = s' /\
    forall m, drain it fuel (T + m) s =
      (map (fun t => Some (host_batch (fst s) t)) (zrange 0 T) ++ fst (drain it fuel m s'), snd (drain it fuel m s')).
Proof.
  intros Hf. induction T as [|T IH]; intros s Hs Hav.
  - exists s. repeat split; [exact (proj1 Hs)|exact (proj2 Hs)|cbn; lia|]. intros m. cbn. now destruct drain.
  - destruct (elastic_step fuel s Hf Hs) as (s1 & Hs1 & Hy & _).
    destruct Hy as [Hn Hg]; [apply Hav; lia|].
    destruct (IH s1 Hs1) as (s' & Hs' & Hg' & Ha & Hd).
    { intros t Ht. specialize (Hav (t + 1) ltac:(lia)). unfold available in *. rewrite Hg. nia. }
    exists s'. split; [exact Hs'|]. split; [rewrite Hg', Hg; lia|]. split; [cbn [after]; rewrite Hn; exact Ha|].
    intros m. cbn [plus drain]. rewrite Hn, Hd. rewrite zrange_S. cbn [map app]. f_equal. f_equal. f_equal.
    unfold zrange. rewrite !map_map. apply map_ext. intros t. f_equal. unfold host_batch. f_equal. f_equal. rewrite Hg. lia.
Qed.
End ElasticMap.

(** Host [i] of [k], restored from position [g], reads the global batches [g .. g+b-1],
    [g+b .. g+2b-1], ...: from each of them the elements at distance [k] starting with the
    [i]-th, [b/k] of them.  Its checkpoint is the position after the batches read.  It stops at
    the first batch that is not there completely (for this host). *)
Theorem C36_host {A} pushdown (ds : MapDs A) E b i k num_threads buffer_size g T fuel s :
  holds ds E -> 0 <= i < k -> 1 <= b -> b mod k = 0 -> 0 <= g -> (1 <= fuel)%nat ->
  T = 0%nat \/ g + Z.of_nat T * b - k + i < mlen ds ->
  let it := elastic_map_it pushdown b i k num_threads buffer_size ds in
  let batches := map (fun t => Some (at_positions E (positions (g + t * b + i) k (Z.to_nat (b / k))))) (zrange 0 T) in
  exists s0, set_state it fuel s g = Ok s0 /\
    drain it fuel T s0 = (batches, NoFuel) /\
    get_state it (after it fuel T s0) = g + Z.of_nat T * b /\
    (mlen ds <= g + (Z.of_nat T + 1) * b - k + i -> drain it fuel (S T) s0 = (batches, Stop)).
Proof.
  intros Hds Hik Hb1 Hbk Hg Hf HT it batches. exists (g, None). split; [reflexivity|].
  assert (Hb : b = b / k * k) by (rewrite (Z.div_mod b k) at 1 by lia; lia).
  assert (Hh : 1 <= b / k). { generalize dependent (b / k). intros; nia. }
  assert (Hs0 : est_ok pushdown ds b i k num_threads buffer_size (g, None)) by (split; [exact Hg|exact I]).
  destruct (elastic_reads pushdown ds E b i k num_threads buffer_size (b / k) Hds Hik Hh Hb fuel Hf T (g, None) Hs0)
    as (s' & Hs' & Hg' & Ha & Hd).
  { intros t Ht. cbn [fst]. unfold available. destruct HT as [->|HT]; [lia|]. nia. }
  cbn [fst] in *. fold it in Ha, Hd.
  split. { specialize (Hd 0%nat). rewrite Nat.add_0_r in Hd. rewrite Hd. cbn. now rewrite app_nil_r. }
  split. { rewrite Ha. cbn. now destruct s'. }
  intros Hend. replace (S T) with (T + 1)%nat by lia. rewrite Hd.
  destruct (elastic_step pushdown ds E b i k num_threads buffer_size (b / k) Hds Hik Hh Hb fuel s' Hf Hs') as (s2 & _ & _ & Hstop).
  destruct Hstop as [Hn _]. { unfold available. rewrite Hg'. nia. }
  fold it in Hn. cbn [drain]. rewrite Hn. cbn. now rewrite app_nil_r.
Qed.

Example C36_host_holds : exists ds : MapDs Z, holds ds (zrange 0 20) /\
  let it := elastic_map_it true 6 1 3 16 500 ds in
  drain it 5 4 (init it) = ([Some [Some 1; Some 4]; Some [Some 7; Some 10]; Some [Some 13; Some 16]], Stop).
Proof.
  eexists (source_ds 20 (fun j => Ok (Some j)) None). split; [|reflexivity].
  split; [reflexivity|]. split.
  - intros idx vs. cbn. apply sequence_Ok_iff.
  - intros j e Hj. rewrite nth_error_zrange in Hj. destruct (Nat.ltb_spec j 20) as [H|H]; [|discriminate]. injection Hj as <-.
    cbn. unfold pymod, pydivmod. cbn. rewrite Z.mod_small by lia. reflexivity.
Qed.

(** Any sequence of reads, checkpoints, restores and restarts of one host. *)
Theorem C36_checkpointable {A} pushdown (ds : MapDs A) E b i k num_threads buffer_size T :
  holds ds E -> 0 <= i < k -> 1 <= b -> b mod k = 0 ->
  (forall t, 0 <= t -> t < Z.of_nat T <-> t * b + (b - k) + i < mlen ds) ->
  checkpointable (elastic_map_it pushdown b i k num_threads buffer_size ds)
    (map (fun t => Some (at_positions E (positions (t * b + i) k (Z.to_nat (b / k))))) (zrange 0 T)) true true true.
Proof.
  intros Hds Hik Hb1 Hbk HT.
  assert (Hb : b = b / k * k) by (rewrite (Z.div_mod b k) at 1 by lia; lia).
  assert (Hh : 1 <= b / k). { generalize dependent (b / k). intros; nia. }
  set (it := elastic_map_it pushdown b i k num_threads buffer_size ds).
  set (l := map _ _). assert (Hl : length l = T) by (unfold l; now rewrite map_length, zrange_length).
  apply lawful_checkpointable.
  set (ok := est_ok pushdown ds b i k num_threads buffer_size).
  exists 1%nat, (fun s p => ok s /\ fst s = Z.of_nat p * b /\ (p <= T)%nat), (fun c p => c = Z.of_nat p * b /\ (p <= T)%nat).
  assert (Hset : forall c p, c = Z.of_nat p * b /\ (p <= T)%nat -> exists s' : ist it, Ok (c, None) = Ok s' /\ ok s' /\ fst s' = Z.of_nat p * b /\ (p <= T)%nat).
  { intros c p [-> Hp]. exists (Z.of_nat p * b, None). split; [easy|]. split; [split; [cbn; nia|exact I]|]. split; [easy|exact Hp]. }
  split.
  - split; [split; [cbn; lia|exact I]|]. split; [cbn; lia|lia].
  - intros s p (_ & _ & Hp). lia.
  - intros fuel s p a Hf (Hs & Hg & Hp) Ha.
    destruct (elastic_step pushdown ds E b i k num_threads buffer_size (b / k) Hds Hik Hh Hb fuel s Hf Hs) as (s' & Hs' & Hy & _).
    assert (Hlt : (p < T)%nat) by (rewrite <- Hl; now apply nth_lt in Ha).
    destruct Hy as [Hn Hg'].
    { unfold available. rewrite Hg. assert (Hx : Z.of_nat p < Z.of_nat T) by lia. apply HT in Hx; [lia|lia]. }
    exists s'. split.
    + fold it in Hn. rewrite Hn. f_equal. f_equal. unfold l in Ha. rewrite nth_error_map, nth_error_zrange in Ha.
      destruct (Nat.ltb_spec p T); [|lia]. cbn in Ha. injection Ha as <-. f_equal. unfold host_batch. f_equal. f_equal. rewrite Hg. lia.
    + split; [exact Hs'|]. split; [rewrite Hg', Hg; lia|lia].
  - intros fuel s Hf _ (Hs & Hg & Hp). rewrite Hl in *.
    destruct (elastic_step pushdown ds E b i k num_threads buffer_size (b / k) Hds Hik Hh Hb fuel s Hf Hs) as (s' & Hs' & _ & Hn).
    destruct Hn as [Hn Hg'].
    { unfold available. rewrite Hg. specialize (HT (Z.of_nat T) ltac:(lia)). lia. }
    exists s'. split; [exact Hn|]. split; [exact Hs'|]. split; [now rewrite Hg'|lia].
  - intros [g inner] p (_ & Hg & Hp). cbn in *. auto.
  - intros c p _ H. exact H.
  - intros fuel s p Hf _ _. apply (Hset 0 0%nat). lia.
  - intros fuel c p Hf Hc _. now apply Hset.
  - intros fuel s q c p Hf _ _ Hc _. now apply Hset.
Qed.

Example C36_checkpointable_holds :
  forall t, 0 <= t -> t < Z.of_nat 3 <-> t * 6 + (6 - 3) + 1 < 20.
Proof. lia. Qed.

(** * All hosts *)
Lemma flat_map_app_perm {X Y} (f g : X -> list Y) l :
  Permutation (flat_map (fun x => f x ++ g x) l) (flat_map f l ++ flat_map g l).
Proof.
  induction l as [|x l IH]; cbn; [easy|].
  rewrite IH. rewrite <- !app_assoc. apply Permutation_app_head. rewrite !app_assoc. apply Permutation_app_tail. apply Permutation_app_comm.
Qed.
Lemma flat_map_swap {X Y Z'} (f : X -> Y -> list Z') lx ly :
  Permutation (flat_map (fun x => flat_map (f x) ly) lx) (flat_map (fun y => flat_map (fun x => f x y) lx) ly).
Proof.
  induction lx as [|x lx IH]; cbn.
  - induction ly; cbn; [easy|exact IHly].
  - rewrite IH. symmetry. apply flat_map_app_perm.
Qed.
Lemma flat_map_perm_ext {X Y} (f g : X -> list Y) l : (forall x, Permutation (f x) (g x)) -> Permutation (flat_map f l) (flat_map g l).
Proof. intros H. induction l as [|x l IH]; cbn; [easy|]. now apply Permutation_app. Qed.
Lemma flat_map_single {X Y} (f : X -> Y) l : flat_map (fun x => [f x]) l = map f l.
Proof. induction l; cbn; congruence. Qed.
Lemma zrange_blocks p m : forall n, flat_map (fun j => zrange (p + j * Z.of_nat m) m) (zrange 0 n) = zrange p (n * m).
Proof.
  intros n. revert p. induction n as [|n IH]; intros p; [easy|].
  rewrite zrange_S. cbn [flat_map]. replace (p + 0 * Z.of_nat m) with p by lia.
  replace (S n * m)%nat with (m + n * m)%nat by lia. rewrite zrange_app. f_equal. rewrite <- IH.
  unfold zrange at 2. unfold zrange at 3. rewrite !flat_map_concat_map, !map_map. f_equal. apply map_ext. intros j. f_equal. lia.
Qed.
Lemma zrange_map_add p n : map (fun j => p + j) (zrange 0 n) = zrange p n.
Proof. unfold zrange. rewrite map_map. now apply map_ext. Qed.

Lemma hosts_cover g b k T : 1 <= k -> 1 <= b -> b mod k = 0 ->
  Permutation (flat_map (fun i => flat_map (fun t => positions (g + t * b + i) k (Z.to_nat (b / k))) (zrange 0 T)) (zrange 0 (Z.to_nat k)))
              (zrange g (T * Z.to_nat b)).
Proof.
  intros Hk Hb Hm. rewrite flat_map_swap.
  assert (Hbk : b = b / k * k) by (rewrite (Z.div_mod b k) at 1 by lia; lia).
  set (h := b / k) in *. assert (Hh : 0 < h) by nia.
  rewrite <- zrange_blocks. apply flat_map_perm_ext. intros t. unfold positions.
  rewrite (flat_map_perm_ext _ (fun i => flat_map (fun j => [g + t * b + i + j * k]) (zrange 0 (Z.to_nat h)))).
  2:{ intros i. now rewrite flat_map_single. }
  rewrite flat_map_swap.
  replace (Z.to_nat b) with (Z.to_nat h * Z.to_nat k)%nat by nia.
  rewrite <- zrange_blocks. apply flat_map_perm_ext. intros j. rewrite flat_map_single.
  rewrite <- (zrange_map_add (_ + j * _)).
  rewrite map_ext_in with (g := fun i => g + t * Z.of_nat (Z.to_nat h * Z.to_nat k) + j * Z.of_nat (Z.to_nat k) + i).
  - reflexivity.
  - intros i _. nia.
Qed.

Lemma nth_error_firstn_lt {X} (l : list X) n j : (j < n)%nat -> nth_error (firstn n l) j = nth_error l j.
Proof. revert l j. induction n as [|n IH]; intros [|x l] [|j] H; cbn; try easy; try lia. apply IH. lia. Qed.
Lemma nth_error_skipn {X} (l : list X) n j : nth_error (skipn n l) j = nth_error l (n + j).
Proof. revert l. induction n as [|n IH]; intros [|x l]; cbn; try easy. now destruct j. Qed.
Lemma flat_map_map_out {X Y W} (f : Y -> W) (g : X -> list Y) l : map f (flat_map g l) = flat_map (fun x => map f (g x)) l.
Proof. induction l as [|x l IH]; cbn; [easy|]. now rewrite map_app, IH. Qed.

Lemma at_positions_range {A} (E : list A) g m : 0 <= g -> g + Z.of_nat m <= Z.of_nat (length E) ->
  at_positions E (zrange g m) = map Some (firstn m (skipn (Z.to_nat g) E)).
Proof.
  intros Hg Hm. unfold at_positions. apply nth_error_ext. intros j. rewrite !nth_error_map, nth_error_zrange.
  destruct (Nat.ltb_spec j m) as [Hj|Hj].
  - cbn. rewrite nth_error_firstn_lt by lia. rewrite nth_error_skipn.
    replace (Z.to_nat (g + Z.of_nat j)) with (Z.to_nat g + j)%nat by lia.
    destruct (nth_error E (Z.to_nat g + j)) eqn:Ee; [easy|]. apply nth_error_None in Ee. lia.
  - cbn. rewrite (proj2 (nth_error_None _ _)); [easy|]. rewrite firstn_length. lia.
Qed.

(** One global step: as long as the whole batch is there, every host gets its part, the parts
    are disjoint and together they are exactly the elements [g + t b .. g + t b + b - 1]. *)
Theorem C36_global_batch {A} (ds : MapDs A) E b k g t :
  holds ds E -> 1 <= k -> 1 <= b -> b mod k = 0 -> 0 <= g -> 0 <= t -> g + (t + 1) * b <= mlen ds ->
  Permutation (concat (map (fun i => at_positions E (positions (g + t * b + i) k (Z.to_nat (b / k)))) (zrange 0 (Z.to_nat k))))
              (map Some (firstn (Z.to_nat b) (skipn (Z.to_nat (g + t * b)) E))).
Proof.
  intros (Hn & _) Hk Hb Hm Hg Ht Hle. rewrite <- at_positions_range by nia.
  rewrite <- flat_map_concat_map. unfold at_positions. rewrite <- (flat_map_map_out (fun p => nth_error E (Z.to_nat p))). apply Permutation_map.
  pose proof (hosts_cover (g + t * b) b k 1 Hk Hb Hm) as H. rewrite Nat.mul_1_l in H. rewrite <- H. apply flat_map_perm_ext. intros i. rewrite zrange_S. cbn [flat_map]. change (zrange (0 + 1) 0) with (@nil Z). cbn [flat_map]. rewrite app_nil_r.
  replace (g + t * b + 0 * b + i) with (g + t * b + i) by lia. reflexivity.
Qed.

(** A host reads [T] batches [out] from the checkpoint [g]; its next checkpoint is [g']. *)
Definition host_reads {A} (it : Iter (option (list (option A)))) (g : ick it) (T : nat) (out : list (list A)) (g' : ick it) : Prop :=
  exists fuel s0, (1 <= fuel)%nat /\ set_state it fuel (init it) g = Ok s0 /\
    drain it fuel T s0 = (map (fun batch => Some (map Some batch)) out, NoFuel) /\ length out = T /\
    get_state it (after it fuel T s0) = g'.
(** The life of a training job: it starts from position 0 and is restarted any number of
    times, each time with any number of hosts [k] and global batch size [b] (a multiple of
    [k]); in each run all hosts restore the same checkpoint, read the same number [T] of
    batches and save, and any one of the checkpoints is used for the next run.  [seen] is
    everything that any host has read so far. *)
Inductive job {A} (ds : MapDs A) : Z -> list A -> Prop :=
| job_start : job ds 0 []
| job_run g seen pushdown num_threads buffer_size b k T outs g' :
    job ds g seen -> 1 <= k -> 1 <= b -> b mod k = 0 -> length outs = Z.to_nat k ->
    (forall i out, nth_error outs i = Some out ->
       exists gi, host_reads (elastic_map_it pushdown b (Z.of_nat i) k num_threads buffer_size ds) g T out gi) ->
    (exists i out, nth_error outs i = Some out /\
       host_reads (elastic_map_it pushdown b (Z.of_nat i) k num_threads buffer_size ds) g T out g') ->
    job ds g' (seen ++ concat (map (@concat A) outs)).

Lemma Permutation_map_Some {X} (l l' : list X) : Permutation (map Some l) (map Some l') -> Permutation l l'.
Proof.
  intros H. assert (Hf : forall m : list X, flat_map (fun o => match o with Some x => [x] | None => [] end) (map Some m) = m).
  { induction m as [|x m IH]; cbn; congruence. }
  rewrite <- (Hf l), <- (Hf l'). now rewrite H.
Qed.

Lemma host_reads_inv {A} pushdown (ds : MapDs A) E b i k num_threads buffer_size g T out g' :
  holds ds E -> 0 <= i < k -> 1 <= b -> b mod k = 0 -> 0 <= g ->
  host_reads (elastic_map_it pushdown b i k num_threads buffer_size ds) g T out g' ->
  g' = g + Z.of_nat T * b /\ (T = 0%nat \/ g + Z.of_nat T * b - k + i < mlen ds) /\
  map Some (concat out) = at_positions E (flat_map (fun t => positions (g + t * b + i) k (Z.to_nat (b / k))) (zrange 0 T)).
Proof.
  intros Hds Hik Hb1 Hbk Hg (fuel & s0 & Hf & Hset & Hdr & Hlen & Hg').
  injection Hset as <-.
  assert (Hav : T = 0%nat \/ g + Z.of_nat T * b - k + i < mlen ds).
  { destruct T as [|T']; [now left|right]. set (T := S T') in *.
    destruct (Z.lt_ge_cases (g + Z.of_nat T * b - k + i) (mlen ds)) as [Hlt|Hge]; [exact Hlt|exfalso].
    assert (Hb : b = b / k * k) by (rewrite (Z.div_mod b k) at 1 by lia; lia).
    assert (Hh : 1 <= b / k). { generalize dependent (b / k). intros; nia. }
    destruct (inner_ok pushdown ds E b i k num_threads buffer_size (b / k) Hds Hik Hh Hb g Hg) as (d & _ & Hd0 & Hcount & _).
    unfold available in Hcount. set (M := mlen d) in *.
    assert (HMT : M < Z.of_nat T). { destruct (Z.lt_ge_cases M (Z.of_nat T)) as [?|HM]; [easy|].
      assert (Hx : Z.of_nat T - 1 < M) by lia. apply Hcount in Hx; lia. }
    set (it := elastic_map_it pushdown b i k num_threads buffer_size ds) in *.
    assert (Hs0 : est_ok pushdown ds b i k num_threads buffer_size (g, None)) by (split; [exact Hg|exact I]).
    destruct (elastic_reads pushdown ds E b i k num_threads buffer_size (b / k) Hds Hik Hh Hb fuel Hf (Z.to_nat M) (g, None) Hs0)
      as (s' & Hs' & Hgs & Ha & Hd).
    { intros t Ht. cbn [fst]. unfold available. apply Hcount; lia. }
    destruct (elastic_step pushdown ds E b i k num_threads buffer_size (b / k) Hds Hik Hh Hb fuel s' Hf Hs') as (s2 & _ & _ & Hstop).
    destruct Hstop as [Hn _].
    { unfold available. rewrite Hgs. cbn [fst]. rewrite Z2Nat.id by lia. intros Hx.
      assert (M < M); [apply Hcount; lia|lia]. }
    fold it in Hd, Hn. specialize (Hd (S (T - S (Z.to_nat M)))).
    replace (Z.to_nat M + S (T - S (Z.to_nat M)))%nat with T in Hd by lia.
    assert (Hdr' : drain it fuel T (g, None) = (map (fun batch => Some (map Some batch)) out, NoFuel)) by exact Hdr.
    rewrite Hdr' in Hd. cbn [drain] in Hd. rewrite Hn in Hd. cbn in Hd. congruence. }
  destruct (C36_host pushdown ds E b i k num_threads buffer_size g T fuel (init (elastic_map_it pushdown b i k num_threads buffer_size ds)) Hds Hik Hb1 Hbk Hg Hf Hav)
    as (s0 & Hset & Hd & Hgt & _).
  injection Hset as <-. split; [|split; [exact Hav|]].
  - rewrite <- Hg'. exact Hgt.
  - assert (Hm : map (fun batch => Some (map Some batch)) out =
                 map (fun t => Some (at_positions E (positions (g + t * b + i) k (Z.to_nat (b / k))))) (zrange 0 T)).
    { assert (Hx : (map (fun batch => Some (map Some batch)) out, @NoFuel (option (list (option A)))) =
        (map (fun t => Some (at_positions E (positions (g + t * b + i) k (Z.to_nat (b / k))))) (zrange 0 T), NoFuel)).
      { rewrite <- Hdr. exact Hd. }
      injection Hx as Hx. exact Hx. }
    unfold at_positions. rewrite flat_map_map_out. rewrite concat_map, flat_map_concat_map. f_equal.
    apply nth_error_ext. intros j. apply (f_equal (fun l => nth_error l j)) in Hm. rewrite !nth_error_map in Hm |- *.
    unfold at_positions in Hm. destruct (nth_error out j), (nth_error (zrange 0 T) j); cbn [option_map] in *; congruence.
Qed.

(** However the job is restarted and resized, what has been read is exactly the first elements
    of the dataset, each once; the checkpoint says how many. *)
Theorem C36_elastic_job {A} (ds : MapDs A) E g seen :
  holds ds E -> job ds g seen ->
  0 <= g <= mlen ds /\ Permutation seen (firstn (Z.to_nat g) E).
Proof.
  intros Hds. induction 1 as [|g seen pushdown nt bs b k T outs g' Hj IH Hk Hb Hbk Hlen Hall Hone].
  - pose proof (proj1 Hds). cbn. split; [lia|easy].
  - destruct IH as (Hg & IH).
    assert (Hinv : forall i out, nth_error outs i = Some out -> forall gi,
      host_reads (elastic_map_it pushdown b (Z.of_nat i) k nt bs ds) g T out gi ->
      gi = g + Z.of_nat T * b /\ (T = 0%nat \/ g + Z.of_nat T * b - k + Z.of_nat i < mlen ds) /\
      map Some (concat out) = at_positions E (flat_map (fun t => positions (g + t * b + Z.of_nat i) k (Z.to_nat (b / k))) (zrange 0 T))).
    { intros i out Hi gi Hr. apply (host_reads_inv pushdown ds E b (Z.of_nat i) k nt bs); auto; [|lia].
      assert (i < length outs)%nat by now apply nth_lt in Hi. lia. }
    destruct Hone as (i0 & out0 & Hi0 & Hr0). destruct (Hinv i0 out0 Hi0 g' Hr0) as (-> & _).
    assert (Hlast : exists o, nth_error outs (Z.to_nat k - 1) = Some o).
    { destruct (nth_error outs (Z.to_nat k - 1)) eqn:Eo; [eauto|]. apply nth_error_None in Eo. lia. }
    destruct Hlast as (ol & Hl). destruct (Hall _ _ Hl) as (gl & Hrl). destruct (Hinv _ _ Hl gl Hrl) as (_ & Hav & _).
    assert (Hle : g + Z.of_nat T * b <= mlen ds) by (destruct Hav as [->|Hav]; lia).
    split; [nia|].
    replace (Z.to_nat (g + Z.of_nat T * b)) with (Z.to_nat g + T * Z.to_nat b)%nat by nia.
    rewrite firstn_plus. apply Permutation_app; [exact IH|].
    apply Permutation_map_Some.
    rewrite <- at_positions_range; [|lia|rewrite <- (proj1 Hds); nia].
    rewrite concat_map, map_map.
    assert (Heq : map (fun x => map Some (concat x)) outs =
      map (fun i => at_positions E (flat_map (fun t => positions (g + t * b + i) k (Z.to_nat (b / k))) (zrange 0 T))) (zrange 0 (Z.to_nat k))).
    { apply nth_error_ext. intros i. rewrite !nth_error_map, nth_error_zrange.
      destruct (nth_error outs i) as [out|] eqn:Eo.
      - assert (Hi : (i < length outs)%nat) by now apply nth_lt in Eo.
        destruct (Nat.ltb_spec i (Z.to_nat k)); [|lia]. cbn. f_equal.
        destruct (Hall _ _ Eo) as (gi & Hri). destruct (Hinv _ _ Eo gi Hri) as (_ & _ & ->). reflexivity.
      - apply nth_error_None in Eo. destruct (Nat.ltb_spec i (Z.to_nat k)); [lia|easy]. }
    rewrite Heq, <- flat_map_concat_map. unfold at_positions. rewrite <- (flat_map_map_out (fun p => nth_error E (Z.to_nat p))).
    apply Permutation_map. now apply hosts_cover.
Qed.

Definition demo20 : MapDs Z := source_ds 20 (fun j => Ok (Some j)) None.
Lemma demo20_holds : holds demo20 (zrange 0 20).
Proof.
  split; [reflexivity|]. split.
  - intros idx vs. cbn. apply sequence_Ok_iff.
  - intros j e Hj. rewrite nth_error_zrange in Hj. destruct (Nat.ltb_spec j 20) as [H|H]; [|discriminate]. injection Hj as <-.
    cbn. unfold pymod, pydivmod. cbn. rewrite Z.mod_small by lia. reflexivity.
Qed.
(** Two hosts read one batch of 6, then three hosts read one batch of 6. *)
Example C36_elastic_job_holds : job demo20 12 (([] ++ [0; 2; 4; 1; 3; 5]) ++ [6; 9; 7; 10; 8; 11]).
Proof.
  apply (job_run demo20 6 _ true 16 500 6 3 1 [[[6; 9]]; [[7; 10]]; [[8; 11]]]).
  - apply (job_run demo20 0 [] true 16 500 6 2 1 [[[0; 2; 4]]; [[1; 3; 5]]]).
    + constructor.
    + lia.
    + lia.
    + reflexivity.
    + reflexivity.
    + intros [|[|i]] out Hi; try (injection Hi as <-; exists 6, 1%nat, (0, None); repeat split; cbn; lia).
      now destruct i.
    + exists 0%nat, [[0; 2; 4]]. split; [reflexivity|]. exists 1%nat, (0, None). repeat split; cbn; lia.
  - lia.
  - lia.
  - reflexivity.
  - reflexivity.
  - intros [|[|[|i]]] out Hi; try (injection Hi as <-; exists 12, 1%nat, (6, None); repeat split; cbn; lia).
    now destruct i.
  - exists 2%nat, [[8; 11]]. split; [reflexivity|]. exists 1%nat, (6, None). repeat split; cbn; lia.
Qed.

(** A global batch size that the hosts cannot share equally is refused. *)
Theorem C36_not_divisible {A} pushdown (ds : MapDs A) b i k num_threads buffer_size g fuel s s0 :
  1 <= k -> b mod k <> 0 ->
  let it := elastic_map_it pushdown b i k num_threads buffer_size ds in
  set_state it fuel s g = Ok s0 -> exists s', next it fuel s0 = (Fail ValueError, s').
Proof.
  intros Hk Hb it Hs. injection Hs as <-. unfold it, elastic_map_it. cbn [next]. unfold elastic_inner, slice_ds.
  unfold slice_indices. destruct (Z.eqb_spec k 0); [lia|]. destruct (Z.ltb_spec k 0); [lia|]. cbn [bind].
  unfold pydivmod. destruct (Z.eqb_spec k 0); [lia|]. cbn [bind fst snd].
  destruct (Z.eqb_spec (b mod k) 0); [contradiction|]. cbn [negb]. eexists. reflexivity.
Qed.
Example C36_not_divisible_holds : 1 <= 4 /\ 6 mod 4 <> 0.
Proof. split; [lia|discriminate]. Qed.

(** At the end of the dataset the hosts do not agree: with 3 elements, 2 hosts and a global
    batch size of 2, host 0 gets a second batch although the global batch is not complete,
    host 1 does not. *)
Theorem C36_tail_refuted : exists (ds : MapDs Z) E b k n0 n1,
  holds ds E /\ 1 <= k /\ 1 <= b /\ b mod k = 0 /\
  (exists l0, length l0 = n0 /\ drain (elastic_map_it true b 0 k 16 500 ds) 5 5 (init (elastic_map_it true b 0 k 16 500 ds)) = (l0, Stop)) /\
  (exists l1, length l1 = n1 /\ drain (elastic_map_it true b 1 k 16 500 ds) 5 5 (init (elastic_map_it true b 1 k 16 500 ds)) = (l1, Stop)) /\
  n0 <> n1.
Proof.
  exists (source_ds 3 (fun j => Ok (Some j)) None), (zrange 0 3), 2, 2, 2%nat, 1%nat.
  split.
  { split; [reflexivity|]. split.
    - intros idx vs. cbn. apply sequence_Ok_iff.
    - intros j e Hj. rewrite nth_error_zrange in Hj. destruct (Nat.ltb_spec j 3) as [H|H]; [|discriminate]. injection Hj as <-.
      cbn. unfold pymod, pydivmod. cbn. rewrite Z.mod_small by lia. reflexivity. }
  split; [lia|]. split; [lia|]. split; [reflexivity|]. split; [|split].
  - eexists. split; [|reflexivity]. reflexivity.
  - eexists. split; [|reflexivity]. reflexivity.
  - discriminate.
Qed.

(** * Shards and checkpoint files *)
(** Shard [j] belongs to host [j mod k]. *)
Definition shards_of (i k : Z) (M : nat) : list Z := filter (fun j => j mod k =? i) (zrange 0 M).

Lemma zrange_snoc p n : zrange p (S n) = zrange p n ++ [p + Z.of_nat n].
Proof. replace (S n) with (n + 1)%nat by lia. now rewrite zrange_app, zrange_S. Qed.
Lemma NoDup_app_disjoint {X} (l1 l2 : list X) : NoDup l1 -> NoDup l2 -> (forall x, In x l1 -> In x l2 -> False) -> NoDup (l1 ++ l2).
Proof.
  induction 1 as [|x l Hx Hl IH]; intros H2 Hd; [exact H2|]. cbn. constructor.
  - rewrite in_app_iff. intros [H|H]; [contradiction|]. apply (Hd x); [now left|exact H].
  - apply IH; [exact H2|]. intros y Hy. apply Hd. now right.
Qed.
Definition nshards (i k M : Z) : Z := (M - i + k - 1) / k.
Lemma shards_of_eq i k M : 0 <= i < k ->
  shards_of i k M = map (fun l => l * k + i) (zrange 0 (Z.to_nat (nshards i k (Z.of_nat M)))).
Proof.
  intros Hi. unfold shards_of. induction M as [|M IH].
  - unfold nshards. replace (Z.to_nat ((Z.of_nat 0 - i + k - 1) / k)) with 0%nat; [easy|].
    rewrite Z.div_small; lia.
  - rewrite zrange_snoc, filter_app, IH. cbn [filter]. rewrite Z.add_0_l.
    set (m := Z.of_nat M). assert (Hm : 0 <= m) by lia. replace (Z.of_nat (S M)) with (m + 1) by lia.
    pose proof (Z.div_mod m k ltac:(lia)) as Hdm. pose proof (Z.mod_pos_bound m k ltac:(lia)) as Hb.
    assert (Hq : 0 <= m / k) by (apply Z.div_pos; lia).
    unfold nshards. destruct (Z.eqb_spec (m mod k) i) as [He|He].
    + rewrite He in Hdm. set (q := m / k) in *.
      assert (H1 : (m - i + k - 1) / k = q) by (symmetry; apply (Z.div_unique _ _ _ (k - 1)); lia).
      assert (H2 : (m + 1 - i + k - 1) / k = q + 1) by (symmetry; apply (Z.div_unique _ _ _ 0); lia).
      rewrite H1, H2. replace (Z.to_nat (q + 1)) with (S (Z.to_nat q)) by lia. rewrite zrange_snoc, map_app. f_equal.
      cbn [map]. f_equal. lia.
    + rewrite app_nil_r. f_equal. f_equal. f_equal. set (q := m / k) in *.
      destruct (Z.le_gt_cases (m mod k) i) as [Hlt|Hgt].
      * assert (H1 : (m - i + k - 1) / k = q) by (symmetry; apply (Z.div_unique _ _ _ (m mod k - i + k - 1)); lia).
        assert (H2 : (m + 1 - i + k - 1) / k = q) by (symmetry; apply (Z.div_unique _ _ _ (m mod k - i + k)); lia).
        lia.
      * assert (H1 : (m - i + k - 1) / k = q + 1) by (symmetry; apply (Z.div_unique _ _ _ (m mod k - i - 1)); lia).
        assert (H2 : (m + 1 - i + k - 1) / k = q + 1) by (symmetry; apply (Z.div_unique _ _ _ (m mod k - i)); lia).
        lia.
Qed.

Lemma get_shard_states_eq {S} (st : Z -> S) i k M : 0 <= i < k ->
  get_shard_states i k (map st (shards_of i k M)) = map (fun j => (j, st j)) (shards_of i k M).
Proof.
  intros Hi. unfold get_shard_states. rewrite map_length, (shards_of_eq i k M Hi), !map_map, map_length, zrange_length.
  generalize (zrange 0 (Z.to_nat (nshards i k (Z.of_nat M)))). intros l. induction l; cbn; congruence.
Qed.

Lemma in_shards_of i k M j : In j (shards_of i k M) <-> 0 <= j < Z.of_nat M /\ j mod k = i.
Proof. unfold shards_of. rewrite filter_In, in_zrange, Z.eqb_eq. lia. Qed.

Lemma shards_of_cover k M : 1 <= k ->
  Permutation (concat (map (fun i => shards_of i k M) (zrange 0 (Z.to_nat k)))) (zrange 0 M).
Proof.
  intros Hk. apply NoDup_Permutation.
  - rewrite <- flat_map_concat_map. assert (Hnd : NoDup (zrange 0 (Z.to_nat k))) by apply NoDup_zrange.
    induction (zrange 0 (Z.to_nat k)) as [|i l IH]; cbn; [constructor|]. inversion Hnd; subst.
    apply NoDup_app_disjoint; [apply NoDup_filter, NoDup_zrange|now apply IH|].
    intros j Hj Hj'. apply in_flat_map in Hj'. destruct Hj' as (i' & Hi' & Hj').
    apply in_shards_of in Hj, Hj'. destruct Hj as [_ <-], Hj' as [_ <-]. contradiction.
  - apply NoDup_zrange.
  - intros j. rewrite <- flat_map_concat_map, in_flat_map, in_zrange. split.
    + intros (i & _ & Hj). apply in_shards_of in Hj. lia.
    + intros Hj. exists (j mod k). pose proof (Z.mod_pos_bound j k ltac:(lia)). rewrite in_zrange, in_shards_of. lia.
Qed.

Definition increasing (l : list Z) : Prop := StronglySorted Z.lt l.
Lemma sort_by_key_id {S} (l : list (Z * S)) : increasing (map fst l) -> sort_by_key l = l.
Proof.
  unfold increasing, sort_by_key. induction l as [|x l IH]; cbn [map fold_right]; intros H; [easy|].
  inversion H as [|? ? Hs Hf]; subst. rewrite IH by easy. destruct l as [|y l]; [easy|].
  cbn [insert_by_key]. inversion Hf; subst. destruct (Z.leb_spec (fst x) (fst y)); [easy|lia].
Qed.
Lemma increasing_zrange p n : increasing (zrange p n).
Proof.
  revert p. induction n as [|n IH]; intros p; [constructor|]. rewrite zrange_S. constructor; [apply IH|].
  apply Forall_forall. intros x Hx. apply in_zrange in Hx. lia.
Qed.
Lemma increasing_filter f l : increasing l -> increasing (filter f l).
Proof.
  unfold increasing. induction 1 as [|x l Hs IH Hf]; cbn; [constructor|]. destruct (f x); [|easy].
  constructor; [easy|]. rewrite Forall_forall in *. intros y Hy. apply filter_In in Hy. now apply Hf.
Qed.

Lemma file_eqb_spec f g : reflect (f = g) (file_eqb f g).
Proof.
  destruct f as [i n|j], g as [i' n'|j']; cbn; try (constructor; congruence).
  - destruct (Z.eqb_spec i i'), (Z.eqb_spec n n'); constructor; congruence.
  - destruct (Z.eqb_spec j j'); constructor; congruence.
Qed.
Lemma read_file_in {C} (d : directory C) f c : NoDup (map fst d) -> In (f, c) d -> read_file d f = Some c.
Proof.
  unfold read_file. induction d as [|[g c'] d IH]; cbn; [easy|]. intros Hnd [He|Hin].
  - injection He as -> ->. destruct (file_eqb_spec f f); [easy|contradiction].
  - inversion Hnd; subst. destruct (file_eqb_spec g f) as [->|Hne].
    + exfalso. apply H1. apply in_map_iff. now exists (f, c).
    + now apply IH.
Qed.
Lemma read_file_Some {C} (d : directory C) f c : read_file d f = Some c -> In (f, c) d.
Proof.
  unfold read_file. destruct (find _ d) as [[g c']|] eqn:E; [|discriminate]. intros [= <-].
  apply find_some in E. cbn in E. destruct E as [Hin He]. destruct (file_eqb_spec g f); [now subst|discriminate].
Qed.

(** [M] shards are read by [k] hosts.  [st j] is the state of shard [j]: host [i] holds the
    states of its own shards, in order. *)
Definition host_states {C} (st : Z -> C) (i k : Z) (M : nat) : list C := map st (shards_of i k M).

(** Collecting the shard states of all hosts gives every shard's state exactly once, under
    the shard's number. *)
Theorem C37_collected_once {C} (st : Z -> C) k M : 1 <= k ->
  Permutation (concat (map (fun i => get_shard_states i k (host_states st i k M)) (zrange 0 (Z.to_nat k))))
              (map (fun j => (j, st j)) (zrange 0 M)).
Proof.
  intros Hk. rewrite <- (shards_of_cover k M Hk), concat_map, map_map. erewrite map_ext_in; [reflexivity|].
  intros i Hi. apply in_zrange in Hi. unfold host_states. apply get_shard_states_eq. lia.
Qed.
Example C37_collected_once_holds :
  concat (map (fun i => get_shard_states i 2 (host_states (fun j => j * 10) i 2 5)) (zrange 0 2)) =
  [(0, 0); (2, 20); (4, 40); (1, 10); (3, 30)].
Proof. reflexivity. Qed.

(** After each host [i] of [n] has saved, in any order of the single file writes, into an empty
    directory. *)
Definition saved_by {C} (n : Z) (shards : Z -> option (list (Z * C))) (state : Z -> C) (d : directory C) : Prop :=
  Permutation d (concat (map (fun i => save_writes i n (shards i) (state i)) (zrange 0 (Z.to_nat n)))).
(** The shard states an elastic iterator over [M] shards saves. *)
Definition elastic_shards {C} (st : Z -> C) (n : Z) (M : nat) (i : Z) : option (list (Z * C)) :=
  Some (get_shard_states i n (host_states st i n M)).

Section Files.
Context {C : Type}.
Implicit Types d : directory C.

Lemma elastic_writes (st state : Z -> C) n M : 1 <= n ->
  Permutation (concat (map (fun i => save_writes i n (elastic_shards st n M i) (state i)) (zrange 0 (Z.to_nat n))))
   (map (fun j => (ShardFile j, st j)) (zrange 0 M) ++ map (fun i => (ProcessFile i n, state i)) (zrange 0 (Z.to_nat n))).
Proof.
  intros Hn. unfold save_writes, elastic_shards. rewrite <- flat_map_concat_map, flat_map_app_perm, flat_map_single.
  apply Permutation_app_tail. rewrite flat_map_concat_map.
  pose proof (C37_collected_once st n M Hn) as H. apply (Permutation_map (fun jc => (ShardFile (fst jc), snd jc))) in H.
  rewrite concat_map, !map_map in H. exact H.
Qed.
Lemma plain_writes (state : Z -> C) n :
  concat (map (fun i => save_writes i n None (state i)) (zrange 0 (Z.to_nat n))) =
  map (fun i => (ProcessFile i n, state i)) (zrange 0 (Z.to_nat n)).
Proof. rewrite <- flat_map_concat_map. cbn. apply flat_map_single. Qed.

(** All files of a save are different. *)
Lemma writes_nodup (st state : Z -> C) n M :
  NoDup (map fst (map (fun j => (ShardFile j, st j)) (zrange 0 M) ++ map (fun i => (ProcessFile i n, state i)) (zrange 0 (Z.to_nat n)))).
Proof.
  rewrite map_app, !map_map. cbn [fst]. apply NoDup_app_disjoint.
  - apply NoDup_map_inj; [intros; congruence|apply NoDup_zrange].
  - apply NoDup_map_inj; [intros; congruence|apply NoDup_zrange].
  - intros f H1 H2. apply in_map_iff in H1, H2. destruct H1 as (j & <- & _), H2 as (i & H2 & _). discriminate.
Qed.

Lemma saved_shape n (shards : Z -> option (list (Z * C))) state d : 1 <= n -> saved_by n shards state d ->
  (forall i, shards i = None) \/ (exists st M, forall i, shards i = elastic_shards st n M i) ->
  exists st M, Permutation d (map (fun j => (ShardFile j, st j)) (zrange 0 M) ++ map (fun i => (ProcessFile i n, state i)) (zrange 0 (Z.to_nat n))).
Proof.
  unfold saved_by. intros Hn Hd [H|(st & M & H)].
  - exists state, 0%nat. rewrite Hd. rewrite (map_ext _ (fun i => save_writes i n None (state i))); [|intros i; now rewrite H].
    now rewrite plain_writes.
  - exists st, M. rewrite Hd. rewrite (map_ext _ (fun i => save_writes i n (elastic_shards st n M i) (state i))); [|intros i; now rewrite H].
    now apply elastic_writes.
Qed.

Lemma saved_read n state st M d : Permutation d (map (fun j => (ShardFile j, st j)) (zrange 0 M) ++ map (fun i => (ProcessFile i n, state i)) (zrange 0 (Z.to_nat n))) ->
  (forall j, read_file d (ShardFile j) = if (0 <=? j) && (j <? Z.of_nat M) then Some (st j) else None) /\
  (forall i n', read_file d (ProcessFile i n') = if (n' =? n) && ((0 <=? i) && (i <? n)) then Some (state i) else None).
Proof.
  intros Hd. assert (Hnd : NoDup (map fst d)).
  { rewrite Hd. apply writes_nodup. }
  assert (Hin : forall w, In w d <-> (exists j, (ShardFile j, st j) = w /\ 0 <= j < Z.of_nat M) \/ (exists i, (ProcessFile i n, state i) = w /\ 0 <= i < n)).
  { intros w. assert (Hx : In w d <-> In w (map (fun j => (ShardFile j, st j)) (zrange 0 M) ++ map (fun i => (ProcessFile i n, state i)) (zrange 0 (Z.to_nat n)))).
    { split; apply Permutation_in; [exact Hd|now apply Permutation_sym]. }
    rewrite Hx, in_app_iff, !in_map_iff. split; intros [(j & H1 & H2)|(j & H1 & H2)]; [left|right|left|right]; exists j; rewrite in_zrange in *; (split; [exact H1|lia]). }
  split.
  - intros j. destruct (Z.leb_spec 0 j), (Z.ltb_spec j (Z.of_nat M)); cbn [andb].
    1:{ apply read_file_in; [exact Hnd|]. apply Hin. left. eexists; split; [reflexivity|lia]. }
    all: destruct (read_file d (ShardFile j)) eqn:E; [|easy]; apply read_file_Some, Hin in E;
      destruct E as [(j' & E & ?)|(i' & E & ?)]; [injection E as E1 E2; lia|discriminate].
  - intros i n'. destruct (Z.eqb_spec n' n), (Z.leb_spec 0 i), (Z.ltb_spec i n); cbn [andb].
    1:{ subst. apply read_file_in; [exact Hnd|]. apply Hin. right. eexists; split; [reflexivity|lia]. }
    all: destruct (read_file d (ProcessFile i n')) eqn:E; [|easy]; apply read_file_Some, Hin in E;
      destruct E as [(j' & E & ?)|(i' & E & ?)]; [discriminate|injection E as E1 E2 E3; lia].
Qed.

Lemma process_count_perm d d' : Permutation d d' -> checkpoint_process_count d = checkpoint_process_count d'.
Proof.
  unfold checkpoint_process_count. induction 1 as [|[f c] l l' H IH|[f c] [f' c'] l|]; cbn; try congruence.
  - now rewrite IH.
  - destruct f, f'; try easy. lia.
Qed.
Lemma saved_count n state st M d : 1 <= n -> Permutation d (map (fun j => (ShardFile j, st j)) (zrange 0 M) ++ map (fun i => (ProcessFile i n, state i)) (zrange 0 (Z.to_nat n))) ->
  checkpoint_process_count d = n.
Proof.
  intros Hn Hd. rewrite (process_count_perm _ _ Hd). unfold checkpoint_process_count. rewrite fold_right_app.
  assert (H1 : forall l a, fold_right (fun w acc => match fst w with ProcessFile _ n => Z.max n acc | ShardFile _ => acc end) a (map (fun j => (ShardFile j, st j)) l) = a).
  { induction l as [|x l IH]; cbn; [easy|]. exact IH. }
  rewrite H1. replace (Z.to_nat n) with (S (Z.to_nat n - 1)) by lia. rewrite zrange_S. cbn [map fold_right fst].
  assert (H2 : forall l, 0 <= fold_right (fun w acc => match fst w with ProcessFile _ n => Z.max n acc | ShardFile _ => acc end) 0 (map (fun i => (ProcessFile i n, state i)) l) <= n).
  { induction l as [|x l IH]; cbn; lia. }
  specialize (H2 (zrange (0 + 1) (Z.to_nat n - 1))). lia.
Qed.

Lemma collect_ok d k st M : 1 <= k ->
  (forall j, read_file d (ShardFile j) = if (0 <=? j) && (j <? Z.of_nat M) then Some (st j) else None) ->
  forall m l i fuel, 0 <= i < k -> Z.to_nat (nshards i k (Z.of_nat M)) = (l + m)%nat -> (m < fuel)%nat ->
  collect_shards d k fuel (Z.of_nat l * k + i) = Ok (map (fun j => (j, st j)) (map (fun x => x * k + i) (zrange (Z.of_nat l) m))).
Proof.
  intros Hk Hr. induction m as [|m IH]; intros l i fuel Hi Hc Hf; (destruct fuel as [|fuel]; [lia|]); cbn [collect_shards]; rewrite Hr.
  - assert (Hge : Z.of_nat M <= Z.of_nat l * k + i).
    { unfold nshards in Hc. pose proof (Z.mul_succ_div_gt (Z.of_nat M - i + k - 1) k ltac:(lia)) as Hx.
      set (q := (Z.of_nat M - i + k - 1) / k) in *. assert (q <= Z.of_nat l) by lia. clearbody q. nia. }
    destruct (Z.ltb_spec (Z.of_nat l * k + i) (Z.of_nat M)); [lia|]. rewrite Bool.andb_false_r. reflexivity.
  - assert (Hlt : Z.of_nat l * k + i < Z.of_nat M).
    { unfold nshards in Hc. pose proof (Z.mul_div_le (Z.of_nat M - i + k - 1) k ltac:(lia)) as Hx.
      set (q := (Z.of_nat M - i + k - 1) / k) in *. assert (Z.of_nat l + 1 <= q) by lia. clearbody q. nia. }
    destruct (Z.ltb_spec (Z.of_nat l * k + i) (Z.of_nat M)); [|lia]. destruct (Z.leb_spec 0 (Z.of_nat l * k + i)); [|nia]. cbn [andb].
    replace (Z.of_nat l * k + i + k) with (Z.of_nat (S l) * k + i) by lia. rewrite (IH (S l) i fuel Hi ltac:(lia) ltac:(lia)). cbn [bind].
    rewrite zrange_S. cbn [map]. do 3 f_equal. f_equal. f_equal. lia.
Qed.
End Files.

(** Restoring with the same number of processes: every process gets back the state it saved,
    whether its iterator is elastic or not. *)
Theorem C52_same_process_count {C} n (shards : Z -> option (list (Z * C))) state d i elastic fuel :
  1 <= n -> saved_by n shards state d ->
  (forall i, shards i = None) \/ (exists st M, forall i, shards i = elastic_shards st n M i) ->
  0 <= i < n ->
  restore fuel d i n elastic = Ok (SetState (state i)).
Proof.
  intros Hn Hd Hs Hi. destruct (saved_shape n shards state d Hn Hd Hs) as (st & M & Hp).
  destruct (saved_read n state st M d Hp) as (_ & Hr). pose proof (saved_count n state st M d Hn Hp) as Hc.
  unfold restore. rewrite Hr, Hc, Z.eqb_refl. destruct (Z.leb_spec 0 i), (Z.ltb_spec i n); try lia. cbn [andb negb].
  destruct elastic as [[si sk]|]; reflexivity.
Qed.
Example C52_same_process_count_holds : exists d : directory Z,
  saved_by 2 (elastic_shards (fun j => 100 + j) 2 3) (fun i => i) d /\ d <> [] /\
  restore 5 d 1 2 (Some (1, 2)) = Ok (SetState 1).
Proof.
  exists (rev [(ShardFile 0, 100); (ShardFile 2, 102); (ProcessFile 0 2, 0); (ShardFile 1, 101); (ProcessFile 1 2, 1)]).
  split; [|split; [discriminate|reflexivity]]. apply Permutation_sym, Permutation_rev.
Qed.
Example C52_elastic_resize_holds : exists d : directory Z,
  saved_by 2 (elastic_shards (fun j => 100 + j) 2 5) (fun i => i) d /\ restore 9 d 1 3 (Some (1, 3)) = Ok (SetShardStates [101; 104]).
Proof.
  eexists (rev _). split; [apply Permutation_sym, Permutation_rev|reflexivity].
Qed.

(** Restoring a non-elastic iterator with another number of processes fails. *)
Theorem C52_other_process_count {C} n (shards : Z -> option (list (Z * C))) state d i n' fuel :
  1 <= n -> saved_by n shards state d ->
  (forall i, shards i = None) \/ (exists st M, forall i, shards i = elastic_shards st n M i) ->
  n' <> n ->
  restore fuel d i n' None = Raise ValueError.
Proof.
  intros Hn Hd Hs Hi. destruct (saved_shape n shards state d Hn Hd Hs) as (st & M & Hp).
  destruct (saved_read n state st M d Hp) as (_ & Hr).
  unfold restore. rewrite Hr. destruct (Z.eqb_spec n' n); [contradiction|]. reflexivity.
Qed.

(** An elastic iterator restored by host [i'] of [n'], another number of hosts, gets exactly
    the states of its own shards, in order. *)
Theorem C52_elastic_resize {C} n M (st state : Z -> C) d i' n' fuel :
  1 <= n -> saved_by n (elastic_shards st n M) state d -> 0 <= i' < n' -> n' <> n -> (M < fuel)%nat ->
  restore fuel d i' n' (Some (i', n')) = Ok (SetShardStates (host_states st i' n' M)).
Proof.
  intros Hn Hd Hi Hne Hf. assert (Hp := Hd). unfold saved_by in Hp. rewrite (elastic_writes st state n M Hn) in Hp.
  destruct (saved_read n state st M d Hp) as (Hr & _). pose proof (saved_count n state st M d Hn Hp) as Hc.
  unfold restore. rewrite Hc. destruct (Z.eqb_spec n' n); [contradiction|]. cbn [negb].
  pose proof (collect_ok d n' st M ltac:(lia) Hr (Z.to_nat (nshards i' n' (Z.of_nat M))) 0 i' fuel Hi ltac:(lia)) as H.
  cbn [Z.of_nat] in H. rewrite Z.mul_0_l, Z.add_0_l in H. rewrite H.
  2:{ assert (Hl : length (shards_of i' n' M) = Z.to_nat (nshards i' n' (Z.of_nat M))) by (rewrite (shards_of_eq i' n' M Hi), map_length; apply zrange_length).
      assert (Hl2 : (length (shards_of i' n' M) <= M)%nat).
      { unfold shards_of. rewrite <- (zrange_length 0 M) at 2. generalize (zrange 0 M). intros l. induction l as [|x l IH]; cbn; [lia|]. destruct (_ =? _); cbn; lia. }
      lia. }
  cbn [bind]. rewrite <- (shards_of_eq i' n' M Hi). f_equal. f_equal. unfold set_shard_states, host_states.
  rewrite sort_by_key_id.
  - rewrite map_map. reflexivity.
  - rewrite map_map. cbn. rewrite map_id. apply increasing_filter, increasing_zrange.
Qed.

(** So every shard continues on exactly one host, from its own state. *)
Theorem C37_redistributed {C} n M (st state : Z -> C) d n' fuel :
  1 <= n -> saved_by n (elastic_shards st n M) state d -> 1 <= n' -> n' <> n -> (M < fuel)%nat ->
  exists given, length given = Z.to_nat n' /\
    (forall i' l, nth_error given i' = Some l -> restore fuel d (Z.of_nat i') n' (Some (Z.of_nat i', n')) = Ok (SetShardStates l)) /\
    Permutation (concat given) (map st (zrange 0 M)).
Proof.
  intros Hn Hd Hn' Hne Hf. exists (map (fun i' => host_states st i' n' M) (zrange 0 (Z.to_nat n'))).
  split; [now rewrite map_length, zrange_length|]. split.
  - intros i' l Hi. rewrite nth_error_map, nth_error_zrange in Hi. destruct (Nat.ltb_spec i' (Z.to_nat n')); [|discriminate].
    cbn in Hi. injection Hi as <-. apply (C52_elastic_resize n M st state d); auto. lia.
  - unfold host_states. rewrite <- (shards_of_cover n' M Hn'), concat_map, map_map. reflexivity.
Qed.

(** A crash while saving leaves some of the files (any subset of the writes): a process that
    restores either gets its own saved state or an error. *)
Theorem C52_crash {C} n (state st : Z -> C) M d i n' fuel :
  1 <= n -> (forall w, In w d -> In w (map (fun j => (ShardFile j, st j)) (zrange 0 M) ++ map (fun i => (ProcessFile i n, state i)) (zrange 0 (Z.to_nat n)))) ->
  restore fuel d i n' None = Raise ValueError \/ (n' = n /\ restore fuel d i n' None = Ok (SetState (state i))).
Proof.
  intros Hn Hd. unfold restore. destruct (read_file d (ProcessFile i n')) as [c|] eqn:E; [|now left].
  right. apply read_file_Some, Hd in E. apply in_app_iff in E. rewrite !in_map_iff in E.
  destruct E as [(j & E & _)|(i' & E & _)]; [discriminate|]. injection E as -> <- <-. split; reflexivity.
Qed.

(** But an incomplete elastic checkpoint is not noticed: here process 1 of 2 crashed before
    writing anything, and a restore on one host succeeds with the first shard only. *)
Theorem C52_incomplete_refuted : exists (d : directory Z) (st state : Z -> Z),
  d = rev (save_writes 0 2 (elastic_shards st 2 4 0) (state 0)) /\
  restore 9 d 0 1 (Some (0, 1)) = Ok (SetShardStates [st 0]) /\
  host_states st 0 1 4 = [st 0; st 1; st 2; st 3].
Proof. exists (rev (save_writes 0 2 (elastic_shards (fun j => 100 + j) 2 4 0) 7)), (fun j => 100 + j), (fun _ => 7). repeat split. Qed.

(** And a directory that still holds files of an older save with more processes is read as if
    it were that older save: 2 processes saved, then 1 process saved; a restore with 2 processes
    returns the old state. *)
Theorem C52_stale_refuted : exists (d0 d : directory Z) (old new : Z -> Z),
  saved_by 2 (fun _ => None) old d0 /\ d = rev (save_writes 0 1 None (new 0)) ++ d0 /\
  restore 9 d 0 2 None = Ok (SetState (old 0)) /\ old 0 <> new 0.
Proof.
  exists [(ProcessFile 0 2, 5); (ProcessFile 1 2, 5)], [(ProcessFile 0 1, 6); (ProcessFile 0 2, 5); (ProcessFile 1 2, 5)], (fun _ => 5), (fun _ => 6).
  split; [apply Permutation_refl|]. repeat split. discriminate.
Qed.
