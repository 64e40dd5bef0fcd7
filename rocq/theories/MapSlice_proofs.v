From Verif Require Import Base Sharding MapDatasets Spec ListFacts.
From Coq Require Import Sorting.Sorted.

(** ** Strictly sorted lists with the same elements are equal *)
Lemma strongly_sorted_ext {A} (R : A -> A -> Prop) (l l' : list A) :
  (forall x y, R x y -> R y x -> False) ->
  StronglySorted R l -> StronglySorted R l' -> (forall x, In x l <-> In x l') -> l = l'.
Proof.
  intros Hasym Hs. revert l'. induction Hs as [|a l Hs IH Ha]; intros l' Hs' Hin.
  - destruct l' as [|b l']; [easy|]. exfalso. apply (Hin b). now left.
  - destruct Hs' as [|b l' Hs' Hb]; [exfalso; apply (Hin a); now left|].
    rewrite Forall_forall in Ha, Hb.
    assert (a = b) as <-.
    { destruct (proj1 (Hin a) (or_introl eq_refl)) as [->|Hab]; [easy|].
      destruct (proj2 (Hin b) (or_introl eq_refl)) as [->|Hba]; [easy|].
      exfalso. eauto. }
    f_equal. apply IH; [easy|]. intros x. split; intros Hx.
    + destruct (proj1 (Hin x) (or_intror Hx)) as [<-|]; [|easy].
      exfalso. eapply Hasym; apply (Ha a Hx).
    + destruct (proj2 (Hin x) (or_intror Hx)) as [<-|]; [|easy].
      exfalso. eapply Hasym; apply (Hb a Hx).
Qed.

Lemma sorted_filter {A} (R : A -> A -> Prop) f (l : list A) :
  StronglySorted R l -> StronglySorted R (filter f l).
Proof.
  induction 1 as [|a l Hs IH Ha]; cbn; [constructor|].
  destruct (f a); [|easy]. constructor; [easy|]. rewrite Forall_forall in *.
  intros x Hx. apply filter_In in Hx as [Hx _]. auto.
Qed.

Lemma sorted_map {A B} (R : A -> A -> Prop) (R' : B -> B -> Prop) (f : A -> B) l :
  (forall x y, R x y -> R' (f x) (f y)) -> StronglySorted R l -> StronglySorted R' (map f l).
Proof.
  intros Hf. induction 1 as [|a l Hs IH Ha]; cbn; constructor; [easy|].
  rewrite Forall_forall in *. intros y Hy. apply in_map_iff in Hy as (x & <- & Hx). auto.
Qed.

Lemma sorted_zrange a n : StronglySorted Z.lt (zrange a n).
Proof.
  revert a. induction n as [|n IH]; intros a; [constructor|].
  rewrite zrange_S. constructor; [apply IH|]. apply Forall_forall.
  intros x Hx. apply in_zrange in Hx. lia.
Qed.

Lemma sorted_app {A} (R : A -> A -> Prop) (l l' : list A) :
  StronglySorted R l -> StronglySorted R l' -> (forall x y, In x l -> In y l' -> R x y) ->
  StronglySorted R (l ++ l').
Proof.
  intros Hs Hs' H. induction Hs as [|a l Hs IH Ha]; [easy|]. cbn. constructor.
  - apply IH. intros; apply H; [now right|easy].
  - apply Forall_app. split; [easy|]. apply Forall_forall. intros; apply H; [now left|easy].
Qed.

Lemma sorted_rev {A} (R : A -> A -> Prop) (l : list A) :
  StronglySorted R l -> StronglySorted (fun x y => R y x) (rev l).
Proof.
  induction 1 as [|a l Hs IH Ha]; [constructor|]. cbn. apply sorted_app; [easy| |].
  - repeat constructor.
  - intros x y Hx [<-|[]]. rewrite Forall_forall in Ha. apply Ha. now apply in_rev.
Qed.

(** The elements of Python's range(start, stop, step). *)
Definition range_list (start stop step : Z) : list Z :=
  map (fun j => start + j * step) (zrange 0 (Z.to_nat (range_len start stop step))).

Lemma in_range_list_pos start stop step x : 0 < step ->
  In x (range_list start stop step) <-> start <= x < stop /\ (x - start) mod step = 0.
Proof.
  intros Hs. unfold range_list, range_len. destruct (Z.gtb_spec step 0); [|lia].
  rewrite in_map_iff. split.
  - intros (j & <- & Hj). apply in_zrange in Hj.
    assert (j * step <= stop - start - 1).
    { assert (j + 1 <= (stop - start + step - 1) / step) by lia.
      assert ((j + 1) * step <= stop - start + step - 1); [|lia].
      apply Z.le_trans with ((stop - start + step - 1) / step * step); [nia|].
      rewrite Z.mul_comm. apply Z.mul_div_le. lia. }
    split; [nia|]. replace (start + j * step - start) with (j * step) by lia. apply Z_mod_mult.
  - intros [Hx Hm]. exists ((x - start) / step).
    assert (x - start = step * ((x - start) / step)) as Hd by (rewrite (Z.div_mod (x - start) step) at 1; lia).
    assert (0 <= (x - start) / step) by (apply Z.div_pos; lia).
    split; [lia|]. apply in_zrange. split; [lia|].
    rewrite Z2Nat.id by lia. enough ((x - start) / step + 1 <= (stop - start + step - 1) / step) by lia.
    apply Z.div_le_lower_bound; lia.
Qed.

Lemma in_range_list_neg start stop step x : step < 0 ->
  In x (range_list start stop step) <-> stop < x <= start /\ (start - x) mod (- step) = 0.
Proof.
  intros Hs. unfold range_list, range_len. destruct (Z.gtb_spec step 0); [lia|].
  set (k := - step). rewrite in_map_iff. split.
  - intros (j & <- & Hj). apply in_zrange in Hj.
    assert (j * k <= start - stop - 1).
    { assert (j + 1 <= (start - stop - step - 1) / k) by lia.
      assert ((j + 1) * k <= start - stop - step - 1); [|lia].
      apply Z.le_trans with ((start - stop - step - 1) / k * k); [nia|].
      rewrite Z.mul_comm. apply Z.mul_div_le. lia. }
    split; [nia|]. replace (start - (start + j * step)) with (j * k) by lia. apply Z_mod_mult.
  - intros [Hx Hm]. exists ((start - x) / k).
    assert (start - x = k * ((start - x) / k)) as Hd by (rewrite (Z.div_mod (start - x) k) at 1; lia).
    assert (0 <= (start - x) / k) by (apply Z.div_pos; lia).
    split; [nia|]. apply in_zrange. split; [lia|].
    rewrite Z2Nat.id by lia. enough ((start - x) / k + 1 <= (start - stop - step - 1) / k) by lia.
    apply Z.div_le_lower_bound; lia.
Qed.

Lemma range_len_nonneg a b c : 0 <= range_len a b c.
Proof. unfold range_len. destruct (c >? 0); lia. Qed.

(** The slice's index list is Python's. *)
Lemma slice_indices_spec n start stop step a b c : 0 <= n ->
  slice_indices start stop step n = Ok (a, b, c) ->
  range_list a b c = py_slice n start stop step.
Proof.
  intros Hn H. unfold slice_indices in H. unfold py_slice.
  set (k := match step with None => 1 | Some s => s end) in *.
  destruct (Z.eqb_spec k 0) as [|Hk]; [easy|]. injection H as Ha Hb Hc. subst c.
  destruct (Z.gtb_spec k 0) as [Hpos|Hneg].
  - replace (k <? 0) with false in * by lia.
    apply strongly_sorted_ext with (R := Z.lt); [lia| | |].
    + unfold range_list. apply sorted_map with (R := Z.lt); [nia|]. apply sorted_zrange.
    + apply sorted_filter, sorted_zrange.
    + intros x. rewrite in_range_list_pos by lia. unfold py_slice_pos.
      rewrite filter_In, in_zrange.
      set (lo := match start with None => 0 | Some v => Z.max 0 (py_norm n v) end).
      set (hi := match stop with None => n | Some v => py_norm n v end).
      assert (a = Z.min lo n) as Ha'.
      { subst a lo. unfold py_norm. destruct start as [v|]; [|lia]. destruct (Z.ltb_spec v 0); lia. }
      assert (b = Z.min (Z.max 0 hi) n) as Hb'.
      { subst b hi. unfold py_norm. destruct stop as [v|]; [|lia]. destruct (Z.ltb_spec v 0); lia. }
      assert (0 <= lo) by (subst lo; destruct start; lia).
      clear Ha Hb. rewrite Z2Nat.id by lia.
      destruct (Z_le_gt_dec n lo) as [Hln|Hln].
      * replace a with n by lia. split; [lia|]. intros [? Ht]. lia.
      * replace a with lo in * by lia. split.
        -- intros [Hx Hm]. split; [lia|]. rewrite Hm. lia.
        -- intros [Hx Ht]. apply andb_prop in Ht as [Ht1 Ht2]. apply Z.eqb_eq in Ht2. lia.
  - replace (k <? 0) with true in * by lia.
    apply strongly_sorted_ext with (R := fun x y => y < x); [lia| | |].
    + unfold range_list. apply sorted_map with (R := Z.lt); [nia|]. apply sorted_zrange.
    + unfold py_slice_neg. apply sorted_rev. apply sorted_filter, sorted_zrange.
    + intros x. rewrite in_range_list_neg by lia. unfold py_slice_neg.
      rewrite <- in_rev, filter_In, in_zrange.
      set (lo := match start with None => n - 1 | Some v => Z.min (n - 1) (py_norm n v) end).
      set (hi := match stop with None => -1 | Some v => py_norm n v end).
      assert (a = Z.max lo (-1)) as Ha'.
      { subst a lo. unfold py_norm. destruct start as [v|]; [|lia]. destruct (Z.ltb_spec v 0); lia. }
      assert (b = Z.max (-1) (Z.min hi (n - 1))) as Hb'.
      { subst b hi. unfold py_norm. destruct stop as [v|]; [|lia]. destruct (Z.ltb_spec v 0); lia. }
      assert (lo <= n - 1) by (subst lo; destruct start; lia).
      clear Ha Hb. rewrite Z2Nat.id by lia.
      destruct (Z_le_gt_dec lo (-1)) as [Hln|Hln].
      * replace a with (-1) by lia. split; [lia|]. intros [? Ht]. lia.
      * replace a with lo in * by lia. split.
        -- intros [Hx Hm]. split; [lia|]. rewrite Hm. lia.
        -- intros [Hx Ht]. apply andb_prop in Ht as [Ht1 Ht2]. apply Z.eqb_eq in Ht2. lia.
Qed.

Lemma epoch_reindexed {A} (p q : MapDs A) e (g : Z -> Z) :
  0 <= mlen q ->
  (forall r, 0 <= r < mlen q -> mget q (e * mlen q + r) = mget p (g r)) ->
  epoch q e = map (fun r => mget p (g r)) (zrange 0 (Z.to_nat (mlen q))).
Proof.
  intros Hn H. unfold epoch, zrange. rewrite !map_map. apply map_ext_in.
  intros i Hi. apply in_seq in Hi. rewrite H by lia. do 2 f_equal. 
Qed.

Lemma divmod_epoch e n r : 0 <= r < n -> pydivmod (e * n + r) n = Ok (e, r).
Proof.
  intros Hr. unfold pydivmod. destruct (Z.eqb_spec n 0); [lia|].
  f_equal. f_equal.
  - rewrite Z.add_comm, Z.div_add by lia. rewrite Z.div_small; lia.
  - rewrite Z.add_comm, Z.mod_add by lia. apply Z.mod_small. lia.
Qed.

Lemma slice_epoch {A} start stop step (p q : MapDs A) e :
  0 <= mlen p -> slice_ds start stop step p = Ok q ->
  mlen q = Z.of_nat (length (py_slice (mlen p) start stop step)) /\
  epoch q e = map (fun i => mget p (e * mlen p + i)) (py_slice (mlen p) start stop step).
Proof.
  intros Hn H. unfold slice_ds in H. apply bind_Ok_iff in H as ([[a b] c] & Hi & H).
  cbv zeta in H. injection H as <-.
  pose proof (slice_indices_spec _ _ _ _ _ _ _ Hn Hi) as Hs. rewrite <- Hs.
  pose proof (range_len_nonneg a b c) as Hr.
  split.
  - cbn. unfold range_list. rewrite map_length, zrange_length. lia.
  - rewrite (epoch_reindexed p _ e (fun r => a + r * c + e * mlen p)); cbn [mlen mget].
    + unfold range_list. rewrite map_map. apply map_ext. intros r. f_equal. lia.
    + lia.
    + intros r Hrr. unfold sliced_index. rewrite divmod_epoch by easy. reflexivity.
Qed.

Lemma slice_valid {A} start stop step (p : MapDs A) :
  step <> Some 0 <-> exists q, slice_ds start stop step p = Ok q.
Proof.
  unfold slice_ds, slice_indices. split.
  - intros H. destruct (Z.eqb_spec (match step with None => 1 | Some s => s end) 0) as [E|E].
    + destruct step as [s|]; [|easy]. now subst.
    + cbn. eauto.
  - intros (q & H) ->. easy.
Qed.

(** Reindexing by a list. *)
Lemma reindex_epoch {A} indices (p : MapDs A) e :
  mlen (reindex_ds indices p) = Z.of_nat (length indices) /\
  epoch (reindex_ds indices p) e = map (fun i => mget p (e * mlen p + i)) indices.
Proof.
  split; [easy|]. unfold epoch, zrange. change (mlen (reindex_ds indices p)) with (Z.of_nat (length indices)). rewrite map_map.
  rewrite Nat2Z.id. apply nth_error_ext. intros j. rewrite !nth_error_map.
  destruct (Nat.lt_ge_cases j (length indices)) as [Hj|Hj].
  - rewrite (nth_error_nth' (seq 0 (length indices)) 0%nat) by now rewrite seq_length.
    rewrite seq_nth by easy. cbn [option_map Nat.add].
    destruct (nth_error indices j) as [v|] eqn:Hv; [|apply nth_error_None in Hv; lia].
    cbn [option_map]. f_equal. unfold reindex_ds; cbn [mget].
    rewrite divmod_epoch by lia. cbn [bind snd fst]. unfold pyindex.
    destruct (Z.ltb_spec (Z.of_nat j) 0); [lia|]. rewrite Nat2Z.id, Hv. cbn. f_equal. lia.
  - rewrite (proj2 (nth_error_None _ _)) by now rewrite seq_length.
    now rewrite (proj2 (nth_error_None _ _)).
Qed.

(** ** Strided sharding *)
Lemma py_slice_stride n i k : 0 <= n -> 0 <= i < k ->
  py_slice n (Some i) None (Some k) = filter (fun j => j mod k =? i) (zrange 0 (Z.to_nat n)).
Proof.
  intros Hn Hi. unfold py_slice. destruct (Z.gtb_spec k 0); [|lia].
  unfold py_slice_pos, py_norm. destruct (Z.ltb_spec i 0); [lia|].
  rewrite Z.max_r by lia. apply filter_ext_in. intros j Hj. apply in_zrange in Hj.
  replace (j <? n) with true by lia. rewrite andb_true_r.
  destruct (Z.leb_spec i j); cbn [andb].
  - rewrite (Z.div_mod j k) at 1 by lia. pose proof (Z.mod_pos_bound j k ltac:(lia)).
    replace (k * (j / k) + j mod k - i) with (j mod k - i + (j / k) * k) by lia.
    rewrite Z.mod_add by lia.
    destruct (Z.eqb_spec (j mod k) i) as [->|Hne].
    + rewrite Z.sub_diag, Z.mod_0_l by lia. easy.
    + apply Z.eqb_neq. destruct (Z_lt_le_dec (j mod k) i).
      * rewrite <- (Z.mod_add _ 1 k), Z.mod_small; lia.
      * rewrite Z.mod_small; lia.
  - symmetry. apply Z.eqb_neq. rewrite Z.mod_small; lia.
Qed.

Lemma partition_classes {A} (c : A -> Z) (classes : list Z) (l : list A) :
  NoDup classes -> (forall x, In x l -> In (c x) classes) ->
  Permutation (concat (map (fun i => filter (fun x => c x =? i) l) classes)) l.
Proof.
  intros Hnd. induction l as [|x l IH]; intros Hc.
  - cbn. induction classes as [|i is IHc]; [easy|]. cbn. apply IHc. now inversion Hnd. intros x [].
  - transitivity (x :: concat (map (fun i => filter (fun y => c y =? i) l) classes)).
    2:{ constructor. apply IH. intros; apply Hc; now right. }
    assert (In (c x) classes) as Hx by (apply Hc; now left). clear IH Hc.
    induction Hnd as [|i is Hi Hnd IHc]; [easy|]. cbn [map concat filter].
    destruct Hx as [<-|Hx].
    + rewrite Z.eqb_refl. cbn. constructor. apply Permutation_app_head.
      rewrite (map_ext_in _ (fun i => filter (fun y => c y =? i) l)); [easy|].
      intros j Hin. destruct (Z.eqb_spec i j) as [<-|]; [easy|easy].
    + destruct (Z.eqb_spec (c x) i) as [<-|Hne]; [easy|].
      etransitivity; [apply Permutation_app_head, IHc, Hx|].
      symmetry. apply Permutation_middle.
Qed.

Lemma shards_nth {A} k (ds : MapDs A) ss : shards k ds ss -> 
  length ss = Z.to_nat k /\
  forall i, 0 <= i < k -> exists s, nth_error ss (Z.to_nat i) = Some s /\ slice_ds (Some i) None (Some k) ds = Ok s.
Proof.
  intros H. split.
  - apply length_map_Ok in H. now rewrite zrange_length in H.
  - intros i Hi. assert (nth_error (map Ok ss) (Z.to_nat i) = Some (slice_ds (Some i) None (Some k) ds)) as E.
    { rewrite <- H, nth_error_map, nth_error_zrange.
      destruct (Nat.ltb_spec (Z.to_nat i) (Z.to_nat k)); [|lia]. cbn. do 2 f_equal. f_equal. lia. }
    rewrite nth_error_map in E. destruct (nth_error ss (Z.to_nat i)) as [s|]; [|easy].
    cbn in E. exists s. split; congruence.
Qed.

Lemma shards_exist {A} k (ds : MapDs A) : 1 <= k -> exists ss, shards k ds ss.
Proof.
  intros Hk. unfold shards. induction (zrange 0 (Z.to_nat k)) as [|i is IH].
  - now exists [].
  - destruct IH as (ss & Hss). cbn.
    destruct (proj1 (slice_valid (Some i) None (Some k) ds)) as (q & Hq); [intros [= ->]; lia|].
    exists (q :: ss). cbn. now rewrite Hq, Hss.
Qed.

Lemma shards_partition {A} k (ds : MapDs A) ss e : 1 <= k -> 0 <= mlen ds -> shards k ds ss ->
  Permutation (concat (map (fun s => epoch s e) ss)) (epoch ds e).
Proof.
  intros Hk Hn Hss.
  assert (map (fun s => epoch s e) ss =
    map (fun i => map (fun j => mget ds (e * mlen ds + j)) (filter (fun j => j mod k =? i) (zrange 0 (Z.to_nat (mlen ds)))))
      (zrange 0 (Z.to_nat k))) as ->.
  { unfold shards in Hss. revert ss Hss.
    assert (forall i, In i (zrange 0 (Z.to_nat k)) -> 0 <= i < k) as Hin by (intros i Hi; apply in_zrange in Hi; lia).
    induction (zrange 0 (Z.to_nat k)) as [|i is IH]; intros [|s ss]; cbn; try easy.
    intros [= Hs Hss]. f_equal.
    - apply slice_epoch with (e := e) in Hs as [_ ->]; [|easy].
      rewrite py_slice_stride; [easy|easy|]. apply Hin. now left.
    - apply IH; [|easy]. intros; apply Hin; now right. }
  rewrite <- (map_map (fun i => filter (fun j => j mod k =? i) (zrange 0 (Z.to_nat (mlen ds))))
    (map (fun j => mget ds (e * mlen ds + j)))), <- concat_map.
  assert (epoch ds e = map (fun j => mget ds (e * mlen ds + j)) (zrange 0 (Z.to_nat (mlen ds)))) as ->.
  { unfold epoch, zrange. rewrite !map_map. easy. }
  apply Permutation_map, partition_classes; [apply NoDup_zrange|].
  intros x Hx. apply in_zrange. pose proof (Z.mod_pos_bound x k). lia.
Qed.

Lemma stride_len n i k : 0 <= n -> 0 <= i < k ->
  range_len (Z.min i n) n k = (n - i + k - 1) / k.
Proof.
  intros Hn Hi. unfold range_len. destruct (Z.gtb_spec k 0); [|lia].
  destruct (Z_le_gt_dec i n).
  - rewrite Z.min_l by lia. apply Z.max_r. apply Z.div_pos; lia.
  - rewrite Z.min_r by lia. replace (n - n + k - 1) with (k - 1) by lia.
    rewrite Z.div_small by lia. symmetry. rewrite Z.max_l by lia. apply Z.div_small. lia.
Qed.

(** Round robin over the shards gives back the dataset. *)
Lemma shards_round_robin {A} k (ds : MapDs A) ss j : 1 <= k -> shards k ds ss ->
  0 <= j < mlen ds ->
  exists s, nth_error ss (Z.to_nat (j mod k)) = Some s /\ mget s (j / k) = mget ds j /\ j / k < mlen s.
Proof.
  intros Hk Hss Hj. pose proof (Z.mod_pos_bound j k ltac:(lia)) as Hm.
  destruct (proj2 (shards_nth _ _ _ Hss) (j mod k) Hm) as (s & Hs & Hsl).
  exists s. split; [easy|].
  unfold slice_ds, slice_indices in Hsl. cbn [bind] in Hsl.
  destruct (Z.eqb_spec k 0); [lia|]. cbn [bind] in Hsl. cbv zeta in Hsl.
  replace (k <? 0) with false in Hsl by lia. replace (j mod k <? 0) with false in Hsl by lia.
  injection Hsl as <-. cbn [mget mlen].
  rewrite stride_len by lia.
  assert (j / k < (mlen ds - j mod k + k - 1) / k) as Hlt.
  { enough (j / k + 1 <= (mlen ds - j mod k + k - 1) / k) by lia.
    apply Z.div_le_lower_bound; [lia|]. pose proof (Z.div_mod j k). lia. }
  split; [|easy]. unfold sliced_index, pydivmod.
  pose proof (Z.div_pos j k ltac:(lia) ltac:(lia)).
  destruct (Z.eqb_spec ((mlen ds - j mod k + k - 1) / k) 0); [lia|]. cbn [bind fst snd].
  rewrite (Z.div_small (j / k)), (Z.mod_small (j / k)) by lia. f_equal.
  pose proof (Z.div_mod j k). 
  assert (j mod k <= mlen ds). { pose proof (Z.mod_le j k). lia. }
  rewrite Z.min_l by easy. lia.
Qed.
