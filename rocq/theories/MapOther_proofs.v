(** Repeat, concatenate, batch, zip, flat_map, filter and range. *)
From Coq Require Import Sorted.
From Verif Require Import Base Sharding MapDatasets Spec ListFacts MapSlice_proofs MapShuffle_proofs Sharding_proofs.

Lemma pymod_ok i n : 0 < n -> pymod i n = Ok (i mod n).
Proof. intros H. unfold pymod, pydivmod. destruct (Z.eqb_spec n 0); [lia|easy]. Qed.

(** ** Repeat *)
Lemma repeat_inv {A} num_epochs reseed (p q : MapDs A) :
  0 <= mlen p -> repeat_ds num_epochs reseed p = Ok q ->
  (match num_epochs with Some n => 0 < n /\ mlen q = n * mlen p
                       | None => mlen q = if mlen p =? 0 then 0 else maxsize end) /\
  mlen p < maxsize /\
  (forall i, reseed = true -> mget q i = mget p i) /\
  (forall i, reseed = false -> 0 < mlen p -> mget q i = mget p (i mod mlen p)).
Proof.
  intros Hp H. unfold repeat_ds in H.
  destruct (match num_epochs with Some n => n <=? 0 | None => false end) eqn:Hn; [easy|].
  destruct (Z.geb_spec (mlen p) maxsize); [easy|].
  injection H as <-. cbn [mlen mget]. repeat split; try easy.
  - destruct num_epochs as [n|]; [|easy]. split; [lia|easy].
  - intros i ->. easy.
  - intros i -> Hpos. now rewrite pymod_ok.
Qed.

Lemma zrange_mul a n k : 0 <= n ->
  zrange a (k * Z.to_nat n) = concat (map (fun j => zrange (a + Z.of_nat j * n) (Z.to_nat n)) (seq 0 k)).
Proof.
  intros Hn. revert a. induction k as [|k IH]; intros a; [easy|].
  cbn [Nat.mul seq map concat]. rewrite zrange_app. f_equal; [f_equal; lia|].
  rewrite IH. rewrite <- seq_shift, map_map. f_equal. apply map_ext. intros j. f_equal. lia.
Qed.

Lemma repeat_epochs {A} n reseed (p q : MapDs A) e :
  0 <= mlen p -> repeat_ds (Some n) reseed p = Ok q ->
  epoch q e = concat (map (fun j => epoch p (if reseed then j else 0)) (zrange (e * n) (Z.to_nat n))).
Proof.
  intros Hp H. destruct (repeat_inv _ _ _ _ Hp H) as ([Hn HL] & Hmax & Ht & Hf).
  unfold epoch. rewrite HL.
  replace (Z.to_nat (n * mlen p)) with (Z.to_nat n * Z.to_nat (mlen p))%nat by nia.
  rewrite zrange_mul by easy. rewrite concat_map, !map_map. unfold zrange at 3. rewrite map_map. f_equal.
  apply map_ext_in. intros j Hj.
  destruct reseed.
  - replace (e * (n * mlen p) + Z.of_nat j * mlen p) with ((e * n + Z.of_nat j) * mlen p) by lia.
    apply map_ext. intros i. now apply Ht.
  - rewrite (zrange_shift (e * _ + _)), map_map. cbn [Z.mul]. apply map_ext_in.
    intros i Hi. apply in_zrange in Hi. rewrite Hf by lia || easy. f_equal.
    replace (e * (n * mlen p) + Z.of_nat j * mlen p + i) with (i + (e * n + Z.of_nat j) * mlen p) by lia.
    rewrite Z.mod_add by lia. apply Z.mod_small. lia.
Qed.

(** ** Concatenate *)
Lemma sumZ_nonneg l : (forall x, In x l -> 0 <= x) -> 0 <= sumZ l.
Proof.
  induction l as [|x l IH]; intros H; cbn; [lia|].
  pose proof (H x (or_introl eq_refl)). assert (0 <= sumZ l) by (apply IH; intros; apply H; now right).
  unfold sumZ in *. lia.
Qed.

Lemma bisect_cumulative acc pre s post r :
  (forall x, In x pre -> 0 <= x) ->
  acc + sumZ pre <= r < acc + sumZ pre + s ->
  bisect_right (cumulative acc (pre ++ s :: post)) r = Z.of_nat (length pre) + 1.
Proof.
  revert acc. induction pre as [|x pre IH]; intros acc Hpos Hr.
  - cbn in Hr. cbn. destruct (Z.leb_spec acc r); [|lia].
    destruct post; cbn; destruct (Z.leb_spec (acc + s) r); lia.
  - cbn in Hr. fold (sumZ pre) in Hr.
    assert (0 <= sumZ pre) by (apply sumZ_nonneg; intros; apply Hpos; now right).
    pose proof (Hpos x (or_introl eq_refl)).
    cbn [app cumulative bisect_right length]. destruct (Z.leb_spec acc r); [|lia].
    rewrite IH; [lia|intros; apply Hpos; now right|lia].
Qed.

Lemma nth_cumulative acc pre post : nth_error (cumulative acc (pre ++ post)) (length pre) = Some (acc + sumZ pre).
Proof.
  revert acc. induction pre as [|x pre IH]; intros acc.
  - destruct post; cbn; f_equal; lia.
  - cbn. rewrite IH. f_equal. fold (sumZ pre). lia.
Qed.

Lemma last_cumulative acc l : last (cumulative acc l) 0 = acc + sumZ l.
Proof.
  revert acc. induction l as [|x l IH]; intros acc; [cbn; lia|].
  cbn [cumulative]. change (last (acc :: cumulative (acc + x) l) 0) with
    (match cumulative (acc + x) l with [] => acc | _ :: _ => last (cumulative (acc + x) l) 0 end).
  assert (cumulative (acc + x) l <> []) by now destruct l.
  destruct (cumulative (acc + x) l) eqn:E; [easy|]. rewrite <- E, IH. cbn. fold (sumZ l). lia.
Qed.

Lemma pyindex_nth {A} (l : list A) i a : nth_error l i = Some a -> pyindex l (Z.of_nat i) = Ok a.
Proof.
  intros H. unfold pyindex. destruct (Z.ltb_spec (Z.of_nat i) 0); [lia|]. now rewrite Nat2Z.id, H.
Qed.

Lemma concatenate_inv {A} (ps : list (MapDs A)) q : concatenate_ds ps = Ok q ->
  mlen q = sumZ (map mlen ps) /\
  forall pre p post e r, ps = pre ++ p :: post -> (forall p, In p ps -> 0 <= mlen p) ->
    0 <= r < mlen p ->
    mget q (e * sumZ (map mlen ps) + sumZ (map mlen pre) + r) = mget p (e * mlen p + r).
Proof.
  intros H. unfold concatenate_ds in H. apply bind_Ok_iff in H as (sel & Hs & H). injection H as <-.
  unfold concat_selection_map in Hs. destruct (existsb _ _) eqn:Hmax; [easy|].
  injection Hs as <-. cbn [mlen mget sel_len sel_get mixed_ds].
  rewrite last_cumulative. split; [cbn; lia|].
  intros pre p post e r -> Hpos Hr. cbn [Z.add].
  assert (0 <= sumZ (map mlen pre)).
  { apply sumZ_nonneg. intros x Hx. apply in_map_iff in Hx as (p' & <- & Hp').
    apply Hpos. apply in_app_iff. now left. }
  assert (0 <= sumZ (map mlen post)).
  { apply sumZ_nonneg. intros x Hx. apply in_map_iff in Hx as (p' & <- & Hp').
    apply Hpos. apply in_app_iff. right. now right. }
  assert (sumZ (map mlen (pre ++ p :: post)) = sumZ (map mlen pre) + mlen p + sumZ (map mlen post)) as Hsum.
  { rewrite map_app. unfold sumZ. clear. induction (map mlen pre) as [|x l IH]; cbn in *; [lia|]. rewrite IH. lia. }
  rewrite <- Z.add_assoc, divmod_epoch by lia. cbn [bind].
  rewrite map_app. cbn [map]. rewrite bisect_cumulative.
  2: { intros x Hx. apply in_map_iff in Hx as (p' & <- & Hp'). apply Hpos. apply in_app_iff. now left. }
  2: lia.
  rewrite map_length.
  replace (Z.of_nat (length pre) + 1 - 1) with (Z.of_nat (length pre)) by lia.
  rewrite (pyindex_nth _ _ (mlen p)).
  2: { rewrite nth_error_app2 by now rewrite map_length. rewrite map_length, Nat.sub_diag. easy. }
  cbn [bind]. pose proof (nth_cumulative 0 (map mlen pre) (mlen p :: map mlen post)) as Hc.
  rewrite map_length in Hc. rewrite (pyindex_nth _ _ _ Hc). cbn [bind fst snd].
  rewrite (pyindex_nth _ _ p).
  2: { rewrite nth_error_app2 by easy. now rewrite Nat.sub_diag. }
  cbn [bind]. f_equal. lia.
Qed.

Lemma concatenate_epoch {A} (ps : list (MapDs A)) q e :
  (forall p, In p ps -> 0 <= mlen p) -> concatenate_ds ps = Ok q ->
  mlen q = sumZ (map mlen ps) /\ epoch q e = concat (map (fun p => epoch p e) ps).
Proof.
  intros Hpos H. destruct (concatenate_inv ps q H) as [HL Hget]. split; [easy|].
  unfold epoch at 1. rewrite HL. set (E := e * sumZ (map mlen ps)) in *.
  enough (forall post pre, ps = pre ++ post ->
    map (mget q) (zrange (E + sumZ (map mlen pre)) (Z.to_nat (sumZ (map mlen post))))
    = concat (map (fun p => epoch p e) post)) as Hgen.
  { specialize (Hgen ps [] eq_refl). cbn [map sumZ fold_right] in Hgen. now rewrite Z.add_0_r in Hgen. }
  induction post as [|p post IH]; intros pre Hps; [easy|].
  assert (0 <= mlen p) by (apply Hpos; rewrite Hps; apply in_app_iff; right; now left).
  assert (0 <= sumZ (map mlen post)).
  { apply sumZ_nonneg. intros x Hx. apply in_map_iff in Hx as (p' & <- & Hp').
    apply Hpos. rewrite Hps. apply in_app_iff. right. now right. }
  cbn [map concat]. replace (Z.to_nat (sumZ (mlen p :: map mlen post)))
    with (Z.to_nat (mlen p) + Z.to_nat (sumZ (map mlen post)))%nat
    by (cbn; fold (sumZ (map mlen post)); lia).
  rewrite zrange_app, map_app. f_equal.
  - unfold epoch. rewrite zrange_shift, (zrange_shift (e * mlen p)), !map_map.
    apply map_ext_in. intros r Hr. apply in_zrange in Hr.
    apply (Hget pre p post); try easy. lia.
  - rewrite <- (IH (pre ++ [p])) by now rewrite <- app_assoc.
    f_equal. f_equal. rewrite Z2Nat.id by easy. rewrite map_app. unfold sumZ.
    clear. cbn. rewrite fold_right_app. cbn. rewrite Z.add_0_r.
    induction (map mlen pre) as [|x l IH]; cbn in *; lia.
Qed.

Lemma concatenate_valid {A} (ps : list (MapDs A)) :
  (forall p, In p ps -> mlen p < maxsize) <-> exists q, concatenate_ds ps = Ok q.
Proof.
  unfold concatenate_ds, concat_selection_map. split.
  - intros H. destruct (existsb _ _) eqn:E; [|cbn; eauto].
    apply existsb_exists in E as (x & Hx & Hge). apply in_map_iff in Hx as (p & <- & Hp).
    specialize (H p Hp). lia.
  - intros (q & H) p Hp. destruct (existsb _ _) eqn:E; [easy|].
    assert (existsb (fun s => s >=? maxsize) (map mlen ps) = true -> False) by congruence.
    destruct (Z.ltb_spec (mlen p) maxsize); [easy|]. exfalso. apply H0. apply existsb_exists.
    exists (mlen p). split; [now apply in_map|]. lia.
Qed.

(** ** Batch *)
Definition batch_one {A B} (batch_fn : list (option A) -> res B) (c : list (option A)) : res (option B) :=
  let! b := batch_fn c in Ok (Some b).

Lemma map_nth_zrange {A} (f : Z -> A) a n i : (i < n)%nat -> nth_error (map f (zrange a n)) i = Some (f (a + Z.of_nat i)).
Proof.
  intros H. rewrite nth_error_map, nth_error_zrange. destruct (Nat.ltb_spec i n); [easy|lia].
Qed.

Lemma skipn_zrange a n k : skipn k (zrange a n) = zrange (a + Z.of_nat k) (n - k).
Proof.
  destruct (Nat.le_gt_cases k n).
  - replace n with (k + (n - k))%nat at 1 by lia. rewrite zrange_app, skipn_app, zrange_length, Nat.sub_diag.
    rewrite skipn_all2 by (rewrite zrange_length; lia). easy.
  - rewrite skipn_all2 by (rewrite zrange_length; lia). now replace (n - k)%nat with 0%nat by lia.
Qed.

Lemma firstn_zrange a n k : firstn k (zrange a n) = zrange a (Nat.min k n).
Proof.
  destruct (Nat.le_gt_cases k n).
  - replace n with (k + (n - k))%nat at 1 by lia. rewrite zrange_app, firstn_app, zrange_length, Nat.sub_diag.
    rewrite firstn_all2 by (rewrite zrange_length; lia). cbn. rewrite app_nil_r. f_equal. lia.
  - rewrite firstn_all2 by (rewrite zrange_length; lia). f_equal. lia.
Qed.

Lemma batch_epoch {A B} pushdown b drop (fn : list (option A) -> res B) (p : MapDs A) q e vs :
  batched_ok p -> 0 <= mlen p ->
  batch_ds pushdown b drop fn p = Ok q -> epoch p e = map Ok vs ->
  1 <= b /\
  mlen q = Z.of_nat (length ((if drop then full_chunks else chunks) (Z.to_nat b) vs)) /\
  epoch q e = map (batch_one fn) ((if drop then full_chunks else chunks) (Z.to_nat b) vs).
Proof.
  intros Hok Hp H Hvs. unfold batch_ds in H. destruct (Z.leb_spec b 0); [easy|].
  cbv zeta in H. injection H as <-. split; [lia|].
  assert (length vs = Z.to_nat (mlen p)) as Hlen.
  { unfold epoch in Hvs. apply length_map_Ok in Hvs. now rewrite zrange_length in Hvs. }
  set (cs := (if drop then full_chunks else chunks) (Z.to_nat b) vs).
  assert (batch_len (mlen p) b drop = Z.of_nat (length cs)) as HL.
  { unfold cs, batch_len. destruct drop.
    - rewrite full_chunks_firstn by lia. rewrite firstn_length.
      pose proof (chunks_length (Z.to_nat b) vs ltac:(lia)) as Hc. rewrite Hlen in Hc.
      rewrite !Z2Nat.id in Hc by lia.
      assert (length vs / Z.to_nat b <= length (chunks (Z.to_nat b) vs))%nat.
      { apply Nat2Z.inj_le. rewrite Hc, Nat2Z.inj_div, Hlen by lia. rewrite !Z2Nat.id by lia.
        apply Z.div_le_mono; lia. }
      rewrite Nat.min_l by easy. rewrite Nat2Z.inj_div, Hlen by lia. rewrite !Z2Nat.id by lia. easy.
    - rewrite chunks_length by lia. rewrite Hlen, !Z2Nat.id by lia. easy. }
  cbn [mlen]. split; [exact HL|].
  unfold epoch; cbn [mlen mget]. rewrite HL, Nat2Z.id.
  apply nth_error_ext. intros j. destruct (Nat.lt_ge_cases j (length cs)) as [Hj|Hj].
  2: { rewrite !(proj2 (nth_error_None _ _)); try easy; rewrite map_length; [easy|now rewrite zrange_length]. }
  rewrite map_nth_zrange by easy. rewrite nth_error_map.
  assert (nth_error cs j = nth_error (chunks (Z.to_nat b) vs) j) as Hcj.
  { unfold cs. destruct drop; [|easy]. subst cs. rewrite full_chunks_firstn by lia.
    rewrite <- (firstn_skipn (length vs / Z.to_nat b) (chunks (Z.to_nat b) vs)) at 2.
    rewrite nth_error_app1; [easy|]. now rewrite <- full_chunks_firstn by lia. }
  rewrite Hcj. assert (nth_error cs j <> None) as Hn by now apply nth_error_Some.
  rewrite Hcj in Hn. rewrite chunks_nth in Hn |- * by lia.
  destruct (Nat.ltb_spec (j * Z.to_nat b) (length vs)); [|easy]. clear Hn.
  cbn [option_map]. f_equal. rewrite divmod_epoch by lia. cbn [bind].
  set (items := zrange _ _).
  set (c := firstn (Z.to_nat b) (skipn (j * Z.to_nat b) vs)).
  assert (map (mget p) items = map Ok c) as Hitems.
  { unfold c, items. rewrite <- firstn_map, <- skipn_map, <- Hvs. unfold epoch.
    rewrite skipn_map, firstn_map, skipn_zrange, firstn_zrange. f_equal. f_equal; nia. }
  assert ((if pushdown then mgetitems p items else sequence (map (mget p) items)) = Ok c) as ->.
  { destruct pushdown; [now apply Hok|]. now apply sequence_Ok_iff. }
  reflexivity.
Qed.

Lemma make_batch_spec {A} (c : list A) : c <> [] -> make_batch c = Ok c.
Proof. now destruct c. Qed.

Lemma batch_and_pad_spec {A} b (pad : A) values :
  batch_and_pad b pad values =
    if (1 <=? Z.of_nat (length values)) && (Z.of_nat (length values) <=? b)
    then Ok (values ++ List.repeat pad (Z.to_nat b - length values))
    else Raise ValueError.
Proof.
  unfold batch_and_pad. destruct values as [|v values]; [easy|].
  set (vs := v :: values). set (n := Z.of_nat (length vs)).
  assert (1 <= n) by (unfold n, vs; cbn [length]; lia).
  destruct (Z.leb_spec 1 n); [|lia]. cbn [andb].
  destruct (Z.gtb_spec n b), (Z.leb_spec n b); try lia; [easy|].
  destruct (Z.eqb_spec n b).
  - replace (Z.to_nat b - length vs)%nat with 0%nat by lia. cbn [List.repeat]. now rewrite app_nil_r.
  - do 2 f_equal. f_equal. lia.
Qed.

(** ** Zip *)
Lemma zip_inv {A} (ps : list (MapDs A)) q : zip_ds ps = Ok q ->
  (forall p, In p ps -> mlen p = mlen q) /\
  (forall i es, mget q i = Ok (Some es) <-> map (fun p => mget p i) ps = map Ok es) /\
  (forall i, mget q i <> Ok None).
Proof.
  unfold zip_ds. destruct ps as [|p0 ps]; [easy|].
  destruct (forallb _ _) eqn:Hf; [|easy]. intros [= <-]. cbn [mlen mget].
  split; [|split].
  - intros p Hp. rewrite forallb_forall in Hf. apply Hf in Hp. lia.
  - intros i es. rewrite <- sequence_Ok_iff, bind_Ok_iff. split.
    + intros (a & Ha & [= <-]). exact Ha.
    + intros H. exists es. now split.
  - intros i H. apply bind_Ok_iff in H as (a & _ & Ha). discriminate Ha.
Qed.

Lemma zip_valid {A} (ps : list (MapDs A)) :
  (ps <> [] /\ forall p p', In p ps -> In p' ps -> mlen p = mlen p') <-> exists q, zip_ds ps = Ok q.
Proof.
  unfold zip_ds. split.
  - intros [Hne H]. destruct ps as [|p0 ps]; [easy|].
    replace (forallb _ _) with true; [eauto|]. symmetry. apply forallb_forall. intros p Hp.
    rewrite (H p0 p); [lia|now left|easy].
  - intros (q & H). destruct ps as [|p0 ps]; [easy|]. split; [easy|].
    destruct (forallb _ _) eqn:Hf; [|easy]. rewrite forallb_forall in Hf.
    intros p p' Hp Hp'. apply Hf in Hp, Hp'. lia.
Qed.

(** ** Flat map *)
Lemma flat_map_get {A B} m (f : A -> res (list (option B))) p i j x splits :
  0 <= j < m -> mget p i = Ok (Some x) -> f x = Ok splits ->
  mget (flat_map_ds m f p) (i * m + j) =
    if Z.of_nat (length splits) >? m then Raise ValueError
    else Ok (match nth_error splits (Z.to_nat j) with Some y => y | None => None end).
Proof.
  intros Hj Hp Hf. cbn [mget flat_map_ds]. rewrite divmod_epoch by easy. cbn [bind fst snd].
  rewrite Hp. cbn [bind]. rewrite Hf. cbn [bind].
  destruct (Z.of_nat (length splits) >? m); [easy|].
  unfold pyindex. destruct (Z.ltb_spec j 0); [lia|].
  destruct (Z.ltb_spec j (Z.of_nat (length splits))).
  - destruct (nth_error splits (Z.to_nat j)) eqn:E; [easy|]. apply nth_error_None in E. lia.
  - rewrite (proj2 (nth_error_None _ _)) by lia. easy.
Qed.

Lemma flat_map_get_none {A B} m (f : A -> res (list (option B))) p i j :
  0 <= j < m -> mget p i = Ok None -> mget (flat_map_ds m f p) (i * m + j) = Ok None.
Proof.
  intros Hj Hp. cbn [mget flat_map_ds]. rewrite divmod_epoch by easy. cbn [bind fst snd]. now rewrite Hp.
Qed.

(** One parent element fills [m] slots. *)
Definition slots {A B} (m : Z) (g : A -> list B) (v : option A) : list (option B) :=
  match v with
  | None => List.repeat None (Z.to_nat m)
  | Some x => map Some (g x) ++ List.repeat None (Z.to_nat m - length (g x))
  end.

Lemma nth_error_repeat {A} (a : A) n i : (i < n)%nat -> nth_error (List.repeat a n) i = Some a.
Proof. revert i. induction n as [|n IH]; intros [|i] H; cbn; try lia; [easy|]. apply IH. lia. Qed.

Lemma flat_map_slots {A B} m (f : A -> res (list (option B))) (g : A -> list B) (p : MapDs A) i v :
  1 <= m -> mget p i = Ok v ->
  (forall x, v = Some x -> f x = Ok (map Some (g x)) /\ Z.of_nat (length (g x)) <= m) ->
  map (mget (flat_map_ds m f p)) (zrange (i * m) (Z.to_nat m)) = map Ok (slots m g v).
Proof.
  intros Hm Hp Hg. apply nth_error_ext. intros j.
  assert (length (slots m g v) = Z.to_nat m) as Hl.
  { destruct v as [x|]; cbn; [|now rewrite repeat_length].
    rewrite app_length, map_length, repeat_length. destruct (Hg x eq_refl). lia. }
  destruct (Nat.lt_ge_cases j (Z.to_nat m)) as [Hj|Hj].
  2: { rewrite !(proj2 (nth_error_None _ _)); try easy; rewrite map_length; [lia|now rewrite zrange_length]. }
  rewrite map_nth_zrange by easy. destruct v as [x|].
  - destruct (Hg x eq_refl) as [Hf Hle].
    rewrite (flat_map_get m f p i (Z.of_nat j) x _ ltac:(lia) Hp Hf). rewrite map_length, Nat2Z.id.
    destruct (Z.gtb_spec (Z.of_nat (length (g x))) m); [lia|].
    assert (nth_error (map Ok (slots m g (Some x))) j = option_map Ok (nth_error (slots m g (Some x)) j))
      as -> by apply nth_error_map.
    cbn [slots]. destruct (Nat.lt_ge_cases j (length (g x))).
    + rewrite nth_error_app1 by now rewrite map_length.
      destruct (nth_error (map Some (g x)) j) eqn:E; [easy|]. apply nth_error_None in E. rewrite map_length in E. lia.
    + rewrite nth_error_app2 by now rewrite map_length. rewrite map_length.
      rewrite nth_error_repeat by lia. rewrite (proj2 (nth_error_None _ _)) by now rewrite map_length. easy.
  - rewrite flat_map_get_none by lia || easy. cbn [slots]. rewrite nth_error_map, nth_error_repeat by easy. easy.
Qed.

Lemma flat_map_epoch {A B} m (f : A -> res (list (option B))) (g : A -> list B) (p : MapDs A) e vs :
  1 <= m -> 0 <= mlen p -> mlen p * m < maxsize -> epoch p e = map Ok vs ->
  (forall x, In (Some x) vs -> f x = Ok (map Some (g x)) /\ Z.of_nat (length (g x)) <= m) ->
  mlen (flat_map_ds m f p) = mlen p * m /\
  epoch (flat_map_ds m f p) e = map Ok (flat_map (slots m g) vs) /\
  somes (flat_map (slots m g) vs) = flat_map g (somes vs).
Proof.
  intros Hm Hp Hmax Hvs Hg.
  assert (mlen (flat_map_ds m f p) = mlen p * m) as HL.
  { cbn [mlen flat_map_ds]. destruct (Z.geb_spec (mlen p * m) maxsize); lia. }
  split; [easy|]. split.
  - unfold epoch in Hvs |- *. rewrite HL.
    replace (Z.to_nat (mlen p * m)) with (Z.to_nat (mlen p) * Z.to_nat m)%nat by nia.
    replace (e * (mlen p * m)) with (e * mlen p * m) by lia.
    clear HL Hmax. revert Hvs Hg. generalize (e * mlen p) as a. generalize (Z.to_nat (mlen p)) as n.
    clear Hp e. intros n. revert vs. induction n as [|n IH]; intros [|v vs] a Hvs Hg; try easy.
    rewrite zrange_S in Hvs. cbn [map] in Hvs. injection Hvs as Hv Hvs.
    cbn [Nat.mul flat_map]. rewrite zrange_app, !map_app. f_equal.
    + apply flat_map_slots; [easy|easy|]. intros x ->. apply Hg. now left.
    + rewrite Z2Nat.id by lia. replace (a * m + m) with ((a + 1) * m) by lia.
      apply IH; [easy|]. intros x Hx. apply Hg. now right.
  - clear. induction vs as [|[x|] vs IH]; [easy| |]; cbn [flat_map]; rewrite somes_app, IH; cbn [slots].
    + rewrite somes_app, somes_map_Some, somes_repeat_None, app_nil_r. reflexivity.
    + now rewrite somes_repeat_None.
Qed.

(** ** Map and filter *)
Lemma filter_epoch {A} (f : A -> res bool) (P : A -> bool) (p : MapDs A) e vs :
  epoch p e = map Ok vs -> (forall x, In (Some x) vs -> f x = Ok (P x)) ->
  mlen (filter_ds f p) = mlen p /\
  exists ws, epoch (filter_ds f p) e = map Ok ws /\ length ws = length vs /\ somes ws = filter P (somes vs).
Proof.
  intros Hvs HP. split; [easy|].
  exists (map (fun o => match o with Some x => if P x then Some x else None | None => None end) vs).
  split; [|split; [now rewrite map_length|]].
  - unfold epoch in *. cbn [mlen mget filter_ds]. revert vs Hvs HP.
    generalize (zrange (e * mlen p) (Z.to_nat (mlen p))).
    induction l as [|i l IH]; intros [|v vs] Hvs HP; try easy. cbn [map] in *. injection Hvs as Hv Hvs.
    rewrite Hv. f_equal.
    + cbn. destruct v as [x|]; [|easy]. cbn. rewrite HP by now left. easy.
    + apply IH; [easy|]. intros; apply HP; now right.
  - clear. induction vs as [|[x|] vs IH]; [easy| |]; cbn; [|exact IH].
    destruct (P x); cbn; unfold somes in IH; rewrite IH; easy.
Qed.

Lemma map_epoch {A B} (f : A -> res (option B)) (g : A -> B) (p : MapDs A) e vs :
  epoch p e = map Ok vs -> (forall x, In (Some x) vs -> f x = Ok (Some (g x))) ->
  mlen (map_ds f p) = mlen p /\ epoch (map_ds f p) e = map Ok (map (option_map g) vs).
Proof.
  intros Hvs HP. split; [easy|]. unfold epoch in *. cbn [mlen mget map_ds]. revert vs Hvs HP.
  generalize (zrange (e * mlen p) (Z.to_nat (mlen p))).
  induction l as [|i l IH]; intros [|v vs] Hvs HP; try easy. cbn [map] in *. injection Hvs as Hv Hvs.
  rewrite Hv. f_equal.
  - cbn. destruct v as [x|]; [|easy]. cbn. rewrite HP by now left. easy.
  - apply IH; [easy|]. intros; apply HP; now right.
Qed.

(** ** Range *)
Lemma range_list_py_range start stop step : step <> 0 -> range_list start stop step = py_range start stop step.
Proof.
  intros Hs. unfold py_range. destruct (Z.gtb_spec step 0).
  - apply (strongly_sorted_ext Z.lt).
    + intros; lia.
    + unfold range_list. apply sorted_map with (R := Z.lt); [intros; nia|apply sorted_zrange].
    + apply sorted_filter, sorted_zrange.
    + intros x. rewrite in_range_list_pos by lia. rewrite filter_In, in_zrange. lia.
  - apply (strongly_sorted_ext (fun a b => b < a)).
    + intros; lia.
    + unfold range_list. apply sorted_map with (R := Z.lt); [intros; nia|apply sorted_zrange].
    + apply sorted_rev. apply sorted_filter, sorted_zrange.
    + intros x. rewrite in_range_list_neg by lia. rewrite <- in_rev, filter_In, in_zrange. lia.
Qed.

Lemma range_ds_epoch start stop step q e :
  range_ds start stop step = Ok q ->
  let l := match stop with None => py_range 0 start step | Some s => py_range start s step end in
  mlen q = Z.of_nat (length l) /\ epoch q e = map (fun x => Ok (Some x)) l.
Proof.
  unfold range_ds. destruct (Z.eqb_spec step 0); [easy|]. intros [= <-].
  set (a := match stop with None => 0 | Some _ => start end).
  set (b := match stop with None => start | Some s => s end).
  cbv zeta. assert (match stop with None => py_range 0 start step | Some s => py_range start s step end
    = range_list a b step) as -> by (rewrite range_list_py_range by easy; unfold a, b; now destruct stop).
  pose proof (range_len_nonneg a b step). unfold range_list. rewrite map_length, zrange_length.
  cbn [mlen]. split; [lia|]. unfold epoch; cbn [mlen mget].
  rewrite zrange_shift, !map_map. apply map_ext_in. intros i Hi. apply in_zrange in Hi.
  rewrite pymod_ok by lia. cbn [bind]. do 2 f_equal. rewrite (Z.add_comm (e * _)), Z.mod_add, Z.mod_small by lia. easy.
Qed.

(** Sequential slices of a range given to the workers concatenate to the range. *)
Lemma range_slices start stop step k ds : step <> 0 -> 1 <= k ->
  map (fun w => range_set_slice start stop step w k) (zrange 0 (Z.to_nat k)) = map Ok ds ->
  concat (map (fun d => epoch d 0) ds) = map (fun x => Ok (Some x)) (py_range start stop step).
Proof.
  intros Hs Hk H. rewrite <- range_list_py_range by easy.
  pose proof (range_len_nonneg start stop step) as Hn. set (n := range_len start stop step) in *.
  assert (map (fun d => epoch d 0) ds =
    map (fun w => map (fun j => Ok (Some (start + j * step))) (interval (even_split n (shard w k false)))) (zrange 0 (Z.to_nat k))) as ->.
  { assert (forall w, In w (zrange 0 (Z.to_nat k)) -> 0 <= w < k) as Hin by (intros w Hw; apply in_zrange in Hw; lia).
    revert ds H. induction (zrange 0 (Z.to_nat k)) as [|w l IH]; intros [|d ds] H; try easy.
    cbn [map] in *. injection H as Hd H. f_equal; [|apply IH; [intros; apply Hin; now right|easy]].
    specialize (Hin w (or_introl eq_refl)). unfold range_set_slice in Hd.
    unfold make_shard_options in Hd. destruct (Z.leb_spec k 0); [lia|].
    destruct (Z.ltb_spec w 0), (Z.geb_spec w k); try lia. cbn [orb bind] in Hd.
    fold (shard w k false) in Hd. fold n in Hd.
    pose proof (even_split_size n k w Hn Hk Hin) as Hsz.
    destruct (even_split n (shard w k false)) as [a b].
    apply range_ds_epoch with (e := 0) in Hd as [_ ->]. rewrite <- range_list_py_range by easy.
    unfold interval, range_list; cbn [fst snd].
    assert (0 <= b - a) by (pose proof (Z.div_pos n k ltac:(lia) ltac:(lia)); destruct (w <? n mod k); lia).
    assert (range_len (start + a * step) (start + b * step) step = b - a) as ->.
    { unfold range_len. destruct (Z.gtb_spec step 0).
      - replace (start + b * step - (start + a * step) + step - 1) with (step - 1 + (b - a) * step) by lia.
        rewrite Z.div_add, Z.div_small by lia. lia.
      - replace (start + a * step - (start + b * step) - step - 1) with (- step - 1 + (b - a) * - step) by lia.
        rewrite Z.div_add, Z.div_small by lia. lia. }
    rewrite (zrange_shift a), !map_map. apply map_ext. intros j. do 2 f_equal. lia. }
  pose proof (even_split_cover n k Hn Hk) as Hc.
  rewrite <- map_map with (f := fun w => interval (even_split n (shard w k false)))
    (g := map (fun j => Ok (Some (start + j * step)))).
  rewrite <- concat_map, Hc. unfold range_list. now rewrite map_map.
Qed.

Lemma range_set_slice_valid start stop step w k : step <> 0 -> 0 <= w < k ->
  exists d, range_set_slice start stop step w k = Ok d.
Proof.
  intros Hs Hw. unfold range_set_slice, make_shard_options.
  destruct (Z.leb_spec k 0); [lia|]. destruct (Z.ltb_spec w 0), (Z.geb_spec w k); try lia.
  cbn [orb bind]. destruct (even_split _ _). unfold range_ds. destruct (Z.eqb_spec step 0); [easy|]. eauto.
Qed.

Lemma range_source_spec start stop step : step <> 0 ->
  match range_source start stop step with
  | Ok (len, get) =>
      len = Z.of_nat (length (py_range start stop step)) /\
      forall k, get k = if k <? 0 then Raise IndexError else pyindex (py_range start stop step) k
  | r => r = Raise AssertionError /\ py_range start stop step = []
  end.
Proof.
  intros Hs. rewrite <- range_list_py_range by easy. unfold range_source.
  destruct (Z.eqb_spec step 0); [easy|]. cbv zeta.
  assert (range_len start stop step = Z.max 0 (- (- (stop - start) / step))) as HL.
  { unfold range_len. destruct (Z.gtb_spec step 0).
    - f_equal. replace (stop - start + step - 1) with ((stop - start - 1) + 1 * step) by lia.
      rewrite Z.div_add by lia.
      pose proof (Z.div_mod (stop - start - 1) step ltac:(lia)). pose proof (Z.mod_pos_bound (stop - start - 1) step ltac:(lia)).
      enough (- (stop - start) / step = - ((stop - start - 1) / step + 1)) by lia.
      symmetry. apply Z.div_unique with (step - 1 - (stop - start - 1) mod step); lia.
    - f_equal. replace (start - stop - step - 1) with ((start - stop - 1) + 1 * - step) by lia.
      rewrite Z.div_add by lia.
      pose proof (Z.div_mod (start - stop - 1) (- step) ltac:(lia)). pose proof (Z.mod_pos_bound (start - stop - 1) (- step) ltac:(lia)).
      enough (- (stop - start) / step = - ((start - stop - 1) / - step + 1)) by lia.
      replace (- (stop - start)) with (- - (start - stop)) by lia.
      rewrite <- (Z.opp_involutive step) at 1. rewrite <- (Z.div_opp_opp _ (- - step)) by lia.
      rewrite !Z.opp_involutive.
      symmetry. apply Z.div_unique with (- step - 1 - (start - stop - 1) mod - step); lia. }
  set (len := - (- (stop - start) / step)) in *.
  destruct (Z.ltb_spec len 0).
  - split; [easy|]. unfold range_list. rewrite HL. replace (Z.to_nat (Z.max 0 len)) with 0%nat by lia. easy.
  - unfold range_list. rewrite HL, Z.max_r by easy. split; [rewrite map_length, zrange_length; lia|].
    intros k. unfold pyindex. destruct (Z.ltb_spec k 0); [easy|]. cbn [orb].
    destruct (Z.geb_spec k len).
    + rewrite (proj2 (nth_error_None _ _)); [easy|]. rewrite map_length, zrange_length. lia.
    + rewrite map_nth_zrange by lia. do 2 f_equal. lia.
Qed.
