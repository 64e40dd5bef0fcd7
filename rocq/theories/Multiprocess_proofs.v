(** Proofs about multiprocess_prefetch. *)
From Verif Require Import Base ListFacts MapDatasets Spec MapSlice_proofs Iter IterSpec IterLaw IterBasic_proofs IterSource_proofs
  Interleave InterleaveSpec Interleave_proofs Scheduled Scheduled_proofs Multiprocess MultiprocessSpec Prop_Interleave.

Local Ltac spl := repeat match goal with |- _ /\ _ => split end.

(** ** Round robin over strides *)

Lemma nth_stride {A} W (m : list A) : (0 < W)%nat -> forall c k, nth_error (stride W c m) k = nth_error m (c + k * W).
Proof.
  intros HW. induction m as [|x m IH]; intros c k; cbn [stride].
  - now destruct k, (c + _)%nat.
  - destruct c as [|c].
    + destruct k as [|k]; [easy|]. cbn [nth_error]. rewrite IH. replace (0 + S k * W)%nat with (S (W - 1 + k * W)) by lia. easy.
    + rewrite IH. easy.
Qed.
Lemma stride_one {A} (m : list A) : stride 1 0 m = m.
Proof. induction m; cbn; [easy|]. now f_equal. Qed.
Lemma map_stride {A B} (f : A -> B) W (m : list A) : forall c, map f (stride W c m) = stride W c (map f m).
Proof. induction m as [|x m IH]; intros c; [easy|]. cbn. destruct c; cbn; now rewrite ?IH. Qed.

Lemma robin_ended {A} xs k : forall c (ds : list nat), length ds = c -> (0 < c + length xs + k)%nat ->
  robin (List.repeat None c ++ map (fun i => Some (i, [])) xs ++ List.repeat None k) (map (fun i => (i, @nil A)) ds) [].
Proof.
  intros c ds. revert c k. induction ds as [|d ds IH]; intros c k Hc H; cbn in Hc; subst c.
  - cbn [List.repeat app map]. revert k H. induction xs as [|x xs IHx]; intros k H.
    + cbn [map app] in *. destruct k as [|k]; [cbn in H; lia|]. cbn [List.repeat]. apply robin_stop. intros s Hs.
      apply repeat_spec in Hs. easy.
    + cbn [map app]. apply robin_end. rewrite <- app_assoc. rewrite <- repeat_cons. apply (IHx (S k)). cbn. lia.
  - cbn [length List.repeat app map]. apply robin_open, robin_end. rewrite <- !app_assoc, <- repeat_cons.
    apply (IH _ (S k)); [easy|]. lia.
Qed.

Definition slot {A} (W n : nat) (m : list A) (j : nat) : nat * list A := ((n + j) mod W, stride W j m)%nat.
Fixpoint turns {A} (W n : nat) (m : list A) : list (nat * A) :=
  match m with [] => [] | x :: m' => ((n mod W)%nat, x) :: turns W (S n) m' end.
Lemma turns_snd {A} W (m : list A) : forall n, map snd (turns W n m) = m.
Proof. induction m; intros n; cbn; [easy|]. now f_equal. Qed.

Lemma slot_next {A} W n x (m : list A) a k : map (slot W n (x :: m)) (seq (S a) k) = map (slot W (S n) m) (seq a k).
Proof. rewrite <- seq_shift, map_map. apply map_ext. intros j. unfold slot. f_equal. f_equal. lia. Qed.

Lemma robin_turns {A} W (m : list A) : (0 < W)%nat -> forall n c, (c <= W)%nat ->
  robin (List.repeat None c ++ map Some (map (slot W n m) (seq c (W - c)))) (map (slot W n m) (seq 0 c)) (turns W n m).
Proof.
  intros HW. induction m as [|x m IH]; intros n c Hc; cbn [turns].
  - assert (E : forall a k, map (slot W n (@nil A)) (seq a k) = map (fun i => (i, @nil A)) (map (fun j => (n + j) mod W)%nat (seq a k))).
    { intros a k. rewrite map_map. apply map_ext. now intros j. }
    rewrite !E, (map_map _ Some). rewrite <- (app_nil_r (map _ (map _ (seq c _)))).
    apply (robin_ended _ 0); rewrite map_length, seq_length; lia.
  - assert (Hlast : forall a, Some (((n mod W)%nat, stride W (W - 1) m)) = a -> a = Some (slot W (S n) m (W - 1)%nat)).
    { intros a <-. unfold slot. do 2 f_equal. replace (S n + (W - 1))%nat with (n + 1 * W)%nat by lia. now rewrite Nat.mod_add by lia. }
    destruct c as [|c].
    + cbn [List.repeat app seq map]. rewrite Nat.sub_0_r. destruct W as [|w]; [lia|]. cbn [seq map].
      unfold slot at 1. rewrite Nat.add_0_r. cbn [stride]. apply robin_take.
      rewrite slot_next. rewrite (Hlast _ eq_refl).
      specialize (IH (S n) 0%nat ltac:(lia)). cbn [List.repeat app seq map] in IH. rewrite Nat.sub_0_r in IH.
      replace (S w) with (w + 1)%nat in IH by lia. rewrite seq_app, !map_app in IH.
      cbn [Nat.sub] in *. rewrite Nat.sub_0_r in *. cbn [seq map Nat.add] in IH.
      replace (w + 1)%nat with (S w) in IH by lia. exact IH.
    + cbn [List.repeat app seq map]. apply robin_open. unfold slot at 1. rewrite Nat.add_0_r. cbn [stride]. apply robin_take.
      rewrite !slot_next, (Hlast _ eq_refl), <- app_assoc.
      specialize (IH (S n) c ltac:(lia)). replace (W - c)%nat with (W - S c + 1)%nat in IH by lia.
      rewrite seq_app, !map_app in IH. cbn [seq map] in IH. replace (c + (W - S c))%nat with (W - 1)%nat in IH by lia.
      destruct (Nat.eq_dec (W - S c) 0) as [E0|E0].
      * rewrite E0 in *. cbn [seq map app] in *. exact IH.
      * exact IH.
Qed.

Lemma interleaved_strides {A} W (m : list A) : (0 < W)%nat -> interleaved W (strides W m) (turns W 0 m).
Proof.
  intros HW. unfold interleaved. pose proof (robin_turns W m HW 0 W ltac:(lia)) as H. rewrite Nat.sub_diag in H.
  cbn [seq map] in H. rewrite app_nil_r in H.
  replace (numbered (strides W m)) with (map (slot W 0 m) (seq 0 W)); [exact H|].
  unfold numbered, strides. rewrite map_length, seq_length. 
  assert (G : forall l, (forall i, In i l -> (i < W)%nat) -> map (slot W 0 m) l = combine l (map (fun i => stride W i m) l)).
  { induction l as [|i l IH]; intros Hl; [easy|]. cbn [map combine]. rewrite IH by (intros; apply Hl; now right).
    f_equal. unfold slot. cbn [Nat.add]. rewrite Nat.mod_small; [easy|]. apply Hl. now left. }
  apply G. intros i Hi. apply in_seq in Hi. lia.
Qed.

(** ** Outcomes *)

(** As [outcome], for a worker. *)
Fixpoint outcome_at (pi pc : Z) {A} (t : ITree A) (k : Z) : res (option (option A)) :=
  match t with
  | TSource ds allow_nones _ _ =>
      let! e := mget ds k in
      Ok (if allow_nones || match e with Some _ => true | None => false end then Some e else None)
  | TMap f t =>
      let! o := outcome_at pi pc t k in
      match o with Some e => let! b := map_element f e in Ok (Some b) | None => Ok None end
  | TMapWithIndex f t =>
      let! o := outcome_at pi pc t k in
      match o with Some e => let! b := map_element (f k) e in Ok (Some b) | None => Ok None end
  | TRandomMap f rng t =>
      let! o := outcome_at pi pc t k in
      match o with Some e => let! b := map_element (fun x => f x (rng (pi + k * pc))) e in Ok (Some b) | None => Ok None end
  | TFilter f t =>
      let! o := outcome_at pi pc t k in
      match o with Some e => let! b := f e in Ok (if b then Some e else None) | None => Ok None end
  | TBatch _ _ _ _ => Raise NotImplementedError
  end.
Lemma outcome_alone {A} (t : ITree A) k : outcome_at 0 1 t k = outcome t k.
Proof. induction t; cbn [outcome_at outcome]; rewrite ?IHt; try easy. now replace (0 + k * 1) with k by lia. Qed.

Lemma bind_ok {A B} (r : res A) (f : A -> res B) b : bind r f = Ok b -> exists a, r = Ok a /\ f a = Ok b.
Proof. destruct r; cbn; try discriminate. eauto. Qed.

Definition all_kept {A} (outs : list (option A)) : Prop := Forall (fun o => o <> None) outs.

(** One step of a tree: the outcomes of its parent. *)
Lemma outcomes_split {A B} (g : Z -> A -> res (option B)) (src : Z -> res (option A)) idx outs :
  Forall2 (fun i o => (let! x := src i in match x with Some e => g i e | None => Ok None end) = Ok o) idx outs ->
  exists outs', Forall2 (fun i o => src i = Ok o) idx outs' /\ (all_kept outs -> all_kept outs') /\
    Forall2 (fun io o => match snd io with Some e => g (fst io) e = Ok o | None => o = None end) (combine idx outs') outs.
Proof.
  intros H. induction H as [|i o idx outs E H IH].
  - exists []. spl; constructor.
  - destruct IH as (outs' & H1 & H2 & H3). apply bind_ok in E as (x & Ex & E). exists (x :: outs'). split; [now constructor|]. split.
    + intros K. inversion K; subst. constructor; [|now apply H2]. intros ->. injection E as <-. easy.
    + cbn [combine]. constructor; [|easy]. cbn [snd fst]. destruct x; [easy|]. now injection E as <-.
Qed.

Lemma kept_all {A} (l : list A) : emitted (map Some l) = l.
Proof. induction l; cbn; [easy|]. unfold emitted in IHl. now rewrite IHl. Qed.
Lemma all_kept_some {A} (outs : list (option A)) : all_kept outs -> outs = map Some (emitted outs).
Proof.
  induction 1 as [|o outs Ho H IH]; [easy|]. destruct o; [|easy]. cbn. unfold emitted in IH. now rewrite <- IH.
Qed.
Lemma kept_map {A B} (h : A -> res B) (idx : list Z) outs' outs : length idx = length outs' ->
  Forall2 (fun io o => match snd io with Some e => (let! b := h e in Ok (Some b)) = Ok o | None => o = None end) (combine idx outs') outs ->
  Forall2 (fun e b => h e = Ok b) (emitted outs') (emitted outs).
Proof.
  revert outs' outs. induction idx as [|i idx IH]; intros [|o' outs'] outs Hl H; cbn in Hl; try discriminate; cbn [combine] in H; inversion H; subst.
  - constructor.
  - specialize (IH outs' l' ltac:(lia) H4). cbn [snd] in H2. destruct o'; cbn [emitted flat_map app].
    + apply bind_ok in H2 as (b & E & E'). injection E' as <-. cbn [emitted flat_map app]. constructor; easy.
    + now subst y.
Qed.
Lemma kept_map_indexed {A B} (h : Z -> A -> res B) (idx : list Z) outs' outs : length idx = length outs' -> all_kept outs ->
  Forall2 (fun io o => match snd io with Some e => (let! b := h (fst io) e in Ok (Some b)) = Ok o | None => o = None end) (combine idx outs') outs ->
  Forall2 (fun ie b => h (fst ie) (snd ie) = Ok b) (combine idx (emitted outs')) (emitted outs).
Proof.
  revert outs' outs. induction idx as [|i idx IH]; intros [|o' outs'] outs Hl K H; cbn in Hl; try discriminate; cbn [combine] in H; inversion H; subst.
  - constructor.
  - inversion K; subst. specialize (IH outs' l' ltac:(lia) ltac:(easy) H4). cbn [snd fst] in H2. destruct o'; cbn [emitted flat_map app combine].
    + apply bind_ok in H2 as (b & E & E'). injection E' as <-. cbn [emitted flat_map app]. constructor; easy.
    + easy.
Qed.
Definition truth (r : res bool) : bool := match r with Ok b => b | _ => false end.
Lemma kept_filter {A} (f : A -> res bool) (idx : list Z) outs' outs : length idx = length outs' ->
  Forall2 (fun io o => match snd io with Some e => (let! b := f e in Ok (if b then Some e else None)) = Ok o | None => o = None end) (combine idx outs') outs ->
  Forall (fun e => f e = Ok (truth (f e))) (emitted outs') /\ emitted outs = filter (fun e => truth (f e)) (emitted outs').
Proof.
  revert outs' outs. induction idx as [|i idx IH]; intros [|o' outs'] outs Hl H; cbn in Hl; try discriminate; cbn [combine] in H; inversion H; subst.
  - split; constructor.
  - specialize (IH outs' l' ltac:(lia) H4). destruct IH as (IH1 & IH2). cbn [snd fst] in H2. destruct o' as [e|]; cbn [emitted flat_map app].
    + apply bind_ok in H2 as (b & E & E'). injection E' as <-. split; [constructor; [now rewrite E|easy]|].
      cbn [filter]. rewrite E. cbn [truth]. unfold emitted in IH2. destruct b; cbn [app]; now rewrite IH2.
    + subst y. cbn [app]. easy.
Qed.

Lemma tree_lawful pi pc {A} (t : ITree A) : forall outs,
  0 <= tree_len t -> elementwise t = true -> Forall2 (fun k o => outcome_at pi pc t k = Ok o) (zrange 0 (Z.to_nat (tree_len t))) outs ->
  not_random t = true \/ all_kept outs ->
  exists it, tree_iter pi pc t = Ok it /\ lawful it (emitted outs) true true true.
Proof.
  induction t; intros outs Hn He H Hi; cbn [tree_len tree_iter outcome_at elementwise not_random] in *.
  - assert (HE : exists E, Forall2 (fun k e => mget ds k = Ok e) (zrange 0 (Z.to_nat (mlen ds))) E /\
      emitted outs = filter (fun e => allow_nones || match e with Some _ => true | None => false end) E).
    { clear Hi Hn He. induction H as [|k o idx outs E H IH]; [exists []; split; constructor|].
      destruct IH as (E' & H1 & H2). apply bind_ok in E as (e & Ee & E). injection E as <-. exists (e :: E'). split; [now constructor|].
      cbn [emitted flat_map filter]. unfold emitted in H2. rewrite H2. now destruct (allow_nones || _). }
    destruct HE as (E & HE & ->). eexists. split; [reflexivity|].
    pose proof (Forall2_length _ _ _ HE) as Hlen. rewrite zrange_length in Hlen.
    assert (Hfin : (Z.of_nat (length E) =? mlen ds) = true) by lia. rewrite <- Hfin at 1.
    apply (prefetch_law ds allow_nones E).
    + intros i e Hie. destruct (IterBasic_proofs.Forall2_nth _ _ _ _ _ HE Hie) as (k & Hk & Ek). rewrite nth_error_zrange in Hk.
      destruct (Nat.ltb_spec i (Z.to_nat (mlen ds))); [|easy]. injection Hk as <-. exact Ek.
    + lia.
  - apply outcomes_split in H as (outs' & H1 & H2 & H3).
    destruct (IHt outs' Hn He H1) as (it & -> & L). { destruct Hi; [now left|right; auto]. }
    eexists. split; [reflexivity|]. apply (lawful_map f it (emitted outs')); [|exact L].
    refine (kept_map (map_element f) _ _ _ _ H3). now rewrite (Forall2_length _ _ _ H1).
  - discriminate.
  - apply (outcomes_split (fun k e => let! b := map_element (fun x => f x (rng (pi + k * pc))) e in Ok (Some b))) in H as (outs' & H1 & H2 & H3).
    destruct Hi as [Hi|Hi]; [discriminate|].
    destruct (IHt outs' Hn He H1) as (it & -> & L); [right; auto|].
    eexists. split; [reflexivity|]. apply (lawful_random_map f rng pi pc it (emitted outs')); [|exact L].
    pose proof (Forall2_length _ _ _ H1) as Hl. rewrite zrange_length in Hl.
    replace (length (emitted outs')) with (Z.to_nat (tree_len t)).
    2:{ rewrite Hl. rewrite (all_kept_some outs' (H2 Hi)) at 1. now rewrite map_length. }
    refine (kept_map_indexed (fun i e => map_element (fun x => f x (rng (pi + i * pc))) e) _ _ _ _ Hi H3). now rewrite zrange_length.
  - apply outcomes_split in H as (outs' & H1 & H2 & H3).
    destruct (IHt outs' Hn He H1) as (it & -> & L). { destruct Hi; [now left|right; auto]. }
    eexists. split; [reflexivity|].
    destruct (kept_filter f _ outs' outs ltac:(now rewrite (Forall2_length _ _ _ H1)) H3) as (K1 & ->).
    now apply lawful_filter.
  - discriminate.
Qed.

(** ** Slices *)
Lemma slice_tree_ok {A} i W (t : ITree A) : 0 < W -> 0 <= i < W -> 0 <= tree_len t ->
  exists t', slice_tree i W t = Ok t' /\ tree_len t' = (tree_len t - i + W - 1) / W /\
    elementwise t' = elementwise t /\ not_random t' = not_random t /\
    (elementwise t = true -> forall k, 0 <= k < tree_len t' -> outcome_at i W t' k = outcome_at 0 1 t (i + k * W)).
Proof.
  intros HW Hi. induction t; intros Hn; cbn [tree_len slice_tree elementwise not_random outcome_at] in *;
    try (destruct (IHt Hn) as (t' & -> & E1 & E2 & E3 & E4); eexists; split; [reflexivity|];
         cbn [tree_len elementwise not_random outcome_at]; spl; auto; intros He k Hk; try discriminate;
         rewrite E4 by auto; try reflexivity).
  - unfold slice_ds, slice_indices. destruct (Z.eqb_spec W 0); [lia|]. cbn [bind]. cbv zeta.
    replace (W <? 0) with false by lia. replace (i <? 0) with false by lia. eexists. split; [reflexivity|].
    cbn [tree_len elementwise not_random outcome_at mlen mget]. rewrite stride_len by lia. spl; auto.
    intros _ k Hk. unfold sliced_index, pydivmod.
    destruct (Z.eqb_spec ((mlen ds - i + W - 1) / W) 0); [lia|]. cbn [bind fst snd].
    rewrite (Z.div_small k), (Z.mod_small k) by lia.
    assert (i <= mlen ds).
    { destruct (Z_le_gt_dec i (mlen ds)); [easy|]. exfalso. assert ((mlen ds - i + W - 1) / W <= 0); [|lia].
      apply Z.lt_succ_r. apply Z.div_lt_upper_bound; lia. }
    rewrite Z.min_l by lia. replace (i + k * W + 0 * mlen ds) with (i + k * W) by lia. reflexivity.
  - replace (0 + (i + k * W) * 1) with (i + k * W) by lia. reflexivity.
Qed.

Lemma stride_outcomes {A} (g : Z -> res A) n outs (W i : nat) : (0 < W)%nat -> (i < W)%nat ->
  Forall2 (fun k o => g k = Ok o) (zrange 0 n) outs ->
  Forall2 (fun k o => g (Z.of_nat i + k * Z.of_nat W) = Ok o)
    (zrange 0 (Z.to_nat ((Z.of_nat n - Z.of_nat i + Z.of_nat W - 1) / Z.of_nat W))) (stride W i outs).
Proof.
  intros HW Hi H. pose proof (Forall2_length _ _ _ H) as Hn. rewrite zrange_length in Hn.
  set (m := Z.to_nat ((Z.of_nat n - Z.of_nat i + Z.of_nat W - 1) / Z.of_nat W)).
  assert (Hm : forall k, (k < m <-> i + k * W < n)%nat).
  { intros k. unfold m. split; intros Hk.
    - assert (Z.of_nat k + 1 <= (Z.of_nat n - Z.of_nat i + Z.of_nat W - 1) / Z.of_nat W) by lia.
      pose proof (Z.mul_div_le (Z.of_nat n - Z.of_nat i + Z.of_nat W - 1) (Z.of_nat W) ltac:(lia)). nia.
    - assert (Z.of_nat k + 1 <= (Z.of_nat n - Z.of_nat i + Z.of_nat W - 1) / Z.of_nat W); [|lia].
      apply Z.div_le_lower_bound; [lia|]. nia. }
  assert (Hlen : length (stride W i outs) = m).
  { apply Nat.le_antisymm.
    - destruct (Nat.le_gt_cases (length (stride W i outs)) m) as [|Hgt]; [easy|]. exfalso.
      assert (E : nth_error (stride W i outs) m <> None) by now apply nth_error_Some.
      rewrite nth_stride in E by easy. apply nth_error_Some in E. rewrite <- Hn in E. apply Hm in E. lia.
    - destruct (Nat.le_gt_cases m (length (stride W i outs))) as [|Hgt]; [easy|]. exfalso.
      apply Hm in Hgt. assert (E : nth_error (stride W i outs) (length (stride W i outs)) = None) by now apply nth_error_None.
      rewrite nth_stride in E by easy. apply nth_error_None in E. lia. }
  assert (G : forall (R : Z -> A -> Prop) (a : list Z) (b : list A), length a = length b ->
     (forall k x y, nth_error a k = Some x -> nth_error b k = Some y -> R x y) -> Forall2 R a b).
  { clear. intros R a. induction a as [|x a IH]; intros [|y b] Hl Hk; cbn in Hl; try discriminate; constructor.
    - now apply (Hk 0%nat). - apply IH; [lia|]. intros k. now apply (Hk (S k)). }
  apply G; [now rewrite zrange_length|]. intros k x y Hx Hy. rewrite nth_error_zrange in Hx.
  destruct (Nat.ltb_spec k m); [|easy]. injection Hx as <-. rewrite nth_stride in Hy by easy.
  destruct (IterBasic_proofs.Forall2_nth _ _ _ _ _ H Hy) as (j & Hj & E). rewrite nth_error_zrange in Hj.
  destruct (Nat.ltb_spec (i + k * W) n); [|easy]. injection Hj as <-. rewrite <- E. f_equal. lia.
Qed.

Lemma all_kept_stride {A} (outs : list (option A)) W : all_kept outs -> forall c, all_kept (stride W c outs).
Proof. induction 1 as [|o outs Ho H IH]; intros c; cbn [stride]; [constructor|]. destruct c; [constructor; [easy|apply IH]|apply IH]. Qed.

(** The iterator of one worker. *)
Lemma worker_lawful {A} (t : ITree A) outs W i : (i < W)%nat ->
  0 <= tree_len t -> elementwise t = true -> outcomes t outs -> not_random t = true \/ all_kept outs ->
  exists p, worker_iter W i t = Ok p /\ lawful p (emitted (stride W i outs)) true true true.
Proof.
  intros Hi Hn He Ho Hr. unfold worker_iter. destruct (Nat.eqb_spec W 1) as [->|HW].
  - assert (i = 0%nat) as -> by lia. cbn [bind]. rewrite stride_one. change (Z.of_nat 0) with 0. change (Z.of_nat 1) with 1.
    apply tree_lawful; auto. unfold outcomes in Ho. revert Ho. generalize (zrange 0 (Z.to_nat (tree_len t))). intros idx H.
    clear Hr. induction H; [constructor|]. constructor; [now rewrite outcome_alone|easy].
  - destruct (slice_tree_ok (Z.of_nat i) (Z.of_nat W) t ltac:(lia) ltac:(lia) Hn) as (t' & -> & E1 & E2 & E3 & E4). cbn [bind].
    apply tree_lawful.
    + rewrite E1. apply Z.div_pos; lia.
    + congruence.
    + pose proof (stride_outcomes (outcome t) _ outs W i ltac:(lia) Hi Ho) as H. rewrite Z2Nat.id in H by easy. rewrite E1.
      assert (G : forall k, In k (zrange 0 (Z.to_nat ((tree_len t - Z.of_nat i + Z.of_nat W - 1) / Z.of_nat W))) ->
        outcome_at (Z.of_nat i) (Z.of_nat W) t' k = outcome t (Z.of_nat i + k * Z.of_nat W)).
      { intros k Hk. apply in_zrange in Hk. rewrite E4 by (auto; rewrite E1; lia). apply outcome_alone. }
      revert H G. generalize (zrange 0 (Z.to_nat ((tree_len t - Z.of_nat i + Z.of_nat W - 1) / Z.of_nat W))). intros idx H G.
      clear Ho Hr. induction H; [constructor|]. constructor; [rewrite G; [easy|now left]|]. apply IHForall2. intros k Hk. apply G. now right.
    + destruct Hr as [Hr|Hr]; [left; congruence|right; now apply all_kept_stride].
Qed.

Lemma workers_lawful {A} (t : ITree A) outs W :
  0 <= tree_len t -> elementwise t = true -> outcomes t outs -> not_random t = true \/ all_kept outs ->
  exists ps, sequence (map (fun i => worker_iter W i t) (seq 0 W)) = Ok ps /\ length ps = W /\
    Forall2 (fun p l => lawful p l true true true) ps (map emitted (strides W outs)).
Proof.
  intros Hn He Ho Hr. unfold strides. rewrite map_map.
  assert (G : forall l, (forall i, In i l -> (i < W)%nat) ->
    exists ps, sequence (map (fun i => worker_iter W i t) l) = Ok ps /\ length ps = length l /\
    Forall2 (fun p l => lawful p l true true true) ps (map (fun i => emitted (stride W i outs)) l)).
  { induction l as [|i l IH]; intros Hl.
    - exists []. spl; try easy. constructor.
    - destruct IH as (ps & E & El & F); [intros; apply Hl; now right|].
      destruct (worker_lawful t outs W i (Hl i (or_introl eq_refl)) Hn He Ho Hr) as (p & Ep & L).
      exists (p :: ps). cbn [map sequence]. rewrite Ep. cbn [bind]. rewrite E. spl; [easy|cbn; lia|now constructor]. }
  destruct (G (seq 0 W)) as (ps & E & El & F); [intros i Hi; apply in_seq in Hi; lia|].
  rewrite seq_length in El. eauto.
Qed.

Lemma shards_lawful {A} (h : nat -> Iter A -> Iter A) (ps : list (Iter A)) ls :
  (forall i p l, lawful p l true true true -> lawful (h i p) l true true true) ->
  Forall2 (fun p l => lawful p l true true true) ps ls -> forall k W, W = length ps ->
  Forall2 (fun p l => lawful p l true true true) (map (fun ip => h (fst ip) (snd ip)) (combine (seq k W) ps)) ls.
Proof.
  intros Hh H. induction H as [|p l ps ls Hp H IH]; intros k W ->; cbn [length seq combine map]; constructor; [now apply Hh|].
  now apply IH.
Qed.
