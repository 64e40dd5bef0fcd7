(** C49: merging dataset options.  C50: default seeds. *)
From Verif Require Import Base Options.

(** * C49 *)

(** What the user wrote: the fields given to DatasetOptions(...). *)
Definition explicit := field -> option value.
(** The first of a list of options that sets a field decides; otherwise the default. *)
Fixpoint first_set (l : list explicit) (f : field) : option value :=
  match l with
  | [] => None
  | e :: l' => match e f with Some v => Some v | None => first_set l' f end
  end.
Definition decides (l : list explicit) (o : options) : Prop :=
  forall f, user_set o f = match first_set l f with Some _ => true | None => false end /\
            values o f = match first_set l f with Some v => v | None => default_value f end.

Lemma decides_make e : decides [e] (make_options e).
Proof. intros f. cbn. destruct (e f); easy. Qed.
Lemma decides_default : decides [] (make_options (fun _ => None)).
Proof. now intros f. Qed.
Lemma first_set_app l l' f : first_set (l ++ l') f = match first_set l f with Some v => Some v | None => first_set l' f end.
Proof. induction l; cbn; [easy|]. destruct (a f); easy. Qed.
Lemma decides_merge l l' o o' : decides l o -> decides l' o' -> decides (l ++ l') (merge o (Some o')).
Proof.
  intros H H' f. destruct (H f) as [H1 H2]. destruct (H' f) as [H1' H2']. cbn. rewrite first_set_app, H1, H1', H2, H2'.
  destruct (first_set l f), (first_set l' f); easy.
Qed.
Lemma decides_unique l o o' : decides l o -> decides l o' ->
  forall f, values o f = values o' f /\ user_set o f = user_set o' f.
Proof. intros H H' f. destruct (H f) as [-> ->], (H' f) as [-> ->]. easy. Qed.

(** Merging options: the explicitly set value of the left one, else of the right one,
    else the default. *)
Theorem C49_merge e e' f :
  values (merge (make_options e) (Some (make_options e'))) f =
  match e f with Some v => v | None => match e' f with Some v => v | None => default_value f end end.
Proof. destruct (decides_merge _ _ _ _ (decides_make e) (decides_make e') f) as [_ ->]. cbn. destruct (e f), (e' f); easy. Qed.

(** Grouping does not matter. *)
Theorem C49_associative a b c f :
  values (merge (merge a (Some b)) (Some c)) f = values (merge a (Some (merge b (Some c)))) f /\
  user_set (merge (merge a (Some b)) (Some c)) f = user_set (merge a (Some (merge b (Some c)))) f.
Proof. cbn. destruct (user_set a f), (user_set b f), (user_set c f); easy. Qed.

(** Default options change nothing, and neither does None. *)
Theorem C49_neutral e f :
  let o := make_options e in let d := make_options (fun _ => None) in
  values (merge o (Some d)) f = values o f /\ values (merge d (Some o)) f = values o f /\ merge o None = o.
Proof. cbn. destruct (e f); easy. Qed.

(** ** Whole pipelines *)

(** What a pipeline is made of, as the user wrote it. *)
Inductive pipe_of : Type :=
| POp (parents : list pipe_of)
| PWith (e : explicit) (parent : pipe_of).
Lemma pipe_of_rec' (P : pipe_of -> Prop) :
  (forall ps, Forall P ps -> P (POp ps)) -> (forall e p, P p -> P (PWith e p)) -> forall p, P p.
Proof.
  intros H1 H2. fix IH 1. intros [ps|e p]; [|apply H2, IH].
  apply H1. induction ps as [|p ps IHps]; constructor; [apply IH|exact IHps].
Qed.
Fixpoint to_opipe (p : pipe_of) : opipe :=
  match p with
  | POp ps => OOp (map to_opipe ps)
  | PWith e p => OWith (make_options e) (to_opipe p)
  end.
(** The options written in a pipeline, the ones closest to the output first (parents
    from left to right). *)
Fixpoint written (p : pipe_of) : list explicit :=
  match p with
  | POp ps => flat_map written ps
  | PWith e p => e :: written p
  end.
(** All iterators of a tree. *)
Fixpoint all_nodes (P : onode -> Prop) (n : onode) : Prop :=
  P n /\ (fix all (l : list onode) : Prop := match l with [] => True | x :: l' => all_nodes P x /\ all l' end) (node_parents n).

Lemma all_nodes_set_ctx c : forall n, all_nodes (fun n => node_ctx n = c) (set_ctx c n).
Proof.
  fix IH 1. intros [c' ps]. cbn. split; [easy|]. induction ps as [|p ps IHps]; cbn; [easy|]. split; [apply IH|apply IHps].
Qed.

Lemma hget_hset_eq h c o : (c < length h)%nat -> hget (hset h c o) c = o.
Proof. unfold hget. revert c. induction h; intros [|c] H; cbn in *; try lia; [easy|]. apply IHh. lia. Qed.
Lemma hget_hset_neq h c c' o : c <> c' -> hget (hset h c o) c' = hget h c'.
Proof. unfold hget. revert c c'. induction h; intros [|c] [|c'] H; cbn; try easy. apply IHh. congruence. Qed.
Lemma hset_length h c o : length (hset h c o) = length h.
Proof. revert c. induction h; intros [|c]; cbn; try easy. now rewrite IHh. Qed.

(** One context for the whole tree, created by this pipeline, holding the decided
    options; contexts that existed before are untouched. *)
Definition built (p : pipe_of) (h : heap) (r : onode * heap) : Prop :=
  let (n, h') := r in
  (length h <= node_ctx n < length h')%nat /\ all_nodes (fun m => node_ctx m = node_ctx n) n /\
  decides (written p) (hget h' (node_ctx n)) /\
  (forall c, (c < length h)%nat -> hget h' c = hget h c).

Lemma Forall2_impl {X Y} (P Q : X -> Y -> Prop) l l' :
  (forall x y, P x y -> Q x y) -> Forall2 P l l' -> Forall2 Q l l'.
Proof. intros H HF. induction HF; constructor; auto. Qed.

Lemma build_op ps : forall h,
  (forall p, In p ps -> forall h, built p h (build (to_opipe p) h)) ->
  exists nodes h',
    (fix go (ps : list opipe) (h : heap) : list onode * heap :=
           match ps with
           | [] => ([], h)
           | p :: ps' => let (n, h1) := build p h in let (ns, h2) := go ps' h1 in (n :: ns, h2)
           end) (map to_opipe ps) h = (nodes, h') /\
    (length h <= length h')%nat /\
    Forall2 (fun p n => (length h <= node_ctx n < length h')%nat /\ all_nodes (fun m => node_ctx m = node_ctx n) n /\
                        decides (written p) (hget h' (node_ctx n))) ps nodes /\
    NoDup (map node_ctx nodes) /\
    (forall c, (c < length h)%nat -> hget h' c = hget h c).
Proof.
  induction ps as [|p ps IH]; intros h Hb; cbn.
  - exists [], h. split; [easy|]. split; [lia|]. split; [constructor|]. split; [constructor|easy].
  - pose proof (Hb p (or_introl eq_refl) h) as H. destruct (build (to_opipe p) h) as [n h1]. destruct H as (H1 & H2 & H3 & H4).
    destruct (IH h1) as (nodes & h2 & -> & Hl & HF & Hnd & Hkeep); [intros; apply Hb; now right|].
    exists (n :: nodes), h2. split; [easy|]. split; [lia|]. split; [|split].
    + constructor.
      * split; [lia|]. split; [easy|]. rewrite Hkeep by lia. exact H3.
      * eapply Forall2_impl; [|exact HF]. cbn. intros p' n' (? & ? & ?). split; [lia|easy].
    + cbn. constructor; [|easy]. rewrite in_map_iff. intros (n' & E & Hin). 
      clear - HF Hin E H1. induction HF as [|x y l l' (Hc & _) HF IH]; [easy|]. destruct Hin as [->|Hin]; [lia|]. now apply IH.
    + intros c Hc. rewrite Hkeep by lia. now apply H4.
Qed.

Lemma merge_all c l others h : (c < length h)%nat -> forall done,
  ~ In c (map node_ctx others) -> decides done (hget h c) ->
  Forall2 (fun p n => decides (written p) (hget h (node_ctx n))) l others ->
  let h' := fold_left (fun h n => hset h c (merge (hget h c) (Some (hget h (node_ctx n))))) others h in
  length h' = length h /\ decides (done ++ flat_map written l) (hget h' c) /\
  (forall c', c' <> c -> hget h' c' = hget h c').
Proof.
  intros Hc done Hnin Hd HF. revert l h Hc done Hnin Hd HF. induction others as [|n others IH]; intros l h Hc done Hnin Hd HF; cbv zeta; cbn [fold_left].
  - inversion HF; subst. cbn. rewrite app_nil_r. easy.
  - inversion HF as [|p n' l' o' Hp HF' E1 E2]; subst. cbn in Hnin.
    destruct (IH l' (hset h c (merge (hget h c) (Some (hget h (node_ctx n))))) ltac:(now rewrite hset_length) (done ++ written p))
      as (H1 & H2 & H3).
    + intuition.
    + rewrite hget_hset_eq by easy. now apply decides_merge.
    + clear - HF' Hnin. induction HF' as [|p' n' l o H HF IH]; constructor.
      * rewrite hget_hset_neq; [easy|]. intros E. apply Hnin. right. cbn. now left.
      * apply IH. cbn in Hnin. intuition.
    + rewrite hset_length in H1. cbn [flat_map]. rewrite app_assoc. split; [easy|]. split; [easy|].
      intros c' Hc'. rewrite H3 by easy. now rewrite hget_hset_neq by congruence.
Qed.

Lemma build_built : forall p h, built p h (build (to_opipe p) h).
Proof.
  intros p. induction p as [ps IH|e p IH] using pipe_of_rec'; intros h.
  - destruct (build_op ps h) as (nodes & h' & E & Hl & HF & Hnd & Hkeep).
    { intros p Hp. eapply Forall_forall in IH; [exact IH|exact Hp]. }
    cbn [to_opipe build]. rewrite E. unfold built. destruct nodes as [|first others].
    + inversion HF; subst. cbn. rewrite app_length; cbn. split; [lia|]. split; [easy|].
      split.
      * unfold hget. rewrite app_nth2, Nat.sub_diag by lia. apply decides_default.
      * intros c Hc. rewrite <- Hkeep by easy. unfold hget. now rewrite app_nth1 by lia.
    + inversion HF as [|p n l o (H1 & H2 & H3) HF' E1 E2]; subst. cbn [map] in Hnd. apply NoDup_cons_iff in Hnd as [Hnin Hnd].
      destruct (merge_all (node_ctx first) l others h' ltac:(lia) (written p) Hnin H3) as (M1 & M2 & M3).
      { eapply Forall2_impl; [|exact HF']. cbn. easy. }
      cbv zeta in M1, M2, M3. cbn [node_ctx node_parents all_nodes written flat_map].
      rewrite M1. split; [lia|]. split; [|split].
      * split; [easy|]. split; [easy|]. clear. induction others as [|n o IHo]; cbn; [easy|]. split; [apply all_nodes_set_ctx|exact IHo].
      * exact M2.
      * intros c Hc. rewrite M3 by lia. now apply Hkeep.
  - cbn [to_opipe build]. pose proof (IH h) as H. destruct (build (to_opipe p) h) as [n h1]. destruct H as (H1 & H2 & H3 & H4).
    unfold built. rewrite hset_length. split; [easy|]. split; [easy|]. split.
    + rewrite hget_hset_eq by lia. cbn [written]. change (e :: written p) with ([e] ++ written p). apply decides_merge; [apply decides_make|easy].
    + intros c Hc. rewrite hget_hset_neq by lia. now apply H4.
Qed.

(** Every iterator of a pipeline, before or after a with_options, sees the same options: for each
    field the value written closest to the output, else the default. *)
Theorem C49_pipeline p :
  let (root, h) := build (to_opipe p) [] in
  all_nodes (fun n => forall f, values (hget h (node_ctx n)) f =
                                match first_set (written p) f with Some v => v | None => default_value f end) root.
Proof.
  pose proof (build_built p []) as H. destruct (build (to_opipe p) []) as [root h]. destruct H as (_ & H2 & H3 & _).
  assert (Himp : forall (P Q : onode -> Prop), (forall n, P n -> Q n) -> forall n, all_nodes P n -> all_nodes Q n).
  { intros P Q HPQ. fix IH 1. intros [c ps] [H Hps]. cbn in *. split; [auto|]. clear H.
    induction ps as [|x ps IHps]; [easy|]. destruct Hps as [Hx Hps]. split; [now apply IH|now apply IHps]. }
  eapply Himp; [|exact H2]. cbn. intros n -> f. apply H3.
Qed.

Definition only (f : field) (v : value) : explicit := fun g =>
  match f, g with
  | FilterWarn, FilterWarn | FilterRaise, FilterRaise | ExecutionTracking, ExecutionTracking | MinShmSize, MinShmSize => Some v
  | _, _ => None
  end.
(** The example of the documentation (dataset.py:1700-1718) with a second branch: *)
Example C49_example :
  let left := POp [PWith (fun f => match f with FilterWarn => Some (VRatio 6 10) | FilterRaise => Some (VRatio 8 10) | _ => None end) (POp [])] in
  let right := PWith (only MinShmSize (VInt 5)) (PWith (only FilterRaise VNone) (POp [])) in
  let (root, h) := build (to_opipe (PWith (only FilterWarn (VRatio 7 10)) (POp [left; right]))) [] in
  map (fun f => values (hget h (node_ctx root)) f) [FilterWarn; FilterRaise; ExecutionTracking; MinShmSize] =
    [VRatio 7 10; VRatio 8 10; VMode 0; VInt 5] /\
  map node_ctx (node_parents root) = [node_ctx root; node_ctx root].
Proof. cbv. split; reflexivity. Qed.

(** * C50 *)

Fixpoint dsize (d : dnode) : nat := match d with DNode _ ps => S (list_sum (map dsize ps)) end.
Definition dsizes (l : list dnode) : nat := list_sum (map dsize l).

(** The datasets [k] steps upstream that are reached without passing a seed. *)
Definition unseeded_parents (d : dnode) : list dnode := match d with DNode None ps => ps | DNode (Some _) _ => [] end.
Fixpoint upstream (k : nat) (d : dnode) : list dnode :=
  match k with O => [d] | S k' => flat_map unseeded_parents (upstream k' d) end.
(** The seeds set exactly [k] steps upstream, from left to right, not hidden by a nearer
    one. *)
Definition seeds_at (k : nat) (d : dnode) : list Z :=
  flat_map (fun n => match n with DNode (Some s) _ => [s] | DNode None _ => [] end) (upstream k d).
(** All of them, nearest first, with their distance. *)
Definition nearest_seeds (d : dnode) : list (Z * Z) :=
  flat_map (fun k => map (fun s => (s, Z.of_nat k)) (seeds_at k d)) (seq 0 (dsize d)).

Definition level_seeds (k : Z) (l : list dnode) : list (Z * Z) :=
  flat_map (fun n => match n with DNode (Some s) _ => [(s, k)] | DNode None _ => [] end) l.
Fixpoint levels (h : nat) (k : Z) (l : list dnode) : list (Z * Z) :=
  match h with O => [] | S h' => level_seeds k l ++ levels h' (k + 1) (flat_map unseeded_parents l) end.

Lemma list_sum_cons a l : list_sum (a :: l) = (a + list_sum l)%nat. Proof. reflexivity. Qed.
Lemma dsizes_app l l' : dsizes (l ++ l') = (dsizes l + dsizes l')%nat.
Proof. unfold dsizes. rewrite map_app. apply list_sum_app. Qed.
Lemma dsizes_up l : (length l + dsizes (flat_map unseeded_parents l) <= dsizes l)%nat.
Proof.
  induction l as [|[[s|] ps] l IH]; [cbn; lia| |]; cbn [flat_map unseeded_parents app length].
  - unfold dsizes in *. cbn [map]. rewrite list_sum_cons. cbn [dsize]. lia.
  - rewrite dsizes_app. unfold dsizes in *. cbn [map]. rewrite list_sum_cons. cbn [dsize]. lia.
Qed.
Lemma levels_nil h k : levels h k [] = [].
Proof. revert k. induction h; intros k; cbn; [easy|]. apply IHh. Qed.

Lemma aggregate_levels fuel : forall xs ys k h acc,
  (dsizes xs + dsizes ys <= fuel)%nat -> (dsizes (ys ++ flat_map unseeded_parents xs) <= h)%nat ->
  aggregate fuel (map (fun n => (n, k)) xs ++ map (fun n => (n, k + 1)) ys) acc =
  Ok (acc ++ level_seeds k xs ++ levels h (k + 1) (ys ++ flat_map unseeded_parents xs)).
Proof.
  induction fuel as [|fuel IH].
  - intros xs ys k h acc Hf Hh.
    assert (xs = []) as -> by (destruct xs as [|[s ps] xs]; [easy|unfold dsizes in Hf; cbn [map] in Hf; rewrite list_sum_cons in Hf; cbn [dsize] in Hf; lia]).
    assert (ys = []) as -> by (destruct ys as [|[s ps] ys]; [easy|unfold dsizes in Hf; cbn [map] in Hf; rewrite list_sum_cons in Hf; cbn [dsize] in Hf; lia]).
    cbn. rewrite levels_nil, app_nil_r. reflexivity.
  - assert (Hcons : forall x xs ys k h acc, (dsizes (x :: xs) + dsizes ys <= S fuel)%nat ->
      (dsizes (ys ++ flat_map unseeded_parents (x :: xs)) <= h)%nat ->
      aggregate (S fuel) (map (fun n => (n, k)) (x :: xs) ++ map (fun n => (n, k + 1)) ys) acc =
      Ok (acc ++ level_seeds k (x :: xs) ++ levels h (k + 1) (ys ++ flat_map unseeded_parents (x :: xs)))).
    { intros [[s|] ps] xs ys k h acc Hf Hh; cbn [map app aggregate flat_map unseeded_parents level_seeds] in *.
      - rewrite (IH xs ys k h); [now rewrite <- app_assoc| |easy]. unfold dsizes in *. cbn [map] in Hf. rewrite list_sum_cons in Hf. cbn [dsize] in Hf. lia.
      - rewrite <- app_assoc, <- map_app, (IH xs (ys ++ ps) k h); rewrite <- ?app_assoc; try easy.
        rewrite dsizes_app. unfold dsizes in *. cbn [map] in Hf. rewrite list_sum_cons in Hf. cbn [dsize] in Hf. lia. }
    intros [|x xs] ys k h acc Hf Hh; [|now apply Hcons].
    cbn [flat_map] in *. rewrite app_nil_r in Hh |- *. cbn [map app level_seeds flat_map].
    destruct ys as [|y ys]; [cbn; now rewrite levels_nil, app_nil_r|].
    pose proof (dsizes_up (y :: ys)) as Hup. cbn [length] in Hup.
    destruct h as [|h]; [lia|]. cbn [levels].
    pose proof (Hcons y ys [] (k + 1) h acc) as H. rewrite app_nil_r in H. cbn [app] in H. apply H.
    + lia.
    + change (unseeded_parents y ++ flat_map unseeded_parents ys) with (flat_map unseeded_parents (y :: ys)). lia.
Qed.

Lemma upstream_S k d : upstream (S k) d = flat_map unseeded_parents (upstream k d).
Proof. reflexivity. Qed.
Lemma levels_seq h d k : levels h (Z.of_nat k) (upstream k d) =
  flat_map (fun k => map (fun s => (s, Z.of_nat k)) (seeds_at k d)) (seq k h).
Proof.
  revert k. induction h as [|h IH]; intros k; [easy|]. cbn [levels seq flat_map]. f_equal.
  - unfold level_seeds, seeds_at. generalize (upstream k d) as l. clear. induction l as [|[[s|] ps] l IH]; cbn; [easy| |easy]. now rewrite IH.
  - rewrite <- upstream_S, <- IH. f_equal. lia.
Qed.

(** The default seed is computed from the nearest seeds upstream and their distances, in a
    fixed order, and exists if and only if there is one. *)
Theorem C50_nearest_seeds mix fuel d : (dsize d <= fuel)%nat ->
  default_seed mix fuel d = Ok (match nearest_seeds d with [] => None | l => Some (mix l) end).
Proof.
  intros Hf. unfold default_seed.
  assert (H : aggregate fuel [(d, 0)] [] = Ok (nearest_seeds d)).
  { pose proof (aggregate_levels fuel [d] [] 0 (pred (dsize d)) []) as H.
    cbn [map app] in H. rewrite H.
    - f_equal. unfold nearest_seeds. rewrite <- (levels_seq (dsize d) d 0). destruct d as [s ps]. cbn [dsize pred].
      cbn [levels]. cbn. reflexivity.
    - unfold dsizes. cbn [map]. rewrite list_sum_cons. cbn. lia.
    - pose proof (dsizes_up [d]) as Hu. cbn [length] in Hu. unfold dsizes in *. cbn [map] in *. rewrite list_sum_cons in Hu.
      cbn [list_sum fold_right] in Hu. destruct d as [s ps]. cbn [dsize pred] in *. lia. }
  rewrite H. cbn. now destruct (nearest_seeds d).
Qed.

(** Nothing beyond a seed matters. *)
Inductive same_below_seeds : dnode -> dnode -> Prop :=
| same_seeded s ps ps' : same_below_seeds (DNode (Some s) ps) (DNode (Some s) ps')
| same_unseeded ps ps' : Forall2 same_below_seeds ps ps' -> same_below_seeds (DNode None ps) (DNode None ps').

Lemma same_levels h : forall k l l', Forall2 same_below_seeds l l' -> levels h k l = levels h k l'.
Proof.
  induction h as [|h IH]; intros k l l' H; [easy|]. cbn [levels]. f_equal.
  - clear IH. induction H as [|x y l l' Hxy H IH]; [easy|]. unfold level_seeds in *. destruct Hxy; cbn [flat_map]; now rewrite IH.
  - apply IH. clear IH. induction H as [|x y l l' Hxy H IH]; [constructor|]. destruct Hxy; cbn; [easy|]. now apply Forall2_app.
Qed.
Theorem C50_hidden_seeds mix fuel d d' : (dsize d <= fuel)%nat -> (dsize d' <= fuel)%nat ->
  same_below_seeds d d' -> default_seed mix fuel d = default_seed mix fuel d'.
Proof.
  intros H1 H2 H. unfold default_seed.
  assert (Hl : forall d, (dsize d <= fuel)%nat -> aggregate fuel [(d, 0)] [] = Ok (level_seeds 0 [d] ++ levels fuel 1 (flat_map unseeded_parents [d]))).
  { intros x Hx. pose proof (aggregate_levels fuel [x] [] 0 fuel []) as A. cbn [map app] in A. apply A.
    - unfold dsizes. cbn [map]. rewrite list_sum_cons. cbn. lia.
    - pose proof (dsizes_up [x]) as Hu. cbn [length] in Hu. unfold dsizes in *. cbn [map] in *. rewrite list_sum_cons in Hu.
      cbn [list_sum fold_right] in Hu. lia. }
  rewrite !Hl by easy. destruct H; [easy|]. cbn [flat_map level_seeds unseeded_parents]. rewrite !app_nil_r.
  now rewrite (same_levels fuel 1 ps ps' H).
Qed.

(** A seed given to the transformation itself is used as it is; without any seed the
    transformation is rejected. *)
Theorem C50_explicit_seed mix fuel d s : seed_of mix fuel d (Some s) = Ok s.
Proof. reflexivity. Qed.
Theorem C50_no_seed mix fuel d : (dsize d <= fuel)%nat -> (forall k, seeds_at k d = []) -> seed_of mix fuel d None = Raise ValueError.
Proof.
  intros Hf Hs. unfold seed_of. rewrite C50_nearest_seeds by easy. unfold nearest_seeds.
  assert (H : forall l, flat_map (fun k => map (fun s => (s, Z.of_nat k)) (seeds_at k d)) l = []).
  { induction l; cbn; [easy|]. now rewrite Hs. }
  now rewrite H.
Qed.

(** In a chain of transformations after ds.seed(s), the input of the seed computation is
    the seed and the position, so no two positions share it. *)
Fixpoint steps_after (n : nat) (d : dnode) : dnode := match n with O => d | S n' => DNode None [steps_after n' d] end.
Lemma dsize_steps n d : (n < dsize (steps_after n d))%nat.
Proof. induction n; cbn; [destruct d; cbn; lia|]. lia. Qed.
Theorem C50_position mix fuel n s ps : (dsize (steps_after n (DNode (Some s) ps)) <= fuel)%nat ->
  default_seed mix fuel (steps_after n (DNode (Some s) ps)) = Ok (Some (mix [(s, Z.of_nat n)])).
Proof.
  intros Hf. unfold default_seed.
  assert (H : forall fuel n k, (n < fuel)%nat -> aggregate fuel [(steps_after n (DNode (Some s) ps), k)] [] = Ok [(s, k + Z.of_nat n)]).
  { clear. induction fuel as [|fuel IH]; intros n k Hn; [lia|]. destruct n as [|n]; cbn [steps_after aggregate map app].
    - destruct fuel; cbn; do 3 f_equal; lia.
    - rewrite IH by lia. do 3 f_equal. lia. }
  rewrite H by (pose proof (dsize_steps n (DNode (Some s) ps)); lia). reflexivity.
Qed.

Example C50_example :
  let zip := DNode None [DNode None [DNode (Some 7) [DNode (Some 1) []]]; DNode (Some 9) []] in
  nearest_seeds zip = [(9, 1); (7, 2)] /\
  aggregate 10 [(zip, 0)] [] = Ok [(9, 1); (7, 2)] /\
  seed_of (fun _ => 5) 10 (DNode None [DNode None []]) None = Raise ValueError.
Proof. repeat split; reflexivity. Qed.
