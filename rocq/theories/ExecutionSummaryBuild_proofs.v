(** Proofs about building execution summaries. *)
From Coq Require Import QArith Lqa String.
From Verif Require Import Base Tree ExecutionSummary ExecutionSummarySpec ExecutionSummary_proofs.
Open Scope Z_scope.

Local Ltac spl := repeat match goal with |- _ /\ _ => split end.
Local Notation sizes ks := (list_sum (map vsize ks)).

(** ** Summaries with the keys 0, 1, 2, ... *)

Definition num_from (a : nat) (l : list node) : summary := combine (seq a (length l)) l.
Definition num (l : list node) : summary := num_from 0 l.
Lemma num_keys l : map fst (num l) = seq 0 (length l).
Proof.
  unfold num, num_from. generalize 0%nat. induction l as [|n l IH]; intros a; [reflexivity|]. cbn. f_equal. apply IH.
Qed.
Lemma num_snd l : map snd (num l) = l.
Proof.
  unfold num, num_from. generalize 0%nat. induction l as [|n l IH]; intros a; [reflexivity|]. cbn. f_equal. apply IH.
Qed.
Lemma num_length l : length (num l) = length l.
Proof. unfold num, num_from. rewrite combine_length, seq_length. lia. Qed.
Lemma keys_num s n : map fst s = seq 0 n -> s = num (map snd s).
Proof.
  unfold num, num_from. generalize 0%nat. revert n. induction s as [|[k m] s IH]; intros n a H; [reflexivity|].
  destruct n as [|n]; [discriminate|]. cbn in H. injection H as -> H. cbn. f_equal. now apply (IH n).
Qed.
Lemma node_at_num_from l : forall a k, node_at (num_from a l) (a + k) = nth k l default_node.
Proof.
  induction l as [|n l IH]; intros a k; [destruct k; reflexivity|].
  unfold num_from. cbn [length seq combine]. unfold node_at. rewrite lookup_cons. cbn [fst snd].
  destruct k as [|k].
  - rewrite Nat.add_0_r, Nat.eqb_refl. reflexivity.
  - destruct (a =? a + S k)%nat eqn:E; [apply Nat.eqb_eq in E; lia|]. rewrite Nat.add_succ_r, <- Nat.add_succ_l. apply IH.
Qed.
Lemma node_at_num l k : node_at (num l) k = nth k l default_node.
Proof. apply (node_at_num_from l 0 k). Qed.
Lemma put_num_mid l m r n : put_node (num (l ++ m :: r)) (length l) n = num (l ++ n :: r).
Proof.
  unfold num, num_from. rewrite !app_length. cbn [length].
  cut (forall a, put_node (combine (seq a (length l + S (length r))) (l ++ m :: r)) (a + length l) n
                 = combine (seq a (length l + S (length r))) (l ++ n :: r)). { intros H. apply (H 0%nat). }
  induction l as [|x l IH]; intros a; cbn.
  - rewrite Nat.add_0_r, Nat.eqb_refl. reflexivity.
  - destruct (a =? a + S (length l))%nat eqn:E; [apply Nat.eqb_eq in E; lia|]. f_equal.
    replace (a + S (length l))%nat with (S a + length l)%nat by lia. apply IH.
Qed.
Lemma put_num_end l n : put_node (num l) (length l) n = num (l ++ [n]).
Proof.
  unfold num, num_from. rewrite app_length. cbn [length].
  cut (forall a, put_node (combine (seq a (length l)) l) (a + length l) n = combine (seq a (length l + 1)) (l ++ [n])).
  { intros H. apply (H 0%nat). }
  induction l as [|x l IH]; intros a; cbn.
  - rewrite Nat.add_0_r. reflexivity.
  - destruct (a =? a + S (length l))%nat eqn:E; [apply Nat.eqb_eq in E; lia|]. f_equal.
    replace (a + S (length l))%nat with (S a + length l)%nat by lia. apply IH.
Qed.
Lemma nth_mid l (m : node) r : nth (length l) (l ++ m :: r) default_node = m.
Proof. rewrite app_nth2, Nat.sub_diag by lia. reflexivity. Qed.

(** ** Merging *)

Fixpoint map2 (f : node -> node -> node) (a b : list node) : list node :=
  match a, b with x :: a, y :: b => f x y :: map2 f a b | _, _ => [] end.
Lemma map2_length f a : forall b, length a = length b -> length (map2 f a b) = length a.
Proof. induction a as [|x a IH]; intros [|y b] H; cbn in *; try lia. f_equal. apply IH. lia. Qed.
Lemma nth_map2 f a : forall b k, length a = length b -> (k < length a)%nat ->
  nth k (map2 f a b) default_node = f (nth k a default_node) (nth k b default_node).
Proof.
  induction a as [|x a IH]; intros [|y b] k H K; cbn in *; try lia. destruct k as [|k]; [reflexivity|]. apply IH; lia.
Qed.
Lemma merge_num a b : length a = length b -> merge_summaries (num a) (num b) = num (map2 merge_node a b).
Proof.
  intros L. unfold merge_summaries.
  cut (forall don a b, length a = length b ->
         fold_left (fun to kn => put_node to (fst kn) (merge_node (snd kn) (node_at to (fst kn)))) (combine (seq (length don) (length a)) a) (num (don ++ b))
         = num (don ++ map2 merge_node a b)). { intros H. apply (H [] a b L). }
  clear. intros don a. revert don. induction a as [|x a IH]; intros don [|y b] L; cbn [length] in L; try lia; [reflexivity|].
  cbn [length seq combine fold_left map2 fst snd]. rewrite node_at_num, nth_mid, put_num_mid.
  specialize (IH (don ++ [merge_node x y]) b). rewrite app_length in IH. cbn [length] in IH. rewrite Nat.add_1_r in IH.
  rewrite <- !app_assoc in IH. cbn [app] in IH. apply IH. lia.
Qed.

Fixpoint zip_views (ks ls : list view) : list view :=
  match ks, ls with k :: ks, l :: ls => vmerge k l :: zip_views ks ls | _, _ => [] end.
Lemma vmerge_eq i p ks j q ls : vmerge (V i p ks) (V j q ls) = V (add_info i j) p (zip_views ks ls).
Proof.
  reflexivity.
Qed.
Lemma shape_size v : forall w, shape_of v = shape_of w -> vsize v = vsize w.
Proof.
  induction v as [i p ks IH] using view_ind'. intros [j q ls] H. cbn [shape_of] in H. injection H as _ H. cbn [vsize]. f_equal.
  revert ls H. induction IH as [|k ks Hk _ IHks]; intros [|l ls] H; try discriminate; [reflexivity|].
  cbn [map] in H. injection H as H1 H2. cbn. change (vsize k + sizes ks = vsize l + sizes ls)%nat. rewrite (Hk l H1), (IHks ls H2). reflexivity.
Qed.
Lemma vmerge_shape v : forall w, shape_of v = shape_of w -> shape_of (vmerge v w) = shape_of v.
Proof.
  induction v as [i p ks IH] using view_ind'. intros [j q ls] H. rewrite vmerge_eq. cbn [shape_of] in *. injection H as _ H. f_equal.
  revert ls H. induction IH as [|k ks Hk _ IHks]; intros [|l ls] H; try discriminate; [reflexivity|].
  cbn [map zip_views] in *. injection H as H1 H2. f_equal; auto.
Qed.
Lemma merge_info x y : n_info (merge_node x y) = add_info (n_info x) (n_info y).
Proof. unfold merge_node, add_info. cbn. f_equal; lia. Qed.
Lemma merge_shows a b : length a = length b -> forall v w id, shape_of v = shape_of w -> (id + vsize v <= length a)%nat ->
  shows (num a) id v -> shows (num b) id w -> shows (num (map2 merge_node a b)) id (vmerge v w).
Proof.
  intros L. induction v as [i p ks IH] using view_ind'. intros [j q ls] id H B Ha Hb. rewrite vmerge_eq.
  apply shows_eq in Ha, Hb. apply shows_eq. rewrite !node_at_num in *. cbn [vsize] in B. rewrite nth_map2 by lia.
  destruct Ha as (A1 & A2 & A3 & A4). destruct Hb as (B1 & B2 & B3 & B4).
  cbn [shape_of] in H. injection H as -> H. spl.
  - rewrite merge_info. now subst.
  - exact B2.
  - cbn [merge_node n_inputs]. rewrite A3. clear - H IH. generalize (S id). revert ls H.
    induction ks as [|k ks IHks]; intros [|l ls] H next; try discriminate; [reflexivity|]. cbn [map] in H. injection H as H1 H2.
    cbn [zip_views starts]. inversion IH; subst. rewrite (shape_size (vmerge k l) k) by (now apply vmerge_shape). f_equal. now apply IHks.
  - clear A1 A2 A3 B1 B2 B3. assert (S id + sizes ks <= length a)%nat as B' by lia. clear B. revert A4 B4 B'. generalize (S id). revert ls H.
    induction IH as [|k ks Hk _ IHks]; intros [|l ls] H next A4 B4 B'; try discriminate; [exact I|]. cbn [map] in H. injection H as H1 H2.
    cbn [zip_views shows_all] in *. change (next + (vsize k + sizes ks) <= length a)%nat in B'.
    destruct A4 as [A1 A2], B4 as [B1 B2]. split.
    + apply Hk; auto. lia.
    + rewrite (shape_size (vmerge k l) k) by (now apply vmerge_shape). apply (IHks ls); auto; [|lia].
      rewrite (shape_size k l H1). exact B2.
Qed.

(** A summary with the right ids. *)
Definition good_nodes (out : bool) (base : nat) (l : list node) : Prop :=
  forall j n, nth_error l j = Some n -> n_id n = (base + j)%nat /\ n_output n = (out && Nat.eqb j 0).
Definition drawn (l : list node) (v : view) : Prop :=
  length l = vsize v /\ shows (num l) 0 v /\ good_nodes true 0 l.

Lemma merge_drawn a b v w : shape_of v = shape_of w -> drawn a v -> drawn b w -> drawn (map2 merge_node a b) (vmerge v w).
Proof.
  intros S (La & Sa & Ga) (Lb & Sb & Gb). pose proof (shape_size v w S) as SZ. assert (length a = length b) as L by lia.
  split; [|split].
  - rewrite map2_length by exact L. rewrite (shape_size (vmerge v w) v) by now apply vmerge_shape. exact La.
  - apply merge_shows; auto. lia.
  - intros j n H. assert (j < length a)%nat as J. { rewrite <- (map2_length merge_node a b L). apply nth_error_Some. congruence. }
    apply nth_error_nth with (d := default_node) in H. rewrite nth_map2 in H by lia. subst n.
    cbn [merge_node n_id n_output]. apply Ga. now apply nth_error_nth'.
Qed.
Lemma merge_all_drawn a v ls : drawn a v -> Forall (fun lw => shape_of (snd lw) = shape_of v /\ drawn (fst lw) (snd lw)) ls ->
  exists m, merge_all (num a :: map (fun lw => num (fst lw)) ls) = num m /\ drawn m (fold_left vmerge (map snd ls) v).
Proof.
  intros Ha H. unfold merge_all. cbn [fold_left]. assert (merge_summaries [] (num a) = num a) as -> by reflexivity.
  revert a v Ha H. induction ls as [|[b w] ls IH]; intros a v Ha H; cbn [map fold_left fst snd]; [eauto|].
  inversion H as [|? ? [S Hb] H']; subst. cbn [fst snd] in *. rewrite merge_num.
  2:{ destruct Ha as [-> _], Hb as [-> _]. symmetry. now apply shape_size. }
  apply IH; [now apply merge_drawn|]. eapply Forall_impl; [|exact H']. intros [c u] [S' Hc]. split; [|exact Hc].
  rewrite vmerge_shape by congruence. exact S'.
Qed.

(** ** Putting a summary below a node *)

Definition moved_node (k : nat) (n : node) : node := not_output (offset_node k n).
Lemma starts_shift k ks : forall next, starts (next + k) ks = map (fun i => (i + k)%nat) (starts next ks).
Proof.
  induction ks as [|x ks IH]; intros next; [reflexivity|]. cbn [starts map]. f_equal. rewrite <- IH. f_equal. lia.
Qed.
Lemma moved_shows L w : forall v id, (id + vsize v <= length w)%nat -> shows (num w) id v ->
  shows (num (L ++ map (moved_node (length L)) w)) (id + length L) v.
Proof.
  induction v as [i p ks IH] using view_ind'. intros id B H. apply shows_eq in H. apply shows_eq. rewrite !node_at_num in *. cbn [vsize] in B.
  rewrite app_nth2 by lia. replace (id + length L - length L)%nat with id by lia.
  rewrite (nth_indep _ _ (moved_node (length L) default_node)) by (rewrite map_length; lia). rewrite map_nth.
  destruct H as (H1 & H2 & H3 & H4). spl.
  - exact H1.
  - exact H2.
  - cbn [moved_node not_output offset_node n_inputs]. rewrite H3. rewrite <- starts_shift. reflexivity.
  - clear H1 H2 H3. change (S (id + length L)) with (S id + length L)%nat.
    assert (S id + sizes ks <= length w)%nat as B' by lia. clear B. revert B' H4. generalize (S id).
    induction IH as [|k ks Hk _ IHks]; intros next B H; [exact I|]. cbn [shows_all] in *.
    change (next + (vsize k + sizes ks) <= length w)%nat in B. destruct H as [H1 H2]. split; [apply Hk; auto; lia|].
    replace (next + length L + vsize k)%nat with (next + vsize k + length L)%nat by lia. apply IHks; auto. lia.
Qed.
Lemma put_all (ws : summary) : forall L, (forall j (kn : nat * node), nth_error ws j = Some kn -> n_id (snd kn) = (length L + j)%nat) ->
  fold_left (fun main (kn : nat * node) => put_node main (n_id (snd kn)) (snd kn)) ws (num L) = num (L ++ map snd ws).
Proof.
  induction ws as [|[k n] ws IH]; intros L H; cbn [fold_left map snd]; [now rewrite app_nil_r|].
  pose proof (H 0%nat _ eq_refl) as E. cbn [snd] in E. rewrite E, Nat.add_0_r, put_num_end, IH, <- app_assoc; [reflexivity|].
  intros j kn Hj. rewrite app_length. cbn [length]. rewrite (H (S j) kn Hj). lia.
Qed.
Lemma complete_num l nd w : good_nodes true 0 w ->
  complete_summary (num (l ++ [nd])) (num w) (length l + 1)
  = num (l ++ mkNode (n_id nd) (consuming (n_info nd) (match w with [] => 0 | n :: _ => i_produced (n_info n) end))
                (n_inputs nd ++ match w with [] => [] | _ => [(length l + 1)%nat] end) (n_ratio nd) (n_output nd) (n_prefetch nd)
           :: map (moved_node (length l + 1)) w).
Proof.
  intros G. unfold complete_summary. set (k := (length l + 1)%nat).
  assert (filter n_output (map snd (map (fun kn => (fst kn, offset_node k (snd kn))) (num w)))
          = match w with [] => [] | n :: _ => [offset_node k n] end) as ->.
  { rewrite map_map. cbn [snd]. rewrite <- (map_map (@snd nat node) (offset_node k)), num_snd.
    destruct w as [|n w]; [reflexivity|]. cbn [map filter]. destruct (G 0%nat n eq_refl) as [_ O]. cbn in O.
    change (n_output (offset_node k n)) with (n_output n). rewrite O. f_equal.
    assert (forall j m, nth_error w j = Some m -> n_output m = false) as G'. { intros j m Hj. now destruct (G (S j) m Hj) as [_ ->]. }
    clear -G'. induction w as [|m w IH]; [reflexivity|]. cbn [map filter]. change (n_output (offset_node k m)) with (n_output m).
    rewrite (G' 0%nat m eq_refl). apply IH. intros j x Hj. apply (G' (S j) x Hj). }
  assert (k - 1 = length l)%nat as -> by (unfold k; lia). rewrite node_at_num, nth_mid, put_num_mid.
  rewrite map_map. cbn [fst snd].
  rewrite put_all.
  - rewrite map_map. cbn [snd]. rewrite <- (map_map (@snd nat node) (fun n => not_output (offset_node k n))), num_snd.
    rewrite <- app_assoc. cbn [app]. f_equal. f_equal. f_equal.
    unfold consuming. destruct w as [|n w]; cbn [map fold_right]; f_equal; try (f_equal; cbn; lia).
    cbn [offset_node n_id]. destruct (G 0%nat n eq_refl) as [-> _]. f_equal.
  - intros j kn Hj. rewrite nth_error_map in Hj. destruct (nth_error (num w) j) as [[k' n]|] eqn:E; [|discriminate].
    cbn in Hj. injection Hj as <-. cbn [snd not_output offset_node n_id].
    assert (nth_error w j = Some n) as E'. { rewrite <- (num_snd w), nth_error_map, E. reflexivity. }
    destruct (G j n E') as [-> _]. rewrite app_length. cbn [length]. unfold k. lia.
Qed.

(** ** Building *)

Section StatsInd.
Variable P : stats -> Prop.
Hypothesis HP : forall i p ps, Forall P ps -> P (Plain i p ps).
Hypothesis HI : forall i ps, Forall P ps -> P (Interleaved i ps).
Hypothesis HN : forall i, P (InWorker i None).
Hypothesis HW : forall i p, P p -> P (InWorker i (Some p)).
Fixpoint stats_ind' (t : stats) : P t :=
  let all := fix all (ps : list stats) : Forall P ps :=
    match ps with [] => Forall_nil _ | p :: ps => Forall_cons _ (stats_ind' p) (all ps) end in
  match t with
  | Plain i p ps => HP i p ps (all ps)
  | Interleaved i ps => HI i ps (all ps)
  | InWorker i None => HN i
  | InWorker i (Some p) => HW i p (stats_ind' p)
  end.
End StatsInd.

Lemma fold_shape vs : forall v, Forall (fun w => shape_of w = shape_of v) vs -> shape_of (fold_left vmerge vs v) = shape_of v.
Proof.
  induction vs as [|w vs IH]; intros v H; [reflexivity|]. inversion H as [|? ? H1 H2]; subst. cbn [fold_left].
  rewrite IH; [now apply vmerge_shape|]. eapply Forall_impl; [|exact H2]. intros u Hu. rewrite Hu. symmetry. now apply vmerge_shape.
Qed.
Lemma shape_narrow v : forall w, shape_of v = shape_of w -> narrow v -> narrow w.
Proof.
  induction v as [i p ks IH] using view_ind'. intros [j q ls] H N. inversion N as [? ? ? N1 N2]; subst. cbn [shape_of] in H. injection H as -> H.
  constructor.
  - intros E. specialize (N1 E). apply (f_equal (@length _)) in H. rewrite !map_length in H. lia.
  - clear N1 N. revert ls H N2. induction IH as [|k ks Hk _ IHks]; intros [|l ls] H N2; try discriminate; [constructor|].
    cbn [map] in H. injection H as H1 H2. inversion N2; subst. constructor; auto.
Qed.
(** What is known of the parents of an interleaving. *)
Lemma interleaved_shapes p ps : (forall a b, In a (p :: ps) -> In b (p :: ps) -> shape_of (expected a) = shape_of (expected b)) ->
  Forall (fun w => shape_of w = shape_of (expected p)) (map expected ps).
Proof. intros H. apply Forall_forall. intros w Hw. apply in_map_iff in Hw. destruct Hw as (q & <- & Hq). apply H; cbn; tauto. Qed.

Lemma expected_narrow t : pipeline t -> narrow (expected t).
Proof.
  induction t as [i p ps IH|i ps IH|i|i p IH] using stats_ind'; intros H; inversion H as [? ? ? H1 H2 H3|? ? H1 H2|?|? ? H1]; subst; cbn [expected].
  - constructor; [now rewrite map_length|]. clear - IH H1. induction IH; [constructor|]. inversion H1; subst. cbn [map]. constructor; auto.
  - destruct (same_size (map expected ps)) eqn:E; [|constructor; [discriminate|constructor]]. specialize (H2 eq_refl).
    destruct ps as [|p ps]; cbn [map over]; [constructor; [discriminate|constructor]|]. constructor; [discriminate|]. constructor; [|constructor].
    inversion IH as [|? ? Hp _]; subst. inversion H1; subst. eapply shape_narrow; [|now apply Hp].
    symmetry. apply fold_shape. now apply interleaved_shapes.
  - constructor; [cbn; lia|constructor].
  - constructor; [cbn; lia|]. constructor; [now apply IH|constructor].
Qed.
Lemma expected_size t : pipeline t -> (vsize (expected t) <= tsize t)%nat.
Proof.
  induction t as [i p ps IH|i ps IH|i|i p IH] using stats_ind'; intros H; inversion H as [? ? ? H1 H2 H3|? ? H1 H2|?|? ? H1]; subst; cbn [expected tsize].
  - cbn [vsize]. apply le_n_S. rewrite map_map. clear - IH H1. induction IH; [reflexivity|]. inversion H1; subst. cbn [map list_sum fold_right].
    apply Nat.add_le_mono; auto.
  - destruct (same_size (map expected ps)) eqn:E; [|cbn; lia]. specialize (H2 eq_refl).
    destruct ps as [|p ps]; cbn [map over]; [cbn; lia|]. cbn [vsize map list_sum fold_right]. inversion IH as [|? ? Hp _]; subst. inversion H1; subst.
    rewrite (shape_size _ (expected p)) by (apply fold_shape; now apply interleaved_shapes). specialize (Hp ltac:(assumption)).
    apply le_n_S. unfold list_sum. lia.
  - cbn. lia.
  - specialize (IH H1). cbn [over fold_left vsize map list_sum fold_right]. lia.
Qed.

Section Build.
Variable rnd : Q -> Q.

Definition visit (rec : stats -> summary -> nat -> res (summary * nat)) (id : nat) :=
  fix visit (ps : list stats) (s : summary) (next : nat) {struct ps} : res (summary * nat) :=
    match ps with
    | [] => Ok (s, next)
    | p :: ps =>
        let n := node_at s id in
        let s := put_node s id (with_inputs n (n_inputs n ++ [S next])) in
        let! (s, next) := rec p s (S next) in
        visit ps s next
    end.
Definition subs_of (rec : stats -> res summary) :=
  fix all (ps : list stats) {struct ps} : res (list summary) :=
    match ps with
    | [] => Ok []
    | p :: ps => let! sub := rec p in let! subs := all ps in Ok (sub :: subs)
    end.
Lemma build_plain fuel out i pf ps s id :
  build rnd fuel out (Plain i pf ps) s id = visit (build rnd fuel false) id ps (put_node s id (new_node i id out pf)) id.
Proof. reflexivity. Qed.
Lemma bind_assoc {A B C} (r : res A) (f : A -> res B) (g : B -> res C) : bind (bind r f) g = bind r (fun a => bind (f a) g).
Proof. now destruct r. Qed.
Lemma build_interleaved fuel out i ps s id :
  build rnd fuel out (Interleaved i ps) s id =
  (let s := put_node s id (new_node i id out false) in
   let! subs := subs_of (execution_summary rnd fuel) ps in
   if same_length subs then Ok (complete_summary s (merge_all subs) (id + 1), id) else Ok (s, id)).
Proof.
  cbn [build]. cbv zeta. f_equal. induction ps as [|p ps IH]; [reflexivity|]. cbn [subs_of]. unfold execution_summary at 1.
  rewrite IH. destruct (build rnd fuel true p [] 0) as [[sub k]|e|]; reflexivity.
Qed.

Definition built (fuel : nat) (t : stats) : Prop := forall out l, exists new next,
  build rnd fuel out t (num l) (length l) = Ok (num (l ++ new), next) /\
  length new = vsize (expected t) /\ (simple t = true -> S next = (length l + vsize (expected t))%nat) /\
  shows (num (l ++ new)) (length l) (expected t) /\ good_nodes out (length l) new.

(** A list that differs from another one outside of a range only. *)
Lemma shows_all_more L L' ks next : (forall k, (next <= k < next + sizes ks)%nat -> nth k L' default_node = nth k L default_node) ->
  shows_all (num L) next ks -> shows_all (num L') next ks.
Proof. intros H. apply shows_all_ext. intros k Hk. rewrite !node_at_num, H by exact Hk. apply like_refl. Qed.
Lemma shows_more L L' v id : (forall k, (id <= k < id + vsize v)%nat -> nth k L' default_node = nth k L default_node) ->
  shows (num L) id v -> shows (num L') id v.
Proof. intros H. apply shows_ext. intros k Hk. rewrite !node_at_num, H by exact Hk. apply like_refl. Qed.

Lemma visit_spec fuel ps : Forall (built fuel) ps -> forallb simple (all_but_last ps) = true ->
  forall l nd new, exists new' next,
  visit (build rnd fuel false) (length l) ps (num (l ++ nd :: new)) (length l + length new) =
    Ok (num (l ++ with_inputs nd (n_inputs nd ++ starts (S (length l + length new)) (map expected ps)) :: new ++ new'), next) /\
  length new' = sizes (map expected ps) /\ (forallb simple ps = true -> next = (length l + length new + length new')%nat) /\
  (forall nd', shows_all (num (l ++ nd' :: new ++ new')) (S (length l + length new)) (map expected ps)) /\
  good_nodes false (S (length l + length new)) new'.
Proof.
  induction 1 as [|p ps Hp _ IH]; intros S0 l nd new.
  - exists [], (length l + length new)%nat. cbn [visit starts map]. rewrite !app_nil_r. spl; try reflexivity.
    + destruct nd; reflexivity.
    + cbn. lia.
    + intros j n H. destruct j; discriminate.
  - cbn [visit]. rewrite node_at_num, nth_mid, put_num_mid. set (nd1 := with_inputs nd _).
    assert (length (l ++ nd1 :: new) = S (length l + length new)) as EL by (rewrite app_length; cbn; lia).
    destruct (Hp false (l ++ nd1 :: new)) as (np & next & EB & LN & DN & SN & GN). rewrite EL in *. rewrite EB. cbn [bind].
    rewrite <- app_assoc in *. cbn [app] in *.
    destruct ps as [|q ps].
    + exists np, next. cbn [visit map starts]. spl.
      * unfold nd1. do 3 f_equal.
      * cbn. unfold list_sum. cbn. lia.
      * cbn [forallb]. rewrite andb_true_r. intros E. specialize (DN E). lia.
      * intros nd'. cbn [shows_all]. split; [|exact I]. eapply shows_more; [|exact SN]. intros k Hk.
        rewrite !app_nth2 by lia. destruct (k - length l)%nat eqn:E; [lia|]. reflexivity.
      * exact GN.
    + cbn [all_but_last forallb] in S0. apply andb_prop in S0. destruct S0 as [S1 S2]. change (all_but_last (q :: ps)) with (match ps with [] => [] | _ => q :: all_but_last ps end) in IH.
      specialize (DN S1).
      destruct (IH S2 l nd1 (new ++ np)) as (new' & next' & EV & LN' & DN' & SN' & GN').
      assert (next = length l + length (new ++ np))%nat as -> by (rewrite app_length; lia).
      rewrite EV. exists (np ++ new'), next'. spl.
      * f_equal. f_equal. f_equal. f_equal. f_equal.
        -- unfold nd1, with_inputs. cbn [n_inputs n_id n_info n_ratio n_output n_prefetch]. rewrite <- app_assoc.
           replace (S (length l + length (new ++ np))) with (S (length l + length new) + vsize (expected p))%nat by (rewrite app_length; lia). reflexivity.
        -- now rewrite <- app_assoc.
      * rewrite app_length, LN, LN'. reflexivity.
      * cbn [forallb]. intros E. apply andb_prop in E. destruct E as [_ E]. rewrite (DN' E). rewrite !app_length. lia.
      * intros nd'. change (map expected (p :: q :: ps)) with (expected p :: map expected (q :: ps)). cbn [shows_all]. split.
        -- eapply shows_more; [|exact SN]. intros k Hk. rewrite !app_nth2 by lia. destruct (k - length l)%nat as [|k'] eqn:E; [lia|]. cbn [nth].
           rewrite app_assoc, app_nth1 by (rewrite app_length; lia). reflexivity.
        -- specialize (SN' nd'). rewrite <- app_assoc in SN'.
           replace (S (length l + length new) + vsize (expected p))%nat with (S (length l + length (new ++ np))) by (rewrite app_length; lia). exact SN'.
      * intros j n Hj. destruct (Nat.lt_ge_cases j (length np)) as [J|J].
        -- rewrite nth_error_app1 in Hj by exact J. exact (GN j n Hj).
        -- rewrite nth_error_app2 in Hj by exact J. destruct (GN' _ n Hj) as [G1 G2]. rewrite app_length in G1. split; [lia|exact G2].
Qed.

Lemma like_shows s s' v : like s s' -> shows s 0 v -> shows s' 0 v.
Proof. intros [_ L]. apply shows_ext. intros k _. apply L. Qed.

(** The summary of a pipeline of its own. *)
Lemma execution_drawn fuel t : pipeline t -> (tsize t < fuel)%nat -> built fuel t ->
  exists l, execution_summary rnd fuel t = Ok (num l) /\ drawn l (expected t).
Proof.
  intros P F B. unfold execution_summary. destruct (B true []) as (new & next & EB & LN & _ & SN & GN). cbn [length app] in *.
  change (num []) with (@nil (nat * node)) in EB. rewrite EB. cbn [bind].
  pose proof (expected_size t P) as ES.
  destruct (populate_spec rnd (num new) (expected t) fuel) as (s' & -> & L & _).
  { rewrite num_keys. now f_equal. }
  { exact SN. }
  { now apply expected_narrow. }
  { lia. }
  pose proof L as [LK LN']. rewrite num_keys in LK. pose proof (keys_num s' _ LK) as Es.
  exists (map snd s'). rewrite <- Es. assert (length (map snd s') = length new) as Len.
  { apply (f_equal (@length _)) in LK. rewrite map_length, seq_length in LK. now rewrite map_length. }
  split; [reflexivity|]. split; [lia|]. split.
  - rewrite <- Es. eapply like_shows; [exact L|exact SN].
  - intros j n Hj. assert (j < length new)%nat as J. { rewrite <- Len. apply nth_error_Some. congruence. }
    specialize (LN' j). rewrite Es, !node_at_num in LN'. rewrite (nth_error_nth _ _ default_node Hj) in LN'.
    destruct LN' as (L1 & _ & _ & L4 & _). rewrite L1, L4. apply GN. now apply nth_error_nth'.
Qed.
Lemma subs_spec fuel ps : Forall pipeline ps -> Forall (built fuel) ps -> Forall (fun p => tsize p < fuel)%nat ps ->
  exists ls, subs_of (execution_summary rnd fuel) ps = Ok (map num ls) /\ Forall2 (fun l p => drawn l (expected p)) ls ps.
Proof.
  induction 1 as [|p ps P1 _ IH]; intros B F; [exists []; split; [reflexivity|constructor]|].
  inversion B; subst. inversion F; subst. destruct IH as (ls & E & H); [assumption..|].
  destruct (execution_drawn fuel p P1 ltac:(assumption) ltac:(assumption)) as (l & E1 & D1).
  exists (l :: ls). cbn [subs_of]. rewrite E1. cbn [bind]. rewrite E. split; [reflexivity|]. constructor; assumption.
Qed.

(** A summary below a new node. *)
Lemma over_spec l i out pf w v : drawn w v ->
  exists new, complete_summary (num (l ++ [new_node i (length l) out pf])) (num w) (length l + 1) = num (l ++ new) /\
    let e := V (consuming i (i_produced (v_info v))) pf [v] in
    length new = vsize e /\ shows (num (l ++ new)) (length l) e /\ good_nodes out (length l) new.
Proof.
  intros (L & S0 & G). rewrite (complete_num l _ w G). eexists. split; [reflexivity|]. cbv zeta.
  destruct w as [|n0 w]. { exfalso. pose proof (vsize_pos v). cbn in L. lia. }
  set (W := n0 :: w) in *. spl.
  - cbn [length]. rewrite map_length, L. cbn. lia.
  - apply shows_eq. rewrite node_at_num, nth_mid. cbn [n_info n_prefetch n_inputs new_node app]. spl.
    + destruct v as [iv pv kv]. apply shows_eq in S0. destruct S0 as [S0 _]. rewrite node_at_num in S0. cbn in S0. subst iv. reflexivity.
    + reflexivity.
    + cbn [starts]. f_equal. lia.
    + cbn [shows_all]. split; [|exact I].
      match goal with |- shows (num (l ++ ?h :: _)) _ _ => pose proof (moved_shows (l ++ [h]) W v 0 ltac:(lia) S0) as M end.
      rewrite app_length in M. cbn [length] in M. rewrite <- app_assoc in M. cbn [app] in M.
      replace (S (length l)) with (0 + (length l + 1))%nat by lia. exact M.
  - intros j n Hj. destruct j as [|j]; cbn [nth_error] in Hj.
    + injection Hj as <-. cbn. split; [lia|]. now rewrite andb_true_r.
    + rewrite nth_error_map in Hj. destruct (nth_error W j) as [m|] eqn:E; [|discriminate]. cbn in Hj. injection Hj as <-.
      cbn [moved_node not_output offset_node n_id n_output]. destruct (G j m E) as [-> _]. split; [lia|]. cbn. now rewrite andb_false_r.
Qed.
Lemma over_nothing l i out pf :
  complete_summary (num (l ++ [new_node i (length l) out pf])) (num []) (length l + 1) =
  num (l ++ [mkNode (length l) (consuming i 0) [] 0%Q out pf]).
Proof. rewrite complete_num; [reflexivity|]. intros j n H. destruct j; discriminate. Qed.
Lemma leaf_spec l i out pf :
  let new := [mkNode (length l) i [] 0%Q out pf] in
  length new = vsize (V i pf []) /\ shows (num (l ++ new)) (length l) (V i pf []) /\ good_nodes out (length l) new.
Proof.
  cbv zeta. spl.
  - reflexivity.
  - apply shows_eq. rewrite node_at_num, nth_mid. cbn. tauto.
  - intros j n H. destruct j as [|[|j]]; cbn in H; try discriminate. injection H as <-. cbn. rewrite andb_true_r. split; [lia|reflexivity].
Qed.

Lemma build_spec fuel t : pipeline t -> (tsize t < fuel)%nat -> built fuel t.
Proof.
  induction t as [i p ps IH|i ps IH|i|i p IH] using stats_ind'; intros P F out l.
  - inversion P as [? ? ? P1 P2 P3| | |]; subst. rewrite build_plain, put_num_end.
    assert (Forall (built fuel) ps) as B.
    { cbn [tsize] in F. clear - IH P1 F. induction IH as [|q ps Hq _ IHps]; [constructor|]. inversion P1; subst. cbn in F. change (fold_right Nat.add 0%nat (map tsize ps)) with (list_sum (map tsize ps)) in F.
      constructor; [apply Hq; auto; lia|apply IHps; auto; lia]. }
    destruct (visit_spec fuel ps B P2 l (new_node i (length l) out p) []) as (new & next & E & LN & DN & SN & GN).
    cbn [length app] in *. rewrite Nat.add_0_r in *. rewrite E. eexists (_ :: new), next. split; [reflexivity|].
    cbn [expected]. spl.
    + cbn [length vsize]. now rewrite LN.
    + cbn [simple]. intros S0. rewrite (DN S0), LN. cbn [vsize]. lia.
    + apply shows_eq. rewrite node_at_num, nth_mid. cbn [with_inputs n_info n_prefetch n_inputs new_node app]. spl; try reflexivity. apply SN.
    + intros j n Hj. destruct j as [|j]; cbn [nth_error] in Hj.
      * injection Hj as <-. cbn. rewrite andb_true_r. split; [lia|reflexivity].
      * destruct (GN j n Hj) as [-> ->]. cbn. rewrite andb_false_r. split; [lia|reflexivity].
  - inversion P as [|? ? P1 P2| |]; subst. rewrite build_interleaved, put_num_end. cbv zeta. cbn [tsize] in F.
    assert (Forall (fun q => tsize q < fuel)%nat ps) as FS.
    { clear - F. induction ps as [|q ps IH]; [constructor|]. cbn in F. change (fold_right Nat.add 0%nat (map tsize ps)) with (list_sum (map tsize ps)) in F. constructor; [lia|apply IH; lia]. }
    assert (Forall (built fuel) ps) as B.
    { clear - IH P1 FS. induction IH as [|q ps Hq _ IHps]; [constructor|]. inversion P1; subst. inversion FS; subst. constructor; auto. }
    destruct (subs_spec fuel ps P1 B FS) as (ls & -> & H2). cbn [bind].
    assert (same_length (map num ls) = same_size (map expected ps)) as ->.
    { clear - H2. destruct H2 as [|l0 p0 ls ps H0 H2]; [reflexivity|]. cbn [map same_length same_size]. rewrite num_length. destruct H0 as [-> _].
      induction H2 as [|l1 p1 ls ps H1 _ IH]; [reflexivity|]. cbn [map forallb]. rewrite num_length. destruct H1 as [-> _]. now rewrite IH. }
    cbn [expected]. destruct (same_size (map expected ps)) eqn:SS.
    + specialize (P2 eq_refl). destruct H2 as [|l0 p0 ls ps H0 H2].
      * cbn [map merge_all fold_left over]. change (merge_all []) with (num []). rewrite over_nothing.
        destruct (leaf_spec l (consuming i 0) out false) as (L1 & L2 & L3). eexists _, _. spl; try reflexivity; try assumption. cbn. discriminate.
      * destruct (merge_all_drawn l0 (expected p0) (combine ls (map expected ps)) H0) as (m & Em & Hm).
        { clear - H2 P2. assert (forall q, In q ps -> shape_of (expected q) = shape_of (expected p0)) as Q by (intros q Hq; apply P2; cbn; tauto). clear P2.
          induction H2 as [|l1 p1 ls ps H1 _ IH]; [constructor|]. cbn [map combine]. constructor; [split; [apply Q; now left|exact H1]|]. apply IH. intros q Hq. apply Q. now right. }
        assert (map (fun lw => num (fst lw)) (combine ls (map expected ps)) = map num ls) as E1.
        { clear - H2. induction H2 as [|l1 p1 ls ps H1 _ IH]; [reflexivity|]. cbn [map combine fst]. now rewrite IH. }
        assert (map snd (combine ls (map expected ps)) = map expected ps) as E2.
        { clear - H2. induction H2 as [|l1 p1 ls ps H1 _ IH]; [reflexivity|]. cbn [map combine snd]. now rewrite IH. }
        rewrite E1 in Em. rewrite E2 in Hm. cbn [map]. rewrite Em. cbn [over].
        destruct (over_spec l i out false m _ Hm) as (new & -> & L1 & L2 & L3). cbv zeta. exists new, (length l). spl; try reflexivity; try assumption. cbn. discriminate.
    + destruct (leaf_spec l i out false) as (L1 & L2 & L3). eexists _, _. spl; try reflexivity; try assumption. cbn. discriminate.
  - cbn [build]. rewrite put_num_end. change (merge_all []) with (num []). rewrite over_nothing. cbn [expected over].
    destruct (leaf_spec l (consuming i 0) out true) as (L1 & L2 & L3). eexists _, _. spl; try reflexivity; try assumption. cbn. discriminate.
  - inversion P as [| | |? ? P1]; subst. cbn [tsize] in F. cbn [build]. rewrite put_num_end.
    destruct (execution_drawn fuel p P1 ltac:(lia) (IH P1 ltac:(lia))) as (m & Em & Hm). unfold execution_summary in Em.
    destruct (build rnd fuel true p [] 0) as [[sub k]|e|]; cbn [bind] in *; [|discriminate|discriminate]. rewrite Em. cbn [bind].
    change (merge_all [num m]) with (merge_summaries [] (num m)). change (merge_summaries [] (num m)) with (num m).
    destruct (over_spec l i out true m _ Hm) as (new & -> & L1 & L2 & L3). exists new, (length l). cbn [expected over fold_left]. spl; try reflexivity; try assumption. cbn. discriminate.
Qed.

Theorem execution_summary_spec fuel t : pipeline t -> (tsize t < fuel)%nat ->
  exists s, execution_summary rnd fuel t = Ok s /\ draws s (expected t) /\
    (group_time (expected t) <> 0 -> measured (expected t) ->
     node_ratios s = waits rnd 1 (group_time (expected t)) (expected t)).
Proof.
  intros P F. pose proof (build_spec fuel t P F) as B. destruct (execution_drawn fuel t P F B) as (l & E & L & S0 & G).
  exists (num l). split; [exact E|]. split.
  - split; [rewrite num_keys; now f_equal|]. split; [exact S0|]. intros k n H.
    apply In_nth_error in H. destruct H as [j Hj].
    assert (nth_error l j = Some n) as E1. { rewrite <- (num_snd l), nth_error_map, Hj. reflexivity. }
    assert (nth_error (seq 0 (length l)) j = Some k) as E2. { rewrite <- num_keys, nth_error_map, Hj. reflexivity. }
    assert (j < length l)%nat as J by (apply nth_error_Some; congruence).
    apply nth_error_nth with (d := 0%nat) in E2. rewrite seq_nth in E2 by exact J. cbn in E2. subst j. exact (G k n E1).
  - unfold execution_summary in E. destruct (B true []) as (new & next & EB & LN & _ & SN & GN). cbn [length app] in *.
    change (num []) with (@nil (nat * node)) in EB. rewrite EB in E. cbn [bind] in E.
    pose proof (expected_size t P) as ES.
    destruct (populate_spec rnd (num new) (expected t) fuel) as (s' & E' & _ & R).
    { rewrite num_keys. now f_equal. }
    { exact SN. }
    { now apply expected_narrow. }
    { lia. }
    rewrite E in E'. injection E' as <-. exact R.
Qed.
End Build.
