(** C74: the options of a pipeline with worker processes, threads and interleave. *)
From Verif Require Import Base Options OptionsMp Prop_Options OptionsMpSpec.

Local Ltac spl := repeat match goal with |- _ /\ _ => split end.

Lemma upipe_ind' (P : upipe -> Prop) :
  (forall id ps, Forall P ps -> P (UOp id ps)) -> (forall e p, P p -> P (UWith e p)) -> forall p, P p.
Proof.
  intros H1 H2. fix IH 1. intros [id ps|e p]; [|apply H2, IH].
  apply H1. induction ps as [|p ps IHps]; constructor; [apply IH|exact IHps].
Qed.

Lemma fold_decides ps : forall os done o, decides done o -> Forall2 (fun p x => decides (uwritten p) x) ps os ->
  decides (done ++ flat_map uwritten ps) (fold_left (fun o x => merge o (Some x)) os o).
Proof.
  induction ps as [|p ps IH]; intros os done o Hd HF; inversion HF as [|a x b xs Hx HF']; subst; cbn [flat_map fold_left].
  - now rewrite app_nil_r.
  - rewrite app_assoc. apply IH; [|easy]. now apply decides_merge.
Qed.
(** Within one process: as in C49. *)
Lemma ctx_decides p : decides (uwritten p) (ctx_options (to_m p)).
Proof.
  induction p as [id ps IH|e p IH] using upipe_ind'.
  - cbn [to_m ctx_options uwritten]. rewrite map_map. destruct ps as [|p ps]; [exact decides_default|].
    inversion IH as [|a b Hp Hps]; subst. cbn [map flat_map]. apply fold_decides; [easy|].
    clear - Hps. induction Hps; constructor; auto.
  - cbn [to_m ctx_options uwritten]. apply (decides_merge [e]); [apply decides_make|easy].
Qed.

(** ** get_dataset_options *)
(** The order in which it meets the options: the last parent first. *)
Fixpoint backwards (p : upipe) : list explicit :=
  match p with
  | UOp _ ps => (fix go l := match l with [] => [] | p :: l => go l ++ backwards p end) ps
  | UWith e p => e :: backwards p
  end.
Lemma backwards_op id ps : backwards (UOp id ps) = flat_map backwards (rev ps).
Proof.
  cbn [backwards]. induction ps as [|p ps IH]; [easy|]. cbn [rev]. rewrite flat_map_app, <- IH. cbn [flat_map]. now rewrite app_nil_r.
Qed.
Definition mtotal (l : list mpipe) : nat := fold_right (fun p n => msize p + n)%nat 0%nat l.
Lemma mtotal_app a b : mtotal (a ++ b) = (mtotal a + mtotal b)%nat.
Proof. induction a as [|x a IH]; [easy|]. cbn [app mtotal fold_right]. fold (mtotal (a ++ b)). fold (mtotal a). lia. Qed.
Lemma mtotal_rev a : mtotal (rev a) = mtotal a.
Proof. induction a as [|x a IH]; [easy|]. cbn [rev]. rewrite mtotal_app, IH. cbn [mtotal fold_right]. fold (mtotal a). lia. Qed.
Lemma msize_parents p : msize p = S (mtotal (mparents p)).
Proof. destruct p; cbn; try lia; reflexivity. Qed.
Lemma visit_decides : forall fuel st done o, decides done o -> (mtotal (map to_m st) <= fuel)%nat ->
  exists o', visit fuel o (map to_m st) = Ok o' /\ decides (done ++ flat_map backwards st) o'.
Proof.
  induction fuel as [|fuel IH]; intros [|p st] done o Hd Hf.
  - exists o. split; [easy|]. cbn. now rewrite app_nil_r.
  - cbn [map mtotal fold_right] in Hf. rewrite msize_parents in Hf. lia.
  - exists o. split; [easy|]. cbn. now rewrite app_nil_r.
  - cbn [map mtotal fold_right] in Hf. fold (mtotal (map to_m st)) in Hf. rewrite msize_parents in Hf.
    destruct p as [id ps|e p]; cbn [map visit to_m mparents] in *.
    + destruct (IH (rev ps ++ st) done o Hd) as (o' & E & H).
      { rewrite map_app, map_rev, mtotal_app, mtotal_rev. lia. }
      exists o'. rewrite map_app, map_rev in E. split; [exact E|]. rewrite flat_map_app in H. cbn [flat_map]. now rewrite backwards_op.
    + destruct (IH (p :: st) (done ++ [e]) (merge o (Some (make_options e)))) as (o' & E & H).
      { apply decides_merge; [easy|apply decides_make]. }
      { cbn [map mtotal fold_right] in *. fold (mtotal (map to_m st)). lia. }
      exists o'. split; [exact E|]. rewrite <- app_assoc in H. exact H.
Qed.
(** It ends, with the options in this order. *)
Lemma get_decides p : decides (backwards p) (get_dataset_options (to_m p)).
Proof.
  unfold get_dataset_options. destruct (visit_decides (msize (to_m p)) [p] [] no_options decides_default) as (o & E & H); [cbn; lia|].
  cbn [map] in E. rewrite E. cbn [flat_map app] in H. now rewrite app_nil_r in H.
Qed.

Lemma first_flat_some (g : upipe -> list explicit) ps f v : first_set (flat_map g ps) f = Some v -> exists p, In p ps /\ first_set (g p) f = Some v.
Proof.
  induction ps as [|p ps IH]; [easy|]. cbn [flat_map]. rewrite first_set_app. destruct (first_set (g p) f) as [w|] eqn:E.
  - intros [= ->]. exists p. split; [now left|easy].
  - intros H. destruct (IH H) as (q & Hq & Hv). exists q. split; [now right|easy].
Qed.
Lemma first_flat_none (g : upipe -> list explicit) ps f : first_set (flat_map g ps) f = None -> forall p, In p ps -> first_set (g p) f = None.
Proof.
  induction ps as [|p ps IH]; [easy|]. cbn [flat_map]. rewrite first_set_app. destruct (first_set (g p) f) as [w|] eqn:E; [easy|].
  intros H q [<-|Hq]; auto.
Qed.
Lemma same_first p : consistent p -> forall f, first_set (backwards p) f = first_set (uwritten p) f.
Proof.
  induction p as [id ps IH|e p IH] using upipe_ind'; intros Hc f; inversion Hc as [i l Hps Hag|e' p' Hp]; subst.
  - rewrite backwards_op. cbn [uwritten]. rewrite Forall_forall in IH.
    assert (IH' : forall p, In p ps -> first_set (backwards p) f = first_set (uwritten p) f) by (intros p Hp; now apply IH; [|apply Hps]).
    destruct (first_set (flat_map backwards (rev ps)) f) as [v|] eqn:E1, (first_set (flat_map uwritten ps) f) as [w|] eqn:E2; try easy.
    + apply first_flat_some in E1, E2. destruct E1 as (p & Hp & E1), E2 as (q & Hq & E2). apply in_rev in Hp. rewrite (IH' p Hp) in E1. f_equal. now apply (Hag p q f).
    + exfalso. apply first_flat_some in E1. destruct E1 as (p & Hp & E1). apply in_rev in Hp. rewrite (IH' p Hp) in E1. rewrite (first_flat_none _ _ _ E2 p Hp) in E1. easy.
    + exfalso. apply first_flat_some in E2. destruct E2 as (p & Hp & E2). rewrite <- (IH' p Hp) in E2.
      rewrite (first_flat_none _ _ _ E1 p) in E2; [easy|]. now apply -> in_rev.
  - cbn [backwards uwritten first_set]. destruct (e f); [easy|]. now apply IH.
Qed.

Lemma seen_plain p : forall o, seen o (to_m p) = map (fun id => (id, o)) (uids p).
Proof.
  induction p as [id ps IH|e p IH] using upipe_ind'; intros o; cbn [to_m seen uids]; [|apply IH].
  cbn [map]. f_equal. induction IH as [|p ps Hp _ IH]; [easy|]. cbn [map flat_map]. rewrite map_app, Hp. f_equal. exact IH.
Qed.
Lemma seen_on_top a p : forall o, seen o (on_top a p) = map (fun id => (id, o)) (aids a) ++ seen o p.
Proof. induction a as [|[id|e] a IH]; intros o; cbn [on_top seen aids map app flat_map]; [easy| |apply IH]. rewrite app_nil_r. now rewrite IH. Qed.
Lemma ctx_on_top a p l : decides l (ctx_options p) -> decides (awritten a ++ l) (ctx_options (on_top a p)).
Proof.
  intros H. induction a as [|[id|e] a IH]; cbn [on_top ctx_options awritten app map fold_left]; [easy|easy|].
  apply (decides_merge [e]); [apply decides_make|easy].
Qed.
Lemma decides_chosen l o : decides l o -> forall l', (forall f, first_set l f = first_set l' f) -> forall f, values o f = chosen l' f.
Proof. intros H l' E f. destruct (H f) as [_ ->]. unfold chosen. now rewrite E. Qed.

(** Without worker processes and interleave, every transformation sees for each option the value written closest to the output. *)
Theorem C74_one_process p : map fst (options_seen (to_m p)) = uids p /\
  forall id o f, In (id, o) (options_seen (to_m p)) -> values o f = chosen (uwritten p) f.
Proof.
  unfold options_seen. rewrite seen_plain. rewrite map_map. cbn. split; [apply map_id|].
  intros id o f H. apply in_map_iff in H. destruct H as (i & [= <- <-] & _). now apply (decides_chosen _ _ (ctx_decides p)).
Qed.
(** With mp_prefetch anywhere: every transformation, in every worker and after it, sees the same options as without it, if no two
    parents of one dataset set an option differently. *)
Theorem C74_mp_prefetch W p a : (0 < W)%nat -> consistent p ->
  let q := on_top a (mp_prefetch_opts W (to_m p)) in
  map fst (options_seen q) = aids a ++ concat (repeat (uids p) W) /\
  forall id o f, In (id, o) (options_seen q) -> values o f = chosen (awritten a ++ uwritten p) f.
Proof.
  intros HW Hc q. set (g := get_dataset_options (to_m p)). pose proof (get_decides p) as Hg. fold g in Hg.
  assert (Eq : q = on_top a (MWith g (MInterleave (repeat (MProcess (to_m p)) W)))) by (unfold q, mp_prefetch_opts; destruct W; [lia|reflexivity]).
  assert (Hq : decides (awritten a ++ backwards p ++ []) (ctx_options q)).
  { rewrite Eq. apply ctx_on_top. cbn [ctx_options]. apply decides_merge; [exact Hg|exact decides_default]. }
  assert (Ev : options_seen q = seen (ctx_options q) q) by reflexivity. rewrite Ev. clear Ev. set (o0 := ctx_options q) in *. clearbody o0. rewrite Eq, seen_on_top. cbn [seen].
  set (o1 := merge o0 (Some (merge o0 (Some (ctx_options (MProcess (to_m p))))))).
  set (o2 := merge o1 (Some (ctx_options (to_m p)))).
  assert (Es : flat_map (fun d => seen (merge o0 (Some (merge o0 (Some (ctx_options d))))) d) (repeat (MProcess (to_m p)) W) =
               concat (repeat (map (fun id => (id, o2)) (uids p)) W)).
  { clear HW Eq Hq q. induction W as [|W IH]; [easy|]. cbn [repeat flat_map concat]. rewrite IH. f_equal. cbn [seen]. fold o1. fold o2. apply seen_plain. }
  rewrite Es. split.
  - rewrite map_app, map_map. f_equal; [cbn; apply map_id|]. clear. induction W as [|W IH]; [easy|]. cbn [repeat concat]. rewrite map_app, IH, map_map. cbn. now rewrite map_id.
  - intros id o f H. apply in_app_or in H. destruct H as [H|H].
    + apply in_map_iff in H. destruct H as (i & [= <- <-] & _). apply (decides_chosen _ _ Hq). intros f'.
      rewrite !first_set_app, (same_first p Hc). cbn [first_set]. now destruct (first_set (awritten a) f'), (first_set (uwritten p) f').
    + assert (E : o = o2). { apply in_concat in H. destruct H as (l & Hl & H). apply repeat_spec in Hl. subst l. apply in_map_iff in H. now destruct H as (i & [= <- <-] & _). }
      subst o. assert (H1 : decides ((awritten a ++ backwards p ++ []) ++ (awritten a ++ backwards p ++ []) ++ backwards p) o1).
      { apply decides_merge; [exact Hq|]. apply decides_merge; [exact Hq|exact Hg]. }
      pose proof (decides_merge _ _ _ _ H1 (ctx_decides p)) as H2. fold o2 in H2. apply (decides_chosen _ _ H2). intros f'.
      rewrite !first_set_app, (same_first p Hc). cbn [first_set]. now destruct (first_set (awritten a) f'), (first_set (uwritten p) f').
Qed.
(** The same with threads (free-threaded Python). *)
Theorem C74_mt_prefetch W p a : (0 < W)%nat -> consistent p ->
  let q := on_top a (mt_prefetch_opts W (to_m p)) in
  map fst (options_seen q) = aids a ++ concat (repeat (uids p) W) /\
  forall id o f, In (id, o) (options_seen q) -> values o f = chosen (awritten a ++ uwritten p) f.
Proof.
  intros HW Hc q. set (g := get_dataset_options (to_m p)). pose proof (get_decides p) as Hg. fold g in Hg.
  assert (Eq : q = on_top a (MWith g (MInterleave (repeat (to_m p) W)))) by (unfold q, mt_prefetch_opts; destruct W; [lia|reflexivity]).
  assert (Hq : decides (awritten a ++ backwards p ++ []) (ctx_options q)).
  { rewrite Eq. apply ctx_on_top. cbn [ctx_options]. apply decides_merge; [exact Hg|exact decides_default]. }
  assert (Ev : options_seen q = seen (ctx_options q) q) by reflexivity. rewrite Ev. clear Ev. set (o0 := ctx_options q) in *. clearbody o0. rewrite Eq, seen_on_top. cbn [seen].
  set (o1 := merge o0 (Some (merge o0 (Some (ctx_options (to_m p)))))).
  assert (Es : flat_map (fun d => seen (merge o0 (Some (merge o0 (Some (ctx_options d))))) d) (repeat (to_m p) W) =
               concat (repeat (map (fun id => (id, o1)) (uids p)) W)).
  { clear HW Eq Hq q. induction W as [|W IH]; [easy|]. cbn [repeat flat_map concat]. rewrite IH. f_equal. fold o1. apply seen_plain. }
  rewrite Es. split.
  - rewrite map_app, map_map. f_equal; [cbn; apply map_id|]. clear. induction W as [|W IH]; [easy|]. cbn [repeat concat]. rewrite map_app, IH, map_map. cbn. now rewrite map_id.
  - intros id o f H. apply in_app_or in H. destruct H as [H|H].
    + apply in_map_iff in H. destruct H as (i & [= <- <-] & _). apply (decides_chosen _ _ Hq). intros f'.
      rewrite !first_set_app, (same_first p Hc). cbn [first_set]. now destruct (first_set (awritten a) f'), (first_set (uwritten p) f').
    + assert (E : o = o1). { apply in_concat in H. destruct H as (l & Hl & H). apply repeat_spec in Hl. subst l. apply in_map_iff in H. now destruct H as (i & [= <- <-] & _). }
      subst o. assert (H1 : decides ((awritten a ++ backwards p ++ []) ++ (awritten a ++ backwards p ++ []) ++ uwritten p) o1).
      { apply decides_merge; [exact Hq|]. apply decides_merge; [exact Hq|apply ctx_decides]. }
      apply (decides_chosen _ _ H1). intros f'.
      rewrite !first_set_app, (same_first p Hc). cbn [first_set]. now destruct (first_set (awritten a) f'), (first_set (uwritten p) f').
Qed.
(** An interleave: options written after it reach every interleaved dataset and are stronger than the dataset's own; those written in
    one of the datasets apply in this dataset only. *)
Theorem C74_interleave ps a : let q := on_top a (MInterleave (map to_m ps)) in exists o,
  options_seen q = map (fun id => (id, o)) (aids a) ++
    flat_map (fun p => map (fun id => (id, merge o (Some (merge o (Some (ctx_options (to_m p))))))) (uids p)) ps /\
  (forall f, values o f = chosen (awritten a) f) /\
  forall p f, In p ps -> values (merge o (Some (merge o (Some (ctx_options (to_m p)))))) f = chosen (awritten a ++ uwritten p) f.
Proof.
  intros q. exists (ctx_options q). assert (Hq : decides (awritten a ++ []) (ctx_options q)) by (apply ctx_on_top; exact decides_default).
  rewrite app_nil_r in Hq. spl.
  - change (options_seen q) with (seen (ctx_options q) q). generalize (ctx_options q). intros o. unfold q. clear Hq q. rewrite seen_on_top. f_equal. cbn [seen].
    induction ps as [|p ps IH]; [easy|]. cbn [map flat_map]. rewrite IH. f_equal. apply seen_plain.
  - now apply (decides_chosen _ _ Hq).
  - intros p f _. apply (decides_chosen _ _ (decides_merge _ _ _ _ Hq (decides_merge _ _ _ _ Hq (ctx_decides p)))). intros f'.
    rewrite !first_set_app. now destruct (first_set (awritten a) f').
Qed.

(** Two files with different settings, zipped, and a filter after it. *)
Definition only (f : field) (v : value) : explicit := fun g => match f, g with
  | FilterWarn, FilterWarn | FilterRaise, FilterRaise | ExecutionTracking, ExecutionTracking | MinShmSize, MinShmSize => Some v | _, _ => None end.
Definition two (v w : value) : upipe := UOp 3 [UWith (only FilterRaise v) (UOp 1 []); UWith (only FilterRaise w) (UOp 2 [])].
Example C74_example :
  let p := UOp 4 [UWith (only MinShmSize (VInt 7)) (two (VRatio 1 2) (VRatio 1 2))] in
  let q := on_top [inl 5%nat; inr (only MinShmSize (VInt 9))] (mp_prefetch_opts 2 (to_m p)) in
  consistent p /\ map (fun x => (fst x, values (snd x) FilterRaise, values (snd x) MinShmSize)) (options_seen q) =
    map (fun id => (id, VRatio 1 2, VInt 9)) [5; 4; 3; 1; 2; 4; 3; 1; 2]%nat.
Proof.
  cbv zeta. split; [|vm_compute; reflexivity].
  apply c_op; [intros p [<-|[]]|intros p q f v w [<-|[]] [<-|[]]; congruence]. apply c_with. apply c_op.
  - intros p [<-|[<-|[]]]; apply c_with; apply c_op; easy.
  - intros p q f v w [<-|[<-|[]]] [<-|[<-|[]]]; destruct f; cbn; congruence.
Qed.
(** mp_prefetch changes the options if two parents differ: without it the first one decides, with it the last one, for every number
    of workers ... *)
Theorem C74_order_refuted W : (0 < W)%nat -> let p := two (VRatio 1 2) VNone in
  (forall id o, In (id, o) (options_seen (to_m p)) -> values o FilterRaise = VRatio 1 2) /\
  (forall id o, In (id, o) (options_seen (mp_prefetch_opts W (to_m p))) -> values o FilterRaise = VNone) /\
  exists o, In (3%nat, o) (options_seen (mp_prefetch_opts W (to_m p))).
Proof.
  intros HW p. split; [|split].
  - intros id o H. rewrite (proj2 (C74_one_process p) id o FilterRaise H). reflexivity.
  - intros id o H. destruct W as [|W]; [lia|]. cbv beta iota delta [mp_prefetch_opts options_seen] in H. cbn [seen] in H. apply in_flat_map in H. destruct H as (d & Hd & H).
    apply repeat_spec in Hd. subst d. cbn [seen] in H. rewrite seen_plain in H. apply in_map_iff in H. destruct H as (i & [= <- <-] & _). reflexivity.
  - destruct W as [|W]; [lia|]. eexists. cbv beta iota delta [mp_prefetch_opts options_seen]. cbn [seen repeat flat_map]. left. reflexivity.
Qed.
(** ... and options written in an interleaved dataset do not apply after the interleave, although they are to apply "to all
    transformations in the pipeline (before and after)" (dataset.py:1692-1693). *)
Theorem C74_interleave_refuted : exists p o, options_seen (on_top [inl 9%nat] (MInterleave [to_m p])) = [(9%nat, o); (1%nat, merge o (Some (merge o (Some (ctx_options (to_m p))))))] /\
  uwritten p = [only FilterRaise (VRatio 1 2)] /\ values o FilterRaise = VNone.
Proof.
  exists (UWith (only FilterRaise (VRatio 1 2)) (UOp 1 [])). destruct (C74_interleave [UWith (only FilterRaise (VRatio 1 2)) (UOp 1 [])] [inl 9%nat]) as (o & E & Ho & _).
  exists o. spl; [exact E|reflexivity|apply Ho].
Qed.
