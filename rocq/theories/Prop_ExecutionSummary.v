(** C66 and C67: the execution summary. *)
From Coq Require Import QArith Lqa String.
From Verif Require Import Base Tree ExecutionSummary ExecutionSummarySpec ExecutionSummary_proofs ExecutionSummaryBuild_proofs
  ExecutionSummaryReport_proofs.
Open Scope Z_scope.

Local Ltac spl := repeat match goal with |- _ /\ _ => split end.

(** ** C66 *)

(** The summary of a pipeline shows exactly its transformations, connected the way they are connected in the pipeline. *)
Theorem C66_shows rnd fuel t : pipeline t -> (tsize t < fuel)%nat ->
  exists s, execution_summary rnd fuel t = Ok s /\ draws s (expected t).
Proof. intros P F. destruct (execution_summary_spec rnd fuel t P F) as (s & E & D & _). now exists s. Qed.

(** What one transformation shows after any number of calls of report: the sums of what was recorded, and the least and
    the greatest time per element. *)
Theorem C66_recorded name calls :
  let i := after_reports name calls in
  i_name i = name /\
  i_count i = zsum (map snd (records calls)) /\
  i_total i = zsum (map fst (records calls)) /\
  i_consumed i = zsum (flat_map (fun call => snd (fst call)) calls) /\
  i_produced i = zsum (flat_map (fun call => snd call) calls) /\
  (forall r, In r (records calls) -> i_min i <= fst r / snd r <= i_max i) /\
  (i_min i < maxsize -> exists r, In r (records calls) /\ i_min i = fst r / snd r) /\
  (0 < i_max i -> exists r, In r (records calls) /\ i_max i = fst r / snd r).
Proof.
  cbv zeta. destruct (after_reports_spec name calls) as ([R1 R2 R3 R4 R5 R6 R7 R8] & N & C & P). spl; try assumption.
  - intros r Hr. split; [now apply R3|now apply R4].
  - intros L. destruct R5 as [R5|R5]; [lia|exact R5].
  - intros L. destruct R6 as [R6|R6]; [lia|exact R6].
Qed.
Definition durations_ok (calls : list (list (Z * Z) * list Z * list Z)) : Prop :=
  forall r, In r (records calls) -> 0 <= fst r.
(** The average shown for a node lies between the minimum and the maximum shown for it, also when it was put together from
    several interleaved iterators, or comes from a worker. *)
Theorem C66_average rnd fuel t : pipeline t -> (tsize t < fuel)%nat ->
  (forall i, In i (infos t) -> exists name calls, i = after_reports name calls /\ durations_ok calls) ->
  exists s, execution_summary rnd fuel t = Ok s /\
    forall k n, In (k, n) s -> 0 < i_count (n_info n) ->
      i_min (n_info n) <= avg_processing_time n <= i_max (n_info n).
Proof.
  intros P F H. destruct (C66_shows rnd fuel t P F) as (s & E & D). exists s. split; [exact E|]. intros k n Hn C.
  apply sane_average; [|exact C]. apply (draws_all sane sane_add (fun a b Ha => Ha) s t D) with k; [|exact Hn].
  apply Forall_forall. intros i Hi. destruct (H i Hi) as (name & calls & -> & Ok0).
  eapply recorded_sane; [apply after_reports_spec|]. intros r Hr. split; [now apply Ok0|].
  unfold records in Hr. apply filter_In in Hr. lia.
Qed.

Definition done (name : string) (time count : Z) : info := after_reports name [([(time, count)], [], [])].
Definition source (name : string) (time : Z) : stats := Plain (done name time 1) false [].
(** Two interleaved iterators, batched. *)
Definition two_files : stats :=
  Plain (done "batch" 30 2) false [Interleaved (done "interleave" 10 4)
    [Plain (done "map" 7 3) false [source "a" 5]; Plain (done "map" 3 1) false [source "b" 9]]].
Definition exactly (q : Q) : Q := Qred q.
Example C66_example :
  pipeline two_files /\
  exists s, execution_summary exactly 10 two_files = Ok s /\
    map (fun kn => (fst kn, i_name (n_info (snd kn)), i_total (n_info (snd kn)), avg_processing_time (snd kn), n_inputs (snd kn))) s =
    [(0%nat, "batch"%string, 30, 15, [1%nat]); (1%nat, "interleave"%string, 10, 2, [2%nat]); (2%nat, "map"%string, 10, 2, [3%nat]);
     (3%nat, "a"%string, 14, 7, [])] /\
    map (fun kn => n_ratio (snd kn)) s = [15 # 32; 5 # 32; 5 # 32; 7 # 32]%Q.
Proof.
  split.
  - unfold two_files, source. constructor; [|reflexivity|discriminate]. constructor; [|constructor]. constructor.
    + repeat (constructor || reflexivity || discriminate).
    + intros _ p q [<-|[<-|[]]] [<-|[<-|[]]]; reflexivity.
  - eexists. split; [vm_compute; reflexivity|]. split; vm_compute; reflexivity.
Qed.
Example C66_average_example : forall i, In i (infos two_files) -> exists name calls, i = after_reports name calls /\ durations_ok calls.
Proof.
  intros i Hi. cbn -[done] in Hi. unfold done in Hi.
  repeat destruct Hi as [<-|Hi]; try contradiction; (eexists; eexists; split; [reflexivity|]);
    intros r [<-|[]]; cbn; lia.
Qed.
Example C66_recorded_example :
  after_reports "map" [([(7, 2); (5, 0); (9, 1)], [100], [30; 40]); ([(1, 1)], [], [8])] = mkInfo "map" 17 1 9 4 100 78.
Proof. reflexivity. Qed.

(** Without the guards it is false.  The nodes below an interleave are not counted: when another input follows, its nodes replace them. *)
Definition zipped : stats := Plain (done "zip" 1 1) false [Interleaved (done "interleave" 1 1) [source "a" 1]; source "b" 1].
Theorem C66_lost_refuted :
  exists t s, execution_summary exactly 10 t = Ok s /\ In "a"%string (map i_name (infos t)) /\
    ~ In "a"%string (map (fun kn => i_name (n_info (snd kn))) s) /\
    (** the source "b" is shown as an input of both *)
    n_inputs (node_at s 0) = [1; 2]%nat /\ n_inputs (node_at s 1) = [2]%nat /\ i_name (n_info (node_at s 2)) = "b"%string.
Proof.
  exists zipped. eexists. split; [vm_compute; reflexivity|]. cbn. spl; try tauto; try reflexivity.
  intros [H|[H|[H|[]]]]; discriminate.
Qed.
(** Interleaved iterators with as many nodes, but connected in other ways: times of different transformations are added. *)
Definition chain (n1 n2 n3 : string) : stats := Plain (done n1 1 1) false [Plain (done n2 20 1) false [source n3 300]].
Definition fork (n1 n2 n3 : string) : stats := Plain (done n1 1 1) false [source n2 20; source n3 300].
Theorem C66_mixed_refuted :
  exists t s k, execution_summary exactly 10 t = Ok s /\
    i_total (n_info (node_at s k)) = 40 /\ i_name (n_info (node_at s k)) = "shuffle"%string /\
    forall i, In i (infos t) -> i_name i = "shuffle"%string -> i_total i = 20.
Proof.
  exists (Interleaved (done "interleave" 1 1) [chain "map" "shuffle" "source"; fork "zip" "first" "second"]). eexists. exists 2%nat.
  split; [vm_compute; reflexivity|]. split; [reflexivity|]. split; [reflexivity|].
  intros i Hi. cbn in Hi. repeat destruct Hi as [<-|Hi]; try contradiction; cbn; intros; try discriminate; reflexivity.
Qed.

(** ** C67 *)

(** The share of every node in the time the consumer waits: transformations that run one after the other share in proportion to
    their time, and the share of a prefetch is passed to the transformations that run in the background. *)
Theorem C67_shares rnd fuel t : pipeline t -> (tsize t < fuel)%nat ->
  group_time (expected t) <> 0 -> measured (expected t) ->
  exists s, execution_summary rnd fuel t = Ok s /\ node_ratios s = waits rnd 1 (group_time (expected t)) (expected t).
Proof. intros P F G M. destruct (execution_summary_spec rnd fuel t P F) as (s & E & _ & R). exists s. auto. Qed.
(** When every transformation recorded some time, that is so. *)
Theorem C67_measured t : pipeline t -> (forall i, In i (infos t) -> 0 < i_total i) ->
  group_time (expected t) <> 0 /\ measured (expected t).
Proof.
  intros P H. destruct (positive_measured (expected t)) as [G M].
  - now apply expected_narrow.
  - apply all_expected; [cbn; intros; lia|cbn; tauto|]. now apply Forall_forall.
  - split; [lia|exact M].
Qed.
(** The shares sum up to 1, up to the rounding of each of them. *)
Theorem C67_sum rnd eps fuel t : (forall x, (- eps <= rnd x - x <= eps)%Q) -> pipeline t -> (tsize t < fuel)%nat ->
  group_time (expected t) <> 0 -> measured (expected t) ->
  exists s, execution_summary rnd fuel t = Ok s /\
    let n := inject_Z (Z.of_nat (length s)) in (1 - n * eps <= qsum (node_ratios s) <= 1 + n * eps)%Q.
Proof.
  intros Hr P F G M. destruct (execution_summary_spec rnd fuel t P F) as (s & E & (K & _) & R). exists s. split; [exact E|]. cbv zeta.
  rewrite (R G M). pose proof (waits_sum rnd eps Hr (expected t) 1%Q _ G M) as W. pose proof (share_self rnd eps Hr 1%Q _ G) as S1. unfold err in W.
  apply (f_equal (@length _)) in K. rewrite map_length, seq_length in K. rewrite K. lra.
Qed.

Definition loader : stats :=
  InWorker (done "mp_prefetch" 40 1) (Some (Plain (done "batch" 10 1) false [Plain (done "thread_prefetch" 30 1) true
    [Plain (done "map" 100 1) false [source "SourceMapDataset" 300]]])).
Example C67_example :
  pipeline loader /\ (forall i, In i (infos loader) -> 0 < i_total i) /\ (forall x, (- 0 <= exactly x - x <= 0)%Q) /\
  exists s, execution_summary exactly 10 loader = Ok s /\ node_ratios s = [0; 1 # 4; 0; 3 # 16; 9 # 16]%Q.
Proof.
  spl.
  - repeat (constructor || reflexivity || discriminate).
  - intros i Hi. cbn in Hi. repeat destruct Hi as [<-|Hi]; try contradiction; cbn; lia.
  - intros x. unfold exactly. rewrite Qred_correct. lra.
  - eexists. split; vm_compute; reflexivity.
Qed.
(** When nothing was recorded below a prefetch, its share is lost. *)
Theorem C67_zero_refuted :
  exists t, pipeline t /\ exists s, execution_summary exactly 10 t = Ok s /\ (qsum (node_ratios s) == 1 # 4)%Q.
Proof.
  exists (Plain (done "batch" 10 1) false [Plain (done "thread_prefetch" 30 1) true [source "SourceMapDataset" 0]]).
  split; [repeat (constructor || reflexivity || discriminate)|]. eexists. split; vm_compute; reflexivity.
Qed.

(** The summary that is logged has the same nodes, in ascending order; the warning is given exactly when the last of them, which has the
    largest share, is a source. *)
Theorem C67_bottleneck s : s <> [] ->
  let sorted := sorted_summary s in
  Permutation (map snd sorted) (map snd s) /\ map fst sorted = seq 0 (length s) /\
  (forall j k, (j <= k < length s)%nat -> (n_ratio (node_at sorted j) <= n_ratio (node_at sorted k))%Q) /\
  exists k n, In (k, n) s /\ (forall k' n', In (k', n') s -> (n_ratio n' <= n_ratio n)%Q) /\
    warns_of s = contains source_node_name (i_name (n_info n)).
Proof.
  intros NE. cbv zeta. unfold warns_of, warns, sorted_summary. pose proof (sort_perm (map snd s)) as Pm. pose proof (sort_ascending (map snd s)) as A.
  set (l := sort_by_ratio (map snd s)) in *. assert (length l = length s) as Len by (rewrite (Permutation_length Pm), map_length; reflexivity).
  assert (map snd (combine (seq 0 (length l)) l) = l) as Sn by (apply combine_snd; now rewrite seq_length).
  assert (map fst (combine (seq 0 (length l)) l) = seq 0 (length l)) as Fn by (apply combine_fst; now rewrite seq_length).
  assert (forall k, (k < length l)%nat -> node_at (combine (seq 0 (length l)) l) k = nth k l default_node) as At.
  { intros k Hk. apply node_at_In; [rewrite Fn; apply seq_NoDup|].
    replace (k, nth k l default_node) with (nth k (combine (seq 0 (length l)) l) (0%nat, default_node)).
    - apply nth_In. rewrite combine_length, seq_length. lia.
    - rewrite combine_nth by now rewrite seq_length. now rewrite seq_nth. }
  assert (length (combine (seq 0 (length l)) l) = length l) as LC by (rewrite combine_length, seq_length; lia).
  split; [now rewrite Sn|]. split; [rewrite Fn; now f_equal|]. split.
  - intros j k [H1 H2]. rewrite !At by lia. rewrite <- Len in H2. clear - A H1 H2. revert j k H1 H2.
    induction A as [|n l0 A1 A2 IH]; intros j k H1 H2; [cbn in H2; lia|]. destruct k as [|k].
    + replace j with 0%nat by lia. lra.
    + cbn [length] in H2. destruct j as [|j]; cbn [nth]; [|apply IH; lia].
      apply (proj1 (Forall_forall _ _) A1). apply nth_In. lia.
  - rewrite LC. assert (0 < length s)%nat by (destruct s; [congruence|cbn; lia]). rewrite At by lia.
    assert (In (nth (length l - 1) l default_node) l) as Il by (apply nth_In; lia).
    pose proof (Permutation_in _ Pm Il) as Is. apply in_map_iff in Is. destruct Is as ([k n] & E & Hn). cbn in E. exists k, n. split; [exact Hn|]. split.
    + intros k' n' Hn'. apply (in_map snd) in Hn'. apply (Permutation_in _ (Permutation_sym Pm)) in Hn'. cbn in Hn'.
      pose proof (proj1 (Forall_forall _ _) (ascending_last l default_node A) _ Hn') as L. unfold ratio_le in L.
      assert (last l default_node = n) as EL; [|rewrite EL in L; exact L]. rewrite E.
      destruct (exists_last (l := l)) as (l' & x & El); [intros Z; rewrite Z in Il; destruct Il|].
      rewrite El, last_last, app_length. cbn [length]. replace (length l' + 1 - 1)%nat with (length l') by lia.
      now rewrite app_nth2, Nat.sub_diag by lia.
    + now rewrite E.
Qed.
Example C67_bottleneck_example : exists s, execution_summary exactly 10 loader = Ok s /\ warns_of s = true /\
  exists s', execution_summary exactly 10 two_files = Ok s' /\ warns_of s' = false.
Proof. eexists. split; [vm_compute; reflexivity|]. split; [reflexivity|]. eexists. split; vm_compute; reflexivity. Qed.
