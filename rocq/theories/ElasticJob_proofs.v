(** Proofs for ElasticJob.v. *)
From Verif Require Import Base ListFacts Iter IterSpec IterLaw Interleave InterleaveSpec Interleave_proofs Elastic MultiprocessSpec Multiprocess_proofs Prop_Elastic ElasticJob.

Lemma finite_choice {X} (P : nat -> X -> Prop) n : (forall h, (h < n)%nat -> exists x, P h x) ->
  exists l, length l = n /\ forall h x, nth_error l h = Some x -> P h x.
Proof.
  induction n as [|n IH]; intros H.
  - exists []. split; [easy|]. intros [|h] x; easy.
  - destruct IH as (l & Hl & HP); [intros; apply H; lia|]. destruct (H n ltac:(lia)) as (x & Hx). exists (l ++ [x]).
    split; [rewrite app_length; cbn; lia|]. intros h y Hy. destruct (Nat.lt_ge_cases h n) as [Hh|Hh].
    + rewrite nth_error_app1 in Hy by lia. now apply HP.
    + rewrite nth_error_app2 in Hy by lia. destruct (h - length l)%nat as [|k] eqn:E; [|now destruct k]. injection Hy as <-. assert (h = n) as -> by lia. exact Hx.
Qed.
Lemma nth_error_some {X} (l : list X) h : (h < length l)%nat -> exists x, nth_error l h = Some x.
Proof. intros H. destruct (nth_error l h) as [x|] eqn:E; [now exists x|]. apply nth_error_None in E. lia. Qed.
Lemma nth_error_lt {X} (l : list X) h x : nth_error l h = Some x -> (h < length l)%nat.
Proof. intros H. apply nth_error_Some. now rewrite H. Qed.
Lemma sequence_nth {X Y} (f : X -> res Y) (l : list X) (l' : list Y) : length l' = length l ->
  (forall h x y, nth_error l h = Some x -> nth_error l' h = Some y -> f x = Ok y) -> sequence (map f l) = Ok l'.
Proof.
  revert l'. induction l as [|x l IH]; intros [|y l'] Hl H; try easy. cbn [map sequence]. rewrite (H 0%nat x y eq_refl eq_refl). cbn [bind].
  rewrite (IH l'); [reflexivity|cbn in Hl; lia|]. intros h. apply (H (S h)).
Qed.
Lemma nth_combine_seq {X} (l : list X) n h : length l = n -> nth_error (combine (seq 0 n) l) h = option_map (pair h) (nth_error l h).
Proof.
  intros <-. assert (G : forall i, nth_error (combine (seq i (length l)) l) h = option_map (pair (i + h)%nat) (nth_error l h)).
  { revert h. induction l as [|x l IH]; intros [|h] i; cbn [length seq combine nth_error option_map]; try easy; [now rewrite Nat.add_0_r|]. rewrite IH. now rewrite Nat.add_succ_r. }
  apply (G 0%nat).
Qed.
Lemma nth_of_error {X} (l : list X) k d : nth k l d = match nth_error l k with Some x => x | None => d end.
Proof. revert k. induction l as [|x l IH]; intros [|k]; cbn; auto. Qed.
Lemma nth_strided {X} n h (l : list (list X)) d : (0 < n)%nat -> nth d (stride n h l) [] = nth (h + d * n) l [].
Proof. intros Hn. now rewrite !nth_of_error, nth_stride. Qed.

(** ** The datasets of a host *)
Section Host.
Context {S C A : Type}.
Variable D : list (hiter S C A).
Variable cycle_length : nat.
Variable keep : bool.
Variable truthy : C -> bool.
Variable ls : list (list A).
Variables (used json : bool) (N0 : nat).
Variable rep : nat -> S -> nat -> Prop.
Variable crep : nat -> C -> nat -> Prop.
Hypothesis F : family D truthy ls used json N0 rep crep.
Notation M := (length D).
Notation lst j := (nth j ls []).

Definition hrep (n h d : nat) := rep (h + d * n).
Definition hcrep (n h d : nat) := crep (h + d * n).
Lemma stride_length_eq {X Y} n h (a : list X) (b : list Y) : (0 < n)%nat -> length a = length b -> length (stride n h a) = length (stride n h b).
Proof.
  intros Hn Hl. destruct (Nat.lt_trichotomy (length (stride n h a)) (length (stride n h b))) as [H|[H|H]]; [|exact H|].
  - exfalso. destruct (nth_error_some _ _ H) as (x & Hx). rewrite nth_stride in Hx by exact Hn. apply nth_error_lt in Hx.
    assert (E : nth_error (stride n h a) (length (stride n h a)) = None) by now apply nth_error_None. rewrite nth_stride in E by exact Hn. apply nth_error_None in E. lia.
  - exfalso. destruct (nth_error_some _ _ H) as (x & Hx). rewrite nth_stride in Hx by exact Hn. apply nth_error_lt in Hx.
    assert (E : nth_error (stride n h b) (length (stride n h b)) = None) by now apply nth_error_None. rewrite nth_stride in E by exact Hn. apply nth_error_None in E. lia.
Qed.
Lemma host_family n h : (0 < n)%nat -> family (host_shards D n h) truthy (stride n h ls) used json N0 (hrep n h) (hcrep n h).
Proof.
  intros Hn. unfold host_shards, hrep, hcrep. split.
  - apply stride_length_eq; [exact Hn|apply (f_len _ _ _ _ _ _ _ _ F)].
  - intros d x Hx. rewrite nth_stride in Hx by exact Hn. now apply (f_init _ _ _ _ _ _ _ _ F).
  - intros d s p Hr. rewrite nth_strided by exact Hn. now apply (f_le _ _ _ _ _ _ _ _ F) in Hr.
  - intros d x fuel s p a Hx Hf Hr Ha. rewrite nth_stride in Hx by exact Hn. rewrite nth_strided in Ha by exact Hn. now apply (f_next _ _ _ _ _ _ _ _ F _ x fuel s p a Hx Hf Hr).
  - intros d x fuel s Hx Hf Hr. rewrite nth_stride in Hx by exact Hn. rewrite nth_strided in * by exact Hn. now apply (f_stop _ _ _ _ _ _ _ _ F _ x fuel s Hx).
  - intros d x s p Hx Hr. rewrite nth_stride in Hx by exact Hn. now apply (f_get _ _ _ _ _ _ _ _ F _ x).
  - intros d x c p Hx J Hc. rewrite nth_stride in Hx by exact Hn. now apply (f_json _ _ _ _ _ _ _ _ F _ x).
  - intros d x fuel c p Hx Hf Hc Hp. rewrite nth_stride in Hx by exact Hn. rewrite nth_strided in Hp by exact Hn. now apply (f_fresh _ _ _ _ _ _ _ _ F _ x fuel c p Hx).
  - intros d x fuel s q c p Hx Hf U Hr Hc Hp. rewrite nth_stride in Hx by exact Hn. rewrite nth_strided in Hp by exact Hn. now apply (f_used _ _ _ _ _ _ _ _ F _ x fuel s q c p Hx).
  - intros d c p. apply (f_falsy _ _ _ _ _ _ _ _ F).
  - intros d c p. apply (f_truthy _ _ _ _ _ _ _ _ F).
Qed.
Lemma host_some n h : (0 < n)%nat -> (n <= M)%nat -> (h < n)%nat -> (0 < length (host_shards D n h))%nat.
Proof.
  intros Hn Hm Hh. unfold host_shards. destruct (nth_error_some D h ltac:(lia)) as (x & Hx).
  apply (nth_error_lt _ 0%nat x). rewrite nth_stride by exact Hn. now rewrite Nat.mul_0_l, Nat.add_0_r.
Qed.
Lemma host_length_lt n h d : (0 < n)%nat -> (d < length (host_shards D n h))%nat <-> (h + d * n < M)%nat.
Proof.
  intros Hn. unfold host_shards. split; intros H.
  - destruct (nth_error_some _ _ H) as (x & Hx). rewrite nth_stride in Hx by exact Hn. now apply nth_error_lt in Hx.
  - destruct (nth_error_some _ _ H) as (x & Hx). rewrite <- nth_stride in Hx by exact Hn. now apply nth_error_lt in Hx.
Qed.

(** ** What is left *)

(** Host [h] of [n], in state [s], has still to give the elements [rem j] of its shards. *)
Definition host_has (n : nat) (rem : nat -> list A) (h : nat) (s : il S C) (out : list (nat * A)) : Prop :=
  to_give (host_shards D n h) cycle_length (stride n h ls) (hrep n h) (hcrep n h) s out /\
  marks (host_shards D n h) cycle_length s /\ forall d, of_dataset d out = rem (h + d * n)%nat.
Definition job_has (n : nat) (ss : list (il S C)) (rem : nat -> list A) : Prop :=
  length ss = n /\ (forall j, (M <= j)%nat -> rem j = []) /\
  forall h s, nth_error ss h = Some s -> exists out, host_has n rem h s out.

(** Every host has enough fuel. *)
Definition job_enough : nat := (N0 + 3 * (M + 1) * (M + 2) + 2 * M + 2)%nat.
Lemma host_length_le n h : (0 < n)%nat -> (length (host_shards D n h) <= M)%nat.
Proof.
  intros Hn. destruct (Nat.le_gt_cases (length (host_shards D n h)) M) as [H|H]; [exact H|exfalso].
  apply (host_length_lt n h M Hn) in H. nia.
Qed.
Lemma job_enough_ok n h : (0 < n)%nat -> (enough (host_shards D n h) cycle_length N0 <= job_enough)%nat.
Proof.
  intros Hn. unfold enough, job_enough, Interleave.cl. pose proof (host_length_le n h Hn).
  set (k := length (host_shards D n h)) in *. assert (Hm : (Nat.min cycle_length k <= k)%nat) by lia. set (c := Nat.min cycle_length k) in *. clearbody k c.
  assert (Hb : ((2 * k + c) * Datatypes.S c <= 3 * (M + 1) * (M + 2))%nat) by nia. lia.
Qed.

(** ** The start *)
Hypothesis Hcycle : (0 < cycle_length)%nat.
Lemma cl_pos n h : (0 < n)%nat -> (n <= M)%nat -> (h < n)%nat -> (0 < Interleave.cl (host_shards D n h) cycle_length)%nat.
Proof. intros. unfold Interleave.cl. pose proof (host_some n h). lia. Qed.
Lemma numbered_fst' (l : list (list A)) : map fst (numbered l) = seq 0 (length l).
Proof. unfold numbered. apply combine_seq_fst. Qed.
Lemma held_none_all m : @held A (List.repeat None m) = [].
Proof. apply held_empty. intros s Hs. now apply repeat_spec in Hs. Qed.
Lemma start_has n : (0 < n)%nat -> (n <= M)%nat -> job_has n (job_start D cycle_length n) (fun j => lst j).
Proof.
  intros Hn Hm. split; [unfold job_start; now rewrite map_length, seq_length|]. split.
  - intros j Hj. apply nth_overflow. rewrite (f_len _ _ _ _ _ _ _ _ F). exact Hj.
  - intros h s Hs. unfold job_start in Hs. assert (Hh : (h < n)%nat) by (apply nth_error_lt in Hs; now rewrite map_length, seq_length in Hs).
    rewrite nth_error_map_seq in Hs by exact Hh. injection Hs as <-. cbn [Nat.add].
    pose proof (cl_pos n h Hn Hm Hh) as Hcl.
    destruct (robin_exists (List.repeat None (Interleave.cl (host_shards D n h) cycle_length)) (numbered (stride n h ls))) as (out & Ho).
    { destruct (Interleave.cl (host_shards D n h) cycle_length); [lia|easy]. }
    exists out. split; [|split].
    + now apply (init_gives _ _ _ _ _ _ _ _ _ (host_family n h Hn)).
    + now apply init_marks.
    + intros d. rewrite (robin_of_dataset _ _ _ Ho).
      2:{ unfold distinct. rewrite held_none_all, numbered_fst'. apply seq_NoDup. }
      rewrite held_none_all. cbn [app]. rewrite <- nth_strided by exact Hn.
      destruct (Nat.lt_ge_cases d (length (stride n h ls))) as [Hd|Hd].
      * apply rest_of_in; [rewrite numbered_fst'; apply seq_NoDup|]. destruct (nth_error_some _ _ Hd) as (l & Hl). apply (nth_error_In _ d).
        unfold numbered. rewrite nth_combine_seq by reflexivity. rewrite Hl. cbn. now rewrite nth_of_error, Hl.
      * rewrite rest_of_absent by (rewrite numbered_fst', in_seq; lia). now rewrite nth_overflow.
Qed.

(** ** Reading *)

(** The elements of host [h], with the numbers all hosts use. *)
Definition relabel (n h : nat) (out : list (nat * A)) : list (nat * A) := map (fun dx => ((h + fst dx * n)%nat, snd dx)) out.
Lemma relabel_of n h j out : (h < n)%nat -> of_dataset j (relabel n h out) = if Nat.eqb (j mod n) h then of_dataset (j / n) out else [].
Proof.
  intros Hh. unfold of_dataset, relabel. induction out as [|[d x] out IH]; cbn [map filter fst snd]; [now destruct (Nat.eqb (j mod n) h)|].
  assert (Hmod : ((h + d * n) mod n = h)%nat) by (rewrite Nat.mod_add by lia; now apply Nat.mod_small).
  assert (Hdiv : ((h + d * n) / n = d)%nat) by (rewrite Nat.div_add by lia; now rewrite Nat.div_small).
  destruct (Nat.eqb_spec (h + d * n) j) as [E|E].
  - subst j. rewrite Hmod, Hdiv, !Nat.eqb_refl in *. cbn [map snd]. now rewrite IH.
  - destruct (Nat.eqb_spec (j mod n) h) as [E2|E2]; [|exact IH]. destruct (Nat.eqb_spec d (j / n)) as [E3|E3]; [|exact IH].
    exfalso. apply E. pose proof (Nat.div_mod j n ltac:(lia)). rewrite E2, <- E3 in *. lia.
Qed.
Lemma of_dataset_concat j (outs : list (list (nat * A))) : of_dataset j (concat outs) = concat (map (of_dataset j) outs).
Proof.
  unfold of_dataset. induction outs as [|o outs IH]; cbn [concat map]; [easy|]. now rewrite filter_app, map_app, IH.
Qed.
Lemma of_dataset_app j (a b : list (nat * A)) : of_dataset j (a ++ b) = of_dataset j a ++ of_dataset j b.
Proof. unfold of_dataset. now rewrite filter_app, map_app. Qed.
(** Only host [j mod n] has elements of shard [j]. *)
Lemma relabelled n (outs : list (list (nat * A))) j : (0 < n)%nat -> length outs = n ->
  of_dataset j (concat (map (fun ho => relabel n (fst ho) (snd ho)) (combine (seq 0 n) outs))) = of_dataset (j / n) (nth (j mod n) outs []).
Proof.
  intros Hn Hl. rewrite of_dataset_concat, map_map.
  assert (Hj : (j mod n < n)%nat) by (apply Nat.mod_upper_bound; lia).
  assert (G : forall i outs', (i + length outs' <= n)%nat ->
    concat (map (fun ho => of_dataset j (relabel n (fst ho) (snd ho))) (combine (seq i (length outs')) outs')) =
    if Nat.leb i (j mod n) then of_dataset (j / n) (nth (j mod n - i) outs' []) else []).
  { intros i outs'. revert i. induction outs' as [|o outs' IH]; intros i Hi; cbn [length seq combine map concat].
    - destruct (j mod n - i)%nat; cbn [nth]; now destruct (Nat.leb i (j mod n)).
    - cbn [length] in Hi. rewrite IH by lia. cbn [fst snd]. rewrite relabel_of by lia.
      destruct (Nat.eqb_spec (j mod n) i) as [E|E], (Nat.leb_spec (Datatypes.S i) (j mod n)), (Nat.leb_spec i (j mod n)); try lia; cbn [app]; try easy.
      + rewrite E, Nat.sub_diag. cbn [nth]. now rewrite app_nil_r.
      + replace (j mod n - i)%nat with (Datatypes.S (j mod n - Datatypes.S i)) by lia. easy. }
  specialize (G 0%nat outs ltac:(lia)). rewrite Hl in G. rewrite G. cbn [Nat.leb]. now rewrite Nat.sub_0_r.
Qed.

Lemma host_read_ok n h fuel : (0 < n)%nat -> (job_enough <= fuel)%nat -> forall k s out,
  to_give (host_shards D n h) cycle_length (stride n h ls) (hrep n h) (hcrep n h) s out -> marks (host_shards D n h) cycle_length s ->
  exists s', host_read cycle_length keep (host_shards D n h) fuel k s = (map snd (firstn k out), s') /\
    to_give (host_shards D n h) cycle_length (stride n h ls) (hrep n h) (hcrep n h) s' (skipn k out) /\ marks (host_shards D n h) cycle_length s'.
Proof.
  intros Hn Hf. assert (Hf' : (enough (host_shards D n h) cycle_length N0 <= fuel)%nat) by (pose proof (job_enough_ok n h Hn); lia).
  pose proof (host_family n h Hn) as FH.
  induction k as [|k IH]; intros s out Hg Hm; cbn [host_read].
  - exists s. auto.
  - destruct (next_ok _ _ keep _ _ _ _ _ _ _ FH fuel s out Hf' Hg) as (s1 & E & Hg1 & _ & Hm1). rewrite E. destruct out as [|[j x] out].
    + exists s1. cbn [tl] in Hg1. auto.
    + cbn [tl] in Hg1. destruct (IH s1 out Hg1 (Hm1 Hm)) as (s2 & E2 & Hg2 & Hm2). rewrite E2. exists s2. auto.
Qed.
Lemma job_outs n ss rem : job_has n ss rem -> exists outs, length outs = n /\
  forall h s out, nth_error ss h = Some s -> nth_error outs h = Some out -> host_has n rem h s out.
Proof.
  intros (Hl & _ & H). destruct (finite_choice (fun h out => forall s, nth_error ss h = Some s -> host_has n rem h s out) n) as (outs & Ho & HP).
  - intros h Hh. destruct (nth_error_some ss h ltac:(lia)) as (s & Hs). destruct (H h s Hs) as (out & Hout). exists out. intros s' Hs'. congruence.
  - exists outs. split; [exact Ho|]. intros h s out Hs Hout. now apply (HP h).
Qed.
Lemma rem_outs n ss rem outs : (0 < n)%nat -> length ss = n -> length outs = n ->
  (forall h s out, nth_error ss h = Some s -> nth_error outs h = Some out -> host_has n rem h s out) ->
  forall j, of_dataset (j / n) (nth (j mod n) outs []) = rem j.
Proof.
  intros Hn Hs Ho H j. assert (Hj : (j mod n < n)%nat) by (apply Nat.mod_upper_bound; lia).
  destruct (nth_error_some ss (j mod n) ltac:(lia)) as (s & Es). destruct (nth_error_some outs (j mod n) ltac:(lia)) as (out & Eo).
  rewrite nth_of_error, Eo. destruct (H _ _ _ Es Eo) as (_ & _ & Hd). rewrite Hd. f_equal. pose proof (Nat.div_mod j n ltac:(lia)). lia.
Qed.

Lemma job_read_ok n ss rem fuel ks : (0 < n)%nat -> (job_enough <= fuel)%nat -> job_has n ss rem ->
  exists (outs : list (list (nat * A))) rem', map fst (job_read D cycle_length keep fuel n ks ss) = map (map snd) outs /\
    job_has n (map snd (job_read D cycle_length keep fuel n ks ss)) rem' /\
    (forall j, of_dataset j (concat outs) ++ rem' j = rem j) /\
    forall j, (length (rem j) <= list_max (map ks (seq 0 n)) + length (rem' j))%nat.
Proof.
  intros Hn Hf H. destruct (job_outs n ss rem H) as (outs & Hol & HO). destruct H as (Hl & Hrem & H).
  pose proof (rem_outs n ss rem outs Hn Hl Hol HO) as Hr.
  set (first := map (fun ho => firstn (ks (fst ho)) (snd ho)) (combine (seq 0 n) outs)).
  set (rest := map (fun ho => skipn (ks (fst ho)) (snd ho)) (combine (seq 0 n) outs)).
  assert (Hfirst : forall h out, nth_error outs h = Some out -> nth_error first h = Some (firstn (ks h) out)).
  { intros h out Ho. unfold first. rewrite nth_error_map, nth_combine_seq by exact Hol. now rewrite Ho. }
  assert (Hrest : forall h out, nth_error outs h = Some out -> nth_error rest h = Some (skipn (ks h) out)).
  { intros h out Ho. unfold rest. rewrite nth_error_map, nth_combine_seq by exact Hol. now rewrite Ho. }
  assert (Hfl : length first = n) by (unfold first; rewrite map_length, combine_length, seq_length; lia).
  exists (map (fun ho => relabel n (fst ho) (snd ho)) (combine (seq 0 n) first)), (fun j => of_dataset (j / n) (nth (j mod n) rest [])).
  assert (Hread : forall h s out, nth_error ss h = Some s -> nth_error outs h = Some out ->
    exists s', host_read cycle_length keep (host_shards D n h) fuel (ks h) s = (map snd (firstn (ks h) out), s') /\
    to_give (host_shards D n h) cycle_length (stride n h ls) (hrep n h) (hcrep n h) s' (skipn (ks h) out) /\ marks (host_shards D n h) cycle_length s').
  { intros h s out Es Eo. destruct (HO h s out Es Eo) as (Hg & Hm & _). now apply host_read_ok. }
  assert (Hnr : forall h s, nth_error ss h = Some s -> nth_error (job_read D cycle_length keep fuel n ks ss) h = Some (host_read cycle_length keep (host_shards D n h) fuel (ks h) s)).
  { intros h s Es. unfold job_read. rewrite nth_error_map, nth_combine_seq by exact Hl. now rewrite Es. }
  assert (Hrl : length (job_read D cycle_length keep fuel n ks ss) = n) by (unfold job_read; rewrite map_length, combine_length, seq_length; lia).
  split; [|split; [split; [|split]|split]].
  - apply nth_error_ext. intros h. rewrite !nth_error_map, nth_combine_seq by exact Hfl.
    destruct (Nat.lt_ge_cases h n) as [Hh|Hh].
    + destruct (nth_error_some ss h ltac:(lia)) as (s & Es). destruct (nth_error_some outs h ltac:(lia)) as (out & Eo).
      rewrite (Hnr h s Es), (Hfirst h out Eo). destruct (Hread h s out Es Eo) as (s' & E & _). rewrite E. cbn. unfold relabel. now rewrite map_map.
    + rewrite !(proj2 (nth_error_None _ _)) by lia. reflexivity.
  - now rewrite map_length.
  - intros j Hj. specialize (Hrem j Hj). rewrite <- Hr in Hrem. rewrite nth_of_error. assert (Hjn : (j mod n < n)%nat) by (apply Nat.mod_upper_bound; lia).
    destruct (nth_error_some outs (j mod n) ltac:(lia)) as (out & Eo). rewrite (Hrest _ _ Eo). rewrite nth_of_error, Eo in Hrem.
    rewrite <- (firstn_skipn (ks (j mod n)%nat) out), of_dataset_app in Hrem. now apply app_eq_nil in Hrem as [_ Hrem].
  - intros h s' Es'. rewrite nth_error_map in Es'.
    assert (Hh : (h < n)%nat). { rewrite <- Hrl. destruct (nth_error (job_read D cycle_length keep fuel n ks ss) h) eqn:E; [|easy]. now apply nth_error_lt in E. }
    destruct (nth_error_some ss h ltac:(lia)) as (s & Es). destruct (nth_error_some outs h ltac:(lia)) as (out & Eo).
    rewrite (Hnr h s Es) in Es'. destruct (Hread h s out Es Eo) as (s2 & E & Hg & Hm). rewrite E in Es'. cbn in Es'. injection Es' as <-.
    exists (skipn (ks h) out). split; [exact Hg|]. split; [exact Hm|]. intros d.
    assert (Hmod : ((h + d * n) mod n = h)%nat) by (rewrite Nat.mod_add by lia; now apply Nat.mod_small).
    assert (Hdiv : ((h + d * n) / n = d)%nat) by (rewrite Nat.div_add by lia; now rewrite Nat.div_small).
    now rewrite Hmod, Hdiv, nth_of_error, (Hrest _ _ Eo).
  - intros j. rewrite (relabelled n first j Hn Hfl), <- of_dataset_app, <- Hr. f_equal. assert (Hjn : (j mod n < n)%nat) by (apply Nat.mod_upper_bound; lia).
    destruct (nth_error_some outs (j mod n) ltac:(lia)) as (out & Eo). rewrite !nth_of_error, (Hrest _ _ Eo), (Hfirst _ _ Eo), Eo. apply firstn_skipn.
  - intros j. rewrite <- Hr. assert (Hjn : (j mod n < n)%nat) by (apply Nat.mod_upper_bound; lia).
    destruct (nth_error_some outs (j mod n) ltac:(lia)) as (out & Eo). rewrite !nth_of_error, (Hrest _ _ Eo), Eo.
    rewrite <- (firstn_skipn (ks (j mod n)%nat) out) at 1. rewrite of_dataset_app, app_length.
    assert (Hle : forall l : list (nat * A), (length (of_dataset (j / n) l) <= length l)%nat).
    { intros l. unfold of_dataset. rewrite map_length. induction l as [|x l IH]; [easy|]. cbn [filter]. destruct (Nat.eqb _ _); cbn [length]; lia. }
    specialize (Hle (firstn (ks (j mod n)%nat) out)). rewrite firstn_length in Hle.
    assert (Hmx : (ks (j mod n) <= list_max (map ks (seq 0 n)))%nat).
    { pose proof (proj1 (list_max_le (map ks (seq 0 n)) _) (Nat.le_refl _)) as Hall. rewrite Forall_forall in Hall. apply Hall, in_map, in_seq. lia. }
    lia.
Qed.

(** ** Saving *)

(** The states in the shard files: the state of shard [j] stands for what is left of it. *)
Definition left_by (G : list (bool * C)) (rem : nat -> list A) (read : nat -> nat) : Prop :=
  length G = M /\ forall j e c, nth_error G j = Some (e, c) ->
    if e then rem j = [] else crep j c (read j) /\ (read j <= length (lst j))%nat /\ rem j = skipn (read j) (lst j).
Lemma shard_states_some {X} (l : list (bool * X)) : shard_states (map (fun ec => (fst ec, Some (snd ec))) l) = l.
Proof. unfold shard_states. induction l as [|[e c] l IH]; cbn; [easy|]. now rewrite IH. Qed.

Lemma nshards_lt n h m d : (h < n)%nat -> (d < Z.to_nat (nshards (Z.of_nat h) (Z.of_nat n) (Z.of_nat m)))%nat <-> (h + d * n < m)%nat.
Proof.
  intros Hh. unfold nshards. pose proof (Z.div_mod (Z.of_nat m - Z.of_nat h + Z.of_nat n - 1) (Z.of_nat n) ltac:(lia)) as E.
  pose proof (Z.mod_pos_bound (Z.of_nat m - Z.of_nat h + Z.of_nat n - 1) (Z.of_nat n) ltac:(lia)) as B.
  set (q := (Z.of_nat m - Z.of_nat h + Z.of_nat n - 1) / Z.of_nat n) in *. set (r := (Z.of_nat m - Z.of_nat h + Z.of_nat n - 1) mod Z.of_nat n) in *. clearbody q r.
  split; intros H.
  - assert (Z.of_nat d + 1 <= q) by lia. assert (Z.of_nat n * (Z.of_nat d + 1) <= Z.of_nat n * q) by nia. lia.
  - assert (Z.of_nat d < q); [|lia]. destruct (Z.lt_ge_cases (Z.of_nat d) q) as [|Hq]; [easy|exfalso]. assert (Z.of_nat n * q <= Z.of_nat n * Z.of_nat d) by nia. lia.
Qed.
(** The states of a host's shards are its part of the list of all states. *)
Lemma host_states_stride {X} (G : list X) (st : Z -> X) n h m : (h < n)%nat -> length G = m ->
  (forall j x, nth_error G j = Some x -> st (Z.of_nat j) = x) ->
  host_states st (Z.of_nat h) (Z.of_nat n) m = stride n h G.
Proof.
  intros Hh <- Hst. unfold host_states. rewrite shards_of_eq by lia. rewrite map_map. apply nth_error_ext. intros d.
  rewrite nth_stride by lia. rewrite nth_error_map, nth_error_zrange.
  destruct (Nat.ltb_spec d (Z.to_nat (nshards (Z.of_nat h) (Z.of_nat n) (Z.of_nat (length G))))) as [Hd|Hd].
  - apply (nshards_lt n h (length G) d Hh) in Hd. destruct (nth_error_some G _ Hd) as (x & Hx). rewrite Hx. cbn. f_equal. rewrite <- (Hst _ _ Hx). f_equal. lia.
  - destruct (nth_error G (h + d * n)) as [x|] eqn:E; [|easy]. apply nth_error_lt in E. apply (nshards_lt n h (length G) d Hh) in E. lia.
Qed.

Hypothesis Hjson : json = true.

Lemma job_save_ok n ss rem : (0 < n)%nat -> (n <= M)%nat -> job_has n ss rem ->
  exists G st state d read, left_by G rem read /\ (forall j x, nth_error G j = Some x -> st (Z.of_nat j) = inl x) /\
    job_save D cycle_length n ss = Ok d /\ saved_by (Z.of_nat n) (elastic_shards st (Z.of_nat n) M) state d.
Proof.
  intros Hn Hm HJ. destruct (job_outs n ss rem HJ) as (outs & Hol & HO). destruct HJ as (Hl & Hrem & _).
  pose proof (rem_outs n ss rem outs Hn Hl Hol HO) as Hr.
  (* the reports *)
  destruct (finite_choice (fun h (lr : list (bool * option C) * (nat -> nat)) => forall s, nth_error ss h = Some s ->
      il_get_shards (host_shards D n h) cycle_length s = Ok (fst lr) /\ length (fst lr) = length (host_shards D n h) /\
      forall d, (d < length (host_shards D n h))%nat -> exists e c, nth_error (fst lr) d = Some (e, Some c) /\
        if e then rem (h + d * n)%nat = [] else crep (h + d * n) c (snd lr d) /\ (snd lr d <= length (lst (h + d * n)))%nat /\ rem (h + d * n)%nat = skipn (snd lr d) (lst (h + d * n))) n)
    as (rs & Hrl & HR).
  { intros h Hh. destruct (nth_error_some ss h ltac:(lia)) as (s & Es). destruct (nth_error_some outs h ltac:(lia)) as (out & Eo).
    destruct (HO h s out Es Eo) as (Hg & Hmk & Hd).
    destruct (shards_reported _ _ _ _ _ _ _ _ _ (host_family n h Hn) s out Hmk Hg) as (l & read & E & El & Hrep). exists (l, read). intros s' Es'.
    rewrite Es in Es'. injection Es' as <-. cbn [fst snd]. split; [exact E|]. split; [exact El|]. intros d Hdl. destruct (Hrep d Hdl) as (e & c & E1 & E2).
    exists e, c. split; [exact E1|]. rewrite Hd, nth_strided in E2 by exact Hn. exact E2. }
  assert (Hmd : forall h d, (h < n)%nat -> ((h + d * n) mod n = h /\ (h + d * n) / n = d)%nat).
  { intros h d Hh. split; [rewrite Nat.mod_add by lia; now apply Nat.mod_small|rewrite Nat.div_add by lia; now rewrite Nat.div_small]. }
  assert (Hdm : forall j, (j mod n + j / n * n = j)%nat) by (intros j; pose proof (Nat.div_mod j n ltac:(lia)); lia).
  (* all of them *)
  set (read := fun j => match nth_error rs (j mod n) with Some lr => snd lr (j / n)%nat | None => 0%nat end).
  destruct (finite_choice (fun j (ec : bool * C) => exists lr, nth_error rs (j mod n) = Some lr /\ nth_error (fst lr) (j / n) = Some (fst ec, Some (snd ec)) /\
      if fst ec then rem j = [] else crep j (snd ec) (read j) /\ (read j <= length (lst j))%nat /\ rem j = skipn (read j) (lst j)) M) as (G0 & HG0l & HG0).
  { intros j Hj. assert (Hjn : (j mod n < n)%nat) by (apply Nat.mod_upper_bound; lia). destruct (nth_error_some rs (j mod n) ltac:(lia)) as (lr & Elr).
    destruct (nth_error_some ss (j mod n) ltac:(lia)) as (s & Es). destruct (HR _ _ Elr s Es) as (_ & _ & H).
    destruct (H (j / n)%nat) as (e & c & E1 & E2). { apply host_length_lt; [exact Hn|]. now rewrite Hdm. }
    exists (e, c), lr. cbn [fst snd]. rewrite Hdm in E2. unfold read. rewrite Elr. auto. }
  set (G := map (fun je => (fst (snd je), shard_json D (fst je) (snd (snd je)))) (combine (seq 0 M) G0)).
  assert (HG : forall j, nth_error G j = option_map (fun ec => (fst ec, shard_json D j (snd ec))) (nth_error G0 j)).
  { intros j. unfold G. rewrite nth_error_map, nth_combine_seq by exact HG0l. now destruct (nth_error G0 j). }
  assert (HGl : length G = M) by (unfold G; rewrite map_length, combine_length, seq_length; lia).
  destruct (nth_error_some G 0 ltac:(lia)) as (g0 & _).
  destruct (nth_error_some G0 0 ltac:(lia)) as (g00 & _).
  set (st0 := fun j => match nth_error G0 (Z.to_nat j) with Some x => inl x | None => inl g00 end : content (C := C)).
  set (st := fun j => content_json D j (st0 j)).
  assert (Hst0 : forall j x, nth_error (map inl G0) j = Some x -> st0 (Z.of_nat j) = x).
  { intros j x. rewrite nth_error_map. unfold st0. rewrite Nat2Z.id. destruct (nth_error G0 j); [|easy]. cbn. now injection 1. }
  destruct (finite_choice (fun h x => forall s, nth_error ss h = Some s -> exists s', il_get (host_shards D n h) cycle_length s = Ok (x, s')) n) as (cks & Hcl & HC).
  { intros h Hh. destruct (nth_error_some ss h ltac:(lia)) as (s & Es). destruct (nth_error_some outs h ltac:(lia)) as (out & Eo).
    destruct (HO h s out Es Eo) as (Hg & Hmk & _). destruct (get_ok _ _ _ _ _ _ _ _ _ (host_family n h Hn) s out Hmk Hg) as (c & s' & E & _).
    exists c. intros s1 Es1. rewrite Es in Es1. injection Es1 as <-. now exists s'. }
  set (state := fun i => match nth_error cks (Z.to_nat i) with Some c => inr (il_json (host_json D n (Z.to_nat i)) c) | None => inl g00 end : content (C := C)).
  set (parts := map (fun i => save_writes i (Z.of_nat n) (elastic_shards st (Z.of_nat n) M i) (state i)) (zrange 0 n)).
  exists G, st, state, (concat parts), read.
  split; [|split; [|split]].
  - split; [exact HGl|]. intros j e c Ej. rewrite HG in Ej. destruct (nth_error G0 j) as [[e0 c0]|] eqn:E0; [|easy]. cbn in Ej. injection Ej as <- <-.
    destruct (HG0 _ _ E0) as (lr & Elr & _ & H). cbn [fst snd] in H. destruct e0; [exact H|]. destruct H as (H1 & H2 & H3). split; [|auto].
    unfold shard_json. destruct (nth_error D j) as [x|] eqn:Ex; [|exact H1]. now apply (f_json _ _ _ _ _ _ _ _ F j x).
  - intros j x Ej. unfold st, st0. rewrite HG in Ej. rewrite Nat2Z.id. destruct (nth_error G0 j) as [[e0 c0]|]; [|easy]. cbn in Ej |- *. injection Ej as <-. now rewrite Nat2Z.id.
  - unfold job_save. rewrite (sequence_nth _ (combine (seq 0 n) ss) parts).
    + reflexivity.
    + unfold parts. rewrite map_length, zrange_length, combine_length, seq_length. lia.
    + intros h [h' s] part Eh Ep. rewrite nth_combine_seq in Eh by exact Hl. destruct (nth_error ss h) as [s0|] eqn:Es; [|easy]. cbn in Eh. injection Eh as <- <-. cbn [fst snd].
      assert (Hh : (h < n)%nat) by (apply nth_error_lt in Es; lia).
      unfold parts in Ep. rewrite nth_error_map, nth_error_zrange in Ep. destruct (Nat.ltb_spec h n); [|lia]. cbn [option_map] in Ep. injection Ep as <-.
      destruct (nth_error_some rs h ltac:(lia)) as (lr & Elr). destruct (nth_error_some cks h ltac:(lia)) as (c & Ec).
      destruct (HR _ _ Elr s0 Es) as (E1 & E2 & _). destruct (HC _ _ Ec s0 Es) as (s' & E3).
      unfold host_save. rewrite E1. cbn [bind]. rewrite E3. cbn [bind]. do 2 f_equal.
      2:{ unfold state. now rewrite Nat2Z.id, Ec. }
      unfold elastic_shards. f_equal.
      assert (El : fst lr = map (fun ec => (fst ec, Some (snd ec))) (stride n h G0)).
      { apply nth_error_ext. intros d. rewrite nth_error_map, nth_stride by exact Hn.
        destruct (Nat.lt_ge_cases d (length (host_shards D n h))) as [Hd|Hd].
        - pose proof (proj1 (host_length_lt n h d Hn) Hd) as Hd'. destruct (nth_error_some G0 (h + d * n) ltac:(lia)) as (ec & Eec). rewrite Eec. cbn.
          destruct (HG0 _ _ Eec) as (lr' & Elr' & E4 & _). destruct (Hmd h d Hh) as (M1 & M2). rewrite M1 in Elr'. rewrite M2 in E4. rewrite Elr in Elr'. injection Elr' as <-. exact E4.
        - rewrite (proj2 (nth_error_None (fst lr) d)) by lia. rewrite (proj2 (nth_error_None G0 _)); [reflexivity|]. rewrite HG0l.
          destruct (Nat.lt_ge_cases (h + d * n) M) as [Hx|Hx]; [|exact Hx]. apply (host_length_lt n h d Hn) in Hx. lia. }
      rewrite El, shard_states_some.
      assert (Eh : map inl (stride n h G0) = host_states st0 (Z.of_nat h) (Z.of_nat n) M).
      { rewrite map_stride. symmetry. apply host_states_stride; [exact Hh|now rewrite map_length|exact Hst0]. }
      rewrite Eh. unfold host_states. rewrite get_shard_states_eq by lia. rewrite get_shard_states_eq by lia. rewrite map_map. cbn [fst snd]. reflexivity.
  - unfold saved_by, parts. now rewrite Nat2Z.id.
Qed.

(** ** Restoring *)
Hypothesis Htruthy : forall c, truthy c = true.

Lemma ordered_spec m flags d : ordered m flags = true -> (d < length flags)%nat -> nth d flags true = true ->
  exists d', In d' (firstn m (filter (fun d => negb (nth d flags true)) (seq 0 (length flags)))) /\ (d < d')%nat.
Proof.
  unfold ordered. intros H Hd Hn. rewrite forallb_forall in H. specialize (H d ltac:(apply in_seq; lia)). rewrite Hn in H. cbn [negb orb] in H.
  apply existsb_exists in H as (d' & Hi & Hlt). apply Nat.ltb_lt in Hlt. now exists d'.
Qed.

Lemma host_restore_ok n h fuel (G : list (bool * C)) rem read : (h < n)%nat -> (n <= M)%nat -> (N0 <= fuel)%nat -> left_by G rem read ->
  (forall j, (M <= j)%nat -> rem j = []) ->
  ordered (Nat.min cycle_length (length (stride n h G))) (map fst (stride n h G)) = true ->
  exists s out, il_set_shards (host_shards D n h) cycle_length keep truthy fuel (il_init (host_shards D n h) cycle_length) (stride n h G) = Ok s /\
    host_has n rem h s out.
Proof.
  intros Hh Hm Hf (HGl & HG) Hrem Hord. assert (Hn : (0 < n)%nat) by lia.
  set (Dh := host_shards D n h) in *. set (shards := stride n h G) in *.
  assert (Hlen : length shards = length Dh) by now apply stride_length_eq.
  assert (Hls : length (stride n h ls) = length Dh) by (apply stride_length_eq; [exact Hn|apply (f_len _ _ _ _ _ _ _ _ F)]).
  assert (Hcl0 : (0 < Interleave.cl Dh cycle_length)%nat) by now apply cl_pos.
  assert (Hst : forall d c, nth_error shards d = Some (false, c) -> hcrep n h d c (read (h + d * n)%nat) /\ (read (h + d * n) <= length (nth d (stride n h ls) []))%nat).
  { intros d c E. unfold shards in E. rewrite nth_stride in E by exact Hn. destruct (HG _ _ _ E) as (H1 & H2 & _). unfold hcrep. rewrite nth_strided by exact Hn. auto. }
  assert (Hflag : forall d, exhausted_shard shards d = nth d (map fst shards) true).
  { intros d. unfold exhausted_shard. rewrite nth_of_error, nth_error_map. destruct (nth_error shards d) as [[e c]|]; reflexivity. }
  assert (Hbef : forall d, (d < length shards)%nat -> exhausted_shard shards d = true ->
    exists d', In d' (firstn (Interleave.cl Dh cycle_length) (active_shards shards)) /\ (d < d')%nat).
  { intros d Hd He. rewrite Hflag in He. destruct (ordered_spec _ _ d Hord ltac:(now rewrite map_length) He) as (d' & Hi & Hlt). exists d'. split; [|exact Hlt].
    unfold Interleave.cl. rewrite <- Hlen. rewrite map_length in Hi. unfold active_shards. erewrite filter_ext; [exact Hi|]. intros x. cbn. now rewrite Hflag. }
  pose proof (shards_stand_for Dh cycle_length truthy (stride n h ls) (hcrep n h) shards (fun d => read (h + d * n)%nat) Hlen Hls Hcl0 Htruthy Hst Hbef) as HS.
  pose proof (shard_distinct Dh cycle_length truthy (stride n h ls) (hcrep n h) shards (fun d => read (h + d * n)%nat) Hlen Hls Hcl0 Htruthy Hst Hbef) as HD.
  pose proof (shard_rest Dh cycle_length truthy (stride n h ls) (hcrep n h) shards (fun d => read (h + d * n)%nat) Hlen Hls Hcl0 Htruthy Hst Hbef) as HR.
  pose proof (shard_held Dh cycle_length truthy (stride n h ls) (hcrep n h) shards (fun d => read (h + d * n)%nat) Hlen Hls Hcl0 Htruthy Hst) as HH.
  set (slots := shard_slots Dh cycle_length (stride n h ls) shards (fun d => read (h + d * n)%nat)) in *.
  set (pend := shard_pend Dh cycle_length (stride n h ls) shards (fun d => read (h + d * n)%nat)) in *.
  destruct (robin_exists slots pend) as (out & Ho).
  { pose proof (c_len _ _ _ _ _ _ _ HS) as E. intros E0. rewrite E0 in E. cbn in E. lia. }
  assert (Hck : ck_to_give Dh cycle_length (stride n h ls) (hcrep n h) (shards_ck Dh cycle_length truthy shards) out).
  { exists slots, pend. split; [exact HS|]. unfold shards_ck. cbn [ck_nc]. unfold rotate. cbn. now rewrite app_nil_r. }
  destruct (set_ok _ _ keep _ _ _ _ _ _ _ (host_family n h Hn) fuel _ _ _ Hf (init_settable _ _ used (hrep n h)) Hck) as (s & E & Hg & _ & Hmk).
  exists s, out. split; [exact E|]. split; [exact Hg|]. split.
  - apply Hmk. intros k Hk. cbn [il_init il_exh]. now apply nth_error_repeat.
  - intros d. rewrite (robin_of_dataset _ _ _ Ho HD d). destruct (Nat.lt_ge_cases d (length shards)) as [Hd|Hd].
    + rewrite HR by exact Hd. destruct (nth_error_some _ _ Hd) as ((e & c) & Ed). unfold exhausted_shard. rewrite Ed.
      unfold shards in Ed. rewrite nth_stride in Ed by exact Hn. specialize (HG _ _ _ Ed). destruct e; [now rewrite HG|]. destruct HG as (_ & _ & ->). now rewrite nth_strided.
    + rewrite rest_of_absent.
      * symmetry. apply Hrem. destruct (Nat.lt_ge_cases (h + d * n) M) as [Hx|Hx]; [|exact Hx]. apply (host_length_lt n h d Hn) in Hx. fold Dh in Hx. lia.
      * rewrite HH. rewrite map_app, in_app_iff, map_map. cbn [fst]. rewrite map_id. unfold pend, shard_pend. rewrite map_map. cbn [fst]. rewrite map_id, in_seq.
        intros [Hi|Hi]; [|lia]. apply in_firstn_in in Hi. unfold active_shards in Hi. apply filter_In in Hi as [Hi _]. apply in_seq in Hi. lia.
Qed.

Lemma job_restore_ok n n' fuel (G : list (bool * C)) (st state : Z -> content (C := C)) d rem read :
  (0 < n)%nat -> (0 < n')%nat -> (n' <= M)%nat -> n' <> n -> (N0 <= fuel)%nat -> (M < fuel)%nat -> left_by G rem read ->
  (forall j, (M <= j)%nat -> rem j = []) ->
  (forall j x, nth_error G j = Some x -> st (Z.of_nat j) = inl x) -> saved_by (Z.of_nat n) (elastic_shards st (Z.of_nat n) M) state d ->
  restore_ordered cycle_length fuel d n' = true ->
  exists ss, job_restore D cycle_length keep truthy fuel d n' = Ok ss /\ job_has n' ss rem.
Proof.
  intros Hn Hn' Hm Hne Hf HfM HL Hrem Hst Hd Hord.
  assert (Hget : forall h, (h < n')%nat -> restore fuel d (Z.of_nat h) (Z.of_nat n') (Some (Z.of_nat h, Z.of_nat n')) = Ok (SetShardStates (map inl (stride n' h G)))).
  { intros h Hh. rewrite (C52_elastic_resize (Z.of_nat n) M st state d) by (auto; lia). do 2 f_equal.
    rewrite map_stride. apply host_states_stride; [exact Hh|rewrite map_length; apply HL|]. intros j x. rewrite nth_error_map.
    destruct (nth_error G j) eqn:E; [|easy]. cbn. intros [= <-]. now apply Hst. }
  destruct (finite_choice (fun h s => host_restore D cycle_length keep truthy fuel d n' h = Ok s /\ exists out, host_has n' rem h s out) n') as (ss & Hsl & HS).
  { intros h Hh. unfold restore_ordered in Hord. rewrite forallb_forall in Hord. specialize (Hord h ltac:(apply in_seq; lia)). rewrite Hget in Hord by exact Hh.
    rewrite map_length in Hord. rewrite map_map in Hord.
    rewrite (map_ext (fun x => flag (inl x)) fst) in Hord by (intros [e c]; reflexivity).
    destruct (host_restore_ok n' h fuel G rem read Hh Hm Hf HL Hrem Hord) as (s & out & E & HH). exists s. split; [|now exists out].
    unfold host_restore. rewrite Hget by exact Hh. cbn [bind]. rewrite map_map.
    rewrite (sequence_nth (fun x => Ok x) (stride n' h G) (stride n' h G)) by (try reflexivity; intros k x y E1 E2; congruence). cbn [bind]. exact E. }
  exists ss. split; [|split; [exact Hsl|split; [exact Hrem|]]].
  - unfold job_restore. apply sequence_nth; [now rewrite seq_length|]. intros k h s Ek Es.
    assert (Hk : (k < n')%nat) by (apply nth_error_lt in Es; lia).
    apply nth_error_nth with (d := 0%nat) in Ek. rewrite seq_nth in Ek by exact Hk. cbn in Ek. subst h. apply (HS k s Es).
  - intros h s Es. apply (HS h s Es).
Qed.

(** ** The job *)
Lemma host_drain n h fuel : (0 < n)%nat -> (job_enough <= fuel)%nat -> forall out s,
  to_give (host_shards D n h) cycle_length (stride n h ls) (hrep n h) (hcrep n h) s out ->
  drain (interleave_it (host_shards D n h) cycle_length keep truthy) fuel (Datatypes.S (length out)) s = (map snd out, Stop).
Proof.
  intros Hn Hf. assert (Hf' : (enough (host_shards D n h) cycle_length N0 <= fuel)%nat) by (pose proof (job_enough_ok n h Hn); lia).
  pose proof (host_family n h Hn) as FH. induction out as [|[j x] out IH]; intros s Hg.
  - destruct (next_ok _ _ keep _ _ _ _ _ _ _ FH fuel s [] Hf' Hg) as (s' & E & _). cbn [length map drain]. cbn [interleave_it next ist]. now rewrite E.
  - destruct (next_ok _ _ keep _ _ _ _ _ _ _ FH fuel s _ Hf' Hg) as (s' & E & Hg' & _). cbn [tl] in Hg'. specialize (IH s' Hg').
    cbn [length map snd].
    change (drain (interleave_it (host_shards D n h) cycle_length keep truthy) fuel (Datatypes.S (Datatypes.S (length out))) s) with
      (match il_next (host_shards D n h) cycle_length keep fuel s with
       | (Yield a, s') => let (l, o) := drain (interleave_it (host_shards D n h) cycle_length keep truthy) fuel (Datatypes.S (length out)) s' in (a :: l, o)
       | (o, _) => ([], o) end).
    rewrite E, IH. reflexivity.
Qed.

Fixpoint counts_ok (n : nat) (later : list (nat * (nat -> nat))) : Prop :=
  (0 < n <= M)%nat /\ match later with [] => True | (n', _) :: later' => n' <> n /\ counts_ok n' later' end.

Lemma job_ok fuel : (job_enough <= fuel)%nat -> forall later n ks ss rem, counts_ok n later -> job_has n ss rem ->
  job_ordered D cycle_length keep truthy fuel n ks later ss = true ->
  exists outs n' ss' rem', job D cycle_length keep truthy fuel n ks later ss = Ok (map (map (map snd)) outs, (n', ss')) /\
    (0 < n')%nat /\ job_has n' ss' rem' /\ forall j, of_dataset j (concat (concat outs)) ++ rem' j = rem j.
Proof.
  intros Hf. assert (HfN : (N0 <= fuel)%nat) by (unfold job_enough in Hf; lia). assert (HfM : (M < fuel)%nat) by (unfold job_enough in Hf; lia).
  induction later as [|[n' ks'] later IH]; intros n ks ss rem Hc HJ Hord; cbn [job].
  - destruct Hc as (Hn & _). destruct (job_read_ok n ss rem fuel ks ltac:(lia) Hf HJ) as (outs & rem' & E & HJ' & Hr & _).
    exists [outs], n, (map snd (job_read D cycle_length keep fuel n ks ss)), rem'. rewrite E. split; [reflexivity|]. split; [lia|]. split; [exact HJ'|].
    cbn [concat]. rewrite app_nil_r. exact Hr.
  - destruct Hc as (Hn & Hne & Hc). destruct (job_read_ok n ss rem fuel ks ltac:(lia) Hf HJ) as (outs & rem1 & E & HJ1 & Hr1 & _).
    destruct (job_save_ok n _ rem1 ltac:(lia) ltac:(lia) HJ1) as (G & st & state & d & read & HL & Hst & Es & Hd).
    cbn [job_ordered] in Hord. rewrite Es in Hord. apply andb_true_iff in Hord as [Hord1 Hord2].
    assert (Hn' : (0 < n' <= M)%nat) by (destruct later as [|[? ?] ?]; apply Hc).
    destruct (job_restore_ok n n' fuel G st state d rem1 read) as (ss2 & E2 & HJ2); try assumption; try lia.
    { apply HJ1. }
    rewrite E2 in Hord2. destruct (IH n' ks' ss2 rem1 Hc HJ2 Hord2) as (outs2 & n2 & ss3 & rem2 & E3 & Hn2 & HJ3 & Hr3).
    exists (outs :: outs2), n2, ss3, rem2. rewrite Es. cbn [bind]. rewrite E2. cbn [bind]. rewrite E3. cbn [bind map]. rewrite E. split; [reflexivity|].
    split; [exact Hn2|]. split; [exact HJ3|]. intros j. cbn [concat]. rewrite concat_app, of_dataset_app, <- app_assoc, Hr3. apply Hr1.
Qed.
(** Little enough is read that something is left of every shard each time the job is saved. *)
Fixpoint budget (n : nat) (ks : nat -> nat) (later : list (nat * (nat -> nat))) : nat :=
  match later with [] => 0%nat | (n', ks') :: later' => (list_max (map ks (seq 0 n)) + budget n' ks' later')%nat end.
Lemma ordered_false m flags : Forall (fun e => e = false) flags -> ordered m flags = true.
Proof.
  intros H. unfold ordered. apply forallb_forall. intros d Hd. apply in_seq in Hd. rewrite nth_of_error. destruct (nth_error flags d) as [e|] eqn:E.
  - rewrite Forall_forall in H. rewrite (H e); [easy|]. now apply nth_error_In in E.
  - apply nth_error_None in E. lia.
Qed.
Lemma job_ordered_ok fuel : (job_enough <= fuel)%nat -> forall later n ks ss rem, counts_ok n later -> job_has n ss rem ->
  (forall j, (j < M)%nat -> (budget n ks later < length (rem j))%nat) -> job_ordered D cycle_length keep truthy fuel n ks later ss = true.
Proof.
  intros Hf. assert (HfN : (N0 <= fuel)%nat) by (unfold job_enough in Hf; lia). assert (HfM : (M < fuel)%nat) by (unfold job_enough in Hf; lia).
  induction later as [|[n' ks'] later IH]; intros n ks ss rem Hc HJ Hb; cbn [job_ordered]; [easy|]. cbn [budget] in Hb.
  destruct Hc as (Hn & Hne & Hc). destruct (job_read_ok n ss rem fuel ks ltac:(lia) Hf HJ) as (outs & rem1 & E & HJ1 & Hr1 & Hle).
  destruct (job_save_ok n _ rem1 ltac:(lia) ltac:(lia) HJ1) as (G & st & state & d & read & HL & Hst & Es & Hd). rewrite Es.
  assert (Hn' : (0 < n' <= M)%nat) by (destruct later as [|[? ?] ?]; apply Hc).
  assert (Hb1 : forall j, (j < M)%nat -> (budget n' ks' later < length (rem1 j))%nat) by (intros j Hj; specialize (Hb j Hj); specialize (Hle j); lia).
  assert (Hord : restore_ordered cycle_length fuel d n' = true).
  { unfold restore_ordered. apply forallb_forall. intros h Hh. apply in_seq in Hh.
    rewrite (C52_elastic_resize (Z.of_nat n) M st state d) by (auto; lia).
    rewrite (host_states_stride (map inl G) st n' h M); [|lia|rewrite map_length; apply HL|
      intros j x; rewrite nth_error_map; destruct (nth_error G j) eqn:E1; [|easy]; cbn; intros [= <-]; now apply Hst].
    apply ordered_false. rewrite <- map_stride, map_map. apply Forall_forall. intros e He. apply in_map_iff in He as ((e' & c) & <- & He). cbn [flag].
    apply In_nth_error in He as (k & Ek). rewrite nth_stride in Ek by lia. pose proof (proj2 HL _ _ _ Ek) as HG. destruct e'; [|easy].
    apply nth_error_lt in Ek. rewrite (proj1 HL) in Ek. specialize (Hb1 _ Ek). rewrite HG in Hb1. cbn in Hb1. lia. }
  rewrite Hord. cbn [andb].
  destruct (job_restore_ok n n' fuel G st state d rem1 read) as (ss2 & E2 & HJ2); try assumption; try lia; [apply HJ1|].
  rewrite E2. now apply (IH n' ks' ss2 rem1).
Qed.
End Host.
