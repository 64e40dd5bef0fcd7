(** Proofs about mp_prefetch over InterleaveIterDataset. *)
From Verif Require Import Base ListFacts Iter IterSpec IterLaw Interleave InterleaveSpec Interleave_proofs Prop_Interleave
  Scheduled Scheduled_proofs Multiprocess MultiprocessSpec Multiprocess_proofs ElasticJob ElasticJob_proofs MpInterleave.

Local Ltac spl := repeat match goal with |- _ /\ _ => split end.

(** ** The datasets *)

Lemma files_family {S C A} used json (D : list (hiter S C A)) ls truthy : (forall c, truthy c = true) ->
  Forall2 (fun h l => renewable (h_it h) l true used json) D ls ->
  exists N rep crep, family D truthy ls used json N rep crep.
Proof.
  intros Ht HL. pose proof (Forall2_length _ _ _ HL) as Hlen.
  assert (G : exists N (rep : nat -> S -> nat -> Prop) (crep : nat -> C -> nat -> Prop),
    forall d h, nth_error D d = Some h -> NewLaw (h_it h) (nth d ls []) true used json N (rep d) (crep d)).
  { clear Hlen. induction HL as [|h l D ls (N & rep & crep & L) _ (M & reps & creps & IH)].
    - exists 0%nat, (fun d _ _ => True), (fun d _ _ => True). intros [|d] h Hd; discriminate.
    - exists (Nat.max N M), (fun d => match d with O => rep | Datatypes.S d' => reps d' end), (fun d => match d with O => crep | Datatypes.S d' => creps d' end).
      intros [|d] h' Hd; cbn in Hd |- *.
      + injection Hd as <-. apply (NewLaw_mono _ _ _ _ _ N); [lia|exact L].
      + apply (NewLaw_mono _ _ _ _ _ M); [lia|]. now apply IH. }
  destruct G as (N & rep & crep & L).
  assert (Hlive : forall (l : list A) p, (p <= length l)%nat -> live l true p) by (intros; unfold live; lia).
  exists N, (fun d s p => (d < length D)%nat /\ rep d s p), (fun d c p => (d < length D)%nat /\ crep d c p).
  assert (Hd : forall d, (d < length D)%nat -> exists h, nth_error D d = Some h).
  { intros d Hd. destruct (nth_error D d) as [h|] eqn:E; [now exists h|]. apply nth_error_None in E. lia. }
  split.
  - congruence.
  - intros d h H. split; [now apply (nth_error_lt _ _ h)|apply (new_init (L d h H))].
  - intros d s p (H & Hr). destruct (Hd d H) as (h & Hh). apply (new_le (L d h Hh) _ _ Hr).
  - intros d h fuel s p a H Hf (Hl & Hr) Ha. destruct (new_next (L d h H) fuel s p a Hf Hr Ha) as (s' & E & Hr').
    exists s'. rewrite Nat.add_1_r. auto.
  - intros d h fuel s H Hf (Hl & Hr). destruct (new_stop (L d h H) fuel s Hf eq_refl Hr) as (s' & E & Hr'). exists s'. auto.
  - intros d h s p H (Hl & Hr). split; [exact Hl|]. now apply (new_get (L d h H)).
  - intros d h c p H J (Hl & Hc). split; [exact Hl|]. now apply (new_json (L d h H)).
  - intros d h fuel c p H Hf (Hl & Hc) Hp. destruct (new_fresh (L d h H) fuel c p Hf Hc (Hlive _ _ Hp)) as (s' & E & Hr'). exists s'. auto.
  - intros d h fuel s q c p H Hf U (Hl & Hr) (_ & Hc) Hp.
    destruct (new_used (L d h H) fuel s q c p Hf U Hr Hc (Hlive _ _ Hp)) as (s' & E & Hr'). exists s'. auto.
  - intros d c p _ Hc. rewrite Ht in Hc. discriminate.
  - intros d c p _ _. apply Ht.
Qed.

(** ** An interleave iterator can be made anew and restored *)

Section Polled.
Context {S C A : Type}.
Variable ds : list (hiter S C A).
Variable cycle_length : nat.
Variable truthy : C -> bool.
Variable ls : list (list A).
Variables (used json : bool) (N : nat).
Variable rep : nat -> S -> nat -> Prop.
Variable crep : nat -> C -> nat -> Prop.
Hypothesis F : family ds truthy ls used json N rep crep.
Hypothesis Hcl : (0 < cl ds cycle_length)%nat.
Variable out : list (nat * A).
Hypothesis Hout : interleaved (cl ds cycle_length) ls out.

Definition irep (s : il S C) (p : nat) : Prop :=
  to_give ds cycle_length ls rep crep s (skipn p out) /\ il_fut s = [] /\ marks ds cycle_length s /\ (p <= length out)%nat.
Definition icrep (c : res (ilck C)) (p : nat) : Prop :=
  exists k, c = Ok k /\ ck_to_give ds cycle_length ls crep k (skipn p out) /\ ck_fut k = [] /\ (p <= length out)%nat.

Lemma polled_get s p : irep s p -> exists c s', il_get ds cycle_length s = Ok (c, s') /\ irep s' p /\ icrep (Ok c) p.
Proof.
  intros (Hg & Hf & Hm & Hp). destruct (get_ok _ _ _ _ _ _ _ _ _ F s _ Hm Hg) as (c & s' & E & Hg' & Hm' & Hc & Hf' & Hcf).
  exists c, s'. split; [exact E|]. split; [unfold irep; spl; auto; congruence|]. exists c. spl; auto. congruence.
Qed.

Lemma polled_new : NewLaw (polled_it cycle_length truthy ds) (map snd out) true false json (enough ds cycle_length N) irep icrep.
Proof.
  assert (Hinit : irep (il_init ds cycle_length) 0).
  { unfold irep. cbn [skipn]. spl; [now apply (init_gives _ _ _ _ _ _ _ _ _ F)|easy|now apply init_marks|lia]. }
  split.
  - exact Hinit.
  - intros s p H. rewrite map_length. apply H.
  - intros fuel s p a Hf (Hg & Hfu & Hm & Hp) Ha. rewrite nth_error_map, <- hd_skipn in Ha.
    destruct (next_ok _ _ false _ _ _ _ _ _ _ F fuel s _ Hf Hg) as (s' & E & Hg' & Hfu' & Hm'). rewrite skipn_tl in Hg'.
    destruct (skipn p out) as [|[j x] r] eqn:Er; [easy|]. cbn in Ha. injection Ha as <-.
    assert (Hp' : (p < length out)%nat). { assert (length (skipn p out) <> 0%nat) by now rewrite Er. rewrite skipn_length in *. lia. }
    assert (Hr : irep s' (Datatypes.S p)) by (unfold irep; spl; auto).
    destruct (polled_get s' _ Hr) as (c & s'' & Eg & Hr' & _). exists s''. split; [|exact Hr'].
    cbn [polled_it next]. now rewrite E, Eg.
  - intros fuel s Hf _ (Hg & Hfu & Hm & Hp). rewrite map_length in *.
    destruct (next_ok _ _ false _ _ _ _ _ _ _ F fuel s _ Hf Hg) as (s' & E & Hg' & Hfu' & Hm'). rewrite skipn_all in *.
    exists s'. split; [cbn [polled_it next]; now rewrite E|]. unfold irep. rewrite skipn_all. spl; auto.
  - intros s p Hr. cbn [polled_it get_state interleave_it]. destruct (polled_get s p Hr) as (c & s' & -> & _ & Hc). cbn [bind]. exact Hc.
  - intros c p J (k & -> & Hk & Hf & Hp). cbn [polled_it jsonck interleave_it bind]. eexists. split; [reflexivity|].
    destruct (json_ok _ _ _ _ _ _ _ _ _ F k _ J Hk Hf) as (Hk' & Hf'). auto.
  - intros fuel c p Hf (k & -> & Hk & Hfu & Hp) _. cbn [polled_it set_state init interleave_it bind].
    assert (HfN : (N <= fuel)%nat) by (unfold enough in Hf; lia).
    destruct (set_ok _ _ false _ _ _ _ _ _ _ F fuel _ _ _ HfN (init_settable _ _ used rep) Hk) as (s' & E & Hg & Hfs & Hm).
    exists s'. split; [exact E|]. unfold irep. spl; auto; [congruence|]. apply Hm. intros i Hi. cbn [il_init il_exh]. now apply nth_error_repeat.
  - discriminate.
Qed.
End Polled.

(** ** The state at the start *)

Lemma with_start_new {B} (p : Iter B) l json N rep crep c0 : NewLaw p l true false json N rep crep -> crep c0 0%nat ->
  NewLaw (with_start p c0) l true false json N (fun s q => rep (snd s) q /\ (fst s = true -> q = 0%nat)) crep.
Proof.
  intros L H0. split.
  - split; [apply (new_init L)|easy].
  - intros s q (Hr & _). apply (new_le L _ _ Hr).
  - intros fuel s q a Hf (Hr & _) Ha. destruct (new_next L fuel (snd s) q a Hf Hr Ha) as (s' & E & Hr').
    exists (false, s'). cbn [with_start next]. rewrite E. split; [reflexivity|]. split; [exact Hr'|discriminate].
  - intros fuel s Hf T (Hr & _). destruct (new_stop L fuel (snd s) Hf T Hr) as (s' & E & Hr').
    exists (false, s'). cbn [with_start next]. rewrite E. split; [reflexivity|]. split; [exact Hr'|discriminate].
  - intros [b s] q (Hr & Hb). cbn [with_start get_state fst snd] in *. destruct b; [rewrite (Hb eq_refl); exact H0|now apply (new_get L)].
  - apply (new_json L).
  - intros fuel c q Hf Hc Hl. cbn [with_start set_state init snd]. destruct (new_fresh L fuel c q Hf Hc Hl) as (s' & -> & Hr').
    cbn [bind]. exists (false, s'). split; [reflexivity|]. split; [exact Hr'|discriminate].
  - discriminate.
Qed.

(** The first checkpoint of an interleave: all places hold the start of their dataset. *)
Lemma first_checkpoint {S C A} (ds : list (hiter S C A)) cycle_length c0 : (forall h, In h ds -> h_get h (h_init h) = c0) ->
  exists s, il_get ds cycle_length (il_init ds cycle_length) =
    Ok (mkCk 0 (cl ds cycle_length) (seq 0 (cl ds cycle_length)) (List.repeat (Some c0) (cl ds cycle_length))
             (List.repeat false (cl ds cycle_length)) [], s).
Proof.
  intros H0. unfold il_get.
  destruct (get_fill ds cycle_length (cl ds cycle_length) 0 (il_init ds cycle_length)) as (cs & s2 & E & M & Hlen & Hcs);
    try (cbn; rewrite ?repeat_length, ?seq_length; easy).
  { intros k Hk. cbn. rewrite !nth_error_repeat by lia. easy. }
  assert (Hle : (cl ds cycle_length <= length ds)%nat) by apply cl_le.
  assert (Ecs : cs = List.repeat (Some c0) (cl ds cycle_length)).
  { apply nth_error_ext. intros k. destruct (Nat.lt_ge_cases k (cl ds cycle_length)) as [Hk|Hk].
    - destruct (nth_error ds k) as [h|] eqn:Eh; [|apply nth_error_None in Eh; lia].
      rewrite (Hcs k h Hk Eh), nth_error_repeat by exact Hk. do 2 f_equal. apply H0. now apply nth_error_In in Eh.
    - rewrite (proj2 (nth_error_None cs k)) by lia. symmetry. apply nth_error_None. now rewrite repeat_length. }
  assert (Eidx : il_idx s2 = seq 0 (cl ds cycle_length)).
  { apply nth_error_ext. intros k. pose proof (mf_idx_len _ _ _ _ _ M) as El. cbn [il_init il_idx] in El. rewrite seq_length in El.
    destruct (Nat.lt_ge_cases k (cl ds cycle_length)) as [Hk|Hk].
    - destruct (mf_high _ _ _ _ _ M k ltac:(lia)) as (h & _ & _ & ->). symmetry. rewrite (nth_error_nth' _ 0%nat) by (rewrite seq_length; lia).
      now rewrite seq_nth by exact Hk.
    - rewrite (proj2 (nth_error_None _ k)) by lia. symmetry. apply nth_error_None. rewrite seq_length. exact Hk. }
  assert (Eexh : map is_some (il_exh s2) = List.repeat false (cl ds cycle_length)).
  { rewrite (mf_exh _ _ _ _ _ M). cbn [il_init il_exh]. generalize (cl ds cycle_length). intros m. induction m as [|m IH]; cbn; [easy|now f_equal]. }
  rewrite E. cbn [bind]. rewrite (mf_started _ _ _ _ _ M). cbn [il_init il_started il_nc il_nd il_idx il_exh il_fut].
  rewrite (mf_nc _ _ _ _ _ M), (mf_nd _ _ _ _ _ M), (mf_fut _ _ _ _ _ M), Eidx, Eexh, Ecs. eexists. reflexivity.
Qed.

(** ** The workers *)

Lemma files_length {X} W i (D : list X) c : (0 < W)%nat -> (i < W)%nat -> (W * c <= length D)%nat -> (c <= length (stride W i D))%nat.
Proof.
  intros HW Hi Hc. destruct c as [|c]; [lia|]. 
  destruct (nth_error D (i + c * W)) as [x|] eqn:E; [|apply nth_error_None in E; nia].
  rewrite <- nth_stride in E by exact HW. assert (c < length (stride W i D))%nat by (apply nth_error_Some; now rewrite E). lia.
Qed.
Lemma in_stride {X} W (D : list X) x : forall i, In x (stride W i D) -> In x D.
Proof.
  induction D as [|y D IH]; intros i H; [easy|]. cbn in H. destruct i; [destruct H as [->|H]; [now left|]|]; right; eapply IH; eassumption.
Qed.

(** A worker whose first checkpoint is its own. *)
Lemma own_worker {S C A} used json (D : list (hiter S C A)) ls cycle_length truthy W i out :
  (forall c, truthy c = true) -> Forall2 (fun h l => renewable (h_it h) l true used json) D ls ->
  (0 < cycle_length)%nat -> (i < W)%nat -> (W <= length D)%nat ->
  interleaved (Nat.min cycle_length (length (stride W i D))) (stride W i ls) out ->
  exists N rep crep, family D truthy ls used json N rep crep /\
  NewLaw (polled_it cycle_length truthy (files_of D W i)) (map snd out) true false json (enough (files_of D W i) cycle_length N)
    (irep (files_of D W i) cycle_length (stride W i ls) (hrep rep W i) (hcrep crep W i) out)
    (icrep (files_of D W i) cycle_length (stride W i ls) (hcrep crep W i) out).
Proof.
  intros Ht HL Hcyc Hi HW Ho. destruct (files_family used json D ls truthy Ht HL) as (N & rep & crep & F). exists N, rep, crep. split; [exact F|].
  apply (polled_new _ _ _ _ used); try (unfold cl, files_of; exact Ho).
  - exact (host_family D truthy ls used json N rep crep F W i ltac:(lia)).
  - unfold cl, files_of. pose proof (files_length W i D 1 ltac:(lia) Hi ltac:(lia)). lia.
Qed.

(** The checkpoint of the whole dataset at the start stands for the start of the worker's part. *)
Lemma whole_start {S C A} used json (D : list (hiter S C A)) ls cycle_length truthy W i out c0 N rep crep :
  family D truthy ls used json N rep crep ->
  (0 < cycle_length)%nat -> (i < W)%nat -> (W * cycle_length <= length D)%nat ->
  (forall h, In h D -> h_get h (h_init h) = c0) ->
  interleaved (Nat.min cycle_length (length (stride W i D))) (stride W i ls) out ->
  icrep (files_of D W i) cycle_length (stride W i ls) (hcrep crep W i) out (get_state (polled_it cycle_length truthy D) (init (polled_it cycle_length truthy D))) 0.
Proof.
  intros F Hcyc Hi HW H0 Ho.
  pose proof (files_length W i D cycle_length ltac:(lia) Hi HW) as Hn.
  assert (Hcl : cl (files_of D W i) cycle_length = cycle_length) by (unfold cl, files_of; lia).
  assert (HclD : cl D cycle_length = cycle_length) by (unfold cl; nia).
  pose proof (host_family D truthy ls used json N rep crep F W i ltac:(lia)) as FW. fold (files_of D W i) in FW.
  change (host_shards D W i) with (files_of D W i) in FW.
  assert (Hinit : irep (files_of D W i) cycle_length (stride W i ls) (hrep rep W i) (hcrep crep W i) out (il_init (files_of D W i) cycle_length) 0).
  { unfold irep. cbn [skipn]. spl; [apply (init_gives _ _ _ _ _ _ _ _ _ FW); [lia|exact Ho]|easy|apply init_marks; lia|lia]. }
  destruct (polled_get _ _ _ _ _ _ _ _ _ FW out _ _ Hinit) as (c & s' & Eg & _ & Hc).
  destruct (first_checkpoint (files_of D W i) cycle_length c0) as (s1 & E1).
  { intros h Hh. apply H0. unfold files_of in Hh. now apply in_stride in Hh. }
  destruct (first_checkpoint D cycle_length c0 H0) as (s2 & E2).
  rewrite E1 in Eg. injection Eg as <- _. cbn [polled_it interleave_it get_state init]. rewrite E2. cbn [bind]. rewrite HclD. rewrite Hcl in Hc. exact Hc.
Qed.

(** Every worker, with the thread and the process. *)
Lemma worker_renewable {S C A} used json (D : list (hiter S C A)) ls cycle_length truthy whole W i out :
  (forall c, truthy c = true) -> Forall2 (fun h l => renewable (h_it h) l true used json) D ls ->
  (0 < cycle_length)%nat -> (i < W)%nat -> (W <= length D)%nat ->
  (whole = true -> (2 <= W)%nat -> (W * cycle_length <= length D)%nat /\ exists c0, forall h, In h D -> h_get h (h_init h) = c0) ->
  interleaved (Nat.min cycle_length (length (stride W i D))) (stride W i ls) out ->
  renewable (file_worker D cycle_length truthy whole W i) (map snd out) true false json.
Proof.
  intros Ht HL Hcyc Hi HW Hwh Ho.
  destruct (own_worker used json D ls cycle_length truthy W i out Ht HL Hcyc Hi HW Ho) as (N & rep & crep & F & L).
  unfold file_worker. destruct (Nat.eqb_spec W 1) as [->|HW1].
  - assert (i = 0%nat) as -> by lia. unfold files_of in L. rewrite stride_one in L. do 3 eexists. exact L.
  - destruct whole.
    + destruct (Hwh eq_refl ltac:(lia)) as (Hc & c0 & H0). do 3 eexists. apply (with_start_new _ _ _ _ _ _ _ L).
      now apply (whole_start used json D ls cycle_length truthy W i out c0 N rep crep).
    + do 3 eexists. exact L.
Qed.

Lemma map_nth_seq {X Y} (f : nat -> X) (R : X -> Y -> Prop) (ys : list Y) : (forall i y, nth_error ys i = Some y -> R (f i) y) ->
  Forall2 R (map f (seq 0 (length ys))) ys.
Proof.
  intros H. apply Forall2_nth. rewrite map_length, seq_length. split; [easy|]. intros i x y Hx Hy. specialize (H i y Hy).
  rewrite nth_error_map_seq in Hx by (apply nth_error_Some; now rewrite Hy). injection Hx as <-. exact H.
Qed.
Lemma workers_renewable {S C A} used json (D : list (hiter S C A)) ls cycle_length truthy whole W bs keep r outs :
  (forall c, truthy c = true) -> Forall2 (fun h l => renewable (h_it h) l true used json) D ls ->
  (0 < cycle_length)%nat -> (W <= length D)%nat -> (1 <= bs)%nat ->
  (whole = true -> (2 <= W)%nat -> (W * cycle_length <= length D)%nat /\ exists c0, forall h, In h D -> h_get h (h_init h) = c0) ->
  length outs = W ->
  (forall i out, nth_error outs i = Some out -> interleaved (Nat.min cycle_length (length (stride W i D))) (stride W i ls) out) ->
  Forall2 (fun p l => renewable p l true false json) (file_workers D cycle_length truthy whole W bs keep r) (map (map snd) outs).
Proof.
  intros Ht HL Hcyc HW Hbs Hwh Hlen Ho. unfold file_workers. replace (seq 0 W) with (seq 0 (length (map (map snd) outs))) by (rewrite map_length, Hlen; reflexivity).
  apply map_nth_seq. intros i y Hy. rewrite nth_error_map in Hy. destruct (nth_error outs i) as [out|] eqn:E; [|easy]. cbn in Hy. injection Hy as <-.
  apply thread_prefetch_renewable; [easy|]. apply process_prefetch_renewable; [exact Hbs|].
  apply (worker_renewable used json D ls); auto. rewrite <- Hlen. apply nth_error_Some. now rewrite E.
Qed.

(** ** Histories *)
Lemma loads_new_saves ops : forall new, loads_new new ops = true -> saves_ok new false ops = true.
Proof.
  induction ops as [|[| |k j|] ops IH]; intros new H; cbn [loads_new saves_ok negb andb] in *; try (now apply IH); [easy|].
  apply andb_true_iff in H as [-> H]. cbn. now apply IH.
Qed.

(** ** Where the elements of a dataset are *)
Lemma filter_one {A} (P : A -> bool) (out : list (nat * A)) i : (forall j x, In (j, x) out -> P x = true -> j = i) ->
  filter P (map snd out) = filter P (of_dataset i out).
Proof.
  intros H. induction out as [|[j x] out IH]; [easy|]. specialize (IH (fun j x Hi => H j x (or_intror Hi))).
  assert (Hx : P x = true -> j = i) by (apply H; now left).
  unfold of_dataset in *. cbn [map snd filter fst]. destruct (Nat.eqb_spec j i) as [->|Hne]; cbn [map snd filter]; destruct (P x); try now rewrite IH.
  now specialize (Hx eq_refl).
Qed.
