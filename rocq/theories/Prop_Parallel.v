(** C53: run_in_parallel. *)
From Verif Require Import Base Parallel.

Section Proofs.
Context {R : Type} (f : nat -> res R) (n w : nat).
(** Every call ends with a result or an exception. *)
Hypothesis Hf : forall i, (i < n)%nat -> f i <> OutOfFuel.

Lemma set_nth_length {X} (l : list X) i x : length (set_nth l i x) = length l.
Proof. revert i. induction l; intros [|i]; cbn; try easy. now rewrite IHl. Qed.
Lemma nth_set_nth {X} (l : list X) i j x : nth_error (set_nth l i x) j =
  if Nat.eqb i j then match nth_error l i with Some _ => Some x | None => None end else nth_error l j.
Proof.
  revert i j. induction l as [|y l IH]; intros [|i] [|j]; cbn [set_nth nth_error Nat.eqb]; try reflexivity.
  - now destruct (Nat.eqb i j).
  - apply IH.
Qed.

Definition par_inv (s : list (future R) * main R) : Prop :=
  length (fst s) = n /\
  (forall i r, nth_error (fst s) i = Some (Done r) -> r = f i) /\
  match snd s with
  | Looping seen =>
      (forall i, In i seen -> exists r, nth_error (fst s) i = Some (Done (Ok r))) /\
      (forall i, nth_error (fst s) i <> Some Cancelled)
  | Leaving e | Raised e => exists i, (i < n)%nat /\ f i = Raise e
  | Returned l => length l = n /\ forall i r, nth_error l i = Some r -> f i = Ok r
  end.

Lemma par_inv_step s s' : par_inv s -> par_step f w s s' -> par_inv s'.
Proof.
  intros (H1 & H2 & H3) Hs. destruct Hs as [fs m i Hi Hw|fs m i Hi|fs seen i r Hi Hn|fs seen i e Hi Hn|fs e Hr|fs seen l Hall Hl];
    cbn [fst snd] in *; unfold par_inv; cbn [fst snd].
  - rewrite set_nth_length. split; [easy|]. split.
    + intros j r Hj. rewrite nth_set_nth in Hj. destruct (Nat.eqb_spec i j) as [<-|]; [rewrite Hi in Hj; discriminate|]. now apply H2.
    + destruct m; try easy. destruct H3 as [H3 H4]. split.
      * intros j Hj. destruct (H3 j Hj) as (r & E). exists r. rewrite nth_set_nth. destruct (Nat.eqb_spec i j) as [<-|]; [congruence|easy].
      * intros j. rewrite nth_set_nth. destruct (Nat.eqb i j); [rewrite Hi; discriminate|]. apply H4.
  - rewrite set_nth_length. split; [easy|]. split.
    + intros j r Hj. rewrite nth_set_nth in Hj. destruct (Nat.eqb_spec i j) as [<-|]; [rewrite Hi in Hj; congruence|]. now apply H2.
    + destruct m; try easy. destruct H3 as [H3 H4]. split.
      * intros j Hj. destruct (H3 j Hj) as (r & E). exists r. rewrite nth_set_nth. destruct (Nat.eqb_spec i j) as [<-|]; [congruence|easy].
      * intros j. rewrite nth_set_nth. destruct (Nat.eqb i j); [rewrite Hi; discriminate|]. apply H4.
  - split; [easy|]. split; [easy|]. destruct H3 as [H3 H4]. split; [|easy]. intros j [<-|Hj]; eauto.
  - rewrite map_length. split; [easy|]. split.
    + intros j r Hj. rewrite nth_error_map in Hj. destruct (nth_error fs j) as [x|] eqn:E; [|discriminate]. cbn in Hj.
      destruct x; cbn in Hj; try discriminate. apply H2. congruence.
    + exists i. split; [rewrite <- H1; apply nth_error_Some; now rewrite Hi|]. symmetry. now apply H2.
  - easy.
  - split; [easy|]. split; [easy|]. split.
    + rewrite <- H1, <- (map_length (fun x => match x with Done (Ok r) => Some r | _ => None end) fs), Hl. now rewrite map_length.
    + intros i r Hi. assert (E : nth_error (map Some l) i = Some (Some r)) by now rewrite nth_error_map, Hi.
      rewrite <- Hl, nth_error_map in E. destruct (nth_error fs i) as [x|] eqn:Ex; [|discriminate]. cbn in E.
      destruct x as [| |[r'| |]|]; try discriminate. injection E as ->. symmetry. now apply H2.
Qed.
Lemma par_inv_init : par_inv (par_init n).
Proof.
  unfold par_inv, par_init; cbn. rewrite repeat_length. split; [easy|]. split; [|split; [easy|]].
  - intros i r H. apply nth_error_In, repeat_spec in H. discriminate.
  - intros i H. apply nth_error_In, repeat_spec in H. discriminate.
Qed.
Lemma par_inv_reach s : par_steps f w (par_init n) s -> par_inv s.
Proof.
  intros H. remember (par_init n) as s0 eqn:E. induction H; [subst; apply par_inv_init|]. eapply par_inv_step; eauto.
Qed.

(** How much is left to do. *)
Definition todo (x : future R) : nat := match x with Pending => 2 | Running => 1 | _ => 0 end.
Definition par_measure (s : list (future R) * main R) : nat :=
  (list_sum (map todo (fst s)) +
   match snd s with Looping seen => 2 + length (filter (fun i => negb (existsb (Nat.eqb i) seen)) (seq 0 n)) | Leaving _ => 1 | _ => 0 end)%nat.

Lemma sum_set_nth fs i x y : nth_error fs i = Some x ->
  (list_sum (map todo (set_nth fs i y)) + todo x = list_sum (map todo fs) + todo y)%nat.
Proof.
  revert i. induction fs as [|z fs IH]; intros [|i] H; cbn [nth_error set_nth map] in *; try discriminate;
    unfold list_sum in *; cbn [fold_right].
  - injection H as ->. lia.
  - specialize (IH i H). lia.
Qed.
Lemma sum_cancel fs : (list_sum (map todo (map cancel fs)) <= list_sum (map todo fs))%nat.
Proof. unfold list_sum. induction fs as [|[]]; cbn; lia. Qed.

Lemma filter_le {X} (p q : X -> bool) l : (forall x, p x = true -> q x = true) ->
  (length (filter p l) <= length (filter q l))%nat.
Proof.
  intros H. induction l as [|x l IH]; cbn [filter]; [lia|]. specialize (H x).
  destruct (p x), (q x); cbn [length]; first [lia|discriminate (H eq_refl)].
Qed.
Lemma filter_lt {X} (p q : X -> bool) x l : (forall x, p x = true -> q x = true) ->
  In x l -> q x = true -> p x = false -> (length (filter p l) < length (filter q l))%nat.
Proof.
  intros H Hin Hq Hp. induction l as [|y l IH]; [easy|]. pose proof (filter_le p q l H) as Hle. cbn [filter].
  destruct Hin as [->|Hin]; [rewrite Hq, Hp; cbn [length]; lia|]. specialize (IH Hin). specialize (H y).
  destruct (p y), (q y); cbn [length]; first [lia|discriminate (H eq_refl)].
Qed.

Lemma par_decreases s s' : par_inv s -> par_step f w s s' -> (par_measure s' < par_measure s)%nat.
Proof.
  intros (H1 & _ & H3) Hs. unfold par_measure.
  destruct Hs as [fs m i Hi Hw|fs m i Hi|fs seen i r Hi Hn|fs seen i e Hi Hn|fs e Hr|fs seen l Hall Hl]; cbn [fst snd] in *.
  - pose proof (sum_set_nth fs i _ Running Hi). cbn [todo] in *. lia.
  - pose proof (sum_set_nth fs i _ (Done (f i)) Hi). cbn [todo] in *. lia.
  - assert (Hin : In i (seq 0 n)) by (apply in_seq; rewrite <- H1; split; [lia|]; apply nth_error_Some; now rewrite Hi).
    enough (length (filter (fun j => negb (existsb (Nat.eqb j) (i :: seen))) (seq 0 n)) <
            length (filter (fun j => negb (existsb (Nat.eqb j) seen)) (seq 0 n)))%nat by lia.
    assert (Hx : existsb (Nat.eqb i) seen = false).
    { apply not_true_is_false. intros E. apply existsb_exists in E as (x & Hx & E). apply Nat.eqb_eq in E. now subst. }
    apply (filter_lt _ _ i); [|easy| |].
    + intros x. cbn [existsb]. now destruct (Nat.eqb x i), (existsb (Nat.eqb x) seen).
    + now rewrite Hx.
    + cbn [existsb]. now rewrite Nat.eqb_refl.
  - pose proof (sum_cancel fs). lia.
  - lia.
  - lia.
Qed.

Lemma running_or_not fs : filter (@is_running R) fs = [] \/ exists i, nth_error fs i = Some Running.
Proof.
  induction fs as [|[| |r|] fs IH]; cbn; [now left| | | |]; try (destruct IH as [IH|(i & IH)]; [now left|right; now exists (S i)]).
  right. now exists 0%nat.
Qed.
Lemma pending_or_not fs : (exists i, nth_error fs i = Some (@Pending R)) \/ Forall (fun x => x <> Pending) fs.
Proof.
  induction fs as [|[| |r|] fs IH]; [now right| | | |]; try (destruct IH as [(i & IH)|IH]; [left; now exists (S i)|right; now constructor]).
  left. now exists 0%nat.
Qed.
Lemma unseen_or_not (seen : list nat) k : (exists i, (i < k)%nat /\ ~ In i seen) \/ (forall i, (i < k)%nat -> In i seen).
Proof.
  induction k as [|k [IH|IH]]; [right; lia| |].
  - left. destruct IH as (i & Hi & H). exists i. split; [lia|easy].
  - destruct (in_dec Nat.eq_dec k seen); [right|left; exists k; split; [lia|easy]]. intros j Hj. destruct (Nat.eq_dec j k); [now subst|]. apply IH. lia.
Qed.

Lemma par_progress s : (1 <= w)%nat -> par_inv s ->
  match snd s with Returned _ | Raised _ => True | _ => exists s', par_step f w s s' end.
Proof.
  intros Hw (H1 & H2 & H3). destruct s as [fs m]. cbn [fst snd] in *.
  destruct (running_or_not fs) as [Hrun|(i & Hi)].
  2:{ destruct m; try easy; eexists; eapply par_finish; exact Hi. }
  destruct m as [seen|e|l|e]; try easy; [|eexists; now apply par_raise].
  destruct H3 as [H3 H4].
  destruct (pending_or_not fs) as [(i & Hi)|Hp].
  { eexists. eapply par_start; [exact Hi|]. rewrite Hrun. cbn. lia. }
  assert (Hdone : forall i, (i < n)%nat -> nth_error fs i = Some (Done (f i))).
  { intros i Hi. destruct (nth_error fs i) as [x|] eqn:E; [|apply nth_error_None in E; lia]. destruct x as [| |r|].
    - eapply Forall_forall in Hp; [|eapply nth_error_In; exact E]. now elim Hp.
    - assert (In Running (filter is_running fs)) by (apply filter_In; split; [eapply nth_error_In; exact E|easy]). now rewrite Hrun in H.
    - now rewrite (H2 i r E).
    - now elim (H4 i). }
  destruct (unseen_or_not seen n) as [(i & Hi & Hn)|Hall].
  - specialize (Hdone i Hi). destruct (f i) as [r|e|] eqn:Ei.
    + eexists. eapply par_seen; eassumption.
    + eexists. eapply par_exception; eassumption.
    + now destruct (Hf i Hi).
  - assert (Hok : Forall (fun x => exists r, x = Done (Ok r)) fs).
    { apply Forall_forall. intros x Hx. apply In_nth_error in Hx as (i & Ex).
      destruct (H3 i (Hall i ltac:(rewrite <- H1; apply nth_error_Some; now rewrite Ex))) as (r & E). exists r. congruence. }
    assert (exists l, map (fun x => match x with Done (Ok r) => Some r | _ => None end) fs = map Some l) as (l & Hl).
    { clear - Hok. induction Hok as [|x fs (r & ->) _ (l & IH)]; [now exists []|]. exists (r :: l). cbn. now rewrite IH. }
    eexists. eapply par_return; [rewrite H1; exact Hall|exact Hl].
Qed.
End Proofs.

(** Whatever the number of workers and the order in which the calls start and end: the
    results are returned in the order of the arguments, and only if no call raised;
    an exception that is raised is the exception of one of the calls. *)
Theorem C53_results {R} (f : nat -> res R) n num_workers o : 1 <= num_workers ->
  run_in_parallel f n num_workers o ->
  match o with
  | Ok l => map f (seq 0 n) = map Ok l
  | Raise e => exists i, (i < n)%nat /\ f i = Raise e
  | OutOfFuel => False
  end.
Proof.
  intros Hw. unfold run_in_parallel. destruct (Z.ltb_spec num_workers 1); [lia|]. intros (fs & m & Hs & Ho).
  apply (par_inv_reach f n) in Hs. destruct Hs as (_ & _ & H3). destruct m as [seen|e|l|e]; try easy; subst o; cbn [fst snd] in *; [|easy].
  destruct H3 as [Hlen Hl]. clear - Hlen Hl. revert n f Hlen Hl. induction l as [|a l IH]; intros [|n] f Hlen Hl; try discriminate; [easy|].
  cbn [seq map]. f_equal; [apply Hl; reflexivity|]. rewrite <- seq_shift, map_map. apply IH; [now injection Hlen|].
  intros i r Hi. now apply (Hl (S i) r).
Qed.
(** So if a call raises, run_in_parallel raises. *)
Theorem C53_exception {R} (f : nat -> res R) n num_workers o i e : 1 <= num_workers ->
  run_in_parallel f n num_workers o -> (i < n)%nat -> f i = Raise e -> exists e', o = Raise e'.
Proof.
  intros Hw Hr Hi He. apply C53_results in Hr; [|easy]. destruct o as [l|e'|]; [|eauto|easy].
  assert (E : nth_error (map f (seq 0 n)) i = Some (Raise e)).
  { rewrite nth_error_map. replace (nth_error (seq 0 n) i) with (Some i); [cbn; now rewrite He|].
    symmetry. rewrite (nth_error_nth' _ 0%nat) by now rewrite seq_length. now rewrite seq_nth. }
  rewrite Hr, nth_error_map in E. destruct (nth_error l i); discriminate.
Qed.
(** It always ends: every reachable state can continue until the end, and every step
    decreases a measure. *)
Theorem C53_terminates {R} (f : nat -> res R) n w s : (1 <= w)%nat -> (forall i, (i < n)%nat -> f i <> OutOfFuel) ->
  par_steps f w (par_init n) s ->
  match snd s with Returned _ | Raised _ => True | _ => exists s', par_step f w s s' end /\
  (forall s', par_step f w s s' -> (par_measure n s' < par_measure n s)%nat).
Proof.
  intros Hw Hf Hs. apply (par_inv_reach f n) in Hs. split; [now apply (par_progress f n w)|]. intros s' Hst. now apply (par_decreases f n w).
Qed.
(** At most num_workers calls run at the same time. *)
Lemma running_set_nth {R} (fs : list (future R)) i x y : nth_error fs i = Some x ->
  (length (filter is_running (set_nth fs i y)) + (if is_running x then 1 else 0) = length (filter is_running fs) + (if is_running y then 1 else 0))%nat.
Proof.
  revert i. induction fs as [|z fs IH]; intros [|i] H; cbn [nth_error set_nth filter] in *; try discriminate.
  - injection H as ->. destruct (is_running x), (is_running y); cbn [length]; lia.
  - specialize (IH i H). destruct (is_running z); cbn [length]; lia.
Qed.
Lemma running_cancel {R} (fs : list (future R)) : filter is_running (map cancel fs) = filter is_running fs.
Proof. induction fs as [|[]]; cbn; congruence. Qed.
Theorem C53_bounded {R} (f : nat -> res R) n w fs m : par_steps f w (par_init n) (fs, m) -> (length (filter is_running fs) <= w)%nat.
Proof.
  intros H. change fs with (fst (fs, m)). revert H. generalize (fs, m). intros s H. remember (par_init n) as s0 eqn:E.
  induction H as [s|s s' s'' H IH St]; [subst|].
  - cbn. induction n; cbn; lia.
  - specialize (IH E). destruct St as [fs1 m1 i Hi Hw|fs1 m1 i Hi|fs1 seen i r Hi Hn|fs1 seen i e Hi Hn|fs1 e Hr|fs1 seen l Hall Hl]; cbn [fst] in *; auto.
    + pose proof (running_set_nth fs1 i Pending Running Hi) as L. cbn [is_running] in L. lia.
    + pose proof (running_set_nth fs1 i Running (Done (f i)) Hi) as L. cbn [is_running] in L. lia.
    + now rewrite running_cancel.
Qed.
(** When run_in_parallel returns or raises, no call is running and none will start. *)
Theorem C53_quiet {R} (f : nat -> res R) n w fs m : par_steps f w (par_init n) (fs, m) ->
  match m with Returned _ | Raised _ => forall s', ~ par_step f w (fs, m) s' | _ => True end.
Proof.
  intros H.
  assert (I : match m with
    | Looping _ => True
    | Leaving _ => Forall (fun x => x <> Pending) fs
    | Returned _ | Raised _ => Forall (fun x => x <> Pending /\ x <> Running) fs
    end).
  { change (match snd (fs, m) with
      | Looping _ => True
      | Leaving _ => Forall (fun x => x <> Pending) (fst (fs, m))
      | Returned _ | Raised _ => Forall (fun x => x <> Pending /\ x <> Running) (fst (fs, m))
      end).
    revert H. generalize (fs, m). intros s H. remember (par_init n) as s0 eqn:E. induction H as [s|s s' s'' H IH St]; [now subst|].
    specialize (IH E). destruct St as [fs1 m1 i Hi Hw|fs1 m1 i Hi|fs1 seen i r Hi Hn|fs1 seen i e Hi Hn|fs1 e Hr|fs1 seen l Hall Hl]; cbn [fst snd] in *; auto.
    - destruct m1; auto; exfalso; (eapply Forall_forall in IH; [|eapply nth_error_In; exact Hi]); [now elim IH|destruct IH as (IH & _); now elim IH|destruct IH as (IH & _); now elim IH].
    - destruct m1; auto.
      + apply Forall_forall. intros x Hx. apply In_nth_error in Hx as (j & Hj). rewrite nth_set_nth in Hj. destruct (Nat.eqb_spec i j) as [Ej|]; [rewrite Hi in Hj; congruence|].
        eapply Forall_forall in IH; [exact IH|]. eapply nth_error_In; exact Hj.
      + exfalso. eapply Forall_forall in IH; [|eapply nth_error_In; exact Hi]. now elim (proj2 IH).
      + exfalso. eapply Forall_forall in IH; [|eapply nth_error_In; exact Hi]. now elim (proj2 IH).
    - apply Forall_map, Forall_forall. intros x _. destruct x; discriminate.
    - apply Forall_forall. intros x Hx. split; [eapply Forall_forall in IH; eauto|]. intros ->.
      assert (In Running (filter is_running fs1)) by (apply filter_In; easy). now rewrite Hr in H0.
    - apply Forall_forall. intros x Hx.
      assert (Hin : In (match x with Done (Ok r) => Some r | _ => None end) (map Some l)) by (rewrite <- Hl; apply (in_map (fun x => match x with Done (Ok r) => Some r | _ => None end)), Hx).
      destruct x; [| |easy|]; apply in_map_iff in Hin as (? & ? & _); discriminate. }
  destruct m; auto; intros s' St; inversion St; subst;
    match goal with Hi : nth_error fs _ = Some _ |- _ => eapply Forall_forall in I; [|eapply nth_error_In; exact Hi]; destruct I as (I1 & I2); congruence end.
Qed.
Theorem C53_invalid {R} (f : nat -> res R) n num_workers o : num_workers < 1 ->
  run_in_parallel f n num_workers o <-> o = Raise ValueError.
Proof. intros H. unfold run_in_parallel. destruct (Z.ltb_spec num_workers 1); [easy|lia]. Qed.

(** Three calls, two workers, the last call ends first. *)
Example C53_example :
  run_in_parallel (fun i => Ok (Z.of_nat i * 10)) 3 2 (Ok [0; 10; 20]).
Proof.
  unfold run_in_parallel. cbn [Z.ltb Z.compare Pos.compare Pos.compare_cont].
  exists [Done (Ok 0); Done (Ok 10); Done (Ok 20)], (Returned [0; 10; 20]). split; [|reflexivity].
  set (f := fun i => Ok (Z.of_nat i * 10)).
  eapply par_cons; [|apply (par_return f _ _ [0; 1; 2]%nat); [cbn; intros i Hi; lia|reflexivity]].
  eapply par_cons; [|apply (par_seen f _ _ [1; 2]%nat 0%nat 0); [reflexivity|cbn; lia]].
  eapply par_cons; [|apply (par_finish f _ [Running; Done (Ok 10); Done (Ok 20)] _ 0%nat); reflexivity].
  eapply par_cons; [|apply (par_seen f _ _ [2]%nat 1%nat 10); [reflexivity|cbn; lia]].
  eapply par_cons; [|apply (par_seen f _ _ [] 2%nat 20); [reflexivity|cbn; lia]].
  eapply par_cons; [|apply (par_finish f _ [Running; Running; Done (Ok 20)] _ 1%nat); reflexivity].
  eapply par_cons; [|apply (par_start f _ [Running; Pending; Done (Ok 20)] _ 1%nat); [reflexivity|cbn; lia]].
  eapply par_cons; [|apply (par_finish f _ [Running; Pending; Running] _ 2%nat); reflexivity].
  eapply par_cons; [|apply (par_start f _ [Running; Pending; Pending] _ 2%nat); [reflexivity|cbn; lia]].
  eapply par_cons; [|apply (par_start f _ [Pending; Pending; Pending] _ 0%nat); [reflexivity|cbn; lia]].
  apply par_refl.
Qed.
