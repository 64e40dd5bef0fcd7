(** C63: who frees the segments. *)
From Verif Require Import Base ListFacts ShmProtocol.

Local Ltac spl := repeat match goal with |- _ /\ _ => split end.

(** The segments of what waits in the buffer, of what the worker holds, of everything. *)
Definition buffered (s : st) : list nat := flat_map segs_of (s_buf s).
Definition held (s : st) : list nat := match s_wk s with Some (WHold segs) => segs | _ => [] end.
Definition owned (s : st) : list nat := held s ++ buffered s ++ s_user s ++ s_pend s.

Lemma NoDup_app_intro {X} (a b : list X) : NoDup a -> NoDup b -> (forall x, In x a -> In x b -> False) -> NoDup (a ++ b).
Proof.
  intros Ha Hb H. induction Ha as [|x a Hx Ha IH]; [easy|]. cbn [app]. constructor.
  - rewrite in_app_iff. intros [?|?]; [easy|]. apply (H x); [now left|easy].
  - apply IH. intros y Hy. apply H. now right.
Qed.

Lemma take_out {X} (a l l' p : list X) n : Permutation (a ++ (l ++ n :: l') ++ p) (n :: a ++ (l ++ l') ++ p).
Proof. rewrite <- !app_assoc. cbn [app]. rewrite !(app_assoc a). symmetry. apply Permutation_middle. Qed.

Section Proofs.
Variables size pending : nat.
Notation step := (step size pending false false).
Notation reachable := (reachable size pending false false).

Definition core (s : st) : Prop :=
  s_bad s = false /\ NoDup (s_live s) /\ Forall (fun n => n < s_fresh s)%nat (s_live s) /\ Permutation (s_live s) (owned s).
Definition ctrl (s : st) : Prop :=
  (length (s_buf s) <= size)%nat /\ (length (s_pend s) <= pending)%nat /\
  (s_wk s = None -> s_buf s = [] /\ s_at s = CIdle) /\
  (s_at s <> CIdle -> s_at s <> CNext -> s_stop s = true) /\
  (s_at s = CClear2 -> s_wk s = Some WDone) /\
  (s_closed s = true -> s_at s <> CNext /\ (s_at s = CIdle -> s_wk s = None)) /\
  s_wk s <> Some WKilled.

Lemma unlink_all_ok segs : forall live rest, NoDup live -> Permutation live (segs ++ rest) ->
  exists live', unlink_all segs live = Some live' /\ NoDup live' /\ Permutation live' rest /\ incl live' live.
Proof.
  induction segs as [|n segs IH]; intros live rest Hnd Hp; cbn [unlink_all].
  - exists live. spl; auto. apply incl_refl.
  - assert (Hin : In n live) by (apply (Permutation_in n (Permutation_sym Hp)); now left).
    destruct (in_dec Nat.eq_dec n live); [|easy].
    assert (Hrm : Permutation live (n :: remove Nat.eq_dec n live)).
    { clear - Hnd Hin. induction live as [|m live IH]; [easy|]. apply NoDup_cons_iff in Hnd as (Hm & Hnd). cbn [remove].
      destruct (Nat.eq_dec n m) as [->|Hne].
      - now rewrite notin_remove.
      - destruct Hin as [->|Hin]; [easy|]. rewrite (IH Hnd Hin) at 1. apply perm_swap. }
    assert (Hnd' : NoDup (n :: remove Nat.eq_dec n live)) by (eapply Permutation_NoDup; eassumption).
    destruct (IH (remove Nat.eq_dec n live) rest) as (live' & E & H1 & H2 & H3).
    + now apply NoDup_cons_iff in Hnd' as (_ & ?).
    + eapply Permutation_cons_inv. rewrite <- Hrm. exact Hp.
    + exists live'. spl; auto. intros k Hk. apply H3 in Hk. now apply in_remove in Hk as (Hk & _).
Qed.

(** Freeing segments that are owned and now belong to nobody. *)
Lemma freed_core segs s : s_bad s = false -> NoDup (s_live s) -> Forall (fun n => n < s_fresh s)%nat (s_live s) ->
  Permutation (s_live s) (segs ++ owned s) ->
  core (freed segs s) /\ (ctrl s -> ctrl (freed segs s)).
Proof.
  intros Hb Hnd Hf Hp. destruct (unlink_all_ok segs (s_live s) (owned s) Hnd Hp) as (live' & E & H1 & H2 & H3). unfold freed. rewrite E.
  split; [|easy]. unfold core. cbn [s_bad s_live s_fresh]. spl; auto. rewrite Forall_forall in *. auto.
Qed.

Lemma core_perm s s' : core s -> s_bad s' = s_bad s -> s_live s' = s_live s -> s_fresh s' = s_fresh s -> Permutation (owned s) (owned s') -> core s'.
Proof. intros (H1 & H2 & H3 & H4) E1 E2 E3 P. unfold core. rewrite E1, E2, E3. spl; auto. now rewrite H4. Qed.

Ltac own := unfold owned, held, buffered; cbn [s_wk s_buf s_user s_pend s_live s_fresh s_bad s_stop s_at s_closed work put took moved opened segs_of];
  repeat match goal with
  | H : s_wk _ = _ |- _ => rewrite H
  | H : s_buf _ = _ |- _ => rewrite H
  | H : s_user _ = _ |- _ => rewrite H
  | H : s_pend _ = _ |- _ => rewrite H
  end; rewrite ?flat_map_app; cbn [flat_map segs_of app]; rewrite ?app_nil_r.

Lemma step_inv s s' : step s s' -> core s -> ctrl s -> core s' /\ ctrl s'.
Proof.
  intros H Hc Ht. pose proof Hc as (Hb & Hnd & Hf & Hp). pose proof Ht as (T1 & T2 & T3 & T4 & T5 & T6 & T7).
  assert (Hwork : forall w, s_wk s <> None -> held (work s w) = held s -> s_at s <> CClear2 -> w <> WKilled -> core (work s w) /\ ctrl (work s w)).
  { intros w Hw Eh Hat Hk. split.
    - apply (core_perm s); auto. unfold owned. now rewrite Eh.
    - unfold ctrl. cbn [work s_buf s_pend s_wk s_at s_stop s_closed]. spl; auto; try easy; try congruence; tauto. }
  assert (Hat2 : forall w, s_wk s = Some w -> w <> WDone -> s_at s <> CClear2).
  { intros w Ew Hw Ea. specialize (T5 Ea). congruence. }
  assert (Hcw : forall w, s_wk s = Some w -> s_closed s = true -> s_at s <> CIdle) by (intros w Ew Ec Ea; destruct (T6 Ec) as (_ & T6'); specialize (T6' Ea); congruence).
  assert (Hput : forall w w' i, s_wk s = Some w -> w <> WDone -> held s = held (put s w' IMark) ++ segs_of i -> room size s -> w' <> WKilled ->
            core (put s w' i) /\ ctrl (put s w' i)).
  { intros w w' i Ew Hw Eh Hr Hk. split.
    - apply (core_perm s); auto. unfold owned, buffered. rewrite Eh. cbn [put s_buf s_user s_pend]. rewrite flat_map_app. cbn [flat_map].
      rewrite app_nil_r. change (held (put s w' IMark)) with (held (put s w' i)). rewrite <- !app_assoc. apply Permutation_app_head.
      rewrite !app_assoc. do 2 apply Permutation_app_tail. apply Permutation_app_comm.
    - unfold ctrl. cbn [put s_buf s_pend s_wk s_at s_stop s_closed]. unfold room in Hr. rewrite app_length. cbn [length].
      spl; auto; try easy; try lia; try congruence.
      + intros Ea. now specialize (Hat2 w Ew Hw).
      + intros Ec. destruct (T6 Ec) as (H1 & _). split; [easy|]. intros Ea. now specialize (Hcw w Ew Ec). }
  (* an item leaves the buffer, its segments are freed *)
  assert (Htake : forall i buf c, s_buf s = i :: buf -> ctrl (took s buf c) -> core (freed (segs_of i) (took s buf c)) /\ ctrl (freed (segs_of i) (took s buf c))).
  { intros i buf c Eb Hct. destruct (freed_core (segs_of i) (took s buf c)) as (H1 & H2); auto.
    cbn [took s_live]. rewrite Hp. own. rewrite !app_assoc. do 2 apply Permutation_app_tail. rewrite <- !app_assoc.
    rewrite Permutation_app_comm, <- !app_assoc. apply Permutation_app_head. apply Permutation_app_comm. }
  assert (Hctook : forall i buf c, s_buf s = i :: buf -> (c = s_at s \/ s_at s = CNext /\ c = CIdle) -> ctrl (took s buf c)).
  { intros i buf c Eb Ec. rewrite Eb in T1. cbn [length] in T1. unfold ctrl. cbn [took s_buf s_pend s_wk s_at s_stop s_closed].
    destruct Ec as [->|(Ea & ->)]; spl; auto; try lia; try easy; intros H'.
    - destruct (T3 H') as (E' & E''). congruence.
    - destruct (T3 H') as (E' & E''). congruence.
    - destruct (T6 H') as (E' & _). congruence. }
  assert (Hmoved : forall c stop closed, s_wk s <> None -> (c <> CIdle -> c <> CNext -> stop = true) -> (c = CClear2 -> s_wk s = Some WDone) ->
            (closed = true -> c <> CNext /\ c <> CIdle) ->
            let s' := mkSt (s_fresh s) (s_live s) (s_buf s) (s_wk s) stop c closed (s_user s) (s_pend s) (s_bad s) in core s' /\ ctrl s').
  { intros c stop closed Hw H1 H2 H3. cbv zeta. split; [now apply (core_perm s)|]. unfold ctrl. cbn [s_buf s_pend s_wk s_at s_stop s_closed].
    spl; auto; try easy. intros Ec. destruct (H3 Ec). split; [easy|]. now intros. }
  inversion H; subst; clear H.
  - (* boot *) apply Hwork; [congruence|own; reflexivity|now eapply Hat2; eauto|discriminate].
  - apply Hwork; [congruence|own; reflexivity|now eapply Hat2; eauto|discriminate].
  - (* loop *) apply Hwork; [congruence|own; reflexivity|now eapply Hat2; eauto|discriminate].
  - apply Hwork; [congruence|own; reflexivity|now eapply Hat2; eauto|discriminate].
  - apply Hwork; [congruence|own; reflexivity|now eapply Hat2; eauto|discriminate].
  - (* mark *) apply (Hput WMark); try easy. own. reflexivity.
  - apply Hwork; [congruence|own; reflexivity|now eapply Hat2; eauto|discriminate].
  - (* set *) apply Hwork; [congruence|own; reflexivity|now eapply Hat2; eauto|discriminate].
  - apply Hwork; [congruence|own; reflexivity|now eapply Hat2; eauto|discriminate].
  - (* read *) split.
    + unfold core. cbn [s_bad s_live s_fresh]. spl; auto.
      * apply NoDup_app_intro; [easy|apply seq_NoDup|]. intros n H1 H2. rewrite Forall_forall in Hf. specialize (Hf n H1). apply in_seq in H2. lia.
      * apply Forall_app. split; [eapply Forall_impl; [|exact Hf]; cbn; intros; lia|]. apply Forall_forall. intros n Hn. apply in_seq in Hn. lia.
      * etransitivity; [apply Permutation_app_tail, Hp|]. own. apply Permutation_app_comm.
    + unfold ctrl. cbn [s_buf s_pend s_wk s_at s_stop s_closed]. spl; auto; try easy.
      * intros Ea. exfalso. now apply (Hat2 _ H0).
      * intros Ec. destruct (T6 Ec) as (H1 & _). split; [easy|]. intros Ea. now specialize (Hcw WRead H0 Ec).
  - (* read error *) apply Hwork; [congruence|own; reflexivity|now eapply Hat2; eauto|discriminate].
  - (* hold *) apply (Hput (WHold segs)); try easy. own. reflexivity.
  - destruct (freed_core segs (work s WLoop)) as (H2 & H3); auto; [cbn [work s_live]; rewrite Hp; own; reflexivity|]. split; [easy|]. apply H3.
    unfold ctrl. cbn [work s_buf s_pend s_wk s_at s_stop s_closed]. spl; auto; try easy.
    + intros Ea. exfalso. now apply (Hat2 _ H0).
    + intros Ec. destruct (T6 Ec) as (H4 & _). split; [easy|]. intros Ea. now specialize (Hcw _ H0 Ec).
  - discriminate.
  - (* error *) apply (Hput WErr); try easy. own. reflexivity.
  - apply Hwork; [congruence|own; reflexivity|now eapply Hat2; eauto|discriminate].
  - (* the worker clears *) apply Htake; [easy|]. eapply Hctook; eauto.
  - (* crash *) apply (Hput WCrash); try easy. own. reflexivity.
  - apply Hwork; [congruence|own; reflexivity|now eapply Hat2; eauto|discriminate].
  - (* drained *) apply Hwork; [congruence|own; reflexivity|now eapply Hat2; eauto|discriminate].
  - discriminate.
  - (* next *) destruct (s_wk s) as [w|] eqn:Ew.
    + unfold moved, took. rewrite Ew. apply Hmoved; try easy. congruence.
    + split; [apply (core_perm s); auto; own; reflexivity|]. unfold ctrl. cbn [s_buf s_pend s_wk s_at s_stop s_closed]. spl; auto; try easy.
  - (* return *) assert (Hct : ctrl (took s buf CIdle)) by (eapply Hctook; eauto).
    assert (Hin : forallb (fun n => if in_dec Nat.eq_dec n (s_live s) then true else false) segs = true).
    { apply forallb_forall. intros n Hn. destruct (in_dec Nat.eq_dec n (s_live s)) as [|Hno]; [easy|]. exfalso. apply Hno.
      apply (Permutation_in n (Permutation_sym Hp)). unfold owned, buffered. rewrite H1. cbn [flat_map segs_of]. rewrite !in_app_iff. tauto. }
    split; [|exact Hct]. apply (core_perm s); auto; [unfold opened; cbn [took s_bad s_live]; now rewrite Hin|].
    own. apply Permutation_app_head. rewrite <- !app_assoc. rewrite Permutation_app_comm, <- !app_assoc. apply Permutation_app_head. apply Permutation_app_head.
    apply Permutation_app_comm.
  - (* discard *) apply Htake; [easy|]. eapply Hctook; eauto.
  - (* raise *) assert (Hct : ctrl (took s buf CIdle)) by (eapply Hctook; eauto). split.
    + apply (core_perm s); auto. own. reflexivity.
    + destruct Hct as (C1 & C2 & C3 & C4 & C5 & C6 & C7). cbn [took s_buf s_pend s_wk s_at s_stop s_closed] in *.
      unfold ctrl. cbn [s_buf s_pend s_wk s_at s_stop s_closed]. spl; auto; try easy. intros Ew. destruct (T3 Ew). congruence.
  - (* keep *) assert (Hct : ctrl (took s buf CIdle)) by (eapply Hctook; eauto). split; [|exact Hct]. apply (core_perm s); auto. own. reflexivity.
  - (* dead *) congruence.
  - (* close *) destruct (s_wk s) as [w|] eqn:Ew.
    + apply Hmoved; try easy; congruence.
    + split; [apply (core_perm s); auto; own; reflexivity|]. unfold ctrl. cbn [s_buf s_pend s_wk s_at s_stop s_closed]. spl; auto; try easy. intros _. destruct (T3 eq_refl). now split.
  - (* clear *) apply Htake; [easy|]. eapply Hctook; eauto.
  - (* cleared *) apply Hmoved; try easy.
    + intros Ew. destruct (T3 Ew). congruence.
    + intros _ _. apply T4; congruence.
  - (* join *) apply Hmoved; try easy.
    + congruence.
    + intros _ _. apply T4; congruence.
    + intros _. match goal with H : _ \/ _ |- _ => destruct H as [->| ->] end; [easy|congruence].
  - discriminate.
  - (* clear again *) apply Htake; [easy|]. eapply Hctook; eauto.
  - (* cleared *) specialize (T5 H0). split; [apply (core_perm s); auto; own; reflexivity|].
    unfold ctrl. cbn [s_buf s_pend s_wk s_at s_stop s_closed length]. spl; auto; try easy; lia.
  - (* deletion *) split.
    + apply (core_perm s); auto. own. do 2 apply Permutation_app_head. rewrite <- !app_assoc. apply Permutation_app_head. cbn [app].
      rewrite app_assoc. apply Permutation_cons_append.
    + unfold ctrl. cbn [s_buf s_pend s_wk s_at s_stop s_closed]. rewrite app_length. cbn [length]. spl; auto; try easy; lia.
  - match goal with |- core (freed _ ?x) /\ _ => destruct (freed_core [n] x) as (H2 & H3); auto end.
    cbn [s_live]. etransitivity; [exact Hp|]. own. rewrite !(app_assoc (match s_wk s with Some (WHold segs) => segs | _ => [] end)). apply take_out.
  - match goal with |- core (freed _ ?x) /\ _ => destruct (freed_core [n] x) as (H2 & H3); auto end.
    + cbn [s_live]. etransitivity; [exact Hp|]. own. rewrite !app_assoc. symmetry. apply Permutation_middle.
    + split; [easy|]. apply H3. unfold ctrl. cbn [s_buf s_pend s_wk s_at s_stop s_closed]. rewrite H0, app_length in T2. cbn [length] in T2.
      spl; auto; try easy. rewrite app_length. lia.
Qed.

Lemma reachable_inv s : reachable s -> core s /\ ctrl s.
Proof.
  intros (n & H). assert (G : forall n s0 s1, steps size pending false false n s0 s1 -> core s0 -> ctrl s0 -> core s1 /\ ctrl s1).
  { clear. induction 1 as [|n s s' s'' Hs Hn IH]; [easy|]. intros Hc Ht. destruct (step_inv _ _ Hs Hc Ht). now apply IH. }
  apply (G n st_init s H).
  - unfold core, owned, held, buffered. cbn. spl; constructor.
  - unfold ctrl. cbn. spl; try lia; easy.
Qed.

(** At every moment of every execution each existing segment has exactly one owner: the worker, an element in the buffer, an array
    of the user, or a deletion that waits; no segment that does not exist was opened or freed; at most buffer_size elements
    wait, and at most [pending] deletions. *)
Theorem C63_ownership s : reachable s ->
  s_bad s = false /\ NoDup (owned s) /\ Permutation (s_live s) (owned s) /\
  (length (s_buf s) <= size)%nat /\ (length (s_pend s) <= pending)%nat.
Proof.
  intros H. destruct (reachable_inv s H) as ((H1 & H2 & H3 & H4) & (H5 & H6 & _)). spl; auto. eapply Permutation_NoDup; eassumption.
Qed.

(** When close has returned, what exists are the arrays the user still has and the deletions under way; so it is when next has
    raised an exception and stopped the worker. *)
Theorem C63_closed s : reachable s -> s_at s = CIdle -> s_closed s = true \/ s_wk s = None -> Permutation (s_live s) (s_user s ++ s_pend s).
Proof.
  intros H Ha Hc. destruct (reachable_inv s H) as ((_ & _ & _ & H4) & (_ & _ & T3 & _ & _ & T6 & _)).
  assert (Ew : s_wk s = None) by (destruct Hc as [Hc|]; [now apply T6|easy]). destruct (T3 Ew) as (Eb & _).
  etransitivity; [exact H4|]. unfold owned, held, buffered. now rewrite Ew, Eb.
Qed.

Definition work_left (w : option worker) : nat :=
  match w with
  | None => 0 | Some w => match w with
    | WBoot => 9 | WLoop => 4 | WMark => 14 | WSet => 11 | WRead => 10 | WHold _ => 7 | WErr => 7 | WCrash => 3 | WDrain => 1 | WDone => 0 | WKilled => 0
    end
  end.
Definition close_left (c : consumer) : nat := match c with CIdle => 0 | CNext => 0 | CClear => 3 | CJoin => 2 | CClear2 => 1 end.
Definition left (s : st) : nat :=
  2 * length (s_buf s) + work_left (s_wk s) + close_left (s_at s) + 2 * length (s_user s) + length (s_pend s).

Lemma left_freed segs s : left (freed segs s) = left s.
Proof. unfold freed. now destruct (unlink_all segs (s_live s)). Qed.
Lemma closed_freed segs s : s_closed (freed segs s) = s_closed s.
Proof. unfold freed. now destruct (unlink_all segs (s_live s)). Qed.

Lemma closing_step s s' : core s -> ctrl s -> s_closed s = true -> step s s' -> s_closed s' = true /\ (left s' < left s)%nat.
Proof.
  intros Hc (T1 & T2 & T3 & T4 & T5 & T6 & T7) Ec H. destruct (T6 Ec) as (Hn & Hi).
  assert (Hstop : forall w, s_wk s = Some w -> s_stop s = true) by (intros w Ew; apply T4; [intros Ea; specialize (Hi Ea); congruence|easy]).
  inversion H; subst; clear H; try congruence;
    rewrite ?left_freed, ?closed_freed; try match goal with H : s_wk s = Some WLoop |- _ => specialize (Hstop _ H) end; try congruence;
    (split; [try easy|]); unfold left, moved;
    cbn [work put took s_buf s_wk s_at s_user s_pend s_closed];
    repeat match goal with
    | H : s_wk _ = _ |- _ => rewrite H
    | H : s_buf _ = _ |- _ => rewrite H
    | H : s_user _ = _ |- _ => rewrite H
    | H : s_pend _ = _ |- _ => rewrite H
    | H : s_at _ = _ |- _ => rewrite H
    end; cbn [work_left close_left]; rewrite ?app_length; cbn [length]; rewrite ?app_length; try lia.
Qed.

(** Whatever the worker is doing, close comes to an end: a bounded number of steps, of all processes together, remains; and when
    nothing is left to do, no segment exists (the user's arrays being deleted, which is always possible). *)
Theorem C63_close_ends s : reachable s -> s_closed s = true ->
  exists N, forall n s', steps size pending false false n s s' -> (n <= N)%nat /\ ((forall s'', ~ step s' s'') -> s_live s' = []).
Proof.
  intros Hr Hc. destruct (reachable_inv s Hr) as (Hcore & Hctrl). exists (left s). intros n s' Hs. clear Hr.
  induction Hs as [s|n s s1 s2 H Hs IH].
  - split; [lia|]. intros Hstuck. destruct Hctrl as (T1 & T2 & T3 & T4 & T5 & T6 & T7). destruct Hcore as (_ & _ & _ & Hp).
    destruct (T6 Hc) as (Hn & Hi).
    assert (Eu : s_user s = []).
    { destruct (s_user s) as [|x l] eqn:E; [easy|]. exfalso. eapply Hstuck. now apply (step_del_now size pending false false s [] x l). }
    assert (Ep : s_pend s = []).
    { destruct (s_pend s) as [|x l] eqn:E; [easy|]. exfalso. eapply Hstuck. now apply (step_async size pending false false s [] x l). }
    assert (Ea : s_at s = CIdle).
    { destruct (s_at s) eqn:E; try easy; exfalso.
      - eapply Hstuck. now apply step_cleared.
      - specialize (T4 ltac:(discriminate) ltac:(discriminate)).
        destruct (s_wk s) as [w|] eqn:Ew; [|now destruct (T3 eq_refl)].
        destruct w; try (eapply Hstuck;
          first [ now apply step_boot | now apply step_loop_stop | now apply step_mark_stop | now apply step_set
                | now apply (step_read _ _ _ _ _ 0) | eapply step_hold_stop; eassumption | now apply step_err_stop | now apply step_crash_stop
                | now apply step_drained | eapply step_join; [easy|exact Ew|now left] ]).
      - destruct (s_buf s) as [|i buf] eqn:Eb; eapply Hstuck; [now apply step_cleared2|eapply step_clear2; eassumption]. }
    specialize (Hi Ea). destruct (T3 Hi) as (Eb & _). apply Permutation_nil. symmetry. etransitivity; [exact Hp|].
    unfold owned, held, buffered. now rewrite Hi, Eb, Eu, Ep.
  - destruct (closing_step s s1 Hcore Hctrl Hc H) as (Hc1 & Hl). destruct (step_inv s s1 H Hcore Hctrl) as (Hcore1 & Hctrl1).
    destruct (IH Hc1 Hcore1 Hctrl1) as (IH1 & IH2). split; [lia|easy].
Qed.
End Proofs.

Tactic Notation "go" uconstr(c) := eapply steps_S; [eapply c; cbn; try reflexivity; try (unfold room; cbn); auto; try discriminate; try lia|cbn].
(** The user has two arrays of the first element, close has been called, the second element waits in the buffer. *)
Example C63_example : exists s, reachable 1 1 false false s /\ s_closed s = true /\ s_at s = CClear /\ s_buf s = [IElem [2%nat]] /\
  s_user s = [0; 1]%nat /\ s_live s = [0; 1; 2]%nat.
Proof.
  eexists. split; [eexists|].
  - go step_next. go step_boot. go step_loop_read. go (step_read 1 1 false false _ 2). go step_hold_put. go step_loop_read. go step_return.
    go (step_read 1 1 false false _ 1). go step_hold_put. go step_close. apply steps_0.
  - spl; reflexivity.
Qed.

Lemma nothing_left size pending kills raises s : s_at s = CIdle -> s_closed s = true -> s_wk s = None -> s_user s = [] -> s_pend s = [] ->
  forall s', ~ step size pending kills raises s s'.
Proof.
  intros H1 H2 H3 H4 H5 s' H. inversion H; subst; try congruence;
    match goal with E : _ = ?l ++ ?n :: ?l' |- _ => rewrite ?H4, ?H5 in E; now apply app_cons_not_nil in E end.
Qed.

(** A worker that is killed, or that does not end within 25 seconds, leaves segments that nobody frees. *)
Theorem C63_killed_refuted size pending : exists s, reachable size pending true false s /\ s_closed s = true /\ s_at s = CIdle /\
  s_live s = [0%nat] /\ forall s', ~ step size pending true false s s'.
Proof.
  eexists. split; [eexists|].
  - go step_next. go step_boot. go step_loop_read. go (step_read size pending true false _ 1). go (step_killed size pending true false _ (WHold [0%nat]) []).
    go step_dead. go step_cleared. go step_join. go step_cleared2. go step_close. apply steps_0.
  - spl; try reflexivity. now apply nothing_left.
Qed.
(** So does an iterator whose get_state raises: the element is already in shared memory. *)
Theorem C63_get_state_refuted size pending : (0 < size)%nat -> exists s, reachable size pending false true s /\ s_closed s = true /\ s_at s = CIdle /\
  s_live s = [0%nat] /\ forall s', ~ step size pending false true s s'.
Proof.
  intros Hs. eexists. split; [eexists|].
  - go step_next. go step_boot. go step_loop_read. go (step_read size pending false true _ 1). go step_hold_crash. go step_crash_put.
    go step_raise. go step_cleared. go step_join. go step_cleared2. go step_close. apply steps_0.
  - spl; try reflexivity. now apply nothing_left.
Qed.
