(** C76: queues between threads that may be told to stop. *)
From Verif Require Import Base StopQueue.

Local Ltac spl := repeat match goal with |- _ /\ _ => split end.

(** ** Specification: read off the calls that have returned. *)
(** The elements for which add_element_to_queue returned True, and those that get_element_from_queue returned, in order. *)
Definition added {T} (log : list (nat * call T * outcome T)) : list T :=
  flat_map (fun x => match x with (_, CAdd e, Added) => [e] | _ => [] end) log.
Definition got {T} (log : list (nat * call T * outcome T)) : list T :=
  flat_map (fun x => match x with (_, _, Got e) => [e] | _ => [] end) log.
(** The calls of thread [i] that have returned. *)
Definition calls_of {T} (i : nat) (log : list (nat * call T * outcome T)) : list (call T) :=
  flat_map (fun x => if Nat.eqb (fst (fst x)) i then [snd (fst x)] else []) log.
(** What a call may return. *)
Definition fits {T} (x : nat * call T * outcome T) : Prop :=
  match x with (_, CAdd _, (Added | NotAdded)) | (_, CGet, (Got _ | Terminated)) | (_, CAsync _, (Result _ | Terminated)) => True | _ => False end.
Definition gave_up {T} (x : nat * call T * outcome T) : Prop := match snd x with NotAdded | Terminated => True | _ => False end.

Section Proofs.
Context {T : Type}.
Notation world := (world T). Notation call := (call T). Notation action := (action T).

Lemma run_app (w : world) a b : run w (a ++ b) = run (run w a) b.
Proof. apply fold_left_app. Qed.
Lemma run_ind (P : world -> Prop) w acts : P w -> (forall w a, P w -> In a acts -> P (step w a)) -> P (run w acts).
Proof. revert w. induction acts as [|a acts IH]; intros w H0 H; [easy|]. cbn. apply IH; [apply H; [easy|now left]|]. intros w' a' Hw Ha. apply H; [easy|now right]. Qed.

(** Each step leaves the log or adds one entry: all cases of a step. *)
Lemma step_cases (P : world -> action -> world -> Prop) :
  (forall w a, P w a w) ->
  (forall w a i t p todo, (a = AStep i \/ a = ATimeout i) -> nth_error (w_threads w) i = Some t ->
     (t_place t = Idle /\ exists c, t_todo t = c :: todo /\ p = AtCheck c) \/
     (todo = t_todo t /\ exists c, (t_place t = AtCheck c /\ p = InWait c /\ w_stop w = false) \/ (t_place t = InWait c /\ p = AtCheck c)) ->
     P w a (goes w i p todo)) ->
  (forall w i t c o q, nth_error (w_threads w) i = Some t ->
     (t_place t = AtCheck c /\ w_stop w = true /\ q = w_queue w /\ o = match c with CAdd _ => NotAdded | _ => Terminated end) \/
     (t_place t = InWait c /\ ((exists e, c = CAdd e /\ o = Added /\ q = w_queue w ++ [e] /\ full w = false) \/
        (exists x, c = CGet /\ o = Got x /\ w_queue w = x :: q) \/
        (exists job x, c = CAsync job /\ o = Result x /\ q = w_queue w /\ result_of w job = Some x))) ->
     P w (AStep i) (returns w i c o q (t_todo t))) ->
  (forall w b, P w (AStop b) (mkWorld (w_queue w) (w_maxsize w) b (w_ready w) (w_threads w) (w_log w))) ->
  (forall w j x, P w (AReady j x) (mkWorld (w_queue w) (w_maxsize w) (w_stop w) (w_ready w ++ [(j, x)]) (w_threads w) (w_log w))) ->
  forall w a, P w a (step w a).
Proof.
  intros H0 H1 H2 H3 H4 w [i|i|b|j x]; cbn [step]; auto.
  - destruct (nth_error (w_threads w) i) as [t|] eqn:E; [|apply H0]. destruct (t_place t) as [|c|c] eqn:Ep.
    + destruct (t_todo t) as [|c todo] eqn:Et; [apply H0|]. apply (H1 _ _ i t); auto. left. split; [easy|]. now exists c.
    + destruct (w_stop w) eqn:Es; [apply H2; [easy|]; left; spl; easy|]. apply (H1 _ _ i t); auto. right. split; [easy|]. exists c. left. now spl.
    + assert (Hc : P w (AStep i) (goes w i (AtCheck c) (t_todo t))) by (apply (H1 _ _ i t); auto; right; split; [easy|]; exists c; right; now spl).
      destruct c as [e| |job].
      * destruct (full w) eqn:Ef; [exact Hc|]. apply H2; [easy|]. right. split; [easy|]. left. exists e. now spl.
      * destruct (w_queue w) as [|x q] eqn:Eq; [exact Hc|]. apply H2; [easy|]. right. split; [easy|]. right. left. exists x. now spl.
      * destruct (result_of w job) as [x|] eqn:Er; [|exact Hc]. apply H2; [easy|]. right. split; [easy|]. right. right. exists job, x. now spl.
  - destruct (nth_error (w_threads w) i) as [t|] eqn:E; [|apply H0]. destruct (t_place t) as [|c|c] eqn:Ep; try apply H0.
    apply (H1 _ _ i t); auto. right. split; [easy|]. exists c. right. now spl.
Qed.

Lemma added_app (a b : list (nat * call * outcome T)) : added (a ++ b) = added a ++ added b.
Proof. apply flat_map_app. Qed.
Lemma got_app (a b : list (nat * call * outcome T)) : got (a ++ b) = got a ++ got b.
Proof. apply flat_map_app. Qed.
Definition fifo (w : world) : Prop :=
  added (w_log w) = got (w_log w) ++ w_queue w /\ (w_maxsize w <> 0%nat -> (length (w_queue w) <= w_maxsize w)%nat) /\ Forall fits (w_log w).
Lemma fifo_step w a : fifo w -> fifo (step w a).
Proof.
  apply (step_cases (fun w a w' => fifo w -> fifo w')); clear w a; auto.
  intros w i t c o q Et H (Ha & Hb & Hf). unfold fifo, returns. cbn [w_log w_queue w_maxsize]. rewrite added_app, got_app, Forall_app.
  destruct H as [(_ & _ & -> & ->)|(_ & [(e & -> & -> & -> & Hfull)|[(x & -> & -> & Eq)|(job & x & -> & -> & -> & _)]])].
  - destruct c; cbn; rewrite !app_nil_r; spl; auto; try (now repeat constructor).
  - cbn. rewrite app_nil_r, Ha, app_assoc. spl; auto; try (now repeat constructor). intros Hm. rewrite app_length. cbn. unfold full in Hfull.
    apply andb_false_iff in Hfull. destruct Hfull as [Hfull|Hfull]; [apply negb_false_iff, Nat.eqb_eq in Hfull; lia|apply Nat.leb_gt in Hfull; lia].
  - cbn. rewrite app_nil_r, Ha, Eq, <- app_assoc. spl; auto; try (now repeat constructor). intros Hm. specialize (Hb Hm). rewrite Eq in Hb. cbn in Hb. lia.
  - cbn. rewrite !app_nil_r. spl; auto; try (now repeat constructor).
Qed.

Lemma update_length i (t : thread T) : forall l, length (update i t l) = length l.
Proof. induction i as [|i IH]; intros [|y l]; cbn; auto. Qed.
Lemma update_same i (t : thread T) : forall l, (i < length l)%nat -> nth_error (update i t l) i = Some t.
Proof. induction i as [|i IH]; intros [|y l] H; cbn in *; try lia; [easy|]. apply IH. lia. Qed.
Lemma update_other (t : thread T) : forall l i j, i <> j -> nth_error (update i t l) j = nth_error l j.
Proof. induction l as [|y l IH]; intros [|i] [|j] H; cbn; try easy. apply IH. lia. Qed.

(** The calls that thread still has to return from. *)
Definition current (p : place T) : list call := match p with Idle => [] | AtCheck c | InWait c => [c] end.
Definition remaining (t : thread T) : list call := current (t_place t) ++ t_todo t.
Definition in_order (programs : list (list call)) (w : world) : Prop :=
  length (w_threads w) = length programs /\
  forall i p, nth_error programs i = Some p -> exists t, nth_error (w_threads w) i = Some t /\ calls_of i (w_log w) ++ remaining t = p.
Lemma in_order_step programs w a : in_order programs w -> in_order programs (step w a).
Proof.
  apply (step_cases (fun w a w' => in_order programs w -> in_order programs w')); clear w a; auto.
  - intros w a i t p todo _ Et H (L & Ho). split; [cbn; now rewrite update_length|]. intros j q Hq. destruct (Ho j q Hq) as (t' & Et' & E).
    destruct (Nat.eq_dec i j) as [<-|N].
    + rewrite Et in Et'. injection Et' as <-. exists (mkThread p todo). cbn [goes w_threads w_log]. split; [apply update_same; apply nth_error_Some; congruence|].
      rewrite <- E. f_equal. unfold remaining. cbn [t_place t_todo].
      destruct H as [(-> & c & -> & ->)|(-> & c & [(-> & -> & _)|(-> & ->)])]; reflexivity.
    + exists t'. cbn [goes w_threads w_log]. rewrite update_other by easy. auto.
  - intros w i t c o q Et H (L & Ho). split; [cbn; now rewrite update_length|]. intros j p Hp. destruct (Ho j p Hp) as (t' & Et' & E).
    assert (Ec : forall k, calls_of k (w_log (returns w i c o q (t_todo t))) = calls_of k (w_log w) ++ (if Nat.eqb i k then [c] else [])).
    { intros k. unfold calls_of, returns. cbn [w_log]. rewrite flat_map_app. cbn. now rewrite app_nil_r. }
    rewrite Ec. destruct (Nat.eq_dec i j) as [<-|N].
    + rewrite Et in Et'. injection Et' as <-. exists (mkThread Idle (t_todo t)). cbn [returns w_threads]. split; [apply update_same; apply nth_error_Some; congruence|].
      rewrite Nat.eqb_refl, <- E, <- app_assoc. f_equal. unfold remaining. cbn [t_place t_todo current app].
      destruct H as [(-> & _)|(-> & _)]; reflexivity.
    + exists t'. cbn [returns w_threads]. rewrite update_other by easy. rewrite (proj2 (Nat.eqb_neq i j) N), app_nil_r. auto.
Qed.

(** How many steps a thread needs at most once should_stop() is true. *)
Definition need (t : thread T) : nat := (match t_place t with Idle => 0 | AtCheck _ => 1 | InWait _ => 2 end + 2 * length (t_todo t))%nat.
Definition own (i : nat) (acts : list action) : nat := length (filter (fun a => match a with AStep j => Nat.eqb j i | _ => false end) acts).
Lemma ends_run i : forall acts w t, nth_error (w_threads w) i = Some t -> w_stop w = true -> ~ In (AStop false) acts ->
  exists t', nth_error (w_threads (run w acts)) i = Some t' /\ (need t' <= need t - own i acts)%nat.
Proof.
  induction acts as [|a acts IH]; intros w t Et Hs Hn; [exists t; cbn; split; [easy|lia]|].
  assert (H : exists t1, nth_error (w_threads (step w a)) i = Some t1 /\ w_stop (step w a) = true /\
                (need t1 <= need t - match a with AStep j => if Nat.eqb j i then 1 else 0 | _ => 0 end)%nat).
  { assert (Ha : a <> AStop false) by (intros ->; apply Hn; now left). clear IH Hn. revert t Et Hs Ha.
    destruct a as [j|j|b|j x]; intros t Et Hs Ha; cbn [step].
    - destruct (nth_error (w_threads w) j) as [tj|] eqn:Ej.
      2:{ exists t. destruct (Nat.eqb_spec j i) as [->|N]; [congruence|]. spl; auto; lia. }
      destruct (Nat.eqb_spec j i) as [->|N].
      + rewrite Et in Ej. injection Ej as <-. assert (Hi : (i < length (w_threads w))%nat) by (apply nth_error_Some; congruence).
        assert (Hg : forall p todo, (need (mkThread p todo) <= need t - 1)%nat -> exists t1, nth_error (w_threads (goes w i p todo)) i = Some t1 /\ w_stop (goes w i p todo) = true /\ (need t1 <= need t - 1)%nat).
        { intros p todo Hp. eexists. cbn [goes w_threads w_stop]. rewrite update_same by easy. spl; [reflexivity|easy|easy]. }
        assert (Hr : forall c o q, (need (mkThread Idle (t_todo t)) <= need t - 1)%nat -> exists t1, nth_error (w_threads (returns w i c o q (t_todo t))) i = Some t1 /\ w_stop (returns w i c o q (t_todo t)) = true /\ (need t1 <= need t - 1)%nat).
        { intros c o q Hp. eexists. cbn [returns w_threads w_stop]. rewrite update_same by easy. spl; [reflexivity|easy|easy]. }
        unfold need in Hg, Hr |- *. cbn [t_place t_todo] in *. destruct (t_place t) as [|c|c] eqn:Ep.
        * destruct (t_todo t) as [|c todo] eqn:Ed; [exists t; rewrite Ep, Ed; cbn; spl; auto|]. apply Hg. cbn. lia.
        * rewrite Hs. apply Hr. lia.
        * destruct c as [e| |job].
          -- destruct (full w); [apply Hg; lia|apply Hr; lia].
          -- destruct (w_queue w); [apply Hg; lia|apply Hr; lia].
          -- destruct (result_of w job); [apply Hr; lia|apply Hg; lia].
      + assert (Hg : forall p todo, nth_error (w_threads (goes w j p todo)) i = Some t) by (intros; cbn; now rewrite update_other).
        assert (Hr : forall c o q todo, nth_error (w_threads (returns w j c o q todo)) i = Some t) by (intros; cbn; now rewrite update_other).
        exists t. rewrite Nat.sub_0_r. destruct (t_place tj) as [|c|c]; [destruct (t_todo tj)|rewrite Hs|destruct c; [destruct (full w)|destruct (w_queue w)|destruct (result_of w job)]]; spl; auto.
    - destruct (nth_error (w_threads w) j) as [tj|] eqn:Ej; [|exists t; spl; auto; lia].
      destruct (t_place tj) as [|c|c] eqn:Ep; try (exists t; spl; auto; lia).
      destruct (Nat.eq_dec j i) as [->|N].
      + rewrite Et in Ej. injection Ej as <-. eexists. cbn [goes w_threads w_stop]. rewrite update_same by (apply nth_error_Some; congruence).
        split; [reflexivity|]. split; [easy|]. unfold need. rewrite Ep. cbn [t_place t_todo]. lia.
      + exists t. cbn [goes w_threads w_stop]. rewrite update_other by easy. spl; auto; lia.
    - exists t. cbn. destruct b; [spl; auto; lia|easy].
    - exists t. cbn. spl; auto; lia. }
  destruct H as (t1 & E1 & S1 & N1). destruct (IH (step w a) t1 E1 S1 (fun H => Hn (or_intror H))) as (t' & E' & N').
  exists t'. split; [exact E'|]. unfold own in *. cbn [filter]. destruct a as [j|j|b|j x]; cbn [length]; try lia. destruct (Nat.eqb j i); cbn [length]; lia.
Qed.
End Proofs.

(** ** The theorems *)

(** Nothing is lost, nothing comes twice, nothing overtakes: the elements whose addition returned True are those that were returned
    by get_element_from_queue followed by those in the queue, at any time, whatever the threads, timeouts and stops.  The queue never
    holds more than maxsize.  Hence an element whose addition returned False never comes out unless another call added it. *)
Theorem C76_fifo {T} maxsize (programs : list (list (call T))) acts : let w := run (start maxsize programs) acts in
  added (w_log w) = got (w_log w) ++ w_queue w /\ (maxsize <> 0%nat -> (length (w_queue w) <= maxsize)%nat) /\ Forall fits (w_log w).
Proof.
  cbv zeta. assert (Hm : w_maxsize (run (start maxsize programs) acts) = maxsize).
  { apply (run_ind (fun w => w_maxsize w = maxsize)); [easy|]. intros w a H _. revert H. apply (step_cases (fun w a w' => w_maxsize w = maxsize -> w_maxsize w' = maxsize)); auto. }
  assert (H : fifo (run (start maxsize programs) acts)) by (apply (run_ind fifo); [split; [reflexivity|split; [cbn; lia|constructor]]|intros; now apply fifo_step]).
  unfold fifo in H. now rewrite Hm in H.
Qed.
(** Every call returns at most once, and the calls of a thread return in their order. *)
Theorem C76_calls {T} maxsize (programs : list (list (call T))) acts i p : nth_error programs i = Some p ->
  exists rest, calls_of i (w_log (run (start maxsize programs) acts)) ++ rest = p.
Proof.
  intros Hp. assert (H : in_order programs (run (start maxsize programs) acts)).
  { apply (run_ind (in_order programs)); [|intros; now apply in_order_step]. split; [cbn; apply map_length|]. intros j q Hq. exists (mkThread Idle q). cbn.
    split; [now apply map_nth_error|reflexivity]. }
  destruct H as (_ & H). destruct (H i p Hp) as (t & _ & E). now exists (remaining t).
Qed.
(** A call gives up (False, SYSTEM_TERMINATED) only if should_stop() was true at some time. *)
Theorem C76_gave_up {T} maxsize (programs : list (list (call T))) acts x :
  In x (w_log (run (start maxsize programs) acts)) -> gave_up x -> In (AStop true) acts.
Proof.
  intros Hx Hg. assert (H : (w_stop (run (start maxsize programs) acts) = true -> In (AStop true) acts) /\
    forall y, In y (w_log (run (start maxsize programs) acts)) -> gave_up y -> In (AStop true) acts); [|now apply (proj2 H x)].
  apply (run_ind (fun w => (w_stop w = true -> In (AStop true) acts) /\ forall y, In y (w_log w) -> gave_up y -> In (AStop true) acts)); [easy|].
  intros w a H Ha. revert H Ha.
  apply (step_cases (fun w a w' => ((w_stop w = true -> In (AStop true) acts) /\ (forall y, In y (w_log w) -> gave_up y -> In (AStop true) acts)) -> In a acts ->
    (w_stop w' = true -> In (AStop true) acts) /\ (forall y, In y (w_log w') -> gave_up y -> In (AStop true) acts))); clear w a; auto.
  - intros w i t c o q Et H (H1 & H2) _. split; [exact H1|]. cbn [returns w_log]. intros y Hy. apply in_app_or in Hy. destruct Hy as [Hy|[<-|[]]]; [now apply H2|].
    destruct H as [(_ & Hs & _)|(_ & [(e & _ & -> & _)|[(z & _ & -> & _)|(job & z & _ & -> & _)]])]; cbn; [auto|easy|easy|easy].
  - intros w b (H1 & H2) Ha. cbn. split; [intros ->; exact Ha|exact H2].
Qed.
(** get_async_result returns a result that the job had. *)
Theorem C76_async {T} maxsize (programs : list (list (call T))) acts i job x :
  In (i, CAsync job, Result x) (w_log (run (start maxsize programs) acts)) -> In (AReady job x) acts.
Proof.
  set (P := fun w : world T => (forall j y, In (j, y) (w_ready w) -> In (AReady j y) acts) /\ forall k j y, In (k, CAsync j, Result y) (w_log w) -> In (AReady j y) acts).
  assert (H : P (run (start maxsize programs) acts)); [|intros Hx; exact (proj2 H i job x Hx)].
  apply (run_ind P); [split; easy|]. intros w a H Ha. revert H Ha. apply (step_cases (fun w a w' => P w -> In a acts -> P w')); clear w a; auto.
  - intros w k t c o q Et H (H1 & H2) _. split; [exact H1|]. cbn [returns w_log]. intros k' j y Hy. apply in_app_or in Hy. destruct Hy as [Hy|[Hy|[]]]; [now apply (H2 k')|].
    injection Hy as -> -> ->. destruct H as [(_ & _ & _ & E)|(_ & [(e & E & _)|[(z & E & _)|(job' & z & [= <-] & [= <-] & _ & E)]])]; try discriminate.
    unfold result_of in E. destruct (find _ (w_ready w)) as [[j' y']|] eqn:Ef; [|discriminate]. injection E as <-. apply find_some in Ef. destruct Ef as (Hin & Hj).
    apply Nat.eqb_eq in Hj. cbn in Hj. subst j'. now apply H1.
  - intros w j y (H1 & H2) Ha. split; [|exact H2]. cbn [w_ready]. intros j' y' Hin. apply in_app_or in Hin. destruct Hin as [Hin|[[= <- <-]|[]]]; auto.
Qed.
(** Stopping: once should_stop() stays true, a thread returns from all its calls within two steps of its own for each call that
    it has still to make and two for the one it is in, whether the queue is full or empty and whatever the other threads do. *)
Theorem C76_stops {T} maxsize (programs : list (list (call T))) acts acts' i p : nth_error programs i = Some p -> ~ In (AStop false) acts' ->
  (2 * (length p - length (calls_of i (w_log (run (start maxsize programs) acts)))) <= own i acts')%nat ->
  calls_of i (w_log (run (start maxsize programs) (acts ++ AStop true :: acts'))) = p.
Proof.
  intros Hp Hn Hk. assert (Hinv : forall l, in_order programs (run (start maxsize programs) l)).
  { intros l. apply (run_ind (in_order programs)); [|intros; now apply in_order_step]. split; [cbn; apply map_length|]. intros j q Hq. exists (mkThread Idle q). cbn.
    split; [now apply map_nth_error|reflexivity]. }
  destruct (proj2 (Hinv acts) i p Hp) as (t & Et & E). destruct (proj2 (Hinv (acts ++ AStop true :: acts')) i p Hp) as (t' & Et' & E').
  rewrite run_app in *. set (w := run (start maxsize programs) acts) in *. cbn [run fold_left] in Et', E' |- *. fold (run (step w (AStop true)) acts') in *.
  destruct (ends_run i acts' (step w (AStop true)) t Et eq_refl Hn) as (t2 & E2 & N). rewrite E2 in Et'. injection Et' as ->.
  assert (Hl : (need t <= 2 * (length p - length (calls_of i (w_log w))))%nat).
  { rewrite <- E, app_length. unfold need, remaining. rewrite app_length. destruct (t_place t); cbn; lia. }
  assert (Hz : remaining t' = []).
  { unfold need in N at 1. unfold remaining. destruct (t_place t'); [|lia|lia]. destruct (t_todo t'); [reflexivity|cbn in N; lia]. }
  rewrite Hz, app_nil_r in E'. exact E'.
Qed.

(** Without a stop a call that can succeed does: three steps of its thread after it was called, if there is room, an element, or the
    result at that time and no other thread goes on in between. *)
Definition possible {T} (w : world T) (c : call T) (o : outcome T) : Prop :=
  match c with
  | CAdd _ => o = Added /\ (w_maxsize w = 0%nat \/ (length (w_queue w) < w_maxsize w)%nat)
  | CGet => exists x, o = Got x /\ hd_error (w_queue w) = Some x
  | CAsync job => exists x, o = Result x /\ In (job, x) (w_ready w) /\ (forall y, In (job, y) (w_ready w) -> y = x)
  end.
Theorem C76_progress {T} (w : world T) i c todo o : nth_error (w_threads w) i = Some (mkThread Idle (c :: todo)) -> w_stop w = false -> possible w c o ->
  w_log (run w [AStep i; AStep i; AStep i]) = w_log w ++ [(i, c, o)].
Proof.
  intros Et Hs Ho. assert (Hi : (i < length (w_threads w))%nat) by (apply nth_error_Some; congruence).
  unfold run. cbn [fold_left]. assert (E1 : step w (AStep i) = goes w i (AtCheck c) todo) by (cbn [step]; now rewrite Et). rewrite E1.
  set (w1 := goes w i (AtCheck c) todo). assert (Et1 : nth_error (w_threads w1) i = Some (mkThread (AtCheck c) todo)) by (now apply update_same).
  assert (E2 : step w1 (AStep i) = goes w1 i (InWait c) todo) by (cbn [step]; rewrite Et1; cbn [t_place t_todo]; change (w_stop w1) with (w_stop w); now rewrite Hs).
  rewrite E2. set (w2 := goes w1 i (InWait c) todo).
  assert (Et2 : nth_error (w_threads w2) i = Some (mkThread (InWait c) todo)) by (apply update_same; unfold w1; cbn; now rewrite update_length).
  cbn [step]. rewrite Et2. cbn [t_place t_todo]. destruct c as [e| |job]; cbn [possible] in Ho.
  - destruct Ho as (-> & Hm). replace (full w2) with false; [reflexivity|]. symmetry. unfold full. change (w_maxsize w2) with (w_maxsize w). change (w_queue w2) with (w_queue w).
    apply andb_false_iff. destruct Hm as [->|Hm]; [now left|right; now apply Nat.leb_gt].
  - destruct Ho as (x & -> & Hq). change (w_queue w2) with (w_queue w). destruct (w_queue w) as [|y q]; [discriminate|]. injection Hq as ->. reflexivity.
  - destruct Ho as (x & -> & Hin & Hu). replace (result_of w2 job) with (Some x); [reflexivity|]. symmetry. unfold result_of. change (w_ready w2) with (w_ready w).
    destruct (find (fun r => Nat.eqb (fst r) job) (w_ready w)) as [[j y]|] eqn:Ef.
    + apply find_some in Ef. destruct Ef as (H1 & H2). apply Nat.eqb_eq in H2. cbn in H2. subst j. cbn. f_equal. now apply Hu.
    + exfalso. apply (find_none _ _ Ef) in Hin. cbn in Hin. now rewrite Nat.eqb_refl in Hin.
Qed.

(** Two producers and a consumer on a queue of one place; the second producer is stopped while the queue is full. *)
Example C76_example :
  let w := run (start 1 [[CAdd 1; CAdd 2]; [CAdd 3]; [CGet; CAsync 7; CGet]])
    [AStep 0; AStep 0; AStep 1; AStep 0; AStep 1; AStep 1; AStep 2; AStep 2; AStep 2; AReady 7 50%Z; AStep 0; AStep 0; AStep 0; AStep 1; AStep 1;
     AStep 2; AStep 2; ATimeout 2; AStep 2; AStep 2; AStop true; AStep 2; AStep 1; AStep 2]%nat in
  w_log w = [(0%nat, CAdd 1, Added); (2%nat, CGet, Got 1); (0%nat, CAdd 2, Added); (2%nat, CAsync 7, Result 50); (1%nat, CAdd 3, NotAdded); (2%nat, CGet, Terminated)] /\
  w_queue w = [2].
Proof. vm_compute. split; reflexivity. Qed.
(** A call that was already in put when should_stop() became true may still add its element. *)
Theorem C76_added_after_stop : exists acts, let w := run (start 1 [[CAdd 1]]) acts in w_stop w = false /\ w_log w = [] /\
  let w' := run w [AStop true; AStep 0%nat] in w_log w' = [(0%nat, CAdd 1, Added)].
Proof. exists [AStep 0; AStep 0]%nat. now spl. Qed.
