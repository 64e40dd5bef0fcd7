(** The iterators of Scheduled.v satisfy the law of IterSpec.v for every schedule. *)
From Verif Require Import Base Iter IterSpec ListFacts IterLaw ThreadPrefetch ThreadPrefetchSpec ThreadPrefetch_proofs
  ProcessPrefetch ProcessPrefetch_proofs Scheduled.

Local Ltac spl := repeat match goal with |- _ /\ _ => split end.

Lemma drive_ends {G} (consumer : nat -> G -> option G) worker returned sched (Inv : G -> Prop) (m : G -> nat) :
  (forall k g g', Inv g -> returned g = false -> consumer k g = Some g' -> Inv g' /\ (m g' < m g)%nat) ->
  (forall g g', Inv g -> returned g = false -> worker g = Some g' -> Inv g' /\ (m g' < m g)%nat) ->
  (forall k g, Inv g -> returned g = false -> consumer k g = None -> worker g = None -> False) ->
  forall fuel i g, Inv g -> (m g < fuel)%nat ->
  exists i' g', drive consumer worker returned sched fuel i g = Some (i', g') /\ Inv g' /\ returned g' = true.
Proof.
  intros HC HW HP. induction fuel as [|fuel IH]; intros i g HI Hm; [lia|]. cbn [drive].
  destruct (returned g) eqn:Er; [eauto|].
  assert (Hgo : forall g', Inv g' /\ (m g' < m g)%nat -> exists i' g'', drive consumer worker returned sched fuel (S i) g' = Some (i', g'') /\
    Inv g'' /\ returned g'' = true).
  { intros g' [HI' Hm']. apply IH; [easy|lia]. }
  destruct (sched i) as [first k]. destruct first.
  - destruct (consumer k g) as [g'|] eqn:E; [apply Hgo; eauto|]. destruct (worker g) as [g'|] eqn:E'; [apply Hgo; eauto|].
    exfalso. eauto.
  - destruct (worker g) as [g'|] eqn:E; [apply Hgo; eauto|]. destruct (consumer k g) as [g'|] eqn:E'; [apply Hgo; eauto|].
    exfalso. eauto.
Qed.

(** A cursor that is read to the end tells where it was. *)
Definition is_got {A} (o : obs A) : bool := match o with Got (Yield _) => true | _ => false end.
Lemma cursor_count {A} (l : list A) m c : (c <= length l)%nat -> (length l - c <= m)%nat ->
  length (filter is_got (cursor l (repeat ONext m) c [])) = (length l - c)%nat.
Proof.
  revert c. induction m as [|m IH]; intros c Hc Hm; cbn [repeat cursor]; [cbn; lia|].
  destruct (nth_error l c) as [a|] eqn:E.
  - assert (c < length l)%nat by (apply nth_error_Some; congruence). cbn. rewrite IH by lia. lia.
  - apply nth_error_None in E. cbn. rewrite IH by lia. lia.
Qed.
Lemma cursor_same {A} (l : list A) m c c' ps ps' : (c <= length l)%nat -> (c' <= length l)%nat -> (length l <= m)%nat ->
  cursor l (repeat ONext m) c ps = cursor l (repeat ONext m) c' ps' -> c = c'.
Proof.
  assert (Hps : forall m c ps, cursor l (repeat ONext m) c ps = cursor l (repeat ONext m) c []).
  { intros m0. induction m0 as [|m0 IH]; intros; cbn [repeat cursor]; [easy|]. destruct (nth_error l _); now rewrite IH. }
  intros Hc Hc' Hm E. rewrite (Hps m c ps), (Hps m c' ps') in E. apply (f_equal (fun x => length (filter is_got x))) in E.
  rewrite !cursor_count in E by lia. lia.
Qed.
Lemma cursor_length {A} (l : list A) ops c ps : length (cursor l ops c ps) = length ops.
Proof.
  revert c ps. induction ops as [|[| |i j|] ops IH]; intros; cbn [cursor length]; auto.
  - destruct (nth_error l c); cbn; now rewrite IH.
  - destruct (nth_error ps i); cbn; now rewrite IH.
Qed.
Lemma erase_nexts m : erase (repeat (Do ONext) m) = repeat ONext m.
Proof. induction m; cbn; congruence. Qed.
Lemma uses_nexts m : uses (repeat (Do ONext) m) = repeat ONext m.
Proof. induction m as [|m IH]; [easy|]. cbn. unfold uses in *. now rewrite IH. Qed.
Lemma no_json_nexts m : no_json (repeat ONext m) = true.
Proof. induction m; cbn; auto. Qed.

Section ProcessLaw.
Context {A : Type}.
Variables (p : Iter A) (l : list A) (used json : bool) (N : nat).
Variables (rep : ist p -> nat -> Prop) (crep : ick p -> nat -> Prop).
Hypothesis L : NewLaw p l true used json N rep crep.
Variables (size : nat) (keep : bool) (sched : schedule).
Hypothesis Hsize : (1 <= size)%nat.
Notation pinv := (pinv p l true used json rep crep size false).
Notation M := (S (length l)).
Notation future := (repeat (Do ONext) M).
Notation addc rest g := (mkPprog (pq_calls g ++ rest) (pq_cks g) (pq_obs g) (pq_at g) (pq_it g)).

Lemma cstep_add k rest g : preturned g = false ->
  pconsumer_step p keep false k (addc rest g) = match pconsumer_step p keep false k g with Some g' => Some (addc rest g') | None => None end.
Proof.
  unfold preturned, pconsumer_step. destruct g as [calls cks obs_ at_ s]. cbn [pq_calls pq_cks pq_obs pq_at pq_it]. intros Hr.
  destruct at_; try reflexivity.
  - destruct calls as [|[[| |i j|]|] calls]; cbn [app]; try easy.
    + destruct (pp_exhausted s); reflexivity.
    + destruct (nth_error cks i); reflexivity.
  - destruct (pp_buffer s) as [|[|a c|o] b]; try reflexivity.
    + destruct (pp_worker s) as [[]|]; try reflexivity. destruct (Nat.eqb _ _); reflexivity.
    + destruct (negb _); reflexivity.
    + destruct (negb _); try reflexivity. destruct o; try reflexivity. destruct keep; reflexivity.
  - destruct (pp_worker s) as [[]|]; reflexivity.
  - destruct (Nat.leb 5 _); reflexivity.
Qed.
Lemma cstep_any k k' g : pconsumer_step p keep false k g = None -> pconsumer_step p keep false k' g = None.
Proof.
  unfold pconsumer_step. destruct (pq_at g); auto.
Qed.

Lemma reqs_worker fuel s s' : (length (pp_reqs s) <= 5)%nat -> worker_step p fuel size (Ok tt) s = Some s' -> (length (pp_reqs s') <= 5)%nat.
Proof.
  intros H E. unfold worker_step in E. destruct (pp_worker s) as [[| |c|c| |i|o| |]|]; try easy.
  - injection E as <-. easy.
  - destruct (pp_stop s); [injection E as <-; cbn; lia|]. destruct (Nat.ltb _ _).
    + destruct (pp_reqs s); [easy|]. injection E as <-. cbn in *. lia.
    + destruct (pp_exh s); [easy|]. injection E as <-. easy.
  - destruct (pp_stop s); [injection E as <-; easy|]. destruct (pfull _ _); [easy|]. injection E as <-. easy.
  - destruct (set_state p fuel _ c); injection E as <-; cbn; try easy; lia.
  - destruct (next p fuel _). injection E as <-. easy.
  - destruct (pp_stop s); [injection E as <-; easy|]. destruct (pfull _ _); [easy|]. injection E as <-. easy.
  - destruct (pp_stop s); [injection E as <-; easy|]. destruct (pfull _ _); [easy|]. injection E as <-. easy.
Qed.
Lemma reqs_consumer k g g' : (length (pp_reqs (pq_it g)) <= 5)%nat -> pconsumer_step p keep false k g = Some g' ->
  (length (pp_reqs (pq_it g')) <= 5)%nat.
Proof.
  intros H E. unfold pconsumer_step in E. destruct g as [calls cks obs_ at_ s]. cbn [pq_calls pq_cks pq_obs pq_at pq_it] in *.
  assert (Hst : (length (pp_reqs (pstart s)) <= 5)%nat) by (unfold pstart; now destruct (pp_worker s)).
  assert (Hcl : forall k s0, (length (pp_reqs s0) <= 5)%nat -> (length (pp_reqs (clear_reqs (p:=p) false k s0)) <= 5)%nat).
  { intros k0 s0 H0. cbn. rewrite skipn_length. lia. }
  destruct at_.
  - destruct calls as [|[[| |i j|]|] calls]; try easy.
    + destruct (pp_exhausted s); injection E as <-; easy.
    + injection E as <-. easy.
    + destruct (nth_error cks i); injection E as <-; easy.
    + injection E as <-. cbn. lia.
    + injection E as <-. easy.
  - destruct (pp_buffer s) as [|[|a c|o] b]; try easy.
    + destruct (pp_worker s) as [[]|]; try easy. destruct (Nat.eqb _ _); injection E as <-; easy.
    + injection E as <-. easy.
    + destruct (negb _); injection E as <-; easy.
    + destruct (negb _); [injection E as <-; easy|]. destruct o; try (injection E as <-; easy). destruct keep; injection E as <-; easy.
  - injection E as <-. easy.
  - injection E as <-. apply Hcl. easy.
  - destruct (pp_worker s) as [[]|]; try easy; injection E as <-; easy.
  - injection E as <-. apply Hcl. easy.
  - destruct (Nat.leb_spec 5 (length (pp_reqs s))); [easy|]. injection E as <-. cbn. rewrite app_length. cbn. lia.
  - injection E as <-. easy.
Qed.

Lemma pinv_mono total n n' g : (n <= n')%nat -> pinv total n g -> pq_at g = PIdle -> pinv total n' g.
Proof.
  intros Hn HI Ha. induction Hn as [|n' Hn IH]; [easy|]. destruct IH as (c & ps & fresh & Hcks & HG & H).
  rewrite Ha in H. exists c, ps, fresh. rewrite Ha. destruct H as (H1 & H2 & H3 & H4 & H5 & H6 & H7 & H8 & H9).
  spl; auto.
  - destruct HG as (G1 & G2). split; [|easy]. eapply Forall_impl; [|exact G1]. cbn. lia.
  - now apply shape_S.
  - destruct (pp_exhausted (pq_it g)); [easy|]. now apply (content_S p l true N rep crep N size (le_n N) Hsize).
Qed.

(** The state of the iterator when the next element is the one at [c]. *)
Definition prep (s : pp p * nat) (c : nat) : Prop :=
  (c <= length l)%nat /\ (length (pp_reqs (fst s)) <= 5)%nat /\
  exists n, (length l <= n)%nat /\ pinv (cursor l (repeat ONext M) c []) n (mkPprog future [] [] PIdle (fst s)).

Lemma pinv_left total n g : pinv total n g -> exists rest, pq_obs g ++ rest = total /\ (length (erase (pq_calls g)) <= length rest)%nat.
Proof.
  intros (c & ps & fresh & _ & _ & H).
  destruct (pq_at g) as [| |o|o|o|ck|ck|]; unfold stopping_ok, setting_ok in H; decompose [and ex] H;
    (eexists; split; [eassumption|]); rewrite ?cursor_length; cbn [length]; rewrite ?cursor_length; lia.
Qed.

(** A call: [ps] are the positions of the checkpoints [cks]. *)
Definition bound : nat := N + cost size + 60 * 5 + 9 * size + 31.
Lemma pdrive_run call cks ps s c fuel : (bound <= fuel)%nat ->
  (length (pp_reqs (fst s)) <= 5)%nat -> (length (pp_buffer (fst s)) <= size)%nat -> (pp_count (fst s) <= 5)%nat ->
  (exists n, (length l <= n)%nat /\ pinv (cursor l (call :: repeat ONext M) c ps) n (mkPprog (Do call :: future) cks [] PIdle (fst s))) ->
  exists i g o c', pdrive p size keep sched fuel (snd s) (mkPprog [Do call] cks [] PIdle (fst s)) = Some (i, g) /\
    pq_obs g = [o] /\ prep (pq_it g, i) c' /\
    o :: cursor l (repeat ONext M) c' [] = cursor l (call :: repeat ONext M) c ps.
Proof.
  intros Hf Hr S1 S2 HI0. unfold bound in Hf.
  assert (HfN : (N <= fuel)%nat) by lia.
  set (total := cursor l (call :: repeat ONext M) c ps) in *.
  set (Inv := fun g : pprog p => (length (pp_reqs (pq_it g)) <= 5)%nat /\ exists n, (length l <= n)%nat /\ pinv total n (addc future g)).
  set (g0 := mkPprog [Do call] cks [] PIdle (fst s)).
  assert (HI1 : Inv g0) by (split; [exact Hr|exact HI0]). clear HI0. rename HI1 into HI0.
  assert (Hvac : forall n', true = false -> (S n' < length l)%nat) by easy.
  set (m := pmeasure p size).
  assert (Hadd : forall g, m (addc future g) = (cost size * M + m g)%nat).
  { intros g. unfold m, pmeasure. cbn [pq_calls pq_cks pq_obs pq_at pq_it]. rewrite app_length, repeat_length. lia. }
  destruct (drive_ends (fun k => pconsumer_step p keep false k)
    (fun g => match worker_step p fuel size (Ok tt) (pq_it g) with
              | Some s => Some (mkPprog (pq_calls g) (pq_cks g) (pq_obs g) (pq_at g) s) | None => None end)
    preturned sched Inv m) with (fuel := fuel) (i := snd s) (g := g0) as (i & g & Eg & HIg & Hret).
  - intros k g g' (Hq & n1 & Hn1 & HI1) Hret E.
    assert (E' : pconsumer_step p keep false k (addc future g) = Some (addc future g')) by (rewrite cstep_add by easy; now rewrite E).
    split.
    + split; [now apply (reqs_consumer k g)|]. exists (S n1). split; [lia|].
      exact (pinv_consumer p l true used json N rep crep L fuel size keep false HfN Hsize total n1 k _ _ (Hvac _) HI1 E').
    + pose proof (pmeasure_consumer p l true used json N rep crep L fuel size keep false HfN Hsize total n1 k _ _ (Hvac _) HI1 E') as Hm.
      fold m in Hm. rewrite !Hadd in Hm. lia.
  - intros g g' (Hq & n1 & Hn1 & HI1) Hret E.
    destruct (worker_step p fuel size (Ok tt) (pq_it g)) as [s'|] eqn:Es; [|easy]. injection E as <-.
    split.
    + split; [now apply (reqs_worker fuel (pq_it g))|]. exists (S n1). split; [lia|].
      exact (pinv_worker p l true used json N rep crep L fuel size false HfN Hsize total n1 (addc future g) s' (Hvac _) HI1 Es).
    + assert (Hst : pp_step p fuel size keep (Ok tt) false false (addc future g) (addc future (mkPprog (pq_calls g) (pq_cks g) (pq_obs g) (pq_at g) s')))
        by (right; left; exists s'; split; [exact Es|reflexivity]).
      pose proof (pmeasure_step p l true used json N rep crep L fuel size keep false HfN Hsize total n1 _ _ (Hvac _) HI1 Hst) as Hm.
      fold m in Hm. rewrite !Hadd in Hm. lia.
  - intros k g (Hq & n1 & Hn1 & HI1) Hret E1 E2.
    assert (Ho : pq_obs (addc future g) = total).
    { apply (pprogress p l true used json N rep crep fuel size keep false HfN Hsize total n1 _ (Hvac _) HI1).
      intros g' [(k' & E)|[(s' & E & _)|[E _]]]; [|cbn in E|easy].
      - rewrite cstep_add in E by easy. rewrite (cstep_any k k' g E1) in E. easy.
      - destruct (worker_step p fuel size (Ok tt) (pq_it g)); easy. }
    destruct (pinv_left _ _ _ HI1) as (rest & Hrest & Hlen). cbn [pq_calls pq_cks pq_obs pq_at pq_it] in *. rewrite Ho in Hrest.
    rewrite <- (app_nil_r total) in Hrest at 2. apply app_inv_head in Hrest. subst rest.
    assert (He : forall cs, (length (erase (repeat (Do ONext) M)) <= length (erase (cs ++ repeat (Do ONext) M)))%nat).
    { intros cs. induction cs as [|[o|] cs IH]; cbn [app erase length]; [lia| |]; lia. }
    specialize (He (pq_calls g)). rewrite erase_nexts, repeat_length in He. cbn [length] in Hlen. lia.
  - exact HI0.
  - unfold m, pmeasure, g0. cbn [pq_calls pq_cks pq_obs pq_at pq_it length pat_weight].
    pose proof (ppot_bound p N N size (le_n N) Hsize _ S1). lia.
  - unfold pdrive. fold g0. rewrite Eg. unfold preturned in Hret. destruct HIg as (Hq & n1 & Hn1 & HI1).
    pose proof HI1 as (c1 & ps1 & fresh & H1 & HG & H). cbn [pq_calls pq_cks pq_obs pq_at pq_it] in *.
    destruct (pq_at g) eqn:Ea; try easy. destruct (pq_calls g) eqn:Eca; [|easy]. cbn [app] in *.
    destruct H as (K1 & K2 & K3 & K4 & K5 & K6 & K7 & K8 & K9). rewrite erase_nexts in K9.
    assert (Hlen : length (pq_obs g) = 1%nat).
    { apply (f_equal (@length _)) in K9. unfold total in K9. rewrite app_length, !cursor_length in K9. cbn [length] in K9. lia. }
    destruct (pq_obs g) as [|o [|]] eqn:Eo; try easy. cbn [app] in K9.
    assert (Hps0 : forall m0 c0 ps0, cursor l (repeat ONext m0) c0 ps0 = cursor l (repeat ONext m0) c0 []).
    { intros m0. induction m0 as [|m0 IH]; intros; cbn [repeat cursor]; [easy|]. destruct (nth_error l _); now rewrite IH. }
    rewrite Hps0 in K9.
    exists i, g, o, c1. spl; auto.
    split; [easy|]. split; [easy|]. exists n1. split; [easy|].
    exists c1, [], fresh. cbn [pq_calls pq_cks pq_obs pq_at pq_it app fst]. spl; auto.
    + destruct HG as (_ & G2 & G3). unfold pguards. spl; auto.
    + now rewrite erase_nexts.
Qed.

Lemma prep_bounds s c : prep s c -> (length (pp_reqs (fst s)) <= 5)%nat /\ (length (pp_buffer (fst s)) <= size)%nat /\ (pp_count (fst s) <= 5)%nat.
Proof.
  intros (Hc & Hr & n & Hn & (c1 & ps1 & fresh & H1 & HG & H)). cbn [pq_calls pq_cks pq_obs pq_at pq_it] in H.
  destruct H as ((K1 & K2 & K3) & _). spl; auto. lia.
Qed.
Lemma fresh_nexts b m : fresh_loads b (repeat ONext m) = true.
Proof. revert b. induction m as [|m IH]; intros b; cbn; [easy|apply IH]. Qed.
Lemma prep_init : prep (init (process_prefetch_it size keep sched p)) 0.
Proof.
  split; [lia|]. split; [cbn; lia|]. exists (length l). split; [lia|].
  apply (pinv_mono _ 0%nat); [lia| |easy]. rewrite <- erase_nexts.
  apply (pinv_init p l true used json N rep crep N size false (le_n N) Hsize); [|easy].
  split; [constructor|]. split; intros _; rewrite uses_nexts; [apply fresh_nexts|apply no_json_nexts].
Qed.
Lemma pdrive_call call cks ps s c fuel : (bound <= fuel)%nat -> prep s c -> Forall2 crep cks ps ->
  Forall (fun q => q <= length l)%nat ps -> (json = false -> no_json (uses [Do call]) = true) ->
  (used = true \/ fresh_loads false [call] = true \/ s = init (process_prefetch_it size keep sched p)) ->
  exists i g o c', pdrive p size keep sched fuel (snd s) (mkPprog [Do call] cks [] PIdle (fst s)) = Some (i, g) /\
    pq_obs g = [o] /\ prep (pq_it g, i) c' /\
    o :: cursor l (repeat ONext M) c' [] = cursor l (call :: repeat ONext M) c ps.
Proof.
  intros Hf Hprep Hcks Hps Hj Hu. destruct (prep_bounds _ _ Hprep) as (B1 & B2 & B3). apply (pdrive_run call cks ps s c fuel Hf B1 B2 B3).
  assert (Hjs : json = false -> no_json (uses (Do call :: future)) = true).
  { intros J. specialize (Hj J). cbn [uses map] in *. change (map _ (repeat (Do ONext) M)) with (uses (repeat (Do ONext) M)).
    rewrite uses_nexts. cbn [no_json forallb] in *. fold (no_json (repeat ONext M)). rewrite no_json_nexts, andb_true_r in *. exact Hj. }
  assert (Hpsn : forall n, (length l <= n)%nat -> Forall (fun q => q <= n /\ q <= length l)%nat ps).
  { intros n Hn. eapply Forall_impl; [|exact Hps]. cbn. lia. }
  assert (Huses : uses (Do call :: future) = call :: repeat ONext M).
  { cbn [uses map]. change (map _ (repeat (Do ONext) M)) with (uses (repeat (Do ONext) M)). now rewrite uses_nexts. }
  assert (Hload : forall b, (fresh_loads false [call] = true \/ b = true) -> fresh_loads b (uses (Do call :: future)) = true).
  { intros b Hb. rewrite Huses. destruct call as [| |i j|]; try (cbn [fresh_loads]; apply fresh_nexts).
    cbn [fresh_loads] in *. rewrite fresh_nexts, andb_true_r. destruct Hb as [Hb| ->]; easy. }
  destruct Hprep as (Hc & Hr & n & Hn & (c1 & ps1 & fresh & H1 & HG & H)). cbn [pq_calls pq_cks pq_obs pq_at pq_it] in *.
  destruct H as (K1 & K2 & K3 & K4 & K5 & K6 & K7 & K8 & K9).
  rewrite erase_nexts in K9. cbn [app] in K9. apply cursor_same in K9; [|easy|easy|lia]. subst c1.
  destruct Hu as [Hu|[Hu|Hu]].
  - exists n. split; [easy|]. exists c, ps, fresh. cbn [pq_calls pq_cks pq_obs pq_at pq_it app]. spl; auto.
    + unfold pguards. spl; auto. intros U. congruence.
    + easy.
    + cbn [erase]. rewrite erase_nexts. reflexivity.
  - exists n. split; [easy|]. exists c, ps, fresh. cbn [pq_calls pq_cks pq_obs pq_at pq_it app]. spl; auto.
    + unfold pguards. spl; auto.
    + easy.
    + cbn [erase]. rewrite erase_nexts. reflexivity.
  - subst s. exists n. split; [easy|]. exists c, ps, true. cbn [pq_calls pq_cks pq_obs pq_at pq_it app]. spl; auto.
    + unfold pguards. spl; auto.
    + easy.
    + cbn [erase]. rewrite erase_nexts. reflexivity.
Qed.

Lemma process_law : NewLaw (process_prefetch_it size keep sched p) l true used json bound prep crep.
Proof.
  assert (Hset : forall fuel s q c0 c, (bound <= fuel)%nat -> prep s q -> crep c0 c -> live l true c ->
    (used = true \/ s = init (process_prefetch_it size keep sched p)) -> exists s', set_state (process_prefetch_it size keep sched p) fuel s c0 = Ok s' /\ prep s' c).
  { intros fuel s q c0 c Hf Hr Hc Hl Hu.
    assert (Hcl : (c <= length l)%nat) by (destruct Hl as [Hl|[Hl _]]; lia).
    destruct (pdrive_call (OLoad 0 false) [c0] [c] s q fuel Hf Hr) as (i & g & o & c' & E & Eo & Hr' & Ec); auto; try (destruct Hu; tauto).
    cbn [cursor nth_error] in Ec. injection Ec as -> Ec. apply (cursor_same l M c' c) in Ec; [|apply Hr'|easy|lia]. subst c'.
    exists (pq_it g, i). split; [|easy]. cbn [set_state process_prefetch_it]. now rewrite E, Eo. }
  split.
  - apply prep_init.
  - intros s c H. apply H.
  - intros fuel s c a Hf Hr Ha.
    destruct (pdrive_call ONext [] [] s c fuel Hf Hr) as (i & g & o & c' & E & Eo & Hr' & Ec); auto; try (destruct Hu; tauto).
    assert (Hc : (c < length l)%nat) by (apply nth_error_Some; now rewrite Ha).
    cbn [cursor] in Ec. rewrite Ha in Ec. injection Ec as -> Ec. apply (cursor_same l M c' (S c)) in Ec; [|apply Hr'|easy|lia]. subst c'.
    exists (pq_it g, i). split; [|easy]. cbn [next process_prefetch_it]. now rewrite E, Eo.
  - intros fuel s Hf _ Hr.
    destruct (pdrive_call ONext [] [] s (length l) fuel Hf Hr) as (i & g & o & c' & E & Eo & Hr' & Ec); auto; try (destruct Hu; tauto).
    cbn [cursor] in Ec. rewrite (proj2 (nth_error_None l (length l))) in Ec by lia. injection Ec as -> Ec.
    apply (cursor_same l M c' (length l)) in Ec; [|apply Hr'|easy|lia]. subst c'.
    exists (pq_it g, i). split; [|easy]. cbn [next process_prefetch_it]. now rewrite E, Eo.
  - intros s c (Hc & Hr & n & Hn & (c1 & ps1 & fresh & H1 & HG & H)). cbn [pq_calls pq_cks pq_obs pq_at pq_it] in H.
    destruct H as (K1 & K2 & K3 & K4 & K5 & K6 & K7 & K8 & K9). rewrite erase_nexts in K9. cbn [app] in K9.
    apply cursor_same in K9; [|easy|easy|lia]. subst c1. cbn [get_state process_prefetch_it]. unfold pget_state. unfold state_at in K5.
    destruct (pp_state (fst s)); [easy|]. subst c. apply (new_get L), (new_init L).
  - intros c q J. now apply (new_json L).
  - intros fuel c0 c Hf Hc Hl. apply (Hset fuel _ 0%nat c0 c); auto. apply prep_init.
  - intros fuel s q c0 c Hf U Hr Hc Hl. apply (Hset fuel s q c0 c); auto.
Qed.
End ProcessLaw.

Lemma process_prefetch_renewable {A} size keep sched (p : Iter A) l used json : (1 <= size)%nat ->
  renewable p l true used json -> renewable (process_prefetch_it size keep sched p) l true used json.
Proof. intros Hs (N & rep & crep & L). do 3 eexists. exact (process_law p l used json N rep crep L size keep sched Hs). Qed.
(** What can be restored into used iterators can be restarted. *)
Lemma new_restartable {A} (it : Iter A) l json N rep crep : NewLaw it l true true json N rep crep -> Law it l true true json N rep crep.
Proof.
  intros L. split; [apply (new_init L)|apply (new_le L)|apply (new_next L)|apply (new_stop L)|apply (new_get L)|apply (new_json L)| |
                    apply (new_fresh L)|apply (new_used L)].
  intros fuel s p Hf Hr Hl. apply (new_used L fuel s p); auto. apply (new_get L), (new_init L).
Qed.
Lemma process_prefetch_lawful {A} size keep sched (p : Iter A) l json : (1 <= size)%nat ->
  lawful p l true true json -> lawful (process_prefetch_it size keep sched p) l true true json.
Proof.
  intros Hs (N & rep & crep & L). do 3 eexists. apply new_restartable. exact (process_law p l true json N rep crep L size keep sched Hs).
Qed.

Section ThreadLaw.
Context {A : Type}.
Variables (p : Iter A) (l : list A) (used json : bool) (N : nat).
Variables (rep : ist p -> nat -> Prop) (crep : ick p -> nat -> Prop).
Hypothesis L : NewLaw p l true used json N rep crep.
Variables (size : nat) (eager : bool) (sched : schedule).
Hypothesis Heager : eager = true -> (1 <= size)%nat.
Notation inv := (inv p l true used json rep crep size).
Notation M := (S (length l)).
Notation future := (repeat (Do ONext) M).
Notation addt rest g := (mkProg (pg_calls g ++ rest) (pg_cks g) (pg_obs g) (pg_at g) (pg_it g)).

Lemma tstep_add fuel rest g : treturned g = false ->
  consumer_step p fuel size (addt rest g) = match consumer_step p fuel size g with Some g' => Some (addt rest g') | None => None end.
Proof.
  unfold treturned, consumer_step. destruct g as [calls cks obs_ at_ s]. cbn [pg_calls pg_cks pg_obs pg_at pg_it]. intros Hr.
  destruct at_ as [| | |a|k|k|k|k|k]; try reflexivity.
  - destruct calls as [|[[| |i j|]|] calls]; cbn [app]; try easy.
    + destruct (Nat.ltb 0 size); [reflexivity|]. destruct (tp_buffer s); reflexivity.
    + destruct (nth_error cks i); reflexivity.
  - destruct (tp_buffer s) as [|[a c|o] b]; reflexivity.
  - destruct (next p fuel _) as [[]]; reflexivity.
  - destruct (tp_buffer s); reflexivity.
  - destruct (tp_thread s) as [[]|]; reflexivity.
  - destruct (tp_buffer s); reflexivity.
  - destruct k as [o|c]; [reflexivity|]. destruct (set_state p fuel _ c); reflexivity.
Qed.

Definition trep (s : tp p * nat) (c : nat) : Prop :=
  (c <= length l)%nat /\ inv (cursor l (repeat ONext M) c []) (mkProg future [] [] Idle (fst s)).

Lemma inv_left total g : inv total g -> exists rest, pg_obs g ++ rest = total /\ (length (erase (pg_calls g)) <= length rest)%nat.
Proof.
  intros (c & ps & fresh & kb & _ & _ & _ & H).
  destruct (pg_at g) as [| | |a|[o|k]|[o|k]|[o|k]|[o|k]|[o|k]]; cbn [target] in H; decompose [and ex] H;
    (eexists; split; [eassumption|]); rewrite ?cursor_length; cbn [length]; rewrite ?cursor_length; lia.
Qed.

Definition tbound : nat := N + (10 * size + 100) + 4 * size + 9.
Lemma tdrive_run call cks ps s c fuel : (tbound <= fuel)%nat -> (length (tp_buffer (fst s)) <= size)%nat ->
  inv (cursor l (call :: repeat ONext M) c ps) (mkProg (Do call :: future) cks [] Idle (fst s)) ->
  exists i g o c', tdrive p size sched fuel (snd s) (mkProg [Do call] cks [] Idle (fst s)) = Some (i, g) /\
    pg_obs g = [o] /\ trep (pg_it g, i) c' /\
    o :: cursor l (repeat ONext M) c' [] = cursor l (call :: repeat ONext M) c ps.
Proof.
  intros Hf S1 HI0. unfold tbound in Hf.
  assert (HfN : (N <= fuel)%nat) by lia.
  set (total := cursor l (call :: repeat ONext M) c ps) in *.
  set (Inv := fun g : prog p => inv total (addt future g)).
  set (g0 := mkProg [Do call] cks [] Idle (fst s)).
  assert (HI1 : Inv g0) by exact HI0. clear HI0. rename HI1 into HI0.
  set (m := measure p size).
  assert (Hadd : forall g, m (addt future g) = ((10 * size + 100) * M + m g)%nat).
  { intros g. unfold m, measure. cbn [pg_calls pg_cks pg_obs pg_at pg_it]. rewrite app_length, repeat_length. lia. }
  destruct (drive_ends (fun _ => consumer_step p fuel size)
    (fun g => match producer_step p fuel size (pg_it g) with
              | Some s => Some (mkProg (pg_calls g) (pg_cks g) (pg_obs g) (pg_at g) s) | None => None end)
    treturned sched Inv m) with (fuel := fuel) (i := snd s) (g := g0) as (i & g & Eg & HIg & Hret).
  - intros _ g g' HI1 Hret E.
    assert (E' : consumer_step p fuel size (addt future g) = Some (addt future g')) by (rewrite tstep_add by easy; now rewrite E).
    split; [exact (inv_consumer p l true used json N rep crep L fuel size HfN total _ _ HI1 E')|].
    pose proof (measure_step p l true used json N rep crep L fuel size HfN total _ _ HI1 (or_introl E')) as Hm.
    fold m in Hm. rewrite !Hadd in Hm. lia.
  - intros g g' HI1 Hret E.
    destruct (producer_step p fuel size (pg_it g)) as [s'|] eqn:Es; [|easy]. injection E as <-.
    split; [exact (inv_producer p l true used json N rep crep L fuel size HfN total (addt future g) s' HI1 Es)|].
    assert (Hst : tp_step p fuel size (addt future g) (addt future (mkProg (pg_calls g) (pg_cks g) (pg_obs g) (pg_at g) s')))
      by (right; exists s'; split; [exact Es|reflexivity]).
    pose proof (measure_step p l true used json N rep crep L fuel size HfN total _ _ HI1 Hst) as Hm.
    fold m in Hm. rewrite !Hadd in Hm. lia.
  - intros k g HI1 Hret E1 E2.
    assert (Ho : pg_obs (addt future g) = total).
    { apply (progress p l true used json N rep crep fuel size HfN total _ HI1).
      intros g' [E|(s' & E & _)]; [|cbn in E].
      - rewrite tstep_add in E by easy. now rewrite E1 in E.
      - destruct (producer_step p fuel size (pg_it g)); easy. }
    destruct (inv_left _ _ HI1) as (rest & Hrest & Hlen). cbn [pg_calls pg_cks pg_obs pg_at pg_it] in *. rewrite Ho in Hrest.
    rewrite <- (app_nil_r total) in Hrest at 2. apply app_inv_head in Hrest. subst rest.
    assert (He : forall cs, (length (erase (repeat (Do ONext) M)) <= length (erase (cs ++ repeat (Do ONext) M)))%nat).
    { intros cs. induction cs as [|[o|] cs IH]; cbn [app erase length]; [lia| |]; lia. }
    specialize (He (pg_calls g)). rewrite erase_nexts, repeat_length in He. cbn [length] in Hlen. lia.
  - exact HI0.
  - unfold m, measure, g0. cbn [pg_calls pg_cks pg_obs pg_at pg_it length at_weight].
    pose proof (pot_bound p N N size (le_n N) _ S1). lia.
  - unfold tdrive. fold g0. rewrite Eg. unfold treturned in Hret.
    pose proof HIg as (c1 & ps1 & fresh & kb & H1 & HG & H2 & H). cbn [pg_calls pg_cks pg_obs pg_at pg_it] in *.
    destruct (pg_at g) eqn:Ea; try easy. destruct (pg_calls g) eqn:Eca; [|easy]. cbn [app] in *.
    destruct H as (K1 & K9). pose proof K1 as (_ & _ & K3 & _). rewrite erase_nexts in K9.
    assert (Hlen : length (pg_obs g) = 1%nat).
    { apply (f_equal (@length _)) in K9. unfold total in K9. rewrite app_length, !cursor_length in K9. cbn [length] in K9. lia. }
    destruct (pg_obs g) as [|o [|]] eqn:Eo; try easy. cbn [app] in K9.
    assert (Hps0 : forall m0 c0 ps0, cursor l (repeat ONext m0) c0 ps0 = cursor l (repeat ONext m0) c0 []).
    { intros m0. induction m0 as [|m0 IH]; intros; cbn [repeat cursor]; [easy|]. destruct (nth_error l _); now rewrite IH. }
    rewrite Hps0 in K9.
    exists i, g, o, c1. spl; auto.
    split; [easy|].
    exists c1, [], fresh, kb. cbn [pg_calls pg_cks pg_obs pg_at pg_it app fst]. spl; auto.
    + destruct HG as (_ & G2 & G3 & G4 & G5). unfold guards. spl; auto.
    + now rewrite erase_nexts.
Qed.

(** A new iterator: nothing has been read from the parent. *)
Lemma trep_init fresh : (eager = true -> fresh = false) -> run_ok p l true rep crep size fresh 0 (fst (init (thread_prefetch_it size eager sched p))).
Proof.
  intros Hfr. cbn [init thread_prefetch_it fst].
  assert (K0 : run_ok p l true rep crep size fresh 0 (tp_init p)).
  { unfold run_ok, tp_init. cbn. spl; try easy; try lia; [apply (new_get L), (new_init L)|apply (new_init L)]. }
  destruct eager; [|exact K0]. specialize (Heager eq_refl). rewrite (Hfr eq_refl) in *.
  exact (proj1 (run_ok_start p l true rep crep size 0 false _ Heager K0)).
Qed.
Lemma fresh_nexts' b m : fresh_loads b (repeat ONext m) = true.
Proof. revert b. induction m as [|m IH]; intros b; cbn; [easy|apply IH]. Qed.
Lemma tguards fresh call ps k0 : Forall (fun q => q <= length l)%nat ps -> (json = false -> no_json (uses [Do call]) = true) ->
  (used = true \/ fresh_loads false [call] = true \/ fresh = true) -> (length l <= k0)%nat ->
  guards l true used json size fresh (Do call :: future) ps k0.
Proof.
  intros Hps Hj Hu Hk.
  assert (Huses : uses (Do call :: future) = call :: repeat ONext M).
  { cbn [uses map]. change (map _ (repeat (Do ONext) M)) with (uses (repeat (Do ONext) M)). now rewrite uses_nexts. }
  unfold guards. spl.
  - eapply Forall_impl; [|exact Hps]. cbn. lia.
  - easy.
  - intros U. rewrite Huses. destruct call as [| |i j|]; try (cbn [fresh_loads]; apply fresh_nexts').
    cbn [fresh_loads] in *. rewrite fresh_nexts', andb_true_r. destruct Hu as [Hu|[Hu| ->]]; [congruence|easy|easy].
  - intros J. specialize (Hj J). rewrite Huses. cbn [uses map no_json forallb] in *. fold (no_json (repeat ONext M)). rewrite no_json_nexts, andb_true_r in *.
    exact Hj.
  - intros H0 [Hin|Hin]; [discriminate|]. apply repeat_spec in Hin. discriminate.
Qed.
Lemma tdrive_call call cks ps s c fuel : (tbound <= fuel)%nat -> trep s c -> Forall2 crep cks ps ->
  Forall (fun q => q <= length l)%nat ps -> (json = false -> no_json (uses [Do call]) = true) ->
  (used = true \/ fresh_loads false [call] = true \/ (s = init (thread_prefetch_it size eager sched p) /\ eager = false)) ->
  exists i g o c', tdrive p size sched fuel (snd s) (mkProg [Do call] cks [] Idle (fst s)) = Some (i, g) /\
    pg_obs g = [o] /\ trep (pg_it g, i) c' /\
    o :: cursor l (repeat ONext M) c' [] = cursor l (call :: repeat ONext M) c ps.
Proof.
  intros Hf (Hc & HI) Hcks Hps Hj Hu.
  destruct HI as (c1 & ps1 & fresh & kb & H1 & HG & H2 & H). cbn [pg_calls pg_cks pg_obs pg_at pg_it] in *.
  destruct H as (K1 & K9). pose proof K1 as (S1 & _ & K3 & _).
  rewrite erase_nexts in K9. cbn [app] in K9. apply cursor_same in K9; [|easy|easy|lia]. subst c1.
  apply (tdrive_run call cks ps s c fuel Hf S1).
  assert (G : forall fr, run_ok p l true rep crep size fr c (fst s) -> (used = true \/ fresh_loads false [call] = true \/ fr = true) ->
    inv (cursor l (call :: repeat ONext M) c ps) (mkProg (Do call :: future) cks [] Idle (fst s))).
  { intros fr Kr Hfr. exists c, ps, fr, (Nat.max kb (length l)). cbn [pg_calls pg_cks pg_obs pg_at pg_it app]. spl; auto; try lia.
    - apply tguards; auto. lia.
    - cbn [erase]. rewrite erase_nexts. reflexivity. }
  destruct Hu as [Hu|[Hu|[-> He]]]; [apply (G fresh); auto|apply (G fresh); auto|].
  apply (G true); [|auto]. cbn [init thread_prefetch_it fst] in *. rewrite He in *.
  unfold run_ok in *. cbn in *. spl; try apply K1. easy.
Qed.

Lemma thread_law : (eager = true -> used = true) -> NewLaw (thread_prefetch_it size eager sched p) l true used json tbound trep crep.
Proof.
  intros Heu.
  assert (Hset : forall fuel s q c0 c, (tbound <= fuel)%nat -> trep s q -> crep c0 c -> live l true c ->
    (used = true \/ (s = init (thread_prefetch_it size eager sched p) /\ eager = false)) -> exists s', set_state (thread_prefetch_it size eager sched p) fuel s c0 = Ok s' /\ trep s' c).
  { intros fuel s q c0 c Hf Hr Hc Hl Hu.
    assert (Hcl : (c <= length l)%nat) by (destruct Hl as [Hl|[Hl _]]; lia).
    destruct (tdrive_call (OLoad 0 false) [c0] [c] s q fuel Hf Hr) as (i & g & o & c' & E & Eo & Hr' & Ec); auto; try (destruct Hu; tauto).
    cbn [cursor nth_error] in Ec. injection Ec as -> Ec. apply (cursor_same l M c' c) in Ec; [|apply Hr'|easy|lia]. subst c'.
    exists (pg_it g, i). split; [|easy]. cbn [set_state thread_prefetch_it]. now rewrite E, Eo. }
  assert (Hget : forall s c, trep s c -> crep (tp_state (fst s)) c).
  { intros s c (Hc & (c1 & ps1 & fresh & kb & H1 & HG & H2 & H)). cbn [pg_calls pg_cks pg_obs pg_at pg_it] in H.
    destruct H as (K1 & K9). pose proof K1 as (_ & K2 & K3 & _). rewrite erase_nexts in K9. cbn [app] in K9.
    apply cursor_same in K9; [|easy|easy|lia]. now subst c1. }
  assert (Hinit : trep (init (thread_prefetch_it size eager sched p)) 0).
  { split; [lia|]. exists 0%nat, [], (negb eager), (length l). cbn [pg_calls pg_cks pg_obs pg_at pg_it]. spl; try easy; try lia.
    - unfold guards. spl; try easy; [intros _; rewrite uses_nexts; apply fresh_nexts'|intros _; rewrite uses_nexts; apply no_json_nexts|].
      intros _ Hin. apply repeat_spec in Hin. discriminate.
    - apply trep_init. now intros ->.
    - now rewrite erase_nexts. }
  split.
  - exact Hinit.
  - intros s c H. apply H.
  - intros fuel s c a Hf Hr Ha.
    destruct (tdrive_call ONext [] [] s c fuel Hf Hr) as (i & g & o & c' & E & Eo & Hr' & Ec); auto; try (destruct Hu; tauto).
    assert (Hc : (c < length l)%nat) by (apply nth_error_Some; now rewrite Ha).
    cbn [cursor] in Ec. rewrite Ha in Ec. injection Ec as -> Ec. apply (cursor_same l M c' (S c)) in Ec; [|apply Hr'|easy|lia]. subst c'.
    exists (pg_it g, i). split; [|easy]. cbn [next thread_prefetch_it]. now rewrite E, Eo.
  - intros fuel s Hf _ Hr.
    destruct (tdrive_call ONext [] [] s (length l) fuel Hf Hr) as (i & g & o & c' & E & Eo & Hr' & Ec); auto; try (destruct Hu; tauto).
    cbn [cursor] in Ec. rewrite (proj2 (nth_error_None l (length l))) in Ec by lia. injection Ec as -> Ec.
    apply (cursor_same l M c' (length l)) in Ec; [|apply Hr'|easy|lia]. subst c'.
    exists (pg_it g, i). split; [|easy]. cbn [next thread_prefetch_it]. now rewrite E, Eo.
  - exact Hget.
  - intros c q J. now apply (new_json L).
  - intros fuel c0 c Hf Hc Hl. apply (Hset fuel _ 0%nat c0 c); auto. destruct eager; [left; now apply Heu|now right].
  - intros fuel s q c0 c Hf U Hr Hc Hl. apply (Hset fuel s q c0 c); auto.
Qed.
End ThreadLaw.

Lemma thread_prefetch_renewable {A} size eager sched (p : Iter A) l used json : (eager = true -> (1 <= size)%nat /\ used = true) ->
  renewable p l true used json -> renewable (thread_prefetch_it size eager sched p) l true used json.
Proof.
  intros He (N & rep & crep & L). do 3 eexists. apply (thread_law p l used json N rep crep L size eager sched); intros E; now apply He.
Qed.
Lemma thread_prefetch_lawful {A} size eager sched (p : Iter A) l json : (eager = true -> (1 <= size)%nat) ->
  lawful p l true true json -> lawful (thread_prefetch_it size eager sched p) l true true json.
Proof.
  intros He (N & rep & crep & L). do 3 eexists. apply new_restartable.
  exact (thread_law p l true json N rep crep L size eager sched He (fun _ => eq_refl)).
Qed.
