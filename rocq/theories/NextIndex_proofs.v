(** Every indexed pipeline knows its position and can be moved to any index within reach. *)
From Verif Require Import Base MapDatasets Spec ListFacts Iter IterSpec IterLaw IterBasic_proofs IterBatch_proofs IterSource_proofs
  ThreadPrefetch ThreadPrefetch_proofs Scheduled Scheduled_proofs NextIndex NextIndexSpec.
Local Ltac spl := repeat match goal with |- _ /\ _ => split end.

Record IxLaw {A} (x : Indexed A) (l : list A) (r N : nat) (rep : ist (ix_it x) -> nat -> Prop) (crep : ick (ix_it x) -> nat -> Prop) : Prop := {
  ixl_law : Law (ix_it x) l true true true N rep crep;
  ixl_reach : (r <= length l)%nat;
  ixl_get : forall fuel s q, (N <= fuel)%nat -> rep s q ->
    exists s', get_index x fuel s = (Ok (Z.of_nat q), s') /\ rep s' q;
  ixl_set : forall fuel s q j, (N <= fuel)%nat -> rep s q -> (j <= r)%nat ->
    exists s', set_index x fuel s (Z.of_nat j) = (Ok tt, s') /\ rep s' j;
}.
Arguments ixl_law {_ _ _ _ _ _ _}. Arguments ixl_reach {_ _ _ _ _ _ _}. Arguments ixl_get {_ _ _ _ _ _ _}. Arguments ixl_set {_ _ _ _ _ _ _}.
Definition ixlawful {A} (x : Indexed A) l r : Prop := exists N rep crep, IxLaw x l r N rep crep.

(** ** The source *)
Lemma filter_kept {A} allow (E : list (option A)) : (allow = false -> ~ In None E) ->
  filter (kept allow) E = E.
Proof.
  intros H. induction E as [|e E IH]; [easy|]. cbn [filter]. unfold kept at 1.
  destruct allow; cbn [orb] in *; [now rewrite IH|]. destruct e as [a|]; [|exfalso; apply (H eq_refl); now left].
  rewrite IH; [easy|]. intros F Hin. apply (H F). now right.
Qed.

Lemma source_ixlaw {A} (ds : MapDs A) E allow sched nt bs :
  (forall i e, nth_error E i = Some e -> mget ds (Z.of_nat i) = Ok e) -> Z.of_nat (length E) = mlen ds ->
  (allow = false -> ~ In None E) ->
  ixlawful (source_ix sched allow nt bs ds) E (length E).
Proof.
  intros HE Hlen Hn.
  pose proof (prefetch_tuned_Law ds allow E HE ltac:(lia) sched nt bs) as L.
  rewrite (filter_kept allow E Hn), (proj2 (Z.eqb_eq _ _) Hlen) in L.
  do 3 eexists. split; [exact L|easy| |].
  - intros fuel [s k] q Hf Hr. exists (s, k). split; [|exact Hr]. cbn [get_index source_ix fst].
    destruct Hr as (Hi & Hle & Hj). destruct Hi as (Hi & _). cbn [fst] in *.
    rewrite filter_kept in Hj.
    + rewrite firstn_length in Hj. do 2 f_equal. lia.
    + intros F Hin. apply (Hn F). rewrite <- (firstn_skipn (Z.to_nat (pf_ret s)) E). apply in_or_app. now left.
  - intros fuel [s k] q j Hf Hr Hj. destruct (law_used L fuel (s, k) q (Z.of_nat j) j Hf eq_refl Hr) as (s' & Es & Hr').
    + split; [lia|]. rewrite filter_kept, firstn_length by (intros F Hin; apply (Hn F);
        rewrite <- (firstn_skipn (Z.to_nat (Z.of_nat j)) E); apply in_or_app; now left). lia.
    + unfold live. lia.
    + cbn [set_state prefetch_tuned] in Es. cbn [set_index source_ix fst snd].
      destruct (prefetch_set ds (fold_left (pf_apply ds) (sched k) s) (Z.of_nat j)) as [s1|e|] eqn:E1; cbn [bind] in Es; try discriminate.
      injection Es as <-. eauto.
Qed.

(** ** map, map_with_index, random_map, limit, batch *)
Lemma map_ixlaw {A B} (f : A -> res (option B)) p l l' r :
  Forall2 (fun e b => map_element f e = Ok b) l l' -> ixlawful p l r -> ixlawful (map_ix f p) l' r.
Proof.
  intros H (N & rep & crep & X). exists N, rep, crep. split.
  - exact (map_Law f _ l l' true true true N rep crep H (ixl_law X)).
  - rewrite <- (Forall2_length _ _ _ H). apply (ixl_reach X).
  - exact (ixl_get X).
  - exact (ixl_set X).
Qed.

Lemma counting_ixlaw {A B} (g : Z -> A -> res B) (p : Indexed A) l l' r :
  Forall2 (fun ie b => g (fst ie) (snd ie) = Ok b) (combine (zrange 0 (length l)) l) l' -> ixlawful p l r ->
  ixlawful (mkIx (counting_it g (ix_it p)) (fun _ s => (Ok (snd s), s))
                 (fun fuel s i => set_both (set_index p fuel (fst s) i) i (snd s))) l' r.
Proof.
  intros H (N & rep & crep & X). do 3 eexists. split.
  - exact (counting_Law g _ l l' true true true N rep crep H (ixl_law X)).
  - pose proof (Forall2_length _ _ _ H) as Hl. rewrite combine_length, zrange_length, Nat.min_id in Hl.
    rewrite <- Hl. apply (ixl_reach X).
  - intros fuel s q Hf Hr. exists s. split; [|exact Hr]. destruct Hr as (_ & Hc). cbn [get_index]. now rewrite Hc.
  - intros fuel s q j Hf (Hr & _) Hj. destruct (ixl_set X fuel (fst s) q j Hf Hr Hj) as (s' & E & Hr').
    cbn [set_index]. rewrite E. cbn [set_both]. eexists. split; [reflexivity|]. now split.
Qed.

Lemma limit_ixlaw {A} n (p : Indexed A) l r : (1 <= n)%nat -> ixlawful p l r ->
  ixlawful (limit_ix (Z.of_nat n) p) (firstn n l) (Nat.min n r).
Proof.
  intros Hn (N & rep & crep & X). do 3 eexists. split.
  - pose proof (limit_Law (Z.of_nat n) _ l true true true N rep crep ltac:(lia) (ixl_law X)) as L.
    cbn [orb] in L. rewrite Nat2Z.id in L. exact L.
  - rewrite firstn_length. pose proof (ixl_reach X). lia.
  - intros fuel s q Hf Hr. exists s. split; [|exact Hr]. destruct Hr as (_ & Hc & _). cbn [get_index limit_ix]. now rewrite Hc.
  - intros fuel s q j Hf (Hr & _) Hj. destruct (ixl_set X fuel (fst s) q j Hf Hr ltac:(lia)) as (s' & E & Hr').
    cbn [set_index limit_ix]. rewrite E. cbn [set_both]. eexists. split; [reflexivity|]. split; [exact Hr'|]. cbn [snd]. lia.
Qed.

Lemma batch_ixlaw {A B} b drop (batch_fn : list A -> res B) p l l' r :
  (1 <= b)%nat -> (drop = true -> exists k, length l = k * b)%nat ->
  Forall2 (fun c e => batch_fn c = Ok e) (chunks b l) l' -> ixlawful p l r ->
  ixlawful (batch_ix (Z.of_nat b) drop batch_fn p) l' (r / b).
Proof.
  intros Hb Hd HF (N & rep & crep & X).
  pose proof (Forall2_length _ _ _ HF) as HC. pose proof (chunks_length_nat b l ltac:(lia)) as HL.
  assert (Hfull : drop = true -> full_chunks b l = chunks b l).
  { intros D. destruct (Hd D) as (k & Hk). rewrite full_chunks_firstn by lia. rewrite firstn_all2; [easy|].
    rewrite Hk, Nat.div_mul by lia. nia. }
  do 3 eexists. split.
  - pose proof (batch_Law (Z.of_nat b) drop batch_fn (ix_it p) l l' true true true N rep crep) as L.
    rewrite Nat2Z.id in L. apply L; [lia| |exact (ixl_law X)]. destruct drop; cbn [andb negb]; [|easy]. now rewrite (Hfull eq_refl).
  - pose proof (ixl_reach X). pose proof (Nat.div_mod r b ltac:(lia)). nia.
  - intros fuel s j Hf (q & Hr & Hj & Hq). destruct (ixl_get X fuel s q Hf Hr) as (s' & E & Hr').
    exists s'. split.
    + cbn [get_index batch_ix]. rewrite E. cbn [bind]. do 2 f_equal. symmetry.
      destruct Hq as [->|[-> ->]].
      * apply (Z.div_unique _ _ _ (Z.of_nat b - 1)); nia.
      * rewrite <- HC in *. apply (Z.div_unique _ _ _ (Z.of_nat (length l) + Z.of_nat b - 1 - Z.of_nat b * Z.of_nat (length (chunks b l)))); nia.
    + exists q. auto.
  - intros fuel s j0 j Hf (q & Hr & _) Hj.
    assert (Hjr : (j * b <= r)%nat) by (pose proof (Nat.div_mod r b ltac:(lia)); nia).
    destruct (ixl_set X fuel s q (j * b) Hf Hr Hjr) as (s' & E & Hr').
    exists s'. split; [cbn [set_index batch_ix]; now rewrite <- Nat2Z.inj_mul|].
    exists (j * b)%nat. split; [exact Hr'|]. split; [|now left].
    pose proof (ixl_reach X). nia.
Qed.

(** ** A prefetching thread *)
Lemma settable_law {A} (p : Indexed A) l r N rep crep : IxLaw p l r N rep crep ->
  Law (settable p) l true true true N rep
      (fun c q => match c with inl c => crep c q | inr i => i = Z.of_nat q /\ (q <= r)%nat end).
Proof.
  intros X. pose proof (ixl_law X) as L. split; cbn [settable ist ick init next get_state set_state jsonck].
  - apply (law_init L).
  - apply (law_le L).
  - apply (law_next L).
  - apply (law_stop L).
  - apply (law_get L).
  - intros [c|i] q; [apply (law_json L)|easy].
  - apply (law_start L).
  - intros fuel [c|i] q Hf Hc Hv; [now apply (law_fresh L)|]. destruct Hc as (-> & Hq).
    destruct (ixl_set X fuel (init (ix_it p)) 0%nat q Hf (law_init L) Hq) as (s' & -> & Hr'). eauto.
  - intros fuel s q0 [c|i] q Hf Hu Hr Hc Hv; [now apply (law_used L fuel s q0)|]. destruct Hc as (-> & Hq).
    destruct (ixl_set X fuel s q0 q Hf Hr Hq) as (s' & -> & Hr'). eauto.
Qed.

Lemma drive_inv {G} (consumer : nat -> G -> option G) worker returned sched (Inv : G -> Prop) :
  (forall k g g', Inv g -> consumer k g = Some g' -> Inv g') -> (forall g g', Inv g -> worker g = Some g' -> Inv g') ->
  forall fuel i g j g', Inv g -> drive consumer worker returned sched fuel i g = Some (j, g') -> Inv g'.
Proof.
  intros HC HW. induction fuel as [|fuel IH]; intros i g j g' HI E; [easy|]. cbn [drive] in E.
  destruct (returned g); [injection E as <- <-; exact HI|]. destruct (sched i) as [first k].
  destruct (if first then _ else _) as [g1|] eqn:E1; [|easy]. apply (IH (S i) g1 j); [|exact E].
  destruct first.
  - destruct (consumer k g) as [g2|] eqn:E2; [injection E1 as <-; eauto|eauto].
  - destruct (worker g) as [g2|] eqn:E2; [injection E1 as <-; eauto|eauto].
Qed.

Lemma drive_returned {G} consumer worker (returned : G -> bool) sched : forall fuel i g j g',
  drive consumer worker returned sched fuel i g = Some (j, g') -> returned g' = true.
Proof.
  induction fuel as [|fuel IH]; intros i g j g' E; [easy|]. cbn [drive] in E.
  destruct (returned g) eqn:Er; [now injection E as <- <-|]. destruct (sched i) as [first k].
  destruct (if first then _ else _); [eauto|easy].
Qed.

Section Thread.
Context {A : Type}.
Variables (p : Iter A) (l : list A) (json : bool) (N : nat).
Variables (rep : ist p -> nat -> Prop) (crep : ick p -> nat -> Prop).
Hypothesis L : Law p l true true json N rep crep.
Variables (size : nat) (eager : bool) (sched : schedule).
Notation trep := (trep p l true json rep crep size).
Notation M := (S (length l)).

Lemma trep_run s c : trep s c -> run_ok p l true rep crep size false c (fst s) \/ exists fresh, run_ok p l true rep crep size fresh c (fst s).
Proof.
  intros (Hc & (c1 & ps1 & fresh & kb & H1 & HG & H2 & H)). cbn [pg_calls pg_cks pg_obs pg_at pg_it] in H.
  destruct H as (K1 & K9). pose proof K1 as (_ & K2 & K3 & _). rewrite erase_nexts in K9. cbn [app] in K9.
  apply cursor_same in K9; [|easy|easy|lia]. subst c1. right. eauto.
Qed.

(** set_state leaves the iterator without a thread, with nothing in the buffer. *)
Lemma load_stops fuel s s' c0 q : trep s q ->
  set_state (thread_prefetch_it size eager sched p) fuel s c0 = Ok s' -> tp_thread (fst s') = None /\ tp_buffer (fst s') = [].
Proof.
  intros Hr E. cbn [set_state thread_prefetch_it] in E.
  destruct (tdrive p size sched fuel (snd s) _) as [[i g]|] eqn:Ed; [|easy].
  assert (H0 : tp_thread (fst s) = None -> tp_buffer (fst s) = []).
  { destruct (trep_run s q Hr) as [H|[fresh H]]; destruct H as (_ & _ & _ & H); intros Et; rewrite Et in H; apply H. }
  set (Inv := fun g : prog p =>
    (pg_at g = Idle /\ pg_calls g = [Do (OLoad 0 false)] /\ pg_cks g = [c0] /\ pg_obs g = [] /\ (tp_thread (pg_it g) = None -> tp_buffer (pg_it g) = [])) \/
    (pg_calls g = [] /\ pg_obs g = [] /\ exists k, pg_at g = SSet (KSet k) \/ pg_at g = SClear (KSet k) \/ pg_at g = SJoin (KSet k) \/
       (tp_thread (pg_it g) = None /\ (pg_at g = SClear2 (KSet k) \/ (pg_at g = SDone (KSet k) /\ tp_buffer (pg_it g) = [])))) \/
    (pg_calls g = [] /\ pg_at g = Idle /\ tp_thread (pg_it g) = None /\ tp_buffer (pg_it g) = [])).
  assert (HI : Inv g).
  { refine (drive_inv _ _ _ _ Inv _ _ fuel (snd s) _ i g _ Ed).
    - intros _ g1 g2 HI Es. unfold Inv in *. destruct g1 as [calls cks ob at_ t]. cbn [pg_calls pg_cks pg_obs pg_at pg_it] in *.
      destruct HI as [(-> & -> & -> & -> & Ht)|[(-> & -> & k & H)|(-> & -> & H1 & H2)]].
      + cbn [consumer_step pg_calls pg_cks pg_obs pg_at pg_it nth_error] in Es. injection Es as <-. cbn [pg_calls pg_cks pg_obs pg_at pg_it].
        right. left. spl; try easy. eexists. unfold stopping. destruct (tp_thread t) as [th|] eqn:Et; [now left|].
        right. right. right. split; [easy|]. right. split; [reflexivity|auto].
      + destruct H as [->|[->|[->|(Ht & [->|(-> & Hb)])]]]; cbn [consumer_step pg_calls pg_cks pg_obs pg_at pg_it] in Es.
        * injection Es as <-. cbn [pg_calls pg_cks pg_obs pg_at pg_it]. right. left. spl; try easy. exists k. auto.
        * destruct (tp_buffer t); injection Es as <-; cbn [pg_calls pg_cks pg_obs pg_at pg_it]; right; left; spl; try easy; exists k; auto.
        * destruct (tp_thread t) as [[]|]; try discriminate. injection Es as <-. cbn [pg_calls pg_cks pg_obs pg_at pg_it].
          right. left. spl; try easy. exists k. cbn [tp_thread]. auto 6.
        * destruct (tp_buffer t) eqn:Eb; injection Es as <-; cbn [pg_calls pg_cks pg_obs pg_at pg_it]; right; left; spl; try easy; exists k; auto 7.
        * right. right. destruct (set_state p fuel (tp_parent t) k); injection Es as <-; cbn [pg_calls pg_cks pg_obs pg_at pg_it tp_thread tp_buffer]; auto.
      + discriminate.
    - intros g1 g2 HI Es. unfold Inv in *. destruct (producer_step p fuel size (pg_it g1)) as [t|] eqn:Et; [|easy].
      injection Es as <-. cbn [pg_calls pg_cks pg_obs pg_at pg_it].
      assert (Hth : tp_thread (pg_it g1) <> None /\ tp_thread t <> None).
      { unfold producer_step in Et. destruct (tp_thread (pg_it g1)) as [[| |a|it|]|] eqn:Eth; try easy.
        - destruct (tp_stop (pg_it g1)); injection Et as <-; easy.
        - destruct (next p fuel (tp_parent (pg_it g1))). injection Et as <-. easy.
        - injection Et as <-. easy.
        - destruct (full size (tp_buffer (pg_it g1))); [easy|]. injection Et as <-. easy. }
      destruct Hth as (Hth & Hth').
      destruct HI as [(? & ? & ? & ? & Ht)|[(? & ? & k & H)|(_ & _ & H & _)]]; [left|right; left|easy].
      + spl; try easy.
      + spl; try easy. exists k. destruct H as [->|[->|[->|(H & _)]]]; auto. easy.
    - left. cbn [pg_calls pg_cks pg_obs pg_at pg_it]. auto. }
  assert (Eg : s' = (pg_it g, i) /\ treturned g = true).
  { split; [destruct (pg_obs g) as [|[] ?]; congruence|].
    exact (drive_returned _ _ _ _ _ _ _ _ _ Ed). }
  destruct Eg as (-> & Hret). cbn [fst]. unfold treturned in Hret.
  destruct HI as [(Ea & Ec & _)|[(_ & _ & k & H)|(_ & _ & H1 & H2)]]; [| |easy].
  - now rewrite Ea, Ec in Hret.
  - decompose [and or] H; match goal with X : pg_at g = _ |- _ => rewrite X in Hret end; easy.
Qed.

(** In such a state the parent is at the position of the iterator, and another parent state there will do. *)
Lemma stopped_parent s c : trep s c -> tp_thread (fst s) = None -> rep (tp_parent (fst s)) c.
Proof. intros Hr Ht. destruct (trep_run s c Hr) as [H|[fresh H]]; destruct H as (_ & _ & _ & H); rewrite Ht in H; apply H. Qed.
Lemma stopped_with_parent s c ps : trep s c -> tp_thread (fst s) = None -> rep ps c -> trep (with_parent (fst s) ps, snd s) c.
Proof.
  intros (Hc & (c1 & ps1 & fresh & kb & H1 & HG & H2 & H)) Ht Hp. split; [exact Hc|].
  cbn [pg_calls pg_cks pg_obs pg_at pg_it] in *. destruct H as (K1 & K9).
  assert (E : c1 = c).
  { rewrite erase_nexts in K9. cbn [app] in K9. apply cursor_same in K9; [|apply K1|easy|lia]. exact K9. }
  subst c1. exists c, ps1, false, kb. cbn [pg_calls pg_cks pg_obs pg_at pg_it fst]. spl; auto.
  - destruct K1 as (I1 & I2 & I3 & I4). unfold run_ok, with_parent. cbn [tp_parent tp_buffer tp_thread tp_stop tp_state].
    rewrite Ht in *. spl; try easy.
Qed.
End Thread.

Lemma thread_ixlaw {A} size eager sched (p : Indexed A) l r : (eager = true -> (1 <= size)%nat) ->
  ixlawful p l r -> ixlawful (thread_ix size eager sched p) l r.
Proof.
  intros He (N & rep & crep & X). pose proof (settable_law p l r N rep crep X) as LS.
  match type of LS with Law _ _ _ _ _ _ _ ?c => set (crep' := c) in LS end.
  pose proof (new_restartable _ _ _ _ _ _ (thread_law (settable p) l true true N rep crep' LS size eager sched He (fun _ => eq_refl))) as T.
  set (tr := trep (settable p) l true true rep crep' size) in *. set (NT := tbound N size) in *.
  assert (HN : (N <= NT)%nat) by (unfold NT, tbound; lia).
  exists NT, (fun s c => tr (fst s) c /\ (snd s = None \/ snd s = Some (Z.of_nat c))), crep'.
  split.
  - split; cbn [thread_ix ix_it ist ick init next get_state set_state jsonck fst snd].
    + split; [apply (law_init T)|now right].
    + intros s q (Hr & _). apply (law_le T _ _ Hr).
    + intros fuel [s o] q a Hf (Hr & Ho) Ha. cbn [fst snd] in *. destruct (law_next T fuel s q a Hf Hr Ha) as (s' & E & Hr').
      rewrite E. eexists. split; [reflexivity|]. cbn [fst snd]. split; [exact Hr'|].
      destruct Ho as [->| ->]; [now left|right]. cbn. f_equal. lia.
    + intros fuel [s o] Hf F (Hr & Ho). cbn [fst snd] in *. destruct (law_stop T fuel s Hf F Hr) as (s' & E & Hr').
      rewrite E. eexists. split; [reflexivity|]. auto.
    + intros s q (Hr & _). apply (law_get T _ _ Hr).
    + intros c q. apply (law_json T).
    + intros fuel s q Hf (Hr & _) Hv. destruct (law_start T fuel (fst s) q Hf Hr Hv) as (s' & E & Hr'). rewrite E. cbn [bind].
      eexists. split; [reflexivity|]. auto.
    + intros fuel c q Hf Hc Hv. destruct (law_fresh T fuel c q Hf Hc Hv) as (s' & E & Hr'). rewrite E. cbn [bind].
      eexists. split; [reflexivity|]. auto.
    + intros fuel s q0 c q Hf Hu (Hr & _) Hc Hv. destruct (law_used T fuel (fst s) q0 c q Hf Hu Hr Hc Hv) as (s' & E & Hr').
      rewrite E. cbn [bind]. eexists. split; [reflexivity|]. auto.
  - apply (ixl_reach X).
  - intros fuel [s o] q Hf (Hr & Ho). cbn [fst snd] in *. cbn [thread_ix get_index fst snd].
    destruct o as [i|]; [destruct Ho as [Ho|Ho]; [discriminate|]; injection Ho as ->; eexists; split; [reflexivity|]; cbn; auto|].
    destruct (law_used T fuel s q _ q Hf eq_refl Hr (law_get T _ _ Hr)) as (s1 & E & Hr1).
    { pose proof (law_le T _ _ Hr). unfold live. lia. }
    rewrite E. destruct (load_stops (settable p) l true rep crep' size eager sched fuel s s1 _ q Hr E) as (Ht & Hb).
    pose proof (stopped_parent (settable p) l true rep crep' size s1 q Hr1 Ht) as Hp.
    destruct (ixl_get X fuel (tp_parent (fst s1)) q ltac:(lia) Hp) as (ps & -> & Hps).
    eexists. split; [reflexivity|]. cbn [fst snd]. split; [|now right].
    exact (stopped_with_parent (settable p) l true rep crep' size s1 q ps Hr1 Ht Hps).
  - intros fuel [s o] q j Hf (Hr & _) Hj. cbn [fst snd] in *. cbn [thread_ix set_index fst snd].
    destruct (law_used T fuel s q (inr (Z.of_nat j)) j Hf eq_refl Hr) as (s' & E & Hr').
    { now split. }
    { pose proof (ixl_reach X). unfold live. lia. }
    rewrite E. eexists. split; [reflexivity|]. cbn [fst snd]. auto.
Qed.

Lemma indexed_ixlawful {A} (x : Indexed A) l r : indexed x l r -> ixlawful x l r.
Proof.
  induction 1.
  - now apply source_ixlaw.
  - now apply (map_ixlaw f p l l').
  - now apply (counting_ixlaw (fun i e => map_element (f i) e) p l l' r).
  - now apply (counting_ixlaw (fun i e => map_element (fun x => f x (rng (pi + i * pc))) e) p l l' r).
  - now apply (batch_ixlaw b drop batch_fn p l l').
  - now apply limit_ixlaw.
  - now apply thread_ixlaw.
Qed.

Lemma ixlawful_run {A} (x : Indexed A) l r : ixlawful x l r ->
  exists N, forall fuel ops, (N <= fuel)%nat -> sets_within r ops -> irun x fuel ops (init (ix_it x)) [] = icursor l ops 0 [].
Proof.
  intros (N & rep & crep & X). pose proof (ixl_law X) as L. exists N. intros fuel ops Hf.
  assert (H : forall ops s cks q qs, rep s q -> Forall2 crep cks qs -> Forall (fun q => q <= length l)%nat qs -> sets_within r ops ->
    irun x fuel ops s cks = icursor l ops q qs).
  { clear ops. induction ops as [|o ops IH]; intros s cks q qs Hr Hcs Hqs Hs; [easy|].
    assert (Hs' : sets_within r ops) by (intros i Hi; apply Hs; now right).
    pose proof (law_le L _ _ Hr) as Hq.
    destruct o as [[| |i j|]| |i]; cbn [irun icursor].
    - destruct (nth_error l q) as [a|] eqn:Ea.
      + destruct (law_next L fuel s q a Hf Hr Ea) as (s' & -> & Hr'). f_equal. auto.
      + apply nth_error_None in Ea. assert (q = length l) as -> by lia.
        destruct (law_stop L fuel s Hf eq_refl Hr) as (s' & -> & Hr'). f_equal. auto.
    - f_equal. apply IH; auto.
      + apply Forall2_app; [easy|]. constructor; [now apply (law_get L)|constructor].
      + apply Forall_app. split; [easy|]. constructor; [lia|constructor].
    - pose proof (Forall2_nth_None _ _ _ i Hcs) as Hn.
      destruct (nth_error qs i) as [q'|] eqn:Eq.
      + destruct (nth_error cks i) as [c|] eqn:Ec; [|now assert (Some q' = None) by now apply Hn].
        pose proof (Forall2_nth_error _ _ _ _ _ _ Hcs Ec Eq) as Hc.
        assert (Hc' : crep (if j then jsonck (ix_it x) c else c) q') by (destruct j; [now apply (law_json L)|easy]).
        assert (Hq' : (q' <= length l)%nat) by (eapply Forall_forall in Hqs; [exact Hqs|]; eapply nth_error_In; eassumption).
        destruct (law_used L fuel s q _ q' Hf eq_refl Hr Hc') as (s' & -> & Hr'); [unfold live; lia|]. f_equal. auto.
      + destruct (nth_error cks i) as [c|] eqn:Ec; [now assert (Some c = None) by now apply Hn|]. f_equal. auto.
    - f_equal. apply IH; auto. apply (law_init L).
    - destruct (ixl_get X fuel s q Hf Hr) as (s' & -> & Hr'). f_equal. auto.
    - assert (Hi : 0 <= i <= Z.of_nat r) by (apply Hs; now left).
      destruct (ixl_set X fuel s q (Z.to_nat i) Hf Hr ltac:(lia)) as (s' & E & Hr'). rewrite Z2Nat.id in E by lia. rewrite E. f_equal. auto. }
  intros Hs. apply H; auto. apply (law_init L).
Qed.
