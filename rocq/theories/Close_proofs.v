(** Proofs about close. *)
From Verif Require Import Base MapDatasets Iter IterSpec ThreadPrefetch ProcessPrefetch Scheduled Close CloseSpec.

Local Ltac spl := repeat match goal with |- _ /\ _ => split end.

(** ** Predicates on the state that calls keep *)

Definition keeps {A} (it : Iter A) (P : ist it -> Prop) : Prop :=
  forall s, P s -> (forall fuel, P (snd (next it fuel s))) /\ (forall fuel c s', set_state it fuel s c = Ok s' -> P s').
Lemma keeps_next {A} (it : Iter A) P fuel s o s' : keeps it P -> P s -> next it fuel s = (o, s') -> P s'.
Proof. intros K H E. pose proof (proj1 (K s H) fuel) as N. now rewrite E in N. Qed.
Lemma keeps_set {A} (it : Iter A) P fuel s c s' : keeps it P -> P s -> set_state it fuel s c = Ok s' -> P s'.
Proof. intros K H E. exact (proj2 (K s H) fuel c s' E). Qed.

Ltac knext K H := match goal with |- context [next ?p ?f ?s] => let o := fresh "o" in let s' := fresh "s'" in let E := fresh "E" in
  destruct (next p f s) as [o s'] eqn:E; pose proof (keeps_next _ _ _ _ _ _ K H E) end.
Ltac kset K H := match goal with |- context [set_state ?p ?f ?s ?c] => let s' := fresh "s'" in let E := fresh "E" in
  destruct (set_state p f s c) as [s'| |] eqn:E; [pose proof (keeps_set _ _ _ _ _ _ K H E)|discriminate|discriminate] end.

Section Keeps.
Context {A : Type} (p : Iter (option A)) (P : ist p -> Prop) (K : keeps p P).

Lemma map_keeps {B} (f : A -> res (option B)) : keeps (map_it f p) P.
Proof.
  intros s H. split; [|intros fuel c s'; cbn; apply (keeps_set p P fuel s c s' K H)].
  intros fuel. cbn. knext K H. destruct o; exact H0.
Qed.
Lemma mwi_keeps {B} (f : Z -> A -> res (option B)) : keeps (map_with_index_it f p) (fun s => P (fst s)).
Proof.
  intros [s n] H. cbn in H. split.
  - intros fuel. cbn. knext K H. destruct o; cbn; try exact H0. destruct (map_element _ _); exact H0.
  - intros fuel [c m] s'. cbn. kset K H. cbn. intros E'. injection E' as <-. exact H0.
Qed.
Lemma random_keeps {B G} (f : A -> G -> res (option B)) rng pi pc : keeps (random_map_it f rng pi pc p) (fun s => P (fst s)).
Proof.
  intros [s n] H. cbn in H. split.
  - intros fuel. cbn. knext K H. destruct o; cbn; try exact H0. destruct (map_element _ _); exact H0.
  - intros fuel [c m] s'. cbn. kset K H. cbn. intros E'. injection E' as <-. exact H0.
Qed.
End Keeps.

Section Keeps2.
Context {A : Type} (p : Iter A) (P : ist p -> Prop) (K : keeps p P).

Lemma filter_keeps thr f : keeps (filter_it thr f p) (fun s => P (fst s)).
Proof.
  intros s H. split.
  - intros fuel. cbn. revert s H. induction fuel as [|fuel IH]; intros s H; cbn [filter_next]; [exact H|].
    knext K H. destruct o; cbn; try exact H0. destruct (f a); cbn; try exact H0.
    destruct (check thr (snd s) a0) as [c [e|]]; cbn; [exact H0|]. destruct a0; cbn; [exact H0|]. now apply IH.
  - intros fuel c s'. cbn. kset K H. cbn. intros E'. injection E' as <-. exact H0.
Qed.
Lemma batch_keeps {B} n drop (fn : list A -> res B) : keeps (batch_iter n drop fn p) P.
Proof.
  intros s H. split; [|intros fuel c s'; cbn; apply (keeps_set p P fuel s c s' K H)].
  intros fuel. cbn.
  assert (forall n values s, P s -> P (snd (batch_values drop p fuel n values s))) as L.
  { clear s H. induction n0 as [|m IH]; intros values s H; cbn [batch_values]; [exact H|]. knext K H. destruct o; cbn; try exact H0.
    - now apply IH.
    - destruct drop; exact H0. }
  specialize (L (Z.to_nat n) [] s H). destruct (batch_values _ _ _ _ _ _) as [o s'] eqn:E. cbn in L. destruct o; cbn; try exact L. destruct a; exact L.
Qed.
Lemma limit_keeps n : keeps (limit_iter n p) (fun s => P (fst s)).
Proof.
  intros [s m] H. cbn in H. split.
  - intros fuel. cbn. destruct (m >=? n); [exact H|]. knext K H. destruct o; exact H0.
  - intros fuel [c k] s'. cbn. kset K H. cbn. intros E'. injection E' as <-. exact H0.
Qed.
Lemma repeat_loop_keeps n start fuel : forall s e, P s -> P (fst (snd (repeat_loop n p start fuel s e))).
Proof.
  induction fuel as [|fuel IH]; intros s e H; cbn [repeat_loop]; [exact H|]. knext K H. destruct o; cbn; try exact H0.
  destruct (is_last n (e + 1)); [exact H0|]. destruct (set_state p fuel s' start) as [s''| |] eqn:E'; try exact H0.
  apply IH. exact (keeps_set _ _ _ _ _ _ K H0 E').
Qed.
Lemma repeat_keeps n : keeps (repeat_iter n p) (fun s => P (fst s)).
Proof.
  intros [s e] H. cbn in H. split.
  - intros fuel. cbn. destruct (is_last n e); [exact H|]. now apply repeat_loop_keeps.
  - intros fuel [c m] s'. cbn. kset K H. cbn. intros E'. injection E' as <-. exact H0.
Qed.
Lemma flat_keeps {B} (f : A -> res (list B)) : keeps (flat_map_it f p) (fun s => P (fm_parent s)).
Proof.
  intros s H. split.
  - intros fuel. cbn. revert s H. induction fuel as [|fuel IH]; intros s H; cbn [flat_next].
    + destruct (nth_error _ _); exact H.
    + destruct (nth_error _ _); [exact H|]. knext K H. destruct o; cbn; try exact H0. destruct (f a); cbn; try exact H0. now apply IH.
  - intros fuel c s'. cbn. unfold flat_set. kset K H. cbn. knext K H0. destruct o; try discriminate.
    + destruct (f a); try discriminate. cbn. intros E'. injection E' as <-. exact H1.
    + intros E'. injection E' as <-. exact H1.
Qed.
Lemma read_window_keeps fuel n : forall w s w' b s', P s -> read_window p fuel n w s = Ok (w', b, s') -> P s'.
Proof.
  induction n as [|n IH]; intros w s w' b s' H; cbn [read_window]; [intros E; injection E as <- <- <-; exact H|].
  knext K H. destruct o; try discriminate; [apply IH; exact H0|]. intros E'. injection E' as <- <- <-. exact H0.
Qed.
Lemma fill_window_keeps gen_keys w seed fuel s i e w' b s' : P s -> fill_window gen_keys w seed p fuel s i e = Ok (w', b, s') -> P s'.
Proof.
  intros H. unfold fill_window. destruct (read_window p fuel (Z.to_nat w) [] s) as [[[w1 b1] s1]| |] eqn:E; try discriminate. cbn.
  destruct (reshuffle_window _ _ _); try discriminate. cbn. intros E'. injection E' as <- <- <-. eapply read_window_keeps; eassumption.
Qed.
Lemma window_keeps gen_keys w seed : keeps (window_shuffle_it gen_keys w seed p) (fun s => P (ws_parent s)).
Proof.
  intros s H. assert (forall s : ws_st (ist p) (ick p) A, P (ws_parent s) -> P (ws_parent (snd (ws_pop s)))) as L.
  { intros s0 H0. unfold ws_pop. destruct (ws_window s0); exact H0. }
  split.
  - intros fuel. cbn. unfold ws_next. destruct (ws_window s) eqn:Ew; [|now apply L]. destruct (ws_exhausted s); [exact H|].
    destruct (fill_window _ _ _ _ _ _ _ _) as [[[w' b] s']| |] eqn:E; try exact H. apply L. cbn. eapply fill_window_keeps; eassumption.
  - intros fuel [[c i] n] s'. cbn. kset K H. cbn.
    destruct (fill_window _ _ _ _ _ _ _ _) as [[[w' b] s2]| |] eqn:E'; try discriminate. cbn. intros E2. injection E2 as <-. cbn.
    eapply fill_window_keeps; eassumption.
Qed.
Lemma cache_keeps : keeps (cache_it p) (fun s => P (ca_parent s)).
Proof.
  assert (forall fuel (s : ca_st (ist p) A), P (ca_parent s) -> P (ca_parent (snd (cache_fetch p fuel s)))) as L.
  { intros fuel s H. unfold cache_fetch. knext K H. destruct o; exact H0. }
  assert (forall fuel n c s, P s -> P (snd (rebuild p fuel n c s))) as L2.
  { intros fuel. induction n as [|n IH]; intros c s H; cbn [rebuild]; [exact H|]. knext K H. destruct o; cbn; try exact H0. now apply IH. }
  intros s H. split.
  - intros fuel. cbn. unfold cache_next. destruct (ca_filled s); [destruct (nth_error _ _); exact H|]. destruct (ca_rebuild s); [|now apply L].
    destruct (set_state p fuel (ca_parent s) (get_state p (init p))) as [s1| |] eqn:E; try exact H. pose proof (keeps_set _ _ _ _ _ _ K H E) as H1.
    specialize (L2 fuel (ca_pos s) [] s1 H1). destruct (rebuild _ _ _ _ _) as [o s2]. cbn in L2. destruct o; cbn; try exact L2. now apply L.
  - intros fuel [[c n] b] s'. cbn. kset K H. cbn. intros E'. injection E' as <-. exact H0.
Qed.
Lemma retype_keeps {B} (h : A -> B) : keeps (retype h p) P.
Proof.
  intros s H. split; [|intros fuel c s'; cbn; apply (keeps_set p P fuel s c s' K H)]. intros fuel. cbn. knext K H. destruct o; exact H0.
Qed.
End Keeps2.

(** ** Iterators that can be closed *)

Section Reach.
Context {A : Type} (c : Closable A).
Inductive reach : ist (cl_it c) -> Prop :=
| RInit : reach (init (cl_it c))
| RNext fuel s : reach s -> reach (snd (next (cl_it c) fuel s))
| RSet fuel s ck s' : reach s -> set_state (cl_it c) fuel s ck = Ok s' -> reach s'
| RClose s : reach s -> reach (cl_close c s).
Inductive shut : ist (cl_it c) -> Prop :=
| SClose s : reach s -> shut (cl_close c s)
| SNext fuel s : shut s -> shut (snd (next (cl_it c) fuel s))
| SSetS fuel s ck s' : shut s -> set_state (cl_it c) fuel s ck = Ok s' -> shut s'.
Lemma reach_keeps : keeps (cl_it c) reach.
Proof. intros s H. split; intros; [now constructor|eapply RSet; eassumption]. Qed.
Lemma shut_keeps : keeps (cl_it c) shut.
Proof. intros s H. split; intros; [now constructor|eapply SSetS; eassumption]. Qed.
Lemma shut_reach s : shut s -> reach s.
Proof. induction 1; [now apply RClose|now apply RNext|eapply RSet; eassumption]. Qed.
Lemma shut_close s : shut s -> shut (cl_close c s).
Proof. intros H. apply SClose. now apply shut_reach. Qed.

(** What next may do after close. *)
Definition reacts (r : reaction) (n fuel : nat) (o : out A) : Prop :=
  (r <> Goes_on -> forall a, o <> Yield a) /\ (r = Raises -> (n <= fuel)%nat -> o = Fail ValueError).
Definition good (r : reaction) (n : nat) : Prop :=
  forall s, shut s -> cl_running c s = 0%nat /\ forall fuel, reacts r n fuel (fst (next (cl_it c) fuel s)).
End Reach.

Lemma base_reach {A} (it : Iter A) cp run (P Q : ist it -> Prop) :
  keeps it P -> keeps it Q -> P (init it) -> (forall s, P s -> Q (cp s)) -> (forall s, Q s -> P s) ->
  (forall x, reach (base it cp run) x -> P (fst x) /\ (snd x = true -> Q (fst x))) /\
  (forall x, shut (base it cp run) x -> snd x = true /\ Q (fst x)).
Proof.
  intros KP KQ I C QP.
  assert (forall x, reach (base it cp run) x -> P (fst x) /\ (snd x = true -> Q (fst x))) as R.
  { induction 1 as [|fuel [s b] H IH|fuel [s b] ck [s' b'] H IH E|[s b] H IH]; cbn in *.
    - split; [exact I|discriminate].
    - destruct IH as [IP IQ]. destruct (next it fuel s) as [o s'] eqn:E. cbn. split; [exact (keeps_next _ _ _ _ _ _ KP IP E)|].
      intros Hb. exact (keeps_next _ _ _ _ _ _ KQ (IQ Hb) E).
    - destruct IH as [IP IQ]. destruct (set_state it fuel s ck) as [s1| |] eqn:E1; try discriminate. cbn in E. injection E as <- <-.
      split; [exact (keeps_set _ _ _ _ _ _ KP IP E1)|]. intros Hb. exact (keeps_set _ _ _ _ _ _ KQ (IQ Hb) E1).
    - destruct IH as [IP IQ]. destruct b; cbn; [split; assumption|]. split; [apply QP|intros _]; now apply C. }
  split; [exact R|].
  induction 1 as [[s b] H|fuel [s b] H IH|fuel [s b] ck [s' b'] H IH E]; cbn in *.
  - apply R in H. cbn in H. destruct H as [IP IQ]. destruct b; cbn; split; auto.
  - destruct IH as [-> IQ]. destruct (next it fuel s) as [o s'] eqn:E. cbn. split; [reflexivity|]. exact (keeps_next _ _ _ _ _ _ KQ IQ E).
  - destruct IH as [-> IQ]. destruct (set_state it fuel s ck) as [s1| |] eqn:E1; try discriminate. cbn in E. injection E as <- <-.
    split; [reflexivity|]. exact (keeps_set _ _ _ _ _ _ KQ IQ E1).
Qed.
Lemma base_good {A} (it : Iter A) cp run (P Q : ist it -> Prop) r n :
  keeps it P -> keeps it Q -> P (init it) -> (forall s, P s -> Q (cp s)) -> (forall s, Q s -> P s) ->
  (forall s, Q s -> run s = 0%nat /\ forall fuel, reacts r n fuel (fst (next it fuel s))) ->
  good (base it cp run) r n.
Proof.
  intros KP KQ I C QP H x Hx. destruct (base_reach it cp run P Q KP KQ I C QP) as [_ S]. destruct (S x Hx) as [Hb HQ].
  destruct x as [s b]. cbn in *. destruct (H s HQ) as [H1 H2]. split; [exact H1|]. intros fuel. specialize (H2 fuel).
  destruct (next it fuel s); exact H2.
Qed.

Lemma reacts_goes_on {A} n fuel (o : out A) : reacts Goes_on n fuel o.
Proof. split; [congruence|discriminate]. Qed.
Lemma reacts_not_yield {A} r n fuel (o : out A) : r <> Raises -> (forall a, o <> Yield a) -> reacts r n fuel o.
Proof. intros H N. split; [intros _; exact N|congruence]. Qed.
(** An outcome made from the parent's by a function that keeps what is not an element. *)
Lemma reacts_via {A B} r n fuel (o : out A) (o' : out B) : reacts r n fuel o ->
  match o with Yield _ => True | Stop => o' = Stop | Fail e => o' = Fail e | NoFuel => o' = NoFuel end -> reacts r n fuel o'.
Proof.
  intros [H1 H2] E. split.
  - intros Hr. specialize (H1 Hr). destruct o; subst; try discriminate. now elim (H1 a).
  - intros Hr Hn. rewrite (H2 Hr Hn) in E. exact E.
Qed.

(** Several parents. *)
Fixpoint hall {A} (Q : forall c : Closable A, ist (cl_it c) -> Prop) (cs : list (Closable A)) : hst (map cl_it cs) -> Prop :=
  match cs with [] => fun _ => True | c :: cs => fun s => Q c (fst s) /\ hall Q cs (snd s) end.
Lemma hinit_all {A} (Q : forall c : Closable A, ist (cl_it c) -> Prop) cs : (forall c, Q c (init (cl_it c))) -> hall Q cs (hinit (map cl_it cs)).
Proof. intros H. induction cs; cbn; auto. Qed.
Lemma hset_all {A} (Q : forall c : Closable A, ist (cl_it c) -> Prop) : (forall c, keeps (cl_it c) (Q c)) ->
  forall cs fuel s ck s', hall Q cs s -> hset (map cl_it cs) fuel s ck = Ok s' -> hall Q cs s'.
Proof.
  intros K. induction cs as [|c cs IH]; intros fuel s ck s' H; cbn in *; [trivial|]. destruct s as [s1 s2], ck as [c1 c2]. cbn in *. destruct H as [H1 H2].
  destruct (set_state (cl_it c) fuel s1 c1) as [s1'| |] eqn:E1; try discriminate. cbn.
  destruct (hset (map cl_it cs) fuel s2 c2) as [s2'| |] eqn:E2; try discriminate. cbn. intros E. injection E as <-. cbn.
  split; [exact (keeps_set _ _ _ _ _ _ (K c) H1 E1)|]. eapply IH; eassumption.
Qed.
Lemma hnext_all {A} (Q : forall c : Closable A, ist (cl_it c) -> Prop) : (forall c, keeps (cl_it c) (Q c)) ->
  forall cs fuel i s, hall Q cs s -> hall Q cs (snd (hnext (map cl_it cs) fuel i s)).
Proof.
  intros K. induction cs as [|c cs IH]; intros fuel i s H; cbn in *; [trivial|]. destruct s as [s1 s2]. cbn in *. destruct H as [H1 H2].
  destruct i as [|i].
  - destruct (next (cl_it c) fuel s1) as [o s1'] eqn:E. cbn. split; [exact (keeps_next _ _ _ _ _ _ (K c) H1 E)|exact H2].
  - specialize (IH fuel i s2 H2). destruct (hnext _ _ _ _) as [o s2']. cbn in *. split; assumption.
Qed.
Lemma zip_check_all {A} (Q : forall c : Closable A, ist (cl_it c) -> Prop) : (forall c, keeps (cl_it c) (Q c)) ->
  forall cs fuel s, hall Q cs s -> hall Q cs (snd (zip_check_stopped (map cl_it cs) fuel s)).
Proof.
  intros K. induction cs as [|c cs IH]; intros fuel s H; cbn in *; [trivial|]. destruct s as [s1 s2]. cbn in *. destruct H as [H1 H2].
  destruct (next (cl_it c) fuel s1) as [o s1'] eqn:E. pose proof (keeps_next _ _ _ _ _ _ (K c) H1 E).
  destruct o; cbn; try (split; assumption). specialize (IH fuel s2 H2). destruct (zip_check_stopped _ _ _). cbn in *. split; assumption.
Qed.
Lemma zip_pull_all {A} (Q : forall c : Closable A, ist (cl_it c) -> Prop) strict : (forall c, keeps (cl_it c) (Q c)) ->
  forall cs first fuel s, hall Q cs s -> hall Q cs (snd (zip_pull strict first (map cl_it cs) fuel s)).
Proof.
  intros K. induction cs as [|c cs IH]; intros first fuel s H; cbn in *; [trivial|]. destruct s as [s1 s2]. cbn in *. destruct H as [H1 H2].
  destruct (next (cl_it c) fuel s1) as [o s1'] eqn:E. pose proof (keeps_next _ _ _ _ _ _ (K c) H1 E).
  destruct o; cbn; try (split; assumption).
  - specialize (IH false fuel s2 H2). destruct (zip_pull _ _ _ _ _). cbn in *. split; assumption.
  - destruct strict; [|split; assumption]. destruct first; [|split; assumption].
    pose proof (zip_check_all Q K cs fuel s2 H2) as L. destruct (zip_check_stopped _ _ _). cbn in *. split; assumption.
Qed.
Lemma zip_keeps {A} (Q : forall c : Closable A, ist (cl_it c) -> Prop) strict cs : (forall c, keeps (cl_it c) (Q c)) ->
  keeps (zip_iter strict (map cl_it cs)) (hall Q cs).
Proof. intros K s H. split; intros; [now apply zip_pull_all|]. cbn in H0. eapply hset_all; eassumption. Qed.
Lemma mixed_keeps {A} (Q : forall c : Closable A, ist (cl_it c) -> Prop) props cs : (forall c, keeps (cl_it c) (Q c)) ->
  keeps (mixed_iter props (map cl_it cs)) (fun s => hall Q cs (fst (fst s))).
Proof.
  intros K [[s i] b] H. cbn in H. split.
  - intros fuel. cbn. destruct b; [exact H|]. destruct (dataset_and_key i props) as [[k j]| |]; cbn; try exact H.
    pose proof (hnext_all Q K cs fuel (Z.to_nat k) s H) as L. destruct (hnext _ _ _ _) as [o s']. cbn in L. destruct o; exact L.
  - intros fuel [[ck j] b'] s'. cbn. destruct (hset _ _ _ _) as [s1| |] eqn:E; try discriminate. cbn. intros E'. injection E' as <-. cbn.
    eapply hset_all; eassumption.
Qed.
Lemma hclose_all {A} (cs : list (Closable A)) s : hall reach cs s -> hall shut cs (hclose cs s).
Proof. induction cs as [|c cs IH]; cbn; [trivial|]. intros [H1 H2]. split; [now apply SClose|now apply IH]. Qed.
Lemma hshut_reach {A} (cs : list (Closable A)) s : hall shut cs s -> hall reach cs s.
Proof. induction cs as [|c cs IH]; cbn; [trivial|]. intros [H1 H2]. split; [now apply shut_reach|now apply IH]. Qed.
Lemma hrunning_zero {A} (cs : list (Closable A)) s :
  Forall (fun c => forall s, shut c s -> cl_running c s = 0%nat) cs -> hall shut cs s -> hrunning cs s = 0%nat.
Proof. intros F. induction F as [|c cs Hc F IH]; cbn; [trivial|]. intros [H1 H2]. now rewrite Hc, IH. Qed.
Lemma hnext_silent {A} (cs : list (Closable A)) :
  Forall (fun c => forall s, shut c s -> forall fuel a, fst (next (cl_it c) fuel s) <> Yield a) cs ->
  forall fuel i s, hall shut cs s -> forall a, fst (hnext (map cl_it cs) fuel i s) <> Yield a.
Proof.
  intros F. induction F as [|c cs Hc F IH]; intros fuel i s H a; cbn in *; [discriminate|]. destruct s as [s1 s2]. cbn in *. destruct H as [H1 H2].
  destruct i as [|i].
  - specialize (Hc s1 H1 fuel a). destruct (next (cl_it c) fuel s1). exact Hc.
  - specialize (IH fuel i s2 H2 a). destruct (hnext _ _ _ _). exact IH.
Qed.

(** ** The iterator of a MapDataset *)

Lemma prefetch_good {A} thr an nt bs (ds : MapDs A) n : good (prefetch_cl thr an nt bs ds) Raises n.
Proof.
  assert (forall x, shut (prefetch_cl thr an nt bs ds) x -> snd x = true) as S.
  { induction 1 as [[s b] H|fuel [s b] H IH|fuel [s b] ck [s' b'] H IH E]; cbn in *.
    - destruct b; reflexivity.
    - now subst.
    - subst. match type of E with bind ?x _ = _ => destruct x end; try discriminate. cbn in E. now injection E. }
  intros [s b] Hx. apply S in Hx. cbn in Hx. subst b. cbn. split; [reflexivity|]. intros fuel. split; [discriminate|reflexivity].
Qed.

(** ** Prefetching threads *)

Lemma drive_inv {G} (consumer : nat -> G -> option G) worker returned sched (P : G -> Prop) :
  (forall k g g', P g -> consumer k g = Some g' -> P g') -> (forall g g', P g -> worker g = Some g' -> P g') ->
  forall fuel i g j g', P g -> drive consumer worker returned sched fuel i g = Some (j, g') -> P g'.
Proof.
  intros HC HW. induction fuel as [|fuel IH]; intros i g j g' H; cbn [drive]; [discriminate|].
  destruct (returned g); [intros E; injection E as <- <-; exact H|]. destruct (sched i) as [first k].
  match goal with |- context [match ?x with Some g' => _ | None => None end] => destruct x as [g1|] eqn:E end; [|discriminate].
  intros E'. eapply IH; [|exact E']. destruct first.
  - destruct (consumer k g) eqn:E1; [injection E as <-; eapply HC; eassumption|eapply HW; eassumption].
  - destruct (worker g) eqn:E1; [injection E as <-; eapply HW; eassumption|eapply HC; eassumption].
Qed.

Section Thread.
Context {A : Type} (p : Iter A) (P : ist p -> Prop) (K : keeps p P) (Pi : P (init p)).

Lemma producer_parent fuel size s s' : P (tp_parent s) -> producer_step p fuel size s = Some s' -> P (tp_parent s').
Proof.
  intros H. unfold producer_step. destruct (tp_thread s) as [[| |a|i|]|]; try discriminate.
  - destruct (tp_stop s); intros E; injection E as <-; exact H.
  - knext K H. intros E'. injection E' as <-. exact H0.
  - intros E; injection E as <-; exact H.
  - destruct (full size (tp_buffer s)); [discriminate|]. intros E; injection E as <-; exact H.
Qed.
Lemma consumer_parent fuel size g g' : P (tp_parent (pg_it g)) -> consumer_step p fuel size g = Some g' -> P (tp_parent (pg_it g')).
Proof.
  intros H. assert (P (tp_parent (start (pg_it g)))) as Hs by (unfold start; destruct (tp_thread (pg_it g)); exact H).
  unfold consumer_step. destruct (pg_at g) as [| | |a|k|k|k|k|k]; cbv beta zeta.
  - destruct (pg_calls g) as [|[[| |k json|]|] calls]; try discriminate.
    + destruct (Nat.ltb 0 size); [intros E; injection E as <-; exact Hs|]. destruct (tp_buffer (pg_it g)); intros E; injection E as <-; exact H.
    + intros E; injection E as <-; exact H.
    + destruct (nth_error (pg_cks g) k); intros E; injection E as <-; exact H.
    + intros E; injection E as <-; exact Pi.
    + intros E; injection E as <-; exact Hs.
  - destruct (tp_buffer (pg_it g)) as [|[a c|o] b]; [discriminate| |]; intros E; injection E as <-; exact H.
  - knext K H. destruct o; intros E'; injection E' as <-; exact H0.
  - intros E; injection E as <-; exact H.
  - intros E; injection E as <-; exact H.
  - destruct (tp_buffer (pg_it g)); intros E; injection E as <-; exact H.
  - destruct (tp_thread (pg_it g)) as [[| | | |]|]; try discriminate. intros E; injection E as <-; exact H.
  - destruct (tp_buffer (pg_it g)); intros E; injection E as <-; exact H.
  - destruct k as [o|c]; [intros E; injection E as <-; exact H|].
    destruct (set_state p fuel (tp_parent (pg_it g)) c) eqn:E; intros E'; injection E' as <-; cbn; try exact H. exact (keeps_set _ _ _ _ _ _ K H E).
Qed.
Lemma tdrive_parent size sched fuel i g j g' : P (tp_parent (pg_it g)) -> tdrive p size sched fuel i g = Some (j, g') -> P (tp_parent (pg_it g')).
Proof.
  intros H E. unfold tdrive in E. revert H E.
  apply (drive_inv _ _ _ _ (fun g => P (tp_parent (pg_it g)))).
  - intros _. apply consumer_parent.
  - intros g0 g1 H. destruct (producer_step p fuel size (pg_it g0)) eqn:E; [|discriminate]. intros E'. injection E' as <-. cbn.
    eapply producer_parent; eassumption.
Qed.
Lemma thread_keeps size eager sched : keeps (thread_prefetch_it size eager sched p) (fun s => P (tp_parent (fst s))).
Proof.
  intros s H. split.
  - intros fuel. cbn. destruct (tdrive _ _ _ _ _ _) as [[i g]|] eqn:E; [|exact H]. apply tdrive_parent in E; [|exact H].
    destruct (pg_obs g) as [|[o| | | | |] l]; try exact H. exact E.
  - intros fuel c s'. cbn. destruct (tdrive _ _ _ _ _ _) as [[i g]|] eqn:E; [|discriminate]. apply tdrive_parent in E; [|exact H].
    destruct (pg_obs g) as [|[o| | | | |] l]; try discriminate. intros E'. injection E' as <-. exact E.
Qed.
End Thread.

(** set_state after close does not start the thread again. *)
Lemma thread_stays {A} (p : Iter A) (P : ist p -> Prop) size eager sched fuel s c s' : keeps p P ->
  tp_thread (fst s) = None -> P (tp_parent (fst s)) ->
  set_state (thread_prefetch_it size eager sched p) fuel s c = Ok s' -> tp_thread (fst s') = None /\ P (tp_parent (fst s')).
Proof.
  intros K H HP. cbn. destruct (tdrive _ _ _ _ _ _) as [[i g]|] eqn:E; [|discriminate].
  set (Inv := fun g : prog p => (tp_thread (pg_it g) = None /\ P (tp_parent (pg_it g))) /\
    match pg_at g with Idle => pg_calls g = [] \/ pg_calls g = [Do (OLoad 0 false)] | SDone _ => pg_calls g = [] | _ => False end).
  assert (Inv g) as [Hg _].
  { unfold tdrive in E. eapply (drive_inv _ _ _ _ Inv); [| | |exact E].
    - intros _ g0 g1 [[T T'] At]. unfold consumer_step. destruct (pg_at g0) as [| | |a|k|k|k|k|k]; try (now elim At).
      + destruct At as [->| ->]; [discriminate|]. destruct (nth_error (pg_cks g0) 0); intros E'; injection E' as <-; split; cbn; auto.
        unfold stopping. now rewrite T.
      + destruct k as [o|c0]; [intros E'; injection E' as <-; split; cbn; auto|].
        destruct (set_state _ _ _ _) eqn:Es; intros E'; injection E' as <-; split; cbn; auto. split; [exact T|].
        exact (keeps_set _ _ _ _ _ _ K T' Es).
    - intros g0 g1 [[T T'] At]. unfold producer_step. rewrite T. discriminate.
    - split; [split; assumption|]. now right. }
  destruct (pg_obs g) as [|[o| | | | |] l]; try discriminate. intros E'. injection E' as <-. exact Hg.
Qed.
Lemma thread_good {A} size eager sched (c : Closable A) r n m : good c r n -> good (thread_cl size eager sched c) Raises m.
Proof.
  intros G.
  assert (forall x, reach (thread_cl size eager sched c) x -> reach c (tp_parent (fst (fst x)))) as R.
  { pose proof (thread_keeps (cl_it c) (reach c) (reach_keeps c) (RInit c) (S size) eager sched) as KT.
    induction 1 as [|fuel [s b] H IH|fuel [s b] ck [s' b'] H IH E|[[s k] b] H IH].
    - cbn. destruct eager; apply RInit.
    - cbn [fst] in IH. destruct b; [exact IH|].
      pose proof (proj1 (KT s IH) fuel) as L. cbn [next thread_cl cl_it]. destruct (next (thread_prefetch_it _ _ _ _) fuel s). exact L.
    - cbn [fst] in *. cbn [set_state thread_cl cl_it] in E. destruct (set_state (thread_prefetch_it _ _ _ _) fuel s ck) eqn:E'; try discriminate.
      cbn [bind] in E. injection E as <- <-. exact (proj2 (KT s IH) fuel ck _ E').
    - cbn in *. unfold stopped. destruct (tp_thread s); cbn; now apply RClose. }
  assert (forall x, shut (thread_cl size eager sched c) x -> snd x = true /\ tp_thread (fst (fst x)) = None /\ shut c (tp_parent (fst (fst x)))) as S.
  { induction 1 as [[[s k] b] H|fuel [s b] H IH|fuel [s b] ck [s' b'] H IH E].
    - apply R in H. cbn in *. unfold stopped. destruct (tp_thread s) eqn:E; cbn; spl; auto; now apply SClose.
    - cbn [fst snd] in IH. destruct IH as (-> & H1 & H2). cbn. auto.
    - cbn [fst snd] in *. destruct IH as (-> & H1 & H2). cbn [set_state thread_cl cl_it] in E.
      destruct (set_state (thread_prefetch_it _ _ _ _) fuel s ck) eqn:E'; try discriminate. cbn [bind] in E. injection E as <- <-.
      apply (thread_stays _ (shut c) _ _ _ _ _ _ _ (shut_keeps c) H1 H2) in E'. now split. }
  intros [[s k] b] Hx. apply S in Hx. cbn in Hx. destruct Hx as (-> & H1 & H2). cbn. rewrite H1. split; [apply G; exact H2|].
  intros fuel. split; [discriminate|reflexivity].
Qed.

(** ** Worker processes *)

Lemma process_stays {A} (p : Iter A) size keep sched fuel s c s' :
  pp_worker (fst s) = None -> set_state (process_prefetch_it size keep sched p) fuel s c = Ok s' -> pp_worker (fst s') = None.
Proof.
  intros H. cbn. destruct (pdrive _ _ _ _ _ _ _) as [[i g]|] eqn:E; [|discriminate].
  set (Inv := fun g : pprog p => pp_worker (pq_it g) = None /\
    match pq_at g with
    | PIdle => pq_calls g = [] \/ pq_calls g = [Do (OLoad 0 false)]
    | PSetClear _ | PSetPut _ | PSetCount => pq_calls g = []
    | _ => False
    end).
  assert (Inv g) as [Hg _].
  { unfold pdrive in E. eapply (drive_inv _ _ _ _ Inv); [| | |exact E].
    - intros k g0 g1 [T At]. unfold pconsumer_step. destruct (pq_at g0) as [| |o|o|o|c0|c0|]; try (now elim At).
      + destruct At as [->| ->]; [discriminate|]. destruct (nth_error (pq_cks g0) 0); intros E'; injection E' as <-; split; cbn; auto.
      + intros E'; injection E' as <-; split; cbn; auto.
      + destruct (Nat.leb 5 _); [discriminate|]. intros E'; injection E' as <-; split; cbn; auto.
      + intros E'; injection E' as <-; split; cbn; auto.
    - intros g0 g1 [T At]. unfold worker_step. rewrite T. discriminate.
    - split; [assumption|]. now right. }
  destruct (pq_obs g) as [|[o| | | | |] l]; try discriminate. intros E'. injection E' as <-. exact Hg.
Qed.
Lemma process_good {A} size keep sched (p : Iter A) m : good (process_cl size keep sched p) Silent m.
Proof.
  assert (forall x, shut (process_cl size keep sched p) x -> snd x = true /\ pp_worker (fst (fst x)) = None) as S.
  { induction 1 as [[[s k] b] H|fuel [s b] H IH|fuel [s b] ck [s' b'] H IH E].
    - cbn in *. unfold pstopped. destruct (pp_worker s) eqn:E; cbn; auto.
    - cbn [fst snd] in IH. destruct IH as (-> & H1). cbn. destruct (pp_exhausted (fst s)); cbn; auto.
    - cbn [fst snd] in *. destruct IH as (-> & H1). cbn [set_state process_cl cl_it] in E.
      destruct (set_state (process_prefetch_it _ _ _ _) fuel s ck) eqn:E'; try discriminate. cbn [bind] in E. injection E as <- <-.
      split; [reflexivity|]. eapply process_stays; eassumption. }
  intros [[s k] b] Hx. apply S in Hx. cbn in Hx. destruct Hx as (-> & H1). cbn. rewrite H1. split; [reflexivity|].
  intros fuel. apply reacts_not_yield; [discriminate|]. intros a. destruct (pp_exhausted s); discriminate.
Qed.

(** ** Every pipeline *)

Section CInd.
Context {A : Type} (P : cpipe A -> Prop).
Hypothesis HSource : forall thr an nt bs ds, P (CSource thr an nt bs ds).
Hypothesis HUser : forall it, P (CUser it).
Hypothesis HMap : forall f p, P p -> P (CMap f p).
Hypothesis HIdx : forall f p, P p -> P (CMapWithIndex f p).
Hypothesis HRandom : forall f rng pi pc p, P p -> P (CRandomMap f rng pi pc p).
Hypothesis HFilter : forall thr f p, P p -> P (CFilter thr f p).
Hypothesis HBatch : forall n d f p, P p -> P (CBatch n d f p).
Hypothesis HLimit : forall n p, P p -> P (CLimit n p).
Hypothesis HRepeat : forall n p, P p -> P (CRepeat n p).
Hypothesis HWindow : forall w s p, P p -> P (CWindowShuffle w s p).
Hypothesis HCache : forall p, P p -> P (CCache p).
Hypothesis HFlat : forall f p, P p -> P (CFlatMap f p).
Hypothesis HZip : forall b ps, Forall P ps -> P (CZip b ps).
Hypothesis HMix : forall props ps, Forall P ps -> P (CMix props ps).
Hypothesis HThread : forall s e sc p, P p -> P (CThread s e sc p).
Hypothesis HProcess : forall s e sc p, P p -> P (CProcess s e sc p).
Fixpoint cpipe_all (p : cpipe A) : P p :=
  let many := fix many (ps : list (cpipe A)) : Forall P ps :=
    match ps with [] => Forall_nil _ | p :: ps => Forall_cons _ (cpipe_all p) (many ps) end in
  match p with
  | CSource thr an nt bs ds => HSource thr an nt bs ds
  | CUser it => HUser it
  | CMap f p => HMap f p (cpipe_all p)
  | CMapWithIndex f p => HIdx f p (cpipe_all p)
  | CRandomMap f rng pi pc p => HRandom f rng pi pc p (cpipe_all p)
  | CFilter thr f p => HFilter thr f p (cpipe_all p)
  | CBatch n d f p => HBatch n d f p (cpipe_all p)
  | CLimit n p => HLimit n p (cpipe_all p)
  | CRepeat n p => HRepeat n p (cpipe_all p)
  | CWindowShuffle w s p => HWindow w s p (cpipe_all p)
  | CCache p => HCache p (cpipe_all p)
  | CFlatMap f p => HFlat f p (cpipe_all p)
  | CZip b ps => HZip b ps (many ps)
  | CMix props ps => HMix props ps (many ps)
  | CThread s e sc p => HThread s e sc p (cpipe_all p)
  | CProcess s e sc p => HProcess s e sc p (cpipe_all p)
  end.
End CInd.

Lemma sequence_forall {A B} (f : A -> res B) (Q : A -> B -> Prop) : forall l l',
  Forall (fun a => forall b, f a = Ok b -> Q a b) l -> sequence (map f l) = Ok l' -> Forall2 Q l l'.
Proof.
  induction l as [|a l IH]; intros l' F; cbn; [intros E; injection E as <-; constructor|]. inversion F; subst.
  destruct (f a) eqn:Ea; try discriminate. cbn. destruct (sequence (map f l)) eqn:El; try discriminate. cbn. intros E. injection E as <-.
  constructor; [now apply H1|]. now apply IH.
Qed.

Lemma good_running {A} (c : Closable A) r n : good c r n -> forall s, shut c s -> cl_running c s = 0%nat.
Proof. intros G s H. apply (G s H). Qed.
Lemma good_silent {A} (c : Closable A) r n : good c r n -> r <> Goes_on -> forall s, shut c s -> forall fuel a, fst (next (cl_it c) fuel s) <> Yield a.
Proof. intros G Hr s H fuel a. destruct (G s H) as [_ L]. now apply (proj1 (L fuel)). Qed.

Theorem cden_good {A} gen_keys tuple_of (p : cpipe A) : forall c, cden gen_keys tuple_of p = Ok c -> good c (reaction_of p) (loops p).
Proof.
  induction p using cpipe_all; intros c; cbn [cden reaction_of loops].
  - intros E. injection E as <-. apply prefetch_good.
  - intros E. injection E as <-. unfold source_cl.
    apply (base_good it (fun s => s) (fun _ => 0%nat) (fun _ => True) (fun _ => True)); try (intros; auto); try (split; auto).
    intros. apply reacts_goes_on.
  - destruct (cden gen_keys tuple_of p) as [q| |]; try discriminate. specialize (IHp q eq_refl). cbn. intros E. injection E as <-.
    apply (base_good (map_it f (cl_it q)) (cl_close q) (cl_running q) (reach q) (shut q));
      [apply map_keeps, reach_keeps|apply map_keeps, shut_keeps|apply RInit|apply SClose|apply shut_reach|].
    intros s H. destruct (IHp s H) as [H1 H2]. split; [exact H1|]. intros fuel. specialize (H2 fuel). cbn.
    destruct (next (cl_it q) fuel s) as [o s']. cbn in H2. eapply reacts_via; [exact H2|]. destruct o; reflexivity || exact I.
  - destruct (cden gen_keys tuple_of p) as [q| |]; try discriminate. specialize (IHp q eq_refl). cbn. intros E. injection E as <-.
    apply (base_good (map_with_index_it f (cl_it q)) _ _ (fun s => reach q (fst s)) (fun s => shut q (fst s)));
      [apply mwi_keeps, reach_keeps|apply mwi_keeps, shut_keeps|apply RInit|intros; now apply SClose|intros; now apply shut_reach|].
    intros [s n] H. cbn in H. destruct (IHp s H) as [H1 H2]. split; [exact H1|]. intros fuel. specialize (H2 fuel). cbn.
    destruct (next (cl_it q) fuel s) as [o s']. cbn in H2. eapply reacts_via; [exact H2|]. destruct o; reflexivity || exact I.
  - destruct (cden gen_keys tuple_of p) as [q| |]; try discriminate. specialize (IHp q eq_refl). cbn. intros E. injection E as <-.
    apply (base_good (random_map_it f rng pi pc (cl_it q)) _ _ (fun s => reach q (fst s)) (fun s => shut q (fst s)));
      [apply random_keeps, reach_keeps|apply random_keeps, shut_keeps|apply RInit|intros; now apply SClose|intros; now apply shut_reach|].
    intros [s n] H. cbn in H. destruct (IHp s H) as [H1 H2]. split; [exact H1|]. intros fuel. specialize (H2 fuel). cbn.
    destruct (next (cl_it q) fuel s) as [o s']. cbn in H2. eapply reacts_via; [exact H2|]. destruct o; reflexivity || exact I.
  - destruct (cden gen_keys tuple_of p) as [q| |]; try discriminate. specialize (IHp q eq_refl). cbn. intros E. injection E as <-.
    apply (base_good (filter_it thr f (cl_it q)) _ _ (fun s => reach q (fst s)) (fun s => shut q (fst s)));
      [apply filter_keeps, reach_keeps|apply filter_keeps, shut_keeps|apply RInit|intros; now apply SClose|intros; now apply shut_reach|].
    intros s H. split; [now apply (IHp _ H)|]. intros fuel. cbn [next filter_it]. revert s H. induction fuel as [|fuel IH]; intros s H.
    + split; cbn; [discriminate|lia].
    + cbn [filter_next]. destruct (IHp _ H) as [_ H2]. specialize (H2 fuel). destruct (next (cl_it q) fuel (fst s)) as [o s'] eqn:E.
      cbn in H2. assert (shut q s') as H' by exact (keeps_next _ _ _ _ _ _ (shut_keeps q) H E).
      destruct H2 as [N V]. split.
      * intros Hr. specialize (N Hr). destruct o; cbn; try discriminate. now elim (N a).
      * intros Hr Hn. rewrite (V Hr) by lia. reflexivity.
  - destruct (cden gen_keys tuple_of p) as [q| |]; try discriminate. specialize (IHp q eq_refl). cbn. destruct (n <=? 0) eqn:Hn; [discriminate|].
    intros E. injection E as <-.
    apply (base_good (batch_iter n d f (cl_it q)) (cl_close q) (cl_running q) (reach q) (shut q));
      [apply batch_keeps, reach_keeps|apply batch_keeps, shut_keeps|apply RInit|apply SClose|apply shut_reach|].
    intros s H. destruct (IHp s H) as [H1 H2]. split; [exact H1|]. intros fuel. specialize (H2 fuel). cbn.
    destruct (Z.to_nat n) as [|m] eqn:Em; [apply Z.leb_gt in Hn; lia|]. cbn [batch_values].
    destruct (next (cl_it q) fuel s) as [o s']. cbn in H2.
    destruct H2 as [N V]. split.
    + intros Hr. specialize (N Hr). destruct o; cbn; try discriminate; [now elim (N a)|]. destruct d; cbn; discriminate.
    + intros Hr Hl. rewrite (V Hr Hl). reflexivity.
  - destruct (cden gen_keys tuple_of p) as [q| |]; try discriminate. specialize (IHp q eq_refl). cbn. destruct (n <=? 0); [discriminate|].
    intros E. injection E as <-.
    apply (base_good (limit_iter n (cl_it q)) _ _ (fun s => reach q (fst s)) (fun s => shut q (fst s)));
      [apply limit_keeps, reach_keeps|apply limit_keeps, shut_keeps|apply RInit|intros; now apply SClose|intros; now apply shut_reach|].
    intros [s m] H. cbn in H. destruct (IHp s H) as [H1 H2]. split; [exact H1|]. intros fuel. specialize (H2 fuel). cbn.
    destruct (reaction_of p); cbn; try apply reacts_goes_on; apply reacts_not_yield; try discriminate; intros a; destruct (m >=? n); try discriminate;
      destruct (next (cl_it q) fuel s) as [o s']; cbn in H2; destruct H2 as [N _]; specialize (N ltac:(discriminate)); destruct o; cbn; try discriminate; now elim (N a0).
  - destruct (cden gen_keys tuple_of p) as [q| |]; try discriminate. specialize (IHp q eq_refl). cbn.
    destruct (match n with None => false | Some n => n <=? 0 end); [discriminate|].
    intros E. injection E as <-.
    apply (base_good (repeat_iter n (cl_it q)) _ _ (fun s => reach q (fst s)) (fun s => shut q (fst s)));
      [apply repeat_keeps, reach_keeps|apply repeat_keeps, shut_keeps|apply RInit|intros; now apply SClose|intros; now apply shut_reach|].
    intros [s m] H. cbn in H. destruct (IHp s H) as [H1 _]. split; [exact H1|]. intros fuel. cbn.
    assert (reaction_of p <> Goes_on -> forall start fuel s e, shut q s -> forall a, fst (repeat_loop n (cl_it q) start fuel s e) <> Yield a) as L.
    { intros Hr start. clear s m H H1 fuel. induction fuel as [|fuel IH]; intros s e H a; cbn [repeat_loop]; [discriminate|].
      pose proof (good_silent _ _ _ IHp Hr s H fuel) as N. destruct (next (cl_it q) fuel s) as [o s'] eqn:E. cbn in N.
      assert (shut q s') as H' by exact (keeps_next _ _ _ _ _ _ (shut_keeps q) H E).
      destruct o; cbn; try discriminate; [now elim (N a0)|]. destruct (is_last n (e + 1)); [discriminate|].
      destruct (set_state (cl_it q) fuel s' start) eqn:E'; cbn; try discriminate. apply IH. exact (keeps_set _ _ _ _ _ _ (shut_keeps q) H' E'). }
    destruct (reaction_of p); cbn; try apply reacts_goes_on; apply reacts_not_yield; try discriminate; intros a; destruct (is_last n m); try discriminate;
      apply L; (discriminate || exact H).
  - destruct (cden gen_keys tuple_of p) as [q| |]; try discriminate. specialize (IHp q eq_refl). cbn. intros E. injection E as <-.
    apply (base_good (window_shuffle_it gen_keys w s (cl_it q)) _ _ (fun s => reach q (ws_parent s)) (fun s => shut q (ws_parent s)));
      [apply window_keeps, reach_keeps|apply window_keeps, shut_keeps|apply RInit|intros; now apply SClose|intros; now apply shut_reach|].
    intros x H. split; [now apply (IHp _ H)|]. intros; apply reacts_goes_on.
  - destruct (cden gen_keys tuple_of p) as [q| |]; try discriminate. specialize (IHp q eq_refl). cbn. intros E. injection E as <-.
    apply (base_good (cache_it (cl_it q)) _ _ (fun s => reach q (ca_parent s)) (fun s => shut q (ca_parent s)));
      [apply cache_keeps, reach_keeps|apply cache_keeps, shut_keeps|apply RInit|intros; now apply SClose|intros; now apply shut_reach|].
    intros x H. split; [now apply (IHp _ H)|]. intros; apply reacts_goes_on.
  - destruct (cden gen_keys tuple_of p) as [q| |]; try discriminate. specialize (IHp q eq_refl). cbn. intros E. injection E as <-.
    apply (base_good (flat_map_it f (cl_it q)) _ _ (fun s => reach q (fm_parent s)) (fun s => shut q (fm_parent s)));
      [apply flat_keeps, reach_keeps|apply flat_keeps, shut_keeps|apply RInit|intros; now apply SClose|intros; now apply shut_reach|].
    intros x H. split; [now apply (IHp _ H)|]. intros; apply reacts_goes_on.
  - destruct (sequence (map (cden gen_keys tuple_of) ps)) as [cs| |] eqn:Es; try discriminate. cbn.
    apply (sequence_forall _ (fun p c => good c (reaction_of p) (loops p))) in Es; [|exact H]. destruct cs as [|q cs']; [discriminate|].
    remember (q :: cs') as cs. intros E. injection E as <-.
    apply (base_good (retype tuple_of (zip_iter b (map cl_it cs))) _ _ (hall reach cs) (hall shut cs));
      [apply retype_keeps, zip_keeps, reach_keeps|apply retype_keeps, zip_keeps, shut_keeps|apply hinit_all, RInit|apply hclose_all|apply hshut_reach|].
    intros s Hs. split.
    + apply hrunning_zero; [|exact Hs]. clear - Es. induction Es; constructor; [|assumption]. eapply good_running; eassumption.
    + intros fuel. subst cs. inversion Es as [|p0 q0 ps' cs0 G F]; subst. cbn in Hs. destruct s as [s1 s2]. cbn in Hs. destruct Hs as [Hs _].
      destruct (G s1 Hs) as [_ L]. destruct (L fuel) as [N V]. cbn. destruct (next (cl_it q) fuel s1) as [o s1']. cbn in N, V. split.
      * intros Hr. specialize (N Hr). destruct o; cbn; try discriminate; [now elim (N a)|]. destruct b; cbn; [|discriminate].
        destruct (zip_check_stopped _ _ _) as [o s2']. destruct o; cbn; discriminate.
      * intros Hr Hl. rewrite (V Hr Hl). reflexivity.
  - destruct (sequence (map (cden gen_keys tuple_of) ps)) as [cs| |] eqn:Es; try discriminate. cbn.
    apply (sequence_forall _ (fun p c => good c (reaction_of p) (loops p))) in Es; [|exact H].
    destruct (existsb (Z.eqb 0) props); [discriminate|]. destruct (Nat.eqb (length props) 0); [discriminate|].
    destruct (negb _); [discriminate|]. intros E. injection E as <-.
    apply (base_good (mixed_iter props (map cl_it cs)) _ _ (fun s => hall reach cs (fst (fst s))) (fun s => hall shut cs (fst (fst s))));
      [apply mixed_keeps, reach_keeps|apply mixed_keeps, shut_keeps|apply hinit_all, RInit|intros; now apply hclose_all|intros; now apply hshut_reach|].
    intros [[s i] st] Hs. cbn in Hs. split.
    + apply hrunning_zero; [|exact Hs]. clear - Es. induction Es; constructor; [|assumption]. eapply good_running; eassumption.
    + intros fuel. destruct (existsb _ ps) eqn:Ee; [apply reacts_goes_on|]. apply reacts_not_yield; [discriminate|].
      intros a. cbn. destruct st; [discriminate|]. destruct (dataset_and_key i props) as [[k j]| |]; cbn; try discriminate.
      assert (Forall (fun c => forall s, shut c s -> forall fuel a, fst (next (cl_it c) fuel s) <> Yield a) cs) as F.
      { clear - Es Ee. induction Es as [|p c ps cs G F IH]; constructor; cbn in Ee; apply Bool.orb_false_iff in Ee; destruct Ee as [E1 E2]; [|now apply IH].
        apply (good_silent _ _ _ G). destruct (reaction_of p); discriminate. }
      pose proof (hnext_silent cs F fuel (Z.to_nat k) s Hs) as N. destruct (hnext _ _ _ _) as [o s']. cbn in N. destruct o; cbn; try discriminate. now elim (N a0).
  - destruct (cden gen_keys tuple_of p) as [q| |]; try discriminate. specialize (IHp q eq_refl). cbn. intros E. injection E as <-. eapply thread_good; eassumption.
  - destruct (cden gen_keys tuple_of p) as [q| |]; try discriminate. cbn. intros E. injection E as <-. apply process_good.
Qed.

(** ** Histories *)

Lemma use_it_good {A} (c : Closable A) r n fuel : good c r n -> forall us s cks closed,
  (if closed : bool then shut c s else reach c s) ->
  (forall o, In (true, o) (fst (use_it c fuel us s cks closed)) -> reacts r n fuel o) /\
  (closed = true \/ In UClose us -> shut c (snd (use_it c fuel us s cks closed))).
Proof.
  intros G. induction us as [|u us IH]; intros s cks closed H; cbn [use_it].
  - cbn. split; [now intros|]. intros [->|[]]. exact H.
  - assert (forall s cks, (if closed : bool then shut c s else reach c s) ->
      (forall o, In (true, o) (fst (use_it c fuel us s cks closed)) -> reacts r n fuel o) /\
      (closed = true \/ In UClose (u :: us) -> u = UClose \/ shut c (snd (use_it c fuel us s cks closed)))) as L.
    { intros s0 cks0 H0. destruct (IH s0 cks0 closed H0) as [I1 I2]. split; [exact I1|]. intros [E|[E|E]]; auto. }
    destruct u as [| |k json|].
    + destruct (next (cl_it c) fuel s) as [o s'] eqn:E.
      assert (if closed then shut c s' else reach c s') as H'.
      { destruct closed; [exact (keeps_next _ _ _ _ _ _ (shut_keeps c) H E)|exact (keeps_next _ _ _ _ _ _ (reach_keeps c) H E)]. }
      destruct (L s' cks H') as [L1 L2]. destruct (use_it c fuel us s' cks closed) as [l e]. cbn in *. split.
      * intros o' [E'|Ho]; [|now apply L1]. injection E' as -> <-. destruct (G s H) as [_ R]. specialize (R fuel). now rewrite E in R.
      * intros Hc. destruct (L2 Hc); [discriminate|assumption].
    + destruct (L s (cks ++ [get_state (cl_it c) s]) H) as [L1 L2]. split; [exact L1|]. intros Hc. destruct (L2 Hc); [discriminate|assumption].
    + assert ((forall o, In (true, o) (fst (use_it c fuel us s cks closed)) -> reacts r n fuel o) /\
              (closed = true \/ In UClose (ULoad k json :: us) -> shut c (snd (use_it c fuel us s cks closed)))) as L0.
      { destruct (L s cks H) as [L1 L2]. split; [exact L1|]. intros Hc. destruct (L2 Hc); [discriminate|assumption]. }
      destruct (nth_error cks k); [|exact L0]. destruct (set_state _ _ _ _) as [s'| |] eqn:E; try exact L0.
      assert (if closed then shut c s' else reach c s') as H'.
      { destruct closed; [exact (keeps_set _ _ _ _ _ _ (shut_keeps c) H E)|exact (keeps_set _ _ _ _ _ _ (reach_keeps c) H E)]. }
      destruct (L s' cks H') as [L1 L2]. split; [exact L1|]. intros Hc. destruct (L2 Hc); [discriminate|assumption].
    + assert (shut c (cl_close c s)) as H' by (destruct closed; [now apply shut_close|now apply SClose]).
      destruct (IH (cl_close c s) cks true H') as [I1 I2]. split; [exact I1|]. auto.
Qed.

Theorem close_twice {A} gen_keys tuple_of (p : cpipe A) : forall c s, cden gen_keys tuple_of p = Ok c -> cl_close c (cl_close c s) = cl_close c s.
Proof.
  assert (forall (it : Iter (option A)) cp run s, cl_close (base it cp run) (cl_close (base it cp run) s) = cl_close (base it cp run) s) as B.
  { intros it cp run [s []]; reflexivity. }
  induction p using cpipe_all; intros c s0; cbn [cden].
  - intros E. injection E as <-. destruct s0 as [s []]; reflexivity.
  - intros E. injection E as <-. apply B.
  - destruct (cden gen_keys tuple_of p) as [q| |]; try discriminate. cbn. intros E. injection E as <-. apply B.
  - destruct (cden gen_keys tuple_of p) as [q| |]; try discriminate. cbn. intros E. injection E as <-. apply B.
  - destruct (cden gen_keys tuple_of p) as [q| |]; try discriminate. cbn. intros E. injection E as <-. apply B.
  - destruct (cden gen_keys tuple_of p) as [q| |]; try discriminate. cbn. intros E. injection E as <-. apply B.
  - destruct (cden gen_keys tuple_of p) as [q| |]; try discriminate. cbn. destruct (_ <=? _); [discriminate|]. intros E. injection E as <-. apply B.
  - destruct (cden gen_keys tuple_of p) as [q| |]; try discriminate. cbn. destruct (_ <=? _); [discriminate|]. intros E. injection E as <-. apply B.
  - destruct (cden gen_keys tuple_of p) as [q| |]; try discriminate. cbn.
    destruct (match n with None => false | Some n => n <=? 0 end); [discriminate|]. intros E. injection E as <-. apply B.
  - destruct (cden gen_keys tuple_of p) as [q| |]; try discriminate. cbn. intros E. injection E as <-. apply B.
  - destruct (cden gen_keys tuple_of p) as [q| |]; try discriminate. cbn. intros E. injection E as <-. apply B.
  - destruct (cden gen_keys tuple_of p) as [q| |]; try discriminate. cbn. intros E. injection E as <-. apply B.
  - destruct (sequence _) as [cs| |]; try discriminate. cbn. destruct cs; [discriminate|]. intros E. injection E as <-. apply B.
  - destruct (sequence _) as [cs| |]; try discriminate. cbn. destruct (existsb _ _); [discriminate|]. destruct (Nat.eqb _ _); [discriminate|].
    destruct (negb _); [discriminate|]. intros E. injection E as <-. apply B.
  - destruct (cden gen_keys tuple_of p) as [q| |]; try discriminate. cbn. intros E. injection E as <-. destruct s0 as [[st kk] bb]. cbn.
    pose proof (IHp q (tp_parent st) eq_refl) as I. destruct (tp_thread st) eqn:T; unfold stopped; rewrite ?T; cbn; rewrite ?T; cbn; now rewrite I.
  - destruct (cden gen_keys tuple_of p) as [q| |]; try discriminate. cbn. intros E. injection E as <-. destruct s0 as [[st kk] bb]. cbn.
    unfold pstopped. destruct (pp_worker st) eqn:T; cbn; [reflexivity|now rewrite T].
Qed.
Lemma close_twice_uses {A} gen_keys tuple_of (p : cpipe A) c fuel : cden gen_keys tuple_of p = Ok c -> forall us vs s cks b,
  use_it c fuel (us ++ UClose :: UClose :: vs) s cks b = use_it c fuel (us ++ UClose :: vs) s cks b.
Proof.
  intros E. induction us as [|u us IH]; intros vs s cks b; cbn [app use_it].
  - now rewrite (close_twice _ _ _ _ _ E).
  - destruct u as [| |k json|].
    + destruct (next _ _ _). now rewrite IH.
    + apply IH.
    + destruct (nth_error cks k); [|apply IH]. destruct (set_state _ _ _ _); apply IH.
    + apply IH.
Qed.
