(** C18: random transformations depend only on the seed and the index. *)
From Verif Require Import Base ListFacts RngPool.
From Coq Require Import Lia.

(** Specification: the values a generator with key [k] delivers at index [i]. *)
Definition clean {K} (k : K) (index : Z) : gen K := mkGen k [0; 0; 0; index] [0; 0; 0; 0] 4 0 0.
Definition stream {K} (draw : gen K -> gen K * Z) (k : K) (index : Z) (n : nat) : list Z :=
  snd (draws draw n (clean k index)).

Lemma draws_snoc {K} (draw : gen K -> gen K * Z) n : forall g,
  draws draw (S n) g =
  (fst (draw (fst (draws draw n g))), snd (draws draw n g) ++ [snd (draw (fst (draws draw n g)))]).
Proof.
  induction n as [|n IH]; intros g.
  - cbn. destruct (draw g); reflexivity.
  - change (draws draw (S (S n)) g) with
      (let (g', v) := draw g in let (g'', vs) := draws draw (S n) g' in (g'', v :: vs)).
    change (draws draw (S n) g) with
      (let (g', v) := draw g in let (g'', vs) := draws draw n g' in (g'', v :: vs)).
    destruct (draw g) as [g' v]. rewrite IH. destruct (draws draw n g') as [g'' vs]; reflexivity.
Qed.

Lemma NoDup_snoc {A} (l : list A) a : NoDup l -> ~ In a l -> NoDup (l ++ [a]).
Proof.
  intros Hn Hi. induction Hn as [|x l Hx Hn IH]; cbn.
  - repeat constructor. intros [].
  - constructor.
    + intros Hin. apply in_app_or in Hin as [Hin|[->|[]]]; [tauto|]. apply Hi. cbn. auto.
    + apply IH. intros H. apply Hi. cbn. auto.
Qed.

(** The generator objects a thread holds. *)
Definition holds (st : status) : option nat :=
  match st with Idle => None | Popped id _ => Some id | Calling id _ _ => Some id end.

Record pool_inv {K} (philox : gen K) (draw : gen K -> gen K * Z) (s : pool K) : Prop := {
  inv_key : forall id, g_key (objs s id) = g_key philox;
  inv_cache_lt : forall id, In id (cache s) -> (id < fresh s)%nat;
  inv_cache_nodup : NoDup (cache s);
  inv_hold_lt : forall t id, holds (threads s t) = Some id -> (id < fresh s)%nat;
  inv_hold_cache : forall t id, holds (threads s t) = Some id -> ~ In id (cache s);
  inv_hold_one : forall t t' id, holds (threads s t) = Some id -> holds (threads s t') = Some id -> t = t';
  inv_calling : forall t id index vs, threads s t = Calling id index vs ->
    (objs s id, vs) = draws draw (length vs) (clean (g_key philox) index);
}.

Lemma upd_same {V} (f : nat -> V) i v : upd f i v i = v.
Proof. unfold upd. rewrite Nat.eqb_refl. reflexivity. Qed.
Lemma upd_other {V} (f : nat -> V) i j v : j <> i -> upd f i v j = f j.
Proof. unfold upd. destruct (Nat.eqb_spec j i); congruence. Qed.

Ltac upd_cases :=
  repeat match goal with
  | H : context[upd _ ?i _ ?j] |- _ =>
      destruct (Nat.eq_dec j i);
      [subst; rewrite upd_same in H | rewrite upd_other in H by assumption]
  | |- context[upd _ ?i _ ?j] =>
      destruct (Nat.eq_dec j i);
      [subst; rewrite upd_same | rewrite upd_other by assumption]
  end.

Section Pool.
  Context {K : Type} (philox : gen K) (draw : gen K -> gen K * Z).
  (** Drawing values does not change the key (it is the numpy Philox contract). *)
  Context (draw_key : forall g, g_key (fst (draw g)) = g_key g).

  Lemma pool_inv_step s s' : pool_inv philox draw s -> rng_step philox draw s s' -> pool_inv philox draw s'.
  Proof.
    intros I H. destruct I as [Ik Icl Icn Ihl Ihc Iho Ic].
    destruct H as [t index s ids id Ht Hc | t index s Ht Hc | t id index s Ht | t id index vs s Ht
                  | t id index vs s Ht | t id index vs s Ht]; constructor; cbn [objs fresh cache threads]; intros.
    (* pop *)
    - apply Ik.
    - apply Icl. rewrite Hc. apply in_or_app. auto.
    - rewrite Hc in Icn. apply NoDup_remove_1 in Icn. rewrite app_nil_r in Icn. exact Icn.
    - upd_cases; cbn in *; [|eauto].
      assert (id0 = id) by congruence; subst. apply Icl. rewrite Hc. apply in_or_app. cbn. auto.
    - upd_cases; cbn in *.
      + assert (id0 = id) by congruence; subst. rewrite Hc in Icn. apply NoDup_remove_2 in Icn.
        rewrite app_nil_r in Icn. exact Icn.
      + intros Hin. eapply Ihc; eauto. rewrite Hc. apply in_or_app; auto.
    - upd_cases; cbn in *; auto.
      + assert (id0 = id) by congruence; subst. exfalso. eapply Ihc; eauto. rewrite Hc. apply in_or_app; cbn; auto.
      + assert (id0 = id) by congruence; subst. exfalso. eapply Ihc; eauto. rewrite Hc. apply in_or_app; cbn; auto.
      + eauto.
    - upd_cases; [discriminate|]. eauto.
    (* new *)
    - upd_cases; [reflexivity|apply Ik].
    - contradiction.
    - constructor.
    - upd_cases; cbn in *; [|apply Ihl in H; lia].
      assert (id = fresh s) by congruence; subst. constructor.
    - intros [].
    - upd_cases; cbn in *; auto.
      + assert (id = fresh s) by congruence; subst. apply Ihl in H0 || apply Ihl in H. lia.
      + assert (id = fresh s) by congruence; subst. apply Ihl in H0 || apply Ihl in H. lia.
      + eauto.
    - destruct (Nat.eq_dec t0 t); [subst; rewrite upd_same in H; discriminate|].
      rewrite upd_other in H by assumption.
      assert (Hlt : (id < fresh s)%nat) by (apply (Ihl t0); rewrite H; reflexivity).
      rewrite upd_other by lia. eauto.
    (* reset *)
    - upd_cases; [cbn; apply Ik|apply Ik].
    - eauto.
    - assumption.
    - upd_cases; cbn in *; [|eauto]. assert (id0 = id) by congruence; subst. apply (Ihl t). rewrite Ht. reflexivity.
    - upd_cases; cbn in *; [|eauto]. assert (id0 = id) by congruence; subst. apply (Ihc t). rewrite Ht. reflexivity.
    - assert (Hh : forall u, holds (upd (threads s) t (Calling id index []) u) = holds (threads s u)).
      { intros u. unfold upd. destruct (Nat.eqb_spec u t); [subst; rewrite Ht|]; reflexivity. }
      rewrite Hh in *. eauto.
    - destruct (Nat.eq_dec t0 t).
      + subst. rewrite upd_same in H. assert (id0 = id /\ index0 = index /\ vs = []) as (-> & -> & ->) by (split; [|split]; congruence).
        rewrite upd_same. cbn. unfold reset_rng_state, clean. rewrite Ik. reflexivity.
      + rewrite upd_other in H by assumption.
        assert (id0 <> id).
        { intros ->. apply n. apply (Iho t0 t id); [rewrite H|rewrite Ht]; reflexivity. }
        rewrite upd_other by assumption. eauto.
    (* draw *)
    - upd_cases; [rewrite draw_key; apply Ik|apply Ik].
    - eauto.
    - assumption.
    - upd_cases; cbn in *; [|eauto]. assert (id0 = id) by congruence; subst. apply (Ihl t). rewrite Ht. reflexivity.
    - upd_cases; cbn in *; [|eauto]. assert (id0 = id) by congruence; subst. apply (Ihc t). rewrite Ht. reflexivity.
    - set (st := Calling id index (vs ++ [snd (draw (objs s id))])) in *.
      assert (Hh : forall u, holds (upd (threads s) t st u) = holds (threads s u)).
      { intros u. unfold upd, st. destruct (Nat.eqb_spec u t); [subst; rewrite Ht|]; reflexivity. }
      rewrite Hh in *. eauto.
    - destruct (Nat.eq_dec t0 t).
      + subst. rewrite upd_same in H.
        assert (id0 = id /\ index0 = index /\ vs0 = vs ++ [snd (draw (objs s id))]) as (-> & -> & ->) by (split; [|split]; congruence).
        rewrite upd_same. pose proof (Ic _ _ _ _ Ht) as E.
        rewrite app_length. cbn [length]. rewrite Nat.add_1_r, draws_snoc, <- E. reflexivity.
      + rewrite upd_other in H by assumption.
        assert (id0 <> id).
        { intros ->. apply n. apply (Iho t0 t id); [rewrite H|rewrite Ht]; reflexivity. }
        rewrite upd_other by assumption. eauto.
    (* release *)
    - apply Ik.
    - apply in_app_or in H as [H|[->|[]]]; [eauto|]. apply (Ihl t). rewrite Ht. reflexivity.
    - apply NoDup_snoc; [assumption|]. apply (Ihc t). rewrite Ht. reflexivity.
    - upd_cases; cbn in *; [discriminate|eauto].
    - upd_cases; cbn in *; [discriminate|]. intros Hin. apply in_app_or in Hin as [Hin|[->|[]]].
      + eapply Ihc; eauto.
      + apply n. apply (Iho t0 t id0); [assumption|rewrite Ht; reflexivity].
    - upd_cases; cbn in *; try discriminate. eauto.
    - upd_cases; [discriminate|eauto].
    (* raise *)
    - apply Ik.
    - eauto.
    - assumption.
    - upd_cases; cbn in *; [discriminate|eauto].
    - upd_cases; cbn in *; [discriminate|eauto].
    - upd_cases; cbn in *; try discriminate. eauto.
    - upd_cases; [discriminate|eauto].
  Qed.

  Lemma pool_inv_reach s : rng_reach philox draw s -> pool_inv philox draw s.
  Proof.
    induction 1 as [|s s' _ IH Hs].
    - constructor; cbn; intros; try reflexivity; try contradiction; try discriminate. constructor.
    - eapply pool_inv_step; eassumption.
  Qed.
End Pool.

(** C18.  Whatever happened before and whatever other threads do, the values that a
    call of the user's function at [index] has drawn are the first ones of the
    stream given by the key (a function of the seed) and the index.  The hypothesis:
    drawing values from a generator leaves its key alone. *)
Theorem C18_values_depend_on_seed_and_index {K} (philox : gen K) (draw : gen K -> gen K * Z) :
  (forall g, g_key (fst (draw g)) = g_key g) ->
  forall s t id index vs,
    rng_reach philox draw s -> threads s t = Calling id index vs ->
    vs = stream draw (g_key philox) index (length vs).
Proof.
  intros Hk s t id index vs Hr Ht. pose proof (inv_calling _ _ _ (pool_inv_reach philox draw Hk s Hr) _ _ _ _ Ht) as E.
  unfold stream. rewrite <- E. reflexivity.
Qed.

(** The generator is handed over clean, and while a call is running nobody else
    changes it: its state is what the call's own draws made of the clean state. *)
Theorem C18_generator_is_private {K} (philox : gen K) (draw : gen K -> gen K * Z) :
  (forall g, g_key (fst (draw g)) = g_key g) ->
  forall s t id index vs,
    rng_reach philox draw s -> threads s t = Calling id index vs ->
    objs s id = fst (draws draw (length vs) (clean (g_key philox) index)) /\
    ~ In id (cache s) /\
    forall t' id' index' vs', t' <> t -> threads s t' = Calling id' index' vs' -> id' <> id.
Proof.
  intros Hk s t id index vs Hr Ht. pose proof (pool_inv_reach philox draw Hk s Hr) as I. split; [|split].
  - rewrite <- (inv_calling _ _ _ I _ _ _ _ Ht). reflexivity.
  - apply (inv_hold_cache _ _ _ I t). rewrite Ht. reflexivity.
  - intros t' id' index' vs' Hne Ht' ->. apply Hne.
    apply (inv_hold_one _ _ _ I t' t id); [rewrite Ht'|rewrite Ht]; reflexivity.
Qed.

(** The iterator version: one generator, whatever it was used for before. *)
Theorem C18_iterator {K} (g : gen K) (draw : gen K -> gen K * Z) :
  (forall g, g_key (fst (draw g)) = g_key g) ->
  forall (uses : list (Z * nat)) index n,
    snd (draws draw n (reset_rng_state (iterator_rng draw g uses) 0 index)) = stream draw (g_key g) index n.
Proof.
  intros Hk uses index n. unfold stream. do 2 f_equal.
  assert (Hd : forall n g, g_key (fst (draws draw n g)) = g_key g).
  { intros m. induction m as [|m IH]; intros g'; [reflexivity|]. rewrite draws_snoc. cbn. rewrite Hk. apply IH. }
  assert (Hi : forall uses g, g_key (iterator_rng draw g uses) = g_key g).
  { intros us. induction us as [|[i m] us IH]; intros g'; [reflexivity|]. cbn. rewrite IH, Hd. reflexivity. }
  unfold reset_rng_state, clean. rewrite Hi. reflexivity.
Qed.

(** A generator whose values depend on key, counter and position; two threads, the
    second one re-using a generator the first one has drawn from. *)
Definition ex_draw (g : gen Z) : gen Z * Z :=
  match g with mkGen k c b p h u => (mkGen k c b (p + 1) 1 7, k * 1000 + nth 3 c 0 * 10 + p) end.
Definition ex_philox : gen Z := mkGen 5 [1; 2; 3; 4] [9; 9; 9; 9] 2 1 3.

Definition ex_final : pool Z :=
  mkPool (fun id => match id with
                    | 0%nat => mkGen 5 [0; 0; 0; 8] [0; 0; 0; 0] 5 1 7
                    | 1%nat => mkGen 5 [0; 0; 0; 3] [0; 0; 0; 0] 5 1 7
                    | _ => ex_philox end) 2 []
         (fun t => match t with 0%nat => Calling 1 3 [5034] | 1%nat => Calling 0 8 [5084] | _ => Idle end).
Definition same_pool (s s' : pool Z) : Prop :=
  (forall id, objs s id = objs s' id) /\ fresh s = fresh s' /\ cache s = cache s' /\
  forall t, threads s t = threads s' t.

(* The states of the run (named, so that their terms stay small). *)
Definition new (t : nat) (index : Z) (s : pool Z) : pool Z :=
  mkPool (upd (objs s) (fresh s) ex_philox) (S (fresh s)) [] (upd (threads s) t (Popped (fresh s) index)).
Definition reset (t id : nat) (index : Z) (s : pool Z) : pool Z :=
  mkPool (upd (objs s) id (reset_rng_state (objs s id) 0 index)) (fresh s) (cache s)
         (upd (threads s) t (Calling id index [])).
Definition take (t id : nat) (index : Z) (vs : list Z) (s : pool Z) : pool Z :=
  mkPool (upd (objs s) id (fst (ex_draw (objs s id)))) (fresh s) (cache s)
         (upd (threads s) t (Calling id index (vs ++ [snd (ex_draw (objs s id))]))).
Definition s1 := new 0 6 (pool0 ex_philox).
Definition s2 := reset 0 0 6 s1.
Definition s3 := take 0 0 6 [] s2.
Definition s4 := mkPool (objs s3) (fresh s3) (cache s3 ++ [0%nat]) (upd (threads s3) 0%nat Idle).
Definition s5 := mkPool (objs s4) (fresh s4) [] (upd (threads s4) 1%nat (Popped 0 8)).
Definition s6 := new 0 3 s5.
Definition s7 := reset 1 0 8 s6.
Definition s8 := reset 0 1 3 s7.
Definition s9 := take 0 1 3 [] s8.
Definition s10 := take 1 0 8 [] s9.

Example C18_nontrivial : rng_reach ex_philox ex_draw s10 /\ same_pool s10 ex_final.
Proof.
  split.
  - apply (reach_step _ _ s9); [|apply (step_draw _ _ 1%nat 0%nat 8 []); reflexivity].
    apply (reach_step _ _ s8); [|apply (step_draw _ _ 0%nat 1%nat 3 []); reflexivity].
    apply (reach_step _ _ s7); [|apply (step_reset _ _ 0%nat 1%nat 3); reflexivity].
    apply (reach_step _ _ s6); [|apply (step_reset _ _ 1%nat 0%nat 8); reflexivity].
    apply (reach_step _ _ s5); [|apply (step_new _ _ 0%nat 3); reflexivity].
    apply (reach_step _ _ s4); [|apply (step_pop _ _ 1%nat 8 _ [] 0%nat); reflexivity].
    apply (reach_step _ _ s3); [|apply (step_release _ _ 0%nat 0%nat 6 [5064]); reflexivity].
    apply (reach_step _ _ s2); [|apply (step_draw _ _ 0%nat 0%nat 6 []); reflexivity].
    apply (reach_step _ _ s1); [|apply (step_reset _ _ 0%nat 0%nat 6); reflexivity].
    apply (reach_step _ _ (pool0 ex_philox)); [apply reach_init|apply (step_new _ _ 0%nat 6); reflexivity].
  - split; [|split; [|split]].
    + intros [|[|id]]; reflexivity.
    + reflexivity.
    + reflexivity.
    + intros [|[|t]]; reflexivity.
Qed.
