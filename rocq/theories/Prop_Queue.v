(** C46: the queues with a changeable maximum size. *)
From Verif Require Import Base Queues.

Definition restrict {S} (P : S -> Prop) (step : S -> S -> Prop) : S -> S -> Prop :=
  fun s s' => P s /\ step s s' /\ P s'.

(** * Threads *)
Definition vq_inv {A} (s : vq A) : Prop :=
  (forall x, vq_putting s = Some x -> (length (vq_items s) < vq_max s)%nat) /\
  vq_in s = vq_out s ++ vq_items s /\
  (vq_waiters s = O \/
   (vq_max s - length (vq_items s) <= vq_woken s + vq_notify s + match vq_putting s with Some _ => 1 | None => 0 end)%nat).

Lemma vq_inv_step {A} (s s' : vq A) : vq_inv s -> vq_step s s' -> vq_inv s'.
Proof.
  unfold vq_inv. intros (H1 & H2 & H3) Hst. destruct Hst; cbn [vq_items vq_max vq_putting vq_waiters vq_woken vq_notify vq_in vq_out] in *;
    (split; [|split]).
  all: try (intros y [= <-]; easy).
  all: try discriminate.
  all: try easy.
  all: try solve [subst; rewrite ?app_length, <- ?app_assoc; cbn [length app]; try easy; lia].
  all: try (specialize (H1 _ eq_refl)).
  all: try solve [rewrite ?app_length; cbn [length] in *; lia].
  - intros y E. specialize (H1 y E). cbn [length] in H1. lia.
  - destruct w; cbn [pred]; lia.
Qed.
Lemma vq_inv_reach {A} m (s : vq A) : steps vq_step (vq_init m) s -> vq_inv s.
Proof.
  intros H. remember (vq_init m) as s0 eqn:E. induction H.
  - subst. unfold vq_inv, vq_init; cbn. split; [discriminate|]. split; [easy|]. now left.
  - eapply vq_inv_step; eauto.
Qed.

(** Elements come out in the order they went in, none lost, none invented. *)
Theorem C46_thread_fifo {A} m (s : vq A) :
  steps vq_step (vq_init m) s -> vq_in s = vq_out s ++ vq_items s.
Proof. intros H. apply (vq_inv_reach m s H). Qed.

(** As long as the maximum is at most M, the queue never grows beyond M (it may hold
    more at the beginning, if the maximum has just been lowered). *)
Theorem C46_thread_bound {A} m (s s' : vq A) M :
  steps vq_step (vq_init m) s -> steps (restrict (fun s => (vq_max s <= M)%nat) vq_step) s s' ->
  (length (vq_items s') <= Nat.max (length (vq_items s)) M)%nat.
Proof.
  intros Hr Hst. pose proof (vq_inv_reach m s Hr) as Hi. clear Hr.
  enough (vq_inv s' /\ (length (vq_items s') <= Nat.max (length (vq_items s)) M)%nat) by easy.
  induction Hst as [s|s s' s'' Hst IH (Hm & Hs & Hm')]; [split; [easy|lia]|].
  destruct (IH Hi) as [Hi' Hl]. split; [eapply vq_inv_step; eauto|].
  destruct Hi' as (H1 & _). destruct Hs; cbn [vq_items vq_max vq_putting] in *; try easy.
  - specialize (H1 _ eq_refl). rewrite app_length; cbn [length]. lia.
  - cbn [length] in Hl. lia.
Qed.

(** Every put leaves the queue within its current maximum. *)
Theorem C46_thread_put {A} m (s s' : vq A) :
  steps vq_step (vq_init m) s -> vq_step s s' ->
  (length (vq_items s) < length (vq_items s'))%nat -> (length (vq_items s') <= vq_max s')%nat.
Proof.
  intros Hr Hs Hl. pose proof (vq_inv_reach m s Hr) as (H1 & _).
  destruct Hs; cbn [vq_items vq_max vq_putting] in *; try (cbn [length] in *; lia).
  specialize (H1 _ eq_refl). rewrite app_length; cbn [length]. lia.
Qed.

(** No lost wake-up: when all threads that can run have run (nobody is about to notify,
    to look again or to add), a put is still waiting only if the queue is full. *)
Theorem C46_thread_no_lost_wakeup {A} m (s : vq A) :
  steps vq_step (vq_init m) s ->
  vq_woken s = O -> vq_notify s = O -> vq_putting s = None -> (0 < vq_waiters s)%nat ->
  (vq_max s <= length (vq_items s))%nat.
Proof.
  intros Hr Hk Hn Hp Hw. destruct (vq_inv_reach m s Hr) as (_ & _ & H). rewrite Hk, Hn, Hp in H. lia.
Qed.

Lemma steps_trans {S} (step : S -> S -> Prop) a b c : steps step a b -> steps step b c -> steps step a c.
Proof. intros H1 H2. induction H2; [easy|]. eapply steps_cons; [apply IHsteps; exact H1|exact H]. Qed.

Lemma steps_sub {S} (step step' : S -> S -> Prop) a b :
  (forall s s', step s s' -> step' s s') -> steps step a b -> steps step' a b.
Proof. intros Hs H. induction H; [apply steps_refl|]. eapply steps_cons; [exact IHsteps|]. now apply Hs. Qed.

(** A full queue, a waiting put, a get, and the put goes through. *)
Example C46_thread_example :
  steps vq_step (vq_init 2) (mkVq [6; 7] 2 None 0 0 0 [6; 7] []) /\
     exists s : vq Z, steps vq_step (vq_init 2) s /\ vq_items s = [7; 8] /\ vq_out s = [6].
Proof.
  assert (H : steps vq_step (vq_init 2) (mkVq [6; 7] 2 None 0 0 0 [6; 7] [])).
  { eapply steps_cons; [|apply (vq_put_done 7 [6] 2 0 0 0 [6])]. eapply steps_cons; [|apply (vq_put_room 7 [6]); cbn; lia].
    eapply steps_cons; [|apply (vq_put_done 6 [] 2 0 0 0 [])]. eapply steps_cons; [|apply (vq_put_room 6 []); cbn; lia].
    apply steps_refl. }
  split; [exact H|]. exists (mkVq [7; 8] 2 None 0 0 0 [6; 7; 8] [6]). split; [|easy].
  eapply steps_cons; [|apply (vq_put_done 8 [7] 2 0 0 0 [6; 7])].
  eapply steps_cons; [|apply (vq_woken_room 8 [7]); cbn; lia].
  eapply steps_cons; [|apply (vq_notify_one [7] 2 1 0 0)].
  eapply steps_cons; [|apply (vq_get 6 [7] 2 None 1 0 0 [6; 7] [])].
  eapply steps_cons; [|apply (vq_put_wait [6; 7]); cbn; lia]. exact H.
Qed.

(** * Processes *)
Definition grown (l : resizing) : nat := match l with Growing _ r _ => r | _ => O end.
(** Elements in the queue, on their way in or on their way out. *)
Definition mq_held {A} (s : mq A) : nat := (mq_putting s + length (mq_items s) + mq_getting s)%nat.
(** The maximum in force: while a set_max_size is running, the larger maximum when
    growing, and when shrinking the part of the lowering that has been tried. *)
Definition mq_target {A} (s : mq A) : nat :=
  match mq_lock s with Growing m _ _ => m | Shrinking t => (mq_max s + t)%nat | Unlocked => mq_max s end.

Definition mq_inv {A} (s : mq A) : Prop :=
  (mq_sem s + mq_held s = mq_max s + mq_pending s + grown (mq_lock s))%nat /\
  match mq_lock s with
  | Growing m r t => (m = mq_max s + r + t)%nat
  | Shrinking t => (t <= mq_pending s)%nat
  | Unlocked => True
  end /\
  mq_in s = mq_out s ++ mq_items s.

Lemma mq_inv_step {A} (s s' : mq A) : mq_inv s -> mq_step s s' -> mq_inv s'.
Proof.
  unfold mq_inv, mq_held. intros (H1 & H2 & H3) Hst. destruct Hst; try destruct p;
    cbn [mq_items mq_max mq_sem mq_pending mq_putting mq_getting mq_lock mq_in mq_out grown] in *;
    (split; [|split]); try easy;
    try solve [subst; rewrite ?app_length, <- ?app_assoc; cbn [length app] in *; try easy; lia].
Qed.
Lemma mq_inv_reach {A} m (s : mq A) : steps mq_step (mq_init m) s -> mq_inv s.
Proof.
  intros H. remember (mq_init m) as s0 eqn:E. induction H.
  - subst. unfold mq_inv, mq_held, mq_init; cbn. split; [lia|]. now split.
  - eapply mq_inv_step; eauto.
Qed.

Theorem C46_process_fifo {A} m (s : mq A) :
  steps mq_step (mq_init m) s -> mq_in s = mq_out s ++ mq_items s.
Proof. intros H. apply (mq_inv_reach m s H). Qed.

(** The capacity is never lost: an idle empty queue with a positive maximum accepts a
    put, whatever sequence of resizes came before. *)
Theorem C46_process_no_lost_capacity {A} m (s : mq A) :
  steps mq_step (mq_init m) s -> mq_held s = O -> mq_lock s = Unlocked -> (mq_max s <= mq_sem s)%nat.
Proof.
  intros Hr Hh Hl. destruct (mq_inv_reach m s Hr) as (H1 & _). rewrite Hh, Hl in H1. cbn in H1. lia.
Qed.

(** Executions in which the maximum is never raised while an earlier lowering is still
    pending. *)
Definition no_grow_pending {A} (s s' : mq A) : Prop :=
  mq_step s s' /\ (forall m r t, mq_lock s = Unlocked -> mq_lock s' = Growing m r t -> mq_pending s = O).

Lemma mq_pending_sem {A} m (s : mq A) : steps no_grow_pending (mq_init m) s ->
  mq_inv s /\
  match mq_lock s with
  | Unlocked => mq_pending s = O \/ mq_sem s = O
  | Growing _ _ _ => mq_pending s = O
  | Shrinking t => mq_pending s = t \/ mq_sem s = O
  end.
Proof.
  intros H. remember (mq_init m) as s0 eqn:E. induction H as [s|s s' s'' H IH [Hs Hg]].
  - subst. split; [apply (mq_inv_reach m); apply steps_refl|]. now left.
  - destruct (IH E) as [Hi Hp]. split; [eapply mq_inv_step; eauto|].
    destruct Hi as (_ & H2 & _).
    destruct Hs; try destruct p; try destruct l;
      cbn [mq_items mq_max mq_sem mq_pending mq_putting mq_getting mq_lock mq_in mq_out grown] in *;
      try solve [destruct Hp; try discriminate; try easy; try (now left); try (now right); lia];
      try lia.
    all: eapply Hg; reflexivity.
Qed.

(** A put that passes the semaphore leaves at most the maximum in the queue or on its
    way in or out. *)
Theorem C46_process_put {A} m (s s' : mq A) :
  steps no_grow_pending (mq_init m) s -> mq_step s s' ->
  (mq_held s < mq_held s')%nat -> (mq_held s' <= mq_target s')%nat.
Proof.
  intros Hr Hs Hl. destruct (mq_pending_sem m s Hr) as [(H1 & H2 & _) Hp].
  unfold mq_held, mq_target in *.
  destruct Hs; try destruct p; cbn [mq_items mq_max mq_sem mq_pending mq_putting mq_getting mq_lock grown] in *;
    rewrite ?app_length in *; cbn [length] in *; try lia.
  - destruct l; cbn [grown] in *; lia.
  - destruct l; cbn [grown] in *; lia.
Qed.

(** While the maximum is at most M the number of elements does not grow beyond M. *)
Theorem C46_process_bound {A} m (s s' : mq A) M :
  steps no_grow_pending (mq_init m) s ->
  steps (restrict (fun s => (mq_target s <= M)%nat) no_grow_pending) s s' ->
  (mq_held s' <= Nat.max (mq_held s) M)%nat.
Proof.
  intros Hr Hst. induction Hst as [s|s s' s'' Hst IH (Hm & Hs & Hm')]; [lia|].
  specialize (IH Hr).
  assert (Hr' : steps no_grow_pending (mq_init m) s').
  { eapply steps_trans; [exact Hr|]. clear - Hst. induction Hst; [apply steps_refl|]. eapply steps_cons; [eassumption|]. apply H. }
  destruct (Nat.lt_ge_cases (mq_held s') (mq_held s'')).
  - pose proof (C46_process_put m s' s'' Hr' (proj1 Hs) H). lia.
  - lia.
Qed.

(** Finding: raising the maximum while a lowering is pending admits more elements than
    any maximum ever set: 5 elements with maximum 5, then set_max_size(1),
    set_max_size(2), and a sixth put succeeds. *)
Definition full5 : mq Z := mkMq [1; 2; 3; 4; 5] 5 0 0 0 0 Unlocked [1; 2; 3; 4; 5] [].
Lemma full5_reachable : steps no_grow_pending (mq_init 5) full5.
Proof.
  unfold full5.
  assert (H : forall k x items, no_grow_pending (mkMq items 5 (S k) 0 0 0 Unlocked items []) (mkMq items 5 k 0 1 0 Unlocked items [])
              /\ no_grow_pending (mkMq items 5 k 0 1 0 Unlocked items []) (mkMq (items ++ [x : Z]) 5 k 0 0 0 Unlocked (items ++ [x]) [])).
  { intros. split; split; try constructor; cbn; discriminate. }
  eapply steps_cons; [|exact (proj2 (H O 5 [1; 2; 3; 4]))]. eapply steps_cons; [|exact (proj1 (H O 5 [1; 2; 3; 4]))].
  eapply steps_cons; [|exact (proj2 (H 1%nat 4 [1; 2; 3]))]. eapply steps_cons; [|exact (proj1 (H 1%nat 4 [1; 2; 3]))].
  eapply steps_cons; [|exact (proj2 (H 2%nat 3 [1; 2]))]. eapply steps_cons; [|exact (proj1 (H 2%nat 3 [1; 2]))].
  eapply steps_cons; [|exact (proj2 (H 3%nat 2 [1]))]. eapply steps_cons; [|exact (proj1 (H 3%nat 2 [1]))].
  eapply steps_cons; [|exact (proj2 (H 4%nat 1 []))]. eapply steps_cons; [|exact (proj1 (H 4%nat 1 []))].
  apply steps_refl.
Qed.
Theorem C46_process_grow_pending_refuted :
  exists s s' : mq Z, steps mq_step (mq_init 5) s /\ steps (restrict (fun s => (mq_target s <= 2)%nat) mq_step) s s' /\
    mq_held s = 5%nat /\ length (mq_items s') = 6%nat.
Proof.
  exists (mkMq [1; 2; 3; 4; 5] 1 0 4 0 0 Unlocked [1; 2; 3; 4; 5] []).
  exists (mkMq [1; 2; 3; 4; 5; 6] 2 0 4 0 0 Unlocked [1; 2; 3; 4; 5; 6] []).
  split; [|split; [|easy]].
  - eapply steps_cons; [|apply (mq_shrink_break 3)]. eapply steps_cons; [|apply (mq_shrink 1 _ 5 0 0); lia].
    apply (steps_sub no_grow_pending mq_step); [now intros ? ? []|]. apply full5_reachable.
  - eapply steps_cons; [|split; [|split; [apply (mq_put_add 6 [1; 2; 3; 4; 5] 2 0 4 0 0 Unlocked [1; 2; 3; 4; 5])|]]; cbn; lia].
    eapply steps_cons; [|split; [|split; [apply mq_put_acquire|]]; cbn; lia].
    eapply steps_cons; [|split; [|split; [apply (mq_grow_done 2 1)|]]; cbn; lia].
    eapply steps_cons; [|split; [|split; [apply mq_grow_release|]]; cbn; lia].
    eapply steps_cons; [|split; [|split; [apply (mq_grow 2 _ 1); lia|]]; cbn; lia].
    apply steps_refl.
Qed.
Example C46_process_example : steps no_grow_pending (mq_init 5) full5 /\
  steps no_grow_pending full5 (mkMq [2; 3; 4; 5] 3 0 1 0 0 Unlocked [1; 2; 3; 4; 5] [1]).
Proof.
  split; [apply full5_reachable|]. unfold full5.
  eapply steps_cons; [|split; [apply (mq_get_done [2; 3; 4; 5] 3 0 2 0 0)|cbn; discriminate]].
  eapply steps_cons; [|split; [apply (mq_get_recv 1 [2; 3; 4; 5] 3 0 2 0 0 Unlocked [1; 2; 3; 4; 5] [])|cbn; discriminate]].
  eapply steps_cons; [|split; [apply (mq_shrink_break 1)|cbn; discriminate]].
  eapply steps_cons; [|split; [apply (mq_shrink 3 _ 5 0 0); lia|cbn; discriminate]].
  apply steps_refl.
Qed.
