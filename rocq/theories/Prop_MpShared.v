(** C75: mp_prefetch and the dataset it is applied to. *)
From Verif Require Import Base Tree SharedMemory SharedMemorySpec SharedMemory_proofs Prop_SharedMemory MpShared.

Local Ltac spl := repeat match goal with |- _ /\ _ => split end.

(** Can this dataset make its batches in shared memory? *)
Definition can_share (w : world) (d : nat) : Prop :=
  match batch_function_of w d with Some MakeBatch | Some MakeBatchShm | Some (Object _) => True | _ => False end.
(** Do two datasets have the same batch function object? *)
Definition same_object (w : world) (d e : nat) : Prop := exists o, batch_function_of w d = Some (Object o) /\ batch_function_of w e = Some (Object o).
(** The batch function object of a dataset exists. *)
Definition exists_in (w : world) (d : nat) : Prop := forall o, batch_function_of w d = Some (Object o) -> (o < length (w_flags w))%nat.
(** What enabling shared memory for [d] reaches. *)
Definition reached (w : world) (d e : nat) : Prop := can_share w d /\ (e = d \/ same_object w d e).

Lemma set_nth_length {A} (x : A) l : forall i, length (set_nth i x l) = length l.
Proof. induction l as [|y l IH]; intros [|i]; cbn; auto. Qed.
Lemma set_nth_same {A} (x : A) l : forall i, (i < length l)%nat -> nth_error (set_nth i x l) i = Some x.
Proof. induction l as [|y l IH]; intros [|i] H; cbn in *; try lia; [easy|]. apply IH. lia. Qed.
Lemma set_nth_other {A} (x : A) l : forall i j, i <> j -> nth_error (set_nth i x l) j = nth_error l j.
Proof. induction l as [|y l IH]; intros [|i] [|j] H; cbn; try easy. apply IH. lia. Qed.
Lemma nth_error_nth_bool (l : list bool) i : nth i l false = match nth_error l i with Some b => b | None => false end.
Proof. revert i. induction l as [|y l IH]; intros [|i]; cbn; auto. Qed.


(** [w'] after some steps from [w]: old datasets keep their batch functions, except that [d] may share its memory if [b]. *)
Definition steps (b : bool) (d : nat) (w w' : world) : Prop :=
  (length (w_nodes w) <= length (w_nodes w'))%nat /\ length (w_flags w') = length (w_flags w) /\
  (forall e, (e < length (w_nodes w))%nat -> batch_function_of w' e = batch_function_of w e \/
     (b = true /\ e = d /\ batch_function_of w e = Some MakeBatch /\ batch_function_of w' e = Some MakeBatchShm)) /\
  forall e, (e < length (w_nodes w))%nat -> (in_shared_memory w' e = true <-> in_shared_memory w e = true \/ (b = true /\ reached w d e)).

Lemma steps_reached b d w w' e : (d < length (w_nodes w))%nat -> (e < length (w_nodes w))%nat -> steps b d w w' -> (reached w' d e <-> reached w d e).
Proof.
  intros Hd He (_ & _ & H & _). unfold reached, can_share, same_object.
  destruct (H d Hd) as [Ed|(_ & _ & Ed1 & Ed2)], (H e He) as [Ee|(_ & -> & Ee1 & Ee2)].
  - now rewrite Ed, Ee.
  - congruence.
  - rewrite Ed1, Ed2. split; intros (_ & [->|(o & H1 & _)]); try discriminate; (split; [easy|now left]).
  - rewrite Ed1, Ed2. split; intros (_ & _); (split; [easy|now left]).
Qed.
Lemma steps_trans b c d w w1 w2 : (d < length (w_nodes w))%nat -> steps b d w w1 -> steps c d w1 w2 -> steps (b || c) d w w2.
Proof.
  intros Hd H1 H2. pose proof (fun e He => steps_reached b d w w1 e Hd He H1) as Hr. destruct H1 as (L1 & F1 & B1 & S1), H2 as (L2 & F2 & B2 & S2).
  split; [lia|]. split; [congruence|]. split.
  - intros e He. destruct (B1 e He) as [E1|(Hb & Ee & E1 & E1')], (B2 e ltac:(lia)) as [E2|(Hb' & Ee' & E2 & E2')].
    + left. congruence.
    + right. rewrite Hb', orb_true_r. spl; congruence.
    + right. rewrite Hb. spl; try congruence. easy.
    + congruence.
  - intros e He. rewrite (S2 e ltac:(lia)), (S1 e He), (Hr e He), orb_true_iff. tauto.
Qed.
Lemma steps_weaken b d w w' : steps false d w w' -> (b = true -> forall e, (e < length (w_nodes w))%nat -> reached w d e -> in_shared_memory w e = true) -> steps b d w w'.
Proof.
  intros (L & F & B & S) H. split; [easy|]. split; [easy|]. split.
  - intros e He. destruct (B e He) as [E|(E & _)]; [now left|discriminate].
  - intros e He. rewrite (S e He). split; [intros [E|(E & _)]; [now left|discriminate]|]. intros [E|(Hb & E)]; left; [easy|now apply H].
Qed.
Lemma add_steps w n d : steps false d w (fst (add w n)).
Proof.
  assert (E : forall e, (e < length (w_nodes w))%nat -> batch_function_of (fst (add w n)) e = batch_function_of w e) by (intros e He; unfold batch_function_of; cbn; now rewrite nth_error_app1).
  split; [cbn; rewrite app_length; lia|]. split; [easy|]. split; [intros e He; left; now apply E|].
  intros e He. unfold in_shared_memory at 1. rewrite (E e He). split; [intros H; now left|]. intros [H|(H & _)]; [exact H|discriminate].
Qed.
(** Enabling, once. *)
Lemma enable_steps w d : (d < length (w_nodes w))%nat -> exists_in w d -> steps true d w (enable w d).
Proof.
  intros Hd Hx. unfold enable. destruct (nth_error (w_nodes w) d) as [n|] eqn:En; [|apply nth_error_None in En; lia].
  assert (Ef : batch_function_of w d = n_batch n) by (unfold batch_function_of; now rewrite En).
  destruct (n_batch n) as [[| | |o]|] eqn:Eb.
  - set (w' := mkWorld _ _). assert (E1 : batch_function_of w' d = Some MakeBatchShm).
    { unfold batch_function_of, w'. cbn [w_nodes]. now rewrite set_nth_same. }
    assert (E2 : forall e, e <> d -> batch_function_of w' e = batch_function_of w e).
    { intros e He. unfold batch_function_of, w'. cbn [w_nodes]. rewrite set_nth_other; [easy|congruence]. }
    split; [cbn; rewrite set_nth_length; lia|]. split; [easy|]. split.
    + intros e He. destruct (Nat.eq_dec e d) as [->|N]; [right; spl; auto|left; auto].
    + intros e He. unfold reached, can_share, same_object. destruct (Nat.eq_dec e d) as [->|N].
      * unfold in_shared_memory at 1. rewrite E1, Ef. split; [intros _; right; spl; auto|easy].
      * unfold in_shared_memory at 1. rewrite (E2 e N). split; [intros H; left; exact H|].
        intros [H|(_ & _ & [H|(o & H & _)])]; [exact H|easy|congruence].
  - apply steps_weaken; [split; [lia|]; split; [easy|]; split; [now left|]; intros e He; split; [now left|intros [H|(H & _)]; [exact H|discriminate]]|].
    intros _ e He (_ & [->|(o & H & _)]); [|congruence]. unfold in_shared_memory. now rewrite Ef.
  - apply steps_weaken; [split; [lia|]; split; [easy|]; split; [now left|]; intros e He; split; [now left|intros [H|(H & _)]; [exact H|discriminate]]|].
    intros _ e He (H & _). unfold can_share in H. now rewrite Ef in H.
  - assert (Ho : (o < length (w_flags w))%nat) by (apply Hx; exact Ef).
    split; [cbn; lia|]. split; [cbn; apply set_nth_length|]. split; [now left|].
    intros e He. unfold reached, can_share, same_object, in_shared_memory, batch_function_of in *. cbn [w_nodes w_flags]. rewrite En, Eb.
    destruct (nth_error (w_nodes w) e) as [n'|] eqn:En'; [|apply nth_error_None in En'; lia].
    destruct (n_batch n') as [[| | |o']|] eqn:Eb';
      try (split; [intros H; left; exact H|intros [H|(_ & _ & [->|(o2 & _ & H)])]; [exact H|congruence|congruence]]).
    rewrite !nth_error_nth_bool. destruct (Nat.eq_dec o' o) as [->|N].
    + rewrite set_nth_same by easy. split; [intros _; right; spl; [easy|easy|right; exists o; easy]|easy].
    + rewrite set_nth_other by congruence. split; [intros H; left; exact H|]. intros [H|(_ & _ & [->|(o2 & [= <-] & [= E])])]; [exact H|congruence|congruence].
  - apply steps_weaken; [split; [lia|]; split; [easy|]; split; [now left|]; intros e He; split; [now left|intros [H|(H & _)]; [exact H|discriminate]]|].
    intros _ e He (H & _). unfold can_share in H. now rewrite Ef in H.
Qed.
Lemma exists_steps b d w w' : (d < length (w_nodes w))%nat -> exists_in w d -> steps b d w w' -> exists_in w' d.
Proof. intros Hd Hx (_ & F & B & _) o E. rewrite F. apply Hx. destruct (B d Hd) as [<-|(_ & _ & _ & H)]; congruence. Qed.
Lemma steps_add b d w w' n : (d < length (w_nodes w))%nat -> steps b d w w' -> steps b d w (fst (add w' n)).
Proof. intros Hd H. rewrite <- (orb_false_r b). apply (steps_trans _ _ _ _ _ _ Hd H). apply add_steps. Qed.
Lemma steps_refl d w : steps false d w w.
Proof. split; [lia|]. split; [easy|]. split; [now left|]. intros e He. split; [now left|]. intros [H|(H & _)]; [easy|discriminate]. Qed.

Lemma loop_steps W : forall i w d, (d < length (w_nodes w))%nat -> exists_in w d ->
  steps (negb (Nat.eqb W 1) && negb (Nat.eqb i 0)) d w (fst (workers_loop W i w d)).
Proof.
  induction i as [|i IH]; intros w d Hd Hx; [rewrite andb_false_r; apply steps_refl|]. cbn [Nat.eqb negb]. rewrite andb_true_r. cbn [workers_loop].
  destruct (Nat.eqb W 1) eqn:EW; cbn [negb andb] in *.
  - cbn [add]. match goal with |- context [workers_loop W i ?x d] => set (w3 := x) end.
    assert (H3 : steps false d w w3) by (apply (steps_add false d w (fst (add w (mkNode [d] None)))); [easy|]; apply add_steps).
    specialize (IH w3 d ltac:(destruct H3; lia) (exists_steps _ _ _ _ Hd Hx H3)). destruct (workers_loop W i w3 d) as (w' & l). cbn [fst] in *.
    apply (steps_trans _ _ _ _ _ _ Hd H3 IH).
  - set (w0 := if supports w d then enable w d else w).
    assert (H0 : steps true d w w0).
    { unfold w0. destruct (supports w d) eqn:Es; [now apply enable_steps|]. apply steps_weaken; [apply steps_refl|]. intros _ e He (H & _). unfold supports, can_share in *. now destruct (batch_function_of w d). }
    cbn [add]. match goal with |- context [workers_loop W i ?x d] => set (w3 := x) end. assert (H3 : steps true d w w3).
    { apply (steps_add true d w (fst (add (fst (add w0 (mkNode [d] None))) (mkNode [length (w_nodes w0)] None)))); [easy|]. apply steps_add; [easy|]. now apply steps_add. }
    specialize (IH w3 d ltac:(destruct H3; lia) (exists_steps _ _ _ _ Hd Hx H3)). destruct (workers_loop W i w3 d) as (w' & l). cbn [fst] in *.
    apply (steps_trans _ _ _ _ _ _ Hd H3 IH).
Qed.

(** ** The theorems *)

(** mp_prefetch: an old dataset makes its batches in shared memory afterwards exactly if it did before, or if there are at least two
    workers and it is the dataset mp_prefetch was applied to, or has the same batch function object.  Nothing else changes. *)
Theorem C75_mp_prefetch W w d : (d < length (w_nodes w))%nat -> exists_in w d ->
  let w' := fst (fst (multiprocess_prefetch W w d)) in
  forall e, (e < length (w_nodes w))%nat ->
    (in_shared_memory w' e = true <-> in_shared_memory w e = true \/ ((2 <= W)%nat /\ can_share w d /\ (e = d \/ same_object w d e))).
Proof.
  intros Hd Hx w' e He. destruct W as [|W]; [cbn in w'; subst w'; split; [now left|intros [H|(H & _)]; [easy|lia]]|].
  pose proof (loop_steps (S W) (S W) w d Hd Hx) as H. subst w'. cbv beta iota delta [multiprocess_prefetch].
  destruct (workers_loop (S W) (S W) w d) as (w1 & l). cbn [fst] in H.
  assert (H' := steps_add _ d w _ (mkNode [length (w_nodes w1)] None) Hd (steps_add _ d w w1 (mkNode [] None) Hd H)). cbn [fst add] in *.
  destruct H' as (_ & _ & _ & S). rewrite (S e He). unfold reached.
  replace (negb (Nat.eqb (Datatypes.S W) 1) && negb (Nat.eqb (Datatypes.S W) 0)) with (Nat.leb 2 (Datatypes.S W)) by (destruct W as [|[|W]]; reflexivity).
  rewrite Nat.leb_le. tauto.
Qed.
(** In the worker processes the datasets are as in the main process: the worker does not enable anything. *)
Theorem C75_worker W w d : let '(w', l, _) := multiprocess_prefetch W w d in
  forall x e, In x l -> (e < length (w_nodes w'))%nat -> in_shared_memory (worker_world w' x) e = in_shared_memory w' e.
Proof.
  destruct (multiprocess_prefetch W w d) as ((w' & l) & r). intros x e _ He. unfold worker_world.
  cbn [add]. assert (Es : supports (mkWorld (w_nodes w' ++ [mkNode [x] None]) (w_flags w')) (length (w_nodes w')) = false).
  { unfold supports, batch_function_of. cbn [w_nodes]. now rewrite nth_error_app2, Nat.sub_diag by lia. }
  rewrite Es. unfold in_shared_memory, batch_function_of. cbn. now rewrite nth_error_app1.
Qed.
(** What the dataset itself outputs afterwards, in the main process: the same arrays or the same exception, under the conditions of
    C62_batch. *)
Theorem C75_same_batches {D V X} (np : numpy D V) W w d e (m : memory V) columns :
  (d < length (w_nodes w))%nat -> exists_in w d -> (e < length (w_nodes w))%nat -> in_shared_memory w e = false ->
  numpy_laws np -> sound m -> Forall (Forall whole) columns -> Forall (uniform np) columns -> 
  let w' := fst (fst (multiprocess_prefetch W w d)) in
  match snd (batch_of (X := X) np w e m columns) with
  | Ok ls => exists ls', snd (batch_of np w' e m columns) = Ok ls' /\ (ls' = ls \/ Forall2 same_leaf ls ls')
  | Raise x => snd (batch_of (X := X) np w' e m columns) = Raise x
  | OutOfFuel => False
  end.
Proof.
  intros Hd Hx He Hs Hl Hm Hw Hu w'. unfold batch_of. rewrite Hs. pose proof (C62_batch (X := X) np m columns Hl Hm Hw Hu) as H.
  destruct (in_shared_memory w' e).
  - destruct (snd (make_batch np false m columns)) as [ls|x|]; [|destruct H as (m' & ->); reflexivity|easy].
    destruct H as (m' & ls' & new & -> & F & _). exists ls'. split; [reflexivity|now right].
  - destruct (snd (make_batch np false m columns)) as [ls|x|]; [exists ls; auto|easy|easy].
Qed.

(** A source (0), batches of it (1), a map over them (2), and other batches with an object of the user's (3, 4). *)
Definition some_world : world :=
  mkWorld [mkNode [] None; mkNode [0%nat] (Some MakeBatch); mkNode [1%nat] None; mkNode [0%nat] (Some (Object 0)); mkNode [2%nat] (Some (Object 0))] [false].
Example C75_example : let sh w := map (in_shared_memory w) (seq 0 5) in let after W d := fst (fst (multiprocess_prefetch W some_world d)) in
  exists_in some_world 1 /\ exists_in some_world 3 /\ sh some_world = [false; false; false; false; false] /\
  sh (after 2%nat 1%nat) = [false; true; false; false; false] /\ sh (after 1%nat 1%nat) = [false; false; false; false; false] /\
  sh (after 3%nat 2%nat) = [false; false; false; false; false] /\ sh (after 2%nat 3%nat) = [false; false; false; true; true].
Proof. cbv zeta. spl; try reflexivity; intros o; cbn; intros [= <-] || easy; cbn; lia. Qed.

(** Calling mp_prefetch with two or more workers changes the dataset it is called on: the batches this dataset outputs afterwards,
    read without workers, differ from those before, for every number of workers ... *)
Theorem C75_changed_refuted W : (2 <= W)%nat -> let w' := fst (fst (multiprocess_prefetch W some_world 1)) in
  let columns := [[mkArray I8 [1] [1]; mkArray I64 [1] [300]]] in
  snd (batch_of (X := Z) tiny some_world 1 before columns) = Ok [LArray true (mkArray I64 [2; 1] [1; 300])] /\
  snd (batch_of (X := Z) tiny w' 1 before columns) = Ok [LShared 9 (mkArray I8 [2; 1] [1; 44])].
Proof.
  intros HW w' columns. split; [reflexivity|]. unfold batch_of.
  assert (E : in_shared_memory w' 1 = true).
  { apply C75_mp_prefetch; [cbn; lia|intros o; cbn; discriminate|cbn; lia|]. right. spl; [easy|exact I|now left]. }
  rewrite E. reflexivity.
Qed.
(** ... and with one worker its batches are not made in shared memory, although the worker asks for it (process_prefetch.py:225). *)
Theorem C75_one_worker_refuted w d : (d < length (w_nodes w))%nat -> exists_in w d -> in_shared_memory w d = false ->
  let '(w', l, _) := multiprocess_prefetch 1 w d in l <> [] /\ forall x, In x l -> in_shared_memory (worker_world w' x) d = false.
Proof.
  intros Hd Hx Hf. pose proof (C75_mp_prefetch 1 w d Hd Hx d Hd) as H. pose proof (C75_worker 1 w d) as Hw.
  assert (Hl : (length (w_nodes w) <= length (w_nodes (fst (fst (multiprocess_prefetch 1 w d)))))%nat) by (cbn; rewrite !app_length; lia).
  assert (Hn : snd (fst (multiprocess_prefetch 1 w d)) <> []) by discriminate.
  destruct (multiprocess_prefetch 1 w d) as ((w' & l) & r). cbn [fst snd] in *. split; [exact Hn|]. intros x Hin. rewrite Hw by (auto; lia).
  destruct (in_shared_memory w' d); [|easy]. destruct (proj1 H eq_refl) as [E|(E & _)]; [congruence|lia].
Qed.
