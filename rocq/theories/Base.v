(** Shared prelude: exceptions as values, integer ranges, list helpers. *)
From Coq Require Export ZArith List Bool Lia Permutation Arith.
From Coq Require Export ZifyBool ZifyNat ZifyN.
Export ListNotations.
Open Scope Z_scope.

Ltac Zify.zify_post_hook ::= Z.div_mod_to_equations.

(** Exceptions raised by the Python code (only the class is modelled). *)
Inductive exn : Type :=
| ValueError
| IndexError
| TypeError
| KeyError
| RuntimeError
| NotImplementedError
| ZeroDivisionError
| AssertionError
| InternalError        (* exceptions.PyGrainInternalError *)
| UserError.            (* raised by a user supplied callable *)

(** Result of a Python call.  [OutOfFuel] is not a Python outcome: it marks a
    loop that has not finished within the fuel given to the model. *)
Inductive res (A : Type) : Type :=
| Ok (a : A)
| Raise (e : exn)
| OutOfFuel.
Arguments Ok {A}. Arguments Raise {A}. Arguments OutOfFuel {A}.

Definition bind {A B} (r : res A) (f : A -> res B) : res B :=
  match r with Ok a => f a | Raise e => Raise e | OutOfFuel => OutOfFuel end.
Notation "'let!' x ':=' r 'in' k" := (bind r (fun x => k))
  (at level 200, x pattern, right associativity).

(** Evaluate a list of calls left to right, stopping at the first failure. *)
Fixpoint sequence {A} (l : list (res A)) : res (list A) :=
  match l with
  | [] => Ok []
  | r :: l' => let! a := r in let! rest := sequence l' in Ok (a :: rest)
  end.

(** [zrange a n] = [a; a+1; ...; a+n-1]  (Python [range(a, a+n)]). *)
Definition zrange (a : Z) (n : nat) : list Z := map (fun i => a + Z.of_nat i) (seq 0 n).

Lemma zrange_length a n : length (zrange a n) = n.
Proof. unfold zrange. now rewrite map_length, seq_length. Qed.

Lemma in_zrange a n x : In x (zrange a n) <-> a <= x < a + Z.of_nat n.
Proof.
  unfold zrange. rewrite in_map_iff. split.
  - intros (i & <- & Hi). apply in_seq in Hi. lia.
  - intros H. exists (Z.to_nat (x - a)). split; [lia|]. apply in_seq. lia.
Qed.

Lemma NoDup_map_inj {A B} (f : A -> B) l :
  (forall x y, In x l -> In y l -> f x = f y -> x = y) -> NoDup l -> NoDup (map f l).
Proof.
  intros Hinj Hnd. induction Hnd as [|x l Hx Hnd IH]; simpl; constructor.
  - rewrite in_map_iff. intros (y & Heq & Hy). apply Hx.
    rewrite (Hinj x y); [easy|now left|now right|congruence].
  - apply IH. intros; apply Hinj; simpl; auto.
Qed.

Lemma NoDup_zrange a n : NoDup (zrange a n).
Proof. apply NoDup_map_inj; [intros; lia|apply seq_NoDup]. Qed.

Lemma zrange_S a n : zrange a (S n) = a :: zrange (a + 1) n.
Proof.
  unfold zrange. cbn [seq map]. f_equal; [lia|].
  rewrite <- seq_shift, map_map. apply map_ext. intros; lia.
Qed.

Lemma zrange_app a n m : zrange a (n + m) = zrange a n ++ zrange (a + Z.of_nat n) m.
Proof.
  revert a. induction n as [|n IH]; intros a.
  - cbn [plus app zrange seq map]. now replace (a + Z.of_nat 0) with a by lia.
  - cbn [plus]. rewrite !zrange_S, IH. cbn [app].
    now replace (a + 1 + Z.of_nat n) with (a + Z.of_nat (S n)) by lia.
Qed.

Lemma nth_error_zrange a n i :
  nth_error (zrange a n) i = if (i <? n)%nat then Some (a + Z.of_nat i) else None.
Proof.
  destruct (Nat.ltb_spec i n).
  - unfold zrange. rewrite nth_error_map, (nth_error_nth' _ 0%nat) by now rewrite seq_length.
    rewrite seq_nth by easy. reflexivity.
  - apply nth_error_None. now rewrite zrange_length.
Qed.

(** An injective self-map of a finite duplicate-free list permutes it. *)
Lemma inj_self_permutation {A} (f : A -> A) l :
  NoDup l -> (forall x, In x l -> In (f x) l) ->
  (forall x y, In x l -> In y l -> f x = f y -> x = y) ->
  Permutation (map f l) l.
Proof.
  intros Hnd Hin Hinj. apply NoDup_Permutation_bis.
  - now apply NoDup_map_inj.
  - rewrite map_length. lia.
  - intros y Hy. apply in_map_iff in Hy as (x & <- & Hx). auto.
Qed.
