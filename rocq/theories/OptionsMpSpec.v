(** What the user writes, and which options are to apply. *)
From Verif Require Import Base Options OptionsMp Prop_Options.

(** A pipeline as the user writes it: transformations, named by numbers, and WithOptionsIterDataset. *)
Inductive upipe : Type :=
| UOp (id : nat) (parents : list upipe)
| UWith (e : explicit) (parent : upipe).
Fixpoint to_m (p : upipe) : mpipe :=
  match p with UOp id ps => MOp id (map to_m ps) | UWith e p => MWith (make_options e) (to_m p) end.
(** The options written in it, the ones closest to the output first, parents from left to right. *)
Fixpoint uwritten (p : upipe) : list explicit :=
  match p with UOp _ ps => flat_map uwritten ps | UWith e p => e :: uwritten p end.
Fixpoint uids (p : upipe) : list nat :=
  match p with UOp id ps => id :: flat_map uids ps | UWith _ p => uids p end.
(** Nowhere do two parents of one dataset set the same option differently. *)
Inductive consistent : upipe -> Prop :=
| c_op id ps : (forall p, In p ps -> consistent p) ->
    (forall p q f v w, In p ps -> In q ps -> first_set (uwritten p) f = Some v -> first_set (uwritten q) f = Some w -> v = w) ->
    consistent (UOp id ps)
| c_with e p : consistent p -> consistent (UWith e p).

(** What follows after a dataset: transformations and options, the last one first. *)
Definition after := list (nat + explicit).
Fixpoint on_top (a : after) (p : mpipe) : mpipe :=
  match a with
  | [] => p
  | inl id :: a => MOp id [on_top a p]
  | inr e :: a => MWith (make_options e) (on_top a p)
  end.
Fixpoint awritten (a : after) : list explicit := match a with [] => [] | inl _ :: a => awritten a | inr e :: a => e :: awritten a end.
Fixpoint aids (a : after) : list nat := match a with [] => [] | inl id :: a => id :: aids a | inr _ :: a => aids a end.

(** The value of an option, given what was written, the strongest first. *)
Definition chosen (l : list explicit) (f : field) : value := match first_set l f with Some v => v | None => default_value f end.
