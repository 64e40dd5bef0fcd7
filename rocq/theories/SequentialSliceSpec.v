(** Which elements the workers of mp_prefetch(sequential_slice=True) are to read, for C58. *)
From Verif Require Import Base MapDatasets Iter Multiprocess MultiprocessSpec SequentialSlice.

(** [l] cut in [W] consecutive parts, the first ones one longer if the length is not a multiple of [W]. *)
Definition part_start (n W i : nat) : nat := (i * (n / W) + Nat.min i (n mod W))%nat.
Definition part_size (n W i : nat) : nat := (n / W + if (i <? n mod W)%nat then 1 else 0)%nat.
Definition part {A} (W : nat) (l : list A) (i : nat) : list A :=
  firstn (part_size (length l) W i) (skipn (part_start (length l) W i) l).
Definition parts {A} (W : nat) (l : list A) : list (list A) := map (part W l) (seq 0 W).

(** Sources as they were built. *)
Definition whole {S} (o : source_obj S) : Prop :=
  match o with
  | SourceObj original now => original = now
  | RangeObj _ start stop step a b => a = start /\ b = stop
  end.

(** MapDatasets made of a source, map and filter; and shuffle if [shuffle]. *)
Fixpoint plain (shuffle : bool) {S A} (t : MTree S A) : bool :=
  match t with
  | MSource _ => true
  | MMap _ t => plain shuffle t
  | MFilter _ t => plain shuffle t
  | MShuffle _ _ t => shuffle && plain shuffle t
  | _ => false
  end.
(** Without its shuffles. *)
Fixpoint unshuffled {S A} (t : MTree S A) : MTree S A :=
  match t in MTree _ A return MTree S A with
  | MSource k => MSource k
  | MMap f t => MMap f (unshuffled t)
  | MMapWithIndex f t => MMapWithIndex f (unshuffled t)
  | MRandomMap f rng t => MRandomMap f rng (unshuffled t)
  | MFilter f t => MFilter f (unshuffled t)
  | MShuffle _ _ t => unshuffled t
  | MSlice start step parent_length length t => MSlice start step parent_length length (unshuffled t)
  | MRepeat reseed parent_length length t => MRepeat reseed parent_length length (unshuffled t)
  | MBatch pushdown batch_size length batch_fn t => MBatch pushdown batch_size length batch_fn (unshuffled t)
  | MMixed sel t u => MMixed sel (unshuffled t) (unshuffled u)
  end.
