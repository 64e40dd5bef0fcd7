(** Specification for C61 and C62: segments, what an element owns, what "the same element" means. *)
From Verif Require Import Base Tree SharedMemory.

Definition names {V} (m : memory V) : list nat := map fst (m_segs m).
(** Names are different and were handed out by create. *)
Definition sound {V} (m : memory V) : Prop := NoDup (names m) /\ Forall (fun n => n < m_next m)%nat (names m).
(** The segments that are not in [gone]. *)
Definition others {V} (gone : list nat) (segs : list (nat * list V)) : list (nat * list V) :=
  filter (fun s => negb (existsb (Nat.eqb (fst s)) gone)) segs.
(** Freeing segments one after the other: each must exist. *)
Fixpoint free {V} (m : memory V) (gone : list nat) : res (memory V) :=
  match gone with [] => Ok m | n :: gone => let! m' := unlink m n in free m' gone end.

Section Spec.
Context {D V X : Type}.
(** An array has as many elements as its shape says. *)
Definition whole (a : array D V) : Prop := Forall (fun n => 0 <= n) (a_shape a) /\ Z.of_nat (length (a_data a)) = prod (a_shape a).
(** The segments of the SharedMemoryArrays among the leaves; those of the metadata. *)
Definition owned (ls : list (leaf D V X)) : list nat := flat_map (fun l => match l with LShared n _ => [n] | _ => [] end) ls.
Definition metas (ls : list (leaf D V X)) : list nat := flat_map (fun l => match l with LMeta n _ _ => [n] | _ => [] end) ls.
(** Leaves of an element made by user code: arrays, whole SharedMemoryArrays, other objects. *)
Definition user_leaf (m : memory V) (l : leaf D V X) : Prop :=
  match l with
  | LArray _ a => whole a
  | LShared n a => whole a /\ seg m n = Some (a_data a)
  | LMeta _ _ _ => False
  | LOther _ => True
  end.
(** The same array, wherever it is; or the same object. *)
Definition same_leaf (l l' : leaf D V X) : Prop :=
  match l, l' with
  | LArray _ a, (LArray _ b | LShared _ b) => a = b
  | LShared _ a, (LArray _ b | LShared _ b) => a = b
  | LOther x, LOther y => x = y
  | _, _ => False
  end.
End Spec.
