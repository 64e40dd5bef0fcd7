(** What mp_prefetch over interleaved datasets returns. *)
From Verif Require Import Base InterleaveSpec MultiprocessSpec.

(** [ls]: the elements of the datasets.  Worker [i] of [W] interleaves the datasets i, i + W, i + 2 W, ..., at most [cycle_length] at
    a time; the elements of the workers are interleaved. [outs]: what the workers give; [out]: what comes out. *)
Definition files_read {A} (W cycle_length : nat) (ls : list (list A)) (outs : list (list (nat * A))) (out : list (nat * A)) : Prop :=
  length outs = W /\
  (forall i o, nth_error outs i = Some o -> interleaved (Nat.min cycle_length (length (stride W i ls))) (stride W i ls) o) /\
  interleaved W (map (map snd) outs) out.
