(** What a transformation that keeps nothing between its elements does: which ones there are,
    and what each makes of the list of its parent's elements. *)
From Verif Require Import Base Spec Iter ElasticPipe.

(** map, filter and batch, and any of them after another.  [T] is what the transformation makes
    of the elements. *)
Inductive plain : forall {A B}, stage A B -> (list A -> list B) -> Prop :=
| plain_same A : plain (@same_stage A) (fun l => l)
| plain_map A B (f : A -> res (option B)) g : (forall x, f x = Ok (g x)) ->
    plain (map_stage f) (map (fun e => match e with Some x => g x | None => None end))
| plain_filter A (f : A -> res bool) g : (forall x, f x = Ok (g x)) -> plain (filter_stage None f) (List.filter g)
| plain_batch A B b drop (make : list A -> res B) g : 0 < b -> (forall l, make l = Ok (g l)) ->
    plain (batch_stage b drop make) (fun l => map g ((if drop then full_chunks else chunks) (Z.to_nat b) l))
| plain_then A B C (a : stage A B) (b : stage B C) T U : plain a T -> plain b U -> plain (then_stage a b) (fun l => U (T l)).
