(** What a pipeline makes of the element at one index of its MapDataset. *)
From Verif Require Import Base MapDatasets Iter Multiprocess.

(** The number of elements of the MapDataset that is read. *)
Fixpoint tree_len {A} (t : ITree A) : Z :=
  match t with
  | TSource ds _ _ _ => mlen ds
  | TMap _ t => tree_len t | TMapWithIndex _ t => tree_len t | TRandomMap _ _ t => tree_len t
  | TFilter _ t => tree_len t | TBatch _ _ _ t => tree_len t
  end.

(** What becomes of the element at index [i]: [Ok (Some e)] it is output as [e]; [Ok None] it is filtered out.  A random
    map uses the generator with the element's index. *)
Fixpoint outcome {A} (t : ITree A) (i : Z) : res (option (option A)) :=
  match t with
  | TSource ds allow_nones _ _ =>
      let! e := mget ds i in
      Ok (if allow_nones || match e with Some _ => true | None => false end then Some e else None)
  | TMap f t =>
      let! o := outcome t i in
      match o with Some e => let! b := map_element f e in Ok (Some b) | None => Ok None end
  | TMapWithIndex f t =>
      let! o := outcome t i in
      match o with Some e => let! b := map_element (f i) e in Ok (Some b) | None => Ok None end
  | TRandomMap f rng t =>
      let! o := outcome t i in
      match o with Some e => let! b := map_element (fun x => f x (rng i)) e in Ok (Some b) | None => Ok None end
  | TFilter f t =>
      let! o := outcome t i in
      match o with Some e => let! b := f e in Ok (if b then Some e else None) | None => Ok None end
  | TBatch _ _ _ _ => Raise NotImplementedError
  end.
(** [outs] are the outcomes at all indices. *)
Definition outcomes {A} (t : ITree A) (outs : list (option (option A))) : Prop :=
  Forall2 (fun i o => outcome t i = Ok o) (zrange 0 (Z.to_nat (tree_len t))) outs.
(** The elements not filtered out. *)
Definition emitted {A} (outs : list (option A)) : list A := flat_map (fun o => match o with Some e => [e] | None => [] end) outs.

(** Pipelines that treat elements one by one and do not count them: no map_with_index, no batch. *)
Fixpoint elementwise {A} (t : ITree A) : bool :=
  match t with
  | TSource _ _ _ _ => true
  | TMap _ t => elementwise t | TRandomMap _ _ t => elementwise t | TFilter _ t => elementwise t
  | TMapWithIndex _ _ => false | TBatch _ _ _ _ => false
  end.
(** No random_map. *)
Fixpoint not_random {A} (t : ITree A) : bool :=
  match t with
  | TSource _ _ _ _ => true
  | TRandomMap _ _ _ => false
  | TMap _ t => not_random t | TMapWithIndex _ t => not_random t | TFilter _ t => not_random t | TBatch _ _ _ t => not_random t
  end.

(** Every [W]-th element of [m], after the first [c]. *)
Fixpoint stride {A} (W c : nat) (m : list A) : list A :=
  match m with
  | [] => []
  | x :: m' => match c with O => x :: stride W (W - 1) m' | S c' => stride W c' m' end
  end.
(** What the workers get: worker [i] the elements at [i], [i + W], [i + 2 W], ... *)
Definition strides {A} (W : nat) (m : list A) : list (list A) := map (fun i => stride W i m) (seq 0 W).
