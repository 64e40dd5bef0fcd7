(** Model of the pure Python tree helpers of grain/_src/core/tree_lib.py:87-237 (used
    when jax is not installed) and of map_structure_up_to (lines 240-263). *)
From Verif Require Import Base.

(** A nested structure.  [tag] stands for the type of the container (list, tuple, a
    namedtuple class; dict, defaultdict, ...), keys are numbers.  Values of other types are
    leaves. *)
Inductive tree (A : Type) : Type :=
| Leaf (a : A)
| Seq (tag : nat) (items : list (tree A))
| Dict (tag : nat) (items : list (nat * tree A)).
Arguments Leaf {A}. Arguments Seq {A}. Arguments Dict {A}.

(** flatten, tree_lib.py:114-124. *)
Fixpoint flatten {A} (t : tree A) : list A :=
  match t with
  | Leaf a => [a]
  | Seq _ items => flat_map flatten items
  | Dict _ items => flat_map (fun kv => flatten (snd kv)) items
  end.

(** _unflatten_iter_as, tree_lib.py:129-148; the second component is what the iterator
    still holds.  An exhausted iterator inside a generator expression is a RuntimeError
    (the StopIteration of a structure that is a single leaf is modelled as RuntimeError
    too). *)
Fixpoint unflatten_iter_as {A B} (t : tree A) (l : list B) : res (tree B * list B) :=
  match t with
  | Leaf _ => match l with [] => Raise RuntimeError | b :: l' => Ok (Leaf b, l') end
  | Seq tag items =>
      let! (items', l') :=
        (fix go items l :=
           match items with
           | [] => Ok ([], l)
           | x :: xs => let! (y, l1) := unflatten_iter_as x l in let! (ys, l2) := go xs l1 in Ok (y :: ys, l2)
           end) items l in
      Ok (Seq tag items', l')
  | Dict tag items =>
      let! (items', l') :=
        (fix go items l :=
           match items with
           | [] => Ok ([], l)
           | (k, x) :: xs => let! (y, l1) := unflatten_iter_as x l in let! (ys, l2) := go xs l1 in Ok ((k, y) :: ys, l2)
           end) items l in
      Ok (Dict tag items', l')
  end.
(** unflatten_as, tree_lib.py:126-127. *)
Definition unflatten_as {A B} (t : tree A) (l : list B) : res (tree B) :=
  let! (t', _) := unflatten_iter_as t l in Ok t'.

(** The first items of the columns, None as soon as one is empty (Python's zip). *)
Fixpoint heads {X} (cols : list (list X)) : option (list X) :=
  match cols with
  | [] => Some []
  | [] :: _ => None
  | (x :: _) :: cols' => match heads cols' with Some xs => Some (x :: xs) | None => None end
  end.
Definition lookup {X} (k : nat) (items : list (nat * X)) : option X :=
  match find (fun kv => Nat.eqb (fst kv) k) items with Some kv => Some (snd kv) | None => None end.
(** The items of trees that must be sequences (zip over another type is modelled as
    TypeError: iterating over the keys of a mapping is not modelled). *)
Definition seq_items {A} (t : tree A) : res (list (tree A)) :=
  match t with Seq _ items => Ok items | _ => Raise TypeError end.
Definition dict_items {A} (t : tree A) : res (list (nat * tree A)) :=
  match t with Dict _ items => Ok items | _ => Raise TypeError end.
(** etils' epy.zip_dict (outside this repository): KeyError unless all the dictionaries
    have the same keys; in the order of the first. *)
Definition same_keys {X} (items : list (nat * X)) (others : list (list (nat * X))) : bool :=
  forallb (fun o => forallb (fun kv => existsb (Nat.eqb (fst kv)) (map fst items)) o &&
                    forallb (fun kv => existsb (Nat.eqb (fst kv)) (map fst o)) items) others.

(** map_structure(f, a, *others), tree_lib.py:89-112, without is_leaf.  At a leaf of the first
    tree [f] is given whatever the other trees hold there. *)
Fixpoint map_structure {A B} (f : A -> list (tree A) -> res B) (a : tree A) (others : list (tree A)) : res (tree B) :=
  match a with
  | Leaf x => let! y := f x others in Ok (Leaf y)
  | Seq tag items =>
      let! cols := sequence (map seq_items others) in
      let! items' :=
        (fix go (items : list (tree A)) (cols : list (list (tree A))) : res (list (tree B)) :=
           match items with
           | [] => Ok []
           | x :: xs =>
               match heads cols with
               | None => Ok []
               | Some hs => let! y := map_structure f x hs in let! ys := go xs (map (@tl _) cols) in Ok (y :: ys)
               end
           end) items cols in
      Ok (Seq tag items')
  | Dict tag items =>
      let! dicts := sequence (map dict_items others) in
      if negb (same_keys items dicts) then Raise KeyError
      else
        let! items' :=
          (fix go (items : list (nat * tree A)) : res (list (nat * tree B)) :=
             match items with
             | [] => Ok []
             | (k, x) :: xs =>
                 let! hs := sequence (map (fun d => match lookup k d with Some t => Ok t | None => Raise KeyError end) dicts) in
                 let! y := map_structure f x hs in let! ys := go xs in Ok ((k, y) :: ys)
             end) items in
        Ok (Dict tag items')
  end.

(** The most common use: one tree. *)
Definition map_leaves {A B} (f : A -> res B) (t : tree A) : res (tree B) := map_structure (fun x _ => f x) t [].

(** _flatten_with_path, tree_lib.py:187-206: a path is a list of indices and keys. *)
Inductive step_of : Type := Idx (i : nat) | Key (k : nat).
Fixpoint flatten_with_path {A} (prefix : list step_of) (t : tree A) : list (list step_of * A) :=
  match t with
  | Leaf a => [(prefix, a)]
  | Seq _ items =>
      (fix go (i : nat) (items : list (tree A)) : list (list step_of * A) :=
         match items with
         | [] => []
         | x :: xs => flatten_with_path (prefix ++ [Idx i]) x ++ go (S i) xs
         end) 0%nat items
  | Dict _ items => flat_map (fun kv => flatten_with_path (prefix ++ [Key (fst kv)]) (snd kv)) items
  end.

(** _map_structure_with_path, tree_lib.py:208-237, without is_leaf. *)
Fixpoint map_structure_with_path {A B} (prefix : list step_of) (f : list step_of -> A -> list (tree A) -> res B)
    (a : tree A) (others : list (tree A)) : res (tree B) :=
  match a with
  | Leaf x => let! y := f prefix x others in Ok (Leaf y)
  | Seq tag items =>
      let! cols := sequence (map seq_items others) in
      let! items' :=
        (fix go (i : nat) (items : list (tree A)) (cols : list (list (tree A))) : res (list (tree B)) :=
           match items with
           | [] => Ok []
           | x :: xs =>
               match heads cols with
               | None => Ok []
               | Some hs => let! y := map_structure_with_path (prefix ++ [Idx i]) f x hs in
                            let! ys := go (S i) xs (map (@tl _) cols) in Ok (y :: ys)
               end
           end) 0%nat items cols in
      Ok (Seq tag items')
  | Dict tag items =>
      let! dicts := sequence (map dict_items others) in
      if negb (same_keys items dicts) then Raise KeyError
      else
        let! items' :=
          (fix go (items : list (nat * tree A)) : res (list (nat * tree B)) :=
             match items with
             | [] => Ok []
             | (k, x) :: xs =>
                 let! hs := sequence (map (fun d => match lookup k d with Some t => Ok t | None => Raise KeyError end) dicts) in
                 let! y := map_structure_with_path (prefix ++ [Key k]) f x hs in let! ys := go xs in Ok ((k, y) :: ys)
             end) items in
        Ok (Dict tag items')
  end.

(** _assert_same_structure, tree_lib.py:150-185.  A type is its tag ([isinstance(a,
    type(b))] for subclasses is not modelled); a leaf [a] accepts any [b]. *)
Fixpoint assert_same_structure {A} (a b : tree A) : bool :=
  match a with
  | Leaf _ => true
  | Seq tag items =>
      match b with
      | Seq tag' items' =>
          Nat.eqb tag tag' && Nat.eqb (length items) (length items') &&
          (fix go (items items' : list (tree A)) : bool :=
             match items, items' with
             | x :: xs, y :: ys => assert_same_structure x y && go xs ys
             | _, _ => true
             end) items items'
      | _ => false
      end
  | Dict tag items =>
      match b with
      | Dict tag' items' =>
          Nat.eqb tag tag' && same_keys items [items'] &&
          (fix go (items : list (nat * tree A)) : bool :=
             match items with
             | [] => true
             | (k, x) :: xs => match lookup k items' with Some y => assert_same_structure x y | None => false end && go xs
             end) items
      | _ => false
      end
  end.

(** map_structure_up_to, tree_lib.py:240-263. *)
Fixpoint map_structure_up_to {A B C} (shallow : tree C) (f : tree A -> res B) (t : tree A) : res (tree B) :=
  match shallow with
  | Leaf _ => let! y := f t in Ok (Leaf y)
  | Seq tag items =>
      let! ts := seq_items t in
      let! items' :=
        (fix go (items : list (tree C)) (ts : list (tree A)) : res (list (tree B)) :=
           match items, ts with
           | x :: xs, y :: ys => let! z := map_structure_up_to x f y in let! zs := go xs ys in Ok (z :: zs)
           | _, _ => Ok []
           end) items ts in
      Ok (Seq tag items')
  | Dict tag items =>
      let! ts := dict_items t in
      let! items' :=
        (fix go (items : list (nat * tree C)) : res (list (nat * tree B)) :=
           match items with
           | [] => Ok []
           | (k, x) :: xs =>
               match lookup k ts with
               | None => Raise KeyError
               | Some y => let! z := map_structure_up_to x f y in let! zs := go xs in Ok ((k, z) :: zs)
               end
           end) items in
      Ok (Dict tag items')
  end.
