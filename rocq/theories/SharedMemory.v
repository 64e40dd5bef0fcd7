(** Model of grain/_src/python/ipc/shared_memory_array.py and of batching into shared memory,
    grain/_src/python/dataset/transformations/batch.py:177-223. *)
From Verif Require Import Base Tree.

(** What is used of numpy: element types [D] and elements [V].  [np_result] is the element type of np.stack without out=
    (np.result_type), [np_same_kind a b] is np.can_cast(a, b, "same_kind"), [np_cast d] converts an element to [d].
    [np_broadcast from to data]: the elements of an array of shape [from] broadcast to the shape [to], if numpy allows it. *)
Record numpy (D V : Type) := mkNumpy {
  np_itemsize : D -> Z;
  np_hasobject : D -> bool;
  np_is_string : D -> bool;                (* dtype.kind in ("U", "S") *)
  np_result : list D -> D;
  np_same_kind : D -> D -> bool;
  np_cast : D -> V -> V;
  np_broadcast : list Z -> list Z -> list V -> option (list V) }.
Arguments np_itemsize {D V}. Arguments np_hasobject {D V}. Arguments np_is_string {D V}. Arguments np_result {D V}.
Arguments np_same_kind {D V}. Arguments np_cast {D V}. Arguments np_broadcast {D V}.

(** An array: element type, shape and the elements in C order. *)
Record array (D V : Type) := mkArray { a_dtype : D; a_shape : list Z; a_data : list V }.
Arguments mkArray {D V}. Arguments a_dtype {D V}. Arguments a_shape {D V}. Arguments a_data {D V}.

(** math.prod *)
Definition prod (shape : list Z) : Z := fold_right Z.mul 1 shape.

(** The leaves of an element: an array (and whether it is contiguous), a SharedMemoryArray (with the name of its segment), a
    SharedMemoryArrayMetadata, anything else. *)
Inductive leaf (D V X : Type) :=
| LArray (contiguous : bool) (a : array D V)
| LShared (name : nat) (a : array D V)
| LMeta (name : nat) (dtype : D) (shape : list Z)
| LOther (x : X).
Arguments LArray {D V X}. Arguments LShared {D V X}. Arguments LMeta {D V X}. Arguments LOther {D V X}.

(** The segments that exist (/dev/shm), with their elements.  [m_next] is a name that was never used. *)
Record memory (V : Type) := mkMem { m_next : nat; m_segs : list (nat * list V) }.
Arguments mkMem {V}. Arguments m_next {V}. Arguments m_segs {V}.
Definition seg {V} (m : memory V) (name : nat) : option (list V) := lookup name (m_segs m).
(** SharedMemory(create=True): a new name. *)
Definition create {V} (m : memory V) (data : list V) : memory V * nat :=
  (mkMem (S (m_next m)) (m_segs m ++ [(m_next m, data)]), m_next m).
(** SharedMemory.unlink; a FileNotFoundError is an OSError, here KeyError. *)
Definition unlink {V} (m : memory V) (name : nat) : res (memory V) :=
  match seg m name with
  | Some _ => Ok (mkMem (m_next m) (filter (fun s => negb (Nat.eqb (fst s) name)) (m_segs m)))
  | None => Raise KeyError
  end.

Section SharedMemory.
Context {D V X : Type}.
Variable np : numpy D V.

(** SharedMemoryArray.__new__, lines 67-75, filled with [data].  SharedMemory(create=True, size=0) is a ValueError. *)
Definition new_shared (m : memory V) (a : array D V) : res (memory V * nat) :=
  if prod (a_shape a) * np_itemsize np (a_dtype a) <=? 0 then Raise ValueError
  else Ok (create m (a_data a)).

(** _copy_leaf_to_shm, lines 190-205.  The metadata of a SharedMemoryArray (lines 100-106) is the name of the segment and the
    shape and type of the array. *)
Definition copy_leaf_to_shm (min_size : Z) (m : memory V) (l : leaf D V X) : res (memory V * leaf D V X) :=
  match l with
  | LShared name a => Ok (m, LMeta name (a_dtype a) (a_shape a))
  | LArray contiguous a =>
      if np_hasobject np (a_dtype a) || negb contiguous || (prod (a_shape a) =? 0)
         || (prod (a_shape a) * np_itemsize np (a_dtype a) <? min_size)
      then Ok (m, l)
      else let! (m', name) := new_shared m a in Ok (m', LMeta name (a_dtype a) (a_shape a))
  | LMeta _ _ _ => Ok (m, l)
  | LOther _ => Ok (m, l)
  end.

(** _open_leaf_from_shm, lines 215-220, and from_metadata, lines 93-98: an array of the given shape over the start of the
    segment. *)
Definition open_leaf_from_shm (m : memory V) (l : leaf D V X) : res (leaf D V X) :=
  match l with
  | LMeta name d shape =>
      match seg m name with
      | Some data => if Z.of_nat (length data) <? prod shape then Raise TypeError
                     else Ok (LShared name (mkArray d shape (firstn (Z.to_nat (prod shape)) data)))
      | None => Raise KeyError
      end
  | _ => Ok l
  end.

(** _unlink_shm_if_metadata, lines 228-230. *)
Definition unlink_leaf (m : memory V) (l : leaf D V X) : res (memory V) :=
  match l with LMeta name _ _ => unlink m name | _ => Ok m end.

(** tree_lib.map_structure of the three: the leaves one after the other (C51_map), and the structure again. *)
Fixpoint copy_leaves (min_size : Z) (m : memory V) (ls : list (leaf D V X)) : res (memory V * list (leaf D V X)) :=
  match ls with
  | [] => Ok (m, [])
  | l :: ls => let! (m1, l') := copy_leaf_to_shm min_size m l in
               let! (m2, ls') := copy_leaves min_size m1 ls in Ok (m2, l' :: ls')
  end.
Definition copy_to_shm (min_size : Z) (m : memory V) (t : tree (leaf D V X)) : res (memory V * tree (leaf D V X)) :=
  let! (m', ls) := copy_leaves min_size m (flatten t) in
  let! t' := unflatten_as t ls in Ok (m', t').
Definition open_from_shm (m : memory V) (t : tree (leaf D V X)) : res (tree (leaf D V X)) :=
  map_leaves (open_leaf_from_shm m) t.
Fixpoint unlink_leaves (m : memory V) (ls : list (leaf D V X)) : res (memory V) :=
  match ls with [] => Ok m | l :: ls => let! m' := unlink_leaf m l in unlink_leaves m' ls end.
Definition unlink_shm (m : memory V) (t : tree (leaf D V X)) : res (memory V) := unlink_leaves m (flatten t).

(** ** Batching *)

(** np.stack(xs): the shapes must agree. *)
Fixpoint all_shape (shape : list Z) (xs : list (array D V)) : bool :=
  match xs with
  | [] => true
  | x :: xs => (if list_eq_dec Z.eq_dec (a_shape x) shape then true else false) && all_shape shape xs
  end.
Definition first_shape (xs : list (array D V)) : list Z := match xs with [] => [] | x :: _ => a_shape x end.
Definition stacked (d : D) (xs : list (array D V)) : array D V :=
  mkArray d (Z.of_nat (length xs) :: first_shape xs) (map (np_cast np d) (flat_map a_data xs)).
Definition np_stack (xs : list (array D V)) : res (array D V) :=
  if all_shape (first_shape xs) xs then Ok (stacked (np_result np (map a_dtype xs)) xs) else Raise ValueError.
(** np.stack(xs, out=...) into an array of type [d] and of the shape of len(xs) first elements.  Conversions must be of the
    same kind (numpy's default), otherwise TypeError. *)
Definition np_stack_out (d : D) (xs : list (array D V)) : res (array D V) :=
  if negb (all_shape (first_shape xs) xs) then Raise ValueError
  else if forallb (fun x => np_same_kind np (a_dtype x) d) xs then Ok (stacked d xs) else Raise TypeError.

(** The stacking functions of make_batch, lines 190-212, with at least two values.  The new segment exists before np.stack
    may raise; the memory is returned in both cases.  Both are given the leaves of the values at one place. *)
Definition stack_leaf (m : memory V) (xs : list (array D V)) : memory V * res (leaf D V X) :=
  (m, let! a := np_stack xs in Ok (LArray true a)).
Definition shm_stack_leaf (m : memory V) (xs : list (array D V)) : memory V * res (leaf D V X) :=
  match xs with
  | [] => (m, Raise IndexError)
  | x :: _ =>
      let plain := let! a := np_stack xs in Ok (LArray true a) in
      if np_hasobject np (a_dtype x) then (m, plain)
      else if np_is_string np (a_dtype x) then
        match np_stack xs with
        | Ok a =>
            match new_shared m a with
            | Ok (m', name) => (m', Ok (LShared name a))
            | Raise e => (m, Raise e)
            | OutOfFuel => (m, OutOfFuel)
            end
        | Raise e => (m, Raise e)
        | OutOfFuel => (m, OutOfFuel)
        end
      else
        (* lines 208-210 *)
        let shape := Z.of_nat (length xs) :: a_shape x in
        if prod shape * np_itemsize np (a_dtype x) <=? 0 then (m, Raise ValueError)
        else
          match np_stack_out (a_dtype x) xs with
          | Ok a => let (m', name) := create m (a_data a) in (m', Ok (LShared name a))
          | Raise e => (fst (create m []), Raise e)          (* the segment stays *)
          | OutOfFuel => (m, OutOfFuel)
          end
  end.
(** The leaves of a batch, one after the other.  [columns]: for each leaf of the structure the arrays of the values. *)
Fixpoint batch_leaves {C} (stack : memory V -> C -> memory V * res (leaf D V X)) (m : memory V)
    (columns : list C) : memory V * res (list (leaf D V X)) :=
  match columns with
  | [] => (m, Ok [])
  | xs :: columns =>
      match stack m xs with
      | (m1, Ok l) => let (m2, r) := batch_leaves stack m1 columns in (m2, let! ls := r in Ok (l :: ls))
      | (m1, Raise e) => (m1, Raise e)
      | (m1, OutOfFuel) => (m1, OutOfFuel)
      end
  end.
(** make_batch, lines 177-223, of at least two values with the same structure; a ValueError is raised again as a ValueError. *)
Definition make_batch (output_to_shared_memory : bool) : memory V -> list (list (array D V)) -> memory V * res (list (leaf D V X)) :=
  batch_leaves (if output_to_shared_memory then shm_stack_leaf else stack_leaf).

(** ** Batching with a thread pool *)

(** Lines 148-150: out.__setitem__(i, x) for each i, run by the pool in the order [order].  A row that nobody has written is
    None.  The assignment converts with any cast (numpy's assignment is "unsafe") and broadcasts. *)
Definition setitem (d : D) (shape : list Z) (xs : list (array D V)) (rows : nat -> option (list V)) (i : nat) : nat -> option (list V) :=
  match nth_error xs i with
  | Some x => match np_broadcast np (a_shape x) shape (a_data x) with
              | Some row => fun j => if Nat.eqb j i then Some (map (np_cast np d) row) else rows j
              | None => rows                                       (* ValueError in the task *)
              end
  | None => rows
  end.
(** The rows in their order; None: a row of np.empty that was not written. *)
Fixpoint written (rows : list (option (list V))) : option (list V) :=
  match rows with
  | [] => Some []
  | Some row :: rows => option_map (app row) (written rows)
  | None :: _ => None
  end.
(** Lines 139-156, after the fall-backs: allocate, submit, wait for every task.  The first failed task raises. *)
Definition parallel_rows (order : list nat) (d : D) (shape : list Z) (xs : list (array D V)) : res (list V) :=
  if forallb (fun x => match np_broadcast np (a_shape x) shape (a_data x) with Some _ => true | None => false end) xs
  then match written (map (fold_left (setitem d shape xs) order (fun _ => None)) (seq 0 (length xs))) with
       | Some data => Ok data
       | None => Raise InternalError
       end
  else Raise ValueError.
(** _batch_fn, lines 117-156, of arrays, with the pool available.  [threshold] is _PARALLEL_BATCHING_MIN_TOTAL_BYTES.  [_stack],
    lines 87-112, is the stacking function above. *)
Definition nbytes (x : array D V) : Z := prod (a_shape x) * np_itemsize np (a_dtype x).
Definition parallel_leaf (threshold : Z) (order : list nat) (output_to_shared_memory : bool) (m : memory V) (xs : list (array D V))
    : memory V * res (leaf D V X) :=
  match xs with
  | [] => (m, Raise IndexError)
  | x :: _ =>
      let stack := if output_to_shared_memory then shm_stack_leaf else stack_leaf in
      if np_is_string np (a_dtype x) then stack m xs
      else if fold_right Z.add 0 (map nbytes xs) <? threshold then stack m xs
      else
        let shape := Z.of_nat (length xs) :: a_shape x in
        if negb output_to_shared_memory || np_hasobject np (a_dtype x) then
          (m, let! data := parallel_rows order (a_dtype x) (a_shape x) xs in Ok (LArray true (mkArray (a_dtype x) shape data)))
        else if prod shape * np_itemsize np (a_dtype x) <=? 0 then (m, Raise ValueError)
        else
          match parallel_rows order (a_dtype x) (a_shape x) xs with
          | Ok data => let (m', name) := create m data in (m', Ok (LShared name (mkArray (a_dtype x) shape data)))
          | Raise e => (fst (create m []), Raise e)
          | OutOfFuel => (m, OutOfFuel)
          end
  end.
(** _MakeBatchParallel.__call__, lines 114-171, of values with the same structure.  The tasks of each leaf come with the order
    in which the pool runs them. *)
Definition make_batch_parallel (threshold : Z) (output_to_shared_memory : bool) : memory V -> list (list nat * list (array D V)) -> memory V * res (list (leaf D V X)) :=
  batch_leaves (fun m column => parallel_leaf threshold (fst column) output_to_shared_memory m (snd column)).
End SharedMemory.
