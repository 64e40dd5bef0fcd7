(** Model of the legacy packing operation grain/_src/python/experimental/example_packing/packing.py:28-242. *)
From Verif Require Import Base MapDatasets Iter Packing Samplers DataLoader.

Section PackOperation.
Context {A : Type}.
(** batch_size; the flattened length_struct; the zeros of np.zeros for each feature; max_sequences_per_bin. *)
Variable batch_size : nat.
Variable lengths : list nat.
Variable zeros : list A.
Variable max_seq : option nat.

(** A record: its features in the order of tree_lib.flatten, and its metadata. *)
Notation record := (element A metadata).
(** _PackedBatch, packing.py:28-71: the rows (the list of metadata of a row that Packing.v has is not used) and
    _last_record_metadata. *)
Definition packed_batch : Type := list (row A metadata) * option metadata.
Definition new_batch : packed_batch := (empty_batch batch_size lengths zeros, None).
(** get_packed_batch, packing.py:73-78. *)
Definition op_batch : Type := list (list (list A * list Z * list Z)) * metadata.
Definition get_packed_batch (b : packed_batch) : res op_batch :=
  match snd b with
  | None => Raise AssertionError
  | Some m => Ok (map (fun r => fst (emit_row r)) (fst b), m)
  end.

(** _can_add_at_row, packing.py:80-123 (tree_lib.map_structure raises for another structure). *)
Definition row_is_free (e : record) (r : row A metadata) : bool :=
  match max_seq with None => true | Some m => Nat.ltb (r_n r) m end &&
  forallb (fun '(v, c, f) => Nat.leb (length v + f_free f) c) (combine (combine (fst e) lengths) (r_feats r)).
Definition can_add_at_row (e : record) (b : packed_batch) : res (option nat) :=
  if negb (same_structure lengths e) then Raise ValueError
  else if too_long lengths e then Raise ValueError
  else Ok (first_true (map (row_is_free e) (fst b))).
(** add_element_to_batch and try_add_to_batch, packing.py:125-161: as in Packing.v with alignment 1. *)
Definition try_add (e : record) (b : packed_batch) : res (option packed_batch) :=
  let! row := can_add_at_row e b in
  match row with
  | None => Ok None
  | Some i => let! rows := add_to_batch (map (fun _ => 1%nat) lengths) e i (fst b) in
              Ok (Some (rows, Some (remove_record_key (snd e))))
  end.

(** PackAndBatchOperation.__call__, packing.py:210-242, for the input [l]: the batches yielded, how the generator ends, and
    _cur_batch, which the operation keeps.  InternalError: the AttributeError of None.get_packed_batch().  That the arrays of
    the last batch are still those of _cur_batch is not modelled. *)
Fixpoint pack_operation (cur : option packed_batch) (l : list record) : list op_batch * res unit * option packed_batch :=
  match l with
  | [] =>
      match cur with
      | None => ([], Raise InternalError, None)
      | Some b => match get_packed_batch b with Ok o => ([o], Ok tt, cur) | Raise x => ([], Raise x, cur) | OutOfFuel => ([], OutOfFuel, cur) end
      end
  | e :: l' =>
      let b := match cur with None => new_batch | Some b => b end in
      match try_add e b with
      | Raise x => ([], Raise x, Some b)
      | OutOfFuel => ([], OutOfFuel, Some b)
      | Ok (Some b') => pack_operation (Some b') l'
      | Ok None =>
          match get_packed_batch b with
          | Raise x => ([], Raise x, Some b)
          | OutOfFuel => ([], OutOfFuel, Some b)
          | Ok o =>
              match try_add e new_batch with
              | Raise x => ([o], Raise x, Some new_batch)
              | OutOfFuel => ([o], OutOfFuel, Some new_batch)
              | Ok b' => let '(os, r, cur') := pack_operation (Some (match b' with Some b' => b' | None => new_batch end)) l' in
                         (o :: os, r, cur')
              end
          end
      end
  end.
End PackOperation.
