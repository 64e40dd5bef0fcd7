(** Model of grain/_src/python/dataset/transformations/packing_packed_batch.py:86-455 and
    packing.py:28-266. *)
From Verif Require Import Base MapDatasets Iter.

(** An element, already restricted to the packed and the meta features (map_structure_up_to,
    packing.py:224-227): the values of the packed features in the order of tree_lib.flatten
    (a scalar is a list of one value), and its non-sequence meta features. *)
Definition element (A M : Type) : Type := list (list A) * M.

(** One feature of one row of the buffers _values, _segment_ids, _positions and
    _first_free_cell_per_row (packing_packed_batch.py:152-218). The arrays of the code have the
    rows of one feature together; here a row has its features together. *)
Record fbuf (A : Type) := mkF { f_vals : list A; f_segs : list Z; f_poss : list Z; f_free : nat }.
Arguments mkF {A}. Arguments f_vals {A}. Arguments f_segs {A}. Arguments f_poss {A}. Arguments f_free {A}.
(** A row: its features, _num_examples_per_row and _non_sequence_meta_values. *)
Record row (A M : Type) := mkRow { r_feats : list (fbuf A); r_n : nat; r_meta : list M }.
Arguments mkRow {A M}. Arguments r_feats {A M}. Arguments r_n {A M}. Arguments r_meta {A M}.
(** An emitted row: for each feature the values, segment ids and positions
    (_extract_and_rekey_packed_batch, packing_packed_batch.py:86-118; the renaming of the keys,
    the sequence meta features and the conversions of types are not modelled). *)
Definition packed_row (A M : Type) : Type := list (list A * list Z * list Z) * list M.
Definition emit_row {A M} (r : row A M) : packed_row A M :=
  (map (fun f => (f_vals f, f_segs f, f_poss f)) (r_feats r), r_meta r).

(** a[start:start+len(v)] = v.  If the slice leaves the array numpy raises (for len(v) = 1 it
    writes nothing); C41 shows it does not happen. *)
Definition slice_assign {X} (start : nat) (v a : list X) : res (list X) :=
  if Nat.leb (start + length v) (length a) then Ok (firstn start a ++ v ++ skipn (start + length v) a)
  else Raise ValueError.

Section Packing.
Context {A M : Type}.
(** num_packing_bins; the flattened length_struct, pack_alignment_struct (1 for None) and
    padding_struct (the zero of the type for None); max_sequences_per_bin. *)
Variable bins : nat.
Variable capacities : list nat.
Variable aligns : list nat.
Variable pads : list A.
Variable max_seq : option nat.

(** PackedBatch.__init__, packing_packed_batch.py:128-233. *)
Definition empty_row : row A M :=
  mkRow (map (fun cp => mkF (List.repeat (snd cp) (fst cp)) (List.repeat 0 (fst cp)) (List.repeat 0 (fst cp)) 0)
             (combine capacities pads)) 0 [].
Definition empty_batch : list (row A M) := List.repeat empty_row bins.

(** ((end + alignment - 1) // alignment) * alignment *)
Definition round_up (alignment n : nat) : nat := ((n + alignment - 1) / alignment * alignment)%nat.

(** add_element_to_batch, packing_packed_batch.py:284-311: the loop over the features. *)
Fixpoint add_features (segment_id : Z) (e : list (list A)) (al : list nat) (fs : list (fbuf A)) : res (list (fbuf A)) :=
  match e, al, fs with
  | [], _, _ => Ok fs
  | v :: e', a :: al', f :: fs' =>
      let start := f_free f in
      let stop := (start + length v)%nat in
      if Nat.eqb a 0 then Raise ZeroDivisionError
      else
        let! vals := slice_assign start v (f_vals f) in
        let! segs := slice_assign start (List.repeat segment_id (length v)) (f_segs f) in
        let! poss := slice_assign start (zrange 0 (length v)) (f_poss f) in
        let! rest := add_features segment_id e' al' fs' in
        Ok (mkF vals segs poss (round_up a stop) :: rest)
  | _, _, _ => Raise IndexError
  end.
Definition add_element (e : element A M) (r : row A M) : res (row A M) :=
  let! fs := add_features (Z.of_nat (r_n r) + 1) (fst e) aligns (r_feats r) in
  Ok (mkRow fs (r_n r + 1) (r_meta r ++ [snd e])).
Definition add_to_batch (e : element A M) (i : nat) (b : list (row A M)) : res (list (row A M)) :=
  match nth_error b i with
  | None => Raise IndexError
  | Some r => let! r' := add_element e r in Ok (update_nth i r' b)
  end.

(** The checks at the start of try_add_to_batch (packing_packed_batch.py:323-345, 395-417). *)
Definition too_long (e : element A M) : bool := existsb (fun vc => Nat.ltb (snd vc) (length (fst vc))) (combine (fst e) capacities).
Definition same_structure (e : element A M) : bool := Nat.eqb (length (fst e)) (length capacities).

(** Index of the first true entry (np.argmax of a boolean array). *)
Fixpoint first_true (l : list bool) : option nat :=
  match l with [] => None | true :: _ => Some 0%nat | false :: l' => option_map Datatypes.S (first_true l') end.
(** np.argmax: the index of the first maximum. *)
Fixpoint argmax_from (best : Z) (best_i i : nat) (l : list Z) : nat :=
  match l with [] => best_i | x :: l' => if best <? x then argmax_from x i (i + 1) l' else argmax_from best best_i (i + 1) l' end.
Definition argmax (l : list Z) : nat := match l with [] => 0%nat | x :: l' => argmax_from x 0 1 l' end.

(** FirstFitPackedBatch.try_add_to_batch, packing_packed_batch.py:322-388. The result is None if
    the element was not added (the code returns the names of the failing features). *)
Definition features_fit (e : element A M) (r : row A M) : list bool :=
  map (fun '(v, c, f) =>
         Nat.leb (length v + f_free f) c && match max_seq with None => true | Some m => Nat.ltb (r_n r) m end)
      (combine (combine (fst e) capacities) (r_feats r)).
Definition first_fit (e : element A M) (b : list (row A M)) : res (option (list (row A M))) :=
  if negb (same_structure e) then Raise ValueError
  else if too_long e then Raise ValueError
  else
    match first_true (map (fun r => forallb (fun x => x) (features_fit e r)) b) with
    | Some i => let! b' := add_to_batch e i b in Ok (Some b')
    | None => if existsb (fun r => existsb negb (features_fit e r)) b then Ok None else Raise ValueError
    end.

(** BestFitPackedBatch.try_add_to_batch, packing_packed_batch.py:394-455. *)
Definition new_free_cells (e : element A M) (r : row A M) : list (nat * nat) :=
  map (fun '(v, c, f) =>
         ((f_free f + length v +
           match max_seq with None => 0 | Some m => if Nat.ltb (r_n r) m then 0 else c end)%nat, c))
      (combine (combine (fst e) capacities) (r_feats r)).
Definition fittable (e : element A M) (r : row A M) : bool := forallb (fun nc => Nat.leb (fst nc) (snd nc)) (new_free_cells e r).
Definition score (e : element A M) (r : row A M) : Z :=
  if fittable e r then Z.of_nat (list_sum (map f_free (r_feats r))) else -1.
Definition best_fit (e : element A M) (b : list (row A M)) : res (option (list (row A M))) :=
  if negb (same_structure e) then Raise ValueError
  else if too_long e then Raise ValueError
  else if Nat.eqb (length capacities) 0 then Raise ValueError       (* np.stack of no arrays *)
  else if existsb (fittable e) b then
    let! b' := add_to_batch e (argmax (map (score e) b)) b in Ok (Some b')
  else if existsb (fun r => existsb (fun nc => negb (Nat.leb (fst nc) (snd nc))) (new_free_cells e r)) b then Ok None
  else Raise ValueError.

(** get_packed_batch, packing_packed_batch.py:239-273, as the list of its rows. *)
Definition packed_rows (b : list (row A M)) : list (packed_row A M) :=
  let rows_with_values := length (filter (fun r => Nat.ltb 0 (r_n r)) b) in
  map emit_row (if Nat.ltb rows_with_values bins then firstn rows_with_values b else b).

(** ** The iterator *)

(** _generate_and_set_shuffled_rows, packing.py:126-147. [permuted seed n]:
    np.random.default_rng(seed).permuted(range(n)); [group]: the average of the groups of a row
    as any integers in the same order. *)
Variable permuted : Z -> nat -> res (list nat).
Variable seed : Z.
Variable shuffle_bins : bool.
Variable group : option (packed_row A M -> Z).

Definition key_le (a b : Z * nat * nat) : bool :=
  let '(g, s, i) := a in let '(g', s', i') := b in
  (g <? g') || ((g =? g') && (Nat.ltb s s' || (Nat.eqb s s' && Nat.leb i i'))).
Fixpoint insert_key (x : Z * nat * nat) (l : list (Z * nat * nat)) : list (Z * nat * nat) :=
  match l with [] => [x] | y :: l' => if key_le x y then x :: y :: l' else y :: insert_key x l' end.
(** sorted(tuples_to_sort) *)
Definition sort_keys (l : list (Z * nat * nat)) : list (Z * nat * nat) := fold_right insert_key [] l.
Definition shuffled_rows (rows : list (packed_row A M)) (first : Z) : res (list nat) :=
  let! shuffled := permuted (seed + first) (length rows) in
  match group with
  | None => Ok shuffled
  | Some avg =>
      Ok (map snd (sort_keys (map (fun i => (match nth_error rows i with Some r => avg r | None => 0 end, nth i shuffled 0%nat, i))
                                  (seq 0 (length rows)))))
  end.

(** Attributes of PackingDatasetIterator, packing.py:37-103.  [pk_rows]: _packed_batch and
    _shuffled_rows. *)
Record packer (S C : Type) := mkPacker {
  pk_parent : S;
  pk_current : option (list (row A M));             (* _current_batch *)
  pk_last : C;                                      (* _last_emitted_batch_parent_state *)
  pk_after : option C;                              (* _current_batch_parent_state *)
  pk_rows : option (list (packed_row A M) * list nat);
  pk_next : nat;                                    (* _next_row *)
  pk_counter : Z;                                   (* _counter *)
}.
Arguments mkPacker {S C}. Arguments pk_parent {S C}. Arguments pk_current {S C}. Arguments pk_last {S C}.
Arguments pk_after {S C}. Arguments pk_rows {S C}. Arguments pk_next {S C}. Arguments pk_counter {S C}.

(** _finalize_current_batch, packing.py:149-175, without making the next batch. *)
Definition finalize (b : list (row A M)) (counter : Z) (next_row : nat) : res (list (packed_row A M) * list nat) :=
  let rows := packed_rows b in
  let! order := if shuffle_bins then shuffled_rows rows (counter - Z.of_nat next_row) else Ok (seq 0 (length rows)) in
  Ok (rows, order).

(** try_add_to_batch of the packer class. *)
Variable try_add : element A M -> list (row A M) -> res (option (list (row A M))).

Section Iterator.
Variable p : Iter (element A M).

(** The first part of __next__: emit a row of the packed batch, packing.py:181-204.
    (After its last row _current_batch_parent_state is not None.) *)
Definition emit (s : packer (ist p) (ick p)) : out (packed_row A M) * packer (ist p) (ick p) :=
  match pk_rows s with
  | None => (Fail InternalError, s)
  | Some (rows, order) =>
      match nth_error order (pk_next s) with
      | None => (Fail IndexError, s)
      | Some i =>
          match nth_error rows i with
          | None => (Fail IndexError, s)
          | Some r =>
              let k := (pk_next s + 1)%nat in
              (Yield r,
               if Nat.leb (length rows) k then
                 mkPacker (pk_parent s) (pk_current s) (match pk_after s with Some c => c | None => pk_last s end) None None 0
                          (pk_counter s + 1)
               else mkPacker (pk_parent s) (pk_current s) (pk_last s) (pk_after s) (pk_rows s) k (pk_counter s + 1))
          end
      end
  end.

(** The rest of __next__, packing.py:206-266. *)
Fixpoint pack_loop (fuel0 fuel : nat) (s : packer (ist p) (ick p)) : out (packed_row A M) * packer (ist p) (ick p) :=
  match fuel with
  | O => (NoFuel, s)
  | Datatypes.S fuel' =>
      let prior := get_state p (pk_parent s) in
      match next p fuel0 (pk_parent s) with
      | (Stop, ps) =>
          match pk_current s with
          | Some b =>
              match finalize b (pk_counter s) (pk_next s) with
              | Ok rows => emit (mkPacker ps None (pk_last s) (Some prior) (Some rows) (pk_next s) (pk_counter s))
              | Raise e => (Fail e, mkPacker ps (Some b) (pk_last s) (pk_after s) None (pk_next s) (pk_counter s))
              | OutOfFuel => (NoFuel, s)
              end
          | None => (Stop, mkPacker ps None (pk_last s) (pk_after s) None (pk_next s) (pk_counter s))
          end
      | (Fail e, ps) => (Fail e, mkPacker ps (pk_current s) (pk_last s) (pk_after s) None (pk_next s) (pk_counter s))
      | (NoFuel, ps) => (NoFuel, s)
      | (Yield e, ps) =>
          let b := match pk_current s with Some b => b | None => empty_batch end in
          match try_add e b with
          | Raise x => (Fail x, mkPacker ps (Some b) (pk_last s) (pk_after s) None (pk_next s) (pk_counter s))
          | OutOfFuel => (NoFuel, s)
          | Ok (Some b') => pack_loop fuel0 fuel' (mkPacker ps (Some b') (pk_last s) (pk_after s) None (pk_next s) (pk_counter s))
          | Ok None =>
              match finalize b (pk_counter s) (pk_next s) with
              | Raise x => (Fail x, mkPacker ps (Some b) (pk_last s) (pk_after s) None (pk_next s) (pk_counter s))
              | OutOfFuel => (NoFuel, s)
              | Ok rows =>
                  match try_add e empty_batch with
                  | Ok (Some b') => emit (mkPacker ps (Some b') (pk_last s) (Some prior) (Some rows) (pk_next s) (pk_counter s))
                  | Ok None => (Fail ValueError, mkPacker ps (Some empty_batch) (pk_last s) (Some prior) (Some rows) (pk_next s) (pk_counter s))
                  | Raise x => (Fail x, mkPacker ps (Some empty_batch) (pk_last s) (Some prior) (Some rows) (pk_next s) (pk_counter s))
                  | OutOfFuel => (NoFuel, s)
                  end
              end
          end
      end
  end.

(** PackingDatasetIterator, packing.py:28-266; get_state and set_state: lines 105-116. *)
Definition pack_it : Iter (packed_row A M) :=
  {| ist := packer (ist p) (ick p);
     ick := ick p * nat * Z;
     init := mkPacker (init p) None (get_state p (init p)) None None 0 0;
     next := fun fuel s => match pk_rows s with Some _ => emit s | None => pack_loop fuel fuel s end;
     get_state := fun s => (pk_last s, pk_next s, pk_counter s);
     set_state := fun fuel s '(c, next_row, counter) =>
       let! ps := set_state p fuel (pk_parent s) c in
       Ok (mkPacker ps None (get_state p ps) None None next_row counter);
     jsonck := fun '(c, next_row, counter) => (jsonck p c, next_row, counter) |}.
End Iterator.
End Packing.
Arguments packer : clear implicits. Arguments mkPacker {A M S C}. Arguments pk_parent {A M S C}. Arguments pk_current {A M S C}.
Arguments pk_last {A M S C}. Arguments pk_after {A M S C}. Arguments pk_rows {A M S C}. Arguments pk_next {A M S C}.
Arguments pk_counter {A M S C}.

(** PackIterDataset and its two subclasses (packing.py:269-470): the check of
    max_sequences_per_bin (lines 319-323), then the iterator. *)
Definition pack_dataset {A M} (best : bool) bins capacities aligns (pads : list A) max_seq permuted seed shuffle_bins
    (group : option (packed_row A M -> Z)) (p : Iter (element A M)) : res (Iter (packed_row A M)) :=
  if match max_seq with Some m => m <=? 0 | None => false end then Raise ValueError
  else
    let m := option_map Z.to_nat max_seq in
    Ok (pack_it bins capacities pads permuted seed shuffle_bins group
          (if best then best_fit capacities aligns m else first_fit capacities aligns m) p).
