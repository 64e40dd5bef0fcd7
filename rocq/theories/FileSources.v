(** Model of the file readers grain/_src/python/dataset/sources/tfrecord_dataset.py and
    parquet_dataset.py. *)
From Verif Require Import Base Iter.

(** ** TFRecord *)

(** [reader.read(n)] of a binary file at an offset: at most [n] bytes.  A byte is a Z
    in 0..255. *)
Definition read_at (file : list Z) (offset n : Z) : list Z :=
  let rest := skipn (Z.to_nat offset) file in
  if Z.of_nat (length rest) <=? n then rest else firstn (Z.to_nat n) rest.

(** The little endian number of struct.unpack("<Q", ...). *)
Fixpoint le_number (bytes : list Z) : Z :=
  match bytes with [] => 0 | b :: bytes' => b + 256 * le_number bytes' end.

(** _TFRecordReader.__next__, tfrecord_dataset.py:40-70.  The state is the position of
    the file object.  Both checksums are read and ignored. *)
Definition tfrecord_next (file : list Z) (offset : Z) : out (list Z) * Z :=
  let buf := read_at file offset (8 + 4) in
  let offset := offset + Z.of_nat (length buf) in
  match buf with
  | [] => (Stop, offset)
  | _ =>
      if negb (Z.of_nat (length buf) =? 8 + 4) then (Fail ValueError, offset)
      else
        let len := le_number (firstn 8 buf) in
        let buf := read_at file offset (len + 4) in
        let offset := offset + Z.of_nat (length buf) in
        if negb (Z.of_nat (length buf) =? len + 4) then (Fail ValueError, offset)
        else (Yield (firstn (Z.to_nat len) buf), offset)
  end.

(** _TFRecordDatasetIterator, tfrecord_dataset.py:83-101. *)
Definition tfrecord_it (file : list Z) : Iter (list Z) :=
  {| ist := Z; ick := Z; init := 0;
     next := fun _ offset => tfrecord_next file offset;
     get_state := fun offset => offset;
     set_state := fun _ _ offset => if offset <? 0 then Raise ValueError else Ok offset;
     jsonck := fun offset => offset |}.

(** ** Parquet *)

(** State of _ParquetDatasetIterator, parquet_dataset.py:38-55: _row_group,
    _index_within_row_group and the rows of the row group read last (_np_table; the
    columns of a row group are given as the list of its rows). *)
Record pq_state (A : Type) := mkPq { pq_group : Z; pq_index : Z; pq_table : list A }.
Arguments mkPq {A}. Arguments pq_group {A}. Arguments pq_index {A}. Arguments pq_table {A}.

(** pq_file.read_row_group(i): raises for an index outside the file. *)
Definition read_row_group {A} (groups : list (list A)) (i : Z) : res (list A) :=
  if i <? 0 then Raise IndexError
  else match nth_error groups (Z.to_nat i) with Some rows => Ok rows | None => Raise IndexError end.

(** __next__, parquet_dataset.py:64-79.  [v[i]] with a negative index is not modelled
    (the index comes from get_state). Python's recursion limit is not modelled. *)
Fixpoint parquet_next {A} (groups : list (list A)) (fuel : nat) (s : pq_state A) : out A * pq_state A :=
  match fuel with
  | O => (NoFuel, s)
  | S fuel' =>
      if pq_index s >=? Z.of_nat (length (pq_table s)) then
        if pq_group s <? Z.of_nat (length groups) - 1 then
          match read_row_group groups (pq_group s + 1) with
          | Ok rows => parquet_next groups fuel' (mkPq (pq_group s + 1) 0 rows)
          | Raise e => (Fail e, mkPq (pq_group s + 1) 0 (pq_table s))
          | OutOfFuel => (NoFuel, s)
          end
        else (Stop, s)
      else
        match nth_error (pq_table s) (Z.to_nat (pq_index s)) with
        | Some row => (Yield row, mkPq (pq_group s) (pq_index s + 1) (pq_table s))
        | None => (Fail IndexError, s)
        end
  end.

(** _ParquetDatasetIterator with the default row_group = index_within_row_group = 0,
    parquet_dataset.py:38-92.  A file without row groups raises when it is opened. *)
Definition parquet_it {A} (groups : list (list A)) : res (Iter A) :=
  let! rows := read_row_group groups 0 in
  Ok {| ist := pq_state A; ick := Z * Z; init := mkPq 0 0 rows;
        next := fun fuel s => parquet_next groups fuel s;
        get_state := fun s => (pq_group s, pq_index s);
        set_state := fun _ _ '(g, i) => let! rows := read_row_group groups g in Ok (mkPq g i rows);
        jsonck := fun c => c |}.
