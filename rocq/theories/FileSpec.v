(** Specification for C47: the format of TFRecord files. *)
From Verif Require Import Base.

(** The format (the comment at tfrecord_dataset.py:26-30): length, checksum of the length, data, checksum
    of the data. *)
Fixpoint le_bytes (n : nat) (x : Z) : list Z :=
  match n with O => [] | S n' => x mod 256 :: le_bytes n' (x / 256) end.
Record tfrecord := mkRecord { r_data : list Z; r_crc_length : list Z; r_crc_data : list Z }.
Definition valid_record (r : tfrecord) : Prop :=
  Z.of_nat (length (r_data r)) < 2 ^ 64 /\ length (r_crc_length r) = 4%nat /\ length (r_crc_data r) = 4%nat.
Definition encode (r : tfrecord) : list Z :=
  le_bytes 8 (Z.of_nat (length (r_data r))) ++ r_crc_length r ++ r_data r ++ r_crc_data r.
Definition tf_file (rs : list tfrecord) : list Z := concat (map encode rs).
