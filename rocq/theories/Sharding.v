(** Model of grain/_src/core/sharding.py. *)
From Verif Require Import Base.

(** ShardOptions.__post_init__, sharding.py:37-47: which options can be built. *)
Record shard_options := { shard_index : Z; shard_count : Z; drop_remainder : bool }.
Definition make_shard_options (i k : Z) (drop : bool) : res shard_options :=
  if k <=? 0 then Raise ValueError
  else if (i <? 0) || (i >=? k) then Raise ValueError
  else Ok {| shard_index := i; shard_count := k; drop_remainder := drop |}.

(** even_split, sharding.py:69-103. *)
Definition even_split (num_examples : Z) (o : shard_options) : Z * Z :=
  let examples_per_shard := num_examples / shard_count o in
  let shard_start := examples_per_shard * shard_index o in
  let shard_end := examples_per_shard * (shard_index o + 1) in
  let num_unused := num_examples mod shard_count o in
  if num_unused >? 0 then
    if drop_remainder o then (shard_start, shard_end)
    else (shard_start + Z.min (shard_index o) num_unused,
          shard_end + Z.min (shard_index o + 1) num_unused)
  else (shard_start, shard_end).
