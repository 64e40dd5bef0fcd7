(** Model of grain/_src/python/samplers.py and of the way DataLoader reads a sampler
    (grain/_src/python/data_loader.py:116-169). *)
From Verif Require Import Base IndexShuffle Sharding MapDatasets.

(** RecordMetadata, record.py:24-46.  [md_rng] is the key of the Philox generator. *)
Record metadata := mkMd { md_index : Z; md_record_key : option Z; md_rng : option Z }.

(** A sampler: len() and __getitem__. *)
Record sampler := mkSampler { smp_len : Z; smp_get : Z -> res metadata }.

(** The generator given to a record: np.random.Philox(key=self._seed + index),
    samplers.py:88-90 and 196-198. *)
Definition record_rng (seed : option Z) (index : Z) : option Z :=
  match seed with None => None | Some s => Some (s + index) end.

(** SequentialSampler, samplers.py:42-91. *)
Definition sequential_sampler (num_records : Z) (o : shard_options) (seed : option Z) : res sampler :=
  if num_records <=? 0 then Raise ValueError
  else
    let max_index :=
      if drop_remainder o then num_records / shard_count o * shard_count o else num_records in
    Ok {| smp_len := max_index;
          smp_get := fun index =>
            if (index <? 0) || (index >=? max_index) then Raise IndexError
            else Ok (mkMd index (Some index) (record_rng seed index)) |}.

(** _ShardMapDataset, samplers.py:94-114.  Python's // and % by len(self). *)
Definition shard_ds {A} (o : shard_options) (p : MapDs A) : MapDs A :=
  let (start, stop) := even_split (mlen p) o in
  let get index :=
    let! qr := pydivmod index (stop - start) in
    mget p (fst qr * mlen p + snd qr + start) in
  {| mlen := stop - start; mget := get; mgetitems := default_getitems get |}.

(** NoSharding(), sharding.py:50-54. *)
Definition no_sharding : shard_options := {| shard_index := 0; shard_count := 1; drop_remainder := false |}.

(** IndexSampler, samplers.py:117-204.  [o = None]: NoSharding.  The type check of
    the seed (lines 157-160) is not modelled. *)
Definition index_sampler (gen_keys : Z -> Z -> list Z) (num_records : Z) (o : option shard_options)
    (shuffle : bool) (num_epochs seed : option Z) : res sampler :=
  if num_records <=? 0 then Raise ValueError
  else if match num_epochs with Some e => e <=? 0 | None => false end then Raise ValueError
  else if shuffle && match seed with None => true | Some _ => false end then Raise ValueError
  else if match seed with Some s => (s <? 0) || (s >=? 2 ^ 32) | None => false end then Raise ValueError
  else
    let opts := match o with None => no_sharding | Some o => o end in
    let! keys := range_ds num_records None 1 in
    let keys := match o with None => keys | Some o => shard_ds o keys end in
    let max_index := match num_epochs with None => None | Some e => Some (e * num_records) end in
    let max_index :=
      match o, max_index, num_epochs with
      | Some o, Some m, Some e =>
          if drop_remainder o then Some (Z.min m (mlen keys * shard_count o * e)) else Some m
      | _, m, _ => m
      end in
    let! keys := if shuffle then shuffle_ds gen_keys (match seed with Some s => s | None => 0 end) keys
                 else Ok keys in
    Ok {| smp_len := match max_index with None => maxsize | Some m => m end;
          smp_get := fun index =>
            if (index <? 0) || match max_index with Some m => index >=? m | None => false end
            then Raise IndexError
            else
              let! qr := pydivmod index (shard_count opts) in
              let! key := mget keys (fst qr) in
              Ok (mkMd index key (record_rng seed index)) |}.

(** _SamplerMapDataset, data_loader.py:116-169, with the record key of the sampler
    looked up in the source ([self._parent[metadata.record_key]]; a key of None is
    a TypeError).  An element is Record(metadata, data). *)
Definition sampler_length (sampler_size : Z) (o : shard_options) : Z :=
  if drop_remainder o then sampler_size / shard_count o
  else
    let remainder := sampler_size mod shard_count o in
    sampler_size / shard_count o + (if shard_index o <? remainder then 1 else 0).
Definition sampler_ds {A} (source : MapDs A) (s : sampler) (o : shard_options)
  : MapDs (metadata * option A) :=
  let get index :=
    let index := index * shard_count o + shard_index o in
    let! md := smp_get s index in
    match md_record_key md with
    | None => Raise TypeError
    | Some key => let! data := mget source key in Ok (Some (md, data))
    end in
  {| mlen := sampler_length (smp_len s) o; mget := get; mgetitems := default_getitems get |}.

(** _sampler_size for a sampler without len(), data_loader.py:139-149: binary search
    for the first index that raises IndexError.  [get] is sampler[mid]. *)
Fixpoint sampler_size {R} (get : Z -> res R) (fuel : nat) (lo hi : Z) : res Z :=
  match fuel with
  | O => OutOfFuel
  | S fuel' =>
      if lo <? hi then
        let mid := (lo + hi) / 2 in
        match get mid with
        | Ok _ => sampler_size get fuel' (mid + 1) hi
        | Raise IndexError => sampler_size get fuel' lo mid
        | Raise e => Raise e
        | OutOfFuel => OutOfFuel
        end
      else Ok lo
  end.
