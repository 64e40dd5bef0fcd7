(** Model of the elastic iterators, grain/_src/python/dataset/elastic_iterator.py, and of the
    checkpoint files, grain/_src/python/checkpoint/handler.py and elastic_checkpoint.py. *)
From Verif Require Import Base MapDatasets Iter.

(** ** MapDatasets *)

(** _ElasticMapDatasetIterator._iterator, elastic_iterator.py:317-334, without the optional
    mp_prefetch: the dataset the inner iterator reads.  [b] is the global batch size, [i] and
    [k] are the shard index and count, [g] is _global_next_index. *)
Definition elastic_inner {A} (pushdown : bool) (b i k : Z) (ds : MapDs A) (g : Z) : res (MapDs (list (option A))) :=
  let! d := slice_ds (Some (g + i)) None (Some k) ds in
  let! qr := pydivmod b k in
  if negb (snd qr =? 0) then Raise ValueError
  else batch_ds pushdown (fst qr) true make_batch d.
(** _ElasticMapDatasetIterator, elastic_iterator.py:284-355 (ElasticIterator, 358-525,
    delegates to it).  State: _global_next_index and the cached _iterator, if created.
    [num_threads] and [buffer_size] come from read_options. *)
Definition elastic_map_it {A} (pushdown : bool) (b i k num_threads buffer_size : Z) (ds : MapDs A)
  : Iter (option (list (option A))) :=
  {| ist := Z * option (MapDs (list (option A)) * pf_st (list (option A)));
     ick := Z;
     init := (0, None);
     next := fun fuel '(g, inner) =>
       match (match inner with
              | Some ds_s => Ok ds_s
              | None => let! d := elastic_inner pushdown b i k ds g in
                        Ok (d, mkPf 0 0 [] buffer_size num_threads checker0)
              end) with
       | Ok (d, s) =>
           match prefetch_next None false d fuel s with
           | (Yield e, s') => (Yield e, (g + b, Some (d, s')))
           | (o, s') => (o, (g, Some (d, s')))
           end
       | Raise e => (Fail e, (g, None))
       | OutOfFuel => (NoFuel, (g, None))
       end;
     get_state := fun '(g, _) => g;
     set_state := fun _ _ c => Ok (c, None);
     jsonck := fun c => c |}.

(** ** IterDatasets: states per shard *)

(** ElasticIterDatasetIterator.get_shard_states, elastic_iterator.py:199-223: [states] are
    the states of the host's own shards, in order. *)
Definition get_shard_states {S} (i k : Z) (states : list S) : list (Z * S) :=
  combine (map (fun local => local * k + i) (zrange 0 (length states))) states.

(** sorted(dict.items()), as used in set_shard_states: by key. *)
Fixpoint insert_by_key {S} (x : Z * S) (l : list (Z * S)) : list (Z * S) :=
  match l with
  | [] => [x]
  | y :: l' => if fst x <=? fst y then x :: l else y :: insert_by_key x l'
  end.
Definition sort_by_key {S} (l : list (Z * S)) : list (Z * S) := fold_right insert_by_key [] l.
(** ElasticIterDatasetIterator.set_shard_states, elastic_iterator.py:225-263: what is given to
    the sliceable iterator. *)
Definition set_shard_states {S} (d : list (Z * S)) : list S := map snd (sort_by_key d).

(** ** Checkpoint files *)

(** The files of a checkpoint directory: process_{i}-of-{n}.json and shard_state_{j}.json. *)
Inductive file : Type := ProcessFile (i n : Z) | ShardFile (j : Z).
Definition file_eqb (f g : file) : bool :=
  match f, g with
  | ProcessFile i n, ProcessFile i' n' => (i =? i') && (n =? n')
  | ShardFile j, ShardFile j' => j =? j'
  | _, _ => false
  end.
(** A directory as the list of the writes made to it, latest first. *)
Definition directory (C : Type) := list (file * C).
Definition read_file {C} (d : directory C) (f : file) : option C :=
  match find (fun w => file_eqb (fst w) f) d with Some w => Some (snd w) | None => None end.
Definition write_file {C} (d : directory C) (f : file) (c : C) : directory C := (f, c) :: d.

(** CheckpointHandler.save, handler.py:36-62, by process [i] of [n]; [shards] is
    get_shard_states() of an elastic iterator over an IterDataset (written first, by
    save_elastic_iterator, elastic_checkpoint.py:30-43) and None for other iterators.  A crash
    in the middle is a prefix of these writes. *)
Definition save_writes {C} (i n : Z) (shards : option (list (Z * C))) (state : C) : list (file * C) :=
  match shards with
  | Some d => map (fun jc => (ShardFile (fst jc), snd jc)) d
  | None => []
  end ++ [(ProcessFile i n, state)].

(** get_checkpoint_process_count, elastic_checkpoint.py:22-27. *)
Definition checkpoint_process_count {C} (d : directory C) : Z :=
  fold_right (fun w acc => match fst w with ProcessFile _ n => Z.max n acc | ShardFile _ => acc end) 0 d.
(** restore_elastic_iterator, elastic_checkpoint.py:46-70: the dictionary collected by host [i]
    of [k]. *)
Fixpoint collect_shards {C} (d : directory C) (k : Z) (fuel : nat) (i : Z) : res (list (Z * C)) :=
  match fuel with
  | O => OutOfFuel
  | S fuel' =>
      match read_file d (ShardFile i) with
      | None => Ok []
      | Some c => let! rest := collect_shards d k fuel' (i + k) in Ok ((i, c) :: rest)
      end
  end.

(** What restore does to the iterator: item.set_state(state), or item.set_shard_states(dict). *)
Inductive restored (C : Type) : Type := SetState (c : C) | SetShardStates (states : list C).
Arguments SetState {C}. Arguments SetShardStates {C}.
(** CheckpointHandler.restore, handler.py:64-97, by process [i] of [n]; [elastic] is
    shard_options (index, count) of an elastic iterator over an IterDataset. *)
Definition restore {C} (fuel : nat) (d : directory C) (i n : Z) (elastic : option (Z * Z)) : res (restored C) :=
  let plain :=
    match read_file d (ProcessFile i n) with
    | None => Raise ValueError
    | Some c => Ok (SetState c)
    end in
  match elastic with
  | Some (si, sk) =>
      if negb (n =? checkpoint_process_count d) then
        let! states := collect_shards d sk fuel si in
        Ok (SetShardStates (set_shard_states states))
      else plain
  | None => plain
  end.
