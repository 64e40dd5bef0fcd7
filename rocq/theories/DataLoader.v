(** Model of grain/_src/python/data_loader.py: DataLoader and its iterator. *)
From Coq Require String.
From Verif Require Import Base Sharding MapDatasets Samplers Iter Interleave Scheduled Multiprocess.

(** Record, record.py:49-59.  [rec_gen] is the state of the generator metadata.rng (a mutable object: a RandomMap
    draws from it and leaves it in another state). *)
Record lrec (G A : Type) := mkRec { rec_md : metadata; rec_gen : option G; rec_data : option A }.
Arguments mkRec {G A}. Arguments rec_md {G A}. Arguments rec_gen {G A}. Arguments rec_data {G A}.
(** RecordMetadata.remove_record_key, record.py:37-42. *)
Definition remove_record_key (m : metadata) : metadata := mkMd (md_index m) None (md_rng m).

(** The operations of a DataLoader: Map, RandomMap (and TfRandomMap), Filter, Batch.  A BatchOperation is replaced by a
    Batch, data_loader.py:398-406; other legacy operations: Operations.v; FlatMap: not here. *)
Inductive loader_op (G A : Type) :=
| LMap (f : option A -> res (option A))
| LRandomMap (f : option A -> option G -> res (option A * option G))
| LFilter (f : option A -> res bool)
| LBatch (batch_size : Z) (drop : bool) (batch_fn : list (option A) -> res (option A)).
Arguments LMap {G A}. Arguments LRandomMap {G A}. Arguments LFilter {G A}. Arguments LBatch {G A}.

(** _SamplerMapDataset.__getitem__, data_loader.py:156-169, with the generator of the record:
    np.random.Generator(np.random.Philox(key=...)) is [philox key]. *)
Definition record_ds {G A} (philox : Z -> G) (source : MapDs A) (s : sampler) (o : shard_options) : MapDs (lrec G A) :=
  let get i :=
    let! r := mget (sampler_ds source s o) i in
    Ok (option_map (fun md => mkRec (fst md) (option_map philox (md_rng (fst md))) (snd md)) r) in
  {| mlen := mlen (sampler_ds source s o); mget := get; mgetitems := default_getitems get |}.

(** The functions given to map, filter and batch by _apply_transform_to_dataset, data_loader.py:669-728.  Record elements
    are never None; a None would be an AttributeError. *)
Definition on_map {G A} (f : option A -> res (option A)) (r : lrec G A) : res (option (lrec G A)) :=
  let! d := f (rec_data r) in Ok (Some (mkRec (rec_md r) (rec_gen r) d)).
Definition on_random_map {G A} (f : option A -> option G -> res (option A * option G)) (r : lrec G A) : res (option (lrec G A)) :=
  let! dg := f (rec_data r) (rec_gen r) in Ok (Some (mkRec (rec_md r) (snd dg) (fst dg))).
Definition on_filter {G A} (f : option A -> res bool) (r : option (lrec G A)) : res bool :=
  match r with Some r => f (rec_data r) | None => Raise InternalError end.
(** _RecordBatchFn.__call__, data_loader.py:699-722: the metadata of the last record, without its key. *)
Definition on_batch {G A} (fn : list (option A) -> res (option A)) (rs : list (option (lrec G A))) : res (option (lrec G A)) :=
  let! rs := sequence (map (fun r => match r with Some r => Ok r | None => Raise InternalError end) rs) in
  let! d := fn (map rec_data rs) in
  match rev rs with
  | [] => Raise IndexError
  | r :: _ => Ok (Some (mkRec (remove_record_key (rec_md r)) (rec_gen r) d))
  end.
Definition apply_transform {G A} (op : loader_op G A) (t : ITree (lrec G A)) : ITree (lrec G A) :=
  match op with
  | LMap f => TMap (on_map f) t
  | LRandomMap f => TMap (on_random_map f) t
  | LFilter f => TFilter (on_filter f) t
  | LBatch n drop fn => TBatch n drop (on_batch fn) t
  end.
(** _create_dataset up to ds.map(lambda r: r.data), data_loader.py:456-468.  to_iter_dataset drops None elements
    (allow_nones False). *)
Definition loader_tree {G A} (ds : MapDs (lrec G A)) (num_threads prefetch_buffer : Z) (ops : list (loader_op G A)) : ITree A :=
  TMap (fun r => Ok (rec_data r)) (fold_left (fun t op => apply_transform op t) ops (TSource ds false num_threads prefetch_buffer)).

(** Iterators whose states are dictionaries {"next_index": n}: [z_to] reads the number, [z_of] makes the dictionary.  The
    states of map, filter and batch are their parent's, and so are those of the prefetching iterators of a worker. *)
Record zit (A : Type) := mkZ { z_it : Iter A; z_to : ick z_it -> Z; z_of : Z -> ick z_it }.
Arguments mkZ {A}. Arguments z_it {A}. Arguments z_to {A}. Arguments z_of {A}.
(** The iterator of a tree ([tree_iter]) with its states.  map_with_index and random_map of IterDataset have other
    states; a DataLoader does not use them. *)
Fixpoint tree_z (pi pc : Z) {A} (t : ITree A) : res (zit (option A)) :=
  match t with
  | TSource ds allow_nones num_threads buffer_size =>
      Ok (mkZ (prefetch_it None allow_nones num_threads buffer_size ds) (fun c => c) (fun c => c))
  | TMap f t => let! z := tree_z pi pc t in Ok (mkZ (map_it f (z_it z)) (z_to z) (z_of z))
  | TMapWithIndex _ _ => Raise KeyError
  | TRandomMap _ _ _ => Raise KeyError
  | TFilter f t => let! z := tree_z pi pc t in Ok (mkZ (filter_it None f (z_it z)) (z_to z) (z_of z))
  | TBatch batch_size drop batch_fn t =>
      let! z := tree_z pi pc t in
      if batch_size <=? 0 then Raise ValueError
      else Ok (mkZ (batch_iter batch_size drop batch_fn (z_it z)) (z_to z) (z_of z))
  end.
(** The workers of mp_prefetch: [worker_iter] and [mp_shards] of Multiprocess.v. *)
Definition worker_z {A} (W i : nat) (t : ITree A) : res (zit (option A)) :=
  let! t' := if Nat.eqb W 1 then Ok t else slice_tree (Z.of_nat i) (Z.of_nat W) t in
  tree_z (Z.of_nat i) (Z.of_nat W) t'.
Definition shards_z {A} (W buffer_size : nat) (r : running) (t : ITree A) : res (list (zit (option A))) :=
  let! zs := sequence (map (fun i => worker_z W i t) (seq 0 W)) in
  Ok (map (fun iz =>
        mkZ (thread_prefetch_it buffer_size (r_eager r (fst iz)) (r_thread r (fst iz))
               (process_prefetch_it buffer_size false (r_process r (fst iz)) (z_it (snd iz))))
            (z_to (snd iz)) (z_of (snd iz))) (combine (seq 0 W) zs)).

(** The interleaved iterators, with states of one type. *)
Definition nth_z {A} (zs : list (zit A)) (d : nat) : zit A :=
  nth d zs (mkZ {| ist := unit; ick := Z; init := tt; next := fun _ s => (Stop, s); get_state := fun _ => 0;
                   set_state := fun _ s _ => Ok s; jsonck := fun c => c |} (fun c => c) (fun c => c)).
Definition embed_z1 {A} (zs : list (zit A)) (d : nat) : hiter {e : nat & ist (z_it (nth_z zs e))} Z A :=
  {| h_init := existT _ d (init (z_it (nth_z zs d)));
     h_next := fun fuel s =>
       match cast d s with
       | Some x => let (o, x') := next (z_it (nth_z zs d)) fuel x in (o, existT _ d x')
       | None => (Fail TypeError, s)
       end;
     h_get := fun s => match cast d s with Some x => z_to (nth_z zs d) (get_state (z_it (nth_z zs d)) x) | None => 0 end;
     h_set := fun fuel s c =>
       match cast d s with
       | Some x => let! x' := set_state (z_it (nth_z zs d)) fuel x (z_of (nth_z zs d) c) in Ok (existT _ d x')
       | None => Raise TypeError
       end;
     h_json := fun c => c |}.
Definition embed_z {A} (zs : list (zit A)) := map (embed_z1 zs) (seq 0 (length zs)).

(** The state of a DataLoader's iterator, data_loader.py:289-296, after JSON. *)
Record loader_state := mkLs {
  last_seen : list Z;       (* _LAST_SEEN_INDICES: the values at "0", "1", ... *)
  last_worker : Z;          (* _LAST_WORKER_INDEX *)
  state_workers : Z;        (* _WORKER_COUNT *)
  state_sampler : String.string;
  state_source : String.string }.

(** _validate_state, data_loader.py:488-513. *)
Definition validate_state (W : nat) (sampler_repr source_repr : String.string) (c : loader_state) : res unit :=
  if negb (state_workers c =? Z.of_nat W) then Raise ValueError
  else if negb (String.eqb (state_sampler c) sampler_repr) then Raise ValueError
  else if negb (String.eqb (state_source c) source_repr) then Raise ValueError
  else Ok tt.

(** _DataLoaderStateDatasetIterator.get_state, data_loader.py:260-297: what becomes of next_index_in_cycle and the
    next_index of every worker.  [worker_count] is the attribute. *)
Definition to_loader_state (o : shard_options) (worker_count : Z) (sampler_repr source_repr : String.string)
    (next_index_in_cycle : Z) (workers_state : list Z) : loader_state :=
  let global_worker_count := Z.of_nat (length workers_state) * shard_count o in
  mkLs (map (fun '(i, n) => shard_index o - global_worker_count + Z.of_nat i * shard_count o + n * global_worker_count)
            (combine (seq 0 (length workers_state)) workers_state))
       (next_index_in_cycle - 1) worker_count sampler_repr source_repr.
(** set_state, data_loader.py:299-340: the state given to the iterator. *)
Definition of_loader_state0 (o : shard_options) (c : loader_state) : res Z :=
  match nth_error (last_seen c) 0 with
  | Some n => Ok ((n + shard_count o - shard_index o) / shard_count o)
  | None => Raise KeyError
  end.
Definition of_loader_state (o : shard_options) (c : loader_state) : res (ilck Z) :=
  let W := Z.to_nat (state_workers c) in
  let global_worker_count := state_workers c * shard_count o in
  let! states := sequence (map (fun i =>
    match nth_error (last_seen c) i with
    | Some n => Ok (Some ((n + global_worker_count - shard_index o - Z.of_nat i * shard_count o) / global_worker_count))
    | None => Raise KeyError
    end) (seq 0 W)) in
  Ok (mkCk (Z.to_nat ((last_worker c + 1) mod state_workers c)) W (seq 0 W) states (List.repeat false W) []).

(** A DataLoaderIterator, data_loader.py:516-590: get_state may change the iterator (see Interleave.v). *)
Record loader (A : Type) := mkLoader {
  ld_st : Type;
  ld_init : ld_st;
  ld_next : nat -> ld_st -> out A * ld_st;
  ld_get : ld_st -> res (loader_state * ld_st);
  ld_set : nat -> ld_st -> loader_state -> res ld_st }.
Arguments mkLoader {A}. Arguments ld_st {A}. Arguments ld_init {A}. Arguments ld_next {A}. Arguments ld_get {A}. Arguments ld_set {A}.

(** Without workers. *)
Definition loader0 {A} (o : shard_options) (sampler_repr source_repr : String.string) (z : zit A) : loader A :=
  {| ld_st := ist (z_it z); ld_init := init (z_it z); ld_next := next (z_it z);
     ld_get := fun s => Ok (to_loader_state o 0 sampler_repr source_repr 0 [z_to z (get_state (z_it z) s)], s);
     ld_set := fun fuel s c =>
       let! _ := validate_state 0 sampler_repr source_repr c in
       let! n := of_loader_state0 o c in
       set_state (z_it z) fuel s (z_of z n) |}.
(** With workers. *)
Definition loaderW {A} (o : shard_options) (sampler_repr source_repr : String.string) (W : nat) (zs : list (zit A)) : loader A :=
  {| ld_st := il {e : nat & ist (z_it (nth_z zs e))} Z; ld_init := il_init (embed_z zs) W;
     ld_next := il_next (embed_z zs) W false;
     ld_get := fun s =>
       let! (c, s') := il_get (embed_z zs) W s in
       let! ns := sequence (map (fun st => match st with Some n => Ok n | None => Raise TypeError end) (ck_states c)) in
       Ok (to_loader_state o (Z.of_nat W) sampler_repr source_repr (Z.of_nat (ck_nc c)) ns, s');
     ld_set := fun fuel s c =>
       let! _ := validate_state W sampler_repr source_repr c in
       let! c' := of_loader_state o c in
       il_set (embed_z zs) false (fun _ => true) fuel s c' |}.

(** DataLoader.__init__ and __iter__, data_loader.py:355-486.  [worker_count = None] (as many as the machine has) is not
    modelled.  [own] are the shard options of the sampler.  mp_prefetch rejects a buffer of size 0
    (process_prefetch.py:159-162), Batch a batch size below 1.  Arguments [num_threads], [prefetch_buffer]: ReadOptions. *)
Definition data_loader {G A} (philox : Z -> G) (source : MapDs A) (s : sampler) (own arg : option shard_options)
    (ops : list (loader_op G A)) (worker_count worker_buffer_size num_threads prefetch_buffer : Z) (r : running)
    (sampler_repr source_repr : String.string) : res (loader (option A)) :=
  if worker_count <? 0 then Raise ValueError
  else if worker_buffer_size <? 0 then Raise ValueError
  else
    let! o := match arg, own with Some o, _ => Ok o | None, Some o => Ok o | None, None => Raise ValueError end in
    let t := loader_tree (record_ds philox source s o) num_threads prefetch_buffer ops in
    if worker_count =? 0 then
      let! z := tree_z 0 1 t in Ok (loader0 o sampler_repr source_repr z)
    else if worker_buffer_size <=? 0 then Raise ValueError
    else
      let W := Z.to_nat worker_count in
      let! zs := shards_z W (Z.to_nat worker_buffer_size) r t in
      Ok (loaderW o sampler_repr source_repr W zs).
