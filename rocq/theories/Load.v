(** Model of grain/_src/python/load.py. *)
From Coq Require String.
From Verif Require Import Base Sharding MapDatasets Samplers Multiprocess DataLoader.

(** load, load.py:20-78.  The sampler owns the shard options; [None] is the default NoSharding().  worker_buffer_size keeps its
    default 1 (data_loader.py:362).  [batch_fn] is what transforms.Batch does by default. *)
Definition grain_load {G A} (gen_keys : Z -> Z -> list Z) (philox : Z -> G) (source : MapDs A)
    (num_epochs : option Z) (shuffle : bool) (seed : option Z) (so : option shard_options)
    (transformations : list (loader_op G A)) (batch_size : option Z) (drop : bool)
    (batch_fn : list (option A) -> res (option A)) (worker_count num_threads prefetch_buffer : Z) (r : running)
    (sampler_repr source_repr : String.string) : res (loader (option A)) :=
  let! s := index_sampler gen_keys (mlen source) so shuffle num_epochs seed in
  let transformations :=
    match batch_size with
    | None => transformations
    | Some b => transformations ++ [LBatch b drop batch_fn]
    end in
  data_loader philox source s (Some (match so with None => no_sharding | Some o => o end)) None transformations
    worker_count 1 num_threads prefetch_buffer r sampler_repr source_repr.
