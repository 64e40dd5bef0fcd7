(** Model of a DataLoader with FlatMap transformations: grain/_src/python/data_loader.py:437-486, 646-728.  Its iterators have
    the states of the dataset ("native dataset checkpointing") and states are not validated. *)
From Verif Require Import Base Sharding MapDatasets Samplers Iter Interleave Scheduled Multiprocess DataLoader Operations.

(** The operations of such a loader: those of DataLoader.v, and FlatMap. *)
Inductive flat_op (G A : Type) :=
| FOp (op : loader_op G A)
| FFlatMap (max_fan_out : Z) (f : option A -> res (list (option A))).
Arguments FOp {G A}. Arguments FFlatMap {G A}.

(** The function given to flat_map, data_loader.py:646-666 ([flat_map_adapter] of Operations.v) for the elements of the iterator. *)
Definition on_split {G A} (max_fan_out : Z) (f : option A -> res (list (option A))) (e : option (lrec G A)) : res (list (option (lrec G A))) :=
  match e with Some r => let! rs := flat_map_adapter max_fan_out f r in Ok (map Some rs) | None => Raise InternalError end.
(** _apply_transform_to_dataset, data_loader.py:669-737, on iterators. *)
Definition apply_flat {G A} (op : flat_op G A) (p : Iter (option (lrec G A))) : res (Iter (option (lrec G A))) :=
  match op with
  | FOp op => transform_it op p
  | FFlatMap max_fan_out f => Ok (flat_map_it (on_split max_fan_out f) p)
  end.
Fixpoint apply_all {G A} (ops : list (flat_op G A)) (p : Iter (option (lrec G A))) : res (Iter (option (lrec G A))) :=
  match ops with [] => Ok p | op :: ops' => let! q := apply_flat op p in apply_all ops' q end.

(** _create_dataset, data_loader.py:456-468, and the slice of worker [i] of [W] (process_prefetch.py:706-728).  In the main
    process the dataset is not sliced, but the state at the start is the same. *)
Definition flat_worker {G A} (W i : nat) (ds : MapDs (lrec G A)) (num_threads prefetch_buffer : Z) (ops : list (flat_op G A)) : res (Iter (option A)) :=
  let! ds' := if Nat.eqb W 1 then Ok ds else slice_ds (Some (Z.of_nat i)) None (Some (Z.of_nat W)) ds in
  let! p := apply_all ops (prefetch_it None false num_threads prefetch_buffer ds') in
  Ok (map_it (fun r => Ok (rec_data r)) p).

(** The iterator of a loader: of the dataset, or with workers the interleaved iterators of the workers (threads reading from
    processes; the threads are started by the first next). *)
Inductive flat_loader (A : Type) := InProcess (it : Iter A) | InWorkers (its : list (Iter A)).
Arguments InProcess {A}. Arguments InWorkers {A}.

(** DataLoader.__init__ and __iter__, data_loader.py:355-486, if an operation is a FlatMap: the checks of [data_loader]. *)
Definition flat_data_loader {G A} (philox : Z -> G) (source : MapDs A) (s : sampler) (own arg : option shard_options)
    (ops : list (flat_op G A)) (worker_count worker_buffer_size num_threads prefetch_buffer : Z) (r : running) : res (flat_loader (option A)) :=
  if worker_count <? 0 then Raise ValueError
  else if worker_buffer_size <? 0 then Raise ValueError
  else
    let! o := match arg, own with Some o, _ => Ok o | None, Some o => Ok o | None, None => Raise ValueError end in
    let ds := record_ds philox source s o in
    if worker_count =? 0 then
      let! it := flat_worker 1 0 ds num_threads prefetch_buffer ops in Ok (InProcess it)
    else if worker_buffer_size <=? 0 then Raise ValueError
    else
      let W := Z.to_nat worker_count in
      let! ps := sequence (map (fun i => flat_worker W i ds num_threads prefetch_buffer ops) (seq 0 W)) in
      Ok (InWorkers (map (fun ip => thread_prefetch_it (Z.to_nat worker_buffer_size) false (r_thread r (fst ip))
                             (process_prefetch_it (Z.to_nat worker_buffer_size) false (r_process r (fst ip)) (snd ip))) (combine (seq 0 W) ps))).
