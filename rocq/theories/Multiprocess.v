(** Model of multiprocess_prefetch and multithread_prefetch (IterDataset.mp_prefetch):
    transformations/process_prefetch.py:649-755 and transformations/prefetch.py:394-447, 751-830.

    These functions change a dataset that has been built before: they go through its parents to the
    MapDataset it reads and slice that.  So iterable datasets are trees here. *)
From Verif Require Import Base MapDatasets Iter Interleave ThreadPrefetch ProcessPrefetch Scheduled.

(** Iterable datasets reading one MapDataset.  [ITree A] has elements of type [option A] (None is an element for
    the code).  Transformations with several parents, flat_map, limit, repeat, window_shuffle, rebatch and packing
    are not in the tree: [_set_slice_iter_dataset] treats them as it treats the ones here. *)
Inductive ITree : Type -> Type :=
| TSource {A} (ds : MapDs A) (allow_nones : bool) (num_threads buffer_size : Z) : ITree A
| TMap {A B} (f : A -> res (option B)) (t : ITree A) : ITree B
| TMapWithIndex {A B} (f : Z -> A -> res (option B)) (t : ITree A) : ITree B
| TRandomMap {A B G} (f : A -> G -> res (option B)) (rng : Z -> G) (t : ITree A) : ITree B
| TFilter {A} (f : option A -> res bool) (t : ITree A) : ITree A
| TBatch {A B} (batch_size : Z) (drop : bool) (batch_fn : list (option A) -> res (option B)) (t : ITree A) : ITree B.

(** [__iter__] of the dataset with mp_context process_index = [pi] and process_count = [pc]: prefetch.py:162-165,
    map.py:386-520, filter.py:161-190, batch.py:508-560.  The context is shared by all iterators of the pipeline
    (dataset.py:1426-1441); only random_map uses it (map.py:352-360). *)
Fixpoint tree_iter (pi pc : Z) {A} (t : ITree A) : res (Iter (option A)) :=
  match t with
  | TSource ds allow_nones num_threads buffer_size => Ok (prefetch_it None allow_nones num_threads buffer_size ds)
  | TMap f t => let! p := tree_iter pi pc t in Ok (map_it f p)
  | TMapWithIndex f t => let! p := tree_iter pi pc t in Ok (map_with_index_it f p)
  | TRandomMap f rng t => let! p := tree_iter pi pc t in Ok (random_map_it f rng pi pc p)
  | TFilter f t => let! p := tree_iter pi pc t in Ok (filter_it None f p)
  | TBatch batch_size drop batch_fn t => let! p := tree_iter pi pc t in batch_it batch_size drop batch_fn p
  end.

(** _set_slice_iter_dataset, prefetch.py:394-418, with slice(i, None, W) and sequential_slice = False: recursion
    through the parents to PrefetchIterDataset.set_slice, prefetch.py:146-152.  (sequential_slice = True: SequentialSlice.v;
    datasets without parents, which cannot be sliced, are not modelled.) *)
Fixpoint slice_tree (i W : Z) {A} (t : ITree A) : res (ITree A) :=
  match t with
  | TSource ds allow_nones num_threads buffer_size =>
      let! ds' := slice_ds (Some i) None (Some W) ds in Ok (TSource ds' allow_nones num_threads buffer_size)
  | TMap f t => let! t' := slice_tree i W t in Ok (TMap f t')
  | TMapWithIndex f t => let! t' := slice_tree i W t in Ok (TMapWithIndex f t')
  | TRandomMap f rng t => let! t' := slice_tree i W t in Ok (TRandomMap f rng t')
  | TFilter f t => let! t' := slice_tree i W t in Ok (TFilter f t')
  | TBatch batch_size drop batch_fn t => let! t' := slice_tree i W t in Ok (TBatch batch_size drop batch_fn t')
  end.

(** The iterator of worker [i] of [W]: process_prefetch.py:706-728 with _LazyWorkerSliceIterDataset (649-675) and
    _MpContextIterDataset (prefetch.py:751-771); prefetch.py:799-820. *)
Definition worker_iter {A} (W i : nat) (t : ITree A) : res (Iter (option A)) :=
  let! t' := if Nat.eqb W 1 then Ok t else slice_tree (Z.of_nat i) (Z.of_nat W) t in
  tree_iter (Z.of_nat i) (Z.of_nat W) t'.

(** How the threads and processes run: for every worker the schedules of its process and of the thread reading from it,
    and whether that thread is started before the first element is asked for. *)
Record running := mkRunning { r_process : nat -> schedule; r_thread : nat -> schedule; r_eager : nat -> bool }.

(** multiprocess_prefetch, process_prefetch.py:678-755: a ProcessPrefetchIterDataset per worker; InterleaveIterDataset puts
    a ThreadPrefetchIterDataset around each (interleave.py:475-498).  [keep]: whether the iterators keep their parents and
    workers after the end (set by repeat).  worker_init_fn and shared memory have no effect in the model. *)
Definition mp_shards {A} (W buffer_size : nat) (keep : bool) (r : running) (t : ITree A) : res (list (Iter (option A))) :=
  let! ps := sequence (map (fun i => worker_iter W i t) (seq 0 W)) in
  Ok (map (fun ip => thread_prefetch_it buffer_size (r_eager r (fst ip)) (r_thread r (fst ip))
                       (process_prefetch_it buffer_size keep (r_process r (fst ip)) (snd ip))) (combine (seq 0 W) ps)).
(** Lines 741-755.  States are never empty, so [truthy] is true. *)
Definition mp_prefetch {A} (W buffer_size : nat) (keep : bool) (r : running) (t : ITree A) : res (Iter (option A)) :=
  if Nat.eqb W 0 then tree_iter 0 1 t
  else let! ps := mp_shards W buffer_size keep r t in Ok (interleave ps W keep (fun _ => true)).

(** multithread_prefetch, prefetch.py:773-830: the same without processes. *)
Definition mt_shards {A} (W buffer_size : nat) (r : running) (t : ITree A) : res (list (Iter (option A))) :=
  let! ps := sequence (map (fun i => worker_iter W i t) (seq 0 W)) in
  Ok (map (fun ip => thread_prefetch_it buffer_size (r_eager r (fst ip)) (r_thread r (fst ip)) (snd ip)) (combine (seq 0 W) ps)).
Definition mt_prefetch {A} (W buffer_size : nat) (keep : bool) (r : running) (t : ITree A) : res (Iter (option A)) :=
  if Nat.eqb W 0 then tree_iter 0 1 t
  else let! ps := mt_shards W buffer_size r t in Ok (interleave ps W keep (fun _ => true)).
