(** Model of what ElasticIterator does with the graph of a dataset: which datasets it rejects, which it slices for a host, and
    which iterator holds the states of the shards.  grain/_src/python/dataset/elastic_iterator.py:38-111, 132-172, 385-434. *)
From Verif Require Import Base MultiprocessSpec.

(** The classes of datasets, as far as this code looks at them:
    - [CIter]: an IterDataset with one parent whose iterator has the parent's iterator as its parent: map, random_map,
      map_with_index, filter, batch, rebatch, limit, repeat, flat_map, window_shuffle, cache, packing, ThreadPrefetchIterDataset
      (map.py:301, 340, 396, filter.py:150, batch.py:293, rebatch.py:85, limit.py:33, repeat.py:95, flatmap.py:87,
      shuffle.py:194, cache.py:54, packing.py:69, packing_concat_then_split.py:246, prefetch.py:547);
    - [CSame]: one whose iterator is the parent's own: with seed, with options, with a multiprocessing context, and the slice
      of a worker (dataset.py:1671-1750, prefetch.py:751-774, process_prefetch.py:649-675);
    - [CProcess]: ProcessPrefetchIterDataset, whose iterator has no parents (process_prefetch.py:344);
    - [CIterSource]: an IterDataset without parents and without set_slice, as TFRecordIterDataset (tfrecord_dataset.py:100-109);
    - [CZip], [CMix]: ZipIterDataset, MixedIterDataset (zip.py:63-96, mix.py:183-273);
    - [CPrefetch]: PrefetchIterDataset, what MapDataset.to_iter_dataset makes (prefetch.py:132-151);
    - [CMap], [CFilterMap]: MapDatasets with parents, FilterMapDataset;
    - [CMapSource]: SourceMapDataset and RangeMapDataset (source.py:45-150, 158-195). *)
Inductive class : Type := CIter | CSame | CProcess | CIterSource | CZip | CMix | CPrefetch | CMap | CFilterMap | CMapSource.
(** A dataset.  InterleaveIterDataset (interleave.py:501-576) keeps the interleaved datasets, and ParquetIterDataset
    (parquet_dataset.py:88-158) its paths; neither has parents.  Simplified: the graph is a tree.  A dataset that is a parent
    twice is one object in the code; the loops visit it twice too, and slicing it twice needs zip or mix, which are rejected. *)
Inductive ds (X : Type) : Type :=
| Ds (c : class) (parents : list (ds X))
| Interleave (datasets : list (ds X))
| Parquet (paths : list X).
Arguments Ds {X}. Arguments Interleave {X}. Arguments Parquet {X}.

Section Graph.
Context {X : Type}.
Notation ds := (ds X).

(** dataset.py:364-365, 1022-1023. *)
Definition parents (d : ds) : list ds := match d with Ds _ ps => ps | _ => [] end.
(** isinstance(d, IterDataset). *)
Definition is_iter (d : ds) : bool := match d with Ds (CMap | CFilterMap | CMapSource) _ => false | _ => true end.
(** The number of visits the loops below make. *)
Fixpoint nodes (d : ds) : nat := match d with Ds _ ps => S (fold_right (fun p n => nodes p + n)%nat 0%nat ps) | _ => 1%nat end.

(** The loops at elastic_iterator.py:47-63 and 403-410: to_check is a stack, its top comes first here.  pop takes the last
    element of a Python list and extend appends, hence the reversal. *)
Fixpoint check_loop (bad : ds -> bool) (fuel : nat) (to_check : list ds) : res unit :=
  match to_check with
  | [] => Ok tt
  | d :: rest =>
      match fuel with
      | O => OutOfFuel
      | S fuel => if bad d then Raise ValueError else check_loop bad fuel (rev (parents d) ++ rest)
      end
  end.
Definition is_filter_map (d : ds) : bool := match d with Ds CFilterMap _ => true | _ => false end.
(** _verify_transformations_supported, lines 38-63. *)
Definition is_unsupported (d : ds) : bool := match d with Ds (CZip | CMix | CPrefetch) _ => true | _ => false end.

(** _set_slice_iter_dataset and _set_slice_map_dataset, prefetch.py:394-448, with slice(h, None, k) and without sequential_slice:
    set_slice of InterleaveIterDataset (interleave.py:573-575), ParquetIterDataset (parquet_dataset.py:156-158),
    PrefetchIterDataset (prefetch.py:146-152, the slice of the MapDataset is one more MapDataset) and of the sources, which
    assert sequential_slice (source.py:133-134, 180-183). *)
Fixpoint set_slice (h k : nat) (d : ds) : res ds :=
  match d with
  | Interleave l => Ok (Interleave (stride k h l))
  | Parquet l => Ok (Parquet (stride k h l))
  | Ds CPrefetch ps => Ok (Ds CPrefetch (map (fun p => Ds CMap [p]) ps))
  | Ds CMapSource _ => Raise AssertionError
  | Ds _ [] => Raise ValueError
  | Ds c ps => let! ps' := sequence (map (set_slice h k) ps) in Ok (Ds c ps')
  end.

Definition first_some {Y Z} (f : Y -> option Z) : list Y -> option Z :=
  fix go l := match l with [] => None | y :: l => match f y with Some z => Some z | None => go l end end.
(** _find_sliceable_dataset, lines 66-85. *)
Fixpoint find_sliceable (d : ds) : option ds :=
  match d with
  | Interleave _ | Parquet _ | Ds (CPrefetch | CMapSource) _ => Some d
  | Ds _ ps => first_some (fun p => if is_iter p then find_sliceable p else None) ps
  end.

(** An iterator: the shards whose states it manages, if it has get_shard_states and set_shard_states (only
    InterleaveDatasetIterator does, interleave.py:209-300), and its parents. *)
Inductive itr : Type := It (shards : option (list ds)) (its : list itr).
(** __iter__.  ParquetIterDataset.__iter__, parquet_dataset.py:145-154, makes an interleave of datasets of one file each, unless
    there is exactly one file. *)
Fixpoint iter_of (d : ds) : itr :=
  match d with
  | Interleave l => It (Some l) []
  | Parquet l => match l with [_] => It None [] | _ => It (Some (map (fun p => Parquet [p]) l)) [] end
  | Ds CSame ps => match ps with p :: _ => iter_of p | [] => It None [] end
  | Ds (CProcess | CIterSource | CPrefetch) _ => It None []
  | Ds _ ps => It None (map iter_of ps)
  end.
(** _find_sliceable_iterator, lines 88-111. *)
Fixpoint find_iter (i : itr) : option (list ds) :=
  match i with It (Some l) _ => Some l | It None its => first_some find_iter its end.

(** ElasticIterator.__init__, lines 402-434, on host [h] of [k].  [mp]: whether multiprocessing_options are given. *)
Definition elastic_new (mp : bool) (num_threads h k : nat) (d : ds) : res ds :=
  let! _ := check_loop is_filter_map (nodes d) [d] in
  if is_iter d then
    if mp then Raise NotImplementedError
    else
      let! _ := check_loop is_unsupported (nodes d) [d] in
      let! d' := set_slice h k d in
      match find_sliceable d' with
      | Some _ => Ok d'
      | None =>
          if (1 <? num_threads)%nat then
            let! l := sequence (map (fun t => set_slice t num_threads d') (seq 0 num_threads)) in Ok (Interleave l)
          else Ok d'
      end
  else Ok d.

(** What the first use of the iterator does before it reads: ElasticIterDatasetIterator.__init__, lines 149-172 (made by
    base_iterator, lines 436-444).  The result are the shards whose elements are read and whose states are saved. *)
Definition first_use (batch : Z) (k : nat) (d : ds) : res (list ds) :=
  match find_sliceable d with
  | None => Raise ValueError
  | Some _ =>
      let! d' := (if batch >? 0
                  then if batch mod Z.of_nat k =? 0 then Ok (Ds CIter [d]) else Raise ValueError
                  else Ok d) in
      match find_iter (iter_of d') with None => Raise ValueError | Some l => Ok l end
  end.

(** IterDataset.mp_prefetch with [W] workers, process_prefetch.py:678-754 (the slice that a worker applies when it starts is in
    MpInterleave.v). *)
Definition mp_prefetch (W : nat) (d : ds) : ds :=
  match W with
  | O => d
  | S O => Ds CSame [Interleave [Ds CProcess [Ds CSame [d]]]]
  | _ => Ds CSame [Interleave (map (fun _ => Ds CProcess [Ds CSame [Ds CSame [d]]]) (seq 0 W))]
  end.
End Graph.
