(** Model of get_element_spec (grain/_src/python/dataset/dataset.py:118-130 and 1862-1872) and of the [_element_spec] of every
    transformation, over pipelines built from the models of MapDatasets.v, Iter.v and Interleave.v, with elements that are
    structures of arrays. *)
From Verif Require Import Base MapDatasets Tree SharedMemory Iter Interleave.

(** ShapeDtypeStruct, base.py:49-62.  A dimension is a number or None (unknown). *)
Record sds (D : Type) := mkSds { s_shape : list (option Z); s_dtype : D }.
Arguments mkSds {D}. Arguments s_shape {D}. Arguments s_dtype {D}.

(** The tag of Python's tuple in [tree]. *)
Definition tuple_tag : nat := 1.

Section Spec.
Context {D V : Type}.
Variable np : numpy D V.
(** np.int64, the value of a Python integer, and the generator of C01's shuffles. *)
Variable int64 : D.
Variable of_int : Z -> V.
Variable gen_keys : Z -> Z -> list Z.

(** An element: a structure whose leaves are arrays or None.  (Numbers are arrays of shape ().) *)
Definition elem := tree (option (array D V)).
Definition spec := tree (sds D).

(** ** Batching whole elements *)

Definition as_array (t : elem) : res (array D V) :=
  match t with Leaf (Some a) => Ok a | _ => Raise TypeError end.
(** make_batch, batch.py:177-223, without shared memory (see SharedMemory.v for it).  np.stack of values that are not arrays
    is modelled as TypeError. *)
Definition make_batch_of (values : list elem) : res elem :=
  match values with
  | [] => Raise ValueError
  | [v] =>
      map_leaves (fun o => match o with
                           | Some a => Ok (Some (mkArray (a_dtype a) (1 :: a_shape a) (a_data a)))
                           | None => Raise TypeError
                           end) v
  | v :: vs =>
      map_structure (fun x others =>
        let! arrays := sequence (map as_array (Leaf x :: others)) in
        let! a := np_stack np arrays in Ok (Some a)) v vs
  end.

(** The batch functions: make_batch, _MakeBatchParallel (batch.py:61-170; what it returns is what make_batch returns when the
    element types agree, see C62, and is modelled so), a BatchFn with output_spec (batch.py:333-350), any other callable. *)
Inductive batch_fn : Type :=
| MakeBatch
| MakeBatchParallel
| WithOutputSpec (f : list elem -> res elem) (output_spec : spec -> Z -> bool -> res spec)
| CustomFn (f : list elem -> res elem).
Definition batch_call (b : batch_fn) : list elem -> res elem :=
  match b with MakeBatch | MakeBatchParallel => make_batch_of | WithOutputSpec f _ => f | CustomFn f => f end.
(** The call on the values a dataset hands over.  A None among them is modelled as TypeError. *)
Definition batch_values_of (b : batch_fn) (values : list (option elem)) : res elem :=
  let! xs := sequence (map (fun o => match o with Some x => Ok x | None => Raise TypeError end) values) in
  batch_call b xs.

(** _get_batch_element_spec, batch.py:353-380. *)
Definition batch_spec (input : spec) (batch_size : Z) (drop : bool) (b : batch_fn) : res spec :=
  match b with
  | WithOutputSpec _ output_spec => output_spec input batch_size drop
  | CustomFn _ => Raise NotImplementedError
  | MakeBatch | MakeBatchParallel =>
      map_leaves (fun x => Ok (mkSds ((if drop then Some batch_size else None) :: s_shape x) (s_dtype x))) input
  end.

(** RebatchIterDataset._element_spec, rebatch.py:63-74. *)
Definition rebatch_spec (batch_size : Z) (input : spec) : res spec :=
  map_leaves (fun x => Ok (mkSds (Some batch_size :: tl (s_shape x)) (s_dtype x))) input.

(** ** Rebatching whole elements *)

(** A row of an array: its element type, its shape and its elements. *)
Definition row : Type := D * list Z * list V.
(** The rows of an array along its first axis.  An array of shape () has no len(): TypeError. *)
Definition rows_of (o : option (array D V)) : res (list row) :=
  match o with
  | None => Raise TypeError
  | Some a =>
      match a_shape a with
      | [] => Raise TypeError
      | n :: sh =>
          let k := Z.to_nat (prod sh) in
          Ok (map (fun i => (a_dtype a, sh, firstn k (skipn (i * k) (a_data a)))) (seq 0 (Z.to_nat n)))
      end
  end.
(** The rows put together again (rebatch.py:177-183, np.concatenate along the first axis); [proto] has the element type and the
    shape of rows when there are none. *)
Definition of_rows (proto : option (array D V)) (rows : list row) : res (option (array D V)) :=
  match rows, proto with
  | [], Some a => Ok (Some (mkArray (a_dtype a) (0 :: tl (a_shape a)) []))
  | [], None => Raise TypeError
  | (d, sh, _) :: _, _ =>
      if forallb (fun r => if list_eq_dec Z.eq_dec (snd (fst r)) sh then true else false) rows
      then let d' := np_result np (map (fun r => fst (fst r)) rows) in
           Ok (Some (mkArray d' (Z.of_nat (length rows) :: sh) (map (np_cast np d') (flat_map snd rows))))
      else Raise ValueError
  end.
(** The parent as _RebatchDatasetIterator sees it: _flatten (rebatch.py:105-109) turns an element into its leaves and
    remembers the first element in _treedef, which set_state does not forget. *)
Definition flattened (p : Iter (option elem)) : Iter (leaves row) :=
  {| ist := ist p * option elem; ick := ick p; init := (init p, None);
     next := fun fuel '(s, treedef) =>
       bindn (next p fuel s) (fun s' => (s', treedef)) (fun e s' =>
         match e with
         | None => (Fail TypeError, (s', treedef))
         | Some x =>
             (of_res (sequence (map rows_of (flatten x))),
              (s', match treedef with None => Some x | Some _ => treedef end))
         end);
     get_state := fun '(s, _) => get_state p s;
     set_state := fun fuel '(s, treedef) c => let! s' := set_state p fuel s c in Ok (s', treedef);
     jsonck := jsonck p |}.
(** RebatchIterDataset, rebatch.py:27-187, on whole elements: [rebatch_it] on the rows,
    and unflatten_as(self._treedef, ...)
    (line 186). *)
Definition rebatch_elements (batch_size : Z) (drop : bool) (p : Iter (option elem)) : res (Iter (option elem)) :=
  if batch_size <=? 0 then Raise ValueError
  else Ok
  {| ist := rb_st (ist p * option elem) (ick p) row; ick := ick p * Z;
     init := mkRb (init p, None) None 0 (get_state p (init p));
     next := fun fuel s =>
       bindn (rebatch_loop drop (flattened p) fuel batch_size None s) (fun s' => s') (fun acc s' =>
         match acc with
         | None => (Stop, s')
         | Some rows =>
             match snd (rb_parent s') with
             | None => (Fail TypeError, s')
             | Some treedef =>
                 (of_res (let! ls := sequence (map (fun pr => of_rows (fst pr) (snd pr)) (combine (flatten treedef) rows)) in
                          let! t := unflatten_as treedef ls in Ok (Some t)), s')
             end
         end);
     get_state := fun s => (rb_last s, rb_idx s);
     set_state := fun fuel s '(c, idx) =>
       let! s' := set_state (flattened p) fuel (rb_parent s) c in
       Ok (mkRb s' None idx (get_state (flattened p) s'));
     jsonck := fun '(c, i) => (jsonck p c, i) |}.

(** ** Pipelines *)

(** The element of a zipped dataset. *)
Definition tuple_of (xs : list (option elem)) : elem :=
  Seq tuple_tag (map (fun o => match o with Some x => x | None => Leaf None end) xs).
(** The element of a RangeMapDataset. *)
Definition int_elem (z : Z) : elem := Leaf (Some (mkArray int64 [] [of_int z])).
(** Not code: a dataset with its elements read at another Coq type. *)
Definition retype_ds {A B} (h : A -> B) (p : MapDs A) : MapDs B :=
  {| mlen := mlen p;
     mget := fun i => let! e := mget p i in Ok (option_map h e);
     mgetitems := fun is => let! es := mgetitems p is in Ok (map (option_map h) es) |}.

(** A MapDataset pipeline.  A transform comes with its output_spec if it has one.  MUser: a dataset class of the user, with its
    own _element_spec (or an exception). *)
Inductive mpipe : Type :=
| MUser (ds : MapDs elem) (sp : res spec)
| MSource (n : Z) (src : Z -> res (option elem)) (batched : option (list Z -> res (list (option elem))))
| MRange (start : Z) (stop : option Z) (step : Z)
| MMap (f : elem -> res (option elem)) (output_spec : option (spec -> res spec)) (p : mpipe)
| MMapWithIndex (f : Z -> elem -> res (option elem)) (output_spec : option (spec -> res spec)) (p : mpipe)
| MRandomMap (f : elem -> Z -> res (option elem)) (rng : Z -> Z) (output_spec : option (spec -> res spec)) (p : mpipe)
| MFilter (f : elem -> res bool) (p : mpipe)
| MShuffle (seed : Z) (p : mpipe)
| MWindowShuffle (window_size seed : Z) (p : mpipe)
| MSlice (start stop step : option Z) (p : mpipe)
| MReindex (indices : list Z) (p : mpipe)
| MRepeat (num_epochs : option Z) (reseed : bool) (p : mpipe)
| MBatch (pushdown : bool) (batch_size : Z) (drop : bool) (b : batch_fn) (p : mpipe)
| MMix (ps : list mpipe) (proportions : list Z)
| MConcatenate (ps : list mpipe)
| MZip (ps : list mpipe)
| MFlatMap (m : Z) (f : elem -> res (list (option elem))) (p : mpipe).

(** The dataset, with the models of MapDatasets.v. *)
Fixpoint mden (p : mpipe) : res (MapDs elem) :=
  match p with
  | MUser ds _ => Ok ds
  | MSource n src b => Ok (source_ds n src b)
  | MRange start stop step => let! ds := range_ds start stop step in Ok (retype_ds int_elem ds)
  | MMap f _ p => let! ds := mden p in Ok (map_ds f ds)
  | MMapWithIndex f _ p => let! ds := mden p in Ok (map_with_index_ds f ds)
  | MRandomMap f rng _ p => let! ds := mden p in Ok (random_map_ds f rng ds)
  | MFilter f p => let! ds := mden p in Ok (filter_ds f ds)
  | MShuffle seed p => let! ds := mden p in shuffle_ds gen_keys seed ds
  | MWindowShuffle w seed p => let! ds := mden p in Ok (window_shuffle_ds gen_keys w seed ds)
  | MSlice a b c p => let! ds := mden p in slice_ds a b c ds
  | MReindex is p => let! ds := mden p in Ok (reindex_ds is ds)
  | MRepeat n r p => let! ds := mden p in repeat_ds n r ds
  | MBatch pd n drop b p => let! ds := mden p in batch_ds pd n drop (batch_values_of b) ds
  | MMix ps props => let! dss := sequence (map mden ps) in mix_ds dss props
  | MConcatenate ps => let! dss := sequence (map mden ps) in concatenate_ds dss
  | MZip ps => let! dss := sequence (map mden ps) in let! z := zip_ds dss in Ok (retype_ds tuple_of z)
  | MFlatMap m f p => let! ds := mden p in Ok (flat_map_ds m f ds)
  end.

(** _ElementSpecFromTransform...Mixin, map.py:97-107 and 125-135. *)
Definition transform_spec (output_spec : option (spec -> res spec)) (parent : res spec) : res spec :=
  match output_spec with
  | None => Raise ValueError
  | Some os => let! sp := parent in os sp
  end.
(** [self._parents[0]._element_spec] *)
Definition first_spec (sps : list (res spec)) : res spec :=
  match sps with [] => Raise IndexError | r :: _ => r end.

(** MapDataset._element_spec: source.py:222-224 (range; sources and flat_map have none: dataset.py:118-130), map.py:97-107,
    filter.py:73-75, shuffle.py:85-87 and 137-139, slice.py:61-63 and 128-130, repeat.py:80-82, batch.py:470-477, mix.py:177-180,
    zip.py:58-60. *)
Fixpoint mspec (p : mpipe) : res spec :=
  match p with
  | MUser _ sp => sp
  | MSource _ _ _ | MFlatMap _ _ _ => Raise NotImplementedError
  | MRange _ _ _ => Ok (Leaf (mkSds [] int64))
  | MMap _ os p | MMapWithIndex _ os p | MRandomMap _ _ os p => transform_spec os (mspec p)
  | MFilter _ p | MShuffle _ p | MWindowShuffle _ _ p | MSlice _ _ _ p | MReindex _ p | MRepeat _ _ p => mspec p
  | MBatch _ n drop b p => let! sp := mspec p in batch_spec sp n drop b
  | MMix ps _ | MConcatenate ps => first_spec (map mspec ps)
  | MZip ps => let! sps := sequence (map mspec ps) in Ok (Seq tuple_tag sps)
  end.

(** An IterDataset pipeline.  Prefetching in threads and processes hands on the parent's elements (C30, C32) and its spec
    (prefetch.py:499-501, 770-772, process_prefetch.py:189-191) and has no constructor.  [truthy] is as in Interleave.v. *)
Inductive ipipe : Type :=
| IUser (it : Iter (option elem)) (sp : res spec)
| IPrefetch (thr : option (Z * Z)) (allow_nones : bool) (num_threads buffer_size : Z) (p : mpipe)
| IMap (f : elem -> res (option elem)) (output_spec : option (spec -> res spec)) (p : ipipe)
| IMapWithIndex (f : Z -> elem -> res (option elem)) (output_spec : option (spec -> res spec)) (p : ipipe)
| IRandomMap (f : elem -> Z -> res (option elem)) (rng : Z -> Z) (pi pc : Z) (output_spec : option (spec -> res spec)) (p : ipipe)
| IFilter (thr : option (Z * Z)) (f : option elem -> res bool) (p : ipipe)
| IBatch (batch_size : Z) (drop : bool) (b : batch_fn) (p : ipipe)
| IRebatch (batch_size : Z) (drop : bool) (p : ipipe)
| ILimit (count : Z) (p : ipipe)
| IRepeat (num_epochs : option Z) (p : ipipe)
| IWindowShuffle (window_size seed : Z) (p : ipipe)
| ICache (p : ipipe)
| IMix (proportions : list Z) (ps : list ipipe)
| IZip (strict : bool) (ps : list ipipe)
| IInterleave (ps : list ipipe) (cycle_length : nat) (keep : bool)
    (truthy : forall its : list (Iter (option elem)), {e : nat & ick (nth_it its e)} -> bool)
| IFlatMap (f : option elem -> res (list (option elem))) (p : ipipe).

(** The iterator, with the models of Iter.v and Interleave.v. *)
Fixpoint iden (p : ipipe) : res (Iter (option elem)) :=
  match p with
  | IUser it _ => Ok it
  | IPrefetch thr an nt bs p => let! ds := mden p in Ok (prefetch_it thr an nt bs ds)
  | IMap f _ p => let! it := iden p in Ok (map_it f it)
  | IMapWithIndex f _ p => let! it := iden p in Ok (map_with_index_it f it)
  | IRandomMap f rng pi pc _ p => let! it := iden p in Ok (random_map_it f rng pi pc it)
  | IFilter thr f p => let! it := iden p in Ok (filter_it thr f it)
  | IBatch n drop b p => let! it := iden p in let! it' := batch_it n drop (batch_values_of b) it in Ok (retype Some it')
  | IRebatch n drop p => let! it := iden p in rebatch_elements n drop it
  | ILimit n p => let! it := iden p in limit_it n it
  | IRepeat n p => let! it := iden p in repeat_it n it
  | IWindowShuffle w seed p => let! it := iden p in Ok (window_shuffle_it gen_keys w seed it)
  | ICache p => let! it := iden p in Ok (cache_it it)
  | IMix props ps => let! its := sequence (map iden ps) in mixed_it props its
  | IZip strict ps => let! its := sequence (map iden ps) in let! z := zip_it strict its in Ok (retype (fun xs => Some (tuple_of xs)) z)
  | IInterleave ps cycle keep truthy => let! its := sequence (map iden ps) in Ok (interleave its cycle keep (truthy its))
  | IFlatMap f p => let! it := iden p in Ok (flat_map_it f it)
  end.

(** IterDataset._element_spec: prefetch.py:165-167, map.py:125-135, filter.py:223-225, batch.py:537-544, rebatch.py:63-74,
    limit.py:96-98, repeat.py:165-167, shuffle.py:166-168, cache.py:45-47, mix.py:300-303, zip.py:80-82,
    interleave.py:583-586; flat_map: dataset.py:118-130. *)
Fixpoint ispec (p : ipipe) : res spec :=
  match p with
  | IUser _ sp => sp
  | IPrefetch _ _ _ _ p => mspec p
  | IMap _ os p | IMapWithIndex _ os p | IRandomMap _ _ _ _ os p => transform_spec os (ispec p)
  | IFilter _ _ p | ILimit _ p | IRepeat _ p | IWindowShuffle _ _ p | ICache p => ispec p
  | IBatch n drop b p => let! sp := ispec p in batch_spec sp n drop b
  | IRebatch n _ p => let! sp := ispec p in rebatch_spec n sp
  | IMix _ ps | IInterleave ps _ _ _ => first_spec (map ispec ps)
  | IZip _ ps => let! sps := sequence (map ispec ps) in Ok (Seq tuple_tag sps)
  | IFlatMap _ _ => Raise NotImplementedError
  end.
End Spec.
Arguments elem : clear implicits. Arguments spec : clear implicits. Arguments mpipe : clear implicits. Arguments ipipe : clear implicits.
Arguments batch_fn : clear implicits.
