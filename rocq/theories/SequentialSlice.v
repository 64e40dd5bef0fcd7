(** Model of mp_prefetch with sequential_slice=True: transformations/prefetch.py:146-152, 394-447 and
    transformations/source.py:120-138, 179-196.

    Slicing changes source objects in place.  Transformations that keep numbers computed from their parent's length when
    they were built (slice, repeat, batch, concatenate, mix) keep the old numbers. *)
From Verif Require Import Base Sharding MapDatasets Iter Interleave ThreadPrefetch ProcessPrefetch Scheduled Multiprocess.

(** The source objects.  [SourceObj original now]: a SourceMapDataset, as built and as it is now (source.py:47-59; the
    original is stored by the first set_slice, line 135).  [RangeObj inj start stop step a b]: a RangeMapDataset as built
    and its current bounds (source.py:161-168); [inj] puts all sources in one type. *)
Inductive source_obj (S : Type) : Type :=
| SourceObj (original now : MapDs S)
| RangeObj (inj : Z -> S) (start stop step a b : Z).
Arguments SourceObj {S}. Arguments RangeObj {S}.
Definition source_now {S} (o : source_obj S) : res (MapDs S) :=
  match o with
  | SourceObj _ now => Ok now
  | RangeObj inj _ _ step a b => let! d := range_ds a (Some b) step in Ok (map_ds (fun x => Ok (Some (inj x))) d)
  end.

(** SourceMapDataset.set_slice, source.py:121-138, and RangeMapDataset.set_slice, source.py:179-196, with
    sl = slice(i, None, W) and sequential_slice = True.  The new [_source] of a SourceMapDataset is a SliceMapDataset,
    which has [_getitems].  (With sequential_slice = False both raise AssertionError; PrefetchIterDataset never
    calls them so.) *)
Definition set_slice_source {S} (i W : Z) (o : source_obj S) : res (source_obj S) :=
  match o with
  | SourceObj original now =>
      let! opts := make_shard_options i W false in
      let (shard_start, shard_end) := even_split (mlen now) opts in
      let! sl := slice_ds (Some shard_start) (Some shard_end) None original in
      Ok (SourceObj original (source_ds (mlen sl) (mget sl) (Some (mgetitems sl))))
  | RangeObj inj start stop step _ _ =>
      let! opts := make_shard_options i W false in
      let (shard_start, shard_end) := even_split (range_len start stop step) opts in
      Ok (RangeObj inj start stop step (start + shard_start * step) (start + shard_end * step))
  end.

(** MapDatasets over source objects, with the fields they computed when they were built.  [MSource k]: the [k]-th source
    object.  [MMixed]: MixedMapDataset and ConcatenateMapDataset with two parents (more are alike).  zip, flat_map and
    reindex are not in the tree. *)
Inductive MTree (S : Type) : Type -> Type :=
| MSource (k : nat) : MTree S S
| MMap {A B} (f : A -> res (option B)) (t : MTree S A) : MTree S B
| MMapWithIndex {A B} (f : Z -> A -> res (option B)) (t : MTree S A) : MTree S B
| MRandomMap {A B G} (f : A -> G -> res (option B)) (rng : Z -> G) (t : MTree S A) : MTree S B
| MFilter {A} (f : A -> res bool) (t : MTree S A) : MTree S A
| MShuffle {A} (gen_keys : Z -> Z -> list Z) (seed : Z) (t : MTree S A) : MTree S A
| MSlice {A} (start step parent_length length : Z) (t : MTree S A) : MTree S A
| MRepeat {A} (reseed_each_epoch : bool) (parent_length length : Z) (t : MTree S A) : MTree S A
| MBatch {A B} (pushdown : bool) (batch_size length : Z) (batch_fn : list (option A) -> res B) (t : MTree S A) : MTree S B
| MMixed {A} (sel : SelectionMap) (t u : MTree S A) : MTree S A.
Arguments MSource {S}. Arguments MMap {S A B}. Arguments MMapWithIndex {S A B}. Arguments MRandomMap {S A B G}.
Arguments MFilter {S A}. Arguments MShuffle {S A}. Arguments MSlice {S A}. Arguments MRepeat {S A}.
Arguments MBatch {S A B}. Arguments MMixed {S A}.

(** SliceMapDataset with its stored fields, slice.py:35-56. *)
Definition slice_with {A} (start step parent_length length : Z) (p : MapDs A) : MapDs A :=
  let f := sliced_index start step parent_length length in
  {| mlen := length; mget := fun i => let! j := f i in mget p j; mgetitems := reindexed_getitems f p |}.
(** RepeatMapDataset with its stored fields, repeat.py:61-78. *)
Definition repeat_with {A} (reseed_each_epoch : bool) (parent_length length : Z) (p : MapDs A) : MapDs A :=
  let f i := if reseed_each_epoch then Ok i else pymod i parent_length in
  {| mlen := length;
     mget := fun i => let! j := f i in mget p j;
     mgetitems := fun indices => let! js := sequence (map f indices) in mgetitems p js |}.
(** BatchMapDataset with its stored length, batch.py:434-468: the parent's length is asked for at every read. *)
Definition batch_with {A B} (pushdown : bool) (batch_size length : Z) (batch_fn : list (option A) -> res B) (p : MapDs A) : MapDs B :=
  let get index :=
    let! qr := pydivmod index length in
    let (epoch, index_in_epoch) := qr : Z * Z in
    let start := index_in_epoch * batch_size in
    let stop := Z.min (mlen p) ((index_in_epoch + 1) * batch_size) in
    let start := start + epoch * mlen p in
    let stop := stop + epoch * mlen p in
    let items := zrange start (Z.to_nat (stop - start)) in
    let! values := if pushdown then mgetitems p items else sequence (map (mget p) items) in
    let! b := batch_fn values in
    Ok (Some b) in
  {| mlen := length; mget := get; mgetitems := default_getitems get |}.

(** How a dataset behaves when its sources are [st]. *)
Fixpoint m_ds {S} (st : list (source_obj S)) {A} (t : MTree S A) : res (MapDs A) :=
  match t with
  | MSource k => match nth_error st k with Some o => source_now o | None => Raise InternalError end
  | MMap f t => let! p := m_ds st t in Ok (map_ds f p)
  | MMapWithIndex f t => let! p := m_ds st t in Ok (map_with_index_ds f p)
  | MRandomMap f rng t => let! p := m_ds st t in Ok (random_map_ds f rng p)
  | MFilter f t => let! p := m_ds st t in Ok (filter_ds f p)
  | MShuffle gen_keys seed t => let! p := m_ds st t in shuffle_ds gen_keys seed p
  | MSlice start step parent_length length t => let! p := m_ds st t in Ok (slice_with start step parent_length length p)
  | MRepeat reseed parent_length length t => let! p := m_ds st t in Ok (repeat_with reseed parent_length length p)
  | MBatch pushdown batch_size length batch_fn t => let! p := m_ds st t in Ok (batch_with pushdown batch_size length batch_fn p)
  | MMixed sel t u => let! p := m_ds st t in let! q := m_ds st u in Ok (mixed_ds [p; q] sel)
  end.

(** Building a slice, a repetition, batches and a concatenation of datasets whose sources are [st]: slice.py:27-33,
    repeat.py:29-59, batch.py:388-431, mix.py:361-371. *)
Definition m_slice {S A} (st : list (source_obj S)) (start stop step : option Z) (t : MTree S A) : res (MTree S A) :=
  let! p := m_ds st t in
  let! sss := slice_indices start stop step (mlen p) in
  let '(start', stop', step') := sss : Z * Z * Z in
  Ok (MSlice start' step' (mlen p) (range_len start' stop' step') t).
Definition m_repeat {S A} (st : list (source_obj S)) (num_epochs : option Z) (reseed_each_epoch : bool) (t : MTree S A) : res (MTree S A) :=
  let! p := m_ds st t in
  if match num_epochs with Some n => n <=? 0 | None => false end then Raise ValueError
  else if mlen p >=? maxsize then Raise ValueError
  else Ok (MRepeat reseed_each_epoch (mlen p)
             (match num_epochs with None => if mlen p =? 0 then 0 else maxsize | Some n => n * mlen p end) t).
Definition m_batch {S A B} (st : list (source_obj S)) (pushdown : bool) (batch_size : Z) (drop : bool)
    (batch_fn : list (option A) -> res B) (t : MTree S A) : res (MTree S B) :=
  let! p := m_ds st t in
  if batch_size <=? 0 then Raise ValueError
  else Ok (MBatch pushdown batch_size (batch_len (mlen p) batch_size drop) batch_fn t).
Definition m_concat {S A} (st : list (source_obj S)) (t u : MTree S A) : res (MTree S A) :=
  let! p := m_ds st t in let! q := m_ds st u in
  let! sel := concat_selection_map [mlen p; mlen q] in Ok (MMixed sel t u).

(** _set_slice_map_dataset, prefetch.py:422-447: recursion through the parents to the sources. *)
Fixpoint set_slices (i W : Z) {S A} (t : MTree S A) (st : list (source_obj S)) : res (list (source_obj S)) :=
  match t with
  | MSource k =>
      match nth_error st k with
      | Some o => let! o' := set_slice_source i W o in Ok (update_nth k o' st)
      | None => Raise InternalError
      end
  | MMap _ t => set_slices i W t st
  | MMapWithIndex _ t => set_slices i W t st
  | MRandomMap _ _ t => set_slices i W t st
  | MFilter _ t => set_slices i W t st
  | MShuffle _ _ t => set_slices i W t st
  | MSlice _ _ _ _ t => set_slices i W t st
  | MRepeat _ _ _ t => set_slices i W t st
  | MBatch _ _ _ _ t => set_slices i W t st
  | MMixed _ t u => let! st' := set_slices i W t st in set_slices i W u st'
  end.

(** The transformations of an IterDataset above PrefetchIterDataset, as in [ITree]. *)
Inductive Stack (A : Type) : Type -> Type :=
| SPrefetch (allow_nones : bool) (num_threads buffer_size : Z) : Stack A A
| SMap {B C} (f : B -> res (option C)) (s : Stack A B) : Stack A C
| SMapWithIndex {B C} (f : Z -> B -> res (option C)) (s : Stack A B) : Stack A C
| SRandomMap {B C G} (f : B -> G -> res (option C)) (rng : Z -> G) (s : Stack A B) : Stack A C
| SFilter {B} (f : option B -> res bool) (s : Stack A B) : Stack A B
| SBatch {B C} (batch_size : Z) (drop : bool) (batch_fn : list (option B) -> res (option C)) (s : Stack A B) : Stack A C.
Arguments SPrefetch {A}. Arguments SMap {A B C}. Arguments SMapWithIndex {A B C}. Arguments SRandomMap {A B C G}.
Arguments SFilter {A B}. Arguments SBatch {A B C}.
Fixpoint over {A B} (s : Stack A B) (ds : MapDs A) : ITree B :=
  match s in Stack _ B return ITree B with
  | SPrefetch allow_nones num_threads buffer_size => TSource ds allow_nones num_threads buffer_size
  | SMap f s => TMap f (over s ds)
  | SMapWithIndex f s => TMapWithIndex f (over s ds)
  | SRandomMap f rng s => TRandomMap f rng (over s ds)
  | SFilter f s => TFilter f (over s ds)
  | SBatch batch_size drop batch_fn s => TBatch batch_size drop batch_fn (over s ds)
  end.

(** The iterator of worker [i] of [W].  Every worker slices its own copy of the dataset (a deep copy, prefetch.py:809, or
    the pickled dataset, process_prefetch.py:649-669), so all start from the same sources. *)
Definition seq_worker {S A B} (W i : nat) (st : list (source_obj S)) (t : MTree S A) (s : Stack A B) : res (Iter (option B)) :=
  let! st' := if Nat.eqb W 1 then Ok st else set_slices (Z.of_nat i) (Z.of_nat W) t st in
  let! ds := m_ds st' t in
  tree_iter (Z.of_nat i) (Z.of_nat W) (over s ds).
(** multiprocess_prefetch with sequential_slice = True, process_prefetch.py:678-755, as [mp_prefetch]. *)
Definition mp_seq_shards {S A B} (W buffer_size : nat) (keep : bool) (r : running) (st : list (source_obj S)) (t : MTree S A)
    (s : Stack A B) : res (list (Iter (option B))) :=
  let! ps := sequence (map (fun i => seq_worker W i st t s) (seq 0 W)) in
  Ok (map (fun ip => thread_prefetch_it buffer_size (r_eager r (fst ip)) (r_thread r (fst ip))
                       (process_prefetch_it buffer_size keep (r_process r (fst ip)) (snd ip))) (combine (seq 0 W) ps)).
Definition mp_seq_prefetch {S A B} (W buffer_size : nat) (keep : bool) (r : running) (st : list (source_obj S)) (t : MTree S A)
    (s : Stack A B) : res (Iter (option B)) :=
  if Nat.eqb W 0 then let! ds := m_ds st t in tree_iter 0 1 (over s ds)
  else let! ps := mp_seq_shards W buffer_size keep r st t s in Ok (interleave ps W keep (fun _ => true)).
