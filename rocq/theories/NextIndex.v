(** Model of get_next_index and set_next_index (dataset.py:1875-1882, exported by grain/experimental.py:98-99): the
    methods _get_next_index and _set_next_index of the iterators of prefetch.py, map.py, batch.py and limit.py.

    An iterator together with the two methods.  Both may change the iterator (a thread may have to be stopped), also when
    they raise.  [fuel] as in Iter.v.  Not modelled: these methods of the iterators of process_prefetch.py,
    interleave.py and elastic_iterator.py, and the check that the parent is a DatasetIterator (prefetch.py:720, 734). *)
From Verif Require Import Base MapDatasets Iter ThreadPrefetch Scheduled.

Record Indexed (A : Type) := mkIx {
  ix_it : Iter A;
  get_index : nat -> ist ix_it -> res Z * ist ix_it;
  set_index : nat -> ist ix_it -> Z -> res unit * ist ix_it;
}.
Arguments mkIx {A}. Arguments ix_it {A}. Arguments get_index {A}. Arguments set_index {A}.

(** DatasetIterator, dataset.py:1610-1634: what a transformation that does not define the methods inherits (filter, flat_map,
    window shuffle, repeat, zip, mix, packing, ...). *)
Definition no_index {A} (it : Iter A) : Indexed A :=
  {| ix_it := it;
     get_index := fun _ s => (Raise NotImplementedError, s);
     set_index := fun _ s _ => (Raise NotImplementedError, s) |}.

(** PrefetchDatasetIterator, prefetch.py:305-309.  _set_next_index is set_state (lines 287-303), which assigns both
    indices before it checks the range. *)
Definition source_ix {A} sched allow_nones num_threads buffer_size (ds : MapDs A) : Indexed (option A) :=
  {| ix_it := prefetch_tuned sched None allow_nones num_threads buffer_size ds;
     get_index := fun _ s => (Ok (pf_ret (fst s)), s);
     set_index := fun _ sk i =>
       let s := fold_left (pf_apply ds) (sched (snd sk)) (fst sk) in
       match prefetch_set ds s i with
       | Ok s' => (Ok tt, (s', S (snd sk)))
       | Raise e => (Raise e, (mkPf i i (pf_buffer s) (pf_size s) (pf_threads s) (pf_checker s), S (snd sk)))
       | OutOfFuel => (OutOfFuel, sk)
       end |}.

(** _MapDatasetIterator, map.py:320-324. *)
Definition map_ix {A B} (f : A -> res (option B)) (p : Indexed (option A)) : Indexed (option B) :=
  {| ix_it := map_it f (ix_it p);
     get_index := get_index p;
     set_index := set_index p |}.

(** Setting the index of the parent and a counter. *)
Definition set_both {S} (r : res unit * S) (i counter : Z) : res unit * (S * Z) :=
  match r with
  | (Ok _, s) => (Ok tt, (s, i))
  | (e, s) => (e, (s, counter))
  end.
(** _RandomMapDatasetIterator, map.py:376-381. *)
Definition random_map_ix {A B G} (f : A -> G -> res (option B)) rng pi pc (p : Indexed (option A)) : Indexed (option B) :=
  {| ix_it := random_map_it f rng pi pc (ix_it p);
     get_index := fun _ s => (Ok (snd s), s);
     set_index := fun fuel s i => set_both (set_index p fuel (fst s) i) i (snd s) |}.
(** _MapWithIndexDatasetIterator, map.py:421-426. *)
Definition map_with_index_ix {A B} (f : Z -> A -> res (option B)) (p : Indexed (option A)) : Indexed (option B) :=
  {| ix_it := map_with_index_it f (ix_it p);
     get_index := fun _ s => (Ok (snd s), s);
     set_index := fun fuel s i => set_both (set_index p fuel (fst s) i) i (snd s) |}.
(** _LimitDatasetIterator, limit.py:56-61. *)
Definition limit_ix {A} (count : Z) (p : Indexed A) : Indexed A :=
  {| ix_it := limit_iter count (ix_it p);
     get_index := fun _ s => (Ok (snd s), s);
     set_index := fun fuel s i => set_both (set_index p fuel (fst s) i) i (snd s) |}.

(** _BatchDatasetIterator, batch.py:320-326. *)
Definition batch_ix {A B} (batch_size : Z) (drop : bool) (batch_fn : list A -> res B) (p : Indexed A) : Indexed B :=
  {| ix_it := batch_iter batch_size drop batch_fn (ix_it p);
     get_index := fun fuel s =>
       let (r, s') := get_index p fuel s in (let! i := r in Ok ((i + batch_size - 1) / batch_size), s');
     set_index := fun fuel s i => set_index p fuel s (i * batch_size) |}.

(** The parent of a prefetching thread, as far as the thread's methods are concerned: something that can be moved to a
    state, or to an index. *)
Definition settable {A} (p : Indexed A) : Iter A :=
  let it := ix_it p in
  {| ist := ist it; ick := ick it + Z; init := init it; next := next it;
     get_state := fun s => inl (get_state it s);
     set_state := fun fuel s c =>
       match c with
       | inl c => set_state it fuel s c
       | inr i => match set_index p fuel s i with (Ok _, s') => Ok s' | (Raise e, _) => Raise e | _ => OutOfFuel end
       end;
     jsonck := fun c => match c with inl c => inl (jsonck it c) | inr i => inr i end |}.
(** ThreadPrefetchDatasetIterator, prefetch.py:526-749, with _next_index (line 573): incremented by __next__ (lines 651-652),
    None after set_state (line 715).  [inl c] is a state; [inr i] only occurs in the call of set_state that stands for
    _set_next_index, lines 732-741: it stops the thread and sets the index of the parent; _state = None makes the next
    get_state ask the parent, which nothing has moved since (lines 700-709), so the model asks at once.
    _get_next_index, lines 717-730: without a _next_index, stops the thread, puts the parent back to the state before the
    elements in the buffer, and asks it.  What is left of a failed call is not modelled. *)
Definition with_parent {A} {p : Iter A} (s : tp p) (ps : ist p) : tp p :=
  mkTp ps (tp_buffer s) (tp_thread s) (tp_stop s) (tp_state s).
Definition thread_ix {A} (size : nat) (eager : bool) (sched : schedule) (p : Indexed A) : Indexed A :=
  let t := thread_prefetch_it size eager sched (settable p) in
  {| ix_it :=
       {| ist := ist t * option Z; ick := ick t; init := (init t, Some 0);
          next := fun fuel s =>
            match next t fuel (fst s) with
            | (Yield a, s') => (Yield a, (s', option_map (fun i => i + 1) (snd s)))
            | (o, s') => (o, (s', snd s))
            end;
          get_state := fun s => get_state t (fst s);
          set_state := fun fuel s c => let! s' := set_state t fuel (fst s) c in Ok (s', None);
          jsonck := jsonck t |};
     get_index := fun fuel s =>
       match snd s with
       | Some i => (Ok i, s)
       | None =>
           match set_state t fuel (fst s) (get_state t (fst s)) with
           | Ok s1 =>
               let (r, ps) := get_index p fuel (tp_parent (fst s1)) in
               (r, ((with_parent (fst s1) ps, snd s1), match r with Ok i => Some i | _ => None end))
           | Raise e => (Raise e, s)
           | OutOfFuel => (OutOfFuel, s)
           end
       end;
     set_index := fun fuel s i =>
       match set_state t fuel (fst s) (inr i) with
       | Ok s' => (Ok tt, (s', Some i))
       | Raise e => (Raise e, s)
       | OutOfFuel => (OutOfFuel, s)
       end |}.
