(** Model of the MapDataset transformations
    (grain/_src/python/dataset/transformations/ *.py, the [*MapDataset] classes).

    A MapDataset is its length, [__getitem__] on integers and [_getitems].
    An element that is [None] (filtered out) is [None : option A].
    [__getitem__] on slices is [slice] below.  Statistics recording,
    tracing and monitoring are not modelled. *)
From Verif Require Import Base IndexShuffle Sharding.

Record MapDs (A : Type) := mkMapDs {
  mlen : Z;
  mget : Z -> res (option A);
  mgetitems : list Z -> res (list (option A));
}.
Arguments mkMapDs {A}. Arguments mlen {A}. Arguments mget {A}. Arguments mgetitems {A}.

(** sys.maxsize *)
Definition maxsize : Z := 2 ^ 63 - 1.

(** Python [divmod], [//] and [%] on integers. *)
Definition pydivmod (a b : Z) : res (Z * Z) :=
  if b =? 0 then Raise ZeroDivisionError else Ok (a / b, a mod b).
Definition pymod (a b : Z) : res Z := let! qr := pydivmod a b in Ok (snd qr).

(** MapDataset._getitems, dataset.py:388-402 (the default implementation). *)
Definition default_getitems {A} (get : Z -> res (option A)) (indices : list Z)
  : res (list (option A)) := sequence (map get indices).

(** [_getitems] of the index-changing datasets (shuffle.py:80-83, 130-135,
    slice.py:53-56, 112-115): first all indices, then one batched parent read. *)
Definition reindexed_getitems {A} (f : Z -> res Z) (p : MapDs A) (indices : list Z)
  : res (list (option A)) :=
  let! js := sequence (map f indices) in mgetitems p js.

(** len(range(start, stop, step)) for step <> 0 (CPython). *)
Definition range_len (start stop step : Z) : Z :=
  if step >? 0 then Z.max 0 ((stop - start + step - 1) / step)
  else Z.max 0 ((start - stop - step - 1) / (- step)).

(** SourceMapDataset, source.py:47-119.  [src_len] is len(source), [src] is
    source[i] for 0 <= i < src_len; [src_batched] is source._getitems when the
    source supports batched reads.  The "length is None" legacy case
    (TypeError) is not modelled. *)
Definition source_ds {A} (src_len : Z) (src : Z -> res (option A))
    (src_batched : option (list Z -> res (list (option A)))) : MapDs A :=
  let index_mod_len i := pymod i src_len in
  let get i := let! j := index_mod_len i in src j in
  {| mlen := src_len;
     mget := get;
     mgetitems := fun indices =>
       match src_batched with
       | None => default_getitems get indices
       | Some b => let! js := sequence (map index_mod_len indices) in b js
       end |}.

(** RangeMapDataset, source.py:159-205.  [stop = None] means a single argument. *)
Definition range_ds (start : Z) (stop : option Z) (step : Z) : res (MapDs Z) :=
  let start' := match stop with None => 0 | Some _ => start end in
  let stop' := match stop with None => start | Some s => s end in
  if step =? 0 then Raise ValueError   (* range() arg 3 must not be zero *)
  else
    let length := range_len start' stop' step in
    let get i := let! r := pymod i length in Ok (Some (start' + r * step)) in
    Ok {| mlen := length; mget := get; mgetitems := default_getitems get |}.

(** RangeMapDataset.set_slice (sequential), source.py:179-194: the worker's part
    of the range. *)
Definition range_set_slice (start stop step worker_index workers_count : Z) : res (MapDs Z) :=
  let original_len := range_len start stop step in
  let! opts := make_shard_options worker_index workers_count false in
  let (shard_start, shard_end) := even_split original_len opts in
  range_ds (start + shard_start * step) (Some (start + shard_end * step)) step.

(** RangeDataSource, data_sources.py:108-134: (length, __getitem__).  The float
    division of line 116 is modelled exactly. *)
Definition range_source (start stop step : Z) : res (Z * (Z -> res Z)) :=
  if step =? 0 then Raise AssertionError
  else
    let len := - ((- (stop - start)) / step) in
    if len <? 0 then Raise AssertionError
    else Ok (len, fun k => if (k <? 0) || (k >=? len) then Raise IndexError else Ok (start + k * step)).

(** MapMapDataset, map.py:138-179.  The user function may raise or return None. *)
Definition map_element {A B} (f : A -> res (option B)) (e : option A) : res (option B) :=
  match e with None => Ok None | Some x => f x end.
Definition map_ds {A B} (f : A -> res (option B)) (p : MapDs A) : MapDs B :=
  {| mlen := mlen p;
     mget := fun i => let! e := mget p i in map_element f e;
     mgetitems := fun indices =>
       let! es := mgetitems p indices in sequence (map (map_element f) es) |}.

(** MapWithIndexMapDataset, map.py:241-289. *)
Definition map_with_index_ds {A B} (f : Z -> A -> res (option B)) (p : MapDs A) : MapDs B :=
  {| mlen := mlen p;
     mget := fun i => let! e := mget p i in map_element (f i) e;
     mgetitems := fun indices =>
       let! es := mgetitems p indices in
       sequence (map (fun ie => map_element (f (fst ie)) (snd ie)) (combine indices es)) |}.

(** RandomMapMapDataset, map.py:182-238.  [rng index] is the state of the
    generator returned by RngPool(seed).acquire_rng(index) (see RngPool.v: it is a
    function of seed and index). *)
Definition random_map_ds {A B G} (f : A -> G -> res (option B)) (rng : Z -> G) (p : MapDs A) : MapDs B :=
  {| mlen := mlen p;
     mget := fun i => let! e := mget p i in map_element (fun x => f x (rng i)) e;
     mgetitems := fun indices =>
       let! es := mgetitems p indices in
       sequence (map (fun ei => map_element (fun x => f x (rng (snd ei))) (fst ei))
                     (combine es indices)) |}.

(** FilterMapDataset, filter.py:29-71. *)
Definition filter_element {A} (f : A -> res bool) (e : option A) : res (option A) :=
  match e with
  | None => Ok None
  | Some x => let! b := f x in Ok (if b then Some x else None)
  end.
Definition filter_ds {A} (f : A -> res bool) (p : MapDs A) : MapDs A :=
  {| mlen := mlen p;
     mget := fun i => let! e := mget p i in filter_element f e;
     mgetitems := fun indices =>
       let! es := mgetitems p indices in sequence (map (filter_element f) es) |}.

(** ShuffleMapDataset._shuffled_index, shuffle.py:60-71. *)
Definition shuffled_index (gen_keys : Z -> Z -> list Z) (length seed index : Z) : res Z :=
  let! qr := pydivmod index length in
  let (epoch, index_in_epoch) := qr : Z * Z in
  let per_epoch_seed := (seed + epoch) mod 2 ^ 32 in
  let! s := index_shuffle gen_keys index_in_epoch (length - 1) per_epoch_seed 4 in
  Ok (s + epoch * length).

(** ShuffleMapDataset, shuffle.py:31-83 (the seed has been resolved). *)
Definition shuffle_ds {A} (gen_keys : Z -> Z -> list Z) (seed : Z) (p : MapDs A) : res (MapDs A) :=
  if (seed <? 0) || (seed >=? 2 ^ 32) then Raise ValueError
  else
    let f := shuffled_index gen_keys (mlen p) seed in
    Ok {| mlen := mlen p;
          mget := fun i => let! j := f i in mget p j;
          mgetitems := reindexed_getitems f p |}.

(** WindowShuffleMapDataset._shuffled_index, shuffle.py:112-121. *)
Definition window_shuffled_index (gen_keys : Z -> Z -> list Z) (window_size seed index : Z) : res Z :=
  let! qr := pydivmod index window_size in
  let (window_index, index_in_window) := qr : Z * Z in
  let! s := index_shuffle gen_keys index_in_window (window_size - 1) (seed + window_index) 4 in
  Ok (s + window_index * window_size).

(** WindowShuffleMapDataset, shuffle.py:90-135. *)
Definition window_shuffle_ds {A} (gen_keys : Z -> Z -> list Z) (window_size seed : Z) (p : MapDs A) : MapDs A :=
  let f := window_shuffled_index gen_keys window_size seed in
  {| mlen := mlen p;
     mget := fun i => let! j := f i in mget p j;
     mgetitems := reindexed_getitems f p |}.

(** Python's slice(start, stop, step).indices(n) (CPython PySlice_GetLongIndices). *)
Definition slice_indices (start stop step : option Z) (n : Z) : res (Z * Z * Z) :=
  let step' := match step with None => 1 | Some s => s end in
  if step' =? 0 then Raise ValueError
  else
    let lower := if step' <? 0 then -1 else 0 in
    let upper := if step' <? 0 then n - 1 else n in
    let clamp v := if v <? 0 then Z.max (v + n) lower else Z.min v upper in
    let start' := match start with
                  | None => if step' <? 0 then upper else lower
                  | Some v => clamp v end in
    let stop' := match stop with
                 | None => if step' <? 0 then lower else upper
                 | Some v => clamp v end in
    Ok (start', stop', step').

(** SliceMapDataset._sliced_index, slice.py:38-44. *)
Definition sliced_index (start step parent_length length index : Z) : res Z :=
  let! qr := pydivmod index length in
  Ok (start + snd qr * step + fst qr * parent_length).

(** SliceMapDataset, slice.py:22-56; also MapDataset.__getitem__ / slice on a
    slice object. *)
Definition slice_ds {A} (start stop step : option Z) (p : MapDs A) : res (MapDs A) :=
  let! sss := slice_indices start stop step (mlen p) in
  let '(start', stop', step') := sss : Z * Z * Z in
  let length := range_len start' stop' step' in
  let f := sliced_index start' step' (mlen p) length in
  Ok {| mlen := length;
        mget := fun i => let! j := f i in mget p j;
        mgetitems := reindexed_getitems f p |}.

(** Python list indexing [l[i]] for 0 <= i (negative indices are not used here). *)
Definition pyindex {A} (l : list A) (i : Z) : res A :=
  if i <? 0 then Raise IndexError
  else match nth_error l (Z.to_nat i) with Some a => Ok a | None => Raise IndexError end.

(** ReindexMapDataset, slice.py:66-115, for a list of indices. *)
Definition reindex_ds {A} (indices : list Z) (p : MapDs A) : MapDs A :=
  let n := Z.of_nat (List.length indices) in
  let f index :=
    let! qr := pydivmod index n in
    let! parent_index := pyindex indices (snd qr) in
    Ok (parent_index + fst qr * mlen p) in
  {| mlen := n;
     mget := fun i => let! j := f i in mget p j;
     mgetitems := reindexed_getitems f p |}.

(** RepeatMapDataset, repeat.py:26-78. *)
Definition repeat_ds {A} (num_epochs : option Z) (reseed_each_epoch : bool) (p : MapDs A) : res (MapDs A) :=
  if match num_epochs with Some n => n <=? 0 | None => false end then Raise ValueError
  else if mlen p >=? maxsize then Raise ValueError
  else
    let length := match num_epochs with
                  | None => if mlen p =? 0 then 0 else maxsize
                  | Some n => n * mlen p end in
    let f i := if reseed_each_epoch then Ok i else pymod i (mlen p) in
    Ok {| mlen := length;
          mget := fun i => let! j := f i in mget p j;
          mgetitems := fun indices => let! js := sequence (map f indices) in mgetitems p js |}.

(** ZipMapDataset, zip.py:27-53 (parents of one element type).  [list(zip( *ls))]
    is the transposition of equally long lists. *)
Fixpoint transpose {A} (n : nat) (ls : list (list A)) : list (list A) :=
  match n with
  | O => []
  | S n' => List.concat (map (fun l => firstn 1 l) ls) :: transpose n' (map (fun l => skipn 1 l) ls)
  end.
Definition min_length {A} (ls : list (list A)) : nat :=
  match ls with [] => O | l :: ls' => fold_left (fun m l => Nat.min m (length l)) ls' (length l) end.
Definition pyzip {A} (ls : list (list A)) : list (list A) := transpose (min_length ls) ls.

Definition zip_ds {A} (parents : list (MapDs A)) : res (MapDs (list (option A))) :=
  match parents with
  | [] => Raise ValueError
  | p0 :: _ =>
      if forallb (fun p => mlen p0 =? mlen p) parents then
        Ok {| mlen := mlen p0;
              mget := fun i => let! es := sequence (map (fun p => mget p i) parents) in Ok (Some es);
              mgetitems := fun indices =>
                let! ess := sequence (map (fun p => mgetitems p indices) parents) in
                Ok (map Some (pyzip ess)) |}
      else Raise ValueError
  end.

(** FlatMapMapDataset, flatmap.py:29-75.  [f] returns the list of splits
    ([list(transform.flat_map(element))]); [m] is max_fan_out.  The float
    comparison of line 44 is modelled exactly: len >= maxsize / m. *)
Definition flat_map_ds {A B} (m : Z) (f : A -> res (list (option B))) (p : MapDs A) : MapDs B :=
  let get index :=
    let! qr := pydivmod index m in
    let! e := mget p (fst qr) in
    match e with
    | None => Ok None
    | Some x =>
        let! splits := f x in
        if Z.of_nat (List.length splits) >? m then Raise ValueError
        else if snd qr <? Z.of_nat (List.length splits) then pyindex splits (snd qr)
        else Ok None
    end in
  {| mlen := if mlen p * m >=? maxsize then maxsize else m * mlen p;
     mget := get;
     mgetitems := default_getitems get |}.

(** BatchMapDataset, batch.py:383-468.  [batch_fn] is the batch function
    (make_batch by default, see below).  [pushdown] selects between
    [_getitems] and single reads (lines 434-439).  [math.ceil(len / batch_size)]
    (line 431, float division) is modelled exactly.  The constructor's check
    that no ancestor is a filter or flat_map is not modelled. *)
Definition batch_len (n b : Z) (drop : bool) : Z :=
  if drop then n / b else (n + b - 1) / b.
Definition batch_ds {A B} (pushdown : bool) (batch_size : Z) (drop : bool)
    (batch_fn : list (option A) -> res B) (p : MapDs A) : res (MapDs B) :=
  if batch_size <=? 0 then Raise ValueError
  else
    let length := batch_len (mlen p) batch_size drop in
    let get index :=
      let! qr := pydivmod index length in
      let (epoch, index_in_epoch) := qr : Z * Z in
      let start := index_in_epoch * batch_size in
      let stop := Z.min (mlen p) ((index_in_epoch + 1) * batch_size) in
      let start := start + epoch * mlen p in
      let stop := stop + epoch * mlen p in
      let items := zrange start (Z.to_nat (stop - start)) in
      let! values := if pushdown then mgetitems p items else sequence (map (mget p) items) in
      let! b := batch_fn values in
      Ok (Some b) in
    Ok {| mlen := length; mget := get; mgetitems := default_getitems get |}.

(** make_batch, batch.py:177-223: stacks the values along a new first axis.  A
    batch is modelled as the list of its rows (array contents, dtypes and shared
    memory placement are not modelled). *)
Definition make_batch {A} (values : list A) : res (list A) :=
  match values with
  | [] => Raise ValueError
  | _ => Ok values
  end.

(** batch_and_pad, batch.py:226-280, on rows. *)
Definition batch_and_pad {A} (batch_size : Z) (pad_value : A) (values : list A) : res (list A) :=
  match values with
  | [] => Raise ValueError
  | _ =>
      let n := Z.of_nat (List.length values) in
      if n >? batch_size then Raise ValueError
      else if n =? batch_size then make_batch values
      else
        let padding_size := batch_size - n in
        Ok (values ++ List.repeat pad_value (Z.to_nat padding_size))
  end.

(** _dataset_and_key_of_next_element, mix.py:314-348: the loop over the
    proportions, [i] counting from 0. *)
Fixpoint next_element_loop (i curr_k curr_k1 remaining : Z) (proportions : list Z) : res (Z * Z) :=
  match proportions with
  | [] => Raise InternalError
  | p :: ps =>
      let next_k := (curr_k * (remaining - p)) / remaining in
      let next_k1 := (curr_k1 * (remaining - p)) / remaining in
      let count_k_plus_1 := curr_k1 - next_k1 in
      if negb (curr_k - next_k =? count_k_plus_1) then Ok (i, count_k_plus_1 - 1)
      else next_element_loop (i + 1) next_k next_k1 (remaining - p) ps
  end.
Definition zsum (l : list Z) : Z := fold_right Z.add 0 l.
Definition dataset_and_key (k : Z) (proportions : list Z) : res (Z * Z) :=
  next_element_loop 0 k (k + 1) (zsum proportions) proportions.

(** A DatasetSelectionMap (base.py): length and index -> (dataset, key). *)
Record SelectionMap := { sel_len : Z; sel_get : Z -> res (Z * Z) }.

(** SelectionWithProportionsMap, mix.py:35-78, for integer proportions (the
    result of _float_to_int_proportions, lines 306-311, which is not modelled).
    The float computation of the length (lines 56-69) is modelled exactly:
    int(min_i len_i / (w_i / W)) = min_i floor (len_i * W / w_i). *)
Definition proportions_map (lens proportions : list Z) : res SelectionMap :=
  if existsb (Z.eqb 0) proportions then Raise ValueError
  else if negb (Nat.eqb (List.length lens) (List.length proportions)) then Raise AssertionError
  else if existsb (Z.eqb 0) lens then Raise ValueError
  else
    let w := zsum proportions in
    let lengths := map (fun lw => fst lw * w / snd lw) (combine lens proportions) in
    match lengths with
    | [] => Raise ValueError  (* min() of an empty sequence *)
    | l0 :: ls =>
        Ok {| sel_len := Z.min maxsize (fold_left Z.min ls l0);
              sel_get := fun k => dataset_and_key k proportions |}
    end.

(** bisect.bisect_right on a sorted list: the number of leading entries <= x. *)
Fixpoint bisect_right (l : list Z) (x : Z) : Z :=
  match l with
  | [] => 0
  | y :: l' => if y <=? x then 1 + bisect_right l' x else 0
  end.

(** [cumulative_sizes], mix.py:367-370. *)
Fixpoint cumulative (acc : Z) (sizes : list Z) : list Z :=
  acc :: match sizes with [] => [] | s :: ss => cumulative (acc + s) ss end.

(** _ConcatSelectionMap, mix.py:351-385. *)
Definition concat_selection_map (sizes : list Z) : res SelectionMap :=
  if existsb (fun s => s >=? maxsize) sizes then Raise ValueError
  else
    let cum := cumulative 0 sizes in
    let n := last cum 0 in
    Ok {| sel_len := n;
          sel_get := fun index =>
            let! qr := pydivmod index n in
            let (epoch, index_in_epoch) := qr : Z * Z in
            let dataset_index := bisect_right cum index_in_epoch - 1 in
            let! size := pyindex sizes dataset_index in
            let! base := pyindex cum dataset_index in
            Ok (dataset_index, index_in_epoch - base + epoch * size) |}.

(** MixedMapDataset._getitems, mix.py:148-175: group the positions by parent (in
    order of first occurrence), read each parent once, scatter the results. *)
Fixpoint group_add {K V} (eqb : K -> K -> bool) (k : K) (v : V) (g : list (K * list V)) : list (K * list V) :=
  match g with
  | [] => [(k, [v])]
  | (k', vs) :: g' => if eqb k k' then (k', vs ++ [v]) :: g' else (k', vs) :: group_add eqb k v g'
  end.
Fixpoint update_nth {A} (n : nat) (a : A) (l : list A) : list A :=
  match l, n with
  | [], _ => []
  | _ :: l', O => a :: l'
  | x :: l', S n' => x :: update_nth n' a l'
  end.
Definition mixed_getitems {A} (parents : list (MapDs A)) (sel : SelectionMap) (indices : list Z)
  : res (list (option A)) :=
  let! pairs := sequence (map (sel_get sel) indices) in
  let groups := fold_left (fun g ipk => let '(i, (d, key)) := ipk : nat * (Z * Z) in
                                        group_add Z.eqb d (key, i) g)
                          (combine (seq 0 (List.length pairs)) pairs) [] in
  fold_left (fun acc g =>
      let! mixed := acc in
      let! parent := pyindex parents (fst g) in
      let! els := mgetitems parent (map fst (snd g)) in
      Ok (fold_left (fun m ie => update_nth (fst ie) (snd ie) m)
                    (combine (map snd (snd g)) els) mixed))
    groups (Ok (List.repeat None (List.length indices))).

(** MixedMapDataset, mix.py:87-175.  (A negative dataset index, which Python
    would wrap around, never arises: see the selection maps.) *)
Definition mixed_ds {A} (parents : list (MapDs A)) (sel : SelectionMap) : MapDs A :=
  {| mlen := sel_len sel;
     mget := fun i =>
       let! dk := sel_get sel i in
       let! p := pyindex parents (fst dk) in
       mget p (snd dk);
     mgetitems := mixed_getitems parents sel |}.

(** MapDataset.mix / MixedMapDataset with proportions, and ConcatenateMapDataset,
    mix.py:388-401. *)
Definition mix_ds {A} (parents : list (MapDs A)) (proportions : list Z) : res (MapDs A) :=
  let! sel := proportions_map (map mlen parents) proportions in Ok (mixed_ds parents sel).
Definition concatenate_ds {A} (parents : list (MapDs A)) : res (MapDs A) :=
  let! sel := concat_selection_map (map mlen parents) in Ok (mixed_ds parents sel).
