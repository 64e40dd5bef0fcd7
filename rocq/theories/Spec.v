(** Small specifications used in the statements of the property theorems.  They
    do not refer to the model's algorithms. *)
From Verif Require Import Base Sharding MapDatasets.

(** The elements of epoch [e] of a MapDataset: what iterating over indices
    e*len .. (e+1)*len-1 returns. *)
Definition epoch {A} (ds : MapDs A) (e : Z) : list (res (option A)) :=
  map (mget ds) (zrange (e * mlen ds) (Z.to_nat (mlen ds))).

(** Indices selected by Python's [l[start:stop:step]] on a list of length [n]
    (language reference, "slicings"). *)
Definition py_norm (n v : Z) : Z := if v <? 0 then v + n else v.
Definition py_slice_pos (n : Z) (start stop : option Z) (k : Z) : list Z :=
  let lo := match start with None => 0 | Some v => Z.max 0 (py_norm n v) end in
  let hi := match stop with None => n | Some v => py_norm n v end in
  filter (fun i => (lo <=? i) && (i <? hi) && ((i - lo) mod k =? 0)) (zrange 0 (Z.to_nat n)).
Definition py_slice_neg (n : Z) (start stop : option Z) (k : Z) : list Z :=
  let lo := match start with None => n - 1 | Some v => Z.min (n - 1) (py_norm n v) end in
  let hi := match stop with None => -1 | Some v => py_norm n v end in
  rev (filter (fun i => (i <=? lo) && (hi <? i) && ((lo - i) mod (- k) =? 0)) (zrange 0 (Z.to_nat n))).
Definition py_slice (n : Z) (start stop step : option Z) : list Z :=
  let k := match step with None => 1 | Some k => k end in
  if k >? 0 then py_slice_pos n start stop k else py_slice_neg n start stop k.

(** Consecutive groups of [b] elements, the last one possibly shorter. *)
Fixpoint chunks_aux {A} (fuel b : nat) (l : list A) : list (list A) :=
  match fuel with
  | O => []
  | S f => match l with [] => [] | _ => firstn b l :: chunks_aux f b (skipn b l) end
  end.
Definition chunks {A} (b : nat) (l : list A) : list (list A) := chunks_aux (length l) b l.
(** Only the complete groups. *)
Definition full_chunks {A} (b : nat) (l : list A) : list (list A) :=
  filter (fun c => Nat.eqb (length c) b) (chunks b l).

(** The non-None elements. *)
Definition somes {A} (l : list (option A)) : list A :=
  flat_map (fun o => match o with Some a => [a] | None => [] end) l.

(** Python's range(start, stop, step) as a list (step <> 0): the values
    start, start+step, ... before stop. *)
Definition py_range (start stop step : Z) : list Z :=
  if step >? 0
  then filter (fun x => (x - start) mod step =? 0) (zrange start (Z.to_nat (stop - start)))
  else rev (filter (fun x => (start - x) mod (- step) =? 0) (zrange (stop + 1) (Z.to_nat (start - stop)))).

(** Sum of a list of integers. *)
Definition sumZ (l : list Z) : Z := fold_right Z.add 0 l.

(** Batched reads agree with single reads: [_getitems] succeeds exactly when all
    single reads do, with the same elements. *)
Definition batched_ok {A} (ds : MapDs A) : Prop :=
  forall indices vs, mgetitems ds indices = Ok vs <-> map (mget ds) indices = map Ok vs.

(** The options of shard [i] of [k]. *)
Definition shard (i k : Z) (drop : bool) : shard_options :=
  {| shard_index := i; shard_count := k; drop_remainder := drop |}.
(** The indices of an interval (start, end). *)
Definition interval (ab : Z * Z) : list Z := zrange (fst ab) (Z.to_nat (snd ab - fst ab)).

(** [ss] are the slices ds[0::k], ds[1::k], ..., ds[k-1::k]. *)
Definition shards {A} (k : Z) (ds : MapDs A) (ss : list (MapDs A)) : Prop :=
  map (fun i => slice_ds (Some i) None (Some k) ds) (zrange 0 (Z.to_nat k)) = map Ok ss.

(** The keys read from component [c] in a list of selections (component, key). *)
Definition keys_of (c : Z) (picks : list (Z * Z)) : list Z :=
  map snd (filter (fun dk => fst dk =? c) picks).
