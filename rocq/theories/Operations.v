(** Model of grain/_src/python/operations.py and of the iterator that applies a legacy operation
    (data_loader.py:172-210), and of the adapter for FlatMap (data_loader.py:646-666). *)
From Verif Require Import Base MapDatasets Samplers Iter DataLoader.

(** MapOperation, RandomMapOperation, FilterOperation, BatchOperation with their fields, operations.py:41-150.  As in
    DataLoader.v the generator of a record is its state: a RandomMapOperation draws from it.  Shared memory is not
    modelled; [batch_fn] stands for the default function too. *)
Inductive operation (G A : Type) :=
| MapOp (f : option A -> res (option A))
| RandomMapOp (f : option A -> option G -> res (option A * option G))
| FilterOp (f : option A -> res bool)
| BatchOp (batch_size : Z) (drop : bool) (batch_fn : list (option A) -> res (option A)).
Arguments MapOp {G A}. Arguments RandomMapOp {G A}. Arguments FilterOp {G A}. Arguments BatchOp {G A}.

(** except Exception as e: raise ValueError(...) from e, operations.py:55-60, 80-87, 106-111. *)
Definition as_value_error {X} (r : res X) : res X := match r with Raise _ => Raise ValueError | _ => r end.
(** record.Record(metadata.remove_record_key(), data). *)
Definition keyless {G A} (r : lrec G A) (g : option G) (d : option A) : lrec G A := mkRec (remove_record_key (rec_md r)) g d.

(** The body of the for loop of __call__, for one input record: the record yielded, if any, and records_to_batch.  [buf]
    also holds the metadata of the records: last_record_metadata is that of the last one. *)
Definition op_body {G A} (op : operation G A) (buf : list (lrec G A)) (r : lrec G A) : res (option (lrec G A) * list (lrec G A)) :=
  match op with
  | MapOp f => let! d := as_value_error (f (rec_data r)) in Ok (Some (keyless r (rec_gen r) d), buf)
  | RandomMapOp f => let! dg := as_value_error (f (rec_data r) (rec_gen r)) in Ok (Some (keyless r (snd dg) (fst dg)), buf)
  | FilterOp f =>
      let! b := as_value_error (f (rec_data r)) in
      Ok (if b then Some (keyless r (rec_gen r) (rec_data r)) else None, buf)
  | BatchOp n drop fn =>
      let buf := buf ++ [r] in
      if Z.of_nat (length buf) =? n then let! d := fn (map rec_data buf) in Ok (Some (keyless r (rec_gen r) d), [])
      else Ok (None, buf)
  end.
(** After the loop, operations.py:157-161. *)
Definition op_flush {G A} (op : operation G A) (buf : list (lrec G A)) : res (option (lrec G A)) :=
  match op with
  | BatchOp n drop fn =>
      match rev buf with
      | r :: _ => if drop then Ok None else let! d := fn (map rec_data buf) in Ok (Some (keyless r (rec_gen r) d))
      | [] => Ok None
      end
  | _ => Ok None
  end.

(** The generator object.  [g_done]: it has returned or raised, so that next() raises StopIteration (a Python generator
    does not run again), or it is at its last yield, with the same effect. *)
Record gen_st (S R : Type) := mkGen { g_parent : S; g_buf : list R; g_done : bool }.
Arguments mkGen {S R}. Arguments g_parent {S R}. Arguments g_buf {S R}. Arguments g_done {S R}.
(** Running the generator up to its next yield.  Records are never None; a None would be an AttributeError. *)
Fixpoint op_run {G A} (op : operation G A) (p : Iter (option (lrec G A))) (fuel0 fuel : nat) (buf : list (lrec G A)) (s : ist p)
  : out (option (lrec G A)) * gen_st (ist p) (lrec G A) :=
  match fuel with
  | O => (NoFuel, mkGen s buf false)
  | S fuel' =>
      match next p fuel0 s with
      | (Yield None, s') => (Fail InternalError, mkGen s' buf true)
      | (Yield (Some r), s') =>
          match op_body op buf r with
          | Ok (Some x, buf') => (Yield (Some x), mkGen s' buf' false)
          | Ok (None, buf') => op_run op p fuel0 fuel' buf' s'
          | Raise e => (Fail e, mkGen s' buf true)
          | OutOfFuel => (NoFuel, mkGen s' buf true)
          end
      | (Stop, s') =>
          match op_flush op buf with
          | Ok (Some x) => (Yield (Some x), mkGen s' buf true)
          | Ok None => (Stop, mkGen s' buf true)
          | Raise e => (Fail e, mkGen s' buf true)
          | OutOfFuel => (NoFuel, mkGen s' buf true)
          end
      | (Fail e, s') => (Fail e, mkGen s' buf true)
      | (NoFuel, s') => (NoFuel, mkGen s' buf false)
      end
  end.

(** _OperationDatasetIterator, data_loader.py:191-210: get_state and set_state are those of the parent, and do not touch
    the generator. *)
Definition operation_iter {G A} (op : operation G A) (p : Iter (option (lrec G A))) : Iter (option (lrec G A)) :=
  {| ist := gen_st (ist p) (lrec G A); ick := ick p; init := mkGen (init p) [] false;
     next := fun fuel s => if g_done s then (Stop, s) else op_run op p fuel fuel (g_buf s) (g_parent s);
     get_state := fun s => get_state p (g_parent s);
     set_state := fun fuel s c => let! s' := set_state p fuel (g_parent s) c in Ok (mkGen s' (g_buf s) (g_done s));
     jsonck := jsonck p |}.
(** BatchOperation.__post_init__, operations.py:131-139. *)
Definition operation_it {G A} (op : operation G A) (p : Iter (option (lrec G A))) : res (Iter (option (lrec G A))) :=
  match op with
  | BatchOp n _ _ => if n <=? 0 then Raise ValueError else Ok (operation_iter op p)
  | _ => Ok (operation_iter op p)
  end.

(** The iterator of a transformation given to a DataLoader instead ([apply_transform] of DataLoader.v, by itself). *)
Definition transform_it {G A} (op : loader_op G A) (p : Iter (option (lrec G A))) : res (Iter (option (lrec G A))) :=
  match op with
  | LMap f => Ok (map_it (on_map f) p)
  | LRandomMap f => Ok (map_it (on_random_map f) p)
  | LFilter f => Ok (filter_it None (on_filter f) p)
  | LBatch n drop fn => batch_it n drop (on_batch fn) p
  end.

(** _FlatMapAdapter.flat_map, data_loader.py:653-666: the new metadata have neither key nor generator. *)
Definition flat_map_adapter {G A} (max_fan_out : Z) (f : option A -> res (list (option A))) (r : lrec G A) : res (list (lrec G A)) :=
  let! ds := f (rec_data r) in
  Ok (map (fun '(k, d) => mkRec (mkMd (md_index (rec_md r) * max_fan_out + Z.of_nat k) None None) None d)
          (combine (seq 0 (length ds)) ds)).
