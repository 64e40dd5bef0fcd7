(** What a DataLoader with FlatMap gives, without iterators: the specification for C72. *)
From Verif Require Import Base Iter IterSpec Interleave Samplers DataLoader DataLoaderSpec LoaderFlat Interleave_proofs Prop_Interleave.

(** What FlatMap makes of a record: records for what the user's function returns, numbered from index * max_fan_out, without key
    and generator. *)
Definition split_record {G A} (max_fan_out : Z) (r : lrec G A) (ds : list (option A)) : list (lrec G A) :=
  map (fun '(k, d) => mkRec (mkMd (md_index (rec_md r) * max_fan_out + Z.of_nat k) None None) None d) (combine (seq 0 (length ds)) ds).
Definition flat_load1 {G A} (op : flat_op G A) (l : list (lrec G A)) : res (list (lrec G A)) :=
  match op with
  | FOp op => load1 op l
  | FFlatMap max_fan_out f =>
      let! dss := sequence (map (fun r => f (rec_data r)) l) in
      Ok (concat (map (fun '(r, ds) => split_record max_fan_out r ds) (combine l dss)))
  end.
Fixpoint flat_load {G A} (ops : list (flat_op G A)) (l : list (lrec G A)) : res (list (lrec G A)) :=
  match ops with [] => Ok l | op :: ops' => let! l' := flat_load1 op l in flat_load ops' l' end.
(** Operations that treat the records one by one. *)
Definition record_by_record {G A} (op : flat_op G A) : bool :=
  match op with FOp (LBatch _ _ _) => false | _ => true end.

(** The history of an iterator of such a loader. *)
Definition flat_run {A} (d : flat_loader A) (fuel : nat) (history : list op) : list (obs A) :=
  match d with
  | InProcess it => run it fuel history (init it) []
  | InWorkers its => il_run (embed its) (length its) false (fun _ => true) (json_of (embed its)) fuel history (il_init (embed its) (length its)) []
  end.
