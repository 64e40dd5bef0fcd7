(** What an elastic iterator is to accept and to read. *)
From Verif Require Import Base MultiprocessSpec ElasticGraph.

Section Spec.
Context {X : Type}.
Notation ds := (ds X).

(** [x] is [d] or one of the datasets [d] was made from by transformations. *)
Inductive inside : ds -> ds -> Prop :=
| inside_here d : inside d d
| inside_parent d p x : In p (parents d) -> inside p x -> inside d x.
Definition class_of (d : ds) : option class := match d with Ds c _ => Some c | _ => None end.
Definition contains (cs : list class) (d : ds) : Prop := exists x c, inside d x /\ class_of x = Some c /\ In c cs.

(** The graphs that the classes of the library can form. *)
Inductive map_graph : ds -> Prop :=
| mg_source : map_graph (Ds CMapSource [])
| mg_map c ps : In c [CMap; CFilterMap] -> ps <> [] -> (forall p, In p ps -> map_graph p) -> map_graph (Ds c ps).
Inductive iter_graph : ds -> Prop :=
| ig_interleave l : iter_graph (Interleave l)
| ig_parquet l : iter_graph (Parquet l)
| ig_source : iter_graph (Ds CIterSource [])
| ig_one c p : In c [CIter; CSame; CProcess] -> iter_graph p -> iter_graph (Ds c [p])
| ig_many c ps : In c [CZip; CMix] -> ps <> [] -> (forall p, In p ps -> iter_graph p) -> iter_graph (Ds c ps)
| ig_prefetch m : map_graph m -> iter_graph (Ds CPrefetch [m]).

(** [l] are the shards at the bottom of [d]: the datasets of an interleave, or the files of a ParquetIterDataset, under
    transformations of one dataset. *)
Inductive shards_of : ds -> list ds -> Prop :=
| so_interleave l : shards_of (Interleave l) l
| so_parquet l : shards_of (Parquet l) (map (fun p => Parquet [p]) l)
| so_one c p l : In c [CIter; CSame; CProcess] -> shards_of p l -> shards_of (Ds c [p]) l.
(** The bottom is a ParquetIterDataset. *)
Inductive on_parquet : ds -> Prop :=
| op_parquet l : on_parquet (Parquet l)
| op_one c p : on_parquet p -> on_parquet (Ds c [p]).
End Spec.
