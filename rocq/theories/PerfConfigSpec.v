(** What a performance configuration is to be. *)
From Coq Require Import QArith String.
From Verif Require Import Base PerfConfig.
Open Scope Z_scope.

(** The sizes of all arrays and other objects in an element. *)
Fixpoint leaf_sizes (o : obj) : list Z :=
  match o with
  | ODict items => flat_map (fun kv => leaf_sizes (snd kv)) items
  | OSeq items => flat_map leaf_sizes items
  | OArray n | OOther n => [n]
  end.
Definition bytes (o : obj) : Z := fold_right Z.add 0 (leaf_sizes o).
(** The mean size of some elements in MB. *)
Definition mean_mb (l : list obj) : Q := (inject_Z (fold_right Z.add 0%Z (map bytes l)) / inject_Z (1048576 * Z.of_nat (List.length l)))%Q.
Definition qsum (l : list Q) : Q := fold_right Qplus 0%Q l.
(** [samples] elements taken from [n] datasets: this many from each. *)
Definition share (samples n : Z) : Z := (samples + n - 1) / n.
Definition first_elements (k : Z) (d : dataset) : list obj := firstn (Z.to_nat k) (elements d).

(** The datasets below the prefetches that are reached first from the output. *)
Inductive prefetched : dataset -> dataset -> Prop :=
| PHere e p : prefetched (Ds true e [p]) p
| PBelow e ps q p : In q ps -> prefetched q p -> prefetched (Ds false e ps) p.
(** A PrefetchIterDataset has one parent. *)
Fixpoint well_formed (d : dataset) : Prop :=
  let '(Ds is_prefetch _ ps) := d in
  (is_prefetch = true -> exists p, ps = [p]) /\
  (fix all (l : list dataset) : Prop := match l with [] => True | q :: l => well_formed q /\ all l end) ps.
