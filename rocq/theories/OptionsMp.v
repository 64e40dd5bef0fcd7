(** Model of how DatasetOptions reach the transformations of a pipeline with interleave and with worker processes:
    grain/_src/python/dataset/transformations/prefetch.py:450-458, process_prefetch.py:351-354, 444-447, 705-754,
    interleave.py:474-492, dataset.py:1420-1442, 1724-1736. *)
From Verif Require Import Base Options.

(** A dataset: a transformation, named by a number, with its parents (a source has none), WithOptionsIterDataset,
    InterleaveIterDataset, which has no parents (interleave.py:557), and ProcessPrefetchIterDataset. *)
Inductive mpipe : Type :=
| MOp (id : nat) (parents : list mpipe)
| MWith (o : options) (parent : mpipe)
| MInterleave (datasets : list mpipe)
| MProcess (parent : mpipe).
Definition mparents (p : mpipe) : list mpipe :=
  match p with MOp _ ps => ps | MWith _ p | MProcess p => [p] | MInterleave _ => [] end.
Fixpoint msize (p : mpipe) : nat :=
  match p with
  | MOp _ ps => S (fold_right (fun p n => msize p + n)%nat 0%nat ps)
  | MWith _ p | MProcess p => S (msize p)
  | MInterleave _ => 1%nat
  end.
Definition no_options : options := make_options (fun _ => None).

(** get_dataset_options, prefetch.py:450-458.  The top of the stack to_visit comes first here: pop takes the last element and
    extend appends, hence the reversal.  The fuel is the number of visits. *)
Fixpoint visit (fuel : nat) (result : options) (to_visit : list mpipe) : res options :=
  match to_visit with
  | [] => Ok result
  | p :: rest =>
      match fuel with
      | O => OutOfFuel
      | S fuel => visit fuel (match p with MWith o _ => merge result (Some o) | _ => result end) (rev (mparents p) ++ rest)
      end
  end.
Definition get_dataset_options (p : mpipe) : options := match visit (msize p) no_options [p] with Ok o => o | _ => no_options end.

(** The options in the context of the iterator of a dataset when it has been made: the iterators of one process share their
    context, whose options are merged from the parents, the first one first (dataset.py:1429-1441, modelled with the shared
    objects in Options.v).  The iterators of an interleave and of a process prefetch have no parents; the latter sets its options
    from the dataset (process_prefetch.py:351-354). *)
Fixpoint ctx_options (p : mpipe) : options :=
  match p with
  | MOp _ ps => match map ctx_options ps with [] => no_options | o :: os => fold_left (fun o x => merge o (Some x)) os o end
  | MWith o p => merge o (Some (ctx_options p))
  | MInterleave _ => no_options
  | MProcess p => get_dataset_options p
  end.

(** The options that each transformation sees when elements are read, where [o] are those in the context of its iterators.
    Interleave merges its options into those of the iterators it makes (interleave.py:486-492, twice, which is the same).  The
    worker process makes its iterator from the dataset with the options of the process prefetch iterator on top
    (process_prefetch.py:444-447). *)
Fixpoint seen (o : options) (p : mpipe) : list (nat * options) :=
  match p with
  | MOp id ps => (id, o) :: flat_map (seen o) ps
  | MWith _ p => seen o p
  | MInterleave ds => flat_map (fun d => seen (merge o (Some (merge o (Some (ctx_options d))))) d) ds
  | MProcess p => seen (merge o (Some (ctx_options p))) p
  end.
Definition options_seen (p : mpipe) : list (nat * options) := seen (ctx_options p) p.

(** multiprocess_prefetch with [W] workers, process_prefetch.py:703-754 (the slices and the multiprocessing context of the workers
    do not matter here: both are datasets with one parent and without options of their own). *)
Definition mp_prefetch_opts (W : nat) (p : mpipe) : mpipe :=
  match W with O => p | _ => MWith (get_dataset_options p) (MInterleave (repeat (MProcess p) W)) end.
(** multithread_prefetch, prefetch.py:800-830. *)
Definition mt_prefetch_opts (W : nat) (p : mpipe) : mpipe :=
  match W with O => p | _ => MWith (get_dataset_options p) (MInterleave (repeat p W)) end.
