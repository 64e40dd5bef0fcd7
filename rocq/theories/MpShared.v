(** Model of where batches are made in shared memory, and of what mp_prefetch does to the dataset it is applied to:
    grain/_src/python/dataset/transformations/batch.py:485-491, 552-560, process_prefetch.py:218-226, 444-447, 702-754,
    grain/_src/python/dataset/base.py:233-244. *)
From Verif Require Import Base Tree SharedMemory.

(** The batch function of a dataset: make_batch, make_batch with output_to_shared_memory=True, another function, or an object with
    enable_shared_memory_output (such as _MakeBatchParallel), whose flag is at [obj]. *)
Inductive batch_function : Type :=
| MakeBatch
| MakeBatchShm
| Function
| Object (obj : nat).
(** A dataset object: the datasets it was made from, and the batch function of BatchIterDataset.  No other dataset has
    enable_shared_memory_output. *)
Record node := mkNode { n_parents : list nat; n_batch : option batch_function }.
(** The objects of a process: datasets, by their addresses, and the flags _output_to_shared_memory of the batch functions that are
    objects. *)
Record world := mkWorld { w_nodes : list node; w_flags : list bool }.
Definition add (w : world) (n : node) : world * nat := (mkWorld (w_nodes w ++ [n]) (w_flags w), length (w_nodes w)).
Definition batch_function_of (w : world) (d : nat) : option batch_function :=
  match nth_error (w_nodes w) d with Some n => n_batch n | None => None end.
Fixpoint set_nth {A} (i : nat) (x : A) (l : list A) : list A :=
  match l, i with [], _ => [] | _ :: l, O => x :: l | y :: l, S i => y :: set_nth i x l end.

(** isinstance(ds, SupportsSharedMemoryOutput), base.py:233-244. *)
Definition supports (w : world) (d : nat) : bool := match batch_function_of w d with Some _ => true | None => false end.
(** enable_shared_memory_output, batch.py:552-560 (BatchMapDataset, lines 485-491, does the same).  make_batch with
    output_to_shared_memory is a functools.partial, which is not make_batch and has no such method. *)
Definition enable (w : world) (d : nat) : world :=
  match nth_error (w_nodes w) d with
  | Some n =>
      match n_batch n with
      | Some (Object o) => mkWorld (w_nodes w) (set_nth o true (w_flags w))
      | Some MakeBatch => mkWorld (set_nth d (mkNode (n_parents n) (Some MakeBatchShm)) (w_nodes w)) (w_flags w)
      | _ => w
      end
  | None => w
  end.

(** multiprocess_prefetch, process_prefetch.py:702-754, the loop over the workers (lines 708-743).  The datasets made for a worker:
    the slice if there is more than one worker, the multiprocessing context, the process prefetch.  The result is the world and the
    parents of the process prefetch datasets. *)
Fixpoint workers_loop (num_workers i : nat) (w : world) (d : nat) : world * list nat :=
  match i with
  | O => (w, [])
  | S i =>
      let (w1, ds) :=
        if Nat.eqb num_workers 1 then (w, d)
        else let w0 := if supports w d then enable w d else w in add w0 (mkNode [d] None) in
      let (w2, mp) := add w1 (mkNode [ds] None) in
      let (w3, _) := add w2 (mkNode [mp] None) in
      let (w', l) := workers_loop num_workers i w3 d in (w', mp :: l)
  end.
(** With the interleave, which has no parents, and WithOptionsIterDataset on top (lines 745-754); the last component is the dataset
    that is returned. *)
Definition multiprocess_prefetch (num_workers : nat) (w : world) (d : nat) : world * list nat * nat :=
  match num_workers with
  | O => (w, [], d)
  | _ => let (w1, l) := workers_loop num_workers num_workers w d in
         let (w2, i) := add w1 (mkNode [] None) in
         let (w3, r) := add w2 (mkNode [i] None) in (w3, l, r)
  end.
(** The objects in a worker process before its iterator is made: a copy of the main process's with WithOptionsIterDataset on top
    (process_prefetch.py:444-447), then lines 224-226.  Objects keep their addresses. *)
Definition worker_world (w : world) (d : nat) : world :=
  let (w1, top) := add w (mkNode [d] None) in if supports w1 top then enable w1 top else w1.

(** Whether a dataset makes its batches in shared memory. *)
Definition in_shared_memory (w : world) (d : nat) : bool :=
  match batch_function_of w d with
  | Some MakeBatchShm => true
  | Some (Object o) => nth o (w_flags w) false
  | _ => false
  end.
(** What a dataset that batches with make_batch makes of the leaves of at least two values (batch.py:177-223, SharedMemory.v). *)
Definition batch_of {D V X} (np : numpy D V) (w : world) (d : nat) (m : memory V) (columns : list (list (array D V))) : memory V * res (list (leaf D V X)) :=
  make_batch np (in_shared_memory w d) m columns.
