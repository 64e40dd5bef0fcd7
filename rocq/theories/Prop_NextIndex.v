(** C64: get_next_index and set_next_index. *)
From Verif Require Import Base MapDatasets Spec ListFacts Iter IterSpec NextIndex NextIndexSpec NextIndex_proofs Scheduled MapShuffle_proofs.

(** Whatever is done with the iterator, in any order (reading, checkpoints, new iterators, reading and setting the index),
    it behaves like a cursor: the index is the number of elements before the cursor, setting it moves the cursor. *)
Theorem C64_index {A} (x : Indexed A) l reach : indexed x l reach ->
  exists N, forall fuel ops, (N <= fuel)%nat -> sets_within reach ops ->
    irun x fuel ops (init (ix_it x)) [] = icursor l ops 0 [].
Proof. intros H. exact (ixlawful_run x l reach (indexed_ixlawful x l reach H)). Qed.

(** When a whole number of batches is read (and when nothing is batched) every index up to the end can be set. *)
Definition source (n : Z) : Indexed (option Z) := source_ix (fun _ => []) false 2 3 (range_example n).
Lemma source_indexed n : (0 < n)%nat -> indexed (source (Z.of_nat n)) (map Some (zrange 0 n)) n.
Proof.
  intros Hn. replace n with (length (map Some (zrange 0 n))) at 3 by now rewrite map_length, zrange_length.
  apply i_source.
  - intros i e He. rewrite nth_error_map, nth_error_zrange in He. destruct (Nat.ltb_spec i n); [|discriminate]. cbn in He. injection He as <-.
    rewrite range_example_get by lia. rewrite Z.mod_small by lia. reflexivity.
  - now rewrite map_length, zrange_length, range_example_len by lia.
  - intros _ Hin. apply in_map_iff in Hin as (z & Hz & _). discriminate.
Qed.
Definition double (z : Z) : res (option Z) := Ok (Some (2 * z)).
Definition numbered (i z : Z) : res (option Z) := Ok (Some (100 * i + z)).
Definition group (l : list (option Z)) : res (list (option Z)) := Ok l.
Definition alternate : schedule := fun i => (Nat.even i, i).

(** range(7), doubled, read by a thread, in batches of 2, read by another thread, the first three. *)
Definition chain : Indexed (list (option Z)) :=
  limit_ix 3 (thread_ix 1 false alternate (batch_ix 2 false group (thread_ix 2 true alternate (map_with_index_ix numbered (map_ix double (source 7)))))).
Example C64_example : exists N, forall fuel, (N <= fuel)%nat ->
  irun chain fuel [Use ONext; GetIndex; Use OSave; SetIndex 2; Use ONext; Use ONext; GetIndex; Use (OLoad 0 true); GetIndex; Use ONext; GetIndex; SetIndex 0; Use ORestart; SetIndex 1; Use ONext]
       (init (ix_it chain)) [] =
  [Saw (Got (Yield [Some 0; Some 102])); IndexIs (Ok 1); Saw Saved; IndexSet (Ok tt); Saw (Got (Yield [Some 408; Some 510])); Saw (Got Stop);
   IndexIs (Ok 3); Saw Loaded; IndexIs (Ok 1); Saw (Got (Yield [Some 204; Some 306])); IndexIs (Ok 2); IndexSet (Ok tt); Saw Restarted; IndexSet (Ok tt);
   Saw (Got (Yield [Some 204; Some 306]))].
Proof.
  assert (H : indexed chain (firstn 3 [[Some 0; Some 102]; [Some 204; Some 306]; [Some 408; Some 510]; [Some 612]]) (Nat.min 3 (7 / 2))).
  { apply (i_limit _ 3); [lia|]. apply i_thread; [lia|].
    apply (i_batch _ _ 2 false group _ (map Some [0; 102; 204; 306; 408; 510; 612])); [lia|discriminate| |].
    - repeat constructor.
    - apply i_thread; [lia|]. apply (i_map_with_index _ _ _ _ (map Some [0; 2; 4; 6; 8; 10; 12])).
      + repeat constructor.
      + apply (i_map _ _ _ _ (map Some (zrange 0 7))); [repeat constructor|]. apply (source_indexed 7). lia. }
  destruct (C64_index chain _ _ H) as (N & HN). exists N. intros fuel Hf. rewrite HN; [reflexivity|exact Hf|].
  intros i Hi. cbn in Hi. repeat (destruct Hi as [Hi|Hi]; [try discriminate; injection Hi as <-; cbn; lia|]). easy.
Qed.

(** The index of a batch iterator whose last batch is short cannot be set to the end (where get_next_index puts it): IndexError.
    The source has moved beyond its end by then: with threads every further read raises IndexError; without threads its
    elements come again, without an end. *)
Definition batched (num_threads : Z) (drop : bool) : Indexed (list (option Z)) :=
  batch_ix 2 drop group (source_ix (fun _ => []) false num_threads 3 (range_example 5)).
Theorem C64_short_batch_refuted : exists ops read,
  read = [Saw (Got (Yield [Some 0; Some 1])); Saw (Got (Yield [Some 2; Some 3])); Saw (Got (Yield [Some 4])); Saw (Got Stop); IndexIs (Ok 3)] /\
  icursor [[Some 0; Some 1]; [Some 2; Some 3]; [Some 4]] ops 0 [] =
    read ++ [IndexSet (Ok tt); Saw (Got Stop); Saw (Got Stop); IndexIs (Ok 3)] /\
  irun (batched 2 false) 50 ops (init (ix_it (batched 2 false))) [] =
    read ++ [IndexSet (Raise IndexError); Saw (Got (Fail IndexError)); Saw (Got (Fail IndexError)); IndexIs (Ok 3)] /\
  irun (batched 0 false) 50 ops (init (ix_it (batched 0 false))) [] =
    read ++ [IndexSet (Raise IndexError); Saw (Got (Yield [Some 1; Some 2])); Saw (Got (Yield [Some 3; Some 4])); IndexIs (Ok 5)].
Proof.
  exists [Use ONext; Use ONext; Use ONext; Use ONext; GetIndex; SetIndex 3; Use ONext; Use ONext; GetIndex]. eexists.
  split; [reflexivity|]. split; [reflexivity|]. split; vm_compute; reflexivity.
Qed.

(** With drop_remainder the index after the end is one more than the number of batches. *)
Theorem C64_dropped_refuted : exists ops,
  icursor [[Some 0; Some 1]; [Some 2; Some 3]] ops 0 [] =
    [Saw (Got (Yield [Some 0; Some 1])); Saw (Got (Yield [Some 2; Some 3])); IndexIs (Ok 2); Saw (Got Stop); IndexIs (Ok 2)] /\
  irun (batched 2 true) 50 ops (init (ix_it (batched 2 true))) [] =
    [Saw (Got (Yield [Some 0; Some 1])); Saw (Got (Yield [Some 2; Some 3])); IndexIs (Ok 2); Saw (Got Stop); IndexIs (Ok 3)].
Proof.
  exists [Use ONext; Use ONext; GetIndex; Use ONext; GetIndex]. split; [reflexivity|vm_compute; reflexivity].
Qed.

(** After a filter on the MapDataset the index counts the elements before the filter; and the batches found by their index
    are not those that are read in turn. *)
Definition odd_only : MapDs Z := {| mlen := 8; mget := fun i => Ok (if Z.odd i then Some i else None); mgetitems := fun _ => Raise UserError |}.
Definition sparse : Indexed (list (option Z)) := batch_ix 2 false group (source_ix (fun _ => []) false 2 3 odd_only).
Theorem C64_sparse_refuted : exists ops,
  icursor [[Some 1; Some 3]; [Some 5; Some 7]] ops 0 [] =
    [Saw (Got (Yield [Some 1; Some 3])); IndexIs (Ok 1); Saw (Got (Yield [Some 5; Some 7])); IndexSet (Ok tt); Saw (Got (Yield [Some 5; Some 7]))] /\
  irun sparse 50 ops (init (ix_it sparse)) [] =
    [Saw (Got (Yield [Some 1; Some 3])); IndexIs (Ok 2); Saw (Got (Yield [Some 5; Some 7])); IndexSet (Ok tt); Saw (Got (Yield [Some 3; Some 5]))].
Proof.
  exists [Use ONext; GetIndex; Use ONext; SetIndex 1; Use ONext]. split; [reflexivity|vm_compute; reflexivity].
Qed.
