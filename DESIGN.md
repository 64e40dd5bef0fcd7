# Formal model of google/grain in Rocq

The properties are in `properties.jsonl` (C01, C02, ...), the model and the proofs in
`rocq/theories`, the theorem names of every property in `MANIFEST.json`, the wrong programs
against which the theorems were tested in `seeded/LOG.jsonl`.

## Approach

* Shallow embedding in Gallina.  Every Python/C++ function that is modelled is a Gallina
  function that follows its branches; exceptions are result values
  (`res A := Ok a | Raise e | OutOfFuel`, Base.v).
* Python integers are `Z`; list lengths and positions are `nat` or `Z`.
* Model files hold definitions only; each cites the file and lines it models and says what it
  leaves out.  Specifications that are more than a line are in `Spec.v`, `IterSpec.v` and
  `*Spec.v`; they do not use the model's algorithms.  Proofs are in `*_proofs.v`.  The theorems
  that stand for the properties are in `Prop_*.v`, named `Cnn_...`, each with an `Example`
  that shows a concrete case meeting its hypotheses.
* Third-party behaviour (numpy generators, `std::seed_seq`, user functions, data sources,
  arrow, the operating system's scheduler) is universally quantified: section variables that
  become parameters of the theorems, never axioms.
* Where the code does not do what its documentation (or the obvious reading of the API) says,
  there is a theorem `Cnn_..._refuted` with a concrete history, beside a positive theorem with
  the exact guard under which the claim is true.  See *Findings*.

### Iterators

An iterator (`Iter`, Iter.v) is a record: internal state, checkpoint type, initial state,
`next`, `get_state`, `set_state` and `jsonck` (the effect of `json.loads(json.dumps(state))`).
The specification (`IterSpec.v`) is a cursor over a list: what a user may do is a list of
operations `ONext | OSave | OLoad k json | ORestart`, `run` executes it on an iterator, `cursor`
on a list and a position.  `checkpointable it l fin used json` says that for every history of
operations both give the same observations (`used`: also when restoring into iterators in use;
`json`: also through JSON; `fin = false`: `l` is any prefix of a possibly infinite stream).
`lawful` is the invariant behind it; each transformation is proved to take lawful parents to
lawful iterators over the transformed list, so pipelines follow by induction (`pipe`,
Pipeline.v).

Loops (`while True` in `__next__`) use fuel; the laws say that for every fuel above a bound
the real result is produced, so fuel never hides divergence.

### Concurrency

Thread prefetch, process prefetch, the variable size queues and `run_in_parallel` are
transition systems whose steps are the atomic actions (one access to shared data) of the
threads or processes.  Theorems are inductive invariants over all schedules, together with
"no schedule blocks": from every reachable state every maximal schedule completes the program
in a bounded number of steps.  `Scheduled.v` makes iterators of these systems (with an
arbitrary schedule as parameter) so that they compose with the other transformations.

## Per property

| id | model | proof |
|----|-------|-------|
| C01 | `even_split`, Sharding.v | arithmetic over all n, k, i |
| C02, C03 | Simon network on W-bit words, cycle walk with fuel, IndexShuffle.v | rounds are invertible; first-return map of a finite permutation; collision for 2^k |
| C04, C05 | ShuffleMap/WindowShuffleMap over an arbitrary key generator, MapDatasets.v | Permutation of each epoch |
| C06 | window shuffle iterator, Iter.v | lawful over permuted chunks |
| C07, C08 | `slice.indices` and SliceMap | arithmetic; Permutation, round robin |
| C09, C10, C15, C16 | repeat, concatenate, zip, flat_map on MapDatasets | list equations per epoch |
| C11-C13 | selection algorithm of mix | induction on the number of steps, invariant |
| C14 | BatchMap | list equations |
| C17 | inductive type of map pipelines | induction on the pipeline |
| C18 | pool of generators, RngPool.v | invariant over histories |
| C19-C21, C23, C25-C30 | Iter.v, Pipeline.v | lawfulness of each transformation, induction on pipelines |
| C22 | threshold checker | induction on outcome sequences |
| C24 | `batch_and_pad` | list equations |
| C31 | ThreadPrefetch.v | invariant and termination measure over all schedules; `C31_composes` |
| C32 | ProcessPrefetch.v, requests and markers | same; hangs as refutations |
| C33 | Multiprocess.v: trees sliced by worker, interleaved | composition of C31, C32, C34, C08 |
| C34, C35 | Interleave.v | simulation by the round robin relation of InterleaveSpec.v; heap of shared objects for the aliasing findings |
| C36, C37, C52 | Elastic.v: hosts, files of a directory; ElasticJob.v: whole jobs of several hosts over interleaves, saved and resized any number of times | partition theorems, histories of hosts; for jobs an invariant on what every host has still to give, kept by reading, saving and restoring |
| C38, C56 | Samplers.v | arithmetic, Permutation, injectivity |
| C39 | DataLoader.v | composition of C33, C38; round trip of the state |
| C40-C42 | Packing.v | relation `packs` of PackingSpec.v; lawfulness |
| C43-C45 | ConcatSplit.v | relation `cts_output` of ConcatSplitSpec.v; lawfulness |
| C46 | Queues.v | invariants over all schedules |
| C47, C48, C54 | FileSources.v, MapDatasets.v | lawfulness; arithmetic |
| C49, C50 | Options.v | algebraic laws, induction on graphs |
| C51 | Tree.v | induction on trees |
| C53 | Parallel.v | invariant over all schedules |
| C55 | Operations.v | simulation by the transformation |
| C57 | PackOperation.v | the strategy lemmas of C40, induction on `fills` |
| C58 | SequentialSlice.v | a store of source objects changed in place; the workers' parts by induction on the dataset, then the iterator law and C34/C35 |
| C59 | Load.v | the sampler's theorems (C12, C13), C34 for the workers, the batch law per worker |
| C60 | DevicePut.v | the iterator law of map and of thread prefetch, twice |
| C61 | SharedMemory.v | a store of named segments; induction on the leaves, invariant: fresh names, nothing shared |
| C62 | SharedMemory.v (batching) | each leaf agrees with np.stack; the pool's copies commute |
| C63 | ShmProtocol.v | transition system of worker, consumer and deletions; invariant: owners partition the segments; a measure for close |
| C64 | NextIndex.v, NextIndexSpec.v | iterators with the two index methods; each transformation preserves a law extending that of C19 (index = position, setting moves there), so every history is that of a cursor; thread prefetch under every schedule |
| C65 | ElementSpec.v (pipelines of all transformations over structures of arrays, their element specs), ElementConforms.v (when an element conforms, what is to be right in a pipeline) | induction on the pipeline; each iterator keeps an invariant saying that what it holds came from reachable states of its parents |
| C66 | ExecutionSummary.v (records of a node, building, merging and completing summaries), ExecutionSummarySpec.v (the pipeline as a tree, what it means that a summary draws a tree) | induction on the tree of Stats objects; the summary built so far is a list of nodes numbered from 0; averages: an invariant on sums kept by records and merges |
| C67 | the same files; `waits` says recursively which share each node gets | the two traversals (nodes before a prefetch, shares) by induction on the tree; sums over the rationals with an error of one rounding per node; insertion sort for the logged order |
| C68 | Close.v (each kind of iterator with its own `_closed` flag, close, and what is running), CloseSpec.v (histories; which pipelines raise, are silent or go on) | predicates on the state kept by next and set_state, one lemma per transformation; induction on the pipeline, for every schedule |
| C69 | PerfConfig.v, PerfConfigSpec.v (mean size, the prefetched datasets as a relation) | induction on elements and pipelines; rational arithmetic |
| C70 | ElasticPipe.v: jobs as in C37, every host with its own pipeline on top of its interleave; ElasticPipeSpec.v: the transformations that keep nothing between elements | a law of transformations (from any state, next consumes a prefix of the parent's elements and gives what the transformation makes of it), composed; then the invariant of C37 |
| C71 | MpInterleave.v: per worker the interleave iterator over its slice of the datasets, polled for its state after each element, behind the process and thread prefetch iterators of Scheduled.v, interleaved again; the state of a worker before its first element is that of the whole dataset, as in the code. Spec files_read (MpInterleaveSpec.v) by the round robin relation of InterleaveSpec.v. | Proved by composing the laws of interleave, process and thread prefetch, weakened to iterators that can only be restored when new (renewable). |
| C72 | LoaderFlat.v: the dataset of a DataLoader with FlatMap (native dataset checkpointing), in the process or in workers. Spec flat_load, flat_run (LoaderFlatSpec.v). | Proved by composing the laws of the iterators (flat_map only for new iterators) with process and thread prefetch and interleave; the same elements by a homomorphism on lists of records. |
| C73 | ElasticGraph.v: the graph of a dataset as a tree of classes, the two checking loops with their stack, slicing, the two searches, the constructor and the first use. Spec inside, contains, iter_graph, shards_of (ElasticGraphSpec.v). | Proved: the loops visit what is inside by induction on the number of visits; the rest by induction on the graph. |
| C74 | OptionsMp.v: get_dataset_options with its stack, the options in the context of each iterator, what interleave and the worker processes merge, mp_prefetch and multithread_prefetch. Spec uwritten, consistent, chosen (OptionsMpSpec.v), first_set (Prop_Options.v). | Proved: the search meets the options in reverse order of parents, by induction on the visits; this order does not matter for consistent pipelines, by induction on the pipeline. |
| C75 | MpShared.v: dataset objects with their batch functions, flags of batch function objects, enable_shared_memory_output, multiprocess_prefetch, the worker's copy. | Proved: the loop over the workers by induction; what one step reaches; output by C62_batch. |
| C76 | StopQueue.v: threads with calls, a bounded queue, should_stop and jobs; a step of a thread, timeouts, stops. Spec added, got, calls_of, gave_up over the log of returned calls (Prop_StopQueue.v). | Proved: invariants over all runs; stopping by a measure on the thread. |

All properties are proved in full for the model, with the guards in their statements; there
is no `_partial` theorem at present.

## Trusted base

* The Coq 8.16.1 kernel, including `vm_compute` (used in examples and refutations).
* `Assumptions.v` runs `Print Assumptions` on every theorem of MANIFEST.json.  Result: *Closed
  under the global context* for all of them.  No axiom is used, none is added.
  (`coqchk` lists seven axioms of `Coq.ssr.ssrunder`, a standard library file that is loaded by
  `Lia`/`ssreflect` plumbing; no theorem depends on them.)
* The correspondence between `/repo` and the model, by reading.  Citations and simplifications
  are in the comment of each definition.
* `_CoqProject` flags are the given ones; no plugin, functor, module type or section-less
  `Variable` is used.

### What is modelled

| code (under grain/_src) | model |
|---|---|
| core/sharding.py | Sharding.v |
| core/tree_lib.py (implementation without jax) | Tree.v |
| core/parallel.py | Parallel.v |
| python/experimental/index_shuffle/*.cc | IndexShuffle.v, SeedSeq.v |
| python/dataset/transformations/{shuffle,slice,repeat,mix,batch,zip,flatmap,map,filter,source}.py, map-style classes | MapDatasets.v |
| the same files, iterator classes; limit.py, cache.py, rebatch.py; PrefetchDatasetIterator of prefetch.py | Iter.v |
| map.py: generator pool | RngPool.v |
| prefetch.py: ThreadPrefetchIterDataset | ThreadPrefetch.v |
| process_prefetch.py: worker and ProcessPrefetchDatasetIterator | ProcessPrefetch.v |
| process_prefetch.py, prefetch.py: multiprocess_prefetch, multithread_prefetch, slicing of pipelines | Multiprocess.v, SequentialSlice.v |
| interleave.py | Interleave.v |
| packing.py, packing_packed_batch.py | Packing.v |
| packing_concat_then_split.py | ConcatSplit.v |
| python/ipc/variable_size_queue.py | Queues.v |
| python/dataset/sources/{tfrecord,parquet}_dataset.py | FileSources.v |
| python/data_sources.py: RangeDataSource | MapDatasets.v |
| python/samplers.py, record.py | Samplers.v |
| python/data_loader.py | DataLoader.v, Operations.v |
| python/operations.py | Operations.v |
| python/experimental/example_packing/packing.py | PackOperation.v |
| python/load.py | Load.v |
| python/experimental/device_put | DevicePut.v |
| get_next_index, set_next_index of prefetch.py, map.py, batch.py, limit.py | NextIndex.v |
| python/ipc/shared_memory_array.py; batch.py: make_batch, _MakeBatchParallel | SharedMemory.v, ShmProtocol.v |
| python/dataset/base.py: DatasetOptions, IteratorContext; dataset.py: default seeds, options | Options.v |
| python/dataset/elastic_iterator.py, checkpoint/*.py | Elastic.v, ElasticJob.v |
| dataset.py get_element_spec and `_element_spec` of every transformation | ElementSpec.v |
| stats.py: `_ExecutionStats.report`, `_build_execution_summary` (all three), wait time ratios; stats_utils.py: merge, complete, sort, analyze | ExecutionSummary.v |
| dataset.py: DatasetIterator.close; close and the checks of `_closed` of prefetch.py and process_prefetch.py | Close.v |
| elastic_iterator.py:317-355, 436-498: close and set_state of elastic iterators over MapDatasets | ElasticClose.v |
| prefetch_autotune.py | PerfConfig.v |
| elastic_iterator.py: batches of the global batch size, transformations above the interleave | ElasticPipe.v |
| transformations/process_prefetch.py:649-755 over interleave.py:573-575 | MpInterleave.v |
| data_loader.py:437-486, 646-666, 669-737 with FlatMap | LoaderFlat.v |
| elastic_iterator.py:38-111, 149-172, 402-434, prefetch.py:394-448 (slicing of graphs), parquet_dataset.py:145-158, process_prefetch.py:678-754 (the graph it makes) | ElasticGraph.v |
| prefetch.py:450-458, 800-830, process_prefetch.py:351-354, 444-447, 705-754, interleave.py:474-492 (options only) | OptionsMp.v |
| batch.py:485-491, 552-560, process_prefetch.py:218-226, 444-447, 702-754 (shared memory output only) | MpShared.v |
| ipc/queue.py:24-84 (a job that raises is not modelled; put and get of the queue are atomic) | StopQueue.v |

### What is not modelled

* Statistics, tracing, monitoring, logging, tracebacks, visualisation
  (stats.py and stats_utils.py except what C66 and C67 are about: no timers, tables, graphs, threads; profiler.py, *monitoring*.py, traceback_util.py).
* Contents of arrays beyond their first axis, except in C61, C62 and C65; numpy's dtype conversions
  and broadcasting are parameters with four laws there; elsewhere batching functions are
  parameters.
* Floating point: filter thresholds are fractions, mix weights are the integer proportions
  after `_float_to_int_proportions`.
* jax implementations of the tree functions.
* get_next_index and set_next_index of process prefetch, interleave and ElasticIterator.
* The autotuned buffer (its effect, changing the buffer size at any time, is in C30 and C46).
* Garbage collection (`__del__` of iterators); close of interleave (that of ElasticIterator is in C68).
* Sharing of mutable objects, except where a finding is about it (`heap_il` in Interleave.v;
  generators in RngPool.v, `rec_gen` in DataLoader.v, sources in SequentialSlice.v, datasets and
  batch functions in MpShared.v).
* Failures of the operating system other than killed workers (C32) and crashes while saving
  (C52).

## Findings

Behaviours of the code that contradict its documentation or the property one would expect.
Each is a proved theorem; the positive theorem beside it has the guard that excludes it.

| theorem | behaviour |
|---|---|
| C02/C04/C06 `_refuted` | for max_index = 2^k, k even and >= 16, index_shuffle maps 0 and max_index to the same value for every seed: shuffle of 2^k + 1 elements loses one |
| C05_window_shuffle_refuted | the incomplete last window reads elements of the next epoch |
| C05_window_seed_overflow | a window with seed + number >= 2^32 raises TypeError |
| C19_flat_map_refuted, C19_rebatch_refuted, C19_cache_refuted | set_state into a used iterator, or after an exactly filled last batch, does not go back |
| C30_after_exception_refuted | after an exception the buffered prefetch iterator's state is one behind |
| C31_size_0_refuted | with buffer size 0, start_prefetch and next both read the parent |
| C32_failing_worker_refuted, C32_killed_worker_refuted, C32_six_restores_refuted | next() or set_state() hangs |
| C33_filter_order_refuted, C33_map_with_index_refuted, C33_batch_refuted | mp_prefetch changes order or content for pipelines that are not elementwise |
| C34_no_datasets_refuted | interleave of nothing raises IndexError |
| C35_checkpoint_after_restore_refuted, C35_repeat_refuted, C35_shared_list_refuted | checkpoints of a restored interleave drop datasets; a checkpoint shares its lists with the iterator |
| C36_tail_refuted | hosts disagree on the number of batches at the end |
| C37_exhausted_shard_refuted, C37_all_exhausted_refuted, C37_json_refuted | set_shard_states reads exhausted shards again; JSON loses future states |
| C37_job_exhausted_refuted, C37_job_same_hosts_refuted | a resized job reads a finished shard again; a job that was resized and is then restored with the same number of hosts reads elements twice |
| C38_index_sampler_refuted, C38_empty_shard_refuted | several epochs with uneven shards read some records more often than others; an empty shard raises ZeroDivisionError |
| C41_max_sequences_refuted | best fit ignores max_sequences_per_bin for elements without values |
| C43_positions_refuted | positions restart in the rest of a split element |
| C44_long_features_refuted, C44_scalars_refuted, C44_bos_refuted | tokens or scalars are emitted twice; IndexError with BOS tokens |
| C45_json_refuted | a checkpoint through JSON loses an element |
| C46_process_grow_pending_refuted | growing while a shrink is pending lets the queue exceed its maximum |
| C51_map_lengths_refuted, C51_key_order_refuted, C51_assert_one_way_refuted | fallback tree functions cut longer sequences, depend on key order, check one way |
| C52_incomplete_refuted, C52_stale_refuted | incomplete or stale elastic checkpoints are restored without error |
| C55_restore_into_finished_refuted, C55_after_exception_refuted, C55_flat_map_generator_refuted | legacy operations cannot be restored after the end or go on after an exception; FlatMap drops the generator |
| C57_no_records, C57_no_room, C57_reuse_refuted | PackAndBatchOperation raises without records or room; used again it emits its last batch again |
| C58_slice_refuted, C58_repeat_refuted, C58_batch_refuted, C58_concatenate_refuted | MapDatasets keep lengths computed before sequential slicing: elements outside a slice come, elements come W times, batches fail |
| C58_shared_source_refuted | a source object with two uses is sliced twice; elements are lost |
| C58_random_map_refuted | MapDataset.random_map draws the same numbers in every worker |
| C59_drop_remainder_refuted | load with drop_remainder: 6 records in batches of 3 give two batches in the process and none with 3 workers |
| C61_view_refuted | a view into a SharedMemoryArray is sent without its offset: the receiver reads the start of the segment |
| C61_twice_refuted | a SharedMemoryArray twice in an element is freed twice; the second time fails |
| C62_dtype_refuted, C62_kind_refuted, C62_empty_refuted | batching in a worker uses the first value's dtype: int8 then int64 300 becomes 44, int then float is a TypeError, empty arrays are a ValueError; in the process all work |
| C62_leak_refuted | a batch that fails in a worker leaves its segments |
| C62_parallel_refuted | the thread pool assigns rows: it casts and broadcasts where np.stack raises ValueError |
| C63_killed_refuted, C63_get_state_refuted | segments leak when the worker is killed or does not end in 25 s, and when get_state raises after the element was copied |
| C64_short_batch_refuted, C64_dropped_refuted, C64_sparse_refuted | get/set_next_index: with a short last batch the index at the end cannot be set (IndexError) and the source is left beyond its end (further reads raise, or without threads start over without an end); with drop_remainder the index after the end is one too large; after MapDataset.filter it counts unfiltered elements, and batches found by index differ from those read in turn |
| C65_rebatch_tail_refuted, C65_mix_refuted, C65_zip_refuted | get_element_spec: rebatch claims the batch size for the last batch without drop_remainder too; mix, concatenate and interleave claim the first parent's spec; zip ignores that a parent may give None |
| C66_lost_refuted, C66_mixed_refuted | Execution summary: `_build_execution_summary` of interleave and of process prefetch does not count the nodes it merged, so the nodes of the next parent overwrite them; interleaved iterators with the same number of nodes are added up even if their transformations differ |
| C67_zero_refuted | Execution summary: when no time was recorded below a prefetch, its share is set to 0 and given to nobody |
| C68_kept_refuted, C68_cache_refuted | After close, flat_map, window_shuffle and cache (and rebatch, packing) still give the elements they keep, although the documentation of close says ValueError |
| C68_file_refuted | An iterator that reads a file itself (TFRecord, parquet, a class of the user) goes on after close, and so do the transformations of it |
| C68_stopped_refuted | limit, repeat, mix and mp_prefetch that have stopped raise StopIteration after close, not ValueError |
| C68_elastic_refuted | ElasticIterator.close looks for "_base_iterator" but the cached property is "base_iterator" (elastic_iterator.py:478-481): it has no effect, threads go on running and next goes on giving elements |
| C69_few_refuted | pick_performance_config: with fewer elements than samples_to_check the memory budget is ignored and the maximum number of workers and buffer size are chosen |
| C69_uneven_refuted | the average size weights a short prefetched dataset too little: the chosen buffers may exceed the budget |
| C69_none_refuted | ram_budget_mb=None, allowed by the annotation, raises TypeError |
| C70_flat_map_refuted, C70_window_shuffle_refuted | elastic jobs with flat_map or window_shuffle above the interleave are accepted, but lose the elements buffered in them when the number of hosts changes |
| C70_limit_refuted | limit above the interleave counts from 0 again when the number of hosts changes |
| C71_start_refuted | with two or more workers, a checkpoint taken before every worker has delivered an element holds for the others the state of an iterator over all datasets (process_prefetch.py:582-587 makes it in the main process, where the dataset is not sliced, 662-668). If cycle_length exceeds the number of a worker's datasets, the restored worker fails with IndexError. |
| C71_start_states_refuted | if the iterators of the datasets do not start in the same state, restoring such a checkpoint gives a worker the state of another worker's dataset: elements are read twice and lost without an error. |
| C71_few_datasets_refuted | with more workers than datasets, the workers without a dataset fail with IndexError. |
| C72_rejects_refuted | with a FlatMap among the operations the iterator of a DataLoader does not validate states (data_loader.py:481-486, validate_state=False): a state of a loader of another source or sampler is accepted and reading goes on in the middle of other data. Without FlatMap it is rejected (C39_rejects). |
| C72_used_refuted | with a FlatMap and no workers, the state at the end restored into the iterator that has been read to the end gives the last group of records again (flatmap.py:125-138 keeps the buffer); without FlatMap this cannot happen (C39_no_workers). |
| C73_one_file_refuted | an elastic job over Parquet files with k hosts and at least k but fewer than 2k files is accepted, and the last host raises ValueError at its first element: ParquetIterDataset of one file makes an iterator without shard states (parquet_dataset.py:145-147), which elastic_iterator.py:169-174 rejects. |
| C73_mp_prefetch_refuted | the checks for zip, mix, prefetch and filter do not look inside an interleave, and mp_prefetch makes one: with it on top every dataset is accepted. The hosts share the workers, and hosts beyond the number of workers have nothing to read (IndexError at the first element, C34_no_datasets_refuted). |
| C74_order_refuted | where two parents of one dataset set an option differently the first parent decides without worker processes, and the last one with them: get_dataset_options (prefetch.py:450-458) pops from the end of its list. Adding mp_prefetch changes the option. |
| C74_interleave_refuted | options set in an interleaved dataset do not apply to the transformations after the interleave, although the docstring (dataset.py:1692-1693) says that they apply to all transformations before and after. |
| C75_changed_refuted | ds.mp_prefetch with two or more workers changes ds itself (process_prefetch.py:712-714): if ds is a batch, reading ds afterwards without workers makes its batches in shared memory, with the differences of C62_dtype_refuted, C62_kind_refuted and C62_empty_refuted. |
| C75_one_worker_refuted | with one worker the batches are never made in shared memory: lines 712-714 are skipped, and the check in the worker (process_prefetch.py:225) sees the WithOptionsIterDataset put on top at lines 444-447. The output is the same, with one more copy. |
| C76_added_after_stop | (no defect) a call that was in put when should_stop() became true may still add its element and return True. |
| C73_threads_ignored | read_options.num_threads has no effect for IterDatasets of the library: the branch at elastic_iterator.py:423-432 is never taken. |

## Testing the theorems

`tools/mutate.py` applies an edit to a model file in a scratch copy, rebuilds, replaces every
proof that fails by `Admitted`, and reports which property theorems then depend on an
admitted lemma.  Survivors were either equivalent edits or led to stronger theorems; both
are recorded in `seeded/LOG.jsonl`.
