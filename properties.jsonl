{"id": "C01", "title": "even_split partitions the examples", "statement": "even_split(n, ShardOptions(i, k, drop_remainder)) yields consecutive, disjoint intervals that cover [0, n) exactly when drop_remainder is False and whose sizes differ by at most one (larger shards first); with drop_remainder all intervals have the size n // k and cover [0, k*(n//k)).", "quantifier": "every n >= 0, every shard count k >= 1, every shard index", "why_tests_cant": "coverage and disjointness relate all shards of all (n, k) at once", "anchors": ["grain/_src/core/sharding.py:even_split", "grain/_src/core/sharding.py:ShardOptions"]}
{"id": "C02", "title": "index_shuffle is a permutation of [0, max_index]", "statement": "For a fixed seed, rounds and max_index, index -> index_shuffle(index, max_index, seed, rounds) is a bijection of [0, max_index] onto itself, provided the cipher block covers max_index (max_index is not 2^k for an even k >= 16); for max_index = 2^k with even k >= 16 two different indices are mapped to the same value, so an element is lost and another duplicated.", "quantifier": "every seed, every even number of rounds, every max_index, every index", "why_tests_cant": "bijectivity is a statement over all pairs of 2^62 indices and all seeds; the collision appears only at particular sizes", "anchors": ["grain/_src/python/experimental/index_shuffle/index_shuffle.cc:index_shuffle", "grain/_src/python/experimental/index_shuffle/index_shuffle.cc:simon_encrypt", "grain/_src/python/experimental/index_shuffle/python/index_shuffle_module.cc"]}
{"id": "C03", "title": "index_shuffle terminates with a result in range", "statement": "The cycle-walking loop always stops and returns a value in [0, max_index]; arguments outside the documented range raise ValueError instead.", "quantifier": "every seed, rounds, max_index and index", "why_tests_cant": "termination of an unbounded loop cannot be settled by sampling", "anchors": ["grain/_src/python/experimental/index_shuffle/index_shuffle.cc:index_shuffle", "grain/_src/python/experimental/index_shuffle/python/index_shuffle_module.cc"]}
{"id": "C04", "title": "shuffle visits every element exactly once per epoch", "statement": "For every epoch, the indices read from the parent by MapDataset.shuffle at positions epoch*len .. (epoch+1)*len-1 are a permutation of the same epoch of the parent (whenever index_shuffle is a permutation for that size), reading one index again returns the same element, and with reseed_each_epoch=False every epoch uses the same order.", "quantifier": "every parent dataset, seed, epoch and index", "why_tests_cant": "exactly-once over all epochs, sizes and seeds", "anchors": ["grain/_src/python/dataset/transformations/shuffle.py:ShuffleMapDataset"]}
{"id": "C05", "title": "window_shuffle on a MapDataset", "statement": "WindowShuffleMapDataset permutes each complete window of window_size consecutive elements inside itself; an epoch is a permutation of the parent epoch when window_size divides the length (while seed + window number < 2^32; reading a later window raises TypeError). When it does not divide, the last incomplete window reads past the end of the epoch: the code can lose and duplicate elements.", "quantifier": "every length, window size, seed, epoch", "why_tests_cant": "needs all sizes; the failing case depends on the remainder and the seed", "anchors": ["grain/_src/python/dataset/transformations/shuffle.py:WindowShuffleMapDataset"]}
{"id": "C06", "title": "window_shuffle on an iterator", "statement": "WindowShuffleIterDataset outputs each window of window_size consecutive parent elements (the last one possibly shorter) in a permuted order, so the output is a permutation of the input, an element never moves out of its window, and the order depends only on the seed and the window number (for windows for which index_shuffle is a permutation, see C02; a window of 2^k+1 elements, k even and >= 16, loses an element).", "quantifier": "every parent stream, window size, seed and number of elements", "why_tests_cant": "all stream lengths, window boundaries and seeds", "anchors": ["grain/_src/python/dataset/transformations/shuffle.py:_WindowShuffleDatasetIterator", "grain/_src/python/dataset/transformations/shuffle.py:_reshuffle_window"]}
{"id": "C07", "title": "slicing a MapDataset follows Python slicing", "statement": "ds[start:stop:step] has exactly the elements of list(range(len(ds)))[start:stop:step], for positive and negative bounds and steps, and in every epoch of the parent; an empty slice has length 0.", "quantifier": "every length, start, stop, step (including None and negative), index and epoch", "why_tests_cant": "unbounded integer parameters and epochs", "anchors": ["grain/_src/python/dataset/transformations/slice.py:SliceMapDataset"]}
{"id": "C08", "title": "strided sharding partitions a dataset", "statement": "The k slices ds[i::k] for i = 0..k-1 are disjoint, cover all elements, keep their relative order, and reading them round robin gives back ds.", "quantifier": "every length, every k >= 1, every index", "why_tests_cant": "relates all k shards at once for all sizes", "anchors": ["grain/_src/python/dataset/transformations/slice.py:SliceMapDataset", "grain/_src/python/data_loader.py:DataLoader", "grain/_src/python/dataset/transformations/prefetch.py:multithread_prefetch"]}
{"id": "C09", "title": "repeat concatenates epochs", "statement": "RepeatMapDataset(n) has length n*len and element i equals parent element i (parent epoch i // len); with reseed_each_epoch=False it equals parent element i mod len; repeating infinitely gives the same elements at every index.", "quantifier": "every parent, number of epochs, index", "why_tests_cant": "unbounded epochs", "anchors": ["grain/_src/python/dataset/transformations/repeat.py:RepeatMapDataset"]}
{"id": "C10", "title": "concatenate reads the parents one after the other", "statement": "MapDataset.concatenate([d1..dn]) has as elements of an epoch the elements of d1, then d2, ..., each of the same epoch; its length is the sum.", "quantifier": "every list of datasets, every index and epoch", "why_tests_cant": "arbitrary numbers and sizes of parents including empty ones", "anchors": ["grain/_src/python/dataset/transformations/mix.py:ConcatenateMapDataset", "grain/_src/python/dataset/transformations/mix.py:_ConcatSelectionMap"]}
{"id": "C11", "title": "mix consumes each component in order without gaps", "statement": "The i-th time a mixed dataset selects component c it reads key i of component c: no element is skipped, repeated or reordered inside a component.", "quantifier": "every number of components, every positive proportions, every index", "why_tests_cant": "holds along an unbounded index sequence for all weights", "anchors": ["grain/_src/python/dataset/transformations/mix.py:SelectionWithProportionsMap", "grain/_src/python/dataset/transformations/mix.py:_dataset_and_key_of_next_element"]}
{"id": "C12", "title": "mix respects the proportions", "statement": "Over every prefix of length n the number of elements taken from component c deviates from n * p_c / sum(p) by less than a constant that does not depend on n, and over each full period of length sum(p) component c is taken exactly p_c times.", "quantifier": "every proportions vector, every prefix length", "why_tests_cant": "a bound for all prefixes and all weights", "anchors": ["grain/_src/python/dataset/transformations/mix.py:SelectionWithProportionsMap", "grain/_src/python/dataset/transformations/mix.py:_dataset_and_key_of_next_element"]}
{"id": "C13", "title": "mix always selects", "statement": "The selection of the next component always succeeds for positive integer proportions: the loop over components never falls through without choosing.", "quantifier": "every positive proportions vector and every step", "why_tests_cant": "unbounded number of steps and weights", "anchors": ["grain/_src/python/dataset/transformations/mix.py:_dataset_and_key_of_next_element"]}
{"id": "C14", "title": "batch on a MapDataset", "statement": "Concatenating the batches of one epoch of ds.batch(b) gives the elements of that epoch in order (the first len//b*b of them with drop_remainder); every batch but the last has exactly b elements and the last is non-empty.", "quantifier": "every parent length, batch size, drop_remainder and epoch", "why_tests_cant": "all sizes and remainders and epochs", "anchors": ["grain/_src/python/dataset/transformations/batch.py:BatchMapDataset"]}
{"id": "C15", "title": "zip on MapDatasets", "statement": "MapDataset.zip (ZipMapDataset) can be built exactly when there is at least one parent and all have the same length (ValueError otherwise); it has that length and element i is the tuple of the parents' elements i, at every index of every epoch.", "quantifier": "every list of parents, index and epoch", "why_tests_cant": "all lengths and epochs", "anchors": ["grain/_src/python/dataset/transformations/zip.py:ZipMapDataset"]}
{"id": "C16", "title": "flat_map on a MapDataset", "statement": "FlatMapMapDataset with max_fan_out m places piece j of element i at index i*m+j (None when the element has fewer pieces), so the non-None elements of an epoch are the concatenation of the pieces in order, nothing lost.", "quantifier": "every parent, transformation, max_fan_out, epoch", "why_tests_cant": "all fan-outs and lengths", "anchors": ["grain/_src/python/dataset/transformations/flatmap.py:FlatMapMapDataset"]}
{"id": "C17", "title": "batched reads equal single reads", "statement": "For every MapDataset pipeline, ds._getitems(indices) returns [ds[i] for i in indices].", "quantifier": "every pipeline built from the map-style transformations and every list of indices", "why_tests_cant": "quantifies over all pipelines", "anchors": ["grain/_src/python/dataset/dataset.py:MapDataset._getitems", "grain/_src/python/dataset/transformations/mix.py:MixedMapDataset._getitems", "grain/_src/python/dataset/transformations/source.py:SourceMapDataset._getitems", "grain/_src/python/dataset/transformations/batch.py:BatchMapDataset._getitems", "grain/_src/python/dataset/transformations/shuffle.py:ShuffleMapDataset._getitems", "grain/_src/python/dataset/transformations/slice.py:SliceMapDataset._getitems", "grain/_src/python/dataset/transformations/repeat.py:RepeatMapDataset._getitems"]}
{"id": "C18", "title": "random_map depends only on seed and index", "statement": "The generator passed to a random transformation at index i has a state that is a function of (seed, i) only, whatever generators were used before, by whichever thread, and in which order elements are read.", "quantifier": "every history of acquisitions and releases of pooled generators, every user function", "why_tests_cant": "quantifies over schedules and histories", "anchors": ["grain/_src/python/dataset/transformations/map.py:RngPool", "grain/_src/python/dataset/transformations/map.py:RandomMapMapDataset", "grain/_src/python/dataset/transformations/map.py:_RandomMapDatasetIterator"]}
{"id": "C19", "title": "every iterator pipeline can be checkpointed at any point", "statement": "For every pipeline built from sources (map datasets, TFRecord and Parquet files) and the iterator transformations, including packing and prefetching in threads and processes under any schedule, but not interleave (C35), after any history of next(), get_state(), set_state() and process restarts, set_state(s) makes the iterator produce exactly the elements that followed the moment at which s was taken. Pipelines with flat_map, rebatch or cache keep this for states restored into an iterator that has not been used yet; restored into a used one (flat_map, cache), or taken after a last batch that was exactly filled (rebatch), they do not.", "quantifier": "every pipeline, every input, every history of next/save/restore/restart operations, any number of steps", "why_tests_cant": "crash points and histories are unbounded and pipelines compose arbitrarily", "anchors": ["grain/_src/python/dataset/dataset.py:DatasetIterator", "grain/_src/python/dataset/transformations/filter.py", "grain/_src/python/dataset/transformations/batch.py", "grain/_src/python/dataset/transformations/limit.py", "grain/_src/python/dataset/transformations/repeat.py", "grain/_src/python/dataset/transformations/zip.py", "grain/_src/python/dataset/transformations/map.py", "grain/_src/python/dataset/transformations/flatmap.py", "grain/_src/python/dataset/transformations/shuffle.py", "grain/_src/python/dataset/transformations/mix.py", "grain/_src/python/dataset/transformations/prefetch.py"]}
{"id": "C20", "title": "checkpoints survive JSON", "statement": "Serialising the state of an iterator pipeline with json and reading it back (what CheckpointHandler does) restores the same position: JSON makes no difference to any history of operations (for pipelines of transformations whose states are plain data; interleave and concat-then-split lose part of theirs, see C37 and C45).", "quantifier": "every pipeline and every reachable state", "why_tests_cant": "unbounded pipelines and states", "anchors": ["grain/_src/python/checkpoint/handler.py:CheckpointHandler", "grain/_src/python/dataset/dataset.py:DatasetIterator"]}
{"id": "C21", "title": "filter keeps exactly the matching elements in order", "statement": "FilterIterDataset outputs exactly the parent's elements satisfying the predicate, in order; filter on a MapDataset followed by to_iter_dataset outputs the same sequence.", "quantifier": "every predicate and parent", "why_tests_cant": "all predicates and streams", "anchors": ["grain/_src/python/dataset/transformations/filter.py:_FilterDatasetIterator", "grain/_src/python/dataset/transformations/filter.py:FilterMapDataset", "grain/_src/python/dataset/transformations/prefetch.py:PrefetchDatasetIterator"]}
{"id": "C22", "title": "filter threshold checking", "statement": "The filter raises ValueError exactly at a multiple-of-interval check point where the fraction of removed elements reaches the raise threshold; with thresholds disabled it never raises, and the check never changes which elements are returned.", "quantifier": "every sequence of filter outcomes and thresholds", "why_tests_cant": "all sequences of outcomes", "anchors": ["grain/_src/python/dataset/transformations/filter.py:FilterThresholdChecker"]}
{"id": "C23", "title": "batch on an iterator", "statement": "BatchIterDataset groups consecutive elements into batches of exactly batch_size, the last one shorter (or dropped): concatenating batches restores the input.", "quantifier": "every stream, batch size, drop_remainder", "why_tests_cant": "all lengths", "anchors": ["grain/_src/python/dataset/transformations/batch.py:_BatchDatasetIterator"]}
{"id": "C24", "title": "batch_and_pad pads to the batch size", "statement": "batch_and_pad of 1..b elements yields an array of b rows whose first rows are the elements in order and whose rest is the pad value.", "quantifier": "every number of elements, every batch size", "why_tests_cant": "all sizes", "anchors": ["grain/_src/python/dataset/transformations/batch.py:batch_and_pad"]}
{"id": "C25", "title": "limit, zip, map and repeat on iterators", "statement": "limit(n) outputs the first n elements; zip outputs tuples until the shortest ends (strict mode raises when lengths differ); map applies the function in order and map_with_index numbers the elements 0,1,2..; repeat(n) outputs the parent n times, repeat() for ever.", "quantifier": "every stream and parameter", "why_tests_cant": "all lengths and counts, infinite repetition", "anchors": ["grain/_src/python/dataset/transformations/limit.py", "grain/_src/python/dataset/transformations/zip.py:_ZipDatasetIterator", "grain/_src/python/dataset/transformations/map.py", "grain/_src/python/dataset/transformations/repeat.py:_RepeatDatasetIterator"]}
{"id": "C26", "title": "flat_map on an iterator", "statement": "FlatMapIterDataset outputs the concatenation of the transformation's results over the parent's elements, also when some results are empty.", "quantifier": "every stream and transformation", "why_tests_cant": "all streams and fan-outs", "anchors": ["grain/_src/python/dataset/transformations/flatmap.py:_FlatMapDatasetIterator"]}
{"id": "C27", "title": "rebatch regroups without loss", "statement": "RebatchIterDataset outputs batches of exactly batch_size rows (last may be shorter unless drop_remainder) whose concatenation is the concatenation of the input batches, feature by feature; it is the only such list of batches.", "quantifier": "every list of input batch sizes and every output batch size", "why_tests_cant": "all combinations of sizes", "anchors": ["grain/_src/python/dataset/transformations/rebatch.py:_RebatchDatasetIterator"]}
{"id": "C28", "title": "cache is transparent", "statement": "CacheIterDataset outputs the same sequence as its parent on every pass and reads every element of the parent at most once; a state restored in a fresh iterator resumes exactly (into one in use it need not).", "quantifier": "every parent, number of passes and restarts from a checkpoint in a fresh iterator", "why_tests_cant": "histories of passes and restores", "anchors": ["grain/_src/python/dataset/transformations/cache.py"]}
{"id": "C29", "title": "mixing iterators", "statement": "MixedIterDataset outputs elements of its parents selected as for MapDatasets, each parent consumed in order, and stops when the selected parent is exhausted.", "quantifier": "every list of parent streams and proportions", "why_tests_cant": "all streams and weights", "anchors": ["grain/_src/python/dataset/transformations/mix.py:_MixedDatasetIterator"]}
{"id": "C30", "title": "to_iter_dataset reads in order under any buffer size", "statement": "PrefetchDatasetIterator outputs the non-None elements of the MapDataset in index order whatever num_threads and prefetch_buffer_size are and however they are changed during iteration, and its state is the index of the next element to return. (After an element that raises, an iterator with a buffer skips it and its state is one behind.)", "quantifier": "every dataset, buffer size, change of buffer size, history of saves and restores", "why_tests_cant": "buffer sizes and histories are unbounded", "anchors": ["grain/_src/python/dataset/transformations/prefetch.py:PrefetchDatasetIterator"]}
{"id": "C31", "title": "thread prefetch is transparent", "statement": "ThreadPrefetchIterDataset outputs exactly its parent's elements in order, then stops, and its checkpoint taken at any moment corresponds to the last element returned, for every interleaving of producer and consumer, including a restore that happens while the producer is running; no schedule blocks for ever. With size 0 this holds if start_prefetch is not called.", "quantifier": "every schedule of the producer thread and the consumer, every buffer size", "why_tests_cant": "schedules are unbounded", "anchors": ["grain/_src/python/dataset/transformations/prefetch.py:ThreadPrefetchDatasetIterator"]}
{"id": "C32", "title": "process prefetch is transparent", "statement": "The iterator running in a worker process delivers exactly the parent's elements in order through the queue; after set_state no element produced before the restore is ever returned, for every interleaving of worker and consumer, and no schedule blocks for ever. This is for a worker that starts and is not killed, and requests that can be seen by the consumer; otherwise next() or set_state() can hang.", "quantifier": "every schedule of worker process, reader and consumer", "why_tests_cant": "schedules are unbounded", "anchors": ["grain/_src/python/dataset/transformations/process_prefetch.py"]}
{"id": "C33", "title": "multiprocess prefetch preserves order", "statement": "mp_prefetch with n workers outputs the same elements as without workers, in the same order, for a pipeline reading a MapDataset with elementwise transformations (map and random_map; multithread_prefetch too), and checkpoints taken at any moment resume exactly under every schedule. With filter the elements of a worker keep their order but not those of different workers; map_with_index and batch give other elements than without workers.", "quantifier": "every dataset length, number of workers and elementwise pipeline", "why_tests_cant": "all sizes and worker counts", "anchors": ["grain/_src/python/dataset/transformations/process_prefetch.py:multiprocess_prefetch", "grain/_src/python/dataset/transformations/prefetch.py:_set_slice_iter_dataset", "grain/_src/python/dataset/transformations/interleave.py"]}
{"id": "C34", "title": "interleave reads every dataset completely and in order", "statement": "InterleaveIterDataset outputs every element of every dataset exactly once, each dataset's elements in their own order, reads at most cycle_length datasets at a time and visits active datasets in round robin (without datasets next() raises IndexError).", "quantifier": "every list of datasets (including empty ones), every cycle length", "why_tests_cant": "all numbers and sizes of datasets", "anchors": ["grain/_src/python/dataset/transformations/interleave.py:InterleaveDatasetIterator"]}
{"id": "C35", "title": "interleave checkpoints", "statement": "A state taken from an interleave iterator that has never been restored, given to a fresh iterator, continues with exactly the remaining elements. The code breaks this after a restore into a used iterator: slots marked exhausted by an earlier pass are reported as exhausted again (so an interleave repeated twice cannot be resumed in its second epoch), and the saved state shares mutable lists with the iterator.", "quantifier": "every list of datasets, cycle length, point of interruption", "why_tests_cant": "all crash points; aliasing bugs depend on histories", "anchors": ["grain/_src/python/dataset/transformations/interleave.py:InterleaveDatasetIterator.get_state", "grain/_src/python/dataset/transformations/interleave.py:InterleaveDatasetIterator.set_state"]}
{"id": "C36", "title": "elastic reading covers each global batch exactly once", "statement": "With S hosts at global position g, the hosts' local batches for one step of ElasticIterDataset over a MapDataset are disjoint and together are exactly the elements g .. g+B-1; restarting from the checkpoint with another number of hosts continues at the next unread global element. At the end of a dataset whose length is not a multiple of B hosts may disagree on the number of batches.", "quantifier": "every dataset length, global batch size, number of hosts before and after each restart", "why_tests_cant": "all combinations of host counts and restart points", "anchors": ["grain/_src/python/dataset/elastic_iterator.py:_ElasticMapDatasetIterator", "grain/_src/python/dataset/elastic_iterator.py:ElasticIterator"]}
{"id": "C37", "title": "elastic shard states are re-distributed without loss", "statement": "Collecting the shard states of all hosts and redistributing them over another number of hosts gives every shard to exactly one host with its own state, and reading continues with the elements that had not been read, provided every exhausted shard comes before one of the shards that are opened at once; otherwise an exhausted shard is read a second time, and the states of shards not yet opened are lost if the checkpoint passes through JSON. A whole job (any numbers of hosts, one after the other, any amounts read in between) reads every element of every shard exactly once and in order under that condition.", "quantifier": "every number of shards, hosts before and after", "why_tests_cant": "all combinations of counts", "anchors": ["grain/_src/python/dataset/elastic_iterator.py:ElasticIterDatasetIterator", "grain/_src/python/checkpoint/elastic_checkpoint.py"]}
{"id": "C38", "title": "samplers visit records exactly once per epoch over all shards", "statement": "With IndexSampler (or SequentialSampler) the records loaded by all shards in one epoch are all records exactly once (first k*(n//k) records with drop_remainder); with several epochs and uneven shards without drop_remainder this fails.", "quantifier": "every number of records, shards, epochs", "why_tests_cant": "relates all shards and epochs", "anchors": ["grain/_src/python/samplers.py:IndexSampler", "grain/_src/python/samplers.py:SequentialSampler", "grain/_src/python/data_loader.py:DataLoader"]}
{"id": "C39", "title": "DataLoader worker order and state", "statement": "Without workers the DataLoader outputs the sampled records with the operations applied in the given order; with W workers its output is the round robin over the W strided parts, each with the operations applied to it, which for operations acting on records one by one is the same for every worker count (batches and filters are made per worker). Its state (last_seen_indices, last_worker_index) identifies the position exactly: for every history of next, get_state, set_state and restarts under every schedule, restoring continues with the next element. A state of a loader with another number of workers, sampler or source is rejected.", "quantifier": "every sampler length, worker count, shard and number of elements read", "why_tests_cant": "all positions, worker counts and shards", "anchors": ["grain/_src/python/data_loader.py:_DataLoaderStateDatasetIterator", "grain/_src/python/data_loader.py:DataLoaderIterator"]}
{"id": "C40", "title": "packing keeps every token", "statement": "First-fit and best-fit packing place each feature of each element whole and unchanged in one row of one emitted batch, at increasing offsets, without overlap; segment ids and positions describe exactly the placed elements, so unpacking recovers the multiset of elements and, within a row, their order; which row an element gets is determined by the first-fit or best-fit rule.", "quantifier": "every stream of elements, length structure, number of bins and alignment", "why_tests_cant": "all element lengths and streams", "anchors": ["grain/_src/python/dataset/transformations/packing_packed_batch.py:FirstFitPackedBatch", "grain/_src/python/dataset/transformations/packing_packed_batch.py:BestFitPackedBatch", "grain/_src/python/dataset/transformations/packing.py:PackingDatasetIterator"]}
{"id": "C41", "title": "packing never overflows a row", "statement": "No row of a packed batch exceeds its length, each bin respects max_sequences_per_bin (best-fit: for elements with some non-empty feature), and an element with a feature longer than its row raises ValueError.", "quantifier": "every stream of elements and length structure", "why_tests_cant": "all element lengths", "anchors": ["grain/_src/python/dataset/transformations/packing_packed_batch.py"]}
{"id": "C42", "title": "packing checkpoints", "statement": "A checkpoint taken between any two rows of a packed batch restores the same remaining rows in the same shuffled order and then continues with the following batches.", "quantifier": "every stream, crash point inside a batch, seed", "why_tests_cant": "all crash points", "anchors": ["grain/_src/python/dataset/transformations/packing.py:PackingDatasetIterator"]}
{"id": "C43", "title": "concat-then-split preserves the token stream", "statement": "For one feature, the concatenation of the rows of ConcatThenSplitIterDataset without padding equals the concatenation of the input elements, and every row but the last is full; segment ids number the pieces of a row. Positions count inside each piece: they start at 0 again in the rest of a split element, contrary to the documentation.", "quantifier": "every stream of element lengths and every sequence length", "why_tests_cant": "all lengths", "anchors": ["grain/_src/python/dataset/transformations/packing_concat_then_split.py"]}
{"id": "C44", "title": "concat-then-split with several features", "statement": "With several features, every row is filled with consecutive pieces of the elements and, feature by feature, the rows without padding are the concatenation of the input, if no feature of an element is longer than a row. With a longer feature tokens may be emitted twice; a scalar of a split element is emitted twice; and with BOS tokens a row in which one feature is full raises IndexError.", "quantifier": "existence over streams; the positive statement ranges over all streams meeting the guard", "why_tests_cant": "depends on particular length combinations", "anchors": ["grain/_src/python/dataset/transformations/packing_concat_then_split.py:_maybe_add_to_buffer"]}
{"id": "C45", "title": "concat-then-split checkpoints", "statement": "Restoring the in-memory state continues with exactly the remaining rows, for every history of next, save, restore and restart; a state passed through JSON turns the empty-slice marker tuple into a list and silently drops the next element.", "quantifier": "every crash point; existence for the JSON failure", "why_tests_cant": "all crash points and serialisation", "anchors": ["grain/_src/python/dataset/transformations/packing_concat_then_split.py:set_state", "grain/_src/python/checkpoint/handler.py"]}
{"id": "C46", "title": "variable size queues bound the number of buffered elements", "statement": "A queue with a changeable maximum size keeps the order of its elements, never holds more than the largest maximum in force since the last time it was within bounds, and neither loses capacity nor a wake-up: a put waits only while the queue is full; growing while a previous shrink is pending lets VariableSizeMultiprocessingQueue exceed its current maximum.", "quantifier": "every interleaving of put, get and set_max_size", "why_tests_cant": "schedules are unbounded", "anchors": ["grain/_src/python/ipc/variable_size_queue.py"]}
{"id": "C47", "title": "TFRecord reading round trip", "statement": "Reading a file written as length, checksum, data, checksum records returns exactly the records in order; the checkpoint offset taken after any record resumes at the next one; a truncated file raises instead of returning a short record.", "quantifier": "every list of records, every truncation point, every crash point", "why_tests_cant": "all contents and crash points", "anchors": ["grain/_src/python/dataset/sources/tfrecord_dataset.py"]}
{"id": "C48", "title": "Parquet reading", "statement": "The parquet iterator returns all rows of all row groups in order and its state (row_group, index) resumes at the next row, including empty row groups.", "quantifier": "every list of row groups and crash point", "why_tests_cant": "all contents and crash points", "anchors": ["grain/_src/python/dataset/sources/parquet_dataset.py"]}
{"id": "C49", "title": "dataset options merge deterministically", "statement": "Merging options takes for each field the first explicitly set value (the one closest to the output), is associative and has the default as neutral element, so the result does not depend on how nested with_options are grouped.", "quantifier": "every list of options", "why_tests_cant": "associativity over all options", "anchors": ["grain/_src/python/dataset/base.py:DatasetOptions.merge"]}
{"id": "C50", "title": "seeds are derived from the nearest explicit seed", "statement": "The default seed of a transformation depends only on the seeds set upstream and its position; an explicit seed replaces it (and hides the seeds upstream of it); the same pipeline gives the same seeds in every process; without any seed a transformation that needs one raises ValueError.", "quantifier": "every pipeline graph", "why_tests_cant": "all pipelines", "anchors": ["grain/_src/python/dataset/dataset.py:_WithOptions", "grain/_src/python/dataset/dataset.py:_get_default_seed"]}
{"id": "C51", "title": "tree structure helpers", "statement": "flatten and unflatten_as are inverse, map_structure applies the function leaf by leaf preserving structure and composes; paths name the leaves; assert_same_structure accepts exactly equal structures when checked in both directions. (The implementation without jax: sequences of different lengths are cut instead of rejected, keys keep their own order, and the check is one-way.)", "quantifier": "every nested structure", "why_tests_cant": "all nestings", "anchors": ["grain/_src/core/tree_lib.py"]}
{"id": "C52", "title": "checkpoint files", "statement": "CheckpointHandler writes one file per process and restores from it the state saved by the same process; a different process count makes restore fail instead of silently mixing states; the elastic handler gives each shard file to exactly one host; a crash while saving never yields a state that no process saved. An elastic checkpoint that is incomplete, or mixed with older files, is not noticed.", "quantifier": "every process count, every pair of saving and restoring counts", "why_tests_cant": "all process counts", "anchors": ["grain/_src/python/checkpoint/handler.py", "grain/_src/python/checkpoint/elastic_checkpoint.py"]}
{"id": "C53", "title": "run_in_parallel keeps argument order", "statement": "The results of run_in_parallel are in the order of the arguments whatever the completion order, and an exception of any call is raised; never more than num_workers calls run at once and none runs after it has returned.", "quantifier": "every completion order", "why_tests_cant": "schedules", "anchors": ["grain/_src/core/parallel.py"]}
{"id": "C54", "title": "range data sources behave like Python range", "statement": "RangeDataSource and MapDataset.range have the length and elements of Python's range for all start, stop, step.", "quantifier": "every start, stop and step", "why_tests_cant": "unbounded integers", "anchors": ["grain/_src/python/data_sources.py:RangeDataSource", "grain/_src/python/dataset/transformations/source.py:RangeMapDataset"]}
{"id": "C55", "title": "legacy operations and transformations agree", "statement": "The legacy operations (map, filter, batch operation) used by DataLoader act on the record stream like the dataset transformations, with the same checkpoints in fresh iterators, and keep record metadata aligned with the data; a record that FlatMap splits gives records with distinct indices. Restoring into a finished iterator, or going on after an exception, works for transformations and not for operations; after FlatMap the records have no random generator.", "quantifier": "every stream of records", "why_tests_cant": "all streams", "anchors": ["grain/_src/python/operations.py", "grain/_src/python/data_loader.py:_apply_transform_to_dataset"]}
{"id": "C56", "title": "record metadata identifies the read and its generator", "statement": "A record read through IndexSampler or SequentialSampler carries its global index and (with a seed) a random generator that depends on nothing but the seed and that index; two different reads, of one shard or of different shards of a loader, never get the same generator.", "quantifier": "every dataset size, shard count and index, seed, position, epoch, shuffled or not", "why_tests_cant": "pairs of reads over all shards and epochs", "anchors": ["grain/_src/python/samplers.py:IndexSampler", "grain/_src/python/samplers.py:SequentialSampler", "grain/_src/python/data_loader.py:_SamplerMapDataset"]}
{"id": "C57", "title": "the legacy packing operation", "statement": "PackAndBatchOperation emits, for every input of records whose features fit in a row, the batches that first fit makes: every record is in exactly one row of one batch, a batch holds consecutive records, the records of a row are in order, and the batch carries the metadata of its last record, so that an operation starting after that record gives the batches that follow. A record that does not fit raises ValueError after the complete batches. Exceptions: without any record it raises AttributeError; with no rows or no allowed sequences AssertionError; an operation object used a second time emits its last batch again.", "quantifier": "every list of records, features, batch size and bound on the sequences of a row", "why_tests_cant": "unbounded inputs; every batch boundary is a restart point", "anchors": ["grain/_src/python/experimental/example_packing/packing.py:PackAndBatchOperation"]}
{"id": "C58", "title": "sequential slices of mp_prefetch", "statement": "With sequential_slice=True, for a MapDataset made of a source, map and filter and a pipeline treating elements one by one, worker i reads the i-th of W consecutive, nearly equal parts and nothing else; the output is the round robin of what the workers make of their parts, every element comes exactly once, and checkpoints are positions in this output. A shuffle in the MapDataset shuffles each part. Exceptions: slice, repeat, batch and concatenate in the MapDataset keep lengths computed before slicing, so elements outside the slice come, elements come again, or reading fails; a source object used twice is sliced twice and loses elements; MapDataset.random_map uses the same generators in all workers.", "quantifier": "every source, dataset of these transformations, pipeline, number of workers, buffer size and schedule", "why_tests_cant": "unbounded sizes and numbers of workers; all schedules of the processes", "anchors": ["grain/_src/python/dataset/transformations/source.py:SourceMapDataset.set_slice", "grain/_src/python/dataset/transformations/source.py:RangeMapDataset.set_slice", "grain/_src/python/dataset/transformations/prefetch.py:_set_slice_map_dataset", "grain/_src/python/dataset/transformations/process_prefetch.py:multiprocess_prefetch"]}
{"id": "C59", "title": "load", "statement": "grain.load without transformations gives, whatever the number of workers, the records of the shard once per epoch (in order when not shuffled, else each epoch a permutation), with a batch size groups of them: without drop_remainder no record is missing, with it all batches are full and each worker leaves out fewer records than make a batch. Every history of next, get_state, set_state and new iterators follows this list. No records, no epochs, shuffling without a seed and seeds outside 32 bits raise ValueError. Exception: with drop_remainder the number of batches depends on the number of workers, and there may be none.", "quantifier": "every source, sharding, number of epochs, seed, batch size, number of workers and history", "why_tests_cant": "unbounded sizes; all combinations of arguments; all histories", "anchors": ["grain/_src/python/load.py:load"]}
{"id": "C60", "title": "device_put", "statement": "grain.experimental.device_put gives the elements of the dataset, each put on the device, in order; checkpoints behave like a cursor. Negative buffer sizes raise ValueError.", "quantifier": "every dataset, pair of buffer sizes, schedule of the two threads and history", "why_tests_cant": "all schedules of two buffering threads and all histories", "anchors": ["grain/_src/python/experimental/device_put/device_put.py:device_put"]}
{"id": "C61", "title": "elements through shared memory", "statement": "An element sent through shared memory arrives with the same structure and the same arrays; existing segments are unchanged; deleting the received arrays in any order, or discarding the element unopened, frees each of its segments exactly once and no others. Exceptions: a view into a SharedMemoryArray arrives as the start of its segment; a SharedMemoryArray that occurs twice in an element is freed twice.", "quantifier": "every structure, threshold, set of existing segments and order of deletion", "why_tests_cant": "unbounded structures; all orders", "anchors": ["grain/_src/python/ipc/shared_memory_array.py:copy_to_shm", "grain/_src/python/ipc/shared_memory_array.py:open_from_shm", "grain/_src/python/ipc/shared_memory_array.py:unlink_shm"]}
{"id": "C62", "title": "batches in shared memory and with a thread pool", "statement": "For values of equal element types (or strings, or objects) and non-empty arrays, batching into shared memory gives the batch that np.stack gives, or the same exception, each new segment belongs to exactly one array of the batch. So does batching with a thread pool for values of equal shapes, in whatever order it runs the copies. Exceptions: mixed types are cast to the first value's type (silently, or TypeError), empty arrays raise ValueError, a failed batch leaves segments nobody owns, the thread pool casts and broadcasts where np.stack promotes or refuses.", "quantifier": "every list of columns, numpy satisfying four laws, threshold and order of the tasks", "why_tests_cant": "unbounded batches; all orders of the tasks", "anchors": ["grain/_src/python/dataset/transformations/batch.py:make_batch", "grain/_src/python/dataset/transformations/batch.py:_MakeBatchParallel"]}
{"id": "C63", "title": "who frees the shared memory", "statement": "While elements travel from a worker process through shared memory, every existing segment has at every moment exactly one owner (the worker, an element in the buffer, an array of the user, a deletion under way), no segment is freed twice or opened after it was freed, and at most buffer_size elements wait. When close has returned (or next has raised), only the user's arrays and deletions under way remain; close ends after a bounded number of steps of all processes, and when the user's arrays are deleted no segment exists. Exceptions: a killed worker, and an iterator whose get_state raises, leave segments behind.", "quantifier": "every interleaving of worker, consumer, deletions and their threads; every buffer size; errors, restarts and close at any point", "why_tests_cant": "all interleavings of two processes and a deletion thread", "anchors": ["grain/_src/python/dataset/transformations/process_prefetch.py:_put_dataset_elements_in_buffer", "grain/_src/python/dataset/transformations/process_prefetch.py:ProcessPrefetchDatasetIterator", "grain/_src/python/ipc/shared_memory_array.py:SharedMemoryArray"]}
{"id": "C64", "title": "the index of the next element", "statement": "get_next_index is the number of elements before the position of the iterator and set_next_index moves it there without reading, consistently with next, checkpoints and new iterators in any order, for iterators made of a MapDataset, map, map_with_index, random_map, batch, limit and thread prefetch, whatever their threads do; after set_next_index(i) elements, random generators and counters are those of position i. Exceptions: after a filter on the MapDataset the index counts the elements before the filter and batches found by index are different ones; a short last batch: the index at the end cannot be set and the failed attempt breaks the iterator; with drop_remainder the index after the end is one too large.", "quantifier": "every dataset, composition of these transformations, schedule of the threads and history", "why_tests_cant": "all histories and schedules", "anchors": ["grain/_src/python/dataset/dataset.py:get_next_index", "grain/_src/python/dataset/dataset.py:set_next_index", "grain/_src/python/dataset/transformations/prefetch.py:ThreadPrefetchDatasetIterator", "grain/_src/python/dataset/transformations/batch.py:_BatchDatasetIterator"]}
{"id": "C65", "title": "the element spec", "statement": "When get_element_spec gives a spec for a pipeline, every element the pipeline produces, read at any index or by any history of next, get_state, set_state and new iterators, has the structure of the spec and, at each leaf, an array of its element type, rank and known sizes; batches with drop_remainder and rebatched elements have the batch size in their spec. This needs output_spec methods that are right, equal specs for mixed and interleaved datasets, no None in zipped ones. Exceptions: the last batch of rebatch without drop_remainder is smaller than the spec says; mixed datasets with different specs; None in zipped datasets.", "quantifier": "every pipeline of any of the transformations, every index, every history", "why_tests_cant": "pipelines of any depth; all histories", "anchors": ["grain/_src/python/dataset/dataset.py:get_element_spec", "grain/_src/python/dataset/transformations/batch.py:_get_batch_element_spec", "grain/_src/python/dataset/transformations/rebatch.py:RebatchIterDataset._element_spec", "grain/_src/python/dataset/transformations/map.py", "grain/_src/python/dataset/transformations/zip.py", "grain/_src/python/dataset/transformations/mix.py"]}
{"id": "C66", "title": "the execution summary shows the pipeline", "statement": "The execution summary has exactly one node per transformation, connected the way the pipeline is, numbered from the output; interleaved iterators are added up to one, and the pipeline of a worker is the input of the prefetch. Each node shows the sums of the elements, times and bytes recorded for it, and the least and greatest time per element; the average lies between them. This needs interleaves and worker processes below the last parent only, and interleaved iterators connected alike. Exceptions: an interleave followed by another input loses its nodes; interleaved iterators with equal node counts but different transformations are added together.", "quantifier": "every pipeline of transformations, interleaves and workers, every history of records and reports", "why_tests_cant": "pipelines of any depth and width", "anchors": ["grain/_src/python/dataset/stats.py:_build_execution_summary", "grain/_src/python/dataset/stats.py:report", "grain/_src/python/dataset/stats_utils.py:merge_execution_summaries", "grain/_src/python/dataset/stats_utils.py:get_complete_summary"]}
{"id": "C67", "title": "the shares of the waiting time", "statement": "In the execution summary, transformations that run one after the other share the waiting time in proportion to the time they took, and the share of a prefetch goes to the transformations it runs in the background; the shares sum up to 1, up to one rounding per node. The summary that is logged is sorted by the share, and a slow source is warned of exactly when the node with the largest share is a source. Exception: when nothing was recorded below a prefetch its share is lost.", "quantifier": "every pipeline, all recorded times, every rounding with bounded error", "why_tests_cant": "pipelines of any depth and width, all times", "anchors": ["grain/_src/python/dataset/stats.py:_compute_wait_time_ratio", "grain/_src/python/dataset/stats.py:_populate_wait_time_ratio", "grain/_src/python/dataset/stats_utils.py:sort_nodes_by_wait_time_ratio", "grain/_src/python/dataset/stats_utils.py:analyze_summary"]}
{"id": "C68", "title": "closing an iterator", "statement": "close stops every thread pool, prefetching thread and worker process that the iterators of the pipeline (the iterator and, recursively, its parents) have started, whatever was done before, and nothing that is done afterwards starts them again; calling it again has no effect; in a pipeline over a MapDataset with mapping, filtering, batching, zipping and prefetching threads every later next raises ValueError, and with limit, repeat, mix and worker processes as well no later next gives an element. Exceptions: transformations that keep elements go on with them, an iterator that reads a file itself goes on, and one that has already stopped raises StopIteration instead.", "quantifier": "all pipelines built from sixteen kinds of iterators, all schedules of the threads and processes, all histories of next, get_state, set_state and close", "why_tests_cant": "depends on what each iterator of the pipeline does after close and on what was prefetched when it was called", "anchors": ["grain/_src/python/dataset/dataset.py:DatasetIterator.close", "grain/_src/python/dataset/transformations/prefetch.py:PrefetchDatasetIterator.close", "grain/_src/python/dataset/transformations/prefetch.py:ThreadPrefetchDatasetIterator.close", "grain/_src/python/dataset/transformations/process_prefetch.py:ProcessPrefetchDatasetIterator.close"]}
{"id": "C69", "title": "performance configurations keep to the memory budget", "statement": "pick_performance_config gives the largest number of workers for which that many output elements fit into ram_budget_mb, and the largest buffer size for which that many elements of every prefetched dataset together fit into it (by the mean size of the first samples_to_check elements), but not more than the given maxima. Exceptions: with fewer elements than samples_to_check the budget is ignored and the maxima are taken; short datasets among the prefetched ones get too little weight; ram_budget_mb=None raises TypeError.", "quantifier": "all pipelines, element structures and sizes, budgets, maxima and numbers of samples", "why_tests_cant": "depends on the sizes of the elements and on the shape of the pipeline", "anchors": ["grain/_src/python/dataset/transformations/prefetch_autotune.py:pick_performance_config"]}
{"id": "C70", "title": "elastic jobs with transformations and batches", "statement": "Hosts that read the shards of an interleave through transformations (map, filter, batch, and the batches of global_batch_size / shard_count elements that ElasticIterator adds), saved and restored any number of times with any numbers of hosts that divide the global batch size, read every element of every shard exactly once, in the order of the shard, and give exactly what the transformations make of what they read; a number of hosts that does not divide the global batch size raises ValueError. Exceptions: under flat_map, window_shuffle and limit a change of the number of hosts loses elements or gives too many, because the states of the shards do not contain the states of the transformations.", "quantifier": "all lawful shards, transformations of the given kinds, batch sizes, cycle lengths, numbers of hosts, numbers of steps of every host, and histories of saves and restores", "why_tests_cant": "depends on the numbers of hosts and on where each host is when the job is saved", "anchors": ["grain/_src/python/dataset/elastic_iterator.py:ElasticIterDatasetIterator", "grain/_src/python/checkpoint/elastic_checkpoint.py", "grain/_src/python/dataset/transformations/batch.py:_BatchDatasetIterator", "grain/_src/python/dataset/transformations/flatmap.py:_FlatMapDatasetIterator"]}
{"id": "C71", "title": "Reading interleaved files in worker processes", "statement": "mp_prefetch over an InterleaveIterDataset gives each worker every W-th dataset; the output is the round robin of the workers' round robins, with every element of every dataset exactly once and each dataset's elements in its own order, for every buffer size and scheduling of the processes and threads. Checkpoints restored into new iterators continue exactly, if there is one worker or every worker has at least cycle_length datasets and all datasets' iterators start in the same state.", "quantifier": "all datasets that keep the iterator contract, all numbers of workers up to the number of datasets, cycle lengths, buffer sizes, schedules of processes and threads, and all histories of next, get_state, new iterators and set_state", "why_tests_cant": "Which element comes next depends on how many elements every file still has and on when every process delivers; a checkpoint can be taken before some workers have delivered their first element, a state that tests of one pipeline do not reach.", "anchors": ["grain/_src/python/dataset/transformations/process_prefetch.py:multiprocess_prefetch", "grain/_src/python/dataset/transformations/process_prefetch.py:_LazyWorkerSliceIterDataset", "grain/_src/python/dataset/transformations/process_prefetch.py:ProcessPrefetchDatasetIterator.get_state", "grain/_src/python/dataset/transformations/interleave.py:InterleaveIterDataset.set_slice", "grain/_src/python/dataset/transformations/interleave.py:InterleaveDatasetIterator"]}
{"id": "C72", "title": "DataLoader with FlatMap", "statement": "A DataLoader whose operations contain FlatMap outputs, without workers, what the operations make of the shard's records in order, where FlatMap puts the records returned by the user's function in place of its argument; with W workers, worker i does so for the records i, i+W, ... and the outputs are taken in turns, and without Batch the elements are the same as without workers. A state restored into a new iterator continues exactly, also in the middle of the records of one FlatMap. Unlike other loaders it does not reject states of other loaders, and a state restored into an iterator at its end may give records again.", "quantifier": "all sources, samplers, shards, lists of Map, RandomMap, Filter, Batch and FlatMap operations with all user functions, numbers of workers, buffer sizes, schedules, and all histories of next, get_state, new iterators and set_state", "why_tests_cant": "The number of output records per input record is decided by the user's function; every position inside every group of split records, with every number of workers, is a possible checkpoint.", "anchors": ["grain/_src/python/data_loader.py:DataLoader._create_dataset", "grain/_src/python/data_loader.py:_FlatMapAdapter", "grain/_src/python/data_loader.py:DataLoaderIterator", "grain/_src/python/dataset/transformations/flatmap.py:_FlatMapDatasetIterator"]}
{"id": "C73", "title": "what ElasticIterator accepts and which shards a host reads", "statement": "ElasticIterator accepts an IterDataset exactly when no multiprocessing options are given, no zip, mix, prefetch or MapDataset.filter is anywhere among the datasets it was made from, and it ends in an interleave or a ParquetIterDataset; a MapDataset exactly when it has no filter. Otherwise the constructor raises ValueError (NotImplementedError for multiprocessing options). Host h of k then reads the shards h, h+k, h+2k, ... and every shard is read by exactly one host; the first use raises ValueError if a positive global batch size is not a multiple of k, if a worker process is between the iterator and the shards, or if the host has exactly one file of a ParquetIterDataset. The number of read threads has no effect. With mp_prefetch on top everything is accepted and hosts share the workers.", "quantifier": "all graphs of datasets that the classes of the library can form, of any depth and width, all numbers of hosts, files, workers and threads, and all global batch sizes", "why_tests_cant": "Dataset graphs are unbounded; whether the loop over the graph meets every dataset, and which combinations of files and hosts fail, is not visible from the few pipelines of a test.", "anchors": ["grain/_src/python/dataset/elastic_iterator.py:_verify_transformations_supported", "grain/_src/python/dataset/elastic_iterator.py:_find_sliceable_dataset", "grain/_src/python/dataset/elastic_iterator.py:_find_sliceable_iterator", "grain/_src/python/dataset/elastic_iterator.py:ElasticIterator.__init__", "grain/_src/python/dataset/transformations/prefetch.py:_set_slice_iter_dataset", "grain/_src/python/dataset/sources/parquet_dataset.py:ParquetIterDataset"]}
{"id": "C74", "title": "options in worker processes, threads and interleaved datasets", "statement": "With mp_prefetch (or multithread_prefetch) anywhere in a pipeline, every transformation in every worker and after it sees, for each dataset option, the value set closest to the output, or the default: the same as without workers, if no two parents of one dataset set the option differently. Options set after an interleave reach all interleaved datasets and win over theirs; options set in an interleaved dataset apply in this dataset only.", "quantifier": "all pipelines of transformations with any number of parents and options set anywhere, all numbers of workers and of interleaved datasets, all further transformations and options after them", "why_tests_cant": "The options travel through shared contexts, a search of the dataset graph and copies in other processes; a test sees a few pipelines, and the order in which branches are searched only matters where they disagree.", "anchors": ["grain/_src/python/dataset/transformations/prefetch.py:get_dataset_options", "grain/_src/python/dataset/transformations/process_prefetch.py:multiprocess_prefetch", "grain/_src/python/dataset/transformations/process_prefetch.py:ProcessPrefetchDatasetIterator", "grain/_src/python/dataset/transformations/prefetch.py:multithread_prefetch", "grain/_src/python/dataset/transformations/interleave.py:InterleaveDatasetIterator", "grain/_src/python/dataset/dataset.py:WithOptionsIterDataset"]}
{"id": "C75", "title": "mp_prefetch and the dataset it is applied to", "statement": "mp_prefetch with at most one worker leaves all existing datasets as they are. With two or more workers the dataset it is called on, if it is a batch, and every dataset with the same batch function object make their batches in shared memory from then on, also when they are read without workers; no other dataset changes. Under the conditions under which batching into shared memory gives what np.stack gives (C62) their output is the same as before. A worker process changes nothing itself.", "quantifier": "all sets of dataset objects and batch functions, shared or not, all numbers of workers, all batches", "why_tests_cant": "Whether a call changes objects that other pipelines hold depends on the objects that exist; a test compares the output of the new dataset, not of all datasets that existed before.", "anchors": ["grain/_src/python/dataset/transformations/process_prefetch.py:multiprocess_prefetch", "grain/_src/python/dataset/transformations/batch.py:BatchIterDataset.enable_shared_memory_output", "grain/_src/python/dataset/transformations/batch.py:make_batch", "grain/_src/python/dataset/base.py:SupportsSharedMemoryOutput"]}
{"id": "C76", "title": "queues between threads that may be told to stop", "statement": "Of all calls of add_element_to_queue and get_element_from_queue on one queue by any threads: the elements whose addition returned True are, in this order, those that were taken out followed by those in the queue, at any time, so nothing is lost, doubled or overtaken, also when timeouts and a stop fall in between; the queue never holds more than maxsize. A call gives up (False, SYSTEM_TERMINATED) only if should_stop() was true at some time. get_async_result returns a result of its job. Each call returns once. Once should_stop() stays true every call returns within two steps of its thread, whether the queue is full or empty.", "quantifier": "all numbers of threads and calls, all queue sizes, all schedules of the threads, all moments at which timeouts pass, should_stop() changes and jobs become ready", "why_tests_cant": "The schedules are unbounded; a lost element or a thread that does not stop shows only under one interleaving of timeout, stop and another thread.", "anchors": ["grain/_src/python/ipc/queue.py:add_element_to_queue", "grain/_src/python/ipc/queue.py:get_element_from_queue", "grain/_src/python/ipc/queue.py:get_async_result"]}
