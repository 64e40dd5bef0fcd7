(** Axioms used by each property theorem (generated by tools/gen_manifest.py). *)
From Verif Require Prop_Map Prop_Source Prop_Iter Prop_Rng Prop_Sampler Prop_Queue Prop_Options Prop_Parallel Prop_Tree Prop_Elastic Prop_Interleave Prop_Packing Prop_ConcatSplit Prop_Prefetch Prop_ProcessPrefetch Prop_Multiprocess Prop_DataLoader Prop_Operations Prop_PackOperation Prop_SequentialSlice Prop_Load Prop_DevicePut Prop_SharedMemory Prop_ShmProtocol Prop_NextIndex Prop_ElasticJob Prop_ElementSpec Prop_ExecutionSummary Prop_Close Prop_PerfConfig Prop_ElasticPipe Prop_MpInterleave Prop_LoaderFlat Prop_ElasticGraph Prop_OptionsMp Prop_MpShared Prop_StopQueue.
Print Assumptions Prop_Map.C01_even_split_covers.
Print Assumptions Prop_Map.C01_even_split_sizes.
Print Assumptions Prop_Map.C01_even_split_drop_remainder.
Print Assumptions Prop_Map.C01_shard_options.
Print Assumptions Prop_Map.C02_index_shuffle_permutation.
Print Assumptions Prop_Map.C02_index_shuffle_refuted.
Print Assumptions Prop_Map.C03_index_shuffle_terminates.
Print Assumptions Prop_Map.C03_index_shuffle_rejects.
Print Assumptions Prop_Map.C04_shuffle_permutes_each_epoch.
Print Assumptions Prop_Map.C04_shuffle_seed_range.
Print Assumptions Prop_Map.C04_shuffle_refuted.
Print Assumptions Prop_Map.C05_window_permuted.
Print Assumptions Prop_Map.C05_window_shuffle_epoch.
Print Assumptions Prop_Map.C05_window_seed_overflow.
Print Assumptions Prop_Map.C05_window_shuffle_refuted.
Print Assumptions Prop_Map.C07_slice_is_python_slice.
Print Assumptions Prop_Map.C07_slice_total.
Print Assumptions Prop_Map.C07_reindex.
Print Assumptions Prop_Map.C08_shards_partition.
Print Assumptions Prop_Map.C08_shards_round_robin.
Print Assumptions Prop_Map.C08_shards_exist.
Print Assumptions Prop_Map.C09_repeat_epochs.
Print Assumptions Prop_Map.C09_repeat_index.
Print Assumptions Prop_Map.C10_concatenate.
Print Assumptions Prop_Map.C10_concatenate_total.
Print Assumptions Prop_Map.C11_mix_reads_in_order.
Print Assumptions Prop_Map.C11_mix_stays_inside.
Print Assumptions Prop_Map.C12_mix_proportions_prefix.
Print Assumptions Prop_Map.C12_mix_proportions_period.
Print Assumptions Prop_Map.C13_mix_always_selects.
Print Assumptions Prop_Map.C13_mix_constructible.
Print Assumptions Prop_Map.C14_batch.
Print Assumptions Prop_Map.C14_groups_concat.
Print Assumptions Prop_Map.C14_groups_sizes.
Print Assumptions Prop_Map.C14_full_groups_sizes.
Print Assumptions Prop_Map.C14_batch_valid.
Print Assumptions Prop_Map.C15_zip.
Print Assumptions Prop_Map.C15_zip_valid.
Print Assumptions Prop_Map.C16_flat_map.
Print Assumptions Prop_Map.C16_flat_map_position.
Print Assumptions Prop_Map.C17_batched_reads.
Print Assumptions Prop_Map.C24_batch_and_pad.
Print Assumptions Prop_Map.C24_batch_and_pad_size.
Print Assumptions Prop_Map.C54_range_dataset.
Print Assumptions Prop_Map.C54_range_source.
Print Assumptions Prop_Map.C54_range_worker_slices.
Print Assumptions Prop_Map.C54_range_worker_slices_exist.
Print Assumptions Prop_Source.C47_tfrecord.
Print Assumptions Prop_Source.C47_truncated.
Print Assumptions Prop_Source.C48_parquet.
Print Assumptions Prop_Source.C48_open.
Print Assumptions Prop_Iter.C06_window_shuffle.
Print Assumptions Prop_Iter.C06_window_shuffle_permutes.
Print Assumptions Prop_Iter.C06_window_shuffle_refuted.
Print Assumptions Prop_Iter.C19_pipelines_checkpointable.
Print Assumptions Prop_Iter.C19_pipelines_output.
Print Assumptions Prop_Iter.C19_flat_map_refuted.
Print Assumptions Prop_Iter.C19_rebatch_refuted.
Print Assumptions Prop_Iter.C19_cache_refuted.
Print Assumptions Prop_Iter.C20_json_makes_no_difference.
Print Assumptions Prop_Iter.C21_filter.
Print Assumptions Prop_Iter.C21_filter_map_or_iter.
Print Assumptions Prop_Iter.C22_no_window_reaches_threshold.
Print Assumptions Prop_Iter.C22_first_window_reaching_threshold.
Print Assumptions Prop_Iter.C22_map_no_window.
Print Assumptions Prop_Iter.C22_map_first_window.
Print Assumptions Prop_Iter.C22_check_is_transparent.
Print Assumptions Prop_Iter.C23_batch.
Print Assumptions Prop_Iter.C23_batch_valid.
Print Assumptions Prop_Iter.C23_batches_restore_input.
Print Assumptions Prop_Iter.C25_limit.
Print Assumptions Prop_Iter.C25_zip.
Print Assumptions Prop_Iter.C25_zip_rows.
Print Assumptions Prop_Iter.C25_zip_strict.
Print Assumptions Prop_Iter.C25_zip_strict_mismatch.
Print Assumptions Prop_Iter.C25_map.
Print Assumptions Prop_Iter.C25_map_with_index.
Print Assumptions Prop_Iter.C25_repeat.
Print Assumptions Prop_Iter.C25_repeat_forever.
Print Assumptions Prop_Iter.C25_valid.
Print Assumptions Prop_Iter.C26_flat_map.
Print Assumptions Prop_Iter.C27_rebatch.
Print Assumptions Prop_Iter.C27_rebatched_unique.
Print Assumptions Prop_Iter.C28_cache.
Print Assumptions Prop_Iter.C28_cache_passes.
Print Assumptions Prop_Iter.C28_cache_reads_once.
Print Assumptions Prop_Iter.C29_mixed.
Print Assumptions Prop_Iter.C29_mixture_unique.
Print Assumptions Prop_Iter.C29_mixed_prefix.
Print Assumptions Prop_Iter.C29_consumed_in_order.
Print Assumptions Prop_Iter.C30_reads_in_order.
Print Assumptions Prop_Iter.C30_state_is_next_index.
Print Assumptions Prop_Iter.C30_after_exception_refuted.
Print Assumptions Prop_Rng.C18_values_depend_on_seed_and_index.
Print Assumptions Prop_Rng.C18_generator_is_private.
Print Assumptions Prop_Rng.C18_iterator.
Print Assumptions Prop_Sampler.C38_sequential.
Print Assumptions Prop_Sampler.C38_index_sampler_epoch.
Print Assumptions Prop_Sampler.C38_index_sampler_length.
Print Assumptions Prop_Sampler.C38_index_sampler_refuted.
Print Assumptions Prop_Sampler.C38_empty_shard_refuted.
Print Assumptions Prop_Sampler.C38_loader_sharding.
Print Assumptions Prop_Sampler.C38_sampler_size.
Print Assumptions Prop_Sampler.C56_metadata.
Print Assumptions Prop_Sampler.C56_generators_distinct.
Print Assumptions Prop_Queue.C46_thread_fifo.
Print Assumptions Prop_Queue.C46_thread_bound.
Print Assumptions Prop_Queue.C46_thread_put.
Print Assumptions Prop_Queue.C46_thread_no_lost_wakeup.
Print Assumptions Prop_Queue.C46_process_fifo.
Print Assumptions Prop_Queue.C46_process_no_lost_capacity.
Print Assumptions Prop_Queue.C46_process_put.
Print Assumptions Prop_Queue.C46_process_bound.
Print Assumptions Prop_Queue.C46_process_grow_pending_refuted.
Print Assumptions Prop_Options.C49_merge.
Print Assumptions Prop_Options.C49_associative.
Print Assumptions Prop_Options.C49_neutral.
Print Assumptions Prop_Options.C49_pipeline.
Print Assumptions Prop_Options.C50_nearest_seeds.
Print Assumptions Prop_Options.C50_hidden_seeds.
Print Assumptions Prop_Options.C50_explicit_seed.
Print Assumptions Prop_Options.C50_no_seed.
Print Assumptions Prop_Options.C50_position.
Print Assumptions Prop_Parallel.C53_results.
Print Assumptions Prop_Parallel.C53_exception.
Print Assumptions Prop_Parallel.C53_terminates.
Print Assumptions Prop_Parallel.C53_bounded.
Print Assumptions Prop_Parallel.C53_quiet.
Print Assumptions Prop_Parallel.C53_invalid.
Print Assumptions Prop_Tree.C51_flatten_unflatten.
Print Assumptions Prop_Tree.C51_unflatten_flatten.
Print Assumptions Prop_Tree.C51_unflatten_short.
Print Assumptions Prop_Tree.C51_map.
Print Assumptions Prop_Tree.C51_map_total.
Print Assumptions Prop_Tree.C51_map_compose.
Print Assumptions Prop_Tree.C51_map_many.
Print Assumptions Prop_Tree.C51_map_lengths_refuted.
Print Assumptions Prop_Tree.C51_key_order_refuted.
Print Assumptions Prop_Tree.C51_paths.
Print Assumptions Prop_Tree.C51_with_path_ignored.
Print Assumptions Prop_Tree.C51_with_path.
Print Assumptions Prop_Tree.C51_assert.
Print Assumptions Prop_Tree.C51_assert_one_way_refuted.
Print Assumptions Prop_Tree.C51_up_to.
Print Assumptions Prop_Elastic.C36_host.
Print Assumptions Prop_Elastic.C36_checkpointable.
Print Assumptions Prop_Elastic.C36_global_batch.
Print Assumptions Prop_Elastic.C36_elastic_job.
Print Assumptions Prop_Elastic.C36_not_divisible.
Print Assumptions Prop_Elastic.C36_tail_refuted.
Print Assumptions Prop_Elastic.C37_collected_once.
Print Assumptions Prop_Elastic.C52_same_process_count.
Print Assumptions Prop_Elastic.C52_other_process_count.
Print Assumptions Prop_Elastic.C52_elastic_resize.
Print Assumptions Prop_Elastic.C37_redistributed.
Print Assumptions Prop_Elastic.C52_crash.
Print Assumptions Prop_Elastic.C52_incomplete_refuted.
Print Assumptions Prop_Elastic.C52_stale_refuted.
Print Assumptions Prop_Interleave.C34_elements.
Print Assumptions Prop_Interleave.C34_each_dataset_complete.
Print Assumptions Prop_Interleave.C34_open_datasets.
Print Assumptions Prop_Interleave.C34_fair.
Print Assumptions Prop_Interleave.C34_one_place.
Print Assumptions Prop_Interleave.C34_no_datasets_refuted.
Print Assumptions Prop_Interleave.C35_history.
Print Assumptions Prop_Interleave.C35_checkpoint_after_restore_refuted.
Print Assumptions Prop_Interleave.C35_repeat_refuted.
Print Assumptions Prop_Interleave.C35_shared_list_refuted.
Print Assumptions Prop_Interleave.C37_shards_resumed.
Print Assumptions Prop_Interleave.C37_exhausted_shard_refuted.
Print Assumptions Prop_Interleave.C37_all_exhausted_refuted.
Print Assumptions Prop_Interleave.C37_json_refuted.
Print Assumptions Prop_Packing.C40_rows.
Print Assumptions Prop_Packing.C40_batches_determined.
Print Assumptions Prop_Packing.C40_every_element_once.
Print Assumptions Prop_Packing.C40_all_rows.
Print Assumptions Prop_Packing.C40_unpack.
Print Assumptions Prop_Packing.C41_no_overflow.
Print Assumptions Prop_Packing.C41_max_sequences.
Print Assumptions Prop_Packing.C41_max_sequences_refuted.
Print Assumptions Prop_Packing.C41_too_long.
Print Assumptions Prop_Packing.C42_checkpoints.
Print Assumptions Prop_ConcatSplit.C43_rows.
Print Assumptions Prop_ConcatSplit.C43_one_feature.
Print Assumptions Prop_ConcatSplit.C43_positions_refuted.
Print Assumptions Prop_ConcatSplit.C44_rows.
Print Assumptions Prop_ConcatSplit.C44_streams.
Print Assumptions Prop_ConcatSplit.C44_long_features_refuted.
Print Assumptions Prop_ConcatSplit.C44_scalars_refuted.
Print Assumptions Prop_ConcatSplit.C44_bos_refuted.
Print Assumptions Prop_ConcatSplit.C45_checkpoints.
Print Assumptions Prop_ConcatSplit.C45_json_refuted.
Print Assumptions Prop_Prefetch.C31_transparent.
Print Assumptions Prop_Prefetch.C31_size_0_refuted.
Print Assumptions Prop_ProcessPrefetch.C32_transparent.
Print Assumptions Prop_ProcessPrefetch.C32_failing_worker_refuted.
Print Assumptions Prop_ProcessPrefetch.C32_killed_worker_refuted.
Print Assumptions Prop_ProcessPrefetch.C32_six_restores_refuted.
Print Assumptions Prop_Multiprocess.C33_order.
Print Assumptions Prop_Multiprocess.C33_threads.
Print Assumptions Prop_Multiprocess.C33_checkpoints.
Print Assumptions Prop_Multiprocess.C33_filtered.
Print Assumptions Prop_Multiprocess.C33_round_robin.
Print Assumptions Prop_Multiprocess.C33_one_worker.
Print Assumptions Prop_Multiprocess.C33_filter_order_refuted.
Print Assumptions Prop_Multiprocess.C33_map_with_index_refuted.
Print Assumptions Prop_Multiprocess.C33_batch_refuted.
Print Assumptions Prop_Multiprocess.C31_composes.
Print Assumptions Prop_Multiprocess.C32_composes.
Print Assumptions Prop_DataLoader.C39_no_workers.
Print Assumptions Prop_DataLoader.C39_workers.
Print Assumptions Prop_DataLoader.C39_one_worker.
Print Assumptions Prop_DataLoader.C39_same_for_every_worker_count.
Print Assumptions Prop_DataLoader.C39_rejects.
Print Assumptions Prop_DataLoader.C39_arguments.
Print Assumptions Prop_Operations.C55_agrees.
Print Assumptions Prop_Operations.C55_checkpoints.
Print Assumptions Prop_Operations.C55_ended.
Print Assumptions Prop_Operations.C55_restore_into_finished_refuted.
Print Assumptions Prop_Operations.C55_after_exception_refuted.
Print Assumptions Prop_Operations.C55_flat_map.
Print Assumptions Prop_Operations.C55_flat_map_generator_refuted.
Print Assumptions Prop_PackOperation.C57_batches.
Print Assumptions Prop_PackOperation.C57_bad_record.
Print Assumptions Prop_PackOperation.C57_no_records.
Print Assumptions Prop_PackOperation.C57_no_room.
Print Assumptions Prop_PackOperation.C57_reuse_refuted.
Print Assumptions Prop_SequentialSlice.C58_parts.
Print Assumptions Prop_SequentialSlice.C58_output.
Print Assumptions Prop_SequentialSlice.C58_checkpoints.
Print Assumptions Prop_SequentialSlice.C58_shuffled.
Print Assumptions Prop_SequentialSlice.C58_slice_refuted.
Print Assumptions Prop_SequentialSlice.C58_repeat_refuted.
Print Assumptions Prop_SequentialSlice.C58_batch_refuted.
Print Assumptions Prop_SequentialSlice.C58_concatenate_refuted.
Print Assumptions Prop_SequentialSlice.C58_shared_source_refuted.
Print Assumptions Prop_SequentialSlice.C58_random_map_refuted.
Print Assumptions Prop_Load.C59_rows.
Print Assumptions Prop_Load.C59_batches.
Print Assumptions Prop_Load.C59_transformed.
Print Assumptions Prop_Load.C59_arguments.
Print Assumptions Prop_Load.C59_drop_remainder_refuted.
Print Assumptions Prop_DevicePut.C60_device_put.
Print Assumptions Prop_DevicePut.C60_arguments.
Print Assumptions Prop_SharedMemory.C61_transport.
Print Assumptions Prop_SharedMemory.C61_by_value.
Print Assumptions Prop_SharedMemory.C61_view_refuted.
Print Assumptions Prop_SharedMemory.C61_twice_refuted.
Print Assumptions Prop_SharedMemory.C62_batch.
Print Assumptions Prop_SharedMemory.C62_dtype_refuted.
Print Assumptions Prop_SharedMemory.C62_kind_refuted.
Print Assumptions Prop_SharedMemory.C62_empty_refuted.
Print Assumptions Prop_SharedMemory.C62_leak_refuted.
Print Assumptions Prop_SharedMemory.C62_parallel.
Print Assumptions Prop_SharedMemory.C62_objects.
Print Assumptions Prop_SharedMemory.C62_parallel_refuted.
Print Assumptions Prop_ShmProtocol.C63_ownership.
Print Assumptions Prop_ShmProtocol.C63_closed.
Print Assumptions Prop_ShmProtocol.C63_close_ends.
Print Assumptions Prop_ShmProtocol.C63_killed_refuted.
Print Assumptions Prop_ShmProtocol.C63_get_state_refuted.
Print Assumptions Prop_NextIndex.C64_index.
Print Assumptions Prop_NextIndex.C64_short_batch_refuted.
Print Assumptions Prop_NextIndex.C64_dropped_refuted.
Print Assumptions Prop_NextIndex.C64_sparse_refuted.
Print Assumptions Prop_ElasticJob.C37_job.
Print Assumptions Prop_ElasticJob.C37_job_unexhausted.
Print Assumptions Prop_ElasticJob.C37_job_exhausted_refuted.
Print Assumptions Prop_ElasticJob.C37_job_same_hosts_refuted.
Print Assumptions Prop_ElementSpec.C65_map.
Print Assumptions Prop_ElementSpec.C65_iter.
Print Assumptions Prop_ElementSpec.C65_batch_size.
Print Assumptions Prop_ElementSpec.C65_rebatch.
Print Assumptions Prop_ElementSpec.C65_rebatch_tail_refuted.
Print Assumptions Prop_ElementSpec.C65_mix_refuted.
Print Assumptions Prop_ElementSpec.C65_zip_refuted.
Print Assumptions Prop_ExecutionSummary.C66_shows.
Print Assumptions Prop_ExecutionSummary.C66_recorded.
Print Assumptions Prop_ExecutionSummary.C66_average.
Print Assumptions Prop_ExecutionSummary.C66_lost_refuted.
Print Assumptions Prop_ExecutionSummary.C66_mixed_refuted.
Print Assumptions Prop_ExecutionSummary.C67_shares.
Print Assumptions Prop_ExecutionSummary.C67_measured.
Print Assumptions Prop_ExecutionSummary.C67_sum.
Print Assumptions Prop_ExecutionSummary.C67_zero_refuted.
Print Assumptions Prop_ExecutionSummary.C67_bottleneck.
Print Assumptions Prop_Close.C68_raises.
Print Assumptions Prop_Close.C68_silent.
Print Assumptions Prop_Close.C68_released.
Print Assumptions Prop_Close.C68_idempotent.
Print Assumptions Prop_Close.C68_kept_refuted.
Print Assumptions Prop_Close.C68_cache_refuted.
Print Assumptions Prop_Close.C68_file_refuted.
Print Assumptions Prop_Close.C68_stopped_refuted.
Print Assumptions Prop_Close.C68_elastic_host.
Print Assumptions Prop_Close.C68_elastic_open.
Print Assumptions Prop_Close.C68_elastic_refuted.
Print Assumptions Prop_PerfConfig.C69_found.
Print Assumptions Prop_PerfConfig.C69_budget.
Print Assumptions Prop_PerfConfig.C69_few_refuted.
Print Assumptions Prop_PerfConfig.C69_uneven_refuted.
Print Assumptions Prop_PerfConfig.C69_none_refuted.
Print Assumptions Prop_ElasticPipe.C70_job.
Print Assumptions Prop_ElasticPipe.C70_unexhausted.
Print Assumptions Prop_ElasticPipe.C70_batches.
Print Assumptions Prop_ElasticPipe.C70_indivisible.
Print Assumptions Prop_ElasticPipe.C70_flat_map_refuted.
Print Assumptions Prop_ElasticPipe.C70_window_shuffle_refuted.
Print Assumptions Prop_ElasticPipe.C70_limit_refuted.
Print Assumptions Prop_ElasticPipe.C70_same_hosts.
Print Assumptions Prop_MpInterleave.C71_elements.
Print Assumptions Prop_MpInterleave.C71_complete.
Print Assumptions Prop_MpInterleave.C71_checkpoints.
Print Assumptions Prop_MpInterleave.C71_start_refuted.
Print Assumptions Prop_MpInterleave.C71_start_states_refuted.
Print Assumptions Prop_MpInterleave.C71_few_datasets_refuted.
Print Assumptions Prop_LoaderFlat.C72_no_workers.
Print Assumptions Prop_LoaderFlat.C72_workers.
Print Assumptions Prop_LoaderFlat.C72_same_elements.
Print Assumptions Prop_LoaderFlat.C72_concatenation.
Print Assumptions Prop_LoaderFlat.C72_rejects_refuted.
Print Assumptions Prop_LoaderFlat.C72_used_refuted.
Print Assumptions Prop_ElasticGraph.C73_accepts.
Print Assumptions Prop_ElasticGraph.C73_rejects.
Print Assumptions Prop_ElasticGraph.C73_map_datasets.
Print Assumptions Prop_ElasticGraph.C73_first_use.
Print Assumptions Prop_ElasticGraph.C73_every_shard_once.
Print Assumptions Prop_ElasticGraph.C73_threads_ignored.
Print Assumptions Prop_ElasticGraph.C73_one_file_refuted.
Print Assumptions Prop_ElasticGraph.C73_mp_prefetch_refuted.
Print Assumptions Prop_OptionsMp.C74_one_process.
Print Assumptions Prop_OptionsMp.C74_mp_prefetch.
Print Assumptions Prop_OptionsMp.C74_mt_prefetch.
Print Assumptions Prop_OptionsMp.C74_interleave.
Print Assumptions Prop_OptionsMp.C74_order_refuted.
Print Assumptions Prop_OptionsMp.C74_interleave_refuted.
Print Assumptions Prop_MpShared.C75_mp_prefetch.
Print Assumptions Prop_MpShared.C75_worker.
Print Assumptions Prop_MpShared.C75_same_batches.
Print Assumptions Prop_MpShared.C75_changed_refuted.
Print Assumptions Prop_MpShared.C75_one_worker_refuted.
Print Assumptions Prop_StopQueue.C76_fifo.
Print Assumptions Prop_StopQueue.C76_calls.
Print Assumptions Prop_StopQueue.C76_gave_up.
Print Assumptions Prop_StopQueue.C76_async.
Print Assumptions Prop_StopQueue.C76_stops.
Print Assumptions Prop_StopQueue.C76_progress.
Print Assumptions Prop_StopQueue.C76_added_after_stop.
