{
 "claims": [
  {
   "property": "C01",
   "status": "proved",
   "theorems": [
    "C01_even_split_covers",
    "C01_even_split_sizes",
    "C01_even_split_drop_remainder",
    "C01_shard_options"
   ],
   "note": ""
  },
  {
   "property": "C02",
   "status": "proved",
   "theorems": [
    "C02_index_shuffle_permutation",
    "C02_index_shuffle_refuted"
   ],
   "note": ""
  },
  {
   "property": "C03",
   "status": "proved",
   "theorems": [
    "C03_index_shuffle_terminates",
    "C03_index_shuffle_rejects"
   ],
   "note": ""
  },
  {
   "property": "C04",
   "status": "proved",
   "theorems": [
    "C04_shuffle_permutes_each_epoch",
    "C04_shuffle_seed_range",
    "C04_shuffle_refuted"
   ],
   "note": ""
  },
  {
   "property": "C05",
   "status": "proved",
   "theorems": [
    "C05_window_permuted",
    "C05_window_shuffle_epoch",
    "C05_window_seed_overflow",
    "C05_window_shuffle_refuted"
   ],
   "note": ""
  },
  {
   "property": "C06",
   "status": "proved",
   "theorems": [
    "C06_window_shuffle",
    "C06_window_shuffle_permutes",
    "C06_window_shuffle_refuted"
   ],
   "note": ""
  },
  {
   "property": "C07",
   "status": "proved",
   "theorems": [
    "C07_slice_is_python_slice",
    "C07_slice_total",
    "C07_reindex"
   ],
   "note": ""
  },
  {
   "property": "C08",
   "status": "proved",
   "theorems": [
    "C08_shards_partition",
    "C08_shards_round_robin",
    "C08_shards_exist"
   ],
   "note": ""
  },
  {
   "property": "C09",
   "status": "proved",
   "theorems": [
    "C09_repeat_epochs",
    "C09_repeat_index"
   ],
   "note": ""
  },
  {
   "property": "C10",
   "status": "proved",
   "theorems": [
    "C10_concatenate",
    "C10_concatenate_total"
   ],
   "note": ""
  },
  {
   "property": "C11",
   "status": "proved",
   "theorems": [
    "C11_mix_reads_in_order",
    "C11_mix_stays_inside"
   ],
   "note": ""
  },
  {
   "property": "C12",
   "status": "proved",
   "theorems": [
    "C12_mix_proportions_prefix",
    "C12_mix_proportions_period"
   ],
   "note": ""
  },
  {
   "property": "C13",
   "status": "proved",
   "theorems": [
    "C13_mix_always_selects",
    "C13_mix_constructible"
   ],
   "note": ""
  },
  {
   "property": "C14",
   "status": "proved",
   "theorems": [
    "C14_batch",
    "C14_groups_concat",
    "C14_groups_sizes",
    "C14_full_groups_sizes",
    "C14_batch_valid"
   ],
   "note": ""
  },
  {
   "property": "C15",
   "status": "proved",
   "theorems": [
    "C15_zip",
    "C15_zip_valid"
   ],
   "note": ""
  },
  {
   "property": "C16",
   "status": "proved",
   "theorems": [
    "C16_flat_map",
    "C16_flat_map_position"
   ],
   "note": ""
  },
  {
   "property": "C17",
   "status": "proved",
   "theorems": [
    "C17_batched_reads"
   ],
   "note": ""
  },
  {
   "property": "C18",
   "status": "proved",
   "theorems": [
    "C18_values_depend_on_seed_and_index",
    "C18_generator_is_private",
    "C18_iterator"
   ],
   "note": ""
  },
  {
   "property": "C19",
   "status": "proved",
   "theorems": [
    "C19_pipelines_checkpointable",
    "C19_pipelines_output",
    "C19_flat_map_refuted",
    "C19_rebatch_refuted",
    "C19_cache_refuted"
   ],
   "note": ""
  },
  {
   "property": "C20",
   "status": "proved",
   "theorems": [
    "C20_json_makes_no_difference"
   ],
   "note": ""
  },
  {
   "property": "C21",
   "status": "proved",
   "theorems": [
    "C21_filter",
    "C21_filter_map_or_iter"
   ],
   "note": ""
  },
  {
   "property": "C22",
   "status": "proved",
   "theorems": [
    "C22_no_window_reaches_threshold",
    "C22_first_window_reaching_threshold",
    "C22_map_no_window",
    "C22_map_first_window",
    "C22_check_is_transparent"
   ],
   "note": ""
  },
  {
   "property": "C23",
   "status": "proved",
   "theorems": [
    "C23_batch",
    "C23_batch_valid",
    "C23_batches_restore_input"
   ],
   "note": ""
  },
  {
   "property": "C24",
   "status": "proved",
   "theorems": [
    "C24_batch_and_pad",
    "C24_batch_and_pad_size"
   ],
   "note": ""
  },
  {
   "property": "C25",
   "status": "proved",
   "theorems": [
    "C25_limit",
    "C25_zip",
    "C25_zip_rows",
    "C25_zip_strict",
    "C25_zip_strict_mismatch",
    "C25_map",
    "C25_map_with_index",
    "C25_repeat",
    "C25_repeat_forever",
    "C25_valid"
   ],
   "note": ""
  },
  {
   "property": "C26",
   "status": "proved",
   "theorems": [
    "C26_flat_map"
   ],
   "note": ""
  },
  {
   "property": "C27",
   "status": "proved",
   "theorems": [
    "C27_rebatch",
    "C27_rebatched_unique"
   ],
   "note": ""
  },
  {
   "property": "C28",
   "status": "proved",
   "theorems": [
    "C28_cache",
    "C28_cache_passes",
    "C28_cache_reads_once"
   ],
   "note": ""
  },
  {
   "property": "C29",
   "status": "proved",
   "theorems": [
    "C29_mixed",
    "C29_mixture_unique",
    "C29_mixed_prefix",
    "C29_consumed_in_order"
   ],
   "note": ""
  },
  {
   "property": "C30",
   "status": "proved",
   "theorems": [
    "C30_reads_in_order",
    "C30_state_is_next_index",
    "C30_after_exception_refuted"
   ],
   "note": ""
  },
  {
   "property": "C31",
   "status": "proved",
   "theorems": [
    "C31_transparent",
    "C31_size_0_refuted",
    "C31_composes"
   ],
   "note": ""
  },
  {
   "property": "C32",
   "status": "proved",
   "theorems": [
    "C32_transparent",
    "C32_failing_worker_refuted",
    "C32_killed_worker_refuted",
    "C32_six_restores_refuted",
    "C32_composes"
   ],
   "note": ""
  },
  {
   "property": "C33",
   "status": "proved",
   "theorems": [
    "C33_order",
    "C33_threads",
    "C33_checkpoints",
    "C33_filtered",
    "C33_round_robin",
    "C33_one_worker",
    "C33_filter_order_refuted",
    "C33_map_with_index_refuted",
    "C33_batch_refuted"
   ],
   "note": ""
  },
  {
   "property": "C34",
   "status": "proved",
   "theorems": [
    "C34_elements",
    "C34_each_dataset_complete",
    "C34_open_datasets",
    "C34_fair",
    "C34_one_place",
    "C34_no_datasets_refuted"
   ],
   "note": ""
  },
  {
   "property": "C35",
   "status": "proved",
   "theorems": [
    "C35_history",
    "C35_checkpoint_after_restore_refuted",
    "C35_repeat_refuted",
    "C35_shared_list_refuted"
   ],
   "note": ""
  },
  {
   "property": "C36",
   "status": "proved",
   "theorems": [
    "C36_host",
    "C36_checkpointable",
    "C36_global_batch",
    "C36_elastic_job",
    "C36_not_divisible",
    "C36_tail_refuted"
   ],
   "note": ""
  },
  {
   "property": "C37",
   "status": "proved",
   "theorems": [
    "C37_collected_once",
    "C37_redistributed",
    "C37_shards_resumed",
    "C37_exhausted_shard_refuted",
    "C37_all_exhausted_refuted",
    "C37_json_refuted",
    "C37_job",
    "C37_job_unexhausted",
    "C37_job_exhausted_refuted",
    "C37_job_same_hosts_refuted"
   ],
   "note": ""
  },
  {
   "property": "C38",
   "status": "proved",
   "theorems": [
    "C38_sequential",
    "C38_index_sampler_epoch",
    "C38_index_sampler_length",
    "C38_index_sampler_refuted",
    "C38_empty_shard_refuted",
    "C38_loader_sharding",
    "C38_sampler_size"
   ],
   "note": ""
  },
  {
   "property": "C39",
   "status": "proved",
   "theorems": [
    "C39_no_workers",
    "C39_workers",
    "C39_one_worker",
    "C39_same_for_every_worker_count",
    "C39_rejects",
    "C39_arguments"
   ],
   "note": ""
  },
  {
   "property": "C40",
   "status": "proved",
   "theorems": [
    "C40_rows",
    "C40_batches_determined",
    "C40_every_element_once",
    "C40_all_rows",
    "C40_unpack"
   ],
   "note": ""
  },
  {
   "property": "C41",
   "status": "proved",
   "theorems": [
    "C41_no_overflow",
    "C41_max_sequences",
    "C41_max_sequences_refuted",
    "C41_too_long"
   ],
   "note": ""
  },
  {
   "property": "C42",
   "status": "proved",
   "theorems": [
    "C42_checkpoints"
   ],
   "note": ""
  },
  {
   "property": "C43",
   "status": "proved",
   "theorems": [
    "C43_rows",
    "C43_one_feature",
    "C43_positions_refuted"
   ],
   "note": ""
  },
  {
   "property": "C44",
   "status": "proved",
   "theorems": [
    "C44_rows",
    "C44_streams",
    "C44_long_features_refuted",
    "C44_scalars_refuted",
    "C44_bos_refuted"
   ],
   "note": ""
  },
  {
   "property": "C45",
   "status": "proved",
   "theorems": [
    "C45_checkpoints",
    "C45_json_refuted"
   ],
   "note": ""
  },
  {
   "property": "C46",
   "status": "proved",
   "theorems": [
    "C46_thread_fifo",
    "C46_thread_bound",
    "C46_thread_put",
    "C46_thread_no_lost_wakeup",
    "C46_process_fifo",
    "C46_process_no_lost_capacity",
    "C46_process_put",
    "C46_process_bound",
    "C46_process_grow_pending_refuted"
   ],
   "note": ""
  },
  {
   "property": "C47",
   "status": "proved",
   "theorems": [
    "C47_tfrecord",
    "C47_truncated"
   ],
   "note": ""
  },
  {
   "property": "C48",
   "status": "proved",
   "theorems": [
    "C48_parquet",
    "C48_open"
   ],
   "note": ""
  },
  {
   "property": "C49",
   "status": "proved",
   "theorems": [
    "C49_merge",
    "C49_associative",
    "C49_neutral",
    "C49_pipeline"
   ],
   "note": ""
  },
  {
   "property": "C50",
   "status": "proved",
   "theorems": [
    "C50_nearest_seeds",
    "C50_hidden_seeds",
    "C50_explicit_seed",
    "C50_no_seed",
    "C50_position"
   ],
   "note": ""
  },
  {
   "property": "C51",
   "status": "proved",
   "theorems": [
    "C51_flatten_unflatten",
    "C51_unflatten_flatten",
    "C51_unflatten_short",
    "C51_map",
    "C51_map_total",
    "C51_map_compose",
    "C51_map_many",
    "C51_map_lengths_refuted",
    "C51_key_order_refuted",
    "C51_paths",
    "C51_with_path_ignored",
    "C51_with_path",
    "C51_assert",
    "C51_assert_one_way_refuted",
    "C51_up_to"
   ],
   "note": ""
  },
  {
   "property": "C52",
   "status": "proved",
   "theorems": [
    "C52_same_process_count",
    "C52_other_process_count",
    "C52_elastic_resize",
    "C52_crash",
    "C52_incomplete_refuted",
    "C52_stale_refuted"
   ],
   "note": ""
  },
  {
   "property": "C53",
   "status": "proved",
   "theorems": [
    "C53_results",
    "C53_exception",
    "C53_terminates",
    "C53_bounded",
    "C53_quiet",
    "C53_invalid"
   ],
   "note": ""
  },
  {
   "property": "C54",
   "status": "proved",
   "theorems": [
    "C54_range_dataset",
    "C54_range_source",
    "C54_range_worker_slices",
    "C54_range_worker_slices_exist"
   ],
   "note": ""
  },
  {
   "property": "C55",
   "status": "proved",
   "theorems": [
    "C55_agrees",
    "C55_checkpoints",
    "C55_ended",
    "C55_restore_into_finished_refuted",
    "C55_after_exception_refuted",
    "C55_flat_map",
    "C55_flat_map_generator_refuted"
   ],
   "note": ""
  },
  {
   "property": "C56",
   "status": "proved",
   "theorems": [
    "C56_metadata",
    "C56_generators_distinct"
   ],
   "note": ""
  },
  {
   "property": "C57",
   "status": "proved",
   "theorems": [
    "C57_batches",
    "C57_bad_record",
    "C57_no_records",
    "C57_no_room",
    "C57_reuse_refuted"
   ],
   "note": ""
  },
  {
   "property": "C58",
   "status": "proved",
   "theorems": [
    "C58_parts",
    "C58_output",
    "C58_checkpoints",
    "C58_shuffled",
    "C58_slice_refuted",
    "C58_repeat_refuted",
    "C58_batch_refuted",
    "C58_concatenate_refuted",
    "C58_shared_source_refuted",
    "C58_random_map_refuted"
   ],
   "note": ""
  },
  {
   "property": "C59",
   "status": "proved",
   "theorems": [
    "C59_rows",
    "C59_batches",
    "C59_transformed",
    "C59_arguments",
    "C59_drop_remainder_refuted"
   ],
   "note": ""
  },
  {
   "property": "C60",
   "status": "proved",
   "theorems": [
    "C60_device_put",
    "C60_arguments"
   ],
   "note": ""
  },
  {
   "property": "C61",
   "status": "proved",
   "theorems": [
    "C61_transport",
    "C61_by_value",
    "C61_view_refuted",
    "C61_twice_refuted"
   ],
   "note": ""
  },
  {
   "property": "C62",
   "status": "proved",
   "theorems": [
    "C62_batch",
    "C62_dtype_refuted",
    "C62_kind_refuted",
    "C62_empty_refuted",
    "C62_leak_refuted",
    "C62_parallel",
    "C62_objects",
    "C62_parallel_refuted"
   ],
   "note": ""
  },
  {
   "property": "C63",
   "status": "proved",
   "theorems": [
    "C63_ownership",
    "C63_closed",
    "C63_close_ends",
    "C63_killed_refuted",
    "C63_get_state_refuted"
   ],
   "note": ""
  },
  {
   "property": "C64",
   "status": "proved",
   "theorems": [
    "C64_index",
    "C64_short_batch_refuted",
    "C64_dropped_refuted",
    "C64_sparse_refuted"
   ],
   "note": ""
  },
  {
   "property": "C65",
   "status": "proved",
   "theorems": [
    "C65_map",
    "C65_iter",
    "C65_batch_size",
    "C65_rebatch",
    "C65_rebatch_tail_refuted",
    "C65_mix_refuted",
    "C65_zip_refuted"
   ],
   "note": ""
  },
  {
   "property": "C66",
   "status": "proved",
   "theorems": [
    "C66_shows",
    "C66_recorded",
    "C66_average",
    "C66_lost_refuted",
    "C66_mixed_refuted"
   ],
   "note": ""
  },
  {
   "property": "C67",
   "status": "proved",
   "theorems": [
    "C67_shares",
    "C67_measured",
    "C67_sum",
    "C67_zero_refuted",
    "C67_bottleneck"
   ],
   "note": ""
  },
  {
   "property": "C68",
   "status": "proved",
   "theorems": [
    "C68_raises",
    "C68_silent",
    "C68_released",
    "C68_idempotent",
    "C68_kept_refuted",
    "C68_cache_refuted",
    "C68_file_refuted",
    "C68_stopped_refuted",
    "C68_elastic_host",
    "C68_elastic_open",
    "C68_elastic_refuted"
   ],
   "note": ""
  },
  {
   "property": "C69",
   "status": "proved",
   "theorems": [
    "C69_found",
    "C69_budget",
    "C69_few_refuted",
    "C69_uneven_refuted",
    "C69_none_refuted"
   ],
   "note": ""
  },
  {
   "property": "C70",
   "status": "proved",
   "theorems": [
    "C70_job",
    "C70_unexhausted",
    "C70_batches",
    "C70_indivisible",
    "C70_flat_map_refuted",
    "C70_window_shuffle_refuted",
    "C70_limit_refuted",
    "C70_same_hosts"
   ],
   "note": ""
  },
  {
   "property": "C71",
   "status": "proved",
   "theorems": [
    "C71_elements",
    "C71_complete",
    "C71_checkpoints",
    "C71_start_refuted",
    "C71_start_states_refuted",
    "C71_few_datasets_refuted"
   ],
   "note": ""
  },
  {
   "property": "C72",
   "status": "proved",
   "theorems": [
    "C72_no_workers",
    "C72_workers",
    "C72_same_elements",
    "C72_concatenation",
    "C72_rejects_refuted",
    "C72_used_refuted"
   ],
   "note": ""
  },
  {
   "property": "C73",
   "status": "proved",
   "theorems": [
    "C73_accepts",
    "C73_rejects",
    "C73_map_datasets",
    "C73_first_use",
    "C73_every_shard_once",
    "C73_threads_ignored",
    "C73_one_file_refuted",
    "C73_mp_prefetch_refuted"
   ],
   "note": ""
  },
  {
   "property": "C74",
   "status": "proved",
   "theorems": [
    "C74_one_process",
    "C74_mp_prefetch",
    "C74_mt_prefetch",
    "C74_interleave",
    "C74_order_refuted",
    "C74_interleave_refuted"
   ],
   "note": ""
  },
  {
   "property": "C75",
   "status": "proved",
   "theorems": [
    "C75_mp_prefetch",
    "C75_worker",
    "C75_same_batches",
    "C75_changed_refuted",
    "C75_one_worker_refuted"
   ],
   "note": ""
  },
  {
   "property": "C76",
   "status": "proved",
   "theorems": [
    "C76_fifo",
    "C76_calls",
    "C76_gave_up",
    "C76_async",
    "C76_stops",
    "C76_progress",
    "C76_added_after_stop"
   ],
   "note": ""
  }
 ]
}