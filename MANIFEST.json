{
 "claims": [
  {
   "property": "C01",
   "status": "proved",
   "theorems": [
    "C01_finite_calls",
    "C01_finite_rows"
   ],
   "note": "Non-random, non-looping, slices of one 3-D shape; C14/C11 cover the excluded cases, C10 equal neighbours."
  },
  {
   "property": "C02",
   "status": "proved",
   "theorems": [
    "C02_exhaustion_permanent"
   ],
   "note": ""
  },
  {
   "property": "C03",
   "status": "proved",
   "theorems": [
    "C03_mask_and_padding"
   ],
   "note": "Quantified over every history of get_batch/reset calls."
  },
  {
   "property": "C04",
   "status": "proved",
   "theorems": [
    "C04_rows_belong_together",
    "C04_images"
   ],
   "note": ""
  },
  {
   "property": "C05",
   "status": "proved",
   "theorems": [
    "C05_loop_periodic"
   ],
   "note": "Batch sizes are arbitrary per call."
  },
  {
   "property": "C06",
   "status": "proved",
   "theorems": [
    "C06_permutation",
    "C06_finite_pass",
    "C06_loop_passes"
   ],
   "note": ""
  },
  {
   "property": "C07",
   "status": "proved",
   "theorems": [
    "C07_reset_restarts"
   ],
   "note": "No assumption on file contents; excludes randomize (see C06)."
  },
  {
   "property": "C08",
   "status": "proved",
   "theorems": [
    "C08_unreadable_skipped"
   ],
   "note": ""
  },
  {
   "property": "C09",
   "status": "proved",
   "theorems": [
    "C09_loop_live",
    "C09_loop_diverges"
   ],
   "note": ""
  },
  {
   "property": "C10",
   "status": "proved",
   "theorems": [
    "C10_duplicates_collapse",
    "C10_every_entry_served_refuted"
   ],
   "note": "Positive law plus a refutation of 'every list entry is served'."
  },
  {
   "property": "C11",
   "status": "proved",
   "theorems": [
    "C11_extraction_error_blocks",
    "C11_every_mode"
   ],
   "note": ""
  },
  {
   "property": "C12",
   "status": "proved",
   "theorems": [
    "C12_h5_slices",
    "C12_h5_stream",
    "C12_announced_shape",
    "C12_loaders_expose_contents"
   ],
   "note": "The C01-C11 theorems apply to the three real loaders through C12_loaders_expose_contents."
  },
  {
   "property": "C13",
   "status": "proved",
   "theorems": [
    "C13_flow_shape",
    "C13_flow_scaled",
    "C13_image_shape",
    "C13_image_matches_output_refuted"
   ],
   "note": "PIL resizing is a parameter constrained only in the shape it returns; dtype and rounding are not modelled."
  },
  {
   "property": "C14",
   "status": "proved",
   "theorems": [
    "C14_short_image_batch_raises"
   ],
   "note": ""
  },
  {
   "property": "C15",
   "status": "proved",
   "theorems": [
    "C15_constructed_list",
    "C15_mat_constructor",
    "C15_npy_constructor",
    "C15_h5_constructor",
    "C15_h5_rejects_directories"
   ],
   "note": "On arguments of the right types; for arguments of any type see C125."
  },
  {
   "property": "C16",
   "status": "proved",
   "theorems": [
    "C16_construction",
    "C16_starts",
    "C16_served_windows",
    "C16_every_window_possible"
   ],
   "note": ""
  },
  {
   "property": "C17",
   "status": "proved",
   "theorems": [
    "C17_step_counter",
    "C17_episode_length"
   ],
   "note": ""
  },
  {
   "property": "C18",
   "status": "proved",
   "theorems": [
    "C18_time_aligned",
    "C18_time_aligned_refuted",
    "C18_shifted_windows_refuted"
   ],
   "note": "Sufficient condition on the drawn windows in both loop modes, necessary without looping; two refutations of the unconditional claim."
  },
  {
   "property": "C19",
   "status": "proved",
   "theorems": [
    "C19_same_files",
    "C19_time_order_refuted"
   ],
   "note": "Same files always; refutation of the time order."
  },
  {
   "property": "C20",
   "status": "proved",
   "theorems": [
    "C20_single_directory",
    "C20_same_windows",
    "C20_seed_determines_episode_refuted"
   ],
   "note": "The iteration order of the set is an arbitrary enumeration."
  },
  {
   "property": "C21",
   "status": "proved",
   "theorems": [
    "C21_order_no_duplicates",
    "C21_returned"
   ],
   "note": "Wrapped scheduler is an arbitrary state machine; sequentially consistent interleaving of one consumer and the background thread, queue operations atomic."
  },
  {
   "property": "C22",
   "status": "proved",
   "theorems": [
    "C22_no_loss_before_forced_marker",
    "C22_forced_marker_drops_oldest",
    "C22_drop_needs_full_buffer",
    "C22_loss_bound",
    "C22_all_batches_arrive_refuted"
   ],
   "note": "Refutation holds for every buffer size."
  },
  {
   "property": "C23",
   "status": "proved",
   "theorems": [
    "C23_queue_bound"
   ],
   "note": ""
  },
  {
   "property": "C24",
   "status": "proved",
   "theorems": [
    "C24_marker_permanent",
    "C24_marker_arrives",
    "C24_after_producer_ended",
    "C24_permanent_after_shutdown_refuted",
    "C24_timeout_stop_permanent_refuted"
   ],
   "note": "Positive part excludes shutdown; two refutations show why."
  },
  {
   "property": "C25",
   "status": "proved",
   "theorems": [
    "C25_reset_terminates",
    "C25_reset_is_fresh",
    "C25_one_thread"
   ],
   "note": ""
  },
  {
   "property": "C26",
   "status": "proved",
   "theorems": [
    "C26_at_most_one_more_fetch",
    "C26_terminates_with_room",
    "C26_thread_ends_refuted"
   ],
   "note": "Termination with room in the queue proved; unconditional termination refuted for every buffer size."
  },
  {
   "property": "C27",
   "status": "proved",
   "theorems": [
    "C27_aligned",
    "C27_aligned_after_timeout_refuted"
   ],
   "note": "Refuted when next_episode times out."
  },
  {
   "property": "C28",
   "status": "proved",
   "theorems": [
    "C28_steps_remaining",
    "C28_episode_end_iff"
   ],
   "note": ""
  },
  {
   "property": "C29",
   "status": "proved",
   "theorems": [
    "C29_crash_is_end_of_data",
    "C29_no_call_after_the_last"
   ],
   "note": "Without reset and shutdown calls."
  },
  {
   "property": "C30",
   "status": "proved",
   "theorems": [
    "C30_overlapping_first_calls_fail",
    "C30_started_once"
   ],
   "note": "Separate model of the unprotected flag with any number of callers."
  },
  {
   "property": "C31",
   "status": "proved",
   "theorems": [
    "C31_episode_end",
    "C31_any_calls",
    "C31_after_reset",
    "C31_real"
   ],
   "note": "Arbitrary episodic scheduler given by laws; any interleaving of next and next_episode."
  },
  {
   "property": "C32",
   "status": "proved",
   "theorems": [
    "C32_reuse",
    "C32_starts"
   ],
   "note": "Scheduler is an arbitrary state machine that delivers."
  },
  {
   "property": "C33",
   "status": "proved",
   "theorems": [
    "C33_synthetic",
    "C33_permanent_refuted",
    "C33_real"
   ],
   "note": "Positive periodic law, refutation of permanence for every reuse factor, permanence for the real-image sampler."
  },
  {
   "property": "C34",
   "status": "proved",
   "theorems": [
    "C34_constructor",
    "C34_same_field",
    "C34_every_field_used",
    "C34_one_device",
    "C34_modulo_refuted"
   ],
   "note": "Rendering and adapting one field are abstract functions; the index arithmetic and tiling are modelled."
  },
  {
   "property": "C35",
   "status": "proved",
   "theorems": [
    "C35_mask_length",
    "C35_alignment"
   ],
   "note": ""
  },
  {
   "property": "C36",
   "status": "proved",
   "theorems": [
    "C36_forced",
    "C36_last_step_once",
    "C36_old_episode_leaks"
   ],
   "note": "Wrapped scheduler seen only through the episodic protocol; forced reuse of 1 when the class is visible."
  },
  {
   "property": "C37",
   "status": "proved",
   "theorems": [
    "C37_reset",
    "C37_reproducible"
   ],
   "note": "Bisimulation with a freshly constructed sampler, from any state."
  },
  {
   "property": "C38",
   "status": "proved",
   "theorems": [
    "C38_keys_distinct",
    "C38_not_split",
    "C38_each_purpose_once",
    "C38_sampler_keys"
   ],
   "note": "Keys symbolic; fold_in identified with split children, which can only merge keys."
  },
  {
   "property": "C39",
   "status": "proved",
   "theorems": [
    "C39_crop_fits"
   ],
   "note": "Exact rational arithmetic; the float case is C40."
  },
  {
   "property": "C40",
   "status": "proved",
   "theorems": [
    "C40_float_crop_refuted",
    "C40_power_of_two"
   ],
   "note": "IEEE binary64 (Flocq); uses the standard axioms of Coq.Reals and Coq.Logic through Flocq."
  },
  {
   "property": "C41",
   "status": "proved",
   "theorems": [
    "C41_simulated_area",
    "C41_in_pixels",
    "C41_within_simulated_pixels_refuted"
   ],
   "note": "Exact rational arithmetic, before and after truncation to pixels."
  },
  {
   "property": "C42",
   "status": "proved",
   "theorems": [
    "C42_on_padded_grid"
   ],
   "note": ""
  },
  {
   "property": "C43",
   "status": "proved",
   "theorems": [
    "C43_origin",
    "C43_exact_origin_refuted"
   ],
   "note": ""
  },
  {
   "property": "C44",
   "status": "proved",
   "theorems": [
    "C44_displacement",
    "C44_equal_iff_commensurate",
    "C44_equal_refuted"
   ],
   "note": "Exact rational arithmetic; uniform flow; at least one grid step per simulated side."
  },
  {
   "property": "C45",
   "status": "proved",
   "theorems": [
    "C45_between",
    "C45_grid",
    "C45_affine",
    "C45_clamped",
    "C45_reads_inside",
    "C45_linear",
    "C45_transpose"
   ],
   "note": "Exact rational arithmetic instead of float32."
  },
  {
   "property": "C46",
   "status": "proved",
   "theorems": [
    "C46_between",
    "C46_grid",
    "C46_affine",
    "C46_clamped",
    "C46_reads_inside"
   ],
   "note": "Exact rational arithmetic instead of float32; in float32: C131."
  },
  {
   "property": "C47",
   "status": "proved",
   "theorems": [
    "C47_each",
    "C47_count_and_order",
    "C47_range",
    "C47_pixels",
    "C47_affine",
    "C47_constant",
    "C47_linear",
    "C47_identity"
   ],
   "note": "Exact rational arithmetic; at least one input flow; a third channel is not represented."
  },
  {
   "property": "C48",
   "status": "proved",
   "theorems": [
    "C48_splat",
    "C48_total",
    "C48_conserved",
    "C48_never_increases",
    "C48_zero_flow"
   ],
   "note": "Exact rational arithmetic; flow of the image's shape."
  },
  {
   "property": "C49",
   "status": "proved",
   "theorems": [
    "C49_range",
    "C49_zero_flow",
    "C49_integer_shift",
    "C49_agrees_with_forward"
   ],
   "note": ""
  },
  {
   "property": "C50",
   "status": "proved",
   "theorems": [
    "C50_warps",
    "C50_symmetric_agree",
    "C50_at_time",
    "C50_same_warp_refuted"
   ],
   "note": "Positive theorem for the exchanged callable and for symmetric ones, refutation of plain agreement."
  },
  {
   "property": "C51",
   "status": "proved",
   "theorems": [
    "C51_bounded",
    "C51_uniform",
    "C51_at_grid_points",
    "C51_still"
   ],
   "note": ""
  },
  {
   "property": "C52",
   "status": "proved",
   "theorems": [
    "C52_bounds",
    "C52_peak",
    "C52_ray",
    "C52_covariance",
    "C52_rounded"
   ],
   "note": "Kernel over the reals (Coq R, real exponential): uses the standard axioms of Coq.Reals; C52_rounded restates the bounds over Q for any function with the laws of exp."
  },
  {
   "property": "C53",
   "status": "proved",
   "theorems": [
    "C53_inside",
    "C53_small_refuted",
    "C53_float_refuted"
   ],
   "note": "Exact arithmetic for the positive part; binary32 (Flocq) for the refutation of the rounded code."
  },
  {
   "property": "C54",
   "status": "proved",
   "theorems": [
    "C54_sum",
    "C54_centered",
    "C54_displaced",
    "C54_visible_refuted"
   ],
   "note": "Exact arithmetic; exp is an arbitrary function respecting equality."
  },
  {
   "property": "C55",
   "status": "proved",
   "theorems": [
    "C55_range",
    "C55_size",
    "C55_batch"
   ],
   "note": "Exact arithmetic; exp, square root and the random generator are parameters."
  },
  {
   "property": "C56",
   "status": "proved",
   "theorems": [
    "C56_mask",
    "C56_histogram_refuted"
   ],
   "note": ""
  },
  {
   "property": "C57",
   "status": "proved",
   "theorems": [
    "C57_levels",
    "C57_monotone",
    "C57_quantile",
    "C57_distribution"
   ],
   "note": "Exact rational arithmetic instead of float32 cumulative sums."
  },
  {
   "property": "C58",
   "status": "proved",
   "theorems": [
    "C58_identity"
   ],
   "note": "Exact rational arithmetic; integer-valued images."
  },
  {
   "property": "C59",
   "status": "proved",
   "theorems": [
    "C59_ranges"
   ],
   "note": "Exact arithmetic; normal draws and square root unconstrained, unit draws in [0,1)."
  },
  {
   "property": "C60",
   "status": "proved",
   "theorems": [
    "C60_count"
   ],
   "note": "Exact arithmetic."
  },
  {
   "property": "C61",
   "status": "proved",
   "theorems": [
    "C61_accepts",
    "C61_nan_refuted",
    "C61_errors",
    "C61_infinite",
    "C61_usable"
   ],
   "note": "Validation over a model of Python values; equivalence with the documented constraints when dt and noise_gaussian_std are not NaN, NaN acceptance as witness; kinds of exceptions; composition with the hypotheses of the generator theorems."
  },
  {
   "property": "C62",
   "status": "proved",
   "theorems": [
    "C62_chain",
    "C62_raises",
    "C62_unknown_ignored",
    "C62_batch_update",
    "C62_pytree"
   ],
   "note": "Chains of updates by induction; field-wise description of the result; unknown names ignored; flatten/unflatten inverse."
  },
  {
   "property": "C63",
   "status": "proved",
   "theorems": [
    "C63_stack",
    "C63_real",
    "C63_synthetic",
    "C63_rejects",
    "C63_path"
   ],
   "note": "Configurations as Python values; outside world as a record; success characterised exactly for real images, settings read entry by entry for synthetic ones; rejections with their exceptions; YAML paths."
  },
  {
   "property": "C64",
   "status": "proved",
   "theorems": [
    "C64_same_files",
    "C64_sampler_seed"
   ],
   "note": "Any two dictionaries that agree except for the seed; keys symbolic."
  },
  {
   "property": "C65",
   "status": "proved",
   "theorems": [
    "C65_never",
    "C65_right_size"
   ],
   "note": "All call sequences and thread timings; a ValueError with equal sizes can only be the file scheduler's own."
  },
  {
   "property": "C66",
   "status": "proved",
   "theorems": [
    "C66_tight",
    "C66_nan_files_ignored",
    "C66_refuses",
    "C66_bounds_refuted"
   ],
   "note": "Values are rationals, NaN and infinities; NumPy max/min propagate NaN, Python max/min drop it."
  },
  {
   "property": "C67",
   "status": "proved",
   "theorems": [
    "C67_rewritten",
    "C67_null_becomes_text",
    "C67_file_list_lost_refuted",
    "C67_null_refuted"
   ],
   "note": "repr of floats and strings and the YAML scalar reader are parameters; the theorem needs each value to be read back from its text. yaml_read covers the subset of YAML that is written."
  },
  {
   "property": "C68",
   "status": "proved",
   "theorems": [
    "C68_crash_states",
    "C68_complete",
    "C68_everything_lost",
    "C68_partial_lines",
    "C68_crash_safe_refuted"
   ],
   "note": "Buffered writes: any prefix of the buffer may reach the file at any time."
  },
  {
   "property": "C69",
   "status": "proved",
   "theorems": [
    "C69_partition",
    "C69_pieces",
    "C69_float_division",
    "C69_ratios",
    "C69_any_ratios",
    "C69_negative_ratio_refuted",
    "C69_lists_written",
    "C69_lists_read"
   ],
   "note": "The shuffle is any permutation; negative ratios are the refuted case."
  },
  {
   "property": "C70",
   "status": "proved",
   "theorems": [
    "C70_mixed_shapes_raise"
   ],
   "note": ""
  },
  {
   "property": "C71",
   "status": "proved",
   "theorems": [
    "C71_picture_pairing"
   ],
   "note": ""
  },
  {
   "property": "C72",
   "status": "proved",
   "theorems": [
    "C72_iter_rewinds_counter_only"
   ],
   "note": ""
  },
  {
   "property": "C73",
   "status": "proved",
   "theorems": [
    "C73_served_from_listed_directories",
    "C73_only_listed_files_refuted"
   ],
   "note": ""
  },
  {
   "property": "C74",
   "status": "proved",
   "theorems": [
    "C74_waiting_get_is_served"
   ],
   "note": ""
  },
  {
   "property": "C75",
   "status": "proved",
   "theorems": [
    "C75_shared_keys",
    "C75_streams_disjoint_refuted"
   ],
   "note": "Exact characterisation of the coincidences; disjointness refuted for every seed."
  },
  {
   "property": "C76",
   "status": "proved",
   "theorems": [
    "C76_indivisible"
   ],
   "note": ""
  },
  {
   "property": "C77",
   "status": "proved",
   "theorems": [
    "C77_3d_always_fails",
    "C77_3d_working_rejected",
    "C77_2d_works",
    "C77_3d_bounded"
   ],
   "note": "Shape logic only for the failure; the 3-D update is modelled on (D,H,W,3) volumes."
  },
  {
   "property": "C78",
   "status": "proved",
   "theorems": [
    "C78_all_hidden"
   ],
   "note": ""
  },
  {
   "property": "C79",
   "status": "proved",
   "theorems": [
    "C79_shift"
   ],
   "note": "Exact arithmetic; hiding and parameter variances 0 (spec predicate noiseless)."
  },
  {
   "property": "C80",
   "status": "proved",
   "theorems": [
    "C80_static"
   ],
   "note": "Exact arithmetic; hiding and parameter variances 0."
  },
  {
   "property": "C81",
   "status": "proved",
   "theorems": [
    "C81_seed_required"
   ],
   "note": "Inversion of from_config; witness that the same dictionary with a seed is accepted."
  },
  {
   "property": "C82",
   "status": "proved",
   "theorems": [
    "C82_passes",
    "C82_episodes"
   ],
   "note": "Keys are symbolic (a split is injective); the two theorems relate the streams to draws of the given generator with pairwise distinct keys."
  },
  {
   "property": "C83",
   "status": "proved",
   "theorems": [
    "C83_untouched",
    "C83_result",
    "C83_answers",
    "C83_infinite_speeds_asked_again"
   ],
   "note": "For a reader that agrees with yaml_read on the texts written."
  },
  {
   "property": "C84",
   "status": "proved",
   "theorems": [
    "C84_valid_asks_nothing",
    "C84_stale_configuration_refuted"
   ],
   "note": "Uses the model of the scheduler and sampler constructors."
  },
  {
   "property": "C85",
   "status": "proved",
   "theorems": [
    "C85_copies",
    "C85_lines",
    "C85_no_overwrite",
    "C85_exactly_one",
    "C85_directories_refuted",
    "C85_where",
    "C85_other_lines",
    "C85_stems"
   ],
   "note": "ASCII texts with line feeds; copies as a list of (source, destination)."
  },
  {
   "property": "C86",
   "status": "proved",
   "theorems": [
    "C86_names_agree",
    "C86_origin",
    "C86_marker_refuted",
    "C86_two_formats_refuted"
   ],
   "note": "File names as strings; packing succeeds or fails arbitrarily."
  },
  {
   "property": "C87",
   "status": "proved",
   "theorems": [
    "C87_flo_read",
    "C87_flo_accepted",
    "C87_flo_only",
    "C87_mat_read",
    "C87_mat_accepted",
    "C87_mat_refused"
   ],
   "note": "Floats are kept as four bytes."
  },
  {
   "property": "C88",
   "status": "proved",
   "theorems": [
    "C88_converted_loaded"
   ],
   "note": "The resampling filter is any function that keeps constant images constant; exact arithmetic."
  },
  {
   "property": "C89",
   "status": "proved",
   "theorems": [
    "C89_decoding",
    "C89_one_file",
    "C89_names",
    "C89_directories",
    "C89_complete",
    "C89_second_file_refuted"
   ],
   "note": "C89_second_file_refuted: of two training record files, the second overwrites samples of the first."
  },
  {
   "property": "C90",
   "status": "proved",
   "theorems": [
    "C90_synthetic",
    "C90_prefetched",
    "C90_real",
    "C90_make",
    "C90_make_prefetched"
   ],
   "note": "Files to batches through every layer without episodes; episodes are C27, C31 and C36. Adapter, cropping and rendering enter as arbitrary functions of one field (their own properties: C44-C60). Prefetched: prompt timings (the others are C29, C74)."
  },
  {
   "property": "C91",
   "status": "proved",
   "theorems": [
    "C91_plain",
    "C91_prefetched",
    "C91_no_episodes",
    "C91_real_plain",
    "C91_real_prefetched"
   ],
   "note": "C91_plain and C91_prefetched: any timing. C91_no_episodes: prompt timings."
  },
  {
   "property": "C92",
   "status": "proved",
   "theorems": [
    "C92_episodes",
    "C92_entry",
    "C92_make",
    "C92_make_prefetched"
   ],
   "note": "With loop off the windows of all episodes must be spread (otherwise the underlying list can run out, C18). Prefetched: prompt timings and batches_per_flow_batch = 1 (otherwise C36). C92_first_call: next_episode before the first batch advances without a prefetcher and does not with one."
  },
  {
   "property": "C93",
   "status": "proved",
   "theorems": [
    "C93_device_calls",
    "C93_pairs_independent",
    "C93_images_independent"
   ],
   "note": "Over exact rationals and an arbitrary generator that is a function of (key, array size, index); agreement is asked of all draws behind a key. Batches are those of C31-C33, C36, C90, C92 (made_from)."
  },
  {
   "property": "C94",
   "status": "proved",
   "theorems": [
    "C94_uniform_batches",
    "C94_layout",
    "C94_from_files"
   ],
   "note": "Over exact rationals. Without whole grid steps the shown motion differs from the reported one (C44_equal_refuted). Padding entries at the end of an unlooped list (mask false) hold a zero flow (C90)."
  },
  {
   "property": "C95",
   "status": "proved",
   "theorems": [
    "C95_arguments"
   ],
   "note": "Over exact rationals: the world may read its files and choose devices in any way, numbers are converted without rounding. Entries that are not finite numbers (inf, nan) are not covered here; what is rejected is C61-C63."
  },
  {
   "property": "C96",
   "status": "proved",
   "theorems": [
    "C96_files",
    "C96_prefetched",
    "C96_episodes",
    "C96_prefetched_episodes"
   ],
   "note": "All four stacks. Prefetched: prompt timings, as many flow fields per batch as images; with episodes also one batch per flow batch. Episodes: one flow per .mat file, distinct paths; windows that are not spread are C18."
  },
  {
   "property": "C97",
   "status": "proved",
   "theorems": [
    "C97_accepts",
    "C97_refuses"
   ],
   "note": "Exact arithmetic (rounding in the room conditions is C40); device lists that select no device, unreadable array files and entries of other types are outside the hypothesis."
  },
  {
   "property": "C98",
   "status": "proved",
   "theorems": [
    "C98_accepts",
    "C98_refuses",
    "C98_from_config",
    "C98_reset",
    "C98_reset_only_itself",
    "C98_files",
    "C98_prefetched",
    "C98_episodes",
    "C98_prefetched_episodes"
   ],
   "note": "Episodes: entries are those of the windows when these are spread (C18), and files have one slice each. With a buffer, a next_episode() before the first batch only starts the first episode (C92). The float32 casts of _get_next are not modelled."
  },
  {
   "property": "C99",
   "status": "proved",
   "theorems": [
    "C99_prefetcher",
    "C99_fewer_refuted",
    "C99_real",
    "C99_synthetic",
    "C99_synthetic_ends_refuted",
    "C99_reset_real",
    "C99_reset_synthetic"
   ],
   "note": "The two refuted statements say that the bound on the prefetcher cannot be lowered and that the synthetic sampler does not end. Without a prefetcher shutdown() has an empty body (protocol.py)."
  },
  {
   "property": "C100",
   "status": "proved",
   "theorems": [
    "C100_constructor",
    "C100_run",
    "C100_skips",
    "C100_first_device",
    "C100_beyond",
    "C100_every_image_size_refuted"
   ],
   "note": "C100_every_image_size_refuted gives a sampler for 600-row images that shows a batch at every call, and none in debug mode."
  },
  {
   "property": "C101",
   "status": "proved",
   "theorems": [
    "C101_one_pass",
    "C101_looping",
    "C101_place",
    "C101_afresh",
    "C101_ended",
    "C101_episodic",
    "C101_episode",
    "C101_episode_ends",
    "C101_list_shown_refuted"
   ],
   "note": "C101_list_shown_refuted gives an assigned list of which nothing is shown, however long one asks."
  },
  {
   "property": "C102",
   "status": "proved",
   "theorems": [
    "C102_fetched_first",
    "C102_bound_reached",
    "C102_while_fetching",
    "C102_undisturbed",
    "C102_shorter_list_refuted"
   ],
   "note": "C102_shorter_list_refuted: the same assignment is harmless, restarts the pass or raises IndexError, depending on the moment. The reads of the list are modelled one by one for unshuffled schedulers (a shuffling reset also reads and writes it)."
  },
  {
   "property": "C103",
   "status": "proved",
   "theorems": [
    "C103_any_rounding",
    "C103_binary32",
    "C103_range",
    "C103_not_negative",
    "C103_at_pixels",
    "C103_spoilt",
    "C103_constant_refuted",
    "C103_weightless_refuted"
   ],
   "note": "C103_constant_refuted: an image of ones gives a value above one. C103_weightless_refuted: a NaN next to the sampled pixel, of weight zero, makes the result NaN. binary32 with round to nearest even is executed by the model; C103_any_rounding covers other roundings and fusion (but not re-association). Uses the standard library axioms of Coq.Reals through Flocq."
  },
  {
   "property": "C104",
   "status": "proved",
   "theorems": [
    "C104_slope",
    "C104_float"
   ],
   "note": "C104_slope over exact rationals, closed; C104_float in binary32 through Flocq."
  },
  {
   "property": "C105",
   "status": "proved",
   "theorems": [
    "C105_exact",
    "C105_darker",
    "C105_other_total_refuted"
   ],
   "note": "C105_other_total_refuted: four pixels and a histogram of total 16777179 where the float result is one level below the exact one. Divisions are assumed correctly rounded. Uses the standard library axioms of Coq.Reals through Flocq."
  },
  {
   "property": "C106",
   "status": "proved",
   "theorems": [
    "C106_run",
    "C106_names",
    "C106_to_the_end",
    "C106_goes_on",
    "C106_episodes",
    "C106_prefetched_episodes",
    "C106_real_episodes",
    "C106_files",
    "C106_real_files",
    "C106_padding_refuted"
   ],
   "note": "C106_padding_refuted: three .mat files in batches of two; the file for sample 1 of batch 1 shows zeros, the image of no file. What matplotlib draws is not modelled."
  },
  {
   "property": "C107",
   "status": "proved",
   "theorems": [
    "C107_synthetic_any",
    "C107_real_any",
    "C107_synthetic",
    "C107_real",
    "C107_program",
    "C107_program_real",
    "C107_reset_shuffled_refuted",
    "C107_reset_episodes_refuted",
    "C107_too_slow_refuted"
   ],
   "note": "The claim for resets is false in general; C107_reset_shuffled_refuted and C107_reset_episodes_refuted give calls with two timings that both keep up and different batches after the reset. C107_too_slow_refuted: a thread that does not keep up shows as StopIteration. Keeping up is `prompt` (Spec/StackSpec.v): five steps of the thread while the consumer waits, no deadline expired."
  },
  {
   "property": "C108",
   "status": "proved",
   "theorems": [
    "C108_accepts",
    "C108_refuses",
    "C108_mat_configs",
    "C108_jhtdb",
    "C108_never",
    "C108_documented",
    "C108_image_example"
   ],
   "note": "The documented examples are refused: C108_documented, C108_never. float_world reads every decimal number as the nearest binary64 number (f64_ofQ_nearest) and computes the geometry in binary64. JHTDB.yaml is treated under the assumption that no stored array has a side of 2^31 or more."
  },
  {
   "property": "C109",
   "status": "proved",
   "theorems": [
    "C109_one_scene",
    "C109_histogram",
    "C109_noise",
    "C109_flat_noise"
   ],
   "note": "For areas at least one patch wide in both directions, in exact arithmetic; keys are symbolic (children of different numbers are different keys). C109_histogram extends it to generation with a histogram."
  },
  {
   "property": "C110",
   "status": "proved",
   "theorems": [
    "C110_pixel",
    "C110_redrawn",
    "C110_grey",
    "C110_order_refuted"
   ],
   "note": "binary32, round to nearest even, every operation rounded (no fused multiply-add); the exponential is any function of floats. C110_order_refuted: three particles, two orders, two images."
  },
  {
   "property": "C111",
   "status": "proved",
   "theorems": [
    "C111_contribution",
    "C111_image",
    "C111_grey"
   ],
   "note": "binary32, round to nearest even, every operation rounded (no fused multiply-add). The exponential is any function of floats with the stated error; a correctly rounded one is exhibited in C111_case."
  },
  {
   "property": "C112",
   "status": "proved",
   "theorems": [
    "C112_moved",
    "C112_uniform",
    "C112_still",
    "C112_still_refuted"
   ],
   "note": "binary32, every operation rounded to nearest even (no fused multiply-add); the scales are double quotients rounded to single. The exact claim for zero flow is false of the code for scales that are not powers of two: C112_still states the condition, C112_still_refuted the witness."
  },
  {
   "property": "C113",
   "status": "proved",
   "theorems": [
    "C113_range",
    "C113_half_open_refuted",
    "C113_position",
    "C113_count",
    "C113_bright",
    "C113_particles",
    "C113_images",
    "C113_count_refuted"
   ],
   "note": "binary32 sampling; jax.random.uniform is modelled as (23 random bits + 1.0) - 1.0 scaled and shifted, as in jax/_src/random.py; normal draws are arbitrary finite floats, standard deviations arbitrary finite floats. The half-open range and the exact count are false of the code: C113_half_open_refuted, C113_count_refuted."
  },
  {
   "property": "C114",
   "status": "proved",
   "theorems": [
    "C114_noise",
    "C114_quiet",
    "C114_images",
    "C114_grey",
    "C114_total"
   ],
   "note": "binary32, the whole generator as a relation between the arguments and the possible outputs (order of additions, fused products and divisions left open); the mask is taken to be zeros and ones; the radius of the patches is at least one."
  },
  {
   "property": "C115",
   "status": "proved",
   "theorems": [
    "C115_adapter",
    "C115_uniform",
    "C115_size",
    "C115_size_refuted"
   ],
   "note": "binary64 and binary32 as they run; jnp.linspace is modelled after the definition in JAX, which is not part of the repository (start * (1 - step) + stop * step, last entry replaced by stop), with the divisions and products in any of the forms the compiler may choose. C115_size_refuted is the false half of the claim on sizes."
  },
  {
   "property": "C116",
   "status": "proved",
   "theorems": [
    "C116_carried",
    "C116_uniform",
    "C116_faithful",
    "C116_total",
    "C116_same_settings"
   ],
   "note": "one device; the time step and the resolutions reach the generator as singles. That the factor is not 1 in general is C115_size_refuted."
  },
  {
   "property": "C117",
   "status": "proved",
   "theorems": [
    "C117_margins",
    "C117_place",
    "C117_ready",
    "C117_uniform"
   ],
   "note": "that the image can stick out by that one pixel is C40_float_crop_refuted; C117_uniform still asks for an image inside the area (through the conditions on the generator)."
  },
  {
   "property": "C118",
   "status": "proved",
   "theorems": [
    "C118_forward",
    "C118_total",
    "C118_conserved",
    "C118_forward_shift",
    "C118_backward",
    "C118_backward_range",
    "C118_backward_shift",
    "C118_conserved_refuted",
    "C118_velocity_refuted"
   ],
   "note": "image and flow field of the same shape in binary32; the sequential order of the deposits is that of the scan in the code. C118_conserved_refuted and C118_velocity_refuted are the limits."
  },
  {
   "property": "C119",
   "status": "proved",
   "theorems": [
    "C119_close",
    "C119_reach",
    "C119_exact",
    "C119_affine",
    "C119_affine_iff",
    "C119_pixel_refuted"
   ],
   "note": "exact arithmetic; C119_pixel_refuted is the witness that the naive reading (the vector of a pixel is the motion of a particle there) is false for flows that vary."
  },
  {
   "property": "C120",
   "status": "proved",
   "theorems": [
    "C120_files",
    "C120_fields",
    "C120_batches",
    "C120_h5",
    "C120_fields_refuted",
    "C120_episode",
    "C120_episode_files",
    "C120_loop",
    "C120_truth"
   ],
   "note": "C120_fields_refuted is the witness that the length is not the number of flow fields for HDF5 files."
  },
  {
   "property": "C121",
   "status": "proved",
   "theorems": [
    "C121_images_only",
    "C121_mask",
    "C121_histogram",
    "C121_noise",
    "C121_configured"
   ],
   "note": "exact arithmetic; relates two runs of the model with the same draws."
  },
  {
   "property": "C122",
   "status": "proved",
   "theorems": [
    "C122_tree",
    "C122_top",
    "C122_legacy",
    "C122_thin",
    "C122_h5py",
    "C122_v73",
    "C122_motion_legacy",
    "C122_motion_v73",
    "C122_motion_refuted"
   ],
   "note": "that MATLAB stores arrays by columns in v7.3 (by_columns) and what SciPy squeezes are facts about those programs, taken from their documentation."
  },
  {
   "property": "C123",
   "status": "proved",
   "theorems": [
    "C123_finite",
    "C123_ended",
    "C123_endless",
    "C123_stopped",
    "C123_shutdown_refuted",
    "C123_looping_files"
   ],
   "note": "that the interpreter calls __del__ only when nothing refers to the object, and that a running thread refers to it through the bound method it runs, are facts about Python; exit of the interpreter (daemon threads) is not modelled."
  },
  {
   "property": "C124",
   "status": "proved",
   "theorems": [
    "C124_apply",
    "C124_adapter",
    "C124_generate",
    "C124_generate_errors",
    "C124_generate_raises",
    "C124_apply_shapes",
    "C124_generate_untyped",
    "C124_adapter_untyped",
    "C124_nan_refuted"
   ],
   "note": "arguments of other types (NumPy arrays and scalars, tracers) are not modelled; the tolerance of isclose is applied to exact sums."
  },
  {
   "property": "C125",
   "status": "proved",
   "theorems": [
    "C125_h5",
    "C125_mat",
    "C125_npy",
    "C125_pictures",
    "C125_episodic",
    "C125_prefetch",
    "C125_timeout_refuted",
    "C125_configured",
    "C125_loop_default",
    "C125_same_as_make"
   ],
   "note": "digits are ASCII digits; a name ending in a newline is not modelled. The wrapped scheduler of EpisodicFlowFieldScheduler is a file scheduler or no scheduler."
  },
  {
   "property": "C126",
   "status": "proved",
   "theorems": [
    "C126_taken_or_refused",
    "C126_file",
    "C126_invisible",
    "C126_zero",
    "C126_episodic",
    "C126_lost_steps",
    "C126_next_episode",
    "C126_prefetch",
    "C126_raising_calls_are_harmless_refuted"
   ],
   "note": "that a raising call is always without effect is refuted (C126_raising_calls_are_harmless_refuted). Whether NumPy takes a bool as a size, and which sizes it cannot allocate, are parameters."
  },
  {
   "property": "C127",
   "status": "proved",
   "theorems": [
    "C127_order",
    "C127_own",
    "C127_no_loss",
    "C127_loss_bound",
    "C127_one_marker",
    "C127_timeout",
    "C127_counter",
    "C127_episode_not_early",
    "C127_counter_exact",
    "C127_episode_length_refuted"
   ],
   "note": "that an episode ends after its length is refuted for two readers (C127_episode_length_refuted). The other methods are not called by the readers."
  },
  {
   "property": "C128",
   "status": "proved",
   "theorems": [
    "C128_order",
    "C128_own",
    "C128_loss_bound",
    "C128_fetches",
    "C128_bound",
    "C128_wakes",
    "C128_all_woken_refuted"
   ],
   "note": "that shutdown wakes every waiting reader is refuted (C128_all_woken_refuted). reset with concurrent readers is C129, next_episode with concurrent readers C130; they are not called concurrently with each other."
  },
  {
   "property": "C129",
   "status": "proved",
   "theorems": [
    "C129_order",
    "C129_loss_bound",
    "C129_own",
    "C129_left_behind",
    "C129_stuck",
    "C129_returns",
    "C129_delivers",
    "C129_no_stale_refuted",
    "C129_waiting_refuted",
    "C129_restarts_refuted",
    "C129_episode_refuted"
   ],
   "note": "what fails is refuted by witnesses (C129_no_stale_refuted, C129_waiting_refuted, C129_restarts_refuted, C129_episode_refuted). Executions in which a reader starts a never started thread in the middle of reset are not followed further."
  },
  {
   "property": "C130",
   "status": "proved",
   "theorems": [
    "C130_order",
    "C130_own",
    "C130_loss_bound",
    "C130_few",
    "C130_rest",
    "C130_ends",
    "C130_starts",
    "C130_boundary_refuted"
   ],
   "note": "that readers go on with the first step of an episode is refuted (C130_boundary_refuted). One thread calls next_episode, and no thread resets or shuts down meanwhile."
  },
  {
   "property": "C131",
   "status": "proved",
   "theorems": [
    "C131_binary32",
    "C131_range",
    "C131_not_negative",
    "C131_at_voxels",
    "C131_spoilt",
    "C131_constant_refuted"
   ],
   "note": "exactness on constant volumes is refuted (C131_constant_refuted). Every operation is rounded; fused multiply-adds are not considered here. Uses the standard library axioms of Coq.Reals through Flocq."
  },
  {
   "property": "C132",
   "status": "proved",
   "theorems": [
    "C132_binary32",
    "C132_speed",
    "C132_forward",
    "C132_still",
    "C132_no_time",
    "C132_spoilt",
    "C132_separate"
   ],
   "note": "one particle; vmap over the particles is the list map. Every operation is rounded; fused multiply-adds are not considered here. A 4-D flow field is needed (C77)."
  }
 ]
}