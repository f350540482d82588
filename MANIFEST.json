{
 "claims": [
  {
   "property": "C01",
   "status": "proved",
   "theorems": [
    "C01_spsc_is_bounded_queue"
   ],
   "note": "Sequential calls; arbitrary start counter; see C02 for interleavings."
  },
  {
   "property": "C02",
   "status": "proved",
   "theorems": [
    "C02_spsc_linearizable",
    "C02_dyn_linearizable"
   ],
   "note": "Sequentially consistent interleavings of the individual shared accesses; see C03 for the C++ memory orders."
  },
  {
   "property": "C03",
   "status": "proved",
   "theorems": [
    "C03_relaxed_head_load_refuted",
    "C03_acquire_makes_static_fifo_race_free",
    "C03_acquire_makes_dyn_fifo_race_free",
    "C03_each_order_is_needed"
   ],
   "note": "The source's orders are refuted (a race for every capacity); with acquire/release added, race freedom and FIFO hand-off for every execution of the view machine; each order shown necessary."
  },
  {
   "property": "C04",
   "status": "proved",
   "theorems": [
    "C04_consumer_reset_linearizable",
    "C04_producer_reset_refuted"
   ],
   "note": "Consumer-side reset linearizes as dropping a snapshot of the queue; a producer-side reset is refuted for every capacity above 1 and all starting counters."
  },
  {
   "property": "C05",
   "status": "proved",
   "theorems": [
    "C05_dyn_is_bounded_queue",
    "C05_dyn_counter_wrap_refuted"
   ],
   "note": "Bounded-queue refinement with the exact wrap condition, and its failure (C05_dyn_counter_wrap_refuted) for every capacity not dividing 2^W."
  },
  {
   "property": "C06",
   "status": "proved",
   "theorems": [
    "C06_spsc_head_offset_is_fixed_delay",
    "C06_spsc_set_read_offset_is_tape",
    "C06_dyn_set_read_offset_is_tape",
    "C06_offset_beyond_capacity_refuted"
   ],
   "note": "Head-offset constructor, set_read_offset/set_read_pos refine a tape of the last capacity items; beyond-capacity offsets refuted."
  },
  {
   "property": "C07",
   "status": "proved",
   "theorems": [
    "C07_circular_buffer_is_overwriting_queue"
   ],
   "note": "Both buffers; capacities 2^k, any size_t width above k; peek guarded to items that exist."
  },
  {
   "property": "C08",
   "status": "proved",
   "theorems": [
    "C08_set_head_gives_requested_delay",
    "C08_set_head_out_of_range_refuted",
    "C08_set_head_on_full_buffer_refuted"
   ],
   "note": "Delay semantics for a buffer that is not full; out-of-range and full-buffer uses refuted."
  },
  {
   "property": "C09",
   "status": "proved",
   "theorems": [
    "C09_circular_stack_is_bounded_stack"
   ],
   "note": "Any positive capacity, any initial array contents."
  },
  {
   "property": "C10",
   "status": "proved",
   "theorems": [
    "C10_read",
    "C10_read_reverse",
    "C10_write",
    "C10_write_reverse",
    "C10_clear",
    "C10_positions_stay_inside_forever",
    "C10_every_history",
    "C10_offset_outside_refuted"
   ],
   "note": "For every crossfade function; C82 treats the float crossfade itself."
  },
  {
   "property": "C11",
   "status": "proved",
   "theorems": [
    "C11_read_check_crossed",
    "C11_read_reverse_check_crossed",
    "C11_write_check_crossed"
   ],
   "note": "Blocks no longer than the buffer, as the property says."
  },
  {
   "property": "C12",
   "status": "proved",
   "theorems": [
    "C12_block_write_copies_bytes_cyclically",
    "C12_wide_elements_refuted"
   ],
   "note": "Byte-level model of the memcpy calls; the multi-byte case is refuted for every element size >= 2."
  },
  {
   "property": "C13",
   "status": "proved",
   "theorems": [
    "C13_fixed_vector_is_bounded_list",
    "C13_full_erase_names_element_past_the_end_refuted",
    "C13_last_slot_insert_names_element_past_the_end_refuted"
   ],
   "note": "All operations, any capacity; the strict reading of operator[] at MaxElements is refuted separately."
  },
  {
   "property": "C14",
   "status": "proved",
   "theorems": [
    "C14_double_buffer_refines_spec",
    "C14_exactly_once_in_order",
    "C14_two_callbacks_drain",
    "C14_failed_start_blocks_forever_refuted"
   ],
   "note": "Hardware function as an oracle; with refusing hardware the exactly-once claim is refuted."
  },
  {
   "property": "C15",
   "status": "proved",
   "theorems": [
    "C15_sequential_map_is_bounded_map",
    "C15_keys_are_distinct",
    "C15_assigned_value_is_found",
    "C15_other_keys_are_unaffected",
    "C15_const_index_of_missing_key_dangles_refuted"
   ],
   "note": "Includes the overflow behaviour; const operator[] on a missing key is refuted."
  },
  {
   "property": "C16",
   "status": "proved",
   "theorems": [
    "C16_insert_loses_the_value_refuted",
    "C16_insert_flag_size_and_keys"
   ],
   "note": "The value of insert is lost in every reachable state; flag, size and key presence proved."
  },
  {
   "property": "C17",
   "status": "proved",
   "theorems": [
    "C17_seqmap_is_fifo_evicting_map",
    "C17_zero_capacity_refuted"
   ],
   "note": "Any capacity > 0 and any initial array contents; capacity 0 refuted."
  },
  {
   "property": "C18",
   "status": "proved",
   "theorems": [
    "C18_seqmap_slots",
    "C18_duplicate_insert_keeps_old_value_refuted",
    "C18_remove_leaves_default_key_refuted",
    "C18_remove_last_after_eviction_refuted"
   ],
   "note": "All operations, by refinement to the slots in storage order."
  },
  {
   "property": "C19",
   "status": "proved",
   "theorems": [
    "C19_static_string_holds_longest_prefix",
    "C19_zero_capacity_view_copy_refuted",
    "C19_zero_capacity_c_string_copy"
   ],
   "note": "Histories of all copies including from its own buffer; capacity 0 refuted for string_view."
  },
  {
   "property": "C20",
   "status": "proved",
   "theorems": [
    "C20_pool_slots"
   ],
   "note": "Pointers are slot indices or foreign."
  },
  {
   "property": "C21",
   "status": "proved",
   "theorems": [
    "C21_mutual_exclusion_and_race_freedom",
    "C21_returned_index_is_free",
    "C21_nullopt_means_each_slot_seen_used",
    "C21_create_is_wait_free",
    "C21_relaxed_exchange_races_refuted",
    "C21_clear_breaks_exclusion_refuted",
    "C21_clear_races_refuted"
   ],
   "note": "Interleavings of atomic exchanges plus happens-before views for the elements; clear excluded and refuted."
  },
  {
   "property": "C22",
   "status": "proved",
   "theorems": [
    "C22_parser_is_safe_on_every_blob"
   ],
   "note": "All blobs, keys and unsigned size types narrower than size_t; the blob plus the largest size must stay below PTRDIFF_MAX."
  },
  {
   "property": "C23",
   "status": "proved",
   "theorems": [
    "C23_parser_returns_first_match"
   ],
   "note": "All record lists, both key kinds, signed and unsigned size types."
  },
  {
   "property": "C24",
   "status": "proved",
   "theorems": [
    "C24_serializer_parser_round_trip"
   ],
   "note": "Descriptions are trees of calls; values are given by their bytes."
  },
  {
   "property": "C25",
   "status": "proved",
   "theorems": [
    "C25_serialize_writes_a_prefix"
   ],
   "note": "Every buffer length, stream included."
  },
  {
   "property": "C26",
   "status": "proved",
   "theorems": [
    "C26_writer_equals_serializer",
    "C26_writer_below_max_depth",
    "C26_writer_is_safe",
    "C26_unmatched_end_is_ignored"
   ],
   "note": "Equality with the serializer holds in buffers of any length; deeper nesting is characterised exactly."
  },
  {
   "property": "C27",
   "status": "proved",
   "theorems": [
    "C27_round_trip_iff_size_fits",
    "C27_oversized_block_forges_a_later_key_refuted"
   ],
   "note": "Exact truncation, an iff for the round trip, and a forging witness."
  },
  {
   "property": "C28",
   "status": "proved",
   "theorems": [
    "C28_string_keys_match_up_to_terminator",
    "C28_written_keys_are_zero_padded"
   ],
   "note": "Both directions of the key comparison and the written padding."
  },
  {
   "property": "C29",
   "status": "proved",
   "theorems": [
    "C29_wide_size_field_escapes_the_blob_refuted"
   ],
   "note": "For every size-field width equal to size_t."
  },
  {
   "property": "C30",
   "status": "proved",
   "theorems": [
    "C30_write_then_read_across_restarts"
   ],
   "note": "Any storage with the stated laws, any initial content, any history; the counter type is wide enough for N+1."
  },
  {
   "property": "C31",
   "status": "proved",
   "theorems": [
    "C31_crash_loses_at_most_that_write"
   ],
   "note": "Crash points are before, inside and after each storage access of the write."
  },
  {
   "property": "C32",
   "status": "proved",
   "theorems": [
    "C32_cells_used_in_order",
    "C32_write_terminates_on_any_storage",
    "C32_write_reports_the_storage_result"
   ],
   "note": "The access log of each write is determined; equal wear; termination on arbitrary storage."
  },
  {
   "property": "C33",
   "status": "proved",
   "theorems": [
    "C33_failed_erase_reads_outside_the_block_refuted",
    "C33_leveler_stays_inside_the_block",
    "C33_failed_erase_forgets_until_restart_refuted"
   ],
   "note": "Exact behaviour of WearLevel after k failing erases, the WearLeveler bound on arbitrary storage, and the forgotten data."
  },
  {
   "property": "C34",
   "status": "proved",
   "theorems": [
    "C34_int_to_str_drops_zero_digits",
    "C34_correct_iff_no_zero_digit",
    "C34_renderings_exist_and_are_unique"
   ],
   "note": "Exact buffer contents and result for every value and buffer; correct iff no zero digit."
  },
  {
   "property": "C35",
   "status": "proved",
   "theorems": [
    "C35_int_to_str_stays_in_the_buffer",
    "C35_zero_overruns_short_buffers_refuted",
    "C35_int_min_overflows_refuted"
   ],
   "note": "Bounds for every non-zero value; value 0 and INT_MIN violations stated exactly."
  },
  {
   "property": "C36",
   "status": "proved",
   "theorems": [
    "C36_chop_output",
    "C36_contract_holds_without_zeros_or_final_one",
    "C36_one_and_ten_refuted",
    "C36_zero_and_tiny_buffers"
   ],
   "note": "Exact output for every value and buffer; the documented contract on the values where it holds; 1 and 10 as violations in every buffer."
  },
  {
   "property": "C37",
   "status": "proved",
   "theorems": [
    "C37_num_digits_counts_digits"
   ],
   "note": "All 32-bit values."
  },
  {
   "property": "C38",
   "status": "proved",
   "theorems": [
    "C38_print_renders_numbers",
    "C38_print_in_order"
   ],
   "note": "All int32 except INT_MIN (undefined) and all uint32."
  },
  {
   "property": "C39",
   "status": "proved",
   "theorems": [
    "C39_cstring_printed_up_to_terminator",
    "C39_string_view_length_ignored_refuted"
   ],
   "note": "All strings; the view length is shown to be irrelevant."
  },
  {
   "property": "C40",
   "status": "proved",
   "theorems": [
    "C40_contains_word_iff_delimited",
    "C40_non_ascii_undefined_refuted"
   ],
   "note": "characters that are not negative as plain char; a negative one is undefined behaviour (theorem)"
  },
  {
   "property": "C41",
   "status": "proved",
   "theorems": [
    "C41_less_ci_strict_weak_order",
    "C41_equal_ci_iff_lower_equal",
    "C41_less_ci_is_lexicographic"
   ],
   "note": ""
  },
  {
   "property": "C42",
   "status": "proved",
   "theorems": [
    "C42_replace_all_equal_length",
    "C42_shorter_replacement_skips_refuted",
    "C42_deleting_a_run_leaves_half_refuted",
    "C42_longer_replacement",
    "C42_longer_replacement_diverges_refuted",
    "C42_empty_find_diverges_refuted"
   ],
   "note": ""
  },
  {
   "property": "C43",
   "status": "proved",
   "theorems": [
    "C43_tokenize_yields_the_runs"
   ],
   "note": ""
  },
  {
   "property": "C44",
   "status": "proved",
   "theorems": [
    "C44_parse_recovers_the_fields",
    "C44_parse_terminated_is_safe",
    "C44_dotted_prerelease_is_normal_refuted"
   ],
   "note": ""
  },
  {
   "property": "C45",
   "status": "proved",
   "theorems": [
    "C45_comparison_is_a_total_order",
    "C45_order_is_major_minor_revision_release",
    "C45_can_host_is_a_preorder"
   ],
   "note": ""
  },
  {
   "property": "C46",
   "status": "proved",
   "theorems": [
    "C46_is_power_of_2_exact",
    "C46_log2_floor_exact",
    "C46_next_power_of_2_exact",
    "C46_64_bit_powers_doubled_refuted",
    "C46_64_bit_low_half_power_refuted",
    "C46_ipow_exact",
    "C46_Log2_exact",
    "C46_bipolar_type_range",
    "C46_bipolar_type_range_64_bit_refuted"
   ],
   "note": ""
  },
  {
   "property": "C47",
   "status": "proved",
   "theorems": [
    "C47_wrap_range_exact",
    "C47_wide_range_overflows_refuted",
    "C47_empty_range_never_returns",
    "C47_wrap_max_is_modulo",
    "C47_wrap_max_zero_diverges"
   ],
   "note": ""
  },
  {
   "property": "C48",
   "status": "proved",
   "theorems": [
    "C48_swaps_reverse_bytes",
    "C48_swaps_are_involutions",
    "C48_combine"
   ],
   "note": ""
  },
  {
   "property": "C49",
   "status": "proved",
   "theorems": [
    "C49_saturation_is_nearest",
    "C49_nearest_unique",
    "C49_other_widths_are_identity",
    "C49_distances",
    "C49_array_differences",
    "C49_array_difference_overflow_refuted"
   ],
   "note": ""
  },
  {
   "property": "C50",
   "status": "proved",
   "theorems": [
    "C50_interpolate_exact_for_nonnegative",
    "C50_interpolate_negative_refuted"
   ],
   "note": ""
  },
  {
   "property": "C51",
   "status": "proved",
   "theorems": [
    "C51_plateau_removes_the_dead_zone",
    "C51_plateau_steps_by_at_most_one",
    "C51_wrapped_edge_refuted"
   ],
   "note": ""
  },
  {
   "property": "C52",
   "status": "proved",
   "theorems": [
    "C52_toggler_events"
   ],
   "note": "All histories of calls; Toggler and TogglerCompact share the model."
  },
  {
   "property": "C53",
   "status": "proved",
   "theorems": [
    "C53_transfer_moves_events",
    "C53_transfer_loses_press_refuted",
    "C53_copy_behaves_alike"
   ],
   "note": "Every pair of states; the lost press is proved."
  },
  {
   "property": "C54",
   "status": "proved",
   "theorems": [
    "C54_debouncer_edges",
    "C54_debounced_level",
    "C54_raw_level",
    "C54_default_edges_are_spaced",
    "C54_glitch_is_reported_refuted",
    "C54_process_is_not_debounced_refuted",
    "C54_process_reports_changes_only"
   ],
   "note": "Any patterns and mask of n ones, single-bit samples."
  },
  {
   "property": "C55",
   "status": "proved",
   "theorems": [
    "C55_fires_when_period_elapsed",
    "C55_fires_across_wraps_when_due_time_wraps",
    "C55_expiry_missed_on_wrap_refuted",
    "C55_signed_clock"
   ],
   "note": "Unsigned clocks of every width; signed clocks too; the missed expiry is proved."
  },
  {
   "property": "C56",
   "status": "proved",
   "theorems": [
    "C56_poll_reads_when_due",
    "C56_take_change_reports_noticed_changes",
    "C56_due_is_wrap_safe",
    "C56_force_depends_on_clock_refuted"
   ],
   "note": "All histories and clock values."
  },
  {
   "property": "C57",
   "status": "proved",
   "theorems": [
    "C57_edge_detectors",
    "C57_edge_state_detector",
    "C57_change_detector",
    "C57_parameter",
    "C57_ref_parameter"
   ],
   "note": "All histories of each detector."
  },
  {
   "property": "C58",
   "status": "proved",
   "theorems": [
    "C58_motion_iff_detent_sequence",
    "C58_inverted_encoder",
    "C58_full_turns"
   ],
   "note": "Pins are both low before the first call. All three clauses for arbitrary streams."
  },
  {
   "property": "C59",
   "status": "proved",
   "theorems": [
    "C59_motion_is_conserved",
    "C59_small_motion_does_not_overflow",
    "C59_transfers_conserve_motion",
    "C59_transfer_empties_source"
   ],
   "note": "Single record and a table of records with transfers between distinct records."
  },
  {
   "property": "C60",
   "status": "proved",
   "theorems": [
    "C60_schmitt_level",
    "C60_schmitt_events",
    "C60_no_chatter",
    "C60_rising_trigger_reports_rises"
   ],
   "note": "Float samples as IEEE values (stdlib SpecFloat), NaN included."
  },
  {
   "property": "C61",
   "status": "proved",
   "theorems": [
    "C61_gate_thresholds",
    "C61_switches_on_below_turn_on_refuted",
    "C61_feedback_thresholds"
   ],
   "note": "Exact rational arithmetic, plus a single-precision witness of the violation."
  },
  {
   "property": "C62",
   "status": "proved",
   "theorems": [
    "C62_565_round_trip",
    "C62_565_layout",
    "C62_keeps_top_bits",
    "C62_classes_agree",
    "C62_from_888",
    "C62_assign_raw"
   ],
   "note": "Bit-field layout from the low end is an ABI assumption, named in the model."
  },
  {
   "property": "C63",
   "status": "proved",
   "theorems": [
    "C63_blend_is_floored_mean",
    "C63_blend_ends",
    "C63_blend_between",
    "C63_combine_plus_adjust"
   ],
   "note": ""
  },
  {
   "property": "C64",
   "status": "proved",
   "theorems": [
    "C64_packed_blend_per_channel",
    "C64_packed_blend_ends"
   ],
   "note": ""
  },
  {
   "property": "C65",
   "status": "proved",
   "theorems": [
    "C65_hsv_extremes",
    "C65_hsv_grey_and_primaries"
   ],
   "note": ""
  },
  {
   "property": "C66",
   "status": "proved",
   "theorems": [
    "C66_moving_average",
    "C66_oversampler"
   ],
   "note": "Moving average over every stream and every power-of-two size; oversampler over every stream."
  },
  {
   "property": "C67",
   "status": "proved",
   "theorems": [
    "C67_phase",
    "C67_set_phase",
    "C67_triangle",
    "C67_triangle_takes_each_value_once",
    "C67_triangle_has_no_jumps",
    "C67_down_counter",
    "C67_down_counter_ends",
    "C67_period_below_one_second_refuted"
   ],
   "note": "Phase, triangle and down-counter, for every number of updates."
  },
  {
   "property": "C68",
   "status": "proved",
   "theorems": [
    "C68_blocks",
    "C68_exact_fit_refuted"
   ],
   "note": "any history of allocate/reset/free_space calls; pointers are offsets into the arena"
  },
  {
   "property": "C69",
   "status": "proved",
   "theorems": [
    "C69_request",
    "C69_overflow_asks_too_little_refuted",
    "C69_tiny_block_refuted"
   ],
   "note": "the request size, with size_t of any width; aligned_alloc itself is not modelled"
  },
  {
   "property": "C70",
   "status": "proved",
   "theorems": [
    "C70_unsigned",
    "C70_signed",
    "C70_wide_ranges_refuted"
   ],
   "note": "the width of the selected type; the combinations which do not compile are characterised"
  },
  {
   "property": "C71",
   "status": "proved",
   "theorems": [
    "C71_common_prefix",
    "C71_no_containers_refuted",
    "C71_iterator_equality_transitive_refuted"
   ],
   "note": "any number of containers of one element type; the body may assign through the references"
  },
  {
   "property": "C72",
   "status": "proved",
   "theorems": [
    "C72_good_memory",
    "C72_any_bad_word_is_reported",
    "C72_shared_storage_is_reported",
    "C72_injective_wiring_passes",
    "C72_pattern_period",
    "C72_address_order"
   ],
   "note": ""
  },
  {
   "property": "C73",
   "status": "proved",
   "theorems": [
    "C73_decodes",
    "C73_appends"
   ],
   "note": ""
  },
  {
   "property": "C74",
   "status": "proved",
   "theorems": [
    "C74_every_index_once",
    "C74_balanced",
    "C74_too_many_initial_values_refuted"
   ],
   "note": "for any sort that meets the contract of std::ranges::sort"
  },
  {
   "property": "C75",
   "status": "proved",
   "theorems": [
    "C75_equally_spaced",
    "C75_arrives",
    "C75_array_reads",
    "C75_current_is_last_output",
    "C75_no_new_data_no_change",
    "C75_zero_until_marked",
    "C75_stays_on_target_refuted"
   ],
   "note": "InterpParam in exact arithmetic; FilteredInterpArray over any arithmetic, any filter and any history; the wrap of the 32-bit counter is a refuted theorem."
  },
  {
   "property": "C76",
   "status": "proved",
   "theorems": [
    "C76_y_intersects",
    "C76_x_intersects_misses_spanning",
    "C76_is_intersecting_not_symmetric_refuted",
    "C76_concave_iff_turns_both_ways",
    "C76_concave_is_defined",
    "C76_small_polygons_never_concave_refuted"
   ],
   "note": "The x direction and fractional polygons are refuted, with the exact set of failing inputs."
  },
  {
   "property": "C77",
   "status": "proved",
   "theorems": [
    "C77_hits_targets",
    "C77_reverse_is_inverse",
    "C77_reverse_hits_measurements",
    "C77_equal_targets_refuted",
    "C77_single_precision_inverse_refuted",
    "C77_voct_last_two",
    "C77_voct_linear"
   ],
   "note": "Exact rational arithmetic; the single-precision failures are refuted theorems with witnesses."
  },
  {
   "property": "C78",
   "status": "proved",
   "theorems": [
    "C78_integer_extrema",
    "C78_float_extrema",
    "C78_float_limits",
    "C78_float_extrema_of_samples",
    "C78_negative_signal_refuted",
    "C78_analyzed_signal"
   ],
   "note": "Integers of any range; single precision with NaN samples ignored, order proved through an embedding into Z."
  },
  {
   "property": "C79",
   "status": "proved",
   "theorems": [
    "C79_destroyed_once",
    "C79_calls_forward",
    "C79_copy_refuted",
    "C79_assign_refuted"
   ],
   "note": "Event log of constructions, calls and destructions; the temporary of the by-value constructor parameter is not recorded. Copy and assignment are refuted theorems."
  },
  {
   "property": "C80",
   "status": "proved",
   "theorems": [
    "C80_input",
    "C80_input_keeps_first",
    "C80_output"
   ],
   "note": "Any element type and capacity below 2^64."
  },
  {
   "property": "C81",
   "status": "proved",
   "theorems": [
    "C81_lookup_is_linear_between_samples",
    "C81_lookup_at_samples",
    "C81_lookup_clamps",
    "C81_lookup_total",
    "C81_generated_table",
    "C81_float_lookup_in_bounds",
    "C81_float_lookup_clamps",
    "C81_empty_range_refuted",
    "C81_interp_wrap",
    "C81_closest_wrap",
    "C81_interp",
    "C81_closest",
    "C81_interp_beyond_refuted",
    "C81_float_interp_in_bounds",
    "C81_float_wrap_in_bounds",
    "C81_float_wrap_large_phase_refuted",
    "C81_float_interp_one",
    "C81_negative_phase_refuted",
    "C81_very_negative_phase_refuted"
   ],
   "note": "In exact arithmetic lookup, generate, interp, interp_wrap, closest and closest_wrap are characterised completely for the documented arguments; beyond them interp reads outside the array and interp_wrap extrapolates below 0 or is undefined. In single precision: never out of bounds, clamping outside the range, exact conditions for the undefined float-to-integer conversion (min = max at that value, phase*Size >= 2^32). Tables up to 2^24 entries. The float theorems use the standard library's real-number axioms."
  },
  {
   "property": "C82",
   "status": "proved",
   "theorems": [
    "C82_write_stores_finite",
    "C82_write_reverse_stores_finite",
    "C82_infinite_slot_never_cleared_refuted",
    "C82_write_over_infinity",
    "C82_small_integers_exact",
    "C82_integers_rounded",
    "C82_large_integers_refuted"
   ],
   "note": "Finite floats over finite slots are stored exactly (up to the sign of zero), for write and write_reverse and all data; integers up to 2^24 are exact. Violations: a non-finite slot stays non-finite after every history without clear(), for all phases; 2^24+1 is rounded and INT_MAX is undefined."
  },
  {
   "property": "C83",
   "status": "proved",
   "theorems": [
    "C83_quiet_led_shows_base_colour",
    "C83_flash_shown",
    "C83_flash_of_a_divisor_of_a_second",
    "C83_flash_over_half_a_second_refuted",
    "C83_flash_over_a_second_refuted"
   ],
   "note": "Exact duration for whole milliseconds up to 2^24 in single precision; quiet histories show the calibrated base colour."
  },
  {
   "property": "C84",
   "status": "proved",
   "theorems": [
    "C84_opt_fill_buffer_value_refuted",
    "C84_opt_fill_buffer_bytes",
    "C84_opt_fill_buffer_array_refuted"
   ],
   "note": "Byte-level model; refuted for every element size >= 2, proved for 1."
  },
  {
   "property": "C85",
   "status": "proved",
   "theorems": [
    "C85_constructor_elements_refuted"
   ],
   "note": "Refuted: the constructed stack is observationally an empty one, for every history."
  },
  {
   "property": "C86",
   "status": "proved",
   "theorems": [
    "C86_signed_size_field_escapes_the_blob_refuted"
   ],
   "note": "For every signed width up to size_t."
  },
  {
   "property": "C87",
   "status": "proved",
   "theorems": [
    "C87_failed_storage_read_reported_as_success_refuted"
   ],
   "note": "Stated for every storage whose reads fail."
  },
  {
   "property": "C88",
   "status": "proved",
   "theorems": [
    "C88_digits_after_the_view_are_taken_refuted",
    "C88_view_at_the_end_of_memory_refuted"
   ],
   "note": ""
  },
  {
   "property": "C89",
   "status": "proved",
   "theorems": [
    "C89_large_field",
    "C89_wraps_with_64_bit_long_refuted",
    "C89_sign_and_white_space"
   ],
   "note": ""
  },
  {
   "property": "C90",
   "status": "proved",
   "theorems": [
    "C90_wrap_int_right_for_nonnegative",
    "C90_wrap_int_wrong_for_negative_refuted"
   ],
   "note": ""
  },
  {
   "property": "C91",
   "status": "proved",
   "theorems": [
    "C91_map_value_maps_the_range",
    "C91_map_value_monotone",
    "C91_empty_input_range_undefined"
   ],
   "note": "int instantiation, arbitrary width"
  },
  {
   "property": "C92",
   "status": "proved",
   "theorems": [
    "C92_random_number_in_range",
    "C92_random_number_overflows_32_bit_long_refuted"
   ],
   "note": ""
  },
  {
   "property": "C93",
   "status": "proved",
   "theorems": [
    "C93_unread_press_is_dropped_refuted",
    "C93_edge_discards_opposite"
   ],
   "note": "Witness history and the general statement."
  },
  {
   "property": "C94",
   "status": "proved",
   "theorems": [
    "C94_counts_steady_samples",
    "C94_large_sample_presses_every_time_refuted"
   ],
   "note": "All 0/1 sample histories; samples above 1 characterised."
  },
  {
   "property": "C95",
   "status": "proved",
   "theorems": [
    "C95_counts_samples_since_edge"
   ],
   "note": "All histories."
  },
  {
   "property": "C96",
   "status": "proved",
   "theorems": [
    "C96_latched_param",
    "C96_fraction_of_integer_is_zero_refuted"
   ],
   "note": "All histories; values whose difference fits the type."
  },
  {
   "property": "C97",
   "status": "proved",
   "theorems": [
    "C97_centers_inside",
    "C97_centers_in_the_middle",
    "C97_sizes_agree",
    "C97_width_overflow_refuted",
    "C97_center_overflow_refuted"
   ],
   "note": "int is 32 bits."
  },
  {
   "property": "C98",
   "status": "proved",
   "theorems": [
    "C98_float_components",
    "C98_out_of_range_not_clamped_refuted"
   ],
   "note": "Exact rational arithmetic; scaling by 32 or 64 is exact in binary floating point."
  },
  {
   "property": "C99",
   "status": "proved",
   "theorems": [
    "C99_integer_blends_keep_equal_colours",
    "C99_float_blend_darkens_refuted",
    "C99_float_blend_ends"
   ],
   "note": "The float blend is modelled in single precision without contraction to fused multiply-add."
  },
  {
   "property": "C100",
   "status": "proved",
   "theorems": [
    "C100_blend32_is_floored_mean",
    "C100_blend32_never_arrives_refuted"
   ],
   "note": ""
  },
  {
   "property": "C101",
   "status": "proved",
   "theorems": [
    "C101_neighbouring_hues_are_near"
   ],
   "note": ""
  },
  {
   "property": "C102",
   "status": "proved",
   "theorems": [
    "C102_smooth_oversampler",
    "C102_assertion_too_weak_refuted"
   ],
   "note": "Exact block means and a refutation of the static assertion."
  },
  {
   "property": "C103",
   "status": "proved",
   "theorems": [
    "C103_resizing_oversampler",
    "C103_zero_size_refuted"
   ],
   "note": "Refinement to a list of blocks, with the float sums in order."
  },
  {
   "property": "C104",
   "status": "proved",
   "theorems": [
    "C104_hysteresis_filter",
    "C104_nearest_point_is_unique",
    "C104_quadratic_fraction",
    "C104_quadratic_steps"
   ],
   "note": "Rational arithmetic."
  },
  {
   "property": "C105",
   "status": "proved",
   "theorems": [
    "C105_val_feeds_second_filter",
    "C105_val_is_a_query_refuted"
   ],
   "note": "Exact behaviour for any two filters; the refutation is for every pair of equal samples through two oversamplers."
  },
  {
   "property": "C106",
   "status": "proved",
   "theorems": [
    "C106_sine_val_advances_refuted"
   ],
   "note": "For any table."
  },
  {
   "property": "C107",
   "status": "proved",
   "theorems": [
    "C107_any_long_pulse_refuted",
    "C107_one_shot",
    "C107_one_block",
    "C107_long_pulse_never_ends_refuted"
   ],
   "note": "Exact arithmetic, and single precision counterexample for all n."
  },
  {
   "property": "C108",
   "status": "proved",
   "theorems": [
    "C108_frequency",
    "C108_constructor",
    "C108_period",
    "C108_period_ms_in_whole_seconds_refuted",
    "C108_long_period_stops_refuted"
   ],
   "note": "Exact drift."
  },
  {
   "property": "C109",
   "status": "proved",
   "theorems": [
    "C109_last_word"
   ],
   "note": ""
  },
  {
   "property": "C110",
   "status": "proved",
   "theorems": [
    "C110_padding"
   ],
   "note": ""
  },
  {
   "property": "C111",
   "status": "proved",
   "theorems": [
    "C111_marked_data_is_read",
    "C111_versions",
    "C111_settles",
    "C111_nothing_marked"
   ],
   "note": "Sequentially consistent interleavings of single shared accesses; the readings are versions."
  },
  {
   "property": "C112",
   "status": "proved",
   "theorems": [
    "C112_int_misses_by_remainder",
    "C112_unsigned_ramp_down_refuted",
    "C112_variable_step",
    "C112_variable_zero_updates_refuted"
   ],
   "note": "Signed overflow is excluded (Z values)."
  },
  {
   "property": "C113",
   "status": "proved",
   "theorems": [
    "C113_sign_extend",
    "C113_sign_extend_keeps_numbers_in_range",
    "C113_unsigned_sample_type_refuted"
   ],
   "note": "The bit-field read is modelled as the low bits (little endian targets); the unsigned sample type is refuted as a usable signed value."
  },
  {
   "property": "C114",
   "status": "proved",
   "theorems": [
    "C114_round_trip",
    "C114_input_in_range",
    "C114_output_full_width",
    "C114_output_infinite",
    "C114_output_nan_undefined",
    "C114_output_wide",
    "C114_wide_saturates_refuted",
    "C114_quantisation",
    "C114_output_monotone",
    "C114_frame",
    "C114_32_bit_full_scale_refuted"
   ],
   "note": "At most 24 used bits for the exact statements; wide types, NaN and 32 used bits refuted as safe."
  },
  {
   "property": "C115",
   "status": "proved",
   "theorems": [
    "C115_output_range_and_order",
    "C115_special_values",
    "C115_round_trip_refuted",
    "C115_zero_sample_refuted",
    "C115_32_bit_full_scale_refuted"
   ],
   "note": "At most 24 used bits; round trip refuted. Fused multiply-add contraction by the compiler is not modelled."
  },
  {
   "property": "C116",
   "status": "proved",
   "theorems": [
    "C116_lanes",
    "C116_load_needs_four",
    "C116_accumulator_untouched_refuted",
    "C116_maximum",
    "C116_maximum_lanes",
    "C116_nan_propagates_refuted"
   ],
   "note": "Accumulator preservation and NaN propagation are refuted."
  },
  {
   "property": "C117",
   "status": "proved",
   "theorems": [
    "C117_bits",
    "C117_order_and_repetition",
    "C117_range",
    "C117_OR_refuted"
   ],
   "note": "OR refuted: every call reads an uninitialised variable."
  },
  {
   "property": "C118",
   "status": "proved",
   "theorems": [
    "C118_is_finite",
    "C118_bit_patterns",
    "C118_is_inf"
   ],
   "note": "The IEEE encoding is specified in Spec/FloatBits.v and shown to be onto."
  },
  {
   "property": "C119",
   "status": "proved",
   "theorems": [
    "C119_interpolate_end_points",
    "C119_interpolate_bounded",
    "C119_interpolate_accuracy",
    "C119_interpolate3_accuracy",
    "C119_interpolate3_start",
    "C119_interpolate3_end_refuted",
    "C119_infinite_end_refuted"
   ],
   "note": "End point of interpolate3 refuted. No fused multiply-add contraction."
  },
  {
   "property": "C120",
   "status": "proved",
   "theorems": [
    "C120_f_abs",
    "C120_f_abs_sign_refuted",
    "C120_faster_sine_bounded",
    "C120_faster_sine_accuracy",
    "C120_faster_sine_is_minus_sine",
    "C120_faster_sine_quarters"
   ],
   "note": "Accuracy against the parabola of the code comment's quarter points, and to 0.06 against the sine of the opposite sign."
  },
  {
   "property": "C121",
   "status": "proved",
   "theorems": [
    "C121_gate_is_0_or_1",
    "C121_gate_on",
    "C121_gate_off",
    "C121_monotone",
    "C121_feedback_off",
    "C121_feedback_on",
    "C121_feedback_on_exact",
    "C121_feedback_monotone"
   ],
   "note": "Turn-on threshold refuted."
  },
  {
   "property": "C122",
   "status": "proved",
   "theorems": [
    "C122_sin",
    "C122_sin01",
    "C122_cos",
    "C122_small_negative",
    "C122_sin_for_any_x_refuted",
    "C122_sin01_for_any_x_refuted",
    "C122_cos_for_any_x_refuted"
   ],
   "note": "Loop fuel is an explicit argument. Any-argument claim refuted. Not stated: sin and cos from 2^23 up to where the conversion is undefined, and the last digit between the accurate and the undefined range below 0. No fused multiply-add contraction."
  },
  {
   "property": "C123",
   "status": "proved",
   "theorems": [
    "C123_pow2",
    "C123_pow2_small_negative",
    "C123_pow2_negative_refuted",
    "C123_pow2_overflow",
    "C123_pow2_terminates_refuted",
    "C123_pitch_multiple",
    "C123_pitch_multiple_special"
   ],
   "note": "Negative exponents and termination refuted. Every argument is classified except -0.002443 < x < -0.0024425; 83886088 and 83886096 are neighbouring floats."
  },
  {
   "property": "C124",
   "status": "proved",
   "theorems": [
    "C124_freq_to_norm",
    "C124_freq_special"
   ],
   "note": "The error bound is one-sided because the logarithm is concave."
  },
  {
   "property": "C125",
   "status": "proved",
   "theorems": [
    "C125_tan",
    "C125_tan_to_1_4",
    "C125_tan_to_1_5",
    "C125_tan_sign_refuted",
    "C125_tan_small_negative",
    "C125_tan_negative_refuted"
   ],
   "note": "Between 1.5 and 1.5695 no accuracy is stated. Sign near pi/2 and negative arguments refuted."
  },
  {
   "property": "C126",
   "status": "proved",
   "theorems": [
    "C126_exp5",
    "C126_exp10",
    "C126_pow9_entries",
    "C126_pow9_is_ninth_power_refuted"
   ],
   "note": "pow9 as a ninth power refuted."
  },
  {
   "property": "C127",
   "status": "proved",
   "theorems": [
    "C127_ramp",
    "C127_ramp_below_one_refuted",
    "C127_triangle",
    "C127_sine"
   ],
   "note": "Ramp below 1 refuted."
  },
  {
   "property": "C128",
   "status": "proved",
   "theorems": [
    "C128_frequency",
    "C128_period",
    "C128_long_period_refuted",
    "C128_short_period_refuted"
   ],
   "note": "Long and short periods refuted. A narrow band of products around 2^32 is not stated."
  },
  {
   "property": "C129",
   "status": "proved",
   "theorems": [
    "C129_follows_the_line",
    "C129_never_turns_back",
    "C129_arrives_refuted",
    "C129_small_changes_happen_refuted"
   ],
   "note": "Rounding to nearest. Arrival and small changes are refuted with witnesses."
  },
  {
   "property": "C130",
   "status": "proved",
   "theorems": [
    "C130_lookup_accuracy",
    "C130_interp_accuracy"
   ],
   "note": "Against the piecewise linear curve in Spec/PolyLine.v; rounding to nearest."
  },
  {
   "property": "C131",
   "status": "proved",
   "theorems": [
    "C131_dead_zone_width",
    "C131_hysteresis_step",
    "C131_hysteresis_tracks",
    "C131_quadratic_step",
    "C131_quadratic_arrives_refuted",
    "C131_quadratic_settles_refuted"
   ],
   "note": "One step bounds for both filters, history bounds for the hysteresis filter. Settling of the quadratic filter is refuted with witnesses."
  },
  {
   "property": "C132",
   "status": "proved",
   "theorems": [
    "C132_adjusted_reading",
    "C132_reversed_value",
    "C132_round_trip"
   ],
   "note": "Bounds relative to the sizes of the terms; slopes between 2^-30 and 2^30."
  },
  {
   "property": "C133",
   "status": "proved",
   "theorems": [
    "C133_resizing_mean",
    "C133_smooth_mean"
   ],
   "note": "Against exact means (Spec/RealMean.v)."
  },
  {
   "property": "C135",
   "status": "proved",
   "theorems": [
    "C135_interrupted_word_is_sent_refuted",
    "C135_interrupted_before_the_first_element",
    "C135_interrupted_after_the_last_element",
    "C135_interrupted_refusal"
   ],
   "note": "transmit of one word is interrupted between two of its push_back calls, before the first or after the last; refused words included. Interruptions inside push_back and start_tx are not modelled."
  },
  {
   "property": "C137",
   "status": "proved",
   "theorems": [
    "C137_buffers_own_their_storage",
    "C137_copies_can_be_destroyed_refuted",
    "C137_copies_are_independent_refuted",
    "C137_assignment_releases_refuted"
   ],
   "note": "Elements are of trivial type. The allocator of the big heap (sys/alloc_buffer.hh) is not in the repository; plain new and delete are modelled."
  },
  {
   "property": "C134",
   "status": "proved",
   "theorems": [
    "C134_float_blend",
    "C134_float_blend_ends",
    "C134_phase_above_one_refuted"
   ],
   "note": "Rounding to nearest. End points also in C99."
  },
  {
   "property": "C136",
   "status": "proved",
   "theorems": [
    "C136_stays_within_the_signal",
    "C136_one_update",
    "C136_approaches_a_constant",
    "C136_template_coefficient",
    "C136_arrives_refuted",
    "C136_coefficient_one_follows_refuted"
   ],
   "note": "Rounding to nearest. Arrival is refuted with a witness."
  },
  {
   "property": "C138",
   "status": "proved",
   "theorems": [
    "C138_slope_and_offset"
   ],
   "note": "Float companion of the exact-arithmetic model."
  },
  {
   "property": "C139",
   "status": "proved",
   "theorems": [
    "C139_constructed_from_block_is_empty_refuted",
    "C139_one_byte_elements",
    "C139_wide_elements_refuted"
   ],
   "note": "Elements are lists of bytes; the static capacity variant."
  },
  {
   "property": "C140",
   "status": "proved",
   "theorems": [
    "C140_integer_brightness",
    "C140_full_integer_brightness_refuted",
    "C140_float_brightness",
    "C140_float_brightness_above_one_refuted"
   ],
   "note": "Rounding to nearest. The driver takes its parameter as uint8_t."
  },
  {
   "property": "C141",
   "status": "proved",
   "theorems": [
    "C141_polled_consumer_is_race_free",
    "C141_polled_dyn_consumer_is_race_free",
    "C141_one_more_item_races_refuted"
   ],
   "note": "Same weak-memory model as C03. reset() is excluded: it races as shown in C03."
  },
  {
   "property": "C142",
   "status": "proved",
   "theorems": [
    "C142_no_race",
    "C142_owner_sees_used",
    "C142_used_was_created",
    "C142_single_thread_exact",
    "C142_newest_value",
    "C142_used_then_read_refuted",
    "C142_stale_free_refuted"
   ],
   "note": "clear() is excluded (C21 shows why). Exchanges are seq_cst as in the source; is_used is the acquire load of the source."
  },
  {
   "property": "C143",
   "status": "proved",
   "theorems": [
    "C143_fade_returns_to_base",
    "C143_breathing_follows_a_triangle",
    "C143_breathing_frequency",
    "C143_flash_leaves_breathing_alone",
    "C143_full_colour_never_shown_refuted",
    "C143_negative_frequency_refuted"
   ],
   "note": "Fades of whole milliseconds up to 2^24; float rounding to nearest. Fades during a running breathing are excluded by not_breathing."
  },
  {
   "property": "C144",
   "status": "proved",
   "theorems": [
    "C144_packed_blends",
    "C144_packed_blends_agree",
    "C144_packed_ends",
    "C144_scaling_dims",
    "C144_weight_out_of_range_refuted",
    "C144_scaling_up_refuted"
   ],
   "note": "Rounding to nearest; weights up to 2^100 in the refuted part."
  },
  {
   "property": "C145",
   "status": "proved",
   "theorems": [
    "C145_register_through_power_failures",
    "C145_every_life_goes_on",
    "C145_only_written_data_is_read",
    "C145_old_data_returns_refuted"
   ],
   "note": "An interrupted erase may leave any subset of the cells erased; storage is any one meeting the contract in Spec/WearSpec.v."
  },
  {
   "property": "C146",
   "status": "proved",
   "theorems": [
    "C146_interrupted_toggler",
    "C146_two_pollers_refuted",
    "C146_compact_refuted",
    "C146_press_cancels_release_refuted",
    "C146_transfer_refuted",
    "C146_motion_balance",
    "C146_motion_lost_refuted",
    "C146_motion_counted_twice_refuted",
    "C146_latched_param_up_to_date",
    "C146_parameter_up_to_date",
    "C146_parameter_change_lost_refuted",
    "C146_parameter_announced_early_refuted",
    "C146_uninterrupted"
   ],
   "note": "One core, accesses in program order, handlers not interrupted. Counter-examples are given for all states that allow them."
  },
  {
   "property": "C147",
   "status": "proved",
   "theorems": [
    "C147_interrupted_ring",
    "C147_put_on_full_refuted",
    "C147_put_below_full_refuted",
    "C147_count_refuted",
    "C147_get_during_put_refuted",
    "C147_hidden_items_refuted",
    "C147_uninterrupted"
   ],
   "note": "Calls of the main program are split into their loads and stores of head_, tail_, full_ and the items; the handler's calls are atomic (Model/CircularIrq.v). Members are taken to be accessed in program order, which the code does not ask of the compiler."
  },
  {
   "property": "C148",
   "status": "proved",
   "theorems": [
    "C148_interrupted_create",
    "C148_interrupted_destroy",
    "C148_create_during_create_refuted",
    "C148_destroy_during_destroy_refuted",
    "C148_uninterrupted"
   ],
   "note": "Calls of the main program are split into their loads and stores of used and data; the handler's calls are atomic (Model/PoolIrq.v). Reading or writing a whole object counts as one access, and accesses are taken to happen in program order."
  },
  {
   "property": "C149",
   "status": "proved",
   "theorems": [
    "C149_line_from_present_value",
    "C149_arrives",
    "C149_stays_on_target_refuted",
    "C149_rests_at_zero",
    "C149_members",
    "C149_float_follows_the_line",
    "C149_zero_updates_recovers_refuted"
   ],
   "note": "The arithmetic of T is a parameter; the line is exact over rationals and bounded over binary32 (Model/InterpVar.v). The float bound covers magnitudes up to 2^120 and at most 2^22 updates."
  },
  {
   "property": "C150",
   "status": "proved",
   "theorems": [
    "C150_interrupted_call",
    "C150_interrupted_move",
    "C150_insert_seen_whole_refuted",
    "C150_erase_seen_whole_refuted",
    "C150_push_during_push_refuted",
    "C150_pop_during_pop_refuted",
    "C150_pop_of_last_during_pop_refuted",
    "C150_uninterrupted"
   ],
   "note": "Calls of the main program are split into their loads and stores of back_idx and single elements; the handler's calls are atomic (Model/VectorIrq.v). Accesses are taken to happen in program order."
  },
  {
   "property": "C151",
   "status": "proved",
   "theorems": [
    "C151_seqmap_interrupted_call",
    "C151_seqmap_other_keys",
    "C151_seqmap_removed_stays_away_refuted",
    "C151_seqmap_new_key_whole_refuted",
    "C151_seqmap_remove_whole_refuted",
    "C151_sequential_map_interrupted_call",
    "C151_sequential_map_other_keys",
    "C151_sequential_map_new_key_whole_refuted",
    "C151_sequential_map_erase_other_key_refuted",
    "C151_seqmap_uninterrupted",
    "C151_sequential_map_uninterrupted"
   ],
   "note": "Keys, values and counters are one access each and a pair is copied member by member (Model/MapIrq.v); the handler's calls are atomic. Accesses are taken to happen in program order."
  },
  {
   "property": "C152",
   "status": "proved",
   "theorems": [
    "C152_delay_line",
    "C152_constant_delay",
    "C152_overtaken_refuted"
   ],
   "note": "Stated for a crossfade that returns the new data, i.e. phase 1 on values that survive the float arithmetic; C82 says which values do."
  },
  {
   "property": "C153",
   "status": "proved",
   "theorems": [
    "C153_interrupted_copy",
    "C153_interrupted_look",
    "C153_look_sees_one_text_refuted",
    "C153_always_terminated_refuted",
    "C153_look_in_one_piece_refuted",
    "C153_uninterrupted"
   ],
   "note": "every character loaded or stored is one access; the handler's calls are atomic; the source of a copy is not shared except for a copy from the string itself; main copies with a handler that looks, main looks with a handler that copies or clears; three limits refuted for all capacities and texts"
  },
  {
   "property": "C154",
   "status": "proved",
   "theorems": [
    "C154_set_at_one_moment",
    "C154_set_leads",
    "C154_arrives_refuted",
    "C154_next_at_one_moment",
    "C154_next_then_arrives_refuted",
    "C154_stored_value_kept_refuted",
    "C154_two_steps_refuted",
    "C154_uninterrupted"
   ],
   "note": "every member read or written is one access; the handler's calls are atomic; single-moment claims in any arithmetic, the line over exact numbers; four limits refuted for all states"
  },
  {
   "property": "C155",
   "status": "proved",
   "theorems": [
    "C155_polling_side_up_to_date",
    "C155_setting_side",
    "C155_change_missed_refuted",
    "C155_uninterrupted"
   ],
   "note": "every member read or written is one access; the handler's calls are atomic; the condition on the polling side is shown necessary by a refutation"
  },
  {
   "property": "C156",
   "status": "proved",
   "theorems": [
    "C156_interrupted_block",
    "C156_read_apart",
    "C156_positions_inside_refuted",
    "C156_same_side_refuted",
    "C156_before_position_is_written_refuted",
    "C156_uninterrupted"
   ],
   "note": "every load or store of a position or an element is one access; the handler's calls are atomic; three limits shown by refutations for every such state"
  },
  {
   "property": "C157",
   "status": "proved",
   "theorems": [
    "C157_moved_elements_are_not_seen",
    "C157_storage_after_erase",
    "C157_storage_after_erase_index",
    "C157_erase_releases_unless_last_refuted",
    "C157_erased_range_is_released_partly_refuted",
    "C157_pop_and_clear_release_refuted",
    "C157_destroy_releases_refuted",
    "C157_taken_from_ring_released_refuted",
    "C157_taken_from_fifo_released_refuted"
   ],
   "note": "That containers behave as lists whatever is left in moved-from elements is proved; that removing an element releases what it owns is refuted with the exact set of elements kept."
  },
  {
   "property": "C158",
   "status": "proved",
   "theorems": [
    "C158_inner_calls_come_after",
    "C158_exactly_once_in_order",
    "C158_immediate_hardware"
   ],
   "note": "Any tree of inner calls; the hardware function accepts (returns true)."
  },
  {
   "property": "C159",
   "status": "proved",
   "theorems": [
    "C159_handler_that_looks",
    "C159_full_stack_looks_empty_refuted",
    "C159_cleared_empty_stack_shows_elements_refuted",
    "C159_handler_that_changes_refuted",
    "C159_pop_during_pop_refuted",
    "C159_push_during_push_refuted",
    "C159_uninterrupted"
   ],
   "note": "every load or store of an index, the full flag or an element is one access; the handler's calls are atomic; five limits shown by refutations for all such states"
  },
  {
   "property": "C160",
   "status": "proved",
   "theorems": [
    "C160_spsc_seek_forward",
    "C160_dyn_seek_forward",
    "C160_spsc_seek_back_refuted",
    "C160_dyn_seek_back_refuted",
    "C160_seek_after_wrap_refuted"
   ],
   "note": "sequentially consistent interleavings of single accesses; reset by the producer excluded as in C04; moving back refuted for every capacity"
  },
  {
   "property": "C161",
   "status": "proved",
   "theorems": [
    "C161_seek_is_race_free",
    "C161_dyn_seek_is_race_free",
    "C161_relaxed_load_races_refuted",
    "C161_weaker_seek_races_refuted"
   ],
   "note": "weak-memory model of C03 (program order, no load buffering); set_read_offset only with at most the announced number of items"
  },
  {
   "property": "C162",
   "status": "proved",
   "theorems": [
    "C162_raw_of_own_buffer",
    "C162_span_raw_of_own_buffer",
    "C162_raw_of_overlapping_bytes_refuted",
    "C162_copy_of_own_text",
    "C162_stored_value_as_argument",
    "C162_print_own_bytes"
   ],
   "note": "raw() with bytes of its own buffer: the record for the old bytes when they lie before the write position or behind the header, otherwise the header repeated (refutation for every position, width and length); copy of the string's own text; map insert and overwrite with a stored value. printRaw of a ByteBlock with its own bytes: exact up to one byte of overfill, freed storage read beyond (for every growth policy). field() with a reference into the buffer, and begin/end_object, are not given such arguments here."
  },
  {
   "property": "C163",
   "status": "proved",
   "theorems": [
    "C163_register_on_worn_storage",
    "C163_one_good_cell_suffices",
    "C163_failed_cell_is_left_behind",
    "C163_refused_write_destroys_data_refuted"
   ],
   "note": "Storage whose erase reports success; the storage class is arbitrary (record of functions). An honest storage reports whether it kept the data, a dishonest one need not. C163_refused_write_destroys_data_refuted shows that a refused write is not harmless."
  },
  {
   "property": "C164",
   "status": "proved",
   "theorems": [
    "C164_taken_is_no_older_than_the_mark",
    "C164_nothing_lost_unless_marked_in_between",
    "C164_nothing_lost_by_marks_at_other_times",
    "C164_marked_reading_lost_refuted",
    "C164_ordinary_readings_one_batch",
    "C164_ordinary_readings_second_batch_refuted"
   ],
   "note": "Release/acquire views of the C++20 model, executions in program order; a reading is its number in its lane, so filters and interpolation are not part of it (C111 and the Interp properties have them). C164_marked_reading_lost_refuted and C164_ordinary_readings_second_batch_refuted state what the code does not guarantee."
  },
  {
   "property": "C165",
   "status": "proved",
   "theorems": [
    "C165_relay_is_like_direct_sampling",
    "C165_one_transfer",
    "C165_update_reports_once_refuted"
   ],
   "note": "Calls are atomic here; a transfer interrupted by a sample is C146. C165_update_reports_once_refuted states what update_state does not do."
  },
  {
   "property": "C166",
   "status": "proved",
   "theorems": [
    "C166_pulse_lasts_its_width",
    "C166_exact_for_binary_rates",
    "C166_silent_without_a_start",
    "C166_ended_stays_ended",
    "C166_bad_rate_ignored",
    "C166_constructor_ignores_bad_rates_refuted"
   ],
   "note": "The pulse length is proved in exact arithmetic; what rounding does to it is C107. In single precision proved are agreement with exact arithmetic for binary rates, silence without a start, ignored rates and the constructor."
  }
 ]
}
