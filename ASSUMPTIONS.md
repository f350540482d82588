# Print Assumptions of every property theorem

Generated by `tools/assumptions.py`. `-` means "Closed under the global context".

* `ClassicalDedekindReals.sig_forall_dec` (standard library)
* `ClassicalDedekindReals.sig_not_dec` (standard library)
* `Classical_Prop.classic` (standard library)
* `FunctionalExtensionality.functional_extensionality_dep` (standard library)

| file | theorem | assumptions |
|---|---|---|
| AccessIrq.v | C156_interrupted_block | - |
| AccessIrq.v | C156_read_apart | - |
| AccessIrq.v | C156_positions_inside_refuted | - |
| AccessIrq.v | C156_same_side_refuted | - |
| AccessIrq.v | C156_before_position_is_written_refuted | - |
| AccessIrq.v | C156_uninterrupted | - |
| Audio.v | C113_sign_extend | - |
| Audio.v | C113_sign_extend_keeps_numbers_in_range | ClassicalDedekindReals.sig_forall_dec, FunctionalExtensionality.functional_extensionality_dep |
| Audio.v | C113_unsigned_sample_type_refuted | - |
| Audio.v | C114_round_trip | ClassicalDedekindReals.sig_forall_dec, ClassicalDedekindReals.sig_not_dec, Classical_Prop.classic, FunctionalExtensionality.functional_extensionality_dep |
| Audio.v | C114_input_in_range | ClassicalDedekindReals.sig_forall_dec, ClassicalDedekindReals.sig_not_dec, Classical_Prop.classic, FunctionalExtensionality.functional_extensionality_dep |
| Audio.v | C114_output_full_width | ClassicalDedekindReals.sig_forall_dec, ClassicalDedekindReals.sig_not_dec, Classical_Prop.classic, FunctionalExtensionality.functional_extensionality_dep |
| Audio.v | C114_output_infinite | ClassicalDedekindReals.sig_forall_dec, ClassicalDedekindReals.sig_not_dec, Classical_Prop.classic, FunctionalExtensionality.functional_extensionality_dep |
| Audio.v | C114_output_nan_undefined | - |
| Audio.v | C114_output_wide | ClassicalDedekindReals.sig_forall_dec, ClassicalDedekindReals.sig_not_dec, Classical_Prop.classic, FunctionalExtensionality.functional_extensionality_dep |
| Audio.v | C114_wide_saturates_refuted | ClassicalDedekindReals.sig_forall_dec, ClassicalDedekindReals.sig_not_dec, Classical_Prop.classic, FunctionalExtensionality.functional_extensionality_dep |
| Audio.v | C114_quantisation | ClassicalDedekindReals.sig_forall_dec, ClassicalDedekindReals.sig_not_dec, Classical_Prop.classic, FunctionalExtensionality.functional_extensionality_dep |
| Audio.v | C114_output_monotone | ClassicalDedekindReals.sig_forall_dec, ClassicalDedekindReals.sig_not_dec, Classical_Prop.classic, FunctionalExtensionality.functional_extensionality_dep |
| Audio.v | C114_frame | - |
| Audio.v | C114_32_bit_full_scale_refuted | ClassicalDedekindReals.sig_forall_dec, ClassicalDedekindReals.sig_not_dec, Classical_Prop.classic, FunctionalExtensionality.functional_extensionality_dep |
| Audio.v | C115_output_range_and_order | ClassicalDedekindReals.sig_forall_dec, ClassicalDedekindReals.sig_not_dec, Classical_Prop.classic, FunctionalExtensionality.functional_extensionality_dep |
| Audio.v | C115_special_values | ClassicalDedekindReals.sig_forall_dec, ClassicalDedekindReals.sig_not_dec, Classical_Prop.classic, FunctionalExtensionality.functional_extensionality_dep |
| Audio.v | C115_round_trip_refuted | ClassicalDedekindReals.sig_forall_dec, ClassicalDedekindReals.sig_not_dec, Classical_Prop.classic, FunctionalExtensionality.functional_extensionality_dep |
| Audio.v | C115_zero_sample_refuted | ClassicalDedekindReals.sig_forall_dec, ClassicalDedekindReals.sig_not_dec, Classical_Prop.classic, FunctionalExtensionality.functional_extensionality_dep |
| Audio.v | C115_32_bit_full_scale_refuted | - |
| BigBuffer.v | C137_buffers_own_their_storage | - |
| BigBuffer.v | C137_copies_can_be_destroyed_refuted | - |
| BigBuffer.v | C137_copies_are_independent_refuted | - |
| BigBuffer.v | C137_assignment_releases_refuted | - |
| Calib.v | C77_hits_targets | - |
| Calib.v | C77_reverse_is_inverse | - |
| Calib.v | C77_reverse_hits_measurements | - |
| Calib.v | C77_equal_targets_refuted | - |
| Calib.v | C77_single_precision_inverse_refuted | - |
| Calib.v | C77_voct_last_two | - |
| Calib.v | C77_voct_linear | - |
| Calib.v | C78_integer_extrema | - |
| Calib.v | C78_float_extrema | - |
| Calib.v | C78_float_limits | - |
| Calib.v | C78_float_extrema_of_samples | - |
| Calib.v | C78_negative_signal_refuted | - |
| Calib.v | C78_analyzed_signal | - |
| Calib.v | C79_destroyed_once | - |
| Calib.v | C79_calls_forward | - |
| Calib.v | C79_copy_refuted | - |
| Calib.v | C79_assign_refuted | - |
| Calib.v | C80_input | - |
| Calib.v | C80_input_keeps_first | - |
| Calib.v | C80_output | - |
| Circular.v | C07_circular_buffer_is_overwriting_queue | - |
| Circular.v | C08_set_head_gives_requested_delay | - |
| Circular.v | C08_set_head_out_of_range_refuted | - |
| Circular.v | C08_set_head_on_full_buffer_refuted | - |
| Circular.v | C09_circular_stack_is_bounded_stack | - |
| Circular.v | C85_constructor_elements_refuted | - |
| Circular.v | C84_opt_fill_buffer_value_refuted | - |
| Circular.v | C84_opt_fill_buffer_bytes | - |
| Circular.v | C84_opt_fill_buffer_array_refuted | - |
| CircularExt.v | C10_read | - |
| CircularExt.v | C10_read_reverse | - |
| CircularExt.v | C10_write | - |
| CircularExt.v | C10_write_reverse | - |
| CircularExt.v | C10_clear | - |
| CircularExt.v | C10_positions_stay_inside_forever | - |
| CircularExt.v | C10_every_history | - |
| CircularExt.v | C10_offset_outside_refuted | - |
| CircularExt.v | C11_read_check_crossed | - |
| CircularExt.v | C11_read_reverse_check_crossed | - |
| CircularExt.v | C11_write_check_crossed | - |
| CircularExt.v | C12_block_write_copies_bytes_cyclically | - |
| CircularExt.v | C12_wide_elements_refuted | - |
| CircularIrq.v | C147_interrupted_ring | - |
| CircularIrq.v | C147_put_on_full_refuted | - |
| CircularIrq.v | C147_put_below_full_refuted | - |
| CircularIrq.v | C147_count_refuted | - |
| CircularIrq.v | C147_get_during_put_refuted | - |
| CircularIrq.v | C147_hidden_items_refuted | - |
| CircularIrq.v | C147_uninterrupted | - |
| CircularMix.v | C82_write_stores_finite | ClassicalDedekindReals.sig_forall_dec, ClassicalDedekindReals.sig_not_dec, Classical_Prop.classic, FunctionalExtensionality.functional_extensionality_dep |
| CircularMix.v | C82_write_reverse_stores_finite | ClassicalDedekindReals.sig_forall_dec, ClassicalDedekindReals.sig_not_dec, Classical_Prop.classic, FunctionalExtensionality.functional_extensionality_dep |
| CircularMix.v | C82_infinite_slot_never_cleared_refuted | - |
| CircularMix.v | C82_write_over_infinity | - |
| CircularMix.v | C82_small_integers_exact | ClassicalDedekindReals.sig_forall_dec, ClassicalDedekindReals.sig_not_dec, Classical_Prop.classic, FunctionalExtensionality.functional_extensionality_dep |
| CircularMix.v | C82_integers_rounded | ClassicalDedekindReals.sig_forall_dec, ClassicalDedekindReals.sig_not_dec, Classical_Prop.classic, FunctionalExtensionality.functional_extensionality_dep |
| CircularMix.v | C82_large_integers_refuted | ClassicalDedekindReals.sig_forall_dec, ClassicalDedekindReals.sig_not_dec, Classical_Prop.classic, FunctionalExtensionality.functional_extensionality_dep |
| Color.v | C62_565_round_trip | - |
| Color.v | C62_565_layout | - |
| Color.v | C62_keeps_top_bits | - |
| Color.v | C62_classes_agree | - |
| Color.v | C62_from_888 | - |
| Color.v | C62_assign_raw | - |
| Color.v | C63_blend_is_floored_mean | - |
| Color.v | C63_blend_ends | - |
| Color.v | C63_blend_between | - |
| Color.v | C63_combine_plus_adjust | - |
| Color.v | C64_packed_blend_per_channel | - |
| Color.v | C64_packed_blend_ends | - |
| Color.v | C65_hsv_extremes | - |
| Color.v | C65_hsv_grey_and_primaries | - |
| Color.v | C98_float_components | - |
| Color.v | C98_out_of_range_not_clamped_refuted | - |
| Color.v | C99_integer_blends_keep_equal_colours | - |
| Color.v | C99_float_blend_darkens_refuted | - |
| Color.v | C99_float_blend_ends | - |
| Color.v | C100_blend32_is_floored_mean | - |
| Color.v | C100_blend32_never_arrives_refuted | - |
| Color.v | C101_neighbouring_hues_are_near | - |
| CompactBinary.v | C22_parser_is_safe_on_every_blob | - |
| CompactBinary.v | C23_parser_returns_first_match | - |
| CompactBinary.v | C24_serializer_parser_round_trip | - |
| CompactBinary.v | C25_serialize_writes_a_prefix | - |
| CompactBinary.v | C26_writer_equals_serializer | - |
| CompactBinary.v | C26_writer_below_max_depth | - |
| CompactBinary.v | C26_writer_is_safe | - |
| CompactBinary.v | C26_unmatched_end_is_ignored | - |
| CompactBinary.v | C27_round_trip_iff_size_fits | - |
| CompactBinary.v | C27_oversized_block_forges_a_later_key_refuted | - |
| CompactBinary.v | C28_string_keys_match_up_to_terminator | - |
| CompactBinary.v | C28_written_keys_are_zero_padded | - |
| CompactBinary.v | C29_wide_size_field_escapes_the_blob_refuted | - |
| CompactBinary.v | C86_signed_size_field_escapes_the_blob_refuted | - |
| Debouncer.v | C52_toggler_events | - |
| Debouncer.v | C53_transfer_moves_events | - |
| Debouncer.v | C53_transfer_loses_press_refuted | - |
| Debouncer.v | C53_copy_behaves_alike | - |
| Debouncer.v | C54_debouncer_edges | - |
| Debouncer.v | C54_debounced_level | - |
| Debouncer.v | C54_raw_level | - |
| Debouncer.v | C54_default_edges_are_spaced | - |
| Debouncer.v | C54_glitch_is_reported_refuted | - |
| Debouncer.v | C54_process_is_not_debounced_refuted | - |
| Debouncer.v | C54_process_reports_changes_only | - |
| Debouncer.v | C93_unread_press_is_dropped_refuted | - |
| Debouncer.v | C93_edge_discards_opposite | - |
| Debouncer.v | C94_counts_steady_samples | - |
| Debouncer.v | C94_large_sample_presses_every_time_refuted | - |
| Debouncer.v | C95_counts_samples_since_edge | - |
| Delay.v | C152_delay_line | - |
| Delay.v | C152_constant_delay | - |
| Delay.v | C152_overtaken_refuted | - |
| Detect.v | C57_edge_detectors | - |
| Detect.v | C57_edge_state_detector | - |
| Detect.v | C57_change_detector | - |
| Detect.v | C57_parameter | - |
| Detect.v | C57_ref_parameter | - |
| Detect.v | C60_schmitt_level | - |
| Detect.v | C60_schmitt_events | - |
| Detect.v | C60_no_chatter | - |
| Detect.v | C60_rising_trigger_reports_rises | - |
| Detect.v | C96_latched_param | - |
| Detect.v | C96_fraction_of_integer_is_zero_refuted | - |
| DoubleBuf.v | C14_double_buffer_refines_spec | - |
| DoubleBuf.v | C14_exactly_once_in_order | - |
| DoubleBuf.v | C14_two_callbacks_drain | - |
| DoubleBuf.v | C14_failed_start_blocks_forever_refuted | - |
| DoubleBufIrq.v | C135_interrupted_word_is_sent_refuted | - |
| DoubleBufIrq.v | C135_interrupted_before_the_first_element | - |
| DoubleBufIrq.v | C135_interrupted_after_the_last_element | - |
| DoubleBufIrq.v | C135_interrupted_refusal | - |
| DoubleBufReentry.v | C158_inner_calls_come_after | - |
| DoubleBufReentry.v | C158_exactly_once_in_order | - |
| DoubleBufReentry.v | C158_immediate_hardware | - |
| Encoder.v | C58_motion_iff_detent_sequence | - |
| Encoder.v | C58_inverted_encoder | - |
| Encoder.v | C58_full_turns | - |
| Encoder.v | C59_motion_is_conserved | - |
| Encoder.v | C59_small_motion_does_not_overflow | - |
| Encoder.v | C59_transfers_conserve_motion | - |
| Encoder.v | C59_transfer_empties_source | - |
| Fifo.v | C01_spsc_is_bounded_queue | - |
| Fifo.v | C06_spsc_head_offset_is_fixed_delay | - |
| Fifo.v | C05_dyn_is_bounded_queue | - |
| Fifo.v | C05_dyn_counter_wrap_refuted | - |
| Fifo.v | C06_spsc_set_read_offset_is_tape | - |
| Fifo.v | C06_dyn_set_read_offset_is_tape | - |
| Fifo.v | C06_offset_beyond_capacity_refuted | - |
| FifoConc.v | C02_spsc_linearizable | - |
| FifoConc.v | C02_dyn_linearizable | - |
| FifoConc.v | C04_consumer_reset_linearizable | - |
| FifoConc.v | C04_producer_reset_refuted | - |
| FifoPolled.v | C141_polled_consumer_is_race_free | - |
| FifoPolled.v | C141_polled_dyn_consumer_is_race_free | - |
| FifoPolled.v | C141_one_more_item_races_refuted | - |
| FifoSeek.v | C160_spsc_seek_forward | - |
| FifoSeek.v | C160_dyn_seek_forward | - |
| FifoSeek.v | C160_spsc_seek_back_refuted | - |
| FifoSeek.v | C160_dyn_seek_back_refuted | - |
| FifoSeek.v | C160_seek_after_wrap_refuted | - |
| FifoSeekWeak.v | C161_seek_is_race_free | - |
| FifoSeekWeak.v | C161_dyn_seek_is_race_free | - |
| FifoSeekWeak.v | C161_relaxed_load_races_refuted | - |
| FifoSeekWeak.v | C161_weaker_seek_races_refuted | - |
| FifoSpan.v | C139_constructed_from_block_is_empty_refuted | - |
| FifoSpan.v | C139_one_byte_elements | - |
| FifoSpan.v | C139_wide_elements_refuted | - |
| FifoWeak.v | C03_relaxed_head_load_refuted | - |
| FifoWeak.v | C03_acquire_makes_static_fifo_race_free | - |
| FifoWeak.v | C03_acquire_makes_dyn_fifo_race_free | - |
| FifoWeak.v | C03_each_order_is_needed | - |
| Filter.v | C66_moving_average | - |
| Filter.v | C66_oversampler | - |
| Filter.v | C102_smooth_oversampler | - |
| Filter.v | C102_assertion_too_weak_refuted | - |
| Filter.v | C103_resizing_oversampler | - |
| Filter.v | C103_zero_size_refuted | - |
| Filter.v | C104_hysteresis_filter | - |
| Filter.v | C104_nearest_point_is_unique | - |
| Filter.v | C104_quadratic_fraction | - |
| Filter.v | C104_quadratic_steps | - |
| Filter.v | C105_val_feeds_second_filter | - |
| Filter.v | C105_val_is_a_query_refuted | - |
| FixedVector.v | C13_fixed_vector_is_bounded_list | - |
| FixedVector.v | C13_full_erase_names_element_past_the_end_refuted | - |
| FixedVector.v | C13_last_slot_insert_names_element_past_the_end_refuted | - |
| FloatAcc.v | C129_follows_the_line | ClassicalDedekindReals.sig_forall_dec, ClassicalDedekindReals.sig_not_dec, Classical_Prop.classic, FunctionalExtensionality.functional_extensionality_dep |
| FloatAcc.v | C129_never_turns_back | ClassicalDedekindReals.sig_forall_dec, ClassicalDedekindReals.sig_not_dec, Classical_Prop.classic, FunctionalExtensionality.functional_extensionality_dep |
| FloatAcc.v | C129_arrives_refuted | - |
| FloatAcc.v | C129_small_changes_happen_refuted | ClassicalDedekindReals.sig_forall_dec, ClassicalDedekindReals.sig_not_dec, Classical_Prop.classic, FunctionalExtensionality.functional_extensionality_dep |
| FloatAcc.v | C130_lookup_accuracy | ClassicalDedekindReals.sig_forall_dec, ClassicalDedekindReals.sig_not_dec, Classical_Prop.classic, FunctionalExtensionality.functional_extensionality_dep |
| FloatAcc.v | C130_interp_accuracy | ClassicalDedekindReals.sig_forall_dec, ClassicalDedekindReals.sig_not_dec, Classical_Prop.classic, FunctionalExtensionality.functional_extensionality_dep |
| FloatAcc.v | C131_dead_zone_width | ClassicalDedekindReals.sig_forall_dec, ClassicalDedekindReals.sig_not_dec, Classical_Prop.classic, FunctionalExtensionality.functional_extensionality_dep |
| FloatAcc.v | C131_hysteresis_step | ClassicalDedekindReals.sig_forall_dec, ClassicalDedekindReals.sig_not_dec, Classical_Prop.classic, FunctionalExtensionality.functional_extensionality_dep |
| FloatAcc.v | C131_hysteresis_tracks | ClassicalDedekindReals.sig_forall_dec, ClassicalDedekindReals.sig_not_dec, Classical_Prop.classic, FunctionalExtensionality.functional_extensionality_dep |
| FloatAcc.v | C131_quadratic_step | ClassicalDedekindReals.sig_forall_dec, ClassicalDedekindReals.sig_not_dec, Classical_Prop.classic, FunctionalExtensionality.functional_extensionality_dep |
| FloatAcc.v | C131_quadratic_arrives_refuted | - |
| FloatAcc.v | C131_quadratic_settles_refuted | - |
| FloatAcc.v | C132_adjusted_reading | ClassicalDedekindReals.sig_forall_dec, ClassicalDedekindReals.sig_not_dec, Classical_Prop.classic, FunctionalExtensionality.functional_extensionality_dep |
| FloatAcc.v | C132_reversed_value | ClassicalDedekindReals.sig_forall_dec, ClassicalDedekindReals.sig_not_dec, Classical_Prop.classic, FunctionalExtensionality.functional_extensionality_dep |
| FloatAcc.v | C132_round_trip | ClassicalDedekindReals.sig_forall_dec, ClassicalDedekindReals.sig_not_dec, Classical_Prop.classic, FunctionalExtensionality.functional_extensionality_dep |
| FloatAcc.v | C133_resizing_mean | ClassicalDedekindReals.sig_forall_dec, ClassicalDedekindReals.sig_not_dec, Classical_Prop.classic, FunctionalExtensionality.functional_extensionality_dep |
| FloatAcc.v | C133_smooth_mean | ClassicalDedekindReals.sig_forall_dec, ClassicalDedekindReals.sig_not_dec, Classical_Prop.classic, FunctionalExtensionality.functional_extensionality_dep |
| FloatAcc2.v | C134_float_blend | ClassicalDedekindReals.sig_forall_dec, ClassicalDedekindReals.sig_not_dec, Classical_Prop.classic, FunctionalExtensionality.functional_extensionality_dep |
| FloatAcc2.v | C134_float_blend_ends | ClassicalDedekindReals.sig_forall_dec, ClassicalDedekindReals.sig_not_dec, Classical_Prop.classic, FunctionalExtensionality.functional_extensionality_dep |
| FloatAcc2.v | C134_phase_above_one_refuted | ClassicalDedekindReals.sig_forall_dec, ClassicalDedekindReals.sig_not_dec, Classical_Prop.classic, FunctionalExtensionality.functional_extensionality_dep |
| FloatAcc2.v | C136_stays_within_the_signal | ClassicalDedekindReals.sig_forall_dec, ClassicalDedekindReals.sig_not_dec, Classical_Prop.classic, FunctionalExtensionality.functional_extensionality_dep |
| FloatAcc2.v | C136_one_update | ClassicalDedekindReals.sig_forall_dec, ClassicalDedekindReals.sig_not_dec, Classical_Prop.classic, FunctionalExtensionality.functional_extensionality_dep |
| FloatAcc2.v | C136_approaches_a_constant | ClassicalDedekindReals.sig_forall_dec, ClassicalDedekindReals.sig_not_dec, Classical_Prop.classic, FunctionalExtensionality.functional_extensionality_dep |
| FloatAcc2.v | C136_template_coefficient | ClassicalDedekindReals.sig_forall_dec, ClassicalDedekindReals.sig_not_dec, Classical_Prop.classic, FunctionalExtensionality.functional_extensionality_dep |
| FloatAcc2.v | C136_arrives_refuted | ClassicalDedekindReals.sig_forall_dec, ClassicalDedekindReals.sig_not_dec, Classical_Prop.classic, FunctionalExtensionality.functional_extensionality_dep |
| FloatAcc2.v | C136_coefficient_one_follows_refuted | ClassicalDedekindReals.sig_forall_dec, ClassicalDedekindReals.sig_not_dec, Classical_Prop.classic, FunctionalExtensionality.functional_extensionality_dep |
| FloatAcc2.v | C138_slope_and_offset | ClassicalDedekindReals.sig_forall_dec, ClassicalDedekindReals.sig_not_dec, Classical_Prop.classic, FunctionalExtensionality.functional_extensionality_dep |
| FloatAcc2.v | C140_integer_brightness | - |
| FloatAcc2.v | C140_full_integer_brightness_refuted | - |
| FloatAcc2.v | C140_float_brightness | ClassicalDedekindReals.sig_forall_dec, ClassicalDedekindReals.sig_not_dec, Classical_Prop.classic, FunctionalExtensionality.functional_extensionality_dep |
| FloatAcc2.v | C140_float_brightness_above_one_refuted | ClassicalDedekindReals.sig_forall_dec, ClassicalDedekindReals.sig_not_dec, Classical_Prop.classic, FunctionalExtensionality.functional_extensionality_dep |
| Geometry.v | C61_gate_thresholds | - |
| Geometry.v | C61_switches_on_below_turn_on_refuted | - |
| Geometry.v | C61_feedback_thresholds | - |
| Geometry.v | C76_y_intersects | - |
| Geometry.v | C76_x_intersects_misses_spanning | - |
| Geometry.v | C76_is_intersecting_not_symmetric_refuted | - |
| Geometry.v | C76_concave_iff_turns_both_ways | - |
| Geometry.v | C76_concave_is_defined | - |
| Geometry.v | C76_small_polygons_never_concave_refuted | - |
| Geometry.v | C97_centers_inside | - |
| Geometry.v | C97_centers_in_the_middle | - |
| Geometry.v | C97_sizes_agree | - |
| Geometry.v | C97_width_overflow_refuted | - |
| Geometry.v | C97_center_overflow_refuted | - |
| IntToStr.v | C34_int_to_str_drops_zero_digits | - |
| IntToStr.v | C34_correct_iff_no_zero_digit | - |
| IntToStr.v | C34_renderings_exist_and_are_unique | - |
| IntToStr.v | C35_int_to_str_stays_in_the_buffer | - |
| IntToStr.v | C35_zero_overruns_short_buffers_refuted | - |
| IntToStr.v | C35_int_min_overflows_refuted | - |
| IntToStr.v | C36_chop_output | - |
| IntToStr.v | C36_contract_holds_without_zeros_or_final_one | - |
| IntToStr.v | C36_one_and_ten_refuted | - |
| IntToStr.v | C36_zero_and_tiny_buffers | - |
| IntToStr.v | C37_num_digits_counts_digits | - |
| IntToStr.v | C38_print_renders_numbers | - |
| IntToStr.v | C38_print_in_order | - |
| IntToStr.v | C39_cstring_printed_up_to_terminator | - |
| IntToStr.v | C39_string_view_length_ignored_refuted | - |
| Interp.v | C75_equally_spaced | - |
| Interp.v | C75_arrives | - |
| Interp.v | C75_array_reads | - |
| Interp.v | C75_current_is_last_output | - |
| Interp.v | C75_no_new_data_no_change | - |
| Interp.v | C75_zero_until_marked | - |
| Interp.v | C75_stays_on_target_refuted | - |
| Interp.v | C111_marked_data_is_read | - |
| Interp.v | C111_versions | - |
| Interp.v | C111_settles | - |
| Interp.v | C111_nothing_marked | - |
| Interp.v | C112_int_misses_by_remainder | - |
| Interp.v | C112_unsigned_ramp_down_refuted | - |
| Interp.v | C112_variable_step | - |
| Interp.v | C112_variable_zero_updates_refuted | - |
| InterpIrq.v | C154_set_at_one_moment | - |
| InterpIrq.v | C154_set_leads | - |
| InterpIrq.v | C154_arrives_refuted | - |
| InterpIrq.v | C154_next_at_one_moment | - |
| InterpIrq.v | C154_next_then_arrives_refuted | - |
| InterpIrq.v | C154_stored_value_kept_refuted | - |
| InterpIrq.v | C154_two_steps_refuted | - |
| InterpIrq.v | C154_uninterrupted | - |
| InterpVar.v | C149_line_from_present_value | - |
| InterpVar.v | C149_arrives | - |
| InterpVar.v | C149_stays_on_target_refuted | - |
| InterpVar.v | C149_rests_at_zero | - |
| InterpVar.v | C149_members | - |
| InterpVar.v | C149_float_follows_the_line | ClassicalDedekindReals.sig_forall_dec, ClassicalDedekindReals.sig_not_dec, Classical_Prop.classic, FunctionalExtensionality.functional_extensionality_dep |
| InterpVar.v | C149_zero_updates_recovers_refuted | - |
| InterpWeak.v | C164_taken_is_no_older_than_the_mark | - |
| InterpWeak.v | C164_nothing_lost_unless_marked_in_between | - |
| InterpWeak.v | C164_nothing_lost_by_marks_at_other_times | - |
| InterpWeak.v | C164_marked_reading_lost_refuted | - |
| InterpWeak.v | C164_ordinary_readings_one_batch | - |
| InterpWeak.v | C164_ordinary_readings_second_batch_refuted | - |
| Irq.v | C146_interrupted_toggler | - |
| Irq.v | C146_two_pollers_refuted | - |
| Irq.v | C146_compact_refuted | - |
| Irq.v | C146_press_cancels_release_refuted | - |
| Irq.v | C146_transfer_refuted | - |
| Irq.v | C146_motion_balance | - |
| Irq.v | C146_motion_lost_refuted | - |
| Irq.v | C146_motion_counted_twice_refuted | - |
| Irq.v | C146_latched_param_up_to_date | - |
| Irq.v | C146_parameter_up_to_date | - |
| Irq.v | C146_parameter_change_lost_refuted | - |
| Irq.v | C146_parameter_announced_early_refuted | - |
| Irq.v | C146_uninterrupted | - |
| LedAnim.v | C143_fade_returns_to_base | ClassicalDedekindReals.sig_forall_dec, ClassicalDedekindReals.sig_not_dec, Classical_Prop.classic, FunctionalExtensionality.functional_extensionality_dep |
| LedAnim.v | C143_breathing_follows_a_triangle | - |
| LedAnim.v | C143_breathing_frequency | ClassicalDedekindReals.sig_forall_dec, ClassicalDedekindReals.sig_not_dec, Classical_Prop.classic, FunctionalExtensionality.functional_extensionality_dep |
| LedAnim.v | C143_flash_leaves_breathing_alone | ClassicalDedekindReals.sig_forall_dec, ClassicalDedekindReals.sig_not_dec, Classical_Prop.classic, FunctionalExtensionality.functional_extensionality_dep |
| LedAnim.v | C143_full_colour_never_shown_refuted | - |
| LedAnim.v | C143_negative_frequency_refuted | ClassicalDedekindReals.sig_forall_dec, ClassicalDedekindReals.sig_not_dec, Classical_Prop.classic, FunctionalExtensionality.functional_extensionality_dep |
| MapIrq.v | C151_seqmap_interrupted_call | - |
| MapIrq.v | C151_seqmap_other_keys | - |
| MapIrq.v | C151_seqmap_removed_stays_away_refuted | - |
| MapIrq.v | C151_seqmap_new_key_whole_refuted | - |
| MapIrq.v | C151_seqmap_remove_whole_refuted | - |
| MapIrq.v | C151_sequential_map_interrupted_call | - |
| MapIrq.v | C151_sequential_map_other_keys | - |
| MapIrq.v | C151_sequential_map_new_key_whole_refuted | - |
| MapIrq.v | C151_sequential_map_erase_other_key_refuted | - |
| MapIrq.v | C151_seqmap_uninterrupted | - |
| MapIrq.v | C151_sequential_map_uninterrupted | - |
| Maps.v | C15_sequential_map_is_bounded_map | - |
| Maps.v | C15_keys_are_distinct | - |
| Maps.v | C15_assigned_value_is_found | - |
| Maps.v | C15_other_keys_are_unaffected | - |
| Maps.v | C15_const_index_of_missing_key_dangles_refuted | - |
| Maps.v | C16_insert_loses_the_value_refuted | - |
| Maps.v | C16_insert_flag_size_and_keys | - |
| Maps.v | C17_seqmap_is_fifo_evicting_map | - |
| Maps.v | C17_zero_capacity_refuted | - |
| Maps.v | C18_seqmap_slots | - |
| Maps.v | C18_duplicate_insert_keeps_old_value_refuted | - |
| Maps.v | C18_remove_leaves_default_key_refuted | - |
| Maps.v | C18_remove_last_after_eviction_refuted | - |
| MathFloat.v | C119_interpolate_end_points | ClassicalDedekindReals.sig_forall_dec, ClassicalDedekindReals.sig_not_dec, Classical_Prop.classic, FunctionalExtensionality.functional_extensionality_dep |
| MathFloat.v | C119_interpolate_bounded | ClassicalDedekindReals.sig_forall_dec, ClassicalDedekindReals.sig_not_dec, Classical_Prop.classic, FunctionalExtensionality.functional_extensionality_dep |
| MathFloat.v | C119_interpolate_accuracy | ClassicalDedekindReals.sig_forall_dec, ClassicalDedekindReals.sig_not_dec, Classical_Prop.classic, FunctionalExtensionality.functional_extensionality_dep |
| MathFloat.v | C119_interpolate3_accuracy | ClassicalDedekindReals.sig_forall_dec, ClassicalDedekindReals.sig_not_dec, Classical_Prop.classic, FunctionalExtensionality.functional_extensionality_dep |
| MathFloat.v | C119_interpolate3_start | ClassicalDedekindReals.sig_forall_dec, ClassicalDedekindReals.sig_not_dec, Classical_Prop.classic, FunctionalExtensionality.functional_extensionality_dep |
| MathFloat.v | C119_interpolate3_end_refuted | ClassicalDedekindReals.sig_forall_dec, ClassicalDedekindReals.sig_not_dec, Classical_Prop.classic, FunctionalExtensionality.functional_extensionality_dep |
| MathFloat.v | C119_infinite_end_refuted | - |
| MathFloat.v | C120_f_abs | ClassicalDedekindReals.sig_forall_dec, ClassicalDedekindReals.sig_not_dec, Classical_Prop.classic, FunctionalExtensionality.functional_extensionality_dep |
| MathFloat.v | C120_f_abs_sign_refuted | - |
| MathFloat.v | C120_faster_sine_bounded | ClassicalDedekindReals.sig_forall_dec, ClassicalDedekindReals.sig_not_dec, Classical_Prop.classic, FunctionalExtensionality.functional_extensionality_dep |
| MathFloat.v | C120_faster_sine_accuracy | ClassicalDedekindReals.sig_forall_dec, ClassicalDedekindReals.sig_not_dec, Classical_Prop.classic, FunctionalExtensionality.functional_extensionality_dep |
| MathFloat.v | C120_faster_sine_is_minus_sine | ClassicalDedekindReals.sig_forall_dec, ClassicalDedekindReals.sig_not_dec, Classical_Prop.classic, FunctionalExtensionality.functional_extensionality_dep |
| MathFloat.v | C120_faster_sine_quarters | - |
| MathFloat.v | C121_gate_is_0_or_1 | - |
| MathFloat.v | C121_gate_on | ClassicalDedekindReals.sig_forall_dec, ClassicalDedekindReals.sig_not_dec, Classical_Prop.classic, FunctionalExtensionality.functional_extensionality_dep |
| MathFloat.v | C121_gate_off | ClassicalDedekindReals.sig_forall_dec, ClassicalDedekindReals.sig_not_dec, Classical_Prop.classic, FunctionalExtensionality.functional_extensionality_dep |
| MathFloat.v | C121_monotone | ClassicalDedekindReals.sig_forall_dec, ClassicalDedekindReals.sig_not_dec, Classical_Prop.classic, FunctionalExtensionality.functional_extensionality_dep |
| MathFloat.v | C121_feedback_off | ClassicalDedekindReals.sig_forall_dec, ClassicalDedekindReals.sig_not_dec, Classical_Prop.classic, FunctionalExtensionality.functional_extensionality_dep |
| MathFloat.v | C121_feedback_on | ClassicalDedekindReals.sig_forall_dec, ClassicalDedekindReals.sig_not_dec, Classical_Prop.classic, FunctionalExtensionality.functional_extensionality_dep |
| MathFloat.v | C121_feedback_on_exact | ClassicalDedekindReals.sig_forall_dec, ClassicalDedekindReals.sig_not_dec, Classical_Prop.classic, FunctionalExtensionality.functional_extensionality_dep |
| MathFloat.v | C121_feedback_monotone | ClassicalDedekindReals.sig_forall_dec, ClassicalDedekindReals.sig_not_dec, Classical_Prop.classic, FunctionalExtensionality.functional_extensionality_dep |
| MathInt.v | C46_is_power_of_2_exact | - |
| MathInt.v | C46_log2_floor_exact | - |
| MathInt.v | C46_next_power_of_2_exact | - |
| MathInt.v | C46_64_bit_powers_doubled_refuted | - |
| MathInt.v | C46_64_bit_low_half_power_refuted | - |
| MathInt.v | C46_ipow_exact | - |
| MathInt.v | C46_Log2_exact | - |
| MathInt.v | C46_bipolar_type_range | - |
| MathInt.v | C46_bipolar_type_range_64_bit_refuted | - |
| MathInt.v | C47_wrap_range_exact | - |
| MathInt.v | C47_wide_range_overflows_refuted | - |
| MathInt.v | C47_empty_range_never_returns | - |
| MathInt.v | C47_wrap_max_is_modulo | - |
| MathInt.v | C47_wrap_max_zero_diverges | - |
| MathInt.v | C90_wrap_int_right_for_nonnegative | - |
| MathInt.v | C90_wrap_int_wrong_for_negative_refuted | - |
| MathInt.v | C48_swaps_reverse_bytes | - |
| MathInt.v | C48_swaps_are_involutions | - |
| MathInt.v | C48_combine | - |
| MathInt.v | C49_saturation_is_nearest | - |
| MathInt.v | C49_nearest_unique | - |
| MathInt.v | C49_other_widths_are_identity | - |
| MathInt.v | C49_distances | - |
| MathInt.v | C49_array_differences | - |
| MathInt.v | C49_array_difference_overflow_refuted | - |
| MathInt.v | C50_interpolate_exact_for_nonnegative | - |
| MathInt.v | C50_interpolate_negative_refuted | - |
| MathInt.v | C51_plateau_removes_the_dead_zone | - |
| MathInt.v | C51_plateau_steps_by_at_most_one | - |
| MathInt.v | C51_wrapped_edge_refuted | - |
| MathInt.v | C91_map_value_maps_the_range | - |
| MathInt.v | C91_map_value_monotone | - |
| MathInt.v | C91_empty_input_range_undefined | - |
| MathInt.v | C92_random_number_in_range | - |
| MathInt.v | C92_random_number_overflows_32_bit_long_refuted | - |
| MathTables.v | C122_sin | ClassicalDedekindReals.sig_forall_dec, ClassicalDedekindReals.sig_not_dec, Classical_Prop.classic, FunctionalExtensionality.functional_extensionality_dep |
| MathTables.v | C122_sin01 | ClassicalDedekindReals.sig_forall_dec, ClassicalDedekindReals.sig_not_dec, Classical_Prop.classic, FunctionalExtensionality.functional_extensionality_dep |
| MathTables.v | C122_cos | ClassicalDedekindReals.sig_forall_dec, ClassicalDedekindReals.sig_not_dec, Classical_Prop.classic, FunctionalExtensionality.functional_extensionality_dep |
| MathTables.v | C122_small_negative | ClassicalDedekindReals.sig_forall_dec, ClassicalDedekindReals.sig_not_dec, Classical_Prop.classic, FunctionalExtensionality.functional_extensionality_dep |
| MathTables.v | C122_sin_for_any_x_refuted | ClassicalDedekindReals.sig_forall_dec, ClassicalDedekindReals.sig_not_dec, Classical_Prop.classic, FunctionalExtensionality.functional_extensionality_dep |
| MathTables.v | C122_sin01_for_any_x_refuted | ClassicalDedekindReals.sig_forall_dec, ClassicalDedekindReals.sig_not_dec, Classical_Prop.classic, FunctionalExtensionality.functional_extensionality_dep |
| MathTables.v | C122_cos_for_any_x_refuted | ClassicalDedekindReals.sig_forall_dec, ClassicalDedekindReals.sig_not_dec, Classical_Prop.classic, FunctionalExtensionality.functional_extensionality_dep |
| MathTables.v | C123_pow2 | ClassicalDedekindReals.sig_forall_dec, ClassicalDedekindReals.sig_not_dec, Classical_Prop.classic, FunctionalExtensionality.functional_extensionality_dep |
| MathTables.v | C123_pow2_small_negative | ClassicalDedekindReals.sig_forall_dec, ClassicalDedekindReals.sig_not_dec, Classical_Prop.classic, FunctionalExtensionality.functional_extensionality_dep |
| MathTables.v | C123_pow2_negative_refuted | ClassicalDedekindReals.sig_forall_dec, ClassicalDedekindReals.sig_not_dec, Classical_Prop.classic, FunctionalExtensionality.functional_extensionality_dep |
| MathTables.v | C123_pow2_overflow | ClassicalDedekindReals.sig_forall_dec, ClassicalDedekindReals.sig_not_dec, Classical_Prop.classic, FunctionalExtensionality.functional_extensionality_dep |
| MathTables.v | C123_pow2_terminates_refuted | ClassicalDedekindReals.sig_forall_dec, ClassicalDedekindReals.sig_not_dec, Classical_Prop.classic, FunctionalExtensionality.functional_extensionality_dep |
| MathTables.v | C123_pitch_multiple | ClassicalDedekindReals.sig_forall_dec, ClassicalDedekindReals.sig_not_dec, Classical_Prop.classic, FunctionalExtensionality.functional_extensionality_dep |
| MathTables.v | C123_pitch_multiple_special | - |
| MathTables.v | C124_freq_to_norm | ClassicalDedekindReals.sig_forall_dec, ClassicalDedekindReals.sig_not_dec, Classical_Prop.classic, FunctionalExtensionality.functional_extensionality_dep |
| MathTables.v | C124_freq_special | - |
| MathTables.v | C125_tan | ClassicalDedekindReals.sig_forall_dec, ClassicalDedekindReals.sig_not_dec, Classical_Prop.classic, FunctionalExtensionality.functional_extensionality_dep |
| MathTables.v | C125_tan_to_1_4 | ClassicalDedekindReals.sig_forall_dec, ClassicalDedekindReals.sig_not_dec, Classical_Prop.classic, FunctionalExtensionality.functional_extensionality_dep |
| MathTables.v | C125_tan_to_1_5 | ClassicalDedekindReals.sig_forall_dec, ClassicalDedekindReals.sig_not_dec, Classical_Prop.classic, FunctionalExtensionality.functional_extensionality_dep |
| MathTables.v | C125_tan_sign_refuted | ClassicalDedekindReals.sig_forall_dec, ClassicalDedekindReals.sig_not_dec, Classical_Prop.classic, FunctionalExtensionality.functional_extensionality_dep |
| MathTables.v | C125_tan_small_negative | ClassicalDedekindReals.sig_forall_dec, ClassicalDedekindReals.sig_not_dec, Classical_Prop.classic, FunctionalExtensionality.functional_extensionality_dep |
| MathTables.v | C125_tan_negative_refuted | ClassicalDedekindReals.sig_forall_dec, ClassicalDedekindReals.sig_not_dec, Classical_Prop.classic, FunctionalExtensionality.functional_extensionality_dep |
| MathTables.v | C126_exp5 | ClassicalDedekindReals.sig_forall_dec, ClassicalDedekindReals.sig_not_dec, Classical_Prop.classic, FunctionalExtensionality.functional_extensionality_dep |
| MathTables.v | C126_exp10 | ClassicalDedekindReals.sig_forall_dec, ClassicalDedekindReals.sig_not_dec, Classical_Prop.classic, FunctionalExtensionality.functional_extensionality_dep |
| MathTables.v | C126_pow9_entries | ClassicalDedekindReals.sig_forall_dec, ClassicalDedekindReals.sig_not_dec, Classical_Prop.classic, FunctionalExtensionality.functional_extensionality_dep |
| MathTables.v | C126_pow9_is_ninth_power_refuted | ClassicalDedekindReals.sig_forall_dec, ClassicalDedekindReals.sig_not_dec, Classical_Prop.classic, FunctionalExtensionality.functional_extensionality_dep |
| MathTables.v | C127_ramp | ClassicalDedekindReals.sig_forall_dec, ClassicalDedekindReals.sig_not_dec, Classical_Prop.classic, FunctionalExtensionality.functional_extensionality_dep |
| MathTables.v | C127_ramp_below_one_refuted | ClassicalDedekindReals.sig_forall_dec, ClassicalDedekindReals.sig_not_dec, Classical_Prop.classic, FunctionalExtensionality.functional_extensionality_dep |
| MathTables.v | C127_triangle | ClassicalDedekindReals.sig_forall_dec, ClassicalDedekindReals.sig_not_dec, Classical_Prop.classic, FunctionalExtensionality.functional_extensionality_dep |
| MathTables.v | C127_sine | ClassicalDedekindReals.sig_forall_dec, ClassicalDedekindReals.sig_not_dec, Classical_Prop.classic, FunctionalExtensionality.functional_extensionality_dep |
| MathTables.v | C128_frequency | ClassicalDedekindReals.sig_forall_dec, ClassicalDedekindReals.sig_not_dec, Classical_Prop.classic, FunctionalExtensionality.functional_extensionality_dep |
| MathTables.v | C128_period | ClassicalDedekindReals.sig_forall_dec, ClassicalDedekindReals.sig_not_dec, Classical_Prop.classic, FunctionalExtensionality.functional_extensionality_dep |
| MathTables.v | C128_long_period_refuted | ClassicalDedekindReals.sig_forall_dec, ClassicalDedekindReals.sig_not_dec, Classical_Prop.classic, FunctionalExtensionality.functional_extensionality_dep |
| MathTables.v | C128_short_period_refuted | ClassicalDedekindReals.sig_forall_dec, ClassicalDedekindReals.sig_not_dec, Classical_Prop.classic, FunctionalExtensionality.functional_extensionality_dep |
| Memory.v | C68_blocks | - |
| Memory.v | C68_exact_fit_refuted | - |
| Memory.v | C69_request | - |
| Memory.v | C69_overflow_asks_too_little_refuted | - |
| Memory.v | C69_tiny_block_refuted | - |
| Memory.v | C70_unsigned | - |
| Memory.v | C70_signed | - |
| Memory.v | C70_wide_ranges_refuted | - |
| Memory.v | C72_good_memory | - |
| Memory.v | C72_any_bad_word_is_reported | - |
| Memory.v | C72_shared_storage_is_reported | - |
| Memory.v | C72_injective_wiring_passes | - |
| Memory.v | C72_pattern_period | - |
| Memory.v | C72_address_order | - |
| Memory.v | C73_decodes | - |
| Memory.v | C73_appends | - |
| Memory.v | C109_last_word | - |
| Memory.v | C110_padding | - |
| Neon.v | C116_lanes | - |
| Neon.v | C116_load_needs_four | - |
| Neon.v | C116_accumulator_untouched_refuted | - |
| Neon.v | C116_maximum | - |
| Neon.v | C116_maximum_lanes | - |
| Neon.v | C116_nan_propagates_refuted | - |
| Neon.v | C117_bits | - |
| Neon.v | C117_order_and_repetition | - |
| Neon.v | C117_range | - |
| Neon.v | C117_OR_refuted | - |
| Neon.v | C118_is_finite | - |
| Neon.v | C118_bit_patterns | - |
| Neon.v | C118_is_inf | - |
| OneShot.v | C166_pulse_lasts_its_width | - |
| OneShot.v | C166_exact_for_binary_rates | ClassicalDedekindReals.sig_forall_dec, ClassicalDedekindReals.sig_not_dec, Classical_Prop.classic, FunctionalExtensionality.functional_extensionality_dep |
| OneShot.v | C166_silent_without_a_start | - |
| OneShot.v | C166_ended_stays_ended | - |
| OneShot.v | C166_bad_rate_ignored | - |
| OneShot.v | C166_constructor_ignores_bad_rates_refuted | ClassicalDedekindReals.sig_forall_dec, ClassicalDedekindReals.sig_not_dec, Classical_Prop.classic, FunctionalExtensionality.functional_extensionality_dep |
| OneShot.v | C107_any_long_pulse_refuted | ClassicalDedekindReals.sig_forall_dec, ClassicalDedekindReals.sig_not_dec, Classical_Prop.classic, FunctionalExtensionality.functional_extensionality_dep |
| Oscs.v | C67_phase | - |
| Oscs.v | C67_set_phase | - |
| Oscs.v | C67_triangle | - |
| Oscs.v | C67_triangle_takes_each_value_once | - |
| Oscs.v | C67_triangle_has_no_jumps | - |
| Oscs.v | C67_down_counter | - |
| Oscs.v | C67_down_counter_ends | - |
| Oscs.v | C67_period_below_one_second_refuted | - |
| Oscs.v | C83_quiet_led_shows_base_colour | - |
| Oscs.v | C83_flash_shown | ClassicalDedekindReals.sig_forall_dec, ClassicalDedekindReals.sig_not_dec, Classical_Prop.classic, FunctionalExtensionality.functional_extensionality_dep |
| Oscs.v | C83_flash_of_a_divisor_of_a_second | ClassicalDedekindReals.sig_forall_dec, ClassicalDedekindReals.sig_not_dec, Classical_Prop.classic, FunctionalExtensionality.functional_extensionality_dep |
| Oscs.v | C83_flash_over_half_a_second_refuted | ClassicalDedekindReals.sig_forall_dec, ClassicalDedekindReals.sig_not_dec, Classical_Prop.classic, FunctionalExtensionality.functional_extensionality_dep |
| Oscs.v | C83_flash_over_a_second_refuted | ClassicalDedekindReals.sig_forall_dec, ClassicalDedekindReals.sig_not_dec, Classical_Prop.classic, FunctionalExtensionality.functional_extensionality_dep |
| Oscs.v | C106_sine_val_advances_refuted | - |
| Oscs.v | C107_one_shot | - |
| Oscs.v | C107_one_block | - |
| Oscs.v | C107_long_pulse_never_ends_refuted | - |
| Oscs.v | C108_frequency | - |
| Oscs.v | C108_constructor | - |
| Oscs.v | C108_period | - |
| Oscs.v | C108_period_ms_in_whole_seconds_refuted | - |
| Oscs.v | C108_long_period_stops_refuted | - |
| OwnBuffer.v | C162_raw_of_own_buffer | - |
| OwnBuffer.v | C162_span_raw_of_own_buffer | - |
| OwnBuffer.v | C162_raw_of_overlapping_bytes_refuted | - |
| OwnBuffer.v | C162_copy_of_own_text | - |
| OwnBuffer.v | C162_stored_value_as_argument | - |
| OwnBuffer.v | C162_print_own_bytes | - |
| PackedF.v | C144_packed_blends | ClassicalDedekindReals.sig_forall_dec, ClassicalDedekindReals.sig_not_dec, Classical_Prop.classic, FunctionalExtensionality.functional_extensionality_dep |
| PackedF.v | C144_packed_blends_agree | ClassicalDedekindReals.sig_forall_dec, ClassicalDedekindReals.sig_not_dec, Classical_Prop.classic, FunctionalExtensionality.functional_extensionality_dep |
| PackedF.v | C144_packed_ends | - |
| PackedF.v | C144_scaling_dims | ClassicalDedekindReals.sig_forall_dec, ClassicalDedekindReals.sig_not_dec, Classical_Prop.classic, FunctionalExtensionality.functional_extensionality_dep |
| PackedF.v | C144_weight_out_of_range_refuted | ClassicalDedekindReals.sig_forall_dec, ClassicalDedekindReals.sig_not_dec, Classical_Prop.classic, FunctionalExtensionality.functional_extensionality_dep |
| PackedF.v | C144_scaling_up_refuted | ClassicalDedekindReals.sig_forall_dec, ClassicalDedekindReals.sig_not_dec, Classical_Prop.classic, FunctionalExtensionality.functional_extensionality_dep |
| Poll.v | C55_fires_when_period_elapsed | - |
| Poll.v | C55_fires_across_wraps_when_due_time_wraps | - |
| Poll.v | C55_expiry_missed_on_wrap_refuted | - |
| Poll.v | C55_signed_clock | - |
| Poll.v | C56_poll_reads_when_due | - |
| Poll.v | C56_take_change_reports_noticed_changes | - |
| Poll.v | C56_due_is_wrap_safe | - |
| Poll.v | C56_force_depends_on_clock_refuted | - |
| Pool.v | C20_pool_slots | - |
| Pool.v | C21_mutual_exclusion_and_race_freedom | - |
| Pool.v | C21_returned_index_is_free | - |
| Pool.v | C21_nullopt_means_each_slot_seen_used | - |
| Pool.v | C21_create_is_wait_free | - |
| Pool.v | C21_relaxed_exchange_races_refuted | - |
| Pool.v | C21_clear_breaks_exclusion_refuted | - |
| Pool.v | C21_clear_races_refuted | - |
| PoolIrq.v | C148_interrupted_create | - |
| PoolIrq.v | C148_interrupted_destroy | - |
| PoolIrq.v | C148_create_during_create_refuted | - |
| PoolIrq.v | C148_destroy_during_destroy_refuted | - |
| PoolIrq.v | C148_uninterrupted | - |
| PoolUsed.v | C142_no_race | - |
| PoolUsed.v | C142_owner_sees_used | - |
| PoolUsed.v | C142_used_was_created | - |
| PoolUsed.v | C142_single_thread_exact | - |
| PoolUsed.v | C142_newest_value | - |
| PoolUsed.v | C142_used_then_read_refuted | - |
| PoolUsed.v | C142_stale_free_refuted | - |
| Range.v | C71_common_prefix | - |
| Range.v | C71_no_containers_refuted | - |
| Range.v | C71_iterator_equality_transitive_refuted | - |
| Range.v | C74_every_index_once | - |
| Range.v | C74_balanced | - |
| Range.v | C74_too_many_initial_values_refuted | - |
| RefIrq.v | C155_polling_side_up_to_date | - |
| RefIrq.v | C155_setting_side | - |
| RefIrq.v | C155_change_missed_refuted | - |
| RefIrq.v | C155_uninterrupted | - |
| Relay.v | C165_relay_is_like_direct_sampling | - |
| Relay.v | C165_one_transfer | - |
| Relay.v | C165_update_reports_once_refuted | - |
| StackIrq.v | C159_handler_that_looks | - |
| StackIrq.v | C159_full_stack_looks_empty_refuted | - |
| StackIrq.v | C159_cleared_empty_stack_shows_elements_refuted | - |
| StackIrq.v | C159_handler_that_changes_refuted | - |
| StackIrq.v | C159_pop_during_pop_refuted | - |
| StackIrq.v | C159_push_during_push_refuted | - |
| StackIrq.v | C159_uninterrupted | - |
| StaticString.v | C19_static_string_holds_longest_prefix | - |
| StaticString.v | C19_zero_capacity_view_copy_refuted | - |
| StaticString.v | C19_zero_capacity_c_string_copy | - |
| StringIrq.v | C153_interrupted_copy | - |
| StringIrq.v | C153_interrupted_look | - |
| StringIrq.v | C153_look_sees_one_text_refuted | - |
| StringIrq.v | C153_always_terminated_refuted | - |
| StringIrq.v | C153_look_in_one_piece_refuted | - |
| StringIrq.v | C153_uninterrupted | - |
| Strings.v | C40_contains_word_iff_delimited | - |
| Strings.v | C40_non_ascii_undefined_refuted | - |
| Strings.v | C41_less_ci_strict_weak_order | - |
| Strings.v | C41_equal_ci_iff_lower_equal | - |
| Strings.v | C41_less_ci_is_lexicographic | - |
| Strings.v | C42_replace_all_equal_length | - |
| Strings.v | C42_shorter_replacement_skips_refuted | - |
| Strings.v | C42_deleting_a_run_leaves_half_refuted | - |
| Strings.v | C42_longer_replacement | - |
| Strings.v | C42_longer_replacement_diverges_refuted | - |
| Strings.v | C42_empty_find_diverges_refuted | - |
| Strings.v | C43_tokenize_yields_the_runs | - |
| Table.v | C81_lookup_is_linear_between_samples | - |
| Table.v | C81_lookup_at_samples | - |
| Table.v | C81_lookup_clamps | - |
| Table.v | C81_lookup_total | - |
| Table.v | C81_generated_table | - |
| Table.v | C81_float_lookup_in_bounds | ClassicalDedekindReals.sig_forall_dec, ClassicalDedekindReals.sig_not_dec, Classical_Prop.classic, FunctionalExtensionality.functional_extensionality_dep |
| Table.v | C81_float_lookup_clamps | ClassicalDedekindReals.sig_forall_dec, ClassicalDedekindReals.sig_not_dec, Classical_Prop.classic, FunctionalExtensionality.functional_extensionality_dep |
| Table.v | C81_empty_range_refuted | ClassicalDedekindReals.sig_forall_dec, ClassicalDedekindReals.sig_not_dec, Classical_Prop.classic, FunctionalExtensionality.functional_extensionality_dep |
| Table.v | C81_interp_wrap | - |
| Table.v | C81_closest_wrap | - |
| Table.v | C81_interp | - |
| Table.v | C81_closest | - |
| Table.v | C81_interp_beyond_refuted | - |
| Table.v | C81_float_interp_in_bounds | ClassicalDedekindReals.sig_forall_dec, ClassicalDedekindReals.sig_not_dec, Classical_Prop.classic, FunctionalExtensionality.functional_extensionality_dep |
| Table.v | C81_float_wrap_in_bounds | ClassicalDedekindReals.sig_forall_dec, ClassicalDedekindReals.sig_not_dec, Classical_Prop.classic, FunctionalExtensionality.functional_extensionality_dep |
| Table.v | C81_float_wrap_large_phase_refuted | ClassicalDedekindReals.sig_forall_dec, ClassicalDedekindReals.sig_not_dec, Classical_Prop.classic, FunctionalExtensionality.functional_extensionality_dep |
| Table.v | C81_float_interp_one | ClassicalDedekindReals.sig_forall_dec, ClassicalDedekindReals.sig_not_dec, Classical_Prop.classic, FunctionalExtensionality.functional_extensionality_dep |
| Table.v | C81_negative_phase_refuted | - |
| Table.v | C81_very_negative_phase_refuted | - |
| VectorIrq.v | C150_interrupted_call | - |
| VectorIrq.v | C150_interrupted_move | - |
| VectorIrq.v | C150_insert_seen_whole_refuted | - |
| VectorIrq.v | C150_erase_seen_whole_refuted | - |
| VectorIrq.v | C150_push_during_push_refuted | - |
| VectorIrq.v | C150_pop_during_pop_refuted | - |
| VectorIrq.v | C150_pop_of_last_during_pop_refuted | - |
| VectorIrq.v | C150_uninterrupted | - |
| VectorMove.v | C157_moved_elements_are_not_seen | - |
| VectorMove.v | C157_storage_after_erase | - |
| VectorMove.v | C157_storage_after_erase_index | - |
| VectorMove.v | C157_erase_releases_unless_last_refuted | - |
| VectorMove.v | C157_erased_range_is_released_partly_refuted | - |
| VectorMove.v | C157_pop_and_clear_release_refuted | - |
| VectorMove.v | C157_destroy_releases_refuted | - |
| VectorMove.v | C157_taken_from_ring_released_refuted | - |
| VectorMove.v | C157_taken_from_fifo_released_refuted | - |
| Version.v | C44_parse_recovers_the_fields | - |
| Version.v | C44_parse_terminated_is_safe | - |
| Version.v | C44_dotted_prerelease_is_normal_refuted | - |
| Version.v | C45_comparison_is_a_total_order | - |
| Version.v | C45_order_is_major_minor_revision_release | - |
| Version.v | C45_can_host_is_a_preorder | - |
| Version.v | C88_digits_after_the_view_are_taken_refuted | - |
| Version.v | C88_view_at_the_end_of_memory_refuted | - |
| Version.v | C89_large_field | - |
| Version.v | C89_wraps_with_64_bit_long_refuted | - |
| Version.v | C89_sign_and_white_space | - |
| WearAge.v | C163_register_on_worn_storage | - |
| WearAge.v | C163_one_good_cell_suffices | - |
| WearAge.v | C163_failed_cell_is_left_behind | - |
| WearAge.v | C163_refused_write_destroys_data_refuted | - |
| WearCrash.v | C145_register_through_power_failures | - |
| WearCrash.v | C145_every_life_goes_on | - |
| WearCrash.v | C145_only_written_data_is_read | - |
| WearCrash.v | C145_old_data_returns_refuted | - |
| WearLevel.v | C30_write_then_read_across_restarts | - |
| WearLevel.v | C31_crash_loses_at_most_that_write | - |
| WearLevel.v | C32_cells_used_in_order | - |
| WearLevel.v | C32_write_terminates_on_any_storage | - |
| WearLevel.v | C32_write_reports_the_storage_result | - |
| WearLevel.v | C33_failed_erase_reads_outside_the_block_refuted | - |
| WearLevel.v | C33_leveler_stays_inside_the_block | - |
| WearLevel.v | C33_failed_erase_forgets_until_restart_refuted | - |
| WearLevel.v | C87_failed_storage_read_reported_as_success_refuted | - |
