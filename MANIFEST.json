{
 "claims": [
  {
   "property": "C01",
   "status": "proved",
   "theorems": [
    "C01_container_round_trip",
    "C01_container_round_trip_streaming",
    "C01_file_round_trip",
    "C01_file_round_trip_streaming",
    "C01_file_round_trip_by_pieces"
   ],
   "note": ""
  },
  {
   "property": "C02",
   "status": "proved",
   "theorems": [
    "C02_bypass_is_lossless",
    "C02_bypass_through_decode_brunsli",
    "C02_empty_file_refuted",
    "C02_bypass_by_pieces"
   ],
   "note": "Proved for every file and buffer; the decode-to-sink theorem needs a non-empty file, C02_empty_file_refuted shows why."
  },
  {
   "property": "C03",
   "status": "partial",
   "theorems": [
    "C03_never_writes_outside_partial",
    "C03_small_buffer_refuted"
   ],
   "note": "Refuted for buffers of 6..33 bytes (a byte outside is written, and len - *pos can wrap around); the partial theorem covers all other sizes."
  },
  {
   "property": "C04",
   "status": "proved",
   "theorems": [
    "C04_base128_round_trip",
    "C04_base128_fixed_width_round_trip",
    "C04_base128_size_minimal",
    "C04_base128_reader_total"
   ],
   "note": ""
  },
  {
   "property": "C05",
   "status": "proved",
   "theorems": [
    "C05_bit_writer_reader_inverse"
   ],
   "note": ""
  },
  {
   "property": "C06",
   "status": "proved",
   "theorems": [
    "C06_bit_section_chunking_independent",
    "C06_bit_section_is_plain_reading",
    "C06_partial_input_is_never_misread"
   ],
   "note": ""
  },
  {
   "property": "C07",
   "status": "proved",
   "theorems": [
    "C07_varint_round_trip",
    "C07_limited_varint_round_trip",
    "C07_var_len_uint8_round_trip"
   ],
   "note": ""
  },
  {
   "property": "C08",
   "status": "proved",
   "theorems": [
    "C08_lehmer_round_trip",
    "C08_accepted_code_is_a_permutation",
    "C08_out_of_range_codes_rejected"
   ],
   "note": ""
  },
  {
   "property": "C09",
   "status": "proved",
   "theorems": [
    "C09_symbol_list_round_trip",
    "C09_encoder_accepts_iff",
    "C09_decoder_rejects_iff"
   ],
   "note": ""
  },
  {
   "property": "C10",
   "status": "proved",
   "theorems": [
    "C10_probability_valid_forever"
   ],
   "note": ""
  },
  {
   "property": "C11",
   "status": "proved",
   "theorems": [
    "C11_arithmetic_coder_round_trip",
    "C11_interval_never_empty"
   ],
   "note": ""
  },
  {
   "property": "C12",
   "status": "proved",
   "theorems": [
    "C12_ans_round_trip",
    "C12_ans_state_never_overflows"
   ],
   "note": ""
  },
  {
   "property": "C13",
   "status": "proved",
   "theorems": [
    "C13_interleaved_stream_round_trip",
    "C13_interleaved_stream_round_trip_bytes"
   ],
   "note": ""
  },
  {
   "property": "C14",
   "status": "proved",
   "theorems": [
    "C14_ans_table_init",
    "C14_accepted_histograms_are_complete",
    "C14_static_tree_walks_in_bounds"
   ],
   "note": ""
  },
  {
   "property": "C15",
   "status": "proved",
   "theorems": [
    "C15_histogram_round_trip"
   ],
   "note": ""
  },
  {
   "property": "C16",
   "status": "proved",
   "theorems": [
    "C16_normalised_histogram",
    "C16_normalisation_never_aborts"
   ],
   "note": ""
  },
  {
   "property": "C17",
   "status": "proved",
   "theorems": [
    "C17_accepted_tables_are_total",
    "C17_accepted_tables_decode_every_bit_string",
    "C17_tables_decode_canonical_code",
    "C17_every_string_has_a_symbol",
    "C17_code_length_table"
   ],
   "note": ""
  },
  {
   "property": "C18",
   "status": "proved",
   "theorems": [
    "C18_code_lengths",
    "C18_codes_canonical"
   ],
   "note": ""
  },
  {
   "property": "C19",
   "status": "proved",
   "theorems": [
    "C19_code_description_round_trip"
   ],
   "note": ""
  },
  {
   "property": "C20",
   "status": "proved",
   "theorems": [
    "C20_context_map_round_trip",
    "C20_histogram_section_round_trip"
   ],
   "note": ""
  },
  {
   "property": "C21",
   "status": "proved",
   "theorems": [
    "C21_context_map_entries_in_range",
    "C21_histogram_section_tables"
   ],
   "note": ""
  },
  {
   "property": "C22",
   "status": "proved",
   "theorems": [
    "C22_quant_tables_round_trip",
    "C22_eight_bit_tables_never_refused",
    "C22_accepted_tables_are_valid"
   ],
   "note": ""
  },
  {
   "property": "C23",
   "status": "proved",
   "theorems": [
    "C23_internals_round_trip",
    "C23_internals_piece_independent",
    "C23_accepted_internals_are_valid"
   ],
   "note": ""
  },
  {
   "property": "C24",
   "status": "proved",
   "theorems": [
    "C24_metadata_round_trip"
   ],
   "note": ""
  },
  {
   "property": "C25",
   "status": "proved",
   "theorems": [
    "C25_metadata_piece_independent",
    "C25_section_piece_independent",
    "C25_metadata_bounded"
   ],
   "note": ""
  },
  {
   "property": "C26",
   "status": "proved",
   "theorems": [
    "C26_header_round_trip",
    "C26_accepted_header_is_valid",
    "C26_header_piece_independent",
    "C26_reserved_version_bits_refuted"
   ],
   "note": "The accepted-header theorem excludes reserved version bits only below 2^32; C26_reserved_version_bits_refuted shows that higher ones pass."
  },
  {
   "property": "C27",
   "status": "partial",
   "theorems": [
    "C27_wrong_wire_type_refuted",
    "C27_wrong_wire_type_partial"
   ],
   "note": "Refuted for the code as it is: a known header item of the wrong wire type is not rejected (missing return). The partial theorem states what is still guaranteed."
  },
  {
   "property": "C28",
   "status": "proved",
   "theorems": [
    "C28_decoder_accepts_only_grammar",
    "C28_accepted_streams_follow_grammar",
    "C28_mandatory_sections",
    "C28_unknown_message_skipped"
   ],
   "note": ""
  },
  {
   "property": "C29",
   "status": "proved",
   "theorems": [
    "C29_decoder_streaming_equals_one_shot",
    "C29_streaming_equals_one_shot",
    "C29_success_with_unread_input_refuted"
   ],
   "note": "For every stream, every split and all resumable section decoders, the final status (success, not valid, not complete) and the decoded result are those of the one-shot decoder, for a caller that hands over what a call leaves unread. The refuted theorem shows that such a caller must not stop at the first success while input is left."
  },
  {
   "property": "C30",
   "status": "proved",
   "theorems": [
    "C30_real_decoder_never_overflows",
    "C30_buffer_bounded_no_byte_lost",
    "C30_more_input_means_all_taken",
    "C30_decoder_never_overflows"
   ],
   "note": ""
  },
  {
   "property": "C31",
   "status": "partial",
   "theorems": [
    "C31_delivery_independent_of_buffers",
    "C31_drain",
    "C31_more_output_without_bytes_refuted",
    "C31_more_output_with_free_space_refuted"
   ],
   "note": "Delivered bytes are proved independent of the buffers. The clause that NEEDS_MORE_OUTPUT implies pending bytes is refuted (empty chunk left in the queue; stored file queued but not delivered)."
  },
  {
   "property": "C32",
   "status": "partial",
   "theorems": [
    "C32_errors_are_sticky",
    "C32_parse_error_consumes_nothing",
    "C32_serializer_error_keeps_consuming_refuted",
    "C32_completion_is_stable"
   ],
   "note": "Errors are sticky and completion is stable. The clause that nothing more is consumed holds for parse errors and is refuted for errors of the serializer."
  },
  {
   "property": "C33",
   "status": "proved",
   "theorems": [
    "C33_scan_data",
    "C33_layout_exists",
    "C33_no_marker_inside"
   ],
   "note": ""
  },
  {
   "property": "C34",
   "status": "proved",
   "theorems": [
    "C34_bits_of_the_segment",
    "C34_resume_behind_the_segment"
   ],
   "note": ""
  },
  {
   "property": "C35",
   "status": "proved",
   "theorems": [
    "C35_tables_built",
    "C35_written_symbols_are_read",
    "C35_read_symbols_are_coded"
   ],
   "note": ""
  },
  {
   "property": "C36",
   "status": "proved",
   "theorems": [
    "C36_sequential_scans"
   ],
   "note": ""
  },
  {
   "property": "C37",
   "status": "proved",
   "theorems": [
    "C37_progressive_scans"
   ],
   "note": ""
  },
  {
   "property": "C38",
   "status": "proved",
   "theorems": [
    "C38_dc_prediction_is_reversible",
    "C38_errors_computed_iff_within_limits"
   ],
   "note": ""
  },
  {
   "property": "C39",
   "status": "proved",
   "theorems": [
    "C39_dc_round_trip",
    "C39_encoder_refuses_large_errors"
   ],
   "note": ""
  },
  {
   "property": "C40",
   "status": "proved",
   "theorems": [
    "C40_ac_round_trip",
    "C40_coefficients_round_trip"
   ],
   "note": ""
  },
  {
   "property": "C41",
   "status": "proved",
   "theorems": [
    "C41_accepted_order_is_a_permutation",
    "C41_accepted_order_is_a_permutation_any_state",
    "C41_order_round_trip"
   ],
   "note": ""
  },
  {
   "property": "C42",
   "status": "proved",
   "theorems": [
    "C42_decoded_dc_bounded",
    "C42_dc_decoding_is_memory_safe",
    "C42_decoded_ac_bounded",
    "C42_ac_decoding_is_memory_safe"
   ],
   "note": ""
  },
  {
   "property": "C43",
   "status": "proved",
   "theorems": [
    "C43_clustering",
    "C43_every_symbol_can_be_coded"
   ],
   "note": ""
  },
  {
   "property": "C44",
   "status": "proved",
   "theorems": [
    "C44_success_means_all_accepted",
    "C44_terminates"
   ],
   "note": ""
  },
  {
   "property": "C45",
   "status": "partial",
   "theorems": [
    "C45_short_write_reported_as_success_refuted",
    "C45_encoder_sink_partial"
   ],
   "note": "Refuted: only a zero return of the sink is treated as an error, a short write is reported as success."
  },
  {
   "property": "C46",
   "status": "proved",
   "theorems": [
    "C46_read_write",
    "C46_injective"
   ],
   "note": ""
  },
  {
   "property": "C47",
   "status": "proved",
   "theorems": [
    "C47_frame_header",
    "C47_scan_header",
    "C47_huffman_tables",
    "C47_quant_tables",
    "C47_restart_interval",
    "C47_stored_segments",
    "C47_between_markers"
   ],
   "note": ""
  },
  {
   "property": "C48",
   "status": "proved",
   "theorems": [
    "C48_stored_files_are_recognised",
    "C48_is_brunsli_exact",
    "C48_decoder_needs_signature"
   ],
   "note": ""
  },
  {
   "property": "C49",
   "status": "proved",
   "theorems": [
    "C49_allocation_bounded"
   ],
   "note": ""
  },
  {
   "property": "C50",
   "status": "proved",
   "theorems": [
    "C50_reader_safe"
   ],
   "note": ""
  },
  {
   "property": "C51",
   "status": "proved",
   "theorems": [
    "C51_ok_means_well_formed",
    "C51_ok_means_well_formed_streaming"
   ],
   "note": ""
  },
  {
   "property": "C52",
   "status": "partial",
   "theorems": [
    "C52_writer_safe_partial",
    "C52_well_formed_writer_safe_partial",
    "C52_dc_difference_refuted"
   ],
   "note": "Proved for every stream the decoder accepts whose image has DC coefficients within -16384..16383; C52_dc_difference_refuted gives an accepted stream on which the writer shifts by 32."
  },
  {
   "property": "C53",
   "status": "partial",
   "theorems": [
    "C53_maximum_size_refuted",
    "C53_aux_estimate_refuted",
    "C53_small_images_fit_partial",
    "C53_ordinary_small_files_fit_partial"
   ],
   "note": "Proved for images of up to 1600 blocks whose internals and compressed metadata keep near their estimates (C53_small_images_fit_partial). In general the property is false of the code: C53_maximum_size_refuted counts images against byte strings (there are images within the limits that do not fit), and C53_aux_estimate_refuted gives a readable file that no buffer size suffices for."
  },
  {
   "property": "C54",
   "status": "proved",
   "theorems": [
    "C54_files_within_limits_are_encoded",
    "C54_sufficient_size_is_moderate",
    "C54_files_outside_limits_are_rejected",
    "C54_exact_rounding_works",
    "C54_aux_estimate_is_enough",
    "C54_simple_limits"
   ],
   "note": ""
  },
  {
   "property": "C55",
   "status": "proved",
   "theorems": [
    "C55_decoder_delivers_the_file",
    "C55_decoder_completes",
    "C55_metadata_behind_dc_refuted",
    "C55_ac_tag_behind_internals_refuted",
    "C55_consistent_views_give_the_file",
    "C55_consistent_views_complete",
    "C55_announced_ac_without_coefficients_refuted",
    "C55_stored_file_delivered",
    "C55_stored_file_completes",
    "C55_empty_stored_file_refuted"
   ],
   "note": ""
  },
  {
   "property": "C56",
   "status": "proved",
   "theorems": [
    "C56_every_task_runs_once",
    "C56_no_data_race",
    "C56_execute_returns"
   ],
   "note": ""
  },
  {
   "property": "C57",
   "status": "partial",
   "theorems": [
    "C57_destructor_returns_refuted",
    "C57_tools_hang_refuted",
    "C57_nothing_runs_during_destruction_partial"
   ],
   "note": "Refuted: with at least one thread the destructor never returns, in any interleaving (it stores equal values to next_task and num_tasks, so no worker wakes up). What is left: nothing runs during destruction."
  },
  {
   "property": "C58",
   "status": "proved",
   "theorems": [
    "C58_each_block_in_one_group",
    "C58_output_does_not_depend_on_the_schedule",
    "C58_groups_round_trip"
   ],
   "note": ""
  },
  {
   "property": "C59",
   "status": "partial",
   "theorems": [
    "C59_failure_is_reported_sequentially",
    "C59_success_is_reported_partial",
    "C59_failure_is_reported_refuted",
    "C59_data_race_refuted"
   ],
   "note": "Proved for tasks that run one after the other in any order (SequentialExecutor), and success is reported for every interleaving; C59_failure_is_reported_refuted: with interleaved tasks the shared variable status can hide a failure, C59_data_race_refuted: it is accessed by two threads without synchronisation."
  },
  {
   "property": "C60",
   "status": "partial",
   "theorems": [
    "C60_part_buffers_refuted"
   ],
   "note": "The property is false of the code: C60_part_buffers_refuted counts images against the bytes all part buffers can hold."
  },
  {
   "property": "C61",
   "status": "partial",
   "theorems": [
    "C61_result_does_not_depend_on_the_schedule",
    "C61_success_means_a_well_formed_image",
    "C61_tasks_stay_in_their_arrays_partial",
    "C61_tasks_stay_in_their_arrays_refuted"
   ],
   "note": "Schedule independence and well-formedness hold for every byte string. Memory safety of the tasks is proved when the leading sections bring quantisation tables and histograms; DecodeGroups does not check that they do, and the refuted theorem gives a stream on which its tasks use codes that are not there."
  },
  {
   "property": "C62",
   "status": "partial",
   "theorems": [
    "C62_estimate_covers_the_image",
    "C62_estimate_covers_the_tables",
    "C62_accepted_means_nonzero",
    "C62_truncated_means_zero",
    "C62_estimate_does_not_overflow",
    "C62_failure_means_zero_refuted"
   ],
   "note": "Lower bound, zero for truncated streams and absence of overflow proved. The last clause is refuted: the null pointer gives 3, and a stream with a damaged AC section gets a nonzero estimate although it is rejected."
  },
  {
   "property": "C63",
   "status": "proved",
   "theorems": [
    "C63_scans_use_defined_tables",
    "C63_scans_refine"
   ],
   "note": ""
  },
  {
   "property": "C64",
   "status": "partial",
   "theorems": [
    "C64_small_files_succeed",
    "C64_round_trip",
    "C64_round_trip_succeeds",
    "C64_outcome",
    "C64_outcome_expand",
    "C64_interrupted_never_wrong",
    "C64_large_files_refuted"
   ],
   "note": "All clauses proved for files below 2 GB. For larger ones the round trip is refuted (C64_large_files_refuted): the size is kept in an int, so a file of n + 2^32 bytes is taken for its first n bytes. An encoder that returns nothing is taken as a failure of cbrunsli; that it does not overrun the buffer is C53."
  },
  {
   "property": "C65",
   "status": "partial",
   "theorems": [
    "C65_cbrunsli_ends",
    "C65_dbrunsli_ends_partial",
    "C65_dbrunsli_refuted"
   ],
   "note": "Proved for cbrunsli up to the encoder's own buffer (C53), and for dbrunsli on streams whose DC values lie within -16384..16383; refuted for dbrunsli in general (C65_dbrunsli_refuted, the stream of C52_dc_difference_refuted)."
  },
  {
   "property": "C66",
   "status": "partial",
   "theorems": [
    "C66_estimate_is_defined",
    "C66_estimate_covers_partial",
    "C66_estimate_covers_refuted"
   ],
   "note": "Defined and free of overflow for every file. The lower bound is proved (up to 1 KiB) for files with at least 5 bits per coefficient that the encoder counts; in general it is refuted: for a flat image of four components with 1023 blocks each the estimate is less than half of what is allocated."
  },
  {
   "property": "C67",
   "status": "partial",
   "theorems": [
    "C67_round_trip",
    "C67_java_round_trip",
    "C67_java_succeeds",
    "C67_encode_defined",
    "C67_session_delivers_the_file",
    "C67_session_completes",
    "C67_round_trip_by_pieces",
    "C67_session_stored",
    "C67_output_fits",
    "C67_cleanup_refuted"
   ],
   "note": "All clauses but the last are proved; the session theorem for images asks for the section order that the encoder writes (metadata before DC, as in C55). The last clause is refuted: BrunsliDecoderCleanup releases with delete[] what came from malloc. That the encoder does not overrun its buffer is C53."
  }
 ]
}