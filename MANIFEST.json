{
 "claims": [
  {
   "property": "C01",
   "status": "proved",
   "theorems": [
    "C01_align_to_least_multiple",
    "C01_padding",
    "C01_is_aligned_to",
    "C01_is_power_of_two",
    "C01_checked_casts"
   ],
   "note": ""
  },
  {
   "property": "C02",
   "status": "proved",
   "theorems": [
    "C02_memcpy_bits",
    "C02_memcpy_bits_bounds_needed"
   ],
   "note": ""
  },
  {
   "property": "C03",
   "status": "proved",
   "theorems": [
    "C03_count_set_bits",
    "C03_leading_trailing_zeros",
    "C03_rotate_bits_left",
    "C03_and_not",
    "C03_byte_swap"
   ],
   "note": ""
  },
  {
   "property": "C04",
   "status": "proved",
   "theorems": [
    "C04_bitset_histories",
    "C04_bitset_size"
   ],
   "note": ""
  },
  {
   "property": "C05",
   "status": "proved",
   "theorems": [
    "C05_single_byte_corruption_detected",
    "C05_hash_is_incremental",
    "C05_common_suffix",
    "C05_hash_combine_injective"
   ],
   "note": ""
  },
  {
   "property": "C06",
   "status": "proved",
   "theorems": [
    "C06_header_fields_independent",
    "C06_header_unused_bits_untouched",
    "C06_database_header_flag"
   ],
   "note": ""
  },
  {
   "property": "C07",
   "status": "proved",
   "theorems": [
    "C07_vector2_roundtrip",
    "C07_vector3_roundtrip",
    "C07_vector4_roundtrip",
    "C07_scalar_roundtrip",
    "C07_raw_roundtrip",
    "C07_zero_bits_is_undefined"
   ],
   "note": ""
  },
  {
   "property": "C08",
   "status": "proved",
   "theorems": [
    "C08_pack_in_range",
    "C08_unpack_in_unit_range",
    "C08_error_is_half_a_step",
    "C08_repack_is_identity",
    "C08_signed",
    "C08_24_bits_refuted"
   ],
   "note": "n = 1..23, every finite x in [0,1] (signed: [-1,1]); C08_24_bits_refuted shows the bound is sharp."
  },
  {
   "property": "C09",
   "status": "proved",
   "theorems": [
    "C09_key_frames_valid",
    "C09_position_is_time_times_rate",
    "C09_key_frames_valid_with_duration",
    "C09_alpha_between_retained"
   ],
   "note": "sample counts below 2^22-2, rates/durations in [2^-100,2^100]; any non-NaN time (seek clamps)."
  },
  {
   "property": "C10",
   "status": "proved",
   "theorems": [
    "C10_key_frame_time_selects_key_frame",
    "C10_wrap_end_selects_first"
   ],
   "note": "every key frame, clamp and wrap, counts below 2^22-2, rates in [2^-100,2^100]."
  },
  {
   "property": "C11",
   "status": "proved",
   "theorems": [
    "C11_num_samples_of_duration",
    "C11_degenerate",
    "C11_finite_duration_agrees",
    "C11_large_counts_refuted"
   ],
   "note": "counts below 2^22-2; C11_large_counts_refuted: fails past 2^24."
  },
  {
   "property": "C12",
   "status": "proved",
   "theorems": [
    "C12_policies_round",
    "C12_nearest_refuted",
    "C12_idempotent"
   ],
   "note": "nearest is right for every float but one: C12_nearest_refuted shows 0x3EFFFFFF (largest float below 1/2) rounds up."
  },
  {
   "property": "C13",
   "status": "proved",
   "theorems": [
    "C13_segments_partition_the_clip",
    "C13_every_sample_in_one_segment"
   ],
   "note": ""
  },
  {
   "property": "C14",
   "status": "proved",
   "theorems": [
    "C14_seek_finds_the_segments",
    "C14_default_settings",
    "C14_no_slack_refuted"
   ],
   "note": "hypothesis 2*ideal <= max+1 (met by the default settings); C14_no_slack_refuted shows the search misses without it."
  },
  {
   "property": "C15",
   "status": "proved",
   "theorems": [
    "C15_one_segment",
    "C15_several_segments"
   ],
   "note": ""
  },
  {
   "property": "C16",
   "status": "proved",
   "theorems": [
    "C16_classes_round_trip",
    "C16_single_track_lookup"
   ],
   "note": ""
  },
  {
   "property": "C17",
   "status": "proved",
   "theorems": [
    "C17_round_trip",
    "C17_lossless"
   ],
   "note": ""
  },
  {
   "property": "C18",
   "status": "proved",
   "theorems": [
    "C18_random_access_is_bulk",
    "C18_skips_do_not_disturb"
   ],
   "note": "every buffer, every history of calls, every writer."
  },
  {
   "property": "C19",
   "status": "proved",
   "theorems": [
    "C19_validation_is_exact",
    "C19_output_mapping_is_a_bijection"
   ],
   "note": ""
  },
  {
   "property": "C20",
   "status": "proved",
   "theorems": [
    "C20_chains_of_acyclic_hierarchies",
    "C20_bone_chain_is_the_root_path",
    "C20_processing_order_is_parent_first",
    "C20_cycles_are_accepted_refuted",
    "C20_self_parent_is_accepted_refuted",
    "C20_parent_after_child_refuted"
   ],
   "note": "parents-first order proved for lists that are already parents-first; refuted otherwise (C20_*_refuted)."
  },
  {
   "property": "C21",
   "status": "proved",
   "theorems": [
    "C21_tiers_partition",
    "C21_smallest_error_first",
    "C21_boundaries_stay",
    "C21_sort_is_determined",
    "C21_old_clip_refuted"
   ],
   "note": "error metric abstract through the stored contributing errors; tier counts computed in binary32."
  },
  {
   "property": "C22",
   "status": "proved",
   "theorems": [
    "C22_bulk_data",
    "C22_empty_tier",
    "C22_database",
    "C22_streamable",
    "C22_oversized_segment_refuted"
   ],
   "note": "segments that fit in a chunk; C22_oversized_segment_refuted: a segment larger than the maximum chunk size is only asserted against."
  },
  {
   "property": "C23",
   "status": "proved",
   "theorems": [
    "C23_streaming_is_safe",
    "C23_visible_iff_resident",
    "C23_in_flight_is_invisible",
    "C23_stream_out_of_partial_tier_refuted"
   ],
   "note": "under the API discipline StreamSpec.allowed; C23_stream_out_of_partial_tier_refuted shows what happens without it."
  },
  {
   "property": "C24",
   "status": "proved",
   "theorems": [
    "C24_is_streamed_in_is_exact",
    "C24_one_request_at_a_time",
    "C24_done_means_streamed_in",
    "C24_stream_in_takes_effect",
    "C24_stream_out_takes_effect",
    "C24_idle_streamer_accepts",
    "C24_streaming_in_progresses",
    "C24_done_after_partial_stream_out_refuted",
    "C24_streamed_in_while_streaming_out_refuted",
    "C24_zero_chunks_refuted",
    "C24_free_slot_is_not_used_refuted",
    "C24_whole_database_streams_in"
   ],
   "note": "under StreamSpec.allowed; four _refuted theorems give the histories where the English property fails of the code."
  },
  {
   "property": "C25",
   "status": "proved",
   "theorems": [
    "C25_streamed_words",
    "C25_every_key_frame_found",
    "C25_fully_streamed",
    "C25_clip_segments_kept"
   ],
   "note": "all tiers resident: the very bytes of the original clip; missing tiers: nearest resident neighbours."
  },
  {
   "property": "C26",
   "status": "proved",
   "theorems": [
    "C26_database",
    "C26_tracks",
    "C26_corruption",
    "C26_wrong_size_refuted",
    "C26_make"
   ],
   "note": "exact acceptance rule; single byte corruption of tag, version, algorithm, hash or hashed content rejected. The size field itself is not protected: C26_wrong_size_refuted."
  },
  {
   "property": "C27",
   "status": "proved",
   "theorems": [
    "C27_seeks_do_not_matter",
    "C27_looping_change_is_missed_refuted",
    "C27_transform_seeks_do_not_matter",
    "C27_transform_looping_change_is_missed_refuted",
    "C27_streaming_is_missed",
    "C27_streaming_is_missed_refuted"
   ],
   "note": "scalar and transform clips, with clamped sample times. A change of the looping policy, or database streaming, between two identical seeks is missed: C27_*_refuted, C27_streaming_is_missed."
  },
  {
   "property": "C28",
   "status": "proved",
   "theorems": [
    "C28_scalar_track_metadata",
    "C28_scalar_list_name",
    "C28_list_name_flag_refuted",
    "C28_transform_metadata",
    "C28_transform_list_name",
    "C28_contributing_error_stored"
   ],
   "note": "scalar and transform clips: names, parents, descriptions, contributing errors, for every flag combination; C28_list_name_flag_refuted: get_name tests the track name flag."
  },
  {
   "property": "C29",
   "status": "proved",
   "theorems": [
    "C29_scalar_playback_stays_in_the_buffer",
    "C29_no_samples_refuted"
   ],
   "note": ""
  },
  {
   "property": "C30",
   "status": "proved",
   "theorems": [
    "C30_database_settings",
    "C30_database_sum",
    "C30_accepted_proportions",
    "C30_stripping_settings",
    "C30_compression_settings",
    "C30_refused_settings",
    "C30_prepared_settings",
    "C30_build_database_arguments",
    "C30_scalar_clip_refuted"
   ],
   "note": "exact acceptance rules of the settings and of build_database's arguments; C30_scalar_clip_refuted: build_database accepts a scalar clip. Scalar compression never validates its settings (finding 22)."
  },
  {
   "property": "C31",
   "status": "proved",
   "theorems": [
    "C31_build",
    "C31_valid_and_sizes",
    "C31_split",
    "C31_strip",
    "C31_strip_after_split_refuted"
   ],
   "note": "build, split and strip of inline databases; stripping a database that was split is refuted (C31_strip_after_split_refuted)."
  },
  {
   "property": "C32",
   "status": "proved",
   "theorems": [
    "C32_requests_finish_at_most_once"
   ],
   "note": "any history at all, fewer than 2^32 requests issued since the id was handed out."
  },
  {
   "property": "C33",
   "status": "proved",
   "theorems": [
    "C33_looping",
    "C33_not_looping"
   ],
   "note": ""
  },
  {
   "property": "C34",
   "status": "proved",
   "theorems": [
    "C34_constant_sub_tracks_come_back"
   ],
   "note": "end to end: from the constant samples in the streams to what the writer gets, after any legal history."
  },
  {
   "property": "C35",
   "status": "proved",
   "theorems": [
    "C35_animated_sub_tracks_come_back"
   ],
   "note": "end to end, every mix of bit rates, segments and stripped key frames; the reconstruction of w and the interpolation (RTM) are not modelled: the writer event carries both decoded samples and the context carries alpha."
  },
  {
   "property": "C36",
   "status": "proved",
   "theorems": [
    "C36_format_bytes_tell_the_bit_rates",
    "C36_format_byte_is_unique",
    "C36_versions"
   ],
   "note": "every version from v02_01_99_1 on; C36_versions for the older encoding."
  },
  {
   "property": "C37",
   "status": "proved",
   "theorems": [
    "C37_segment_order",
    "C37_clip_order",
    "C37_stripping",
    "C37_boundaries_retained",
    "C37_disabled",
    "C37_infinite_error_refuted"
   ],
   "note": "error metric abstract, errors below infinity (C37_infinite_error_refuted: an infinite error is an out of bounds write); clips up to 2^24 samples; segments up to 32 samples (enforced by the compressor)."
  },
  {
   "property": "C38",
   "status": "proved",
   "theorems": [
    "C38_count",
    "C38_no_false_alarm",
    "C38_leak_check",
    "C38_blocks",
    "C38_contents",
    "C38_patterns",
    "C38_huge_size_refuted"
   ],
   "note": "histories of allocate/deallocate steps interleaved by any number of threads; a size near 2^64 wraps (refuted), a failed allocation counts as a leak."
  },
  {
   "property": "C39",
   "status": "proved",
   "theorems": [
    "C39_scalar_tracks",
    "C39_scalar_track",
    "C39_transform_tracks",
    "C39_transform_track",
    "C39_all_default_refuted",
    "C39_history",
    "C39_compression",
    "C39_flags_refuted"
   ],
   "note": "SSE2 MXCSR; every path but the one of decompress_track for a track of three default sub-tracks (refuted); the sticky flags of the caller are cleared (refuted)."
  },
  {
   "property": "C40",
   "status": "proved",
   "theorems": [
    "C40_one_track_as_in_the_pose"
   ],
   "note": "exact for translations, scales and rotations that are not raw; raw rotations up to the sign of zeros (finding 25)."
  },
  {
   "property": "C41",
   "status": "proved",
   "theorems": [
    "C41_compress_and_play",
    "C41_key_frames"
   ],
   "note": "from quantized streams (the lossy optimizer is outside the model) to playback; no database attached."
  },
  {
   "property": "C42",
   "status": "proved",
   "theorems": [
    "C42_transform_playback_stays_in_the_buffer"
   ],
   "note": "clips made by the compressor, no database attached; at least one output track."
  },
  {
   "property": "C43",
   "status": "proved",
   "theorems": [
    "C43_source_samples_come_back",
    "C43_key_frames_come_back",
    "C43_quantized_streams_can_be_packed"
   ],
   "note": "from the streams that compact_constant_streams leaves (the bit rate search is an input; C44 starts from the tracks); drop-w components, before w is reconstructed; counts such that (bones+1)*(samples+1) < 2^22."
  },
  {
   "property": "C44",
   "status": "proved",
   "theorems": [
    "C44_tracks_come_back",
    "C44_key_frames_come_back",
    "C44_positive_w",
    "C44_bad_samples_are_refused",
    "C44_trivial_defaults_are_trivial",
    "C44_trivial_defaults_are_found",
    "C44_additive1_defaults_are_never_trivial",
    "C44_trivial_without_scales_refuted"
   ],
   "note": "from the list of tracks; the bit rate search and the choice of stripped key frames are inputs (any legal ones); RTM quaternion functions and the error metric are arbitrary; the finiteness of an additive base is not modelled; (tracks+1)*(samples+1) < 2^22, components at most 1e10; two refuted/negative theorems on has_trivial_default_values."
  },
  {
   "property": "C45",
   "status": "proved",
   "theorems": [
    "C45_one_compressed_form",
    "C45_same_sources_same_bytes",
    "C45_same_contents_same_bytes"
   ],
   "note": "transform clips; memory that is not initialized is an argument of the model (local group buffers, swizzle buffers, range buffers, stream allocations); the output buffer itself is zeroed by the code (compress.transform.impl.h); the bit rate search is an input, so its own determinism is not covered."
  },
  {
   "property": "C46",
   "status": "proved",
   "theorems": [
    "C46_bound_clip_plays",
    "C46_while_the_database_streams",
    "C46_metadata_kept",
    "C46_streamed_in_when_resident",
    "C46_fully_streamed_plays_the_original",
    "C46_every_clip_is_bound",
    "C46_fully_streamed_is_reached"
   ],
   "note": "the clip is compressed by the model of C41 (any quantized streams, segments and formats); the builder's view of it (C25) is read in its buffer by clip_parts; bind_clip models build_compressed_tracks for one clip; the order of the writes of decompress_tracks is not compared (Permutation of the writes); hash and size of the bound clip are written as in C01/C20 models; a seek to the time the context is at is skipped even if more was streamed in (finding, C27_streaming_is_missed)."
  },
  {
   "property": "C47",
   "status": "proved",
   "theorems": [
    "C47_found_rates_are_allowed",
    "C47_local_search_is_optimal",
    "C47_the_search_ends",
    "C47_memory_does_not_matter",
    "C47_precision_or_highest_rates",
    "C47_searched_rates_are_legal",
    "C47_rates_are_found",
    "C47_found_rates_are_unique",
    "C47_tracks_come_back",
    "C47_the_search_may_not_end",
    "C47_the_search_ends_refuted"
   ],
   "note": "the two error functions (quantize.transform.h:674-867) are parameters, functions of the bit rates; the permutation tables are defined by the order they are in (compared with a script). C47_the_search_ends_refuted: with an error metric that returns NaN the search may never end (finding 34)."
  },
  {
   "property": "C48",
   "status": "proved",
   "theorems": [
    "C48_the_worst_error_is_found",
    "C48_error_above_the_precision_refuted",
    "C48_no_error_refuted"
   ],
   "note": "the measure of the error of transforms (an error metric class of the user) is not modelled. Refuted for the last sample of a looping clip, whose error can be above the precision (finding 35), and for lists without output tracks, whose error is -1 (finding 36)."
  },
  {
   "property": "C49",
   "status": "proved",
   "theorems": [
    "C49_sampling",
    "C49_sampling_key_frames",
    "C49_scalar_sampling",
    "C49_scalar_key_frames"
   ],
   "note": "the interpolation is a parameter, any function of two samples and an alpha; the three writes of a transform are one write of the triple. Arrays of 1 to 2^22 - 3 samples per track and sample rates in 2^-100 .. 2^100, as in C09."
  },
  {
   "property": "C50",
   "status": "proved",
   "theorems": [
    "C50_object_space",
    "C50_one_object_space_transform",
    "C50_all_transforms",
    "C50_bone_chain",
    "C50_the_worst_transform_is_found",
    "C50_parent_after_child_refuted"
   ],
   "note": "the product and the error of the metric are parameters; the poses of the two sources are functions of the time (that a context gives such poses is C27, C41); additive bases and the metric's conversions are not modelled. C50_parent_after_child_refuted: with a parent after its child, which validation accepts, the error depends on uninitialized memory (finding 39)."
  },
  {
   "property": "C51",
   "status": "proved",
   "theorems": [
    "C51_pre_process",
    "C51_within_the_precision",
    "C51_idempotent",
    "C51_lossless",
    "C51_additive_format",
    "C51_constant_tracks_refuted"
   ],
   "note": "finite samples, a finite precision that is not negative (what validation asks for). The property is refuted for tracks whose first sample is above all the others in some component: C51_constant_tracks_refuted (finding 40); the other theorems assume there is none when constant tracks are sanitized. The actions on transform tracks are not modelled."
  }
 ]
}