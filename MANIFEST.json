{
 "claims": [
  {
   "property": "C01",
   "status": "proved",
   "theorems": [
    "C01_bit_count32_exact",
    "C01_bit_count64_exact"
   ],
   "note": ""
  },
  {
   "property": "C02",
   "status": "proved",
   "theorems": [
    "C02_bit_array_history"
   ],
   "note": ""
  },
  {
   "property": "C03",
   "status": "proved",
   "theorems": [
    "C03_compose_split32",
    "C03_split_compose32",
    "C03_split32_digits",
    "C03_split64_digits",
    "C03_split64_value"
   ],
   "note": ""
  },
  {
   "property": "C04",
   "status": "proved",
   "theorems": [
    "C04_rotr32_rotates",
    "C04_rotr64_rotates",
    "C04_rotations_add",
    "C04_rotr_zero_refuted",
    "C04_rotr_full_undefined"
   ],
   "note": "Holds for 0<n<width; n=0 and n=width are shown to be undefined in C (C04_rotr_zero_refuted, C04_rotr_full_undefined)."
  },
  {
   "property": "C05",
   "status": "proved",
   "theorems": [
    "C05_sha256_is_fips",
    "C05_sha256_defined_refuted"
   ],
   "note": "Equality with FIPS 180-4 for every message below 2^61 bytes, whatever value the out-of-bounds length load yields; that load itself is undefined behaviour for messages whose length is a positive multiple of 64 (C05_sha256_defined_refuted)."
  },
  {
   "property": "C06",
   "status": "proved",
   "theorems": [
    "C06_sha256_multi_concat",
    "C06_sha256_multi_defined"
   ],
   "note": ""
  },
  {
   "property": "C07",
   "status": "proved",
   "theorems": [
    "C07_memncpy_multi_slices",
    "C07_memncpy_multi_in_bounds",
    "C07_memncpy_multi_in_bounds_refuted"
   ],
   "note": "Slices are exact; the in-bounds part is refuted when a request starts after the last byte was delivered (C07_memncpy_multi_in_bounds_refuted)."
  },
  {
   "property": "C08",
   "status": "proved",
   "theorems": [
    "C08_hash_to_str_digits",
    "C08_hash_to_str_injective",
    "C08_hash_to_str_length"
   ],
   "note": ""
  },
  {
   "property": "C09",
   "status": "proved",
   "theorems": [
    "C09_block_history",
    "C09_resize_keeps_bytes",
    "C09_copy_equal",
    "C09_self_copy_refuted",
    "C09_copy_emptied_refuted"
   ],
   "note": "Histories within the contract of MemSpec.v (live blocks, wrapped buffers still alive, copy between distinct storage). Self-copy is undefined behaviour (C09_self_copy_refuted) and copying an emptied block passes NULL to memcpy (C09_copy_emptied_refuted; the other theorems take memcpy with size 0 as a no-op)."
  },
  {
   "property": "C10",
   "status": "proved",
   "theorems": [
    "C10_ownership",
    "C10_foreign_buffer_survives"
   ],
   "note": "Allocation never fails in the model (in the library it ends in NX_FATAL)."
  },
  {
   "property": "C11",
   "status": "proved",
   "theorems": [
    "C11_vector_history",
    "C11_vector_items",
    "C11_size_overflow_refuted"
   ],
   "note": "Histories with distinct vectors, owned arrays and byte sizes below 2^64; beyond that the size computation wraps (C11_size_overflow_refuted). Vectors wrapping foreign arrays are covered at the block level by C09/C10."
  },
  {
   "property": "C12",
   "status": "proved",
   "theorems": [
    "C12_ensure_capacity",
    "C12_ensure_capacity_large_refuted"
   ],
   "note": "Holds for (cap+8)*3 <= INT_MAX; beyond that the macro overflows int (C12_ensure_capacity_large_refuted)."
  },
  {
   "property": "C13",
   "status": "proved",
   "theorems": [
    "C13_readable_round_trip",
    "C13_readable_injective",
    "C13_readable_c_string"
   ],
   "note": ""
  },
  {
   "property": "C14",
   "status": "proved",
   "theorems": [
    "C14_double_quoted_round_trip",
    "C14_double_quoted_total"
   ],
   "note": ""
  },
  {
   "property": "C15",
   "status": "proved",
   "theorems": [
    "C15_string_round_trip",
    "C15_truncation_rejected",
    "C15_strread0_round_trip",
    "C15_any_stream_defined",
    "C15_any_stream_defined_refuted"
   ],
   "note": "Round-trip and truncation hold; on arbitrary streams reading is defined except for a stored length of SIZE_MAX (C15_any_stream_defined_refuted)."
  },
  {
   "property": "C16",
   "status": "proved",
   "theorems": [
    "C16_string_array_history"
   ],
   "note": ""
  },
  {
   "property": "C17",
   "status": "proved",
   "theorems": [
    "C17_string_array_round_trip"
   ],
   "note": ""
  },
  {
   "property": "C18",
   "status": "partial",
   "theorems": [
    "C18_set_other_element_partial",
    "C18_set_same_element_refuted"
   ],
   "note": "Missing: i = j, where the source is freed before it is read (C18_set_same_element_refuted, for every reachable array)."
  },
  {
   "property": "C19",
   "status": "proved",
   "theorems": [
    "C19_getline_next_line",
    "C19_read_all_lines",
    "C19_lines_characterised"
   ],
   "note": "nx_getline returns 0 at end of stream, which no line returns (every line, even an empty one, carries its newline)."
  },
  {
   "property": "C20",
   "status": "proved",
   "theorems": [
    "C20_lexer_position",
    "C20_visible_text",
    "C20_byte_255_refuted"
   ],
   "note": "Byte 255 reads as EOF because char is signed: C20_byte_255_refuted."
  },
  {
   "property": "C21",
   "status": "proved",
   "theorems": [
    "C21_lexer_match",
    "C21_match_255_refuted"
   ],
   "note": "A match string with byte 255 matches the end of input: C21_match_255_refuted."
  },
  {
   "property": "C22",
   "status": "proved",
   "theorems": [
    "C22_number",
    "C22_longest",
    "C22_non_ascii_refuted",
    "C22_no_digit_refuted"
   ],
   "note": "isdigit is called with negative values on non-ASCII text (C22_non_ascii_refuted); started on another character it accepts the empty text (C22_no_digit_refuted)."
  },
  {
   "property": "C23",
   "status": "proved",
   "theorems": [
    "C23_tokens",
    "C23_lossless"
   ],
   "note": "Fields over bytes other than 0 and 255, which end the lexer's input."
  },
  {
   "property": "C24",
   "status": "proved",
   "theorems": [
    "C24_parse",
    "C24_total",
    "C24_ragged"
   ],
   "note": "Memory allocation is assumed to succeed."
  },
  {
   "property": "C25",
   "status": "proved",
   "theorems": [
    "C25_column_types",
    "C25_types_exist",
    "C25_order",
    "C25_empty_row"
   ],
   "note": "Which texts strtod accepts is a parameter of the theorem."
  },
  {
   "property": "C26",
   "status": "partial",
   "theorems": [
    "C26_decimal_partial",
    "C26_shapes",
    "C26_hex_refuted",
    "C26_octal_refuted"
   ],
   "note": "Proved for decimal numerals without superfluous leading zeros; C26_shapes lists all other integer texts, and for those the claim is false in the code: hexadecimal fields are stored as 0 (C26_hex_refuted), octal fields with their decimal reading (C26_octal_refuted)."
  },
  {
   "property": "C27",
   "status": "proved",
   "theorems": [
    "C27_table_history",
    "C27_set_get",
    "C27_self_assign_refuted"
   ],
   "note": "Histories include wrong indices and wrong types (fatal in the debug build modelled) and variadic rows. The doubles' text is a parameter of at most 255 bytes. Storing a cell's own string into it is undefined (C27_self_assign_refuted)."
  },
  {
   "property": "C28",
   "status": "partial",
   "theorems": [
    "C28_reload",
    "C28_round_trip_partial",
    "C28_round_trip_refuted"
   ],
   "note": "proved exactly what a saved frame loads as; unchanged only for frames of writable labels and values whose columns show their type; refuted for labels with quotes or control characters, columns without values, integer-valued doubles, factors, one-column NA rows and empty frames; printf/strtod of doubles are parameters"
  },
  {
   "property": "C29",
   "status": "partial",
   "theorems": [
    "C29_load_returns_partial",
    "C29_strings_as_factors_refuted"
   ],
   "note": "terminates without strings_as_factors for texts up to 2^29 bytes; with the flag it never returns (col_id is not advanced)"
  },
  {
   "property": "C30",
   "status": "proved",
   "theorems": [
    "C30_make_factor"
   ],
   "note": "For every column type, not only strings."
  },
  {
   "property": "C31",
   "status": "proved",
   "theorems": [
    "C31_round_trip",
    "C31_built_round_trip"
   ],
   "note": "Number texts must be JSON numbers (the constructors accept any text); byte 255 ends the input of the lexer; nothing after the root value is checked."
  },
  {
   "property": "C32",
   "status": "partial",
   "theorems": [
    "C32_constructors_partial",
    "C32_scalars_partial",
    "C32_false_null_refuted"
   ],
   "note": "nx_json_node_new_false and nx_json_node_new_null build nodes of type true (nx_json_tree.c:187-195); refuted by C32_false_null_refuted. Proved for all values without false and null."
  },
  {
   "property": "C33",
   "status": "partial",
   "theorems": [
    "C33_array_get_partial",
    "C33_object_get",
    "C33_array_add",
    "C33_negative_refuted"
   ],
   "note": "Negative positions return the first element instead of NULL, INT_MIN overflows (C33_negative_refuted); positions 0..INT_MAX proved."
  },
  {
   "property": "C34",
   "status": "partial",
   "theorems": [
    "C34_decodes_partial",
    "C34_slash_refuted"
   ],
   "note": "The escape of a slash is accepted by the lexer and aborts in the decoder (C34_slash_refuted); proved for all other strings."
  },
  {
   "property": "C35",
   "status": "proved",
   "theorems": [
    "C35_parse",
    "C35_deterministic",
    "C35_int_text"
   ],
   "note": "Holds for every function giving the result of the overflowing int operations in the hash (see C36 for the overflow itself). atof is an arbitrary function; atol is modelled. An empty argv (argc 0) is outside."
  },
  {
   "property": "C36",
   "status": "partial",
   "theorems": [
    "C36_accepts",
    "C36_lookup_partial",
    "C36_hash_agrees",
    "C36_long_names_refuted",
    "C36_short_names",
    "C36_two_short_refuted"
   ],
   "note": "Lookup and rejection of duplicates are proved for every outcome of the int overflow in the hash; missing: under the C standard the overflow itself is undefined for names and arguments of seven or more characters (C36_long_names_refuted). Of two names of one sort (-a|-b) the first is dropped (C36_two_short_refuted)."
  },
  {
   "property": "C37",
   "status": "proved",
   "theorems": [
    "C37_required_defaults",
    "C37_before_parse"
   ],
   "note": "Over any history of declarations and parses."
  },
  {
   "property": "C38",
   "status": "partial",
   "theorems": [
    "C38_matrix_partial",
    "C38_matrix_weights",
    "C38_matrix_count_refuted",
    "C38_out_of_range",
    "C38_list_partial",
    "C38_list_count_refuted",
    "C38_list_free"
   ],
   "note": "Matrix: proved for all weights except DBL_MAX, which marks an absent edge (refuted for it). Lists: structure proved for all histories; the reported edge count of the list graph is never incremented (refuted)."
  },
  {
   "property": "C39",
   "status": "proved",
   "theorems": [
    "C39_best",
    "C39_safe"
   ],
   "note": "Proved for all callbacks (state-passing model of the callbacks, exact IEEE order on scores)."
  },
  {
   "property": "C40",
   "status": "partial",
   "theorems": [
    "C40_sampling_partial",
    "C40_distinct_refuted",
    "C40_range_refuted",
    "C40_sampling_ends",
    "C40_pool",
    "C40_first_check_refuted"
   ],
   "note": "Partial: the code compares the fourth index with the second twice and never with the third (refuted), and float rounding lets the index equal the pool size for the 128 highest generator outputs (refuted). First termination check converts -DBL_MAX to int (refuted). Pool bounds, iteration bound and termination proved."
  },
  {
   "property": "C41",
   "status": "partial",
   "theorems": [
    "C41_int_partial",
    "C41_int_refuted",
    "C41_double",
    "C41_small"
   ],
   "note": "Doubles: proved for finite data and any sort meeting the qsort contract. Ints: proved when sums and differences of elements fit int; refuted otherwise. Mean and deviation are C134."
  },
  {
   "property": "C42",
   "status": "partial",
   "theorems": [
    "C42_int_partial",
    "C42_int_refuted",
    "C42_double_partial",
    "C42_double_refuted"
   ],
   "note": "Ints: proved when the difference fits int, refuted otherwise. Doubles: proved without NaN, refuted with NaN."
  },
  {
   "property": "C43",
   "status": "proved",
   "theorems": [
    "C43_detects_exactly_the_segment_test_corners",
    "C43_corners_unique",
    "C43_negative_threshold_refuted"
   ],
   "note": "Both generated trees (1965 nodes each) are checked by a verified symbolic executor. Domain: thresholds 0..INT_MAX-255, images owning height*row_stride bytes with 3*row_stride+1 <= INT_MAX. C43_negative_threshold_refuted shows that for negative thresholds corners are missed."
  },
  {
   "property": "C44",
   "status": "proved",
   "theorems": [
    "C44_score_is_the_largest_threshold",
    "C44_detected_corners_scored",
    "C44_high_threshold_refuted"
   ],
   "note": "Fuel 8 iterations always suffices for start thresholds 0..255; C44_high_threshold_refuted: scoring any keypoint with a start threshold above 255 never returns (no pixel is a corner there, so detection never produces one)."
  },
  {
   "property": "C45",
   "status": "proved",
   "theorems": [
    "C45_keeps_exactly_the_local_maxima"
   ],
   "note": "Scores are the integer values nx_fast_score_keypoints writes."
  },
  {
   "property": "C46",
   "status": "proved",
   "theorems": [
    "C46_pyramid_detection",
    "C46_detector_pyramid",
    "C46_detector_image",
    "C46_adaptive_threshold_in_range",
    "C46_adaptive_threshold_direction"
   ],
   "note": "Result equals the budget-long prefix of the local maxima of all searched levels, coarse to fine; threshold in 0..255. nx_fast_detector_detect is covered by C46_detector_image."
  },
  {
   "property": "C47",
   "status": "proved",
   "theorems": [
    "C47_distance_is_hamming",
    "C47_distance_is_a_metric"
   ],
   "note": ""
  },
  {
   "property": "C48",
   "status": "proved",
   "theorems": [
    "C48_accepted_points_are_safe",
    "C48_check_is_exact",
    "C48_missing_level_refused"
   ],
   "note": "the scale ratio of the two levels is an arbitrary positive float m*2^e; products are rounded exactly; the sampled level must exist"
  },
  {
   "property": "C49",
   "status": "partial",
   "theorems": [
    "C49_write_read_partial",
    "C49_write_read_refuted"
   ],
   "note": "holds only for extractors whose radius equals the number of octets; C49_write_read_refuted: for every other one reading exchanges the two"
  },
  {
   "property": "C50",
   "status": "proved",
   "theorems": [
    "C50_detects_exactly_the_corners"
   ],
   "note": "scores are exact binary32 values incl. infinities and NaN (sign of zero not modelled)"
  },
  {
   "property": "C51",
   "status": "proved",
   "theorems": [
    "C51_layout",
    "C51_history",
    "C51_access",
    "C51_copy",
    "C51_wrap_refuted"
   ],
   "note": "Any in-contract history of image operations over the memory-block heap model; wrap is in contract when rows hold their pixels (n_channels*width <= row_stride); the code only checks width <= row_stride (C51_wrap_refuted)."
  },
  {
   "property": "C52",
   "status": "proved",
   "theorems": [
    "C52_downsample"
   ],
   "note": ""
  },
  {
   "property": "C53",
   "status": "proved",
   "theorems": [
    "C53_upsample_bytes",
    "C53_upsample_floats",
    "C53_empty_refuted"
   ],
   "note": "Empty images read outside (refuted theorem)."
  },
  {
   "property": "C54",
   "status": "proved",
   "theorems": [
    "C54_convolution",
    "C54_exact",
    "C54_single_precision_integers"
   ],
   "note": "Any arithmetic: the in-place loop equals the convolution sum over the original data in evaluation order; exact integers: the mathematical sum; single precision: exact for integer data and kernels with small sums."
  },
  {
   "property": "C55",
   "status": "proved",
   "theorems": [
    "C55_box_exact",
    "C55_box_single_precision",
    "C55_large_floats_refuted"
   ],
   "note": "Exact arithmetic: exact mean. Single precision: correctly rounded quotient for integer samples with window sums up to 2^24. C55_large_floats_refuted: rounding errors of samples that left the window remain."
  },
  {
   "property": "C56",
   "status": "proved",
   "theorems": [
    "C56_border",
    "C56_buffer_length",
    "C56_mirror_refuted"
   ],
   "note": "All three modes and strides; C56_mirror_refuted shows the failure for borders as long as the data."
  },
  {
   "property": "C57",
   "status": "partial",
   "theorems": [
    "C57_exact_partial",
    "C57_symmetric_partial",
    "C57_float_range_partial",
    "C57_first_pixel_refuted",
    "C57_floats_refuted"
   ],
   "note": "Exact arithmetic: proved when the maximum occurs at a pixel other than the first; single precision: results proved in [0,1] or NaN. Refuted: a unique maximum in the first pixel is missed (else-if in the scan); tiny ranges give NaN."
  },
  {
   "property": "C58",
   "status": "partial",
   "theorems": [
    "C58_refuted",
    "C58_partial"
   ],
   "note": "Refuted for every image: the min/max limits are exchanged, every pixel becomes 0. Proved: size, and values not above 0."
  },
  {
   "property": "C59",
   "status": "proved",
   "theorems": [
    "C59_roundtrip",
    "C59_as_type"
   ],
   "note": "Gray and RGBA, both loaders, any stride; alpha is not stored and comes back as 255."
  },
  {
   "property": "C60",
   "status": "proved",
   "theorems": [
    "C60_header",
    "C60_first_bytes",
    "C60_unreadable"
   ],
   "note": ""
  },
  {
   "property": "C61",
   "status": "proved",
   "theorems": [
    "C61_normalized",
    "C61_roundtrip",
    "C61_homography",
    "C61_fundamental"
   ],
   "note": "exact real arithmetic; the points must not all coincide"
  },
  {
   "property": "C62",
   "status": "proved",
   "theorems": [
    "C62_formatted_string_complete"
   ],
   "note": ""
  },
  {
   "property": "C63",
   "status": "proved",
   "theorems": [
    "C63_grammar"
   ],
   "note": ""
  },
  {
   "property": "C64",
   "status": "proved",
   "theorems": [
    "C64_free"
   ],
   "note": ""
  },
  {
   "property": "C65",
   "status": "proved",
   "theorems": [
    "C65_int_array",
    "C65_string_array"
   ],
   "note": ""
  },
  {
   "property": "C66",
   "status": "proved",
   "theorems": [
    "C66_orientation_of_the_disc"
   ],
   "note": "atan2 and its rounding to float are a parameter. Radius at most 128 so that the int moments cannot overflow."
  },
  {
   "property": "C67",
   "status": "proved",
   "theorems": [
    "C67_rotated_descriptor_is_safe"
   ],
   "note": "the rotation itself (cosf, sinf) is an arbitrary function to int points"
  },
  {
   "property": "C68",
   "status": "proved",
   "theorems": [
    "C68_random_tests",
    "C68_fresh_extractor",
    "C68_radius_one_refuted",
    "C68_radius_two_refuted"
   ],
   "note": "initialisation is rejection sampling, so theorems are about runs that return; C68_radius_one_refuted and C68_radius_two_refuted record inputs that never return"
  },
  {
   "property": "C69",
   "status": "proved",
   "theorems": [
    "C69_score_image"
   ],
   "note": "binary32 arithmetic with rounding to nearest even, no fused multiply-add"
  },
  {
   "property": "C70",
   "status": "proved",
   "theorems": [
    "C70_bytes_to_floats"
   ],
   "note": ""
  },
  {
   "property": "C71",
   "status": "proved",
   "theorems": [
    "C71_axpy_bytes",
    "C71_axpy_bytes_integers",
    "C71_axpy_floats"
   ],
   "note": ""
  },
  {
   "property": "C72",
   "status": "proved",
   "theorems": [
    "C72_subtract_bytes",
    "C72_subtract_floats"
   ],
   "note": ""
  },
  {
   "property": "C73",
   "status": "proved",
   "theorems": [
    "C73_antialias_columns",
    "C73_antialias_rows",
    "C73_narrow_refuted"
   ],
   "note": "Fewer than four columns/rows refuted."
  },
  {
   "property": "C74",
   "status": "proved",
   "theorems": [
    "C74_derivative_x_bytes",
    "C74_derivative_x_floats",
    "C74_derivative_y_bytes",
    "C74_derivative_y_floats",
    "C74_derivative_y_gaps",
    "C74_gaps_refuted",
    "C74_single_line_refuted"
   ],
   "note": "Single column/row and last row of gapped sources refuted; C76 bytes: as long as truncated values are bytes."
  },
  {
   "property": "C75",
   "status": "proved",
   "theorems": [
    "C75_box_filter_bytes",
    "C75_box_filter_rows",
    "C75_box_filter_columns"
   ],
   "note": ""
  },
  {
   "property": "C76",
   "status": "proved",
   "theorems": [
    "C76_smooth_floats",
    "C76_smooth_bytes"
   ],
   "note": ""
  },
  {
   "property": "C77",
   "status": "partial",
   "theorems": [
    "C77_scale_half_partial",
    "C77_enlarging_refuted",
    "C77_shrink_partial",
    "C77_shrink_f32_partial",
    "C77_factor_refuted"
   ],
   "note": "Proved for every factor below 1/(1 + n/2^22), n the larger of width and height (size, positions, interpolated values, no access outside), for byte images and for float images with byte values. Refuted: a factor of one or more reads below the last row (1 and 2 for every image, any other for an image of one pixel). Not covered: factors between 1/(1 + n/2^22) and 1."
  },
  {
   "property": "C78",
   "status": "proved",
   "theorems": [
    "C78_load",
    "C78_xload"
   ],
   "note": ""
  },
  {
   "property": "C79",
   "status": "proved",
   "theorems": [
    "C79_luminance",
    "C79_monotone",
    "C79_float"
   ],
   "note": ""
  },
  {
   "property": "C80",
   "status": "partial",
   "theorems": [
    "C80_to_rgba_partial",
    "C80_to_gray_buffer_partial",
    "C80_to_gray_refuted",
    "C80_gray_rgba_gray_refuted"
   ],
   "note": "Gray to RGBA and the buffer conversion are proved. nx_image_convert_type on an RGBA image always fails an assertion (C80_to_gray_refuted), and gray -> RGBA -> gray is not the identity: 7 becomes 6 (C80_gray_rgba_gray_refuted)."
  },
  {
   "property": "C81",
   "status": "proved",
   "theorems": [
    "C81_filename"
   ],
   "note": ""
  },
  {
   "property": "C82",
   "status": "partial",
   "theorems": [
    "C82_xload_partial",
    "C82_load_refuted",
    "C82_negative_refuted"
   ],
   "note": "Proved for nx_image_xload_pnm. nx_image_load_pnm rejects comments, takes pixel bytes for header text when a space ends the header, and aborts on a negative size (refuted theorems)."
  },
  {
   "property": "C83",
   "status": "proved",
   "theorems": [
    "C83_product",
    "C83_product4",
    "C83_pose",
    "C83_inverse",
    "C83_determinant"
   ],
   "note": "Over the reals: rounding, overflow, infinities and NaN are not modelled."
  },
  {
   "property": "C84",
   "status": "proved",
   "theorems": [
    "C84_euler",
    "C84_axis_angle",
    "C84_zero_axis_refuted"
   ],
   "note": "Over the reals. A zero axis gives a matrix that is not a rotation (C84_zero_axis_refuted)."
  },
  {
   "property": "C85",
   "status": "proved",
   "theorems": [
    "C85_algebra",
    "C85_rotate",
    "C85_from_matrix",
    "C85_to_matrix",
    "C85_axis_angle"
   ],
   "note": "Over the reals; matrices of quaternions that are not of unit length are not covered."
  },
  {
   "property": "C86",
   "status": "proved",
   "theorems": [
    "C86_transfer",
    "C86_mark",
    "C86_mark_inv",
    "C86_error"
   ],
   "note": "exact real arithmetic (GeoModel); division by zero is None"
  },
  {
   "property": "C87",
   "status": "partial",
   "theorems": [
    "C87_estimate_partial",
    "C87_maps",
    "C87_degenerate",
    "C87_horizon_refuted",
    "C87_collinear_refuted"
   ],
   "note": "Proved: an estimate maps the four points and is unique; failure is reported for degenerate destinations. Refuted: quadrilaterals whose horizon passes through the origin get no estimate (C87_horizon_refuted); collinear source points are not reported (C87_collinear_refuted)."
  },
  {
   "property": "C88",
   "status": "proved",
   "theorems": [
    "C88_homography",
    "C88_fundamental",
    "C88_triangulation"
   ],
   "note": ""
  },
  {
   "property": "C89",
   "status": "partial",
   "theorems": [
    "C89_check_partial",
    "C89_angle_refuted"
   ],
   "note": "The code divides by squared lengths: the angle test is scale dependent (C89_angle_refuted)."
  },
  {
   "property": "C90",
   "status": "proved",
   "theorems": [
    "C90_similarity",
    "C90_affine",
    "C90_perspective"
   ],
   "note": ""
  },
  {
   "property": "C91",
   "status": "proved",
   "theorems": [
    "C91_camera",
    "C91_project",
    "C91_project_stops"
   ],
   "note": ""
  },
  {
   "property": "C92",
   "status": "proved",
   "theorems": [
    "C92_distance",
    "C92_mark",
    "C92_fix_rank"
   ],
   "note": "the singular value decomposition (LAPACK) is a hypothesis"
  },
  {
   "property": "C93",
   "status": "proved",
   "theorems": [
    "C93_from_Rt",
    "C93_candidates",
    "C93_choice",
    "C93_recover_pose"
   ],
   "note": "the singular value decomposition (LAPACK) is a hypothesis; int sums are not checked for overflow"
  },
  {
   "property": "C94",
   "status": "partial",
   "theorems": [
    "C94_from_fundamental_partial",
    "C94_principal_point_refuted"
   ],
   "note": "The code multiplies by K' instead of its transpose: right only for diagonal K' (C94_principal_point_refuted)."
  },
  {
   "property": "C95",
   "status": "partial",
   "theorems": [
    "C95_triangulate_partial",
    "C95_capacity_refuted"
   ],
   "note": "Proved when the inliers fit; with more inliers than n_pt the arrays overflow (C95_capacity_refuted)."
  },
  {
   "property": "C96",
   "status": "proved",
   "theorems": [
    "C96_transpose",
    "C96_large_refuted"
   ],
   "note": "Proved up to INT_MAX elements; larger products overflow (C96_large_refuted)."
  },
  {
   "property": "C97",
   "status": "proved",
   "theorems": [
    "C97_read",
    "C97_write",
    "C97_round_trip"
   ],
   "note": "strtod and printf are parameters with a stated round-trip contract."
  },
  {
   "property": "C98",
   "status": "proved",
   "theorems": [
    "C98_product",
    "C98_fill"
   ],
   "note": ""
  },
  {
   "property": "C99",
   "status": "proved",
   "theorems": [
    "C99_write",
    "C99_read",
    "C99_round_trip",
    "C99_strict"
   ],
   "note": ""
  },
  {
   "property": "C100",
   "status": "partial",
   "theorems": [
    "C100_save_partial",
    "C100_full_disk_refuted",
    "C100_load_partial",
    "C100_large_count_refuted",
    "C100_round_trip"
   ],
   "note": "Missing: a save whose last flush fails returns normally, and files announcing 2^24 or more keypoints overflow int; both refuted."
  },
  {
   "property": "C101",
   "status": "partial",
   "theorems": [
    "C101_nearest_partial",
    "C101_empty_refuted"
   ],
   "note": "Missing: an empty second set, refuted (undefined behaviour)."
  },
  {
   "property": "C102",
   "status": "proved",
   "theorems": [
    "C102_ratio",
    "C102_empty"
   ],
   "note": ""
  },
  {
   "property": "C103",
   "status": "partial",
   "theorems": [
    "C103_store_partial",
    "C103_small_refuted"
   ],
   "note": "Missing: initial capacities 0 and 1 (refuted) and more than 10485760 keypoints."
  },
  {
   "property": "C104",
   "status": "partial",
   "theorems": [
    "C104_detect_partial",
    "C104_match_partial",
    "C104_shape_refuted",
    "C104_float_refuted",
    "C104_counts_refuted"
   ],
   "note": "Proved for histories in which equal hashes mean equal results; refuted without that proviso."
  },
  {
   "property": "C105",
   "status": "partial",
   "theorems": [
    "C105_extrema_partial",
    "C105_outside_refuted"
   ],
   "note": "Missing: that nothing beyond the right border is handed on, refuted."
  },
  {
   "property": "C106",
   "status": "partial",
   "theorems": [
    "C106_orientations_partial",
    "C106_first_bin_refuted"
   ],
   "note": "Missing: the first bin, refuted."
  },
  {
   "property": "C107",
   "status": "partial",
   "theorems": [
    "C107_cells_partial",
    "C107_zero_refuted"
   ],
   "note": "Missing: orientation exactly 0, refuted."
  },
  {
   "property": "C108",
   "status": "partial",
   "theorems": [
    "C108_defaults_partial",
    "C108_double_refuted"
   ],
   "note": "Missing: image doubling, refuted."
  },
  {
   "property": "C109",
   "status": "proved",
   "theorems": [
    "C109_sequence",
    "C109_calls"
   ],
   "note": ""
  },
  {
   "property": "C110",
   "status": "partial",
   "theorems": [
    "C110_range_partial",
    "C110_value",
    "C110_below_one_refuted"
   ],
   "note": "Samples are in 0..1; 1 itself is reached by the 128 highest generator outputs, so the half-open range is refuted."
  },
  {
   "property": "C111",
   "status": "proved",
   "theorems": [
    "C111_never_zero",
    "C111_certified"
   ],
   "note": ""
  },
  {
   "property": "C112",
   "status": "proved",
   "theorems": [
    "C112_samples",
    "C112_returns"
   ],
   "note": ""
  },
  {
   "property": "C113",
   "status": "partial",
   "theorems": [
    "C113_result_partial",
    "C113_sampled_partial",
    "C113_few",
    "C113_safe_partial",
    "C113_uninitialised_refuted",
    "C113_best_kept_refuted",
    "C113_retry_refuted",
    "C113_out_of_range_refuted"
   ],
   "note": "Missing: a defined result when no sampled matrix has inliers, keeping the best refinement, retrying after a failed check, and indices when the float sample is 1; all refuted."
  },
  {
   "property": "C114",
   "status": "partial",
   "theorems": [
    "C114_result_partial",
    "C114_sampled_partial",
    "C114_few",
    "C114_safe_partial",
    "C114_sample_partial",
    "C114_distinct_refuted",
    "C114_sample_ends",
    "C114_uninitialised_refuted",
    "C114_best_kept_refuted",
    "C114_out_of_range_refuted"
   ],
   "note": "Missing: eight pairwise different indices (the first is never compared), a defined result without inliers, keeping the best refinement, the index when the float sample is 1; all refuted."
  },
  {
   "property": "C115",
   "status": "partial",
   "theorems": [
    "C115_fixed_partial",
    "C115_noise_partial",
    "C115_repeat_partial",
    "C115_mirror_partial",
    "C115_shift",
    "C115_shift_repeat",
    "C115_identity_refuted",
    "C115_extrapolates_refuted",
    "C115_constant_refuted",
    "C115_mirror_refuted"
   ],
   "note": "Missing: the last row and column (black, white, noise), positions between -1 and 0, exact constants, mirroring beyond twice the size; refuted."
  },
  {
   "property": "C116",
   "status": "partial",
   "theorems": [
    "C116_rotate_partial",
    "C116_constant",
    "C116_float_refuted"
   ],
   "note": "Bytes proved away from the border cases of C115; float images lose their fractions (refuted)."
  },
  {
   "property": "C117",
   "status": "partial",
   "theorems": [
    "C117_values_partial",
    "C117_ends",
    "C117_bytes",
    "C117_outside_refuted"
   ],
   "note": "Proved for values from 0 to 1; other values read outside of the table (refuted)."
  },
  {
   "property": "C118",
   "status": "partial",
   "theorems": [
    "C118_bytes",
    "C118_floats_partial",
    "C118_floats_refuted"
   ],
   "note": "Bytes proved; floats proved from 0 to 1, refuted otherwise."
  },
  {
   "property": "C119",
   "status": "proved",
   "theorems": [
    "C119_normalised"
   ],
   "note": ""
  },
  {
   "property": "C120",
   "status": "proved",
   "theorems": [
    "C120_smooth_bytes",
    "C120_in_place",
    "C120_gaussian",
    "C120_flat_refuted"
   ],
   "note": ""
  },
  {
   "property": "C121",
   "status": "proved",
   "theorems": [
    "C121_fast"
   ],
   "note": ""
  },
  {
   "property": "C122",
   "status": "proved",
   "theorems": [
    "C122_fine",
    "C122_padded_refuted"
   ],
   "note": ""
  },
  {
   "property": "C123",
   "status": "proved",
   "theorems": [
    "C123_fine_blur",
    "C123_scaled_blur"
   ],
   "note": ""
  },
  {
   "property": "C124",
   "status": "partial",
   "theorems": [
    "C124_history_partial",
    "C124_own_partial",
    "C124_own_refuted",
    "C124_empty_refuted"
   ],
   "note": "Histories with descriptors in the caller's memory (C124_history_partial) and adding own descriptors into reserved room (C124_own_partial) are proved; own descriptors otherwise and searching an empty map are refuted."
  },
  {
   "property": "C125",
   "status": "proved",
   "theorems": [
    "C125_response"
   ],
   "note": ""
  },
  {
   "property": "C126",
   "status": "proved",
   "theorems": [
    "C126_detect",
    "C126_detect_pyr",
    "C126_budget"
   ],
   "note": ""
  },
  {
   "property": "C127",
   "status": "proved",
   "theorems": [
    "C127_table",
    "C127_direction",
    "C127_starved"
   ],
   "note": ""
  },
  {
   "property": "C128",
   "status": "partial",
   "theorems": [
    "C128_reads",
    "C128_round_trip_partial",
    "C128_id_refuted"
   ],
   "note": "Partial because ids from 2^31 to 2^64-2^31 change (C128_id_refuted)."
  },
  {
   "property": "C129",
   "status": "proved",
   "theorems": [
    "C129_scalars",
    "C129_float_arrays"
   ],
   "note": ""
  },
  {
   "property": "C130",
   "status": "proved",
   "theorems": [
    "C130_forward",
    "C130_inverse",
    "C130_defined"
   ],
   "note": ""
  },
  {
   "property": "C131",
   "status": "proved",
   "theorems": [
    "C131_inside",
    "C131_tight"
   ],
   "note": ""
  },
  {
   "property": "C132",
   "status": "partial",
   "theorems": [
    "C132_resample_partial",
    "C132_warp_refuted"
   ],
   "note": "Partial because the warp as a whole always aborts at its first blur (C132_warp_refuted); the resampling itself is proved for the scalar code."
  },
  {
   "property": "C133",
   "status": "partial",
   "theorems": [
    "C133_fixed_partial",
    "C133_noise_partial",
    "C133_repeat_partial",
    "C133_inside_refuted"
   ],
   "note": "Partial because pixels of the image within the border are replaced too (C133_inside_refuted)."
  },
  {
   "property": "C134",
   "status": "proved",
   "theorems": [
    "C134_moments",
    "C134_int",
    "C134_empty",
    "C134_order",
    "C134_range",
    "C134_affine"
   ],
   "note": ""
  },
  {
   "property": "C135",
   "status": "partial",
   "theorems": [
    "C135_sequence_partial",
    "C135_no_ground_truth_refuted"
   ],
   "note": "Proved for sequences with ground truth; refuted for sequences without a pose file (NULL stream)."
  },
  {
   "property": "C136",
   "status": "partial",
   "theorems": [
    "C136_sequence_partial",
    "C136_name_refuted"
   ],
   "note": "Proved with the name check of the code; refuted: names that only begin with a standard name are accepted."
  },
  {
   "property": "C137",
   "status": "partial",
   "theorems": [
    "C137_sequence_partial",
    "C137_refuted"
   ],
   "note": "Proved with the name check of the code and for ranges whose length fits int; both restrictions refuted."
  },
  {
   "property": "C138",
   "status": "partial",
   "theorems": [
    "C138_lines_partial",
    "C138_refuted"
   ],
   "note": "Proved for one attribute on every line; refuted for other layouts."
  },
  {
   "property": "C139",
   "status": "proved",
   "theorems": [
    "C139_kitti",
    "C139_vgg",
    "C139_temple"
   ],
   "note": ""
  },
  {
   "property": "C140",
   "status": "partial",
   "theorems": [
    "C140_few",
    "C140_result",
    "C140_sampled_partial",
    "C140_safe_partial",
    "C140_ends",
    "C140_refinement_refuted"
   ],
   "note": "_partial: the third and fourth sampled match may coincide, random outputs of 2^32-128 and above are excluded (they index past the pool), and an estimate from the inliers that fails the check can replace an accepted matrix (refuted)."
  },
  {
   "property": "C141",
   "status": "proved",
   "theorems": [
    "C141_streams",
    "C141_range",
    "C141_stable",
    "C141_clear",
    "C141_no_leak",
    "C141_add_refuted"
   ],
   "note": "Values are made by the JSON constructors (false and null become true, C32); the file system of NX_JLOG_XWRITE is not modelled."
  },
  {
   "property": "C142",
   "status": "partial",
   "theorems": [
    "C142_histories_partial",
    "C142_progress",
    "C142_add",
    "C142_roundtrip",
    "C142_copy_refuted",
    "C142_twice_refuted"
   ],
   "note": "Partial because copies made by the implicit copy constructor share the statistics (C142_copy_refuted) and a second normalize forgets the first (C142_twice_refuted). Over the reals; normalizing needs points that do not all coincide."
  },
  {
   "property": "C143",
   "status": "proved",
   "theorems": [
    "C143_bytes",
    "C143_contrast",
    "C143_unit",
    "C143_ideal",
    "C143_zero"
   ],
   "note": ""
  },
  {
   "property": "C144",
   "status": "proved",
   "theorems": [
    "C144_svec_idx",
    "C144_ivec_idx",
    "C144_svec_val"
   ],
   "note": ""
  },
  {
   "property": "C145",
   "status": "proved",
   "theorems": [
    "C145_radon",
    "C145_score",
    "C145_flat",
    "C145_order",
    "C145_detect",
    "C145_blank_refuted"
   ],
   "note": "The model rounds the double precision quotients once. A blank image scores above zero near its border (C145_blank_refuted); the property does not claim otherwise."
  },
  {
   "property": "C146",
   "status": "partial",
   "theorems": [
    "C146_usage_partial",
    "C146_values_partial",
    "C146_names_differ",
    "C146_added",
    "C146_null_refuted",
    "C146_long_refuted"
   ],
   "note": "Partial because values of string options may be NULL, which printing passes to %s (C146_null_refuted), and strings are cut to 1021 bytes (C146_long_refuted). C146_added: every option the interface adds has a name and values of its type."
  },
  {
   "property": "C147",
   "status": "proved",
   "theorems": [
    "C147_messages",
    "C147_settings",
    "C147_fatal",
    "C147_errors"
   ],
   "note": ""
  },
  {
   "property": "C148",
   "status": "partial",
   "theorems": [
    "C148_titles_partial",
    "C148_labels_refuted",
    "C148_quotes_refuted",
    "C148_terminals_partial",
    "C148_frame_partial",
    "C148_missing_refuted",
    "C148_choice_partial",
    "C148_stream"
   ],
   "note": "Titles, names and strings without quotes, backslashes and newlines, and frames without missing values; the setters of one label are refuted"
  },
  {
   "property": "C149",
   "status": "partial",
   "theorems": [
    "C149_prefix",
    "C149_complete_partial",
    "C149_complete_refuted",
    "C149_closing"
   ],
   "note": "Full claim only if the device takes the rest of the buffer at closing; refuted otherwise"
  },
  {
   "property": "C150",
   "status": "partial",
   "theorems": [
    "C150_ensure",
    "C150_returns_partial",
    "C150_returns_refuted",
    "C150_checks",
    "C150_file_refuted"
   ],
   "note": "Dies although the directory exists under a race or without read permission (refuted)"
  },
  {
   "property": "C151",
   "status": "partial",
   "theorems": [
    "C151_canvas_partial",
    "C151_canvas_refuted",
    "C151_annotator_partial",
    "C151_annotator_refuted"
   ],
   "note": "Holds without assertions; with them the conversion asserts a gray image, so match images are never made (refuted). Images without data and float images are not modelled."
  },
  {
   "property": "C152",
   "status": "partial",
   "theorems": [
    "C152_marks",
    "C152_edges",
    "C152_regions",
    "C152_keypoints",
    "C152_levels",
    "C152_matches",
    "C152_colours",
    "C152_curves_partial",
    "C152_curves_refuted",
    "C152_relative_refuted"
   ],
   "note": "Everything but curves holds; curves end at the wrong point and relative curves are absolute (refuted). Cairo is a small explicit semantics, coordinates are reals."
  },
  {
   "property": "C153",
   "status": "proved",
   "theorems": [
    "C153_order",
    "C153_pixels",
    "C153_depth_order",
    "C153_depth_range",
    "C153_camera"
   ],
   "note": ""
  },
  {
   "property": "C154",
   "status": "partial",
   "theorems": [
    "C154_load_partial",
    "C154_rgb_refuted",
    "C154_transparent_refuted",
    "C154_roundtrip"
   ],
   "note": "Two combinations go wrong and are refuted: RGB or palette files without transparency loaded as RGBA, and gray files with a transparent level loaded as they are."
  },
  {
   "property": "C155",
   "status": "partial",
   "theorems": [
    "C155_load_partial",
    "C155_cmyk",
    "C155_cmyk_refuted",
    "C155_save"
   ],
   "note": "CMYK files loaded as they are overrun the row buffer (refuted)."
  },
  {
   "property": "C156",
   "status": "proved",
   "theorems": [
    "C156_save_load",
    "C156_unknown"
   ],
   "note": "Encoders and decoders are a contract (codecs_ok), met by an instance."
  },
  {
   "property": "C157",
   "status": "partial",
   "theorems": [
    "C157_increasing",
    "C157_range",
    "C157_tail",
    "C157_odd_partial",
    "C157_zero_refuted"
   ],
   "note": "Odd except at 0, where the code gives 1e-9 (refuted)."
  },
  {
   "property": "C158",
   "status": "proved",
   "theorems": [
    "C158_scales"
   ],
   "note": "Blur and pixel size are functions of the operations an image came from; image contents are not modelled."
  },
  {
   "property": "C159",
   "status": "partial",
   "theorems": [
    "C159_safe",
    "C159_position_partial",
    "C159_kept",
    "C159_position_refuted"
   ],
   "note": "C159_position_refuted: when the fifth try still asks for a move, the reported position adds the offset of the previous pixel to the new one. The start is assumed inside the image; the search of C105 also hands on places beyond the right border (refuted there)."
  },
  {
   "property": "C160",
   "status": "proved",
   "theorems": [
    "C160_project_h",
    "C160_agrees",
    "C160_in_place_refuted"
   ],
   "note": "The arrays must not overlap; in place it goes wrong (C160_in_place_refuted)."
  },
  {
   "property": "C161",
   "status": "partial",
   "theorems": [
    "C161_only_s",
    "C161_us",
    "C161_svt",
    "C161_usvt",
    "C161_failure_refuted",
    "C161_sym_partial",
    "C161_sym_checked",
    "C161_large_refuted"
   ],
   "note": "Refuted: failure of the decompositions is not reported; symmetric systems of more than 46340 unknowns overflow int. Everything else proved."
  },
  {
   "property": "C162",
   "status": "proved",
   "theorems": [
    "C162_homography",
    "C162_fundamental"
   ],
   "note": "If all points of one image are equal the code divides by zero; this is excluded by the spread hypotheses."
  },
  {
   "property": "C163",
   "status": "partial",
   "theorems": [
    "C163_shared_partial",
    "C163_prefix_partial",
    "C163_no_leak",
    "C163_view_refuted"
   ],
   "note": "Missing: images used through a view (pyramid level) after their owner is gone, which is a use after free (C163_view_refuted)."
  },
  {
   "property": "C164",
   "status": "proved",
   "theorems": [
    "C164_many_keypoints",
    "C164_entries_unique",
    "C164_octets_checked"
   ],
   "note": ""
  },
  {
   "property": "C165",
   "status": "partial",
   "theorems": [
    "C165_transfer_partial",
    "C165_in_place_partial",
    "C165_object",
    "C165_in_place_refuted"
   ],
   "note": "Missing: results written over the point given, which are wrong (C165_in_place_refuted); in place is proved for matrices whose second row does not use the first coordinate."
  },
  {
   "property": "C166",
   "status": "partial",
   "theorems": [
    "C166_shortest_partial",
    "C166_to_reference_partial",
    "C166_unmatched_refuted"
   ],
   "note": "Missing: images without a path of matches to the reference image, for which the code is undefined (C166_unmatched_refuted)."
  },
  {
   "property": "C167",
   "status": "partial",
   "theorems": [
    "C167_frame_partial",
    "C167_value_partial",
    "C167_composite_partial",
    "C167_lost_refuted",
    "C167_horizon_refuted"
   ],
   "note": "Partial: fractions are dropped towards zero when the frame is laid out, so up to a pixel of an image is cut off (C167_lost_refuted), and pixels on the line at infinity of an image are undefined (C167_horizon_refuted). Proved: the frame holds every image up to less than a pixel and is as small as the corners allow, the origin is moved without changing relative positions, maps back are inverses, and pixels have the value of the last covering image."
  }
 ]
}