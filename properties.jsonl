{"id": "C01", "title": "Population count is exact", "statement": "nx_bit_count32(x) and nx_bit_count64(x) return exactly the number of one bits of x.", "quantifier": "every 32-bit and every 64-bit unsigned word", "why_tests_cant": "2^32 / 2^64 inputs; the SWAR reduction can be wrong on a single mask constant and still pass samples", "anchors": ["src/nx_bit_ops.c: nx_bit_count32, nx_bit_count64"]}
{"id": "C02", "title": "Bit arrays behave as independent booleans", "statement": "After nx_bit_array_new/set_zero and any sequence of nx_bit_array_set calls with in-range indices, nx_bit_array_get(b,k) is non-zero iff the last set of k stored a true value (false if never set); setting one bit never changes another, and every access stays inside the allocated bytes.", "quantifier": "every array length, every history of set calls, every index", "why_tests_cant": "quantifies over all histories and all indices, including those sharing a byte", "anchors": ["include/virg/nexus/nx_bit_ops.h: nx_bit_array_new, nx_bit_array_set_zero, nx_bit_array_set, nx_bit_array_get"]}
{"id": "C03", "title": "Big-endian split and compose are inverse", "statement": "nx_compose_big_endian32(nx_split_big_endian32(x)) = x, split of compose returns the same four bytes, and nx_split_big_endian64 writes the eight base-256 digits of x most significant first.", "quantifier": "every 32/64-bit word and every 4-byte group", "why_tests_cant": "the whole word range must be covered, a shift by one byte only shows on some inputs", "anchors": ["include/virg/nexus/nx_bit_ops.h: nx_split_big_endian32, nx_split_big_endian64, nx_compose_big_endian32"]}
{"id": "C04", "title": "Right rotation is a rotation", "statement": "For 0 < n < width, nx_rotr32/nx_rotr64 map bit i to bit (i-n) mod width and therefore compose additively; n = 0 or n >= width is outside the contract (undefined shift).", "quantifier": "every word and every legal rotation amount", "why_tests_cant": "all words times all amounts; the illegal amounts are undefined behaviour a test cannot pin down", "anchors": ["include/virg/nexus/nx_bit_ops.h: nx_rotr32, nx_rotr64"]}
{"id": "C05", "title": "SHA-256 digest equals the standard", "statement": "nx_sha256(hash, len, msg) writes the FIPS 180-4 SHA-256 digest of the len message bytes: padding, big-endian length and compression agree with the standard for messages shorter than 2^61 bytes.", "quantifier": "every message of every length", "why_tests_cant": "padding boundary cases depend on the length modulo 64 and on the 64-bit length encoding; vectors only sample them", "anchors": ["src/nx_hash_sha256.c: nx_sha256, nx_sha256_multi, nx_sha256_process_block"]}
{"id": "C06", "title": "Segmented hashing equals hashing the concatenation", "statement": "nx_sha256_multi over any list of segments gives the same digest as nx_sha256 of the concatenated bytes.", "quantifier": "every number of segments and every split of every message, including empty segments", "why_tests_cant": "all ways to cut a message cannot be enumerated; the block buffer crosses segment boundaries at arbitrary points", "anchors": ["src/nx_hash_sha256.c: nx_sha256_multi", "src/nx_string.c: nx_memncpy_multi"]}
{"id": "C07", "title": "Multi-source copy consumes sources in order without gaps", "statement": "A sequence of nx_memncpy_multi calls threading the (source, offset) cursor delivers the concatenation of all sources in order, each call returns the number of bytes it could deliver (the request, or what is left), and reads nothing outside the sources.", "quantifier": "every list of sources (including empty ones), every request sequence", "why_tests_cant": "cursor states at source boundaries are combinatorial; out-of-bounds reads do not change the output and go unnoticed", "anchors": ["src/nx_string.c: nx_memncpy_multi"]}
{"id": "C08", "title": "Hash-to-string is a faithful lowercase hex rendering", "statement": "nx_hash_to_str yields two lowercase hex digits per byte in order, so the text has length 2n and determines the hash bytes uniquely.", "quantifier": "every hash byte string", "why_tests_cant": "injectivity is a statement about pairs of inputs", "anchors": ["src/nx_string.c: nx_hash_to_str"]}
{"id": "C09", "title": "Memory blocks keep size within capacity and preserve content", "statement": "For any sequence of reserve/resize/copy/swap/release/wrap/set_zero operations on live blocks, size <= capacity always holds, reserve and resize keep the first min(old,new) bytes, capacity never shrinks except on release/wrap, and copy produces equal content.", "quantifier": "every history of block operations and all sizes", "why_tests_cant": "histories are unbounded and the ownership/capacity combination decides which path runs", "anchors": ["src/nx_mem_block.c: nx_mem_block_reserve, nx_mem_block_resize, nx_mem_block_copy, nx_mem_block_swap, nx_mem_block_release, nx_mem_block_wrap"]}
{"id": "C10", "title": "Memory blocks never double free, leak or touch foreign memory on growth", "statement": "Across any history, every heap buffer obtained by a block is freed exactly once or still owned by exactly one block; a buffer wrapped without ownership is never freed by the block.", "quantifier": "every history of block operations", "why_tests_cant": "leaks and double frees depend on the ownership history; sanitizer runs only see executed histories", "anchors": ["src/nx_mem_block.c: all functions"]}
{"id": "C11", "title": "Growable vectors behave like lists", "statement": "A keypoint vector after any sequence of push_back/resize/clear/reserve/release/wrap/copy holds exactly the elements a list with the same operations would hold, with size <= capacity, as long as byte sizes fit size_t.", "quantifier": "every history of vector operations", "why_tests_cant": "growth boundaries (capacity doublings) interact with wraps and copies in unboundedly many histories", "anchors": ["src/nx_vector_gen.c", "src/nx_keypoint_vector.c"]}
{"id": "C12", "title": "Capacity growth always satisfies the request", "statement": "After NX_ENSURE_CAPACITY(ptr, cap, req) the capacity is at least req and never smaller than before, as long as (cap+8)*3 fits the capacity type.", "quantifier": "every capacity and request value", "why_tests_cant": "all integer pairs incl. near-overflow values", "anchors": ["include/virg/nexus/nx_alloc.h: NX_ENSURE_CAPACITY"]}
{"id": "C13", "title": "Readable escaping round-trips", "statement": "Decoding with nx_xstr_from_readable the text nx_fputs_readable writes for a string gives back the string, for every string the encoder accepts; the text contains no raw newline, tab, quote or other escaped control character.", "quantifier": "every NUL-free byte string", "why_tests_cant": "all strings; escape interactions (backslash before letter) are easy to miss", "anchors": ["src/nx_io.c: nx_fputs_readable", "src/nx_string.c: nx_xstr_from_readable"]}
{"id": "C14", "title": "CSV double-quoting round-trips", "statement": "Decoding with nx_xstr_from_double_quoted the text between the quotes that nx_fputs_double_quoted writes gives back the string.", "quantifier": "every NUL-free byte string", "why_tests_cant": "all strings, runs of quotes of any length", "anchors": ["src/nx_io.c: nx_fputs_double_quoted", "src/nx_string.c: nx_xstr_from_double_quoted"]}
{"id": "C15", "title": "Binary string I/O round-trips and rejects truncation", "statement": "nx_strread after nx_strwrite on the same stream returns the same string and leaves the stream exactly after it; every proper prefix of the written bytes makes the read report failure.", "quantifier": "every string, every following stream content, every truncation point", "why_tests_cant": "every crash/truncation point of every string", "anchors": ["src/nx_string.c: nx_strwrite, nx_strread, nx_strread0"]}
{"id": "C16", "title": "String arrays behave like lists of optional strings", "statement": "Any sequence of append/resize/set/clear keeps the array equal to the list of optional strings given by the same operations: append returns the index of the new element, get returns what was last stored, resize keeps the common prefix and fills with NULL, find returns the first matching index or -1.", "quantifier": "every history of operations", "why_tests_cant": "unbounded histories; growth and truncation interplay", "anchors": ["src/nx_string_array.c"]}
{"id": "C17", "title": "String array serialization round-trips and rejects truncation", "statement": "nx_string_array_read after nx_string_array_write yields an array with the same strings in the same order and consumes exactly the written bytes; every proper prefix is reported as a failure.", "quantifier": "every array of non-NULL strings, every truncation point", "why_tests_cant": "every array and every truncation point", "anchors": ["src/nx_string_array.c: nx_string_array_write, nx_string_array_read"]}
{"id": "C18", "title": "Storing a string element's own value back is safe", "statement": "nx_string_array_set(sa, i, nx_string_array_get(sa, j)) stores the value of element j at i for all i, j including i = j.", "quantifier": "all arrays and index pairs", "why_tests_cant": "use-after-free on aliasing does not reliably show in a test run", "anchors": ["src/nx_string.c: nx_strredup", "src/nx_string_array.c: nx_string_array_set"]}
{"id": "C19", "title": "Line reading returns exactly the stream's lines", "statement": "Repeated nx_getline calls return the successive lines of the stream, the buffer holds the line NUL-terminated within its reported capacity, and end of stream is distinguishable from an empty line.", "quantifier": "every stream content and every initial buffer size", "why_tests_cant": "every line length relative to the buffer growth steps", "anchors": ["src/nx_io.c: nx_getline"]}
{"id": "C20", "title": "Lexer position tracking is exact", "statement": "After any number of consume steps, the lexer's current character is the character at its position (end of input at the terminating NUL), the line number is one plus the number of newlines up to and including the current character, the column restarts at newlines and carriage returns and counts tabs as 8, and at end of input consuming changes nothing. The text ends at its terminating NUL; it must not hold the byte 255.", "quantifier": "every input text and every number of steps", "why_tests_cant": "all texts and all step counts", "anchors": ["src/nx_lexer.c: nx_lexer_new, nx_lexer_consume"]}
{"id": "C21", "title": "Lexer match is all-or-nothing", "statement": "For a match string s without the byte 255, nx_lexer_match(l, s) succeeds iff the remaining input starts with s, in which case exactly |s| characters are consumed; on failure the lexer state is unchanged.", "quantifier": "every input, position and match string", "why_tests_cant": "all input/keyword pairs incl. prefixes that run into the end of the input", "anchors": ["src/nx_lexer.c: nx_lexer_match"]}
{"id": "C22", "title": "Number tokens follow the JSON number grammar", "statement": "Started on a minus sign or a digit of ASCII text, the number scanner accepts a longest prefix of the form [-] int [frac] [exp] with no superfluous leading zero, classifies it as integer iff it has neither fraction nor exponent, and reports an error when every number prefix is followed by text asking for it to go on.", "quantifier": "every input text", "why_tests_cant": "the language is infinite; acceptance and rejection must both be exact", "anchors": ["src/nx_lexer.c: nx_lexer_NUMBER"]}
{"id": "C23", "title": "CSV tokenization is lossless", "statement": "For any record of fields (quoted or plain) written in CSV, the token stream the CSV lexer produces is exactly the fields separated by commas and ended by end-of-record, with doubled quotes undone.", "quantifier": "every list of records of fields", "why_tests_cant": "all field contents: commas, quotes and newlines inside quoted fields", "anchors": ["src/nx_csv_lexer.c: nx_csv_lexer_next_token"]}
{"id": "C24", "title": "Parsed CSV tables are rectangular", "statement": "Whenever CSV parsing succeeds, every record has the same number of fields as the header, and the number and order of fields equal those of the text; texts whose records differ in length are rejected.", "quantifier": "every input text", "why_tests_cant": "all inputs incl. trailing newlines, missing last newline", "anchors": ["src/nx_csv_parser.c: nx_csv_parser_parse_csv, nx_csv_parser_parse_record, nx_csv_parser_parse"]}
{"id": "C25", "title": "CSV column types are the join of their field types", "statement": "The type of a parsed column is INT if it has non-empty fields and all are integers, DOUBLE if all are numeric and one is not an integer, BOOL if all are booleans, and STRING otherwise (a string field, booleans mixed with numbers, or no non-empty field); it does not depend on the order of the records and empty fields do not influence it.", "quantifier": "every table and every permutation of its records", "why_tests_cant": "order independence is a statement about all permutations", "anchors": ["src/nx_csv_parser.c: nx_csv_column_pick_larger_type, nx_csv_data_get_column_types"]}
{"id": "C26", "title": "CSV integer values equal the parsed text", "statement": "A field classified as integer is stored as the integer that the classification parsed.", "quantifier": "every field text classified as integer", "why_tests_cant": "classification and conversion use different bases (strtol base 0 vs atoi); agreement on samples says nothing about 0x/0-prefixed texts", "anchors": ["src/nx_csv_parser.c: nx_csv_field_type_from_token_text, nx_csv_field_set_data_frame"]}
{"id": "C27", "title": "Data frame cells behave like a table of optional typed values", "statement": "After any sequence of add_column/add_row/set operations (no string argument being the string of the very cell it is stored into), each cell holds exactly the last value stored in it (NA if none), all columns have the frame's row count, and a set in one cell changes no other cell.", "quantifier": "every history of frame operations, up to the int range of rows and columns", "why_tests_cant": "unbounded histories over several columns and types", "anchors": ["src/nx_data_frame.c"]}
{"id": "C28", "title": "Data frame CSV round-trip", "statement": "Saving a frame with nx_data_frame_fprintf and loading the text again gives the same column names, types and cell values.", "quantifier": "every frame (names, types, values, NA pattern)", "why_tests_cant": "all frames; failures hide in labels with special characters, all-NA columns and one-column frames", "anchors": ["src/nx_data_frame.c: nx_data_frame_fprintf, nx_data_frame_load_csv_stream", "src/nx_io.c", "src/nx_csv_parser.c"]}
{"id": "C29", "title": "Loading CSV terminates for every option setting", "statement": "nx_data_frame_load_csv returns for every input, with and without strings_as_factors.", "quantifier": "every input text and both flag values", "why_tests_cant": "non-termination cannot be observed by a finite test", "anchors": ["src/nx_data_frame.c: nx_data_frame_load_csv_stream"]}
{"id": "C30", "title": "Factor conversion preserves values", "statement": "Turning a string column into a factor keeps each cell's string, numbers levels in first-occurrence order, and keeps NA cells NA.", "quantifier": "every string column", "why_tests_cant": "all value sequences and repetition patterns", "anchors": ["src/nx_data_frame.c: nx_data_frame_make_factor"]}
{"id": "C31", "title": "JSON print/parse round-trip", "statement": "Parsing the text nx_json_tree_fprint writes for a tree yields an equal tree (same types, members, order and scalar texts).", "quantifier": "every JSON tree with array or object root whose number texts are JSON numbers and whose strings have no byte 0 or 255, at every indentation level that does not overflow int", "why_tests_cant": "trees are unbounded in depth, width and string content", "anchors": ["src/nx_json_tree.c: nx_json_tree_fprint", "src/nx_json_parser.c", "src/nx_json_lexer.c"]}
{"id": "C32", "title": "JSON constructors build the value they name", "statement": "nx_json_node_new_true/false/null build nodes of type true/false/null respectively, so a bundled boolean reads back as itself.", "quantifier": "both booleans and null, in every tree context", "why_tests_cant": "trivial per value but relied on by every bundle/unbundle history", "anchors": ["src/nx_json_tree.c: nx_json_node_new_false, nx_json_node_new_null", "src/nx_json_bundle.c"]}
{"id": "C33", "title": "JSON element and member lookup", "statement": "nx_json_array_get(a, i) returns the i-th element for 0 <= i < size and NULL otherwise; nx_json_object_get(o, name) returns the value of the first member with that name or NULL.", "quantifier": "every array/object and every index/name", "why_tests_cant": "all indices incl. negative ones, all duplicate-name patterns", "anchors": ["src/nx_json_tree.c: nx_json_array_get, nx_json_object_get, nx_json_array_add, nx_json_object_add"]}
{"id": "C34", "title": "JSON string escapes accepted by the lexer decode", "statement": "Every string token the JSON lexer accepts is decoded by the parser without aborting.", "quantifier": "every JSON text", "why_tests_cant": "all escape sequences in all positions", "anchors": ["src/nx_lexer.c: quoted string", "src/nx_string.c: nx_xstr_from_readable"]}
{"id": "C35", "title": "Command line parsing equals its sequential specification", "statement": "nx_options_set_from_args assigns to each option the value of its last occurrence on the command line, leaves the unconsumed arguments in order in the rest list, and does not touch other options.", "quantifier": "every option table, every earlier history of the table and every argument vector, for every value an overflowing int operation of the name hash may produce", "why_tests_cant": "all argument orders, repeated options, values that look like options", "anchors": ["src/nx_options.c: nx_options_set_from_args, nx_options_set_rest_from_args, nx_options_get_rest"]}
{"id": "C36", "title": "Option lookup is independent of hash collisions", "statement": "An option is found under exactly its own long and short name whatever other options are registered, and duplicate names are rejected.", "quantifier": "every set of option names", "why_tests_cant": "all collision patterns in the 32-bucket table", "anchors": ["src/nx_options.c: nx_options_add, nx_option_data_add, nx_option_data_set_names, nx_options_hash_code, nx_options_add_to_map, nx_options_find_in_map"]}
{"id": "C37", "title": "Required options and defaults", "statement": "After a successful parse every required option was given on the command line and every option not given holds its default, even when the table is re-used for several parses.", "quantifier": "every option table, every sequence of argument vectors", "why_tests_cant": "state carried between parses", "anchors": ["src/nx_options.c: nx_options_check_required, nx_options_set_from_args"]}
{"id": "C38", "title": "Adjacency graphs stay symmetric with an exact edge count", "statement": "After any sequence of edge insertions, edge (u,v) exists iff (v,u) exists with the same weight, no self loop exists, and the reported edge count is the number of distinct undirected edges.", "quantifier": "every vertex count and insertion history", "why_tests_cant": "histories with repeated and reversed edges", "anchors": ["src/nx_graph.c: nx_graph_new_adj_mat, nx_graph_insert_adj_mat, nx_graph_new_adj_lst, nx_graph_insert_adj_lst, nx_graph_free_adj_lst"]}
{"id": "C39", "title": "RANSAC keeps the best accepted hypothesis", "statement": "nx_usac returns a model whose score is the maximum over all hypotheses accepted during the run and never worse than the best before global refinement.", "quantifier": "every sequence of sampler/fit/check/score callback results and every number of iterations", "why_tests_cant": "quantifies over all callback behaviours and run lengths", "anchors": ["src/nx_usac.c: nx_usac"]}
{"id": "C40", "title": "Homography sampling draws four distinct correspondences", "statement": "The minimal sample produced for homography estimation consists of four pairwise distinct indices below the current hypothesis pool size.", "quantifier": "every random stream", "why_tests_cant": "a probabilistic collision shows rarely in a test", "anchors": ["src/nx_usac_homography.c: nx_usac_homography_sampling"]}
{"id": "C41", "title": "Order statistics", "statement": "For sorted data the five-number summary returns the minimum, the maximum, the median and the quartiles as defined by the median-of-halves rule, for every length, with no out-of-range access.", "quantifier": "every sorted array of every length", "why_tests_cant": "length modulo 4 decides the index arithmetic", "anchors": ["src/nx_statistics.c: nx_dstatistics_1d, nx_istatistics_1d"]}
{"id": "C42", "title": "Number comparators are consistent total orders", "statement": "nx_compare_int_incr and nx_compare_double_incr, used for sorting, return the sign of the true comparison, for all pairs.", "quantifier": "all pairs of ints, all pairs of doubles", "why_tests_cant": "2^64 pairs; the overflow pairs are far from typical test values", "anchors": ["include/virg/nexus/nx_math.h: nx_compare_int_incr, nx_compare_double_incr"]}
{"id": "C43", "title": "FAST-9 detects exactly the segment-test corners", "statement": "nx_fast_detect_keypoints reports a pixel iff at least 9 contiguous pixels of its 16-pixel circle are all brighter than centre+t or all darker than centre-t, in raster order, at least 3 pixels from the border, truncated at the requested maximum; ids count from 0 in that order.", "quantifier": "every grayscale image and every threshold from 0 to INT_MAX - 255", "why_tests_cant": "256^17 neighbourhoods; the detector is several thousand lines of generated branches", "anchors": ["src/fast/fast_9.c: fast9_detect", "src/nx_fast_detector.c: nx_fast_detect_keypoints"]}
{"id": "C44", "title": "FAST score is the largest threshold at which the pixel is a corner", "statement": "The score assigned to a detected corner is the maximum threshold for which the segment test still holds.", "quantifier": "every image, every pixel reported as a corner and the non-negative threshold it was reported at", "why_tests_cant": "binary search correctness needs monotonicity over all neighbourhoods", "anchors": ["src/fast/fast_9.c: fast9_corner_score, fast9_score"]}
{"id": "C45", "title": "Non-maximum suppression keeps exactly the local maxima", "statement": "For corners in raster order, suppression returns, in order and up to the requested maximum, exactly the corners none of whose 8-neighbour corners has a score greater than or equal to its own, reading only valid indices.", "quantifier": "every raster-ordered corner list", "why_tests_cant": "the cursor logic across rows depends on all possible gaps between rows", "anchors": ["src/fast/fast_nonmax.c: fast_nonmax_suppression", "src/nx_fast_detector.c: nx_fast_suppress_keypoints"]}
{"id": "C46", "title": "Multi-level detection numbers keypoints consecutively within budget", "statement": "Detection over a pyramid returns at most the requested number of keypoints, with ids 0..n-1 in order and each keypoint's level, scale and sigma equal to those of its level; they are the local maxima among the corners of the searched levels, coarse to fine, cut at the budget. The adaptive threshold stays in [5, 250].", "quantifier": "every pyramid, budget, number of levels searched and per-level detection outcome; every adaptation history with budgets up to two million", "why_tests_cant": "budget exhaustion can occur at any level", "anchors": ["src/nx_fast_detector.c: nx_fast_detect_keypoints_pyr, nx_fast_detector_detect_pyr, nx_fast_detector_adapt_threshold"]}
{"id": "C47", "title": "BRIEF distance is the Hamming distance", "statement": "nx_brief_extractor_descriptor_distance returns the number of differing bits of the two descriptors; it is symmetric, zero only for equal descriptors and satisfies the triangle inequality.", "quantifier": "all descriptor pairs of all lengths", "why_tests_cant": "metric laws are universally quantified; the unrolled loop handles length mod 8 specially", "anchors": ["src/nx_brief_extractor.c: nx_brief_extractor_descriptor_distance, OCTET_BIT_COUNT_TABLE"]}
{"id": "C48", "title": "BRIEF point check guarantees in-bounds sampling", "statement": "If nx_brief_extractor_check_point_pyr accepts a point then computing the descriptor there reads only pixels inside the sampled pyramid level.", "quantifier": "every extractor, pyramid, point and level", "why_tests_cant": "memory safety for all geometries", "anchors": ["src/nx_brief_extractor.c: nx_brief_extractor_check_point_pyr, nx_brief_extractor_compute_pyr, nx_brief_extractor_update_limits"]}
{"id": "C49", "title": "BRIEF extractor save/load round-trip", "statement": "Reading back a written BRIEF extractor restores radius, number of octets, offsets and level offset.", "quantifier": "every extractor", "why_tests_cant": "the defect only shows when radius differs from the octet count", "anchors": ["src/nx_brief_extractor.c: nx_brief_extractor_write, nx_brief_extractor_read"]}
{"id": "C50", "title": "Harris detection returns exactly the strict local maxima", "statement": "nx_harris_detect_keypoints returns in raster order, up to the maximum, exactly the pixels at least 2 away from the border whose score exceeds the threshold and all 8 neighbours.", "quantifier": "every score image, threshold and maximum", "why_tests_cant": "all images", "anchors": ["src/nx_harris_detector.c: nx_harris_detect_keypoints"]}
{"id": "C51", "title": "Image pixel access stays within the buffer", "statement": "After any sequence of image allocation, resize (default or explicit stride), copy, wrap of a client buffer with rows long enough for their pixels, swap, set_zero, release and free, every pixel (x,y,ch) with 0<=x<width, 0<=y<height of an image whose memory was not freed by the client can be read and written; a write is read back and changes no other pixel of that image, nor of an image that does not wrap the same buffer; a copy has the geometry and the pixels of its source.", "quantifier": "every history of image operations, every geometry, every pixel", "why_tests_cant": "all width/height/stride/channel combinations and all orders of operations", "anchors": ["src/nx_image.c: nx_image_alloc, nx_image_new, nx_image_resize, nx_image_resize_like, nx_image_release, nx_image_copy, nx_image_copy0, nx_image_wrap, nx_image_swap, nx_image_set_zero, nx_image_free"]}
{"id": "C52", "title": "Downsampling keeps every second pixel", "statement": "nx_image_downsample produces an image of half size (rounded down) whose pixel (x,y) is the source pixel (2x,2y).", "quantifier": "every image", "why_tests_cant": "all sizes parities and strides", "anchors": ["src/nx_image.c: nx_image_downsample"]}
{"id": "C53", "title": "Upsampling interpolates linearly within bounds", "statement": "nx_image_upsample produces an image of double size whose even pixels equal the source and whose odd pixels are averages of their source neighbours, never reading outside the source for non-empty images. (For an image without rows or columns the code reads outside.)", "quantifier": "every non-empty image", "why_tests_cant": "borders for all sizes", "anchors": ["src/nx_image.c: nx_image_upsample"]}
{"id": "C54", "title": "In-place symmetric convolution equals convolution", "statement": "nx_convolve_sym overwrites data[i] with sum over k of kernel[|k|]*original[i+r+k], despite working in place.", "quantifier": "every data array, kernel length and count", "why_tests_cant": "aliasing correctness for all lengths", "anchors": ["src/nx_filter.c: nx_convolve_sym"]}
{"id": "C55", "title": "Box filter equals the sliding mean", "statement": "nx_convolve_box overwrites data[i] with the mean of the 2r+1 original samples starting at i. In exact arithmetic this holds always; in single precision it gives the correctly rounded quotient for integer samples whose window sums stay below 2^24; with large floats the running sum keeps rounding errors of samples that have left the window.", "quantifier": "every data array and radius (exact arithmetic); every integer-valued array with small window sums (single precision)", "why_tests_cant": "running-sum invariants over all lengths", "anchors": ["src/nx_filter.c: nx_convolve_box"]}
{"id": "C56", "title": "Buffer borders follow the selected mode", "statement": "Copying samples into the filter buffer yields, around the samples, zeros, the replicated edge sample or the mirrored samples as selected; mirroring needs a border shorter than the data, otherwise old buffer contents end up in the border.", "quantifier": "every length, border width, stride and mode", "why_tests_cant": "all length/border combinations incl. borders longer than the data", "anchors": ["src/nx_filter.c: nx_filter_copy_to_buffer1_uc, nx_filter_copy_to_buffer_uc, nx_filter_copy_to_buffer1, nx_filter_copy_to_buffer, fill_buffer_border, nx_filter_buffer_alloc"]}
{"id": "C57", "title": "Image normalization maps the value range onto [0,1]", "statement": "After nx_image_normalize_to_zero_one of a non-constant float image, the minimum pixel is 0 and the maximum pixel is 1.", "quantifier": "every float image", "why_tests_cant": "the min/max scan is wrong only for certain orders of values", "anchors": ["src/nx_image.c: nx_image_normalize_to_zero_one"]}
{"id": "C58", "title": "Float to byte conversion clamps", "statement": "Converting a float image to bytes yields each value clamped to [0,255].", "quantifier": "every float image", "why_tests_cant": "all values", "anchors": ["src/nx_image.c: nx_image_convert_f32_to_uc, nx_image_convert_dtype"]}
{"id": "C59", "title": "PNM save/load round-trip", "statement": "Loading a saved grayscale (or opaque RGBA) byte image gives the same size and pixels.", "quantifier": "every byte image, including pixel bytes that look like whitespace or digits", "why_tests_cant": "pixel data adjacent to the textual header is arbitrary", "anchors": ["src/nx_image_io_pnm.c: nx_image_xsave_pnm, nx_image_save_pnm, nx_image_load_pnm, nx_image_xload_pnm"]}
{"id": "C60", "title": "Image file format detection", "statement": "The detected format depends only on the first four bytes and classifies exactly the PNM, JPEG and PNG signatures; short files are reported as unknown.", "quantifier": "every byte string", "why_tests_cant": "all headers", "anchors": ["src/nx_image_io.c: nx_image_file_format_from_header"]}
{"id": "C61", "title": "Match normalization is reversible", "statement": "De-normalizing normalized point matches restores the original coordinates and scales, and a homography/fundamental matrix estimated in normalized coordinates is transformed so that it relates the original points in the same way.", "quantifier": "every match list with non-zero spread, every matrix, every point pair (exact arithmetic)", "why_tests_cant": "algebraic identity over all reals", "anchors": ["src/nx_point_match_2d_stats.c"]}
{"id": "C62", "title": "Formatted strings are complete", "statement": "nx_fstr / nx_vfstr return a NUL-terminated heap string holding the whole expansion of the format, whatever its length, never a truncated one.", "quantifier": "every expansion text shorter than INT_MAX, every uninitialised-memory content", "why_tests_cant": "the buffer is grown in a loop around the vsnprintf return value; every length relative to the first buffer matters", "anchors": ["src/nx_string.c: nx_fstr, nx_vfstr"]}
{"id": "C63", "title": "JSON parser accepts exactly the grammar", "statement": "A text that splits into JSON tokens is parsed if and only if its tokens start with an array or object spelled by the JSON grammar; the tree then has the spelled value (with false and null turned into true), otherwise the call aborts. Existing nodes are untouched.", "quantifier": "every text that splits into tokens", "why_tests_cant": "token sequences are unbounded in length and nesting", "anchors": ["src/nx_json_parser.c: nx_json_parser_parse", "src/nx_json_lexer.c: nx_json_lexer_next"]}
{"id": "C64", "title": "JSON tree release", "statement": "nx_json_tree_free on an unattached tree frees every node of the tree exactly once and nothing else.", "quantifier": "every tree of nodes", "why_tests_cant": "trees are unbounded in depth and width; a missed or doubled free depends on the shape", "anchors": ["src/nx_json_tree.c: nx_json_tree_free"]}
{"id": "C65", "title": "JSON bundling of integer and string arrays", "statement": "Unbundling a bundled array of ints or strings returns the same array.", "quantifier": "every array of ints or of strings", "why_tests_cant": "all values, all lengths", "anchors": ["src/nx_json_bundle.c: nx_json_bundle_int_array, nx_json_unbundle_int_array, nx_json_bundle_string_array, nx_json_unbundle_string_array"]}
{"id": "C66", "title": "Keypoint orientation is the angle of the intensity centroid", "statement": "With orientations enabled with radius r, every keypoint whose patch fits in the image gets atan2 of the two intensity-weighted moments over the disc of radius r around it, read only inside the image; all other keypoints are unchanged.", "quantifier": "every image, every radius up to 128, every list of keypoints", "why_tests_cant": "the patch must stay inside the image for every keypoint near every border", "anchors": ["src/nx_fast_detector.c: nx_fast_detector_set_ori_param, nx_fast_detector_compute_keypoint_ori_ic, nx_keypoint_ori_ic"]}
{"id": "C67", "title": "Rotated BRIEF descriptors are computed inside the image", "statement": "Computing the descriptor of a keypoint at an orientation either fails, exactly when some rotated test point lies outside the sampled level, or returns the comparisons of the rotated test points; no pixel outside the level is read.", "quantifier": "every rotation and scale, every point, every extractor, every image", "why_tests_cant": "the rotated points depend on the angle; the check must cover all of them", "anchors": ["src/nx_brief_extractor.c: nx_brief_extractor_compute_pyr_at_theta"]}
{"id": "C68", "title": "Random BRIEF tests stay in the radius", "statement": "Whenever (re)initialising an extractor with a radius up to 16383 returns, every test point lies within the radius, the two points of a test are at least 3 apart and the recorded limits are the tight bounding box. With radius 1 it never returns; with radius 2 it practically never does.", "quantifier": "every random sequence, every previous extractor state, every size", "why_tests_cant": "all random sequences; rejection sampling may loop", "anchors": ["src/nx_brief_extractor.c: nx_brief_extractor_resize, nx_brief_extractor_randomize_with_seed, nx_brief_extractor_update_limits"]}
{"id": "C69", "title": "Harris score image", "statement": "Every pixel of the Harris score image is det - k*trace^2 of the gradient matrix at that pixel in single precision, for derivative images of any (also different) strides.", "quantifier": "every triple of derivative images, every k", "why_tests_cant": "all images, all float values", "anchors": ["src/nx_harris_detector.c: nx_harris_score_image"]}
{"id": "C70", "title": "Byte to float conversion of images", "statement": "Converting a byte image to floats gives the correctly rounded v/255 of every pixel; the results lie in [0,1], keep the order of the bytes strictly, and multiplying by 255 and truncating gives every byte back.", "quantifier": "every byte image of any size and stride", "why_tests_cant": "all sizes and strides; the order and the inverse must hold for all 256 values under rounding", "anchors": ["src/nx_image.c: nx_image_convert_uc_to_f32, nx_image_convert_dtype"]}
{"id": "C71", "title": "Linear pixel transform", "statement": "a*v+y on byte images truncates and clamps to 0..255 (exactly for integer a, y); on float images it is the single precision value; gaps between rows are left alone and no pixel is processed twice.", "quantifier": "every image of any size and stride, every a and y whose results fit an int", "why_tests_cant": "all sizes, strides, values and coefficients", "anchors": ["src/nx_image.c: nx_image_axpy_uc, nx_image_axpy_f32, nx_image_axpy"]}
{"id": "C72", "title": "Image difference", "statement": "Subtracting two images gives a float image of the common size whose pixels are the differences, exact for bytes.", "quantifier": "every pair of images of any, also different, sizes and strides", "why_tests_cant": "all pairs of sizes and strides", "anchors": ["src/nx_image.c: nx_image_subtract"]}
{"id": "C73", "title": "Antialiased halving", "statement": "Halving a byte image along rows (columns) with antialiasing gives the rounded down mean with weights 1 6 11 6 1 around every second sample, mirrored at the ends, for at least four columns (rows); the single precision computation never changes the integer result. With fewer than four columns (rows) the code accesses memory outside the image.", "quantifier": "every byte image with at least four columns (rows)", "why_tests_cant": "three separate border formulas, both parities, all 256^5 value combinations under float rounding", "anchors": ["src/nx_image.c: nx_image_downsample_aa_x_uc, nx_image_downsample_aa_y_uc, nx_image_downsample_aa_x, nx_image_downsample_aa_y"]}
{"id": "C74", "title": "Image derivatives", "statement": "The derivative images hold central differences inside and doubled one-sided differences in the first and last column (row), bytes being scaled by 1/255, for images with at least two columns (rows) and, for the y derivative of the last row, rows without gaps.", "quantifier": "every byte or float image with at least two columns (rows)", "why_tests_cant": "all sizes and strides; three border cases", "anchors": ["src/nx_image.c: nx_image_deriv_x_uc, nx_image_deriv_x_f32, nx_image_deriv_y_uc, nx_image_deriv_y_f32"]}
{"id": "C75", "title": "Image box filter", "statement": "Box filtering a byte image gives, along the rows and then along the columns, the rounded down mean of the window clamped to the image; the running float sums never change the result for radii up to 32767.", "quantifier": "every byte image larger than one row and column, every radius in 1..32767", "why_tests_cant": "all sizes, strides, radii larger than the image and values under float rounding", "anchors": ["src/nx_image.c: nx_image_filter_box, nx_image_filter_box_x, nx_image_filter_box_y"]}
{"id": "C76", "title": "Image smoothing", "statement": "Smoothing a float image equals convolution with the given symmetric kernels along rows and then columns, positions clamped to the image, in single precision in a fixed order; on byte images values are truncated after each pass.", "quantifier": "every image larger than one row and column, every pair of kernels", "why_tests_cant": "all sizes, strides, kernels longer than the image", "anchors": ["src/nx_image.c: nx_image_smooth"]}
{"id": "C77", "title": "Image scaling", "statement": "Scaling a gray image by a factor samples it bilinearly at the scaled positions without leaving the image; in particular scaling by one half gives every second pixel.", "quantifier": "every byte or float image, every factor", "why_tests_cant": "all sizes, strides and float factors", "anchors": ["src/nx_image.c: nx_image_scale_uc, nx_image_scale_f32"]}
{"id": "C78", "title": "Reading PNM pixel data is exact", "statement": "Loading a binary PNM file whose header gives w x h pixels and is followed by a newline yields failure exactly when fewer than the announced pixel bytes follow, and otherwise a w x h image whose pixels are the bytes of the file in order (in the requested gray or RGBA type); nothing outside the image is written.", "quantifier": "every header spelling, every size, every byte string after the header, every load mode", "why_tests_cant": "truncated and adversarial files of every length", "anchors": ["src/nx_image_io_pnm.c: nx_image_load_pnm, nx_image_xload_pnm, read_pnm_data"]}
{"id": "C79", "title": "Luminance of a colour", "statement": "The gray value computed for a byte colour lies between the smallest channel minus one and the largest channel, never decreases when a channel increases, and its computation is free of overflow; the float version returns a value in [0,1] (or NaN).", "quantifier": "all 2^24 byte colours and all floats, with binary32 rounding", "why_tests_cant": "pairs of colours cannot be enumerated; rounding of the float weights", "anchors": ["include/virg/nexus/nx_colorspace.h: nx_rgb_to_gray_uc, nx_rgb_to_gray_f32"]}
{"id": "C80", "title": "Conversion between gray and RGBA images", "statement": "Converting a gray image to RGBA keeps the size, puts the gray value in the three colours and sets alpha to 255; converting an RGBA image to gray gives each pixel its luminance.", "quantifier": "every image size, stride and content", "why_tests_cant": "all geometries and contents", "anchors": ["src/nx_image.c: nx_image_convert_type", "src/nx_colorspace.c: nx_convert_gray_to_rgba_uc, nx_convert_rgba_to_gray_uc"]}
{"id": "C81", "title": "Image format from a file name", "statement": "The format guessed from a file name depends only on the text after its last dot: pgm/ppm, jpg/jpeg and png in lower or upper case are recognised and everything else is unknown.", "quantifier": "every file name", "why_tests_cant": "all strings", "anchors": ["src/nx_image_io.c: nx_image_file_format_from_filename"]}
{"id": "C82", "title": "PNM headers allowed by the format are accepted", "statement": "Both loaders accept comment lines after the magic number and any single white space character after the header, and report a bad header as a failure.", "quantifier": "every header of the PNM format, every pixel content", "why_tests_cant": "header spellings and pixel bytes are unbounded", "anchors": ["src/nx_image_io_pnm.c: nx_image_load_pnm, nx_image_xload_pnm"]}
{"id": "C83", "title": "Matrix algebra", "statement": "In exact arithmetic the 3x3 and 4x4 products compose the linear maps (also the product that skips the zeros of an upper triangular factor), the returned determinant is the determinant, the inverse undoes the map on both sides exactly when the determinant is not zero (and is the zero matrix otherwise), and a 4x4 pose moves points by rotation then translation.", "quantifier": "all matrices and vectors over the reals", "why_tests_cant": "identities over all real matrices", "anchors": ["include/virg/nexus/nx_mat234.h: nx_dmat3_mul, nx_dmat3_mul_ua, nx_dmat3_inv, nx_dmat3_det, nx_dmat3_transform, nx_dmat4_mul, nx_dmat4_set_rotation, nx_dmat4_set_translation"]}
{"id": "C84", "title": "Rotation matrices", "statement": "In exact arithmetic the Euler angle and axis-angle constructors return proper rotations: the Euler ones compose the three axis rotations in the order of their name, the axis-angle one keeps the axis and turns by the angle counter-clockwise, for every non-zero axis.", "quantifier": "all angles, all non-zero axes", "why_tests_cant": "identities over all angles", "anchors": ["src/nx_rotation_3d.c: nx_rotation_3d_RzRyRx, nx_rotation_3d_RxRyRz, nx_rotation_3d_axis_angle"]}
{"id": "C85", "title": "Quaternions and rotation matrices", "statement": "In exact arithmetic quaternion products are Hamilton products, a unit quaternion rotates vectors as q v q^-1, its matrix is a rotation doing the same, products become matrix products, converting a rotation matrix to a quaternion and back is the identity, converting a unit quaternion to a matrix and back gives the quaternion or its negative, and the axis-angle quaternion matches the axis-angle matrix.", "quantifier": "all unit quaternions, rotation matrices, axes and angles", "why_tests_cant": "four branches chosen by sign comparisons over a continuum", "anchors": ["src/nx_quaternion.c: nx_quaternion_from_R, nx_quaternion_to_R, nx_quaternion_rotate", "include/virg/nexus/nx_quaternion.h: nx_quaternion_prod, nx_quaternion_to_unit, nx_quaternion_from_axis_angle"]}
{"id": "C86", "title": "Homography transfer, inliers and errors", "statement": "In exact arithmetic transferring a point applies the projective map; marking inliers sets the flag of exactly the matches whose transferred point is closer than the tolerance to its partner (in the forward or, with the inverse matrix, the backward direction), changes nothing else and returns the number of flags; the transfer errors are the mean distances over the inliers.", "quantifier": "all matrices, match lists and positive tolerances", "why_tests_cant": "identities over all real matrices and lists of every length", "anchors": ["include/virg/nexus/nx_homography.h: nx_homography_transfer_fwd", "src/nx_homography.c: nx_homography_mark_inliers, nx_homography_mark_inliers_inv, nx_homography_transfer_error_fwd, nx_homography_transfer_error_bwd, nx_homography_transfer_error_sym"]}
{"id": "C87", "title": "Homography from four points", "statement": "For four matches without three points on a line on either side, the four-point estimate succeeds and returns the homography, unique up to scale, that maps each of the four points to its partner; otherwise it reports failure.", "quantifier": "all four-tuples of matches (exact arithmetic)", "why_tests_cant": "polynomial identities of high degree in sixteen real variables; exceptional configurations have measure zero", "anchors": ["src/nx_homography.c: nx_homography_estimate_4pt, nx_homography_estimate_unit"]}
{"id": "C88", "title": "Linear constraints of the estimators", "statement": "The coefficient rows handed to the linear solvers vanish on a vector exactly when the corresponding geometric condition holds: the homography maps the point to its partner (up to scale), the fundamental matrix satisfies the epipolar equation, the space point lies on both viewing rays.", "quantifier": "all matches, all coefficient vectors, all camera pairs (exact arithmetic)", "why_tests_cant": "equivalences over all reals", "anchors": ["src/nx_homography.c: nx_homography_constraints_from_corr", "src/nx_epipolar.c: nx_fundamental_constraints_from_corr", "src/nx_pinhole.c: nx_triangulation_constraints_from_corr"]}
{"id": "C89", "title": "Homography sanity check", "statement": "The check accepts a homography exactly when the corners of the square (+-1,+-1) keep their orientation around the diagonal and the absolute cosine of the angle between the mapped diagonals is at most the given limit.", "quantifier": "all homographies and limits (exact arithmetic)", "why_tests_cant": "a test of a few matrices does not see a wrong normalisation", "anchors": ["src/nx_homography.c: nx_homography_check"]}
{"id": "C90", "title": "2-D transform matrices", "statement": "The similarity matrix shifts, turns, scales and shifts again; the affine matrix shifts, turns by phi, stretches x by 1/cos theta, turns by psi, scales and shifts; the perspective matrix maps the corners of a quadrilateral to the unit square.", "quantifier": "all parameters and points (exact arithmetic)", "why_tests_cant": "identities over all reals", "anchors": ["src/nx_transform_2d.c: nx_transform_2d_fill_similarity_d, nx_transform_2d_fill_affine_d, nx_transform_2d_fill_perspective_d"]}
{"id": "C91", "title": "Pinhole projection", "statement": "The camera matrix built from calibration, rotation and translation (missing ones being identity or zero) maps X to K(RX+t); projecting a list of points stores the image of every point and returns the smallest absolute third coordinate, and stops the program if the list is empty or a third coordinate is zero.", "quantifier": "all cameras, all point lists (exact arithmetic)", "why_tests_cant": "lists of every length, all real cameras", "anchors": ["src/nx_pinhole.c: nx_pinhole_projection_from_krt, nx_pinhole_project"]}
{"id": "C92", "title": "Epipolar distance, inliers and rank correction", "statement": "The epipolar distance is the distance from the second point to the nearest point of the epipolar line of the first; marking sets the flag of exactly the matches below the tolerance and returns their number; the rank correction returns a singular matrix nearest to the given one in the Frobenius norm.", "quantifier": "all matrices, match lists and tolerances (exact arithmetic, given a singular value decomposition)", "why_tests_cant": "optimality over all real matrices", "anchors": ["include/virg/nexus/nx_epipolar.h: nx_fundamental_epipolar_distance_fwd", "src/nx_epipolar.c: nx_fundamental_mark_inliers, nx_fundamental_fix_rank"]}
{"id": "C93", "title": "Pose from an essential matrix", "statement": "The essential matrix of a pose maps u to t x Ru. Each of the four candidates of the decomposition is a rotation with a unit translation having the given essential matrix up to sign, and the choice by depth signs picks the first candidate with the largest sum; if all matches were seen in front of both cameras of some pose with this essential matrix (up to scale), exactly that pose is chosen.", "quantifier": "all poses, all singular value decompositions, all non-empty match lists (exact arithmetic)", "why_tests_cant": "quantifies over all poses, decompositions and scenes", "anchors": ["src/nx_epipolar.c: nx_essential_from_Rt, nx_essential_decompose_to_Rt, nx_epipolar_get_z_sign_sum, nx_epipolar_pick_best_Rt"]}
{"id": "C94", "title": "Essential matrix from a fundamental matrix", "statement": "The essential matrix computed from a fundamental matrix F and calibrations K, K' is K'^T F K.", "quantifier": "all matrices, all upper triangular calibrations (exact arithmetic)", "why_tests_cant": "identity over all reals", "anchors": ["src/nx_epipolar.c: nx_essential_from_fundamental"]}
{"id": "C95", "title": "Triangulation", "statement": "Every inlier whose two viewing rays meet in a single point is triangulated to that point, in order, with the position of the match; at most n_pt points and ids are written and their number is returned.", "quantifier": "all camera pairs, match lists and capacities (exact arithmetic, given a singular value decomposition)", "why_tests_cant": "lists of every length; overflow needs more inliers than capacity", "anchors": ["src/nx_pinhole.c: nx_pinhole_triangulate"]}
{"id": "C96", "title": "Matrix transpose in place", "statement": "Transposing an m x n matrix stored column by column puts the element of row r and column c into row c and column r of the same storage, loses no element, touches nothing after the matrix and ends.", "quantifier": "all sizes up to INT_MAX elements, all contents", "why_tests_cant": "the cycles of the permutation depend on the shape; termination for every shape", "anchors": ["include/virg/nexus/nx_mat.h: nx_dmat_transpose"]}
{"id": "C97", "title": "Matrix text files", "statement": "Writing prints one line per row; reading takes the numbers of every line as one row, stops the program unless all lines have the same number of numbers, and gives no matrix for an empty text; a written matrix is read back with the same shape and elements.", "quantifier": "all texts and matrices, given that a printed number is read back", "why_tests_cant": "texts of every length and shape; growth of the buffers", "anchors": ["src/nx_mat.c: nx_dmat_xwrite, nx_dmat_xread"]}
{"id": "C98", "title": "Matrix product and fill", "statement": "Each element of the product is the sum of the products of the row and the column accumulated in index order; filling sets every element of the matrix; padding between columns is not touched.", "quantifier": "all shapes, strides and contents, any element arithmetic", "why_tests_cant": "all shapes and strides", "anchors": ["include/virg/nexus/nx_mat.h: nx_dmat_mul, nx_dmat_set"]}
{"id": "C99", "title": "Keypoint files", "statement": "Writing n keypoints to a stream stores 44 bytes each in a fixed order and returns how many were stored completely; reading returns how many complete keypoints were found, stores those and leaves later array elements alone; what was written is read back bit for bit; the checked variants stop the program exactly when not all keypoints could be transferred.", "quantifier": "all keypoint arrays, all byte streams, all points at which the stream ends or the medium is full", "why_tests_cant": "every truncation point and every bit pattern", "anchors": ["src/nx_keypoint.c: nx_keypoint_write, nx_keypoint_read, nx_keypoint_xwrite, nx_keypoint_xread"]}
{"id": "C100", "title": "SIFT key files", "statement": "Saving keypoints with descriptors either stores the complete file or stops the program; loading either returns exactly the keypoints and descriptors of a well-formed file, growing the arrays as needed, or stops the program; what was saved is loaded back.", "quantifier": "all keypoint sets, all files, all capacities, all points at which the medium is full", "why_tests_cant": "every byte sequence and every point of failure", "anchors": ["src/nx_sift_detector.c: nx_sift_xsave, nx_sift_xload"]}
{"id": "C101", "title": "Descriptor matching without ratio test", "statement": "With a ratio threshold outside (0,1) brute-force matching links every keypoint of the first set with the keypoint of the second set whose descriptor is nearest (the first one on ties), with positions, distance, uncertainties and ids; it returns the size of the first set and touches no other result.", "quantifier": "all keypoint sets and byte descriptors, including an empty second set", "why_tests_cant": "minimum over sets of every size; ties", "anchors": ["src/nx_sift_detector.c: nx_sift_match_brute_force", "include/virg/nexus/nx_vec.h: nx_ucvec_dist_sq", "include/virg/nexus/nx_point_match_2d.h: nx_point_match_2d_from_keypoints"]}
{"id": "C102", "title": "Descriptor matching with ratio test", "statement": "With a ratio threshold t in (0,1) the matches are exactly the pairs, in order of the first set, where the squared distance to the nearest descriptor is less than t*t times that to the second nearest (in single precision); a second set of one element counts as having a second neighbour at distance INT_MAX, and an empty second set gives no matches.", "quantifier": "all keypoint sets, byte descriptors and thresholds", "why_tests_cant": "the two smallest over sets of every size; rounding", "anchors": ["src/nx_sift_detector.c: nx_sift_match_brute_force"]}
{"id": "C103", "title": "Growth of the keypoint store", "statement": "However many keypoints are detected, the result arrays grow as needed and hold every keypoint and its descriptor in order of detection; ids count from zero.", "quantifier": "all numbers of keypoints, all initial capacities", "why_tests_cant": "growth happens many times at sizes depending on float rounding", "anchors": ["src/nx_sift_detector.c: nx_sift_key_store_append, nx_sift_compute_keys"]}
{"id": "C104", "title": "Result caches are transparent", "statement": "A sequence of detections or matchings with a cache directory returns what the same sequence without a cache returns.", "quantifier": "all sequences of calls, all images, parameters and keypoint sets", "why_tests_cant": "histories of calls; confusion needs particular pairs of inputs", "anchors": ["src/nx_sift_detector.c: nx_sift_detector_compute_with_cache, nx_sift_match_brute_force_with_cache"]}
{"id": "C105", "title": "Search for scale space extrema", "statement": "The scan of a difference image hands on exactly the pixels, farther than the border distance from the image border, that exceed the threshold, are strictly larger (or smaller) than their 26 neighbours in space and scale, and pass the edge test; it reads nothing outside of the images.", "quantifier": "all images, sizes, strides and border distances of at least 2, any thresholds", "why_tests_cant": "images of every size and content", "anchors": ["src/nx_sift_detector.c: nx_sift_process_dog, nx_sift_check_edge_threshold"]}
{"id": "C106", "title": "Orientations of a keypoint", "statement": "A keypoint is created for each bin of the orientation histogram, circularly averaged six times over three bins, that is larger than both circular neighbours and than 0.8 times the largest bin.", "quantifier": "all histograms (in single precision)", "why_tests_cant": "all contents of 36 bins; wrap-around", "anchors": ["src/nx_sift_detector.c: nx_sift_compute_ori_hist, nx_sift_compute_keys"]}
{"id": "C107", "title": "Descriptor accumulation", "statement": "A gradient sample adds to the descriptor only in the at most eight cells (row, column, orientation, the orientation being circular) next to its position, each with its trilinear share of the weight, and never accesses memory outside of the 128 values.", "quantifier": "all descriptor contents, sample positions, orientations in [0, 8] and weights (in single precision)", "why_tests_cant": "continuum of positions; boundary values", "anchors": ["src/nx_sift_detector.c: nx_sift_compute_fdescriptor"]}
{"id": "C108", "title": "Detector options default to the default parameters", "statement": "Parameters read from the options, when none of the detector's options is given, equal the default parameters.", "quantifier": "all option tables the options are added to, all command lines not naming them", "why_tests_cant": "depends on whatever else is in the table and on the command line", "anchors": ["src/nx_sift_detector.c: nx_sift_parameters_add_to_options, nx_sift_parameters_from_options", "include/virg/nexus/nx_sift_detector.h: nx_sift_default_parameters"]}
{"id": "C109", "title": "Uniform sampler is the SFMT-19937 sequence", "statement": "A seed determines one sequence of 32-bit words; any mixture of 32-bit, 64-bit, float, double and array requests and reseedings is answered from that sequence, word after word without gap or repetition; exactly the requests the generator forbids (64-bit words at odd positions, arrays in the middle of a block, of wrong or too small size) stop the program.", "quantifier": "all seeds and all finite histories of calls with all array sizes", "why_tests_cant": "the state of 19968 bits and histories of unbounded length; a wrong shift or index shows only after many words", "anchors": ["src/nx_uniform_sampler.c: nx_uniform_sampler_new_with_seed, nx_uniform_sampler_sample32, nx_uniform_sampler_sample64, nx_uniform_sampler_fill32, nx_uniform_sampler_fill64, nx_uniform_sampler_sample_s, nx_uniform_sampler_sample_d", "src/SFMT/SFMT.c: sfmt_gen_rand_all, gen_rand_array, sfmt_init_gen_rand", "src/SFMT/SFMT.h: sfmt_genrand_uint32, sfmt_genrand_uint64"]}
{"id": "C110", "title": "Range of uniform samples", "statement": "Float samples lie in [0,1), are the uniform word divided by 2^32 up to rounding and grow with it; double samples are a 53-bit number divided by 2^53 and lie in [0,1); words have 32 or 64 bits.", "quantifier": "all seeds and histories; all words", "why_tests_cant": "the exceptional words are 128 of 2^32", "anchors": ["src/nx_uniform_sampler.c: nx_uniform_sampler_sample_s, nx_uniform_sampler_sample_d", "src/SFMT/SFMT.h: sfmt_genrand_real2, sfmt_genrand_res53_mix"]}
{"id": "C111", "title": "The generator never dies out", "statement": "Every seed gives a state that satisfies the period certification, and for every seed and every position, 624 consecutive words are never all zero.", "quantifier": "all seeds, all positions of the infinite sequence", "why_tests_cant": "infinite sequence; all 2^32 seeds", "anchors": ["src/SFMT/SFMT.c: period_certification, sfmt_init_gen_rand"]}
{"id": "C112", "title": "Normal samples by the polar method", "statement": "Any sequence of requests for normal samples on a seeded sampler fills every array completely (odd counts included) with sigma * sqrt(-2 log s / s) * v + mean, where the points (v1, v2) are the consecutive pairs of the uniform stream that lie inside the unit circle, each used once and in order (the second coordinate of the last pair of an odd request is dropped); nothing else is written.", "quantifier": "all seeds, all sequences of requests, all counts, any arithmetic (single or double precision) and any logarithm and square root", "why_tests_cant": "rejection makes the number of words used depend on the data; histories of unbounded length", "anchors": ["src/nx_gaussian_sampler.c: nx_gaussian_sampler_sample_s, nx_gaussian_sampler_sample_d, nx_gaussian_sampler_new_with_seed"]}
{"id": "C113", "title": "Robust homography estimation reports what it found", "statement": "Random sampling estimation of a homography keeps the matches (sorted by cost), sets each inlier flag by the returned matrix and returns the number of flags set (0 when the matrix fails the degeneracy check); at most the given number of matrices is sampled, the i-th from four of the best 10 + i matches, and sampling stops early only at 200 inliers; the result is reached by repeated estimation from all inliers of the first sampled matrix with the most inliers, as long as each round gains more than five; fewer than four matches change nothing; nothing outside of the matches is read.", "quantifier": "all matches, random numbers, iteration limits, tolerances and numerical solvers", "why_tests_cant": "the outcome depends on random numbers and on data-dependent loops; histories of inlier counts are unbounded", "anchors": ["src/nx_homography.c: nx_homography_estimate_ransac, nx_homography_mark_inliers, nx_select_prosac_candidates"]}
{"id": "C114", "title": "Robust fundamental matrix estimation reports what it found", "statement": "The same for fundamental matrices: samples of eight different matches out of the best 10 + i, early stop at 100 inliers, flags and returned number agree with the returned matrix, fewer than eight matches change nothing, nothing outside of the matches is read and drawing a sample ends when every index keeps coming up.", "quantifier": "all matches, random numbers, iteration limits, tolerances and numerical solvers", "why_tests_cant": "random and data-dependent loops", "anchors": ["src/nx_epipolar.c: nx_fundamental_estimate_ransac, nx_fundamental_mark_inliers, nx_fundamental_estimate_inliers, nx_select_prosac_candidates"]}
{"id": "C115", "title": "Affine warping resamples the source", "statement": "Warping writes every pixel of the destination and nothing else, reads nothing outside of the source, and gives the pixel the bilinear interpolation of the source at the position the map takes it to (up to 1/256 grey level and the rounding of the position), with the border treated as asked: black, white, noise, repeated or mirrored; a whole-pixel shift copies pixels exactly.", "quantifier": "all sources, destinations and strides, all affine maps with coordinates up to 2^20 and all random numbers", "why_tests_cant": "the positions accumulate rounding errors over a row; border cases depend on the map", "anchors": ["src/nx_image_warp.c: nx_image_warp_affine_bilinear"]}
{"id": "C116", "title": "Rotation by 45 degrees turns about the centre", "statement": "The rotated image has at each pixel the bilinear interpolation of the source at the pixel turned by 45 degrees (clockwise or not) about the centres of the two images, black outside; only the pixels of the destination are written.", "quantifier": "all images up to 2048 x 2048 with any strides", "why_tests_cant": "positions accumulate rounding errors; all images and sizes", "anchors": ["src/nx_image_warp.c: nx_image_rotate45, nx_image_rotate45_uc, nx_image_rotate45_f32"]}
{"id": "C117", "title": "Colour maps interpolate their tables", "statement": "Applying a colour map gives every value from 0 to 1 the colour of the piecewise linear curve through its table (to 1/256 of a level), 0 the first and 1 the last row, a byte exactly the colour of its row in the tables of 256 rows, and in the gray map the byte itself; no value makes the map read outside of its table.", "quantifier": "all maps and all float values", "why_tests_cant": "floats are too many to test and the table is indexed by a rounded product", "anchors": ["src/nx_colorspace.c: nx_color_map_apply, interpolate_color_map_data", "src/nx_color_map_data.h: nx_color_map_data_viridis"]}
{"id": "C118", "title": "Colouring an image maps every pixel", "statement": "Applying a colour map to a gray image gives an opaque colour image of the same size whose pixels have the colours of the values (a byte b stands for b/255, a float for itself); the padding of rows is ignored and nothing outside of the images is touched.", "quantifier": "all gray images of bytes or floats, strides and maps", "why_tests_cant": "all sizes, strides and values", "anchors": ["src/nx_image.c: nx_image_apply_colormap", "src/nx_colorspace.c: nx_color_map_apply"]}
{"id": "C119", "title": "Gaussian kernels are normalised", "statement": "A symmetric Gaussian kernel of up to 4096 entries is nonnegative, does not grow away from its centre and its weights (the centre once, the others twice) sum to 1 within 1/1000 in single precision, for whatever monotone positive values the exponential gives.", "quantifier": "all kernel lengths up to 4096 and all non-increasing values of exp", "why_tests_cant": "the kernels of all sigmas and their rounding errors cannot be enumerated", "anchors": ["src/nx_filter.c: nx_kernel_sym_gaussian"]}
{"id": "C120", "title": "Gaussian smoothing of bytes stays in range", "statement": "Smoothing a byte image with normalised kernels always succeeds; every result is at most the brightest and at least the darkest source value minus 2, and each of the two passes gives the exact weighted mean rounded down up to a quarter level; smoothing in place gives the same pixels and keeps the row stride.", "quantifier": "all byte images, sizes up to 2^30, strides and kernels", "why_tests_cant": "all images and kernels, with rounding", "anchors": ["src/nx_image.c: nx_image_smooth"]}
{"id": "C121", "title": "Fast pyramids halve level by level", "statement": "Building a fast pyramid of n levels from a gray byte image without row padding, of at least 2^n and less than 2^24 pixels in each direction, succeeds whatever the pyramid held before: level i has size w/2^i x h/2^i, scale 2^i and the sigma of the builder, level 0 is the source smoothed by the blur missing from the assumed 0.5 to the first sigma (or the source itself if nothing is missing), and each other level is the antialiased half of the level before.", "quantifier": "all images, previous pyramids and numbers of levels", "why_tests_cant": "all images and histories of the pyramid object", "anchors": ["src/nx_image_pyr_builder.c: nx_image_pyr_builder_build, _nx_image_pyr_builder_update_fast", "src/nx_image_pyr.c: nx_image_pyr_create_level"]}
{"id": "C122", "title": "Fine pyramids smooth step by step", "statement": "Building a fine pyramid of n octaves with k steps from such an image gives n k levels; level i has size w/2^(i/k) x h/2^(i/k), and is the level before smoothed by the blur missing between their sigmas (in the pixels of the level before), halved by taking every second pixel at the start of an octave.", "quantifier": "all images, previous pyramids, octaves and steps", "why_tests_cant": "all images and numbers of levels", "anchors": ["src/nx_image_pyr_builder.c: nx_image_pyr_builder_build, _nx_image_pyr_builder_update_fine"]}
{"id": "C123", "title": "Pyramid levels have the blur they promise", "statement": "In exact arithmetic, if the source is blurred by 0.5 and sigma0 is at least 0.5, level i of a fine pyramid with k steps is blurred by sigma0 2^((i mod k)/k) of its own pixels, which is its sigma over its scale, and level i of a scaled pyramid with factor f by sigma0 (2/f)^i of its own pixels.", "quantifier": "all sigma0, octaves, steps and factors", "why_tests_cant": "the blurs of all levels, by the composition of Gaussians", "anchors": ["src/nx_image_pyr_builder.c: _nx_image_pyr_builder_update_fine, _nx_image_pyr_builder_update_scaled, compute_sigma_g"]}
{"id": "C124", "title": "Descriptor maps hold what was added", "statement": "After any history of clearing, reserving, changing the descriptor size and adding descriptors, a descriptor map lists exactly the (id, descriptor) pairs added since it was last emptied; the nearest-neighbour search of a non-empty map returns the id of the first of the nearest entries with its Hamming distance, and the search by id returns the first entry with that id, or NULL if there is none.", "quantifier": "all histories of map operations, ids, descriptors and queries", "why_tests_cant": "the state space of histories and descriptors is unbounded", "anchors": ["src/vg_descriptor_map.cc: VGDescriptorMap::add, search_nn, search_by_id, clear, reserve", "include/virg/nexus/vg_descriptor_map.hpp"]}
{"id": "C125", "title": "The Harris score of an image", "statement": "The score image the Harris detector computes for a gray byte image without row padding has, at every pixel, the value det M - k (tr M)^2 in single precision, where M is the matrix of products of the one-pixel image differences, smoothed by the window kernel (rows, then columns) if the window sigma is positive, whatever the work images and buffers of the detector held before.", "quantifier": "all gray byte images of at least 2 x 2 pixels, kernels and old contents", "why_tests_cant": "all images and kernels, and stale memory", "anchors": ["src/nx_harris_detector.c: nx_harris_deriv_images, nx_harris_score_image", "src/vg_harris_detector.cc: VGHarrisDetector::update_score_image"]}
{"id": "C126", "title": "The Harris detector returns the first corners", "statement": "Detection with a budget of max keys (at most 2^30 - 1) returns the first max corners of the image in raster order; on a pyramid the first max corners of the requested levels, coarse levels first. Keys are numbered from 0 and carry the level, its scale and sigma, the position in the level and the score. The threshold is left alone unless adaptation is asked for, and is then adapted to the number of corners found, at most 2 max.", "quantifier": "all images, pyramids, budgets and thresholds", "why_tests_cant": "all images and budgets, including budgets exhausted in the middle of a level", "anchors": ["src/vg_harris_detector.cc: VGHarrisDetector::detect, detect_pyr"]}
{"id": "C127", "title": "The adaptive Harris threshold moves the right way", "statement": "The adapted threshold is the old one scaled by the documented table of the ratio of found to wanted keys, decided without rounding errors for up to 32768 wanted keys; for any counts more keys never give a lower threshold, the threshold does not fall when too many keys are found, does not rise when too few are found and stays the same when exactly the wanted number is found.", "quantifier": "all thresholds and counts", "why_tests_cant": "all counts and thresholds, including float rounding at the table boundaries", "anchors": ["src/vg_harris_detector.cc: VGHarrisDetector::adapt_threshold"]}
{"id": "C128", "title": "Keypoints survive JSON", "statement": "Keypoints bundled into JSON, printed with any indentation, parsed and unbundled come back with the same integer fields and id, and with the floats their printed forms read as; unbundling any other JSON value either yields the keypoint its members describe or aborts.", "quantifier": "all lists of keypoints, indentations, JSON trees and float formatters", "why_tests_cant": "all keypoints and JSON trees", "anchors": ["src/nx_json_bundle.c: nx_json_bundle_keypoint, nx_json_bundle_keypoint_array, nx_json_unbundle_keypoint, nx_json_unbundle_keypoint_array"]}
{"id": "C129", "title": "Scalars and float arrays survive JSON", "statement": "A char, an unsigned char or a size_t bundled into JSON comes back unchanged, an integer read as an unsigned char is brought into 0..255, arrays of floats and doubles come back as their printed forms read, also when a JSON array mixes integers and fractions, and any other element makes unbundling abort.", "quantifier": "all values, arrays and JSON arrays", "why_tests_cant": "all values and trees", "anchors": ["src/nx_json_bundle.c: nx_json_bundle_char, nx_json_bundle_uchar, nx_json_bundle_size_t, nx_json_bundle_float_array, nx_json_bundle_double_array and the unbundle functions"]}
{"id": "C130", "title": "The affine warp processor reports its transform", "statement": "After any earlier warps, the forward transform reported for an affine warp takes every point of the image to the centre of the result plus the offset from the image centre rotated by the tilt angle, compressed in x by the tilt, rotated by the planar angle and scaled; for non-zero scale and tilt the reported inverse transform inverts it; for tilts of at least 1 and moderate sizes the warp buffers have representable sizes.", "quantifier": "all image sizes, scales, tilts and angles, and earlier states", "why_tests_cant": "real parameters and points", "anchors": ["src/nx_affine_warp_processor.c: nx_affine_warp_processor_resize_buffers, nx_affine_warp_processor_update_transforms, nx_affine_warp_processor_forward_transform, nx_affine_warp_processor_inverse_transform"]}
{"id": "C131", "title": "The affine warp result contains the whole image", "statement": "The intermediate buffers and the result of an affine warp are large enough that every point of the image is mapped more than half a pixel inside of their borders, and the result is at most two pixels larger in each direction than the warped image.", "quantifier": "all image sizes, scales, tilts and angles, and points of the image", "why_tests_cant": "real parameters and points", "anchors": ["src/nx_affine_warp_processor.c: nx_affine_warp_processor_transformed_buffer_size, nx_affine_warp_processor_resize_buffer"]}
{"id": "C132", "title": "Affine warps resample the image", "statement": "An affine warp delivers a result; each of its resampling steps gives every buffer pixel whose position (up to rounding errors) falls inside the source the bilinearly interpolated value, rounded down, and leaves pixels that fall away from the source and all row padding alone, without reading outside of the source.", "quantifier": "all images, buffers and affine maps of moderate size", "why_tests_cant": "all images and maps, including float rounding", "anchors": ["src/nx_affine_warp_processor.c: nx_affine_warp_processor_warp, warp_buffer_affine_bilinear, warp_processor_blur"]}
{"id": "C133", "title": "The background of affine warps", "statement": "Filling the background of a warped image replaces the pixels that do not come from the image by the chosen colour, by random bytes or by the value at the nearest edge of the image, and leaves the pixels that come from the image alone.", "quantifier": "all images, buffers, affine maps of moderate size and background modes", "why_tests_cant": "all images and maps, including float rounding", "anchors": ["src/nx_affine_warp_processor.c: fill_warp_buffer_bg"]}
{"id": "C134", "title": "Mean and standard deviation", "statement": "The reported mean times the number of values is their sum, the reported deviation is the sample standard deviation, both are independent of the order of the data, the mean lies between the smallest and the largest value, the deviation vanishes exactly for constant data, and both follow a change of unit and origin; one value has deviation 0, no values give zeros.", "quantifier": "all finite lists of real or integer data and all sorts", "why_tests_cant": "all lengths and values", "anchors": ["src/nx_statistics.c: nx_dstatistics_1d, nx_istatistics_1d"]}
{"id": "C135", "title": "KITTI sequences", "statement": "A KITTI odometry sequence opens exactly if its directory, poses, times and calibration exist and fit together; then the k-th pose and the four calibration matrices are the rows of the files stored column by column, the times are those of the file, and the availability of cameras and laser scans is reported; a sequence without poses opens as one without ground truth.", "quantifier": "all file systems, file contents, number formats and sequence numbers", "why_tests_cant": "all files, of any length (the arrays grow)", "anchors": ["src/nx_kitti_slam.c: nx_kitti_slam_new, nx_kitti_slam_sequence_new, nx_read_poses_from_pose_file, nx_read_times_from_times_file"]}
{"id": "C136", "title": "VGG affine sequences", "statement": "A VGG affine sequence opens exactly if its name is one of the eight standard names and its directory holds five readable homographies; the first homography is the identity and the others are the matrices of the files stored column by column.", "quantifier": "all file systems, file contents, number formats and names", "why_tests_cant": "all files and names", "anchors": ["src/nx_vgg_affine_dataset.c: nx_vgg_affine_sequence_new, nx_vgg_affine_xread_ground_truth"]}
{"id": "C137", "title": "Temple Color sequences", "statement": "A Temple Color 128 sequence opens exactly if its name is a standard name and its files give a frame range, attributes and one box of four numbers for every frame; the length is the number of frames and the boxes are those of the file in order.", "quantifier": "all file systems, file contents, number formats and names", "why_tests_cant": "all files and names", "anchors": ["src/nx_temple_color_128.c: nx_temple_color_128_sequence_new, nx_temple_color_128_xread_frame_range, nx_temple_color_128_xread_ground_truth"]}
{"id": "C138", "title": "Temple Color attributes", "statement": "The attribute mask of a Temple Color 128 sequence has exactly the bits of the attributes listed in its attribute file.", "quantifier": "all attribute files", "why_tests_cant": "all lists of attributes", "anchors": ["src/nx_temple_color_128.c: nx_temple_color_128_get_attr, nx_temple_color_128_xread_attributes"]}
{"id": "C139", "title": "Frames of the datasets", "statement": "Asking a dataset sequence for a frame loads the image file with the number of that frame in the layout of the dataset and nothing else; frames and cameras outside of the sequence and files that cannot be loaded abort.", "quantifier": "all sequences, frame and camera numbers, and loaders", "why_tests_cant": "all numbers", "anchors": ["src/nx_kitti_slam.c: nx_kitti_slam_sequence_xload_frame", "src/nx_vgg_affine_dataset.c: nx_vgg_affine_sequence_xload_frame", "src/nx_temple_color_128.c: nx_temple_color_128_sequence_xload_frame"]}
{"id": "C140", "title": "Sampling consensus for a homography", "statement": "nx_usac_estimate_homography with fewer than four matches returns 0 and touches nothing. Otherwise the matches are kept (reordered by cost), their inlier flags are those of the returned matrix, the returned number counts them or is 0 when the matrix fails the shape check; the matrix is an accepted sample with the most inliers or what repeated estimation from its inliers gives, whichever has more; every accepted sample comes from four of the best matches; at most max_n_iter - 1 samples are drawn, fewer only after one with 200 inliers; nothing outside of the matches is read, and the call returns for every random source that brings all indices again and again.", "quantifier": "all lists of up to 2^24 matches, iteration limits, random sequences, inlier tests, solvers and checks", "why_tests_cant": "all random sequences", "anchors": ["src/nx_usac_homography.c: nx_usac_estimate_homography", "src/nx_usac_homography.c: nx_usac_fit_homography", "src/nx_usac_homography.c: nx_usac_refine_homography_global"]}
{"id": "C141", "title": "JSON log streams", "statement": "After any sequence of log calls (NX_JLOG*, NX_JLOG_ADD*, reads, NX_JLOG_CLEAR, NX_JLOG_CLEAR_ALL) with ids 0..31 every stream is a JSON object with exactly the entries logged to it since it was last cleared, in order, whatever happens to the other streams. NX_JLOG_ADD* appends to the array of that name (the first entry of that name; if that is not an array each call makes a new one-element array entry). The node of a stream stays the same until the stream is cleared; clearing releases exactly its nodes; after clearing all none is left. Any other id stops the program.", "quantifier": "all sequences of calls, keys and values", "why_tests_cant": "all histories", "anchors": ["src/nx_json_log.c: nx_json_log_get_stream", "src/nx_json_log.c: nx_json_log_clear_stream", "src/nx_json_log.c: nx_json_log_free", "include/virg/nexus/nx_json_log.h: NX_JLOG_ADD_TEMPLATE"]}
{"id": "C142", "title": "Lists of point matches are values", "statement": "Along any history of calls on VGPointCorrespondence2D objects (construct, clone, clear, add, set_inlier, sort, normalize, denormalize) every list behaves as a value of its own: a call changes only its object and as its name says; adding returns the new size; normalizing and later denormalizing gives the matches back (up to order and inlier flags) whatever was done to other lists and however this one was sorted and flagged in between. Copies of a list are independent of the original.", "quantifier": "all histories of calls, all matches over the reals, any sorting routine", "why_tests_cant": "all histories", "anchors": ["src/vg_point_correspondence_2d.cc: clone", "src/vg_point_correspondence_2d.cc: normalize", "src/vg_point_correspondence_2d.cc: denormalize", "include/virg/nexus/vg_point_correspondence_2d.hpp: VGPointCorrespondence2D"]}
{"id": "C143", "title": "Normalization of SIFT descriptors", "statement": "From every histogram of finite values that are not negative the last stage of the SIFT descriptor produces as many bytes without undefined conversions; empty cells stay zero and a cell with a larger value never gets a smaller byte; a zero histogram stays zero. For histograms of ordinary magnitude each byte is the whole part (at most 255) of 512 times the cell's share of the norm, capped at 0.2 and normalized again, up to one part in a thousand; multiplying the histogram by a power of two does not change any byte; and normalizing a vector gives norm one up to one part in ten thousand.", "quantifier": "all histograms of single precision values (not negative, finite); magnitudes 2^-15..2^15 for accuracy, 2^-62..2^60 for contrast", "why_tests_cant": "rounding in every step over a continuum of inputs", "anchors": ["src/nx_sift_detector.c: nx_sift_compute_descriptor", "include/virg/nexus/nx_vec.h: nx_svec_to_unit", "include/virg/nexus/nx_vec.h: nx_svec_norm_sq"]}
{"id": "C144", "title": "Index of the largest vector entry", "statement": "The index of the largest entry of a vector of floats (none a NaN) or ints is that of the first of the largest entries; it is -1 only when no entry is above the lowest finite value. The largest value is an entry that no other exceeds.", "quantifier": "all vectors", "why_tests_cant": "all lengths and values", "anchors": ["include/virg/nexus/nx_vec.h: nx_svec_max_idx", "include/virg/nexus/nx_vec.h: nx_svec_max_val", "include/virg/nexus/nx_vec.h: nx_ivec_max_idx"]}
{"id": "C145", "title": "Checkerboard score images", "statement": "For every byte image of 2..2048 pixels a side (at most 2894 in sum) and every window radius from 1 the detector produces four images of the same size, whatever was in them before: the window means along the rows, along the columns and along the two diagonals (the rows of the image turned by 45 degrees either way, turned back). The score image is the squared difference of the largest and the smallest of the four values, over 255, smoothed: it is finite, between 0 and 1.02, zero where the four images agree, and before smoothing strictly larger for a larger difference.", "quantifier": "all byte images, radii, buffer contents and smoothing kernels of sum one", "why_tests_cant": "all images and radii", "anchors": ["src/nx_checkerboard_detector.c: nx_checkers_local_radon_images", "src/nx_checkerboard_detector.c: nx_checkers_score_image"]}
{"id": "C146", "title": "Usage text and printed option values", "statement": "Printing the usage shows the header, the program name, the name of the remaining arguments (in brackets if they are optional), then one line per option in the order of addition with its names, help text and default (or REQUIRED), then the footer; printing the values shows one line per option except help with its current value, then the remaining arguments in quotes separated by commas. In both, all names end in the same column, that of the longest name. Values are complete: options with different values print differently. No text overflows a buffer, whatever the option names.", "quantifier": "all sets of options that can be added, all values", "why_tests_cant": "all names, values and numbers of options", "anchors": ["src/nx_options.c: nx_options_print_usage", "src/nx_options.c: nx_options_print_values", "src/nx_options.c: name_short_name_join", "src/nx_options.c: compute_name_column_size", "src/nx_options.c: nx_option_data_to_string"]}
{"id": "C147", "title": "Which log messages appear, and what a fatal error does", "statement": "For every sequence of settings and messages, a message is written if and only if the verbosity set last allows its level; messages appear in order, each as one line with its level, tag, function and line number, on a terminal between a colour code and a reset. Errors appear under every verbosity. A fatal error is never suppressed: it goes to the handler set last, or, if there is none, is written with the call stack and ends the program with a code other than 0, after which nothing is written.", "quantifier": "all histories of verbosity changes, handler changes and messages", "why_tests_cant": "all histories, texts and line numbers", "anchors": ["src/nx_log_c_impl.c: nx_log_formatted", "src/nx_log_c_impl.c: nx_log_fatal", "src/nx_log_c_impl.c: nx_log_verbosity", "src/nx_log_c_impl.c: nx_log_fatal_func", "src/nx_log_c_impl.c: default_fatal_func"]}
{"id": "C148", "title": "What is sent to gnuplot", "statement": "Setting a title or a label of an axis sends a statement that sets it to that text. Choosing a terminal sends its type, size and file name. A data frame sent as a named block or inline is read back with all labels and all values, row by row, and its end mark ends it. A stream given by the caller stays open, a pipe opened by the library is closed.", "quantifier": "all texts, sizes and data frames", "why_tests_cant": "all texts and frame contents", "anchors": ["src/nx_gnuplot.c: nx_gnuplot_new", "src/nx_gnuplot.c: nx_gnuplot_free", "src/nx_gnuplot.c: nx_gnuplot_send_data_frame", "src/nx_gnuplot.c: nx_gnuplot_set_terminal", "src/nx_gnuplot.c: nx_gnuplot_set_title", "src/nx_gnuplot.c: nx_gnuplot_set_xlabel", "src/nx_gnuplot.c: nx_gnuplot_set_ylabel", "src/nx_gnuplot.c: nx_gnuplot_set_title_and_labels"]}
{"id": "C149", "title": "Data of a closed stream are in the file", "statement": "At every point, also after a failure or a crash, a file being written holds a prefix of the data written so far. If all writes and the closing of the stream return without an error, all data are in the file. Errors of earlier writes that nobody checked are reported when the stream is closed.", "quantifier": "all sequences of writes, buffer sizes and points at which the device is full", "why_tests_cant": "all failure points and piece sizes", "anchors": ["src/nx_io.c: nx_xfwrite", "src/nx_io.c: nx_xfclose", "src/nx_io.c: nx_fclose"]}
{"id": "C150", "title": "Directories exist after they were ensured", "statement": "If ensuring a directory returns, there is a directory at the path, whatever other programs do at the same time, and nothing else was changed; it fails only if there is no directory and none can be made. Checking a directory or a file is true exactly if there is one that can be read.", "quantifier": "all file systems, paths and interleavings with other programs", "why_tests_cant": "all interleavings", "anchors": ["src/nx_filesystem.c: nx_ensure_dir", "src/nx_filesystem.c: nx_check_dir", "src/nx_filesystem.c: nx_check_file"]}
{"id": "C151", "title": "Match images show both images side by side", "statement": "The canvas of a match image has the widths of both images together and the larger height; the left image is at the left, the right one beside it, each pixel in its colour and gray pixels opaque; the rest is transparent black. An annotator made for an image shows that image.", "quantifier": "all pairs of gray and colour images of any size, contents of new memory, builds with and without assertions", "why_tests_cant": "all sizes and pixel values", "anchors": ["src/vg_image_annotator.cc: VGImageAnnotator::create_match_image", "src/vg_image_annotator.cc: VGImageAnnotator::VGImageAnnotator", "src/nx_image.c: nx_image_convert_type"]}
{"id": "C152", "title": "Drawings show the shapes asked for", "statement": "Marks, edges, regions, keypoints and matches are drawn as the stated lines and circles around the given points, in the given colour and width, whatever was drawn before, and leave no unfinished path. All matches are drawn, or exactly the inliers. Curves go from their start to their end with the given control points, relative ones relative to the current point.", "quantifier": "all points, sizes, colours, lists of keypoints and matches and states of the canvas", "why_tests_cant": "all coordinates and histories of drawing calls", "anchors": ["src/vg_image_annotator.cc: VGImageAnnotator::draw_mark", "src/vg_image_annotator.cc: VGImageAnnotator::draw_edge", "src/vg_image_annotator.cc: VGImageAnnotator::draw_keypoints", "src/nx_gc_cairo_imp.c: nx_gc_set_color", "src/nx_gc_cairo_imp.c: nx_gc_curve", "src/nx_gc_cairo_imp.c: nx_gc_rel_curve_to"]}
{"id": "C153", "title": "OpenGL projections show what the camera sees", "statement": "The matrix for a camera with given focal lengths puts each point in front of it at the pixel of the pinhole camera with the principal point in the middle of the window; depth depends on the distance only, increases with it and is in the visible range exactly between the near and the far plane. Model, view and projection are applied in this order, missing ones are the identity.", "quantifier": "all focal lengths, planes, window sizes, points and matrices", "why_tests_cant": "all real parameters", "anchors": ["src/GL/nx_gl_projection.c: nx_gl_projection_sym_perspective_from_camera", "src/GL/nx_gl_projection.c: nx_gl_projection_to_mvp"]}
{"id": "C154", "title": "PNG files load with their pixels and keep images", "statement": "A PNG file of any colour type, with or without transparency, loads in each mode as an image of the wanted type and the size of the file, each pixel with the colour, gray value and transparency of the file (gray files with alpha channel lose it). An image saved as PNG and loaded again keeps every sample.", "quantifier": "all files of all colour types, load modes, images and contents of new memory", "why_tests_cant": "all sizes, pixel values and combinations of type, transparency and mode", "anchors": ["src/nx_image_io_png.c: load_as_png", "src/nx_image_io_png.c: save_as_png"]}
{"id": "C155", "title": "JPEG files load with their pixels", "statement": "A JPEG file loads in each mode as an image of the wanted type and the size of the file, with the values the decoder gives and alpha 255, or loading fails; saving gives the encoder exactly the gray values or colours of the image.", "quantifier": "all gray, colour and CMYK files, load modes, images and contents of new memory", "why_tests_cant": "all sizes and pixel values", "anchors": ["src/nx_image_io_jpeg.c: load_as_jpeg", "src/nx_image_io_jpeg.c: save_as_jpeg"]}
{"id": "C156", "title": "A saved image can be loaded whatever its name", "statement": "An image saved under any name can be loaded with type and size kept: with a PNG ending every sample is kept, with a JPEG ending it went through the JPEG encoder, with any other ending or none the colours are kept and alpha becomes 255. Missing files and files of other formats are refused.", "quantifier": "all images, names and file contents, and all encoders and decoders that fit together", "why_tests_cant": "all names, contents and images", "anchors": ["src/nx_image_io.c: nx_image_save", "src/nx_image_io.c: nx_image_load"]}
{"id": "C157", "title": "The error function behaves as one", "statement": "The approximation of the error function is strictly increasing, lies between -1 and 1, is positive exactly for non-negative arguments, approaches 1 faster than exp(-x^2), and is odd.", "quantifier": "all real arguments", "why_tests_cant": "all real numbers", "anchors": ["src/nx_math.c: nx_erf"]}
{"id": "C158", "title": "SIFT searches the scales it reports", "statement": "For every image the detector ends, and searches all scales of each octave, for exactly the octaves at which the halved image is larger than its borders. The differences compared are made of images of consecutive scales, powers of the n-th root of 2 times the base scale, in pixels of size 2^octave, and keys get the scale at which they were found.", "quantifier": "all image sizes, with and without doubling, numbers of scales, base scales and borders", "why_tests_cant": "all sizes and scales; blur is a real number", "anchors": ["src/nx_sift_detector.c: nx_sift_detector_compute", "src/nx_sift_detector.c: nx_sift_detector_prepare_octave", "src/nx_sift_detector.c: nx_sift_detector_process_octave"]}
{"id": "C159", "title": "Refined SIFT peaks lie where the fit puts them", "statement": "Refining a peak reads only pixels of the images, whatever they hold. A peak reported is the position, scale and value of the fit at a pixel near the start, is strong enough and not too far from that pixel; a strong peak close to the pixel it starts from is reported.", "quantifier": "all images, that is all results of the fit at all pixels, all starts and thresholds", "why_tests_cant": "all images and starts", "anchors": ["src/nx_sift_detector.c: nx_sift_interp_peak_location"]}
{"id": "C160", "title": "Homogeneous points project like ordinary ones", "statement": "Projecting homogeneous points stores the matrix times each point, reads and writes nothing else, and gives the pixels of the projection of ordinary points for every multiple of the homogeneous coordinates.", "quantifier": "all matrices, numbers of points, points and places of the arrays that do not overlap", "why_tests_cant": "all numbers of points and real coordinates", "anchors": ["src/nx_pinhole.c: nx_pinhole_project_h"]}
{"id": "C161", "title": "LAPACK is called as its documentation demands", "statement": "The singular value decompositions and the solver of symmetric systems pass LAPACK the matrix and arrays of the caller with valid sizes, and work arrays that are large enough; failure of LAPACK is reported.", "quantifier": "all matrix sizes, leading dimensions, array sizes and behaviours of LAPACK", "why_tests_cant": "all sizes and all answers of an external library", "anchors": ["src/nx_svd.c: nx_dsvd", "src/nx_svd.c: nx_ssvd", "src/nx_linear_solvers.c: nx_dsym_solver"]}
{"id": "C162", "title": "Estimation from normalized matches keeps matches and tolerance", "statement": "Estimating a homography or fundamental matrix from normalized matches gives back all matches with their coordinates, and flags exactly those that agree with the matrix returned up to the tolerance of the caller, in pixels, if the estimation used does so for the normalized matches.", "quantifier": "all lists of matches whose points are not all the same, tolerances and estimations", "why_tests_cant": "all matches and all random estimations", "anchors": ["src/nx_homography.c: nx_homography_estimate_norm_ransac", "src/nx_epipolar.c: nx_fundamental_estimate_norm_ransac"]}
{"id": "C163", "title": "C++ images are freed once, with their last owner", "statement": "Programs that construct, copy, assign, swap, view and destroy image objects in any order never use an image after it was freed and never free one twice; an image is alive exactly as long as some object owns it, and nothing is left when all objects are gone.", "quantifier": "all programs over any number of image objects", "why_tests_cant": "all histories of copies, swaps and destructions", "anchors": ["src/vg_image.cc: VGImage::wrap, VGImage::swap_with", "include/virg/nexus/vg_image_pyr.hpp: VGImagePyr::operator[]"]}
{"id": "C164", "title": "Descriptors of many keypoints fill a map in order", "statement": "Computing the descriptors of a list of keypoints adds one entry to a descriptor map for every keypoint all of whose compared pixels lie inside the level sampled, in order and with the identifier of the keypoint; the other keypoints are left out, entries already there stay, and nothing outside images is read. A map for another descriptor length is refused.", "quantifier": "all pyramids, extractors, lists of keypoints and histories of the map", "why_tests_cant": "all keypoints, on all borders and levels", "anchors": ["src/vg_brief_extractor.cc: VGBriefExtractor::compute_pyr", "include/virg/nexus/vg_brief_extractor.hpp: VGBriefExtractor::check_keypoint_pyr"]}
{"id": "C165", "title": "Transferring a point by a homography gives its image", "statement": "Transferring a point by a homography writes the image of the point, and nothing else, wherever the result is stored; a new homography object keeps all points, and one that was set transfers by the matrix set.", "quantifier": "all matrices, points and places of the result", "why_tests_cant": "all matrices and overlaps of the arguments", "anchors": ["src/vg_homography.cc: VGHomography::transfer_fwd, VGHomography::VGHomography", "include/virg/nexus/vg_homography.hpp: VGHomography::set", "include/virg/nexus/nx_homography.h: nx_homography_transfer_fwd"]}
{"id": "C166", "title": "Panoramas join images over shortest paths", "statement": "Building a panorama finds for every image a path to the reference image over matched pairs whose total cost is the least possible, and composes the homographies on the path, so that a point is mapped to where the pairwise homographies carry it.", "quantifier": "all numbers of images, match costs and homographies", "why_tests_cant": "all graphs of matched pairs", "anchors": ["tools/nx_panorama_builder.c: nx_panorama_builder_find_shortest_paths, nx_panorama_builder_init"]}
{"id": "C167", "title": "Panoramas hold the images and show the last one", "statement": "Composing a panorama lays out a frame that holds every image after it is mapped to the reference and is no larger than needed; moving the origin does not change where images are relative to each other, and maps from the panorama back to images are the inverses of those to it. Every pixel of the panorama has the value of the last image that covers it, or zero if there is none, and no read is outside an image.", "quantifier": "all images, homographies and pixels of the panorama", "why_tests_cant": "all homographies", "anchors": ["tools/nx_panorama_builder.c: nx_panorama_builder_create_reference, nx_panorama_builder_composite_value, nx_panorama_builder_composite"]}
