# Design

Formal model of mozuysal/virg-nexus in Coq 8.16.1 (`/verif/rocq`, logical name `Verif`).

## Method

Every C function covered is transcribed as a total Gallina function. Undefined
behaviour (out-of-bounds access, use after free, signed overflow, illegal
shift) and the library's fatal exit are separate outcomes of the model
(`Ok v | Fatal | UB`), never silently totalised. Loops without an a-priori
bound use explicit fuel, and running out of fuel is a further outcome that the
theorems exclude. Files come in groups:

* `*Model.v`  - transcription, each definition citing the /repo lines;
* `*Spec.v`   - small specification readable without the model;
* `*Proofs.v` - lemmas;
* `*Props.v`  - property theorems, `exact lemma`, examples of non-vacuity and
  `Print Assumptions`.

When the code violates a property, the file proves `..._refuted` with a
concrete witness and, where useful, the strongest true restriction.

## Plan per property

* **C01** Population count is exact. Words as N; the SWAR steps written with land/shiftr/add mod 2^w; proved against `popcount` = number of set bits by per-bit decomposition.
* **C02** Bit arrays behave as independent booleans. Byte list + index arithmetic, out-of-range = UB outcome; invariant over fold of set operations against a function nat -> bool.
* **C03** Big-endian split and compose are inverse. N with shifts/masks; digit lemma base 256.
* **C04** Right rotation is a rotation. N.shiftr/shiftl mod 2^w; N.testbit characterisation; n=0 and n>=w are UB.
* **C05** SHA-256 digest equals the standard. Byte lists; process_block modelled step by step; FIPS 180-4 written separately from the standard; equality for every message.
* **C06** Segmented hashing equals hashing the concatenation. Cursor machine over list of segments, fuelled by total length; equality with one-segment run.
* **C07** Multi-source copy consumes sources in order without gaps. Cursor machine; OOB read is a UB outcome; refinement to firstn/skipn of concat.
* **C08** Hash-to-string is a faithful lowercase hex rendering. nibble to ascii; injectivity.
* **C09** Memory blocks keep size within capacity and preserve content. Explicit heap (address -> bytes) and block records; invariant over operation sequences.
* **C10** Memory blocks never double free, leak or touch foreign memory on growth. Same heap model; ownership invariant over operation sequences.
* **C11** Growable vectors behave like lists. Vector record over list storage; refinement to list.
* **C12** Capacity growth always satisfies the request. Z arithmetic.
* **C13** Readable escaping round-trips. Byte lists; encoder/decoder as structural recursion; round-trip by induction.
* **C14** CSV double-quoting round-trips. Same.
* **C15** Binary string I/O round-trips and rejects truncation. Stream = byte list; little-endian 8-byte length; prefix lemma.
* **C16** String arrays behave like lists of optional strings. Refinement to list (option string).
* **C17** String array serialization round-trips and rejects truncation. Stream model; induction on the array; prefix lemma.
* **C18** Storing a string element's own value back is safe. Heap model of strredup; refuted by the aliasing witness, proved for distinct storage.
* **C19** Line reading returns exactly the stream's lines. Stream + growth model; refuted/partial for the end-of-stream report.
* **C20** Lexer position tracking is exact. Lexer record and consume step; induction on steps.
* **C21** Lexer match is all-or-nothing. Induction on the match string.
* **C22** Number tokens follow the JSON number grammar. Scanner automaton against a grammar relation.
* **C23** CSV tokenization is lossless. Token stream of rendered records.
* **C24** Parsed CSV tables are rectangular. Parser on token stream; induction.
* **C25** CSV column types are the join of their field types. Join in a small lattice; permutation invariance.
* **C26** CSV integer values equal the parsed text. strtol base 0 / atoi models; refuted by witness, proved for plain decimal texts.
* **C27** Data frame cells behave like a table of optional typed values. Frame as columns of optional cells; refinement to finite table.
* **C28** Data frame CSV round-trip. Printer+lexer+parser composed; proved for the fragment where it holds, refuted witnesses elsewhere.
* **C29** Loading CSV terminates for every option setting. Loop model with fuel; refuted for strings_as_factors, proved otherwise.
* **C30** Factor conversion preserves values. Fold over cells.
* **C31** JSON print/parse round-trip. Tree type, printer to bytes, lexer+recursive-descent parser on bytes with fuel; induction on trees.
* **C32** JSON constructors build the value they name. Constructor model; refuted by witness.
* **C33** JSON element and member lookup. Child list model; refuted for negative index.
* **C34** JSON string escapes accepted by the lexer decode. Lexer/decoder models; refuted by witness.
* **C35** Command line parsing equals its sequential specification. Fold over arguments with option table; refinement to sequential spec.
* **C36** Option lookup is independent of hash collisions. 32-bucket map vs association list.
* **C37** Required options and defaults. Invariant over parses.
* **C38** Adjacency graphs stay symmetric with an exact edge count. Matrix / list models; invariants over insertion history; list edge count refuted.
* **C39** RANSAC keeps the best accepted hypothesis. Callbacks as oracle streams (universally quantified); induction over iterations.
* **C40** Homography sampling draws four distinct correspondences. Random stream as list; refuted by witness; distinctness of the others proved.
* **C41** Order statistics. Index arithmetic over sorted list of Z/Q.
* **C42** Number comparators are consistent total orders. int subtraction with overflow outcome; refuted, proved for in-range differences.
* **C43** FAST-9 detects exactly the segment-test corners. Decision tree translated to data; verified checker run by the kernel; lifted to every image.
* **C44** FAST score is the largest threshold at which the pixel is a corner. Binary search over a monotone predicate.
* **C45** Non-maximum suppression keeps exactly the local maxima. Array machine with explicit indices and UB on OOB; refinement to filter.
* **C46** Multi-level detection numbers keypoints consecutively within budget. Model of nx_fast_detector_detect_pyr over level lists; result compared with the prefix of the local maxima of all levels; threshold adaptation as int arithmetic with overflow outcome.
* **C47** BRIEF distance is the Hamming distance. List of bytes; table computed and checked exhaustively over 256 entries.
* **C48** BRIEF point check guarantees in-bounds sampling. Sampling positions scaled by an arbitrary positive float with exact rounding; bounds by monotonicity.
* **C49** BRIEF extractor save/load round-trip. Byte stream model; reading exchanges radius and number of octets, so refuted by a witness; proved when the two are equal.
* **C50** Harris detection returns exactly the strict local maxima. Raster scan fold; filter spec.
* **C51** Image pixel access stays within the buffer. Images as handles into the memory-block heap of MemModel; any history of new, resize, copy, wrap, swap, free; pixel addresses in Z with int-overflow outcome; invariant that every live image addresses only live bytes of its own block.
* **C52** Downsampling keeps every second pixel. Strided buffer model.
* **C53** Upsampling interpolates linearly within bounds. Strided buffer model, UB on OOB.
* **C54** In-place symmetric convolution equals convolution. In-place loop over a functional array; first for an arbitrary arithmetic (evaluation order made explicit), then exact integers, then exact binary32 values.
* **C55** Box filter equals the sliding mean. Same, running sum; exact rationals and binary32 with one rounding per operation.
* **C56** Buffer borders follow the selected mode. Same.
* **C57** Image normalization maps the value range onto [0,1]. Scan model over Z-ordered values; refuted by witness.
* **C58** Float to byte conversion clamps. Conversion model; refuted by witness.
* **C59** PNM save/load round-trip. Byte-level writer/reader.
* **C60** Image file format detection. Case analysis.
* **C61** Match normalization is reversible. Reals (standard library axioms), field identities.
* **C62** Formatted strings are complete. vsnprintf as a function of the format giving the complete text; the two-call allocation protocol modelled; result compared with the complete text.
* **C63** JSON parser accepts exactly the grammar. Lexer and recursive-descent parser over the byte list with fuel; JSON grammar as an inductive relation in JsonSpec.v; both inclusions.
* **C64** JSON tree release. Tree nodes as heap cells; release visits each cell once.
* **C65** JSON bundling of integer and string arrays. Decimal printing/atoi over Z; list induction over array values.
* **C66** Keypoint orientation is the angle of the intensity centroid. Disc offsets table and integer moments; atan2 as a parameter; moments equal the textbook sums.
* **C67** Rotated BRIEF descriptors are computed inside the image. Rotation of test points as an arbitrary integer map; in-bounds by the limits check.
* **C68** Random BRIEF tests stay in the radius. Rejection sampling with the random stream as a list; invariant of every accepted point.
* **C69** Harris score image. Sliding window sums over image rows; binary32 operations with one rounding each.
* **C70** Byte to float conversion of images. Per-pixel map over the strided buffer; frame condition on padding bytes.
* **C71** Linear pixel transform. Per-pixel map with clamping; exact binary32 arithmetic.
* **C72** Image difference. Per-pixel map, both data types.
* **C73** Antialiased halving. Row and column kernels at edges and in the middle; frame condition; small images refuted.
* **C74** Image derivatives. Row and column differences; strides explicit; refuted for one column or row.
* **C75** Image box filter. Reduction to FilterModel box filter on every row and column buffer.
* **C76** Image smoothing. Reduction to FilterModel convolution on every row and column buffer.
* **C77** Image scaling. Source coordinates in exact binary32; bilinear weights; size, positions and interpolated values proved with rounding bounds for every factor below 1/(1 + n/2^22), n the larger side; one half exactly; refuted from factor one on.
* **C78** Reading PNM pixel data is exact. Reader over the remaining byte list; header grammar and pixel bytes.
* **C79** Luminance of a colour. Integer and binary32 formula; range and monotonicity.
* **C80** Conversion between gray and RGBA images. Per-pixel conversion; conversion on the image object refuted because of its assertion.
* **C81** Image format from a file name. String suffix comparison without case.
* **C82** PNM headers allowed by the format are accepted. Header grammar with white space and comments as an inductive relation; acceptance proved or refuted per loader.
* **C83** Matrix algebra. Matrices as records over R; ring identities.
* **C84** Rotation matrices. Real trigonometry; orthonormality and determinant by ring identities.
* **C85** Quaternions and rotation matrices. Records over R with sqrt; case split as in the code.
* **C86** Homography transfer, inliers and errors. Transfer as partial function over R; inlier flags against the distance; overflow-free counters in Z.
* **C87** Homography from four points. Closed formulas of the code over R; four fixed points give uniqueness; degenerate cases refuted by witnesses.
* **C88** Linear constraints of the estimators. Constraint rows over R; row times solution is zero iff the algebraic relation holds.
* **C89** Homography sanity check. Angle conditions over R; compared with the exact cosine; refuted by a witness.
* **C90** 2-D transform matrices. Matrix entries over R compared with the composition of elementary maps.
* **C91** Pinhole projection. Projection over R compared with K[R|t].
* **C92** Epipolar distance, inliers and rank correction. Distance point-line over R; SVD given by its contract as hypothesis; Frobenius optimality by a kernel vector argument.
* **C93** Pose from an essential matrix. Four candidate poses over R from the SVD contract; depth signs of the points select the true one.
* **C94** Essential matrix from a fundamental matrix. Matrix products over R; refuted by a witness for general calibration.
* **C95** Triangulation. Index arithmetic of the inlier loop; SVD contract as hypothesis; capacity refuted.
* **C96** Matrix transpose in place. Cycle-following transpose on a list of any element type with the bit array of C01-C04; invariant: the moved positions are closed under the permutation and the others unchanged; termination by the pigeonhole principle.
* **C97** Matrix text files. Line reader of C16-C17, strtod and "%.17g" as functions with a round-trip contract; invariants over lines and numbers.
* **C98** Matrix product and fill. Triple loop over lists with any addition and multiplication; invariants per loop.
* **C99** Keypoint files. Streams as byte lists with a limit; fields as bit patterns; induction over keypoints.
* **C100** SIFT key files. Header, keypoints, descriptors; a full medium as room plus stdio slack; the unnoticed failure of the last flush and the count overflow refuted.
* **C101** Descriptor matching without ratio test. Loops over lists with exact squared distances (no overflow: 128 * 255^2 < 2^24); invariant: first minimum so far; empty second set refuted.
* **C102** Descriptor matching with ratio test. Invariant: two smallest so far; ratio test in exact single precision.
* **C103** Growth of the keypoint store. Realloc model of C97; float rounding bounds give growth from capacity 2 up to 10485760 keypoints; capacities 0 and 1 refuted.
* **C104** Result caches are transparent. Cache directory as a map from hash text (C05-C08) to results; history induction under the hypothesis that equal hashes mean equal results; confusions refuted by undelimited messages.
* **C105** Search for scale space extrema. Flat arrays with stride; short-circuit chains of comparisons; nested scan; columns beyond the border refuted.
* **C106** Orientations of a keypoint. In-place averaging loop equals a circular average; fold for the maximum; first bin refuted.
* **C107** Descriptor accumulation. Index arithmetic of the eight updates over exact single precision; disjointness of cells; orientation 0 refuted.
* **C108** Detector options default to the default parameters. Uses the option model and theorems C35-C37 with the format of this module; the doubling flag refuted.
* **C109** Uniform sampler is the SFMT-19937 sequence. The words as an infinite sequence of 128-bit numbers given by a bit-wise recurrence (existence and uniqueness proved); state relation (block held, index) preserved by every call; induction over histories; loops of the generator by a general invariant rule.
* **C110** Range of uniform samples. Ranges from C109 and exact single precision rounding; the value 1.0f refuted by a seed.
* **C111** The generator never dies out. Parity of the certified block; the recurrence can be undone, so zeros would go back to the first block.
* **C112** Normal samples by the polar method. Loop invariants over the position in the stream and the number of accepted pairs, on top of C109.
* **C113** Robust homography estimation reports what it found. Estimator generic in the matrices, matches, solver and inlier test, with a ghost record of the sampled matrices; loop invariants for the best matrix, the flags and the group; a relation for the rounds of refinement; refuted: uninitialised result, worse result kept, no retry after a failed check, index past the end.
* **C114** Robust fundamental matrix estimation reports what it found. The same loop lemmas with eight indices; the sampler by induction over the random numbers; refuted: first index repeated, uninitialised result, worse result kept, index past the end.
* **C115** Affine warping resamples the source. Loops over rows and pixels in exact binary32; rounding-error lemmas for sum and product give the distance of the position from the exact map and of the value from the exact bilinear mean; integer maps are exact; refuted: identity, positions just outside, constant images, mirror.
* **C116** Rotation by 45 degrees turns about the centre. The row loop of the warp with the coefficients of the rotation and the same error bounds; refuted: float images are truncated to integers.
* **C117** Colour maps interpolate their tables. Tables transcribed as decimals (generated from the header); exact binary32 evaluation with error bounds for the position, the blend and the conversion to a byte; x/255*255 = x for all bytes; refuted: values outside 0..1.
* **C118** Colouring an image maps every pixel. Loop over pixels writing four samples each (the lemma of the colour conversions), with the colours of C117; refuted for floats above 1.
* **C119** Gaussian kernels are normalised. The two loops in exact binary32 with the values of expf as a parameter (positive, non-increasing, 1 at 0); rounding error bounds of the sum and the divisions, by induction over the length.
* **C120** Gaussian smoothing of bytes stays in range. Both passes of the smoothing over a padded line buffer as in C71, with the error of the rounded convolution against the exact weighted mean bounded by induction over the kernel; refuted: a flat image can get darker.
* **C121** Fast pyramids halve level by level. The pyramid as a list of levels, with create/copy/init/update transcribed; smoothing and halving are the image operations of C73 and C120; induction over the levels; refuted for padded rows.
* **C122** Fine pyramids smooth step by step. Same, with the nested loop over octaves and steps; the invariant says what sigma_current is after each level.
* **C123** Pyramid levels have the blur they promise. The update loops are written once for any images and any arithmetic; here images are blurs (variances add, halving halves) and sigmas are reals.
* **C124** Descriptor maps hold what was added. The two vectors and the capacity of the data vector as state, histories as lists of operations; invariant: the data is the concatenation of the descriptors. Refuted: adding a descriptor of the map itself when its memory moves, searching an empty map.
* **C125** The Harris score of an image. nx_harris_deriv_images transcribed over the derivative (C74) and in-place smoothing (C120) of float images; invariant of the loop that squares and multiplies three images in one pass; then C69.
* **C126** The Harris detector returns the first corners. detect and detect_pyr over the score function; harris_detect is the first n corners (C50); induction over the levels with the remaining buffer.
* **C127** The adaptive Harris threshold moves the right way. The comparisons in exact binary32: c n against m with the rounding of the literal and of the product bounded, so that they decide like integers; monotonicity of rounding for all other counts.
* **C128** Keypoints survive JSON. The bundle functions over the JSON heap of C31; a lemma that reads each member back; round trip through print and parse by C31. Refuted: the 64-bit id goes through an int.
* **C129** Scalars and float arrays survive JSON. As C128; %zd and atol as wrapping conversions.
* **C130** The affine warp processor reports its transform. The transforms over the reals; each stage is a map about two centres, composed by matrix products; inverse by cos^2 + sin^2 = 1.
* **C131** The affine warp result contains the whole image. The extent of the four corners is |A| w + |B| h; truncation loses less than one of the two pixels added; induction over the three stages.
* **C132** Affine warps resample the image. Single precision positions as in C115, with pixels that may be left alone. Refuted: the first blur is always asked for sigma 0 and aborts, so that no warp ever delivers.
* **C133** The background of affine warps. As C132; the background is exactly the set of positions before the second or from the last but one pixel. Refuted: with the identity all pixels of a 3 x 3 image are background.
* **C134** Mean and standard deviation. The two loops over the reals, after any permutation; mean and deviation are determined by their defining equations.
* **C135** KITTI sequences. The file system as two functions, fscanf as an interpreter of directives over a conversion that skips white space and consumes a byte; induction over the numbers of the file with growing arrays. Refuted: without a pose file fscanf gets a NULL stream.
* **C136** VGG affine sequences. As C135; nine conversions per homography. Refuted: a name only has to begin with a standard name.
* **C137** Temple Color sequences. As C135; %d is the reader of C59. Refuted: names as C136; the length of a large range overflows.
* **C138** Temple Color attributes. fgets with eight bytes and a prefix comparison; induction over the lines. Refuted for attributes separated by commas.
* **C139** Frames of the datasets. The paths as byte strings with padded decimal numbers, unique for their value.
* **C140** Sampling consensus for a homography. The generic search of C39 with the callbacks of the homography file, counts converted to binary64; an invariant over the log of calls. Refuted: the estimate from the inliers is not checked before it replaces an accepted matrix.
* **C141** JSON log streams. The table of streams over the JSON node heap; an invariant giving each stream its tree, trees disjoint and covering all live nodes; induction over the calls against a plain list of entries.
* **C142** Lists of point matches are values. A store of statistics blocks and objects that point into it; refinement of a list of independent (matches, statistics) values, whose effects are stated as a relation. Refuted for the copy constructor, which shares the statistics, and for normalizing twice.
* **C143** Normalization of SIFT descriptors. Exact single precision model (with a correctly rounded square root); monotonicity of rounding for order and range, exact scaling of rounding for contrast, relative error bounds over the reals for accuracy.
* **C144** Index of the largest vector entry. Induction over the list for an order given by a comparison.
* **C145** Checkerboard score images. Composition of the lemmas for box filters, rotation (C116) and smoothing; rounding error bounds for the scores.
* **C146** Usage text and printed option values. Lines by induction over the options; the buffer of the joined names byte by byte; width as a maximum.
* **C147** Which log messages appear, and what a fatal error does. Effects of a history by induction from its end; settings in force are the last ones made.
* **C148** What is sent to gnuplot. A reader of lines and words as specification; texts by its equations, frames by the representation invariant of data frames.
* **C149** Data of a closed stream are in the file. Invariant of a buffered stream on a device that fills up: data = file ++ buffer without errors, prefix with.
* **C150** Directories exist after they were ensured. File systems as maps with a step of other programs between check and mkdir.
* **C151** Match images show both images side by side. Induction over the rows copied; the sample values by cases on the column and row.
* **C152** Drawings show the shapes asked for. Functions as lists of Cairo calls; a small semantics of current point, path and strokes; compositional lemmas.
* **C153** OpenGL projections show what the camera sees. Real algebra; the depth as an increasing function of the distance.
* **C154** PNG files load with their pixels and keep images. libpng as the samples it gives per pixel after the transformations; the copy by the pixel loop lemma; colour types and modes by cases.
* **C155** JPEG files load with their pixels. libjpeg as the components it gives per pixel; rows through the buffer by induction.
* **C156** A saved image can be loaded whatever its name. Cases on the format of the name; C59, C60, C81 and the two round trips; encoders and decoders as a contract, met by an instance.
* **C157** The error function behaves as one. Real analysis: sign of the polynomial, derivative, mean value theorem.
* **C158** SIFT searches the scales it reports. Symbolic images with their operations; blur and pixel size as functions of these; induction over levels and octaves.
* **C159** Refined SIFT peaks lie where the fit puts them. The fit as an arbitrary function of the pixel; invariant over the tries; refuted by a fit that keeps pointing to the right.
* **C160** Homogeneous points project like ordinary ones. One memory with both arrays; invariant over the points; real algebra.
* **C161** LAPACK is called as its documentation demands. LAPACK as an arbitrary function of its arguments under its documented contract; cases.
* **C162** Estimation from normalized matches keeps matches and tolerance. The estimation as a parameter with the contract of C86 and C92; C61 for matrices and matches; distances scale with the normalization.
* **C163** C++ images are freed once, with their last owner. Shared pointers as counted control blocks; invariant: counts equal the variables that point to the block, and an image is alive iff its owning block is counted. Refuted for views whose owner is gone.
* **C164** Descriptors of many keypoints fill a map in order. C48 for single keypoints and C124 for the map; induction over the keypoints with an inductive relation between keypoints and entries.
* **C165** Transferring a point by a homography gives its image. Memory as a function on addresses; C86 for the matrix. Refuted for results written over the point given.
* **C166** Panoramas join images over shortest paths. Invariants of Dijkstra's algorithm after every round; paths as an inductive predicate; induction over paths for the least cost and over steps for homographies. Refuted if an image has no path.
* **C167** Panoramas hold the images and show the last one. Induction over corners for the box and over images for values; a point of an image is a weighted mean of its corners, so bounds on corners bound it. Refuted at borders (fractions are dropped towards zero) and at points at infinity.

## Trusted base

* Coq 8.16.1's kernel (with its virtual machine, used by `vm_compute` in some
  proofs), and the correspondence of the model with the source, which rests on
  reading: each definition cites the lines it transcribes.
* No axiom of our own, no admitted lemma, no kernel check switched off, no
  functor or module type.
* `Print Assumptions` follows every theorem. 432 of the 543 theorems are "Closed
  under the global context". The others are those over the real numbers; they rest on
  axioms of the standard library's construction of the reals only.
* With `ClassicalDedekindReals.sig_forall_dec` and `FunctionalExtensionality.functional_extensionality_dep`: `C61_homography`, `C61_fundamental`, `C83_product`, `C83_product4`, `C83_pose`, `C83_inverse`, `C83_determinant`, `C85_rotate`, `C86_transfer`, `C87_estimate_partial`, `C87_maps`, `C87_degenerate`, `C87_horizon_refuted`, `C87_collinear_refuted`, `C88_homography`, `C88_fundamental`, `C88_triangulation`, `C90_perspective`, `C91_camera`, `C91_project`, `C91_project_stops`, `C92_fix_rank`, `C93_from_Rt`, `C93_candidates`, `C94_from_fundamental_partial`, `C94_principal_point_refuted`, `C95_triangulate_partial`, `C95_capacity_refuted`, `C143_unit`, `C153_order`, `C153_pixels`, `C153_depth_order`, `C153_depth_range`, `C153_camera`, `C159_safe`, `C159_position_partial`, `C159_kept`, `C159_position_refuted`, `C160_agrees`, `C160_in_place_refuted`, `C165_transfer_partial`, `C165_in_place_partial`, `C165_object`, `C165_in_place_refuted`, `C166_shortest_partial`, `C166_to_reference_partial`, `C166_unmatched_refuted`, `C167_frame_partial`, `C167_value_partial`, `C167_composite_partial`, `C167_lost_refuted`, `C167_horizon_refuted`.
* With these two and `ClassicalDedekindReals.sig_not_dec`: `C61_normalized`, `C61_roundtrip`, `C84_euler`, `C84_axis_angle`, `C84_zero_axis_refuted`, `C85_algebra`, `C85_from_matrix`, `C85_to_matrix`, `C85_axis_angle`, `C86_mark`, `C86_mark_inv`, `C86_error`, `C89_check_partial`, `C89_angle_refuted`, `C90_similarity`, `C90_affine`, `C92_distance`, `C92_mark`, `C93_choice`, `C93_recover_pose`, `C130_forward`, `C130_inverse`, `C130_defined`, `C131_inside`, `C131_tight`, `C134_moments`, `C134_int`, `C134_empty`, `C134_order`, `C134_range`, `C134_affine`, `C142_histories_partial`, `C142_progress`, `C142_add`, `C142_roundtrip`, `C142_copy_refuted`, `C142_twice_refuted`, `C143_ideal`, `C152_marks`, `C152_edges`, `C152_regions`, `C152_keypoints`, `C152_matches`, `C152_colours`, `C152_curves_partial`, `C152_curves_refuted`, `C152_relative_refuted`, `C157_odd_partial`, `C157_zero_refuted`, `C162_homography`, `C162_fundamental`.
* `C123_fine_blur`: `ClassicalDedekindReals.sig_not_dec`, `ClassicalDedekindReals.sig_forall_dec`, `FunctionalExtensionality.functional_extensionality_dep`, `Classical_Prop.classic`.
* `C123_scaled_blur`: `ClassicalDedekindReals.sig_not_dec`, `ClassicalDedekindReals.sig_forall_dec`, `FunctionalExtensionality.functional_extensionality_dep`, `Classical_Prop.classic`.
* `C152_levels`: `ClassicalDedekindReals.sig_forall_dec`.
* `C157_increasing`: `ClassicalDedekindReals.sig_not_dec`, `ClassicalDedekindReals.sig_forall_dec`, `FunctionalExtensionality.functional_extensionality_dep`, `Classical_Prop.classic`.
* `C157_range`: `ClassicalDedekindReals.sig_not_dec`, `ClassicalDedekindReals.sig_forall_dec`, `FunctionalExtensionality.functional_extensionality_dep`, `Classical_Prop.classic`.
* `C157_tail`: `ClassicalDedekindReals.sig_not_dec`, `ClassicalDedekindReals.sig_forall_dec`, `FunctionalExtensionality.functional_extensionality_dep`, `Classical_Prop.classic`.
* `C158_scales`: `ClassicalDedekindReals.sig_not_dec`, `ClassicalDedekindReals.sig_forall_dec`, `FunctionalExtensionality.functional_extensionality_dep`, `Classical_Prop.classic`.
* `C160_project_h`: `ClassicalDedekindReals.sig_forall_dec`.

## What is modelled, what is not

Modelled function by function (the comment at each definition gives the lines
and every simplification):

| source | model | left out |
|---|---|---|
| `nx_bit_ops.h/.c` | BitsModel | the byte-swapping store helpers' pointer casts |
| `nx_hash_sha256.c` | ShaModel | - |
| `nx_string.c`, `nx_io.c` (read/write of strings, getline) | StrModel | `vsnprintf` itself (its contract is used) |
| `nx_string_array.c`, `nx_alloc.h` growth macro | StrArrModel | file opening wrappers |
| `nx_mem_block.c` | MemModel, Heap | allocation failure (ends in NX_FATAL) |
| `nx_vector_gen.c`, `nx_keypoint_vector.c` (instances) | VecModel | - |
| `nx_lexer.c` | LexModel | FILE buffering: the stream is a byte list |
| `nx_csv_lexer.c`, `nx_csv_parser.c` | CsvModel | token printing |
| `nx_data_frame.c` | DfModel | text of doubles (`printf`, `strtod`): parameters |
| `nx_json_lexer.c`, `nx_json_parser.c`, `nx_json_tree.c`, `nx_json_bundle.c` | JsonModel | number text of floats: parameters |
| `nx_options.c` | OptModel | help text printing |
| `nx_graph.c` | GraphModel | - |
| `nx_usac.c`, sampling of `nx_usac_homography.c`, `nx_uniform_sampler.c` | UsacModel | the generator itself: an arbitrary stream |
| `nx_statistics.c`, comparators of `nx_math.h` | StatModel | mean and standard deviation; `qsort` by contract |
| `fast/*.c`, `nx_fast_detector.c` | FastModel, FastTree | `atan2f` |
| `nx_brief_extractor.c` | BriefModel | `cosf`, `sinf` |
| `nx_harris_detector.c` | HarrisModel | derivative images |
| `nx_filter.c` | FilterModel | Gaussian kernel values (`exp`, `erf`) |
| `nx_image.c` | ImgModel (pixels), ImemModel (lifetimes), PnmModel (colour) | `nx_image_scale_f32` |
| `nx_image_io_pnm.c`, `nx_image_io.c` (names, formats), `nx_colorspace.c/.h` | PnmModel | JPEG and PNG (external libraries) |
| `nx_mat234.h`, `nx_vec234.h`, `nx_rotation_3d.c`, `nx_quaternion.c/.h` | GeoModel | rounding: exact reals |
| `nx_homography.c`, `nx_epipolar.c`, `nx_pinhole.c`, `nx_transform_2d.c`, `nx_point_match_2d_stats.c` | ProjModel | rounding; LAPACK SVD by contract; RANSAC loops |
| `nx_mat.h`, `nx_mat.c` | MatModel | `nx_dmat_print`; number text (`printf`, `strtod`): parameters |
| `nx_keypoint.c`, `nx_keypoint.h` | KeyModel | copying helpers |
| `nx_sift_detector.c` (files, matching, store, caches) | KeyModel, SiftModel | file names and directory creation; files in the cache are assumed to be read back as written |
| `nx_sift_detector.c` (detector parts) | SiftDogModel, SiftOpt | scale space construction, sub-pixel interpolation, gradient sampling (transcendental functions), normalisation of descriptors |
| `nx_uniform_sampler.c`, `SFMT/` | SfmtModel | seeding by time and by array; the SIMD variants (not compiled); the singleton |
| `nx_gaussian_sampler.c` | GaussModel | seeding by time; the singleton; ownership of the uniform sampler |
| `nx_homography.c`, `nx_epipolar.c` (random sampling) | RansacModel | the numerical solvers (any function), sorting (any permutation), the variants that normalise first |
| `nx_image_warp.c` | WarpModel | the random generator behind the noise (any values in 0..1); float evaluation without contraction or excess precision |
| `nx_colorspace.c` (colour maps), `nx_color_map_data.h`, `nx_image_apply_colormap` | CmapData, CmapModel | the case of the same image as source and result |
| `nx_kernel_sym_gaussian`, `nx_image_smooth` (bytes, also in place) | KernModel | float images; expf is a parameter |
| `nx_image_pyr.c`, `nx_image_pyr_builder.c` | PyrModel | the float source type, sqrt/pow (parameters), copying of pyramids |
| `vg_descriptor_map.cc/.hpp` | DmapModel | copying of maps (compiler generated) |
| `nx_harris_deriv_images`, `vg_harris_detector.cc` | HdetModel | the setters, which are declared but defined nowhere |
| `nx_json_bundle.c` (rest) | BundleModel | formatting and reading of floating point numbers (parameters) |
| `nx_affine_warp_processor.c` | AwpModel, AwbModel | the SSE variant of the resampling; cos, sin, sqrt and the convolutions in AwbModel are parameters; rounding of the double transforms in AwpModel |
| `nx_statistics.c` (mean, deviation) | MomModel | rounding |
| `nx_kitti_slam.c`, `nx_vgg_affine_dataset.c`, `nx_temple_color_128.c` | DsModel | releasing the structures, printing a sequence; the number conversions, the file system and the image loader are parameters |
| `nx_usac_homography.c` (whole) | UhModel | the solvers, the inlier test, the shape check and qsort are parameters |
| `nx_json_log.c` (whole), macros of `nx_json_log.h` | JlogModel | writing to a file is the printer of JsonModel; values are made by the JSON constructors |
| `vg_point_correspondence_2d.cc/.hpp` (whole), `nx_point_match_2d_stats_reset` | MlModel | over the reals; std::sort is a parameter; releasing the shared statistics is not modelled |
| `nx_vec.h` (float norms, normalization, largest entries), last stage of `nx_sift_compute_descriptor` | FvModel | the warning of a zero norm is left out; sqrtf correctly rounded; no fused operations |
| `nx_checkerboard_detector.c` | ChkModel | the division by sqrt(2.0) and k/255.0 in double precision are rounded once, exactly; byte images of one channel; the kernel is a parameter (C119) |
| `nx_options.c` (printing) | OprModel | a stream is the text written; help texts are not NULL; %f is a parameter |
| `nx_log_c_impl.c` | LogModel | messages are already formatted; a handler of fatal errors is a number; the call stack is a parameter |
| `nx_gnuplot.c` | GplModel | a stream is the text written; %lf and the conversion of doubles to int are parameters; flushing is not modelled |
| `nx_io.c` (closing, checked writes), `nx_filesystem.c` | IosModel | the C library's buffer and the device are a small explicit model; permissions are a flag per node |
| `vg_image_annotator.cc` (canvas) | AnnModel | images of bytes with data; assertions are a parameter |
| `nx_gc_cairo_imp.c`, `vg_image_annotator.cc` (drawing) | GcModel | lists of Cairo calls over the reals; Cairo itself is the small semantics of GcSpec (no rasterization, text, fill or dashes) |
| `nx_gl_projection.c` | GlModel | over the reals; no conversion to GLfloat |
| `nx_image_io_png.c`, `nx_image_io_jpeg.c`, `nx_image_io.c` (save, load) | ImfModel | libpng and libjpeg are contracts (samples per pixel, encoders and decoders that fit together); no failures in the middle of a file, no file system; PNG loading always resizes |
| `nx_math.c` (nx_erf) | ErfModel | over the reals |
| `nx_sift_detector.c` (compute, prepare_octave, process_octave) | SsModel | symbolic images; scales over the reals; gives the calls that search for peaks |
| `nx_sift_detector.c` (nx_sift_interp_peak_location) | PkModel | over the reals; gradient, Hessian and the 3x3 solver are an arbitrary function of the pixel |
| `nx_pinhole.c` (nx_pinhole_project_h) | PhModel | over the reals, no rounding to float |
| `nx_svd.c`, `nx_linear_solvers.c` | LapModel | arrays are their sizes; LAPACK is a function of its arguments; work sizes are integers (no rounding of the size answered in single precision) |
| `nx_homography.c`, `nx_epipolar.c` (estimate_norm_ransac) | NrModel | over the reals; the estimation is a parameter; equal points (division by zero) excluded |
| `vg_image.cc`, `vg_image_pyr.hpp` (ownership) | ViModel | shared pointers as counted blocks; no threads, weak pointers or pixels |
| `vg_brief_extractor.cc` (compute_pyr) | BmModel | on the models of C48 and C124; keypoints up to 2^22 pixels away |
| `vg_homography.cc`, `vg_homography.hpp` (set, transfer_fwd) | VhModel | over the reals, in total memory |
| `tools/nx_panorama_builder.c` (find_shortest_paths, homographies to the reference) | PanModel | costs are reals, DBL_MAX a large one; detection and matching are not part of it |
| `tools/nx_panorama_builder.c` (create_reference, composite_value, composite) | CmpModel | coordinates are reals; conversion to int drops the fraction and is undefined out of range |
Not modelled: GL, Cairo and gnuplot back ends, logging, JPEG/PNG, LAPACK
wrappers (`nx_svd.c`, `nx_linear_solvers.c`), dataset readers
(`nx_kitti_slam.c`, `nx_temple_color_128.c`, `nx_vgg_affine_dataset.c`), timing,
file-system helpers, the thin C++ wrappers `vg_*.cc`.

Simplifications that hold everywhere: `int` is 32 bits, `char` is signed,
`size_t` is 64 bits, the machine is little endian (the platform of the build
files); assertions are active and end the program like NX_FATAL; memory
allocation succeeds; bytes read from a file are given by a list and read errors
other than end of file do not happen.

## Status

Partial properties and what is missing:

* **C18** Storing a string element's own value back is safe. Missing: i = j, where the source is freed before it is read (C18_set_same_element_refuted, for every reachable array).
* **C26** CSV integer values equal the parsed text. Proved for decimal numerals without superfluous leading zeros; C26_shapes lists all other integer texts, and for those the claim is false in the code: hexadecimal fields are stored as 0 (C26_hex_refuted), octal fields with their decimal reading (C26_octal_refuted).
* **C28** Data frame CSV round-trip. proved exactly what a saved frame loads as; unchanged only for frames of writable labels and values whose columns show their type; refuted for labels with quotes or control characters, columns without values, integer-valued doubles, factors, one-column NA rows and empty frames; printf/strtod of doubles are parameters
* **C29** Loading CSV terminates for every option setting. terminates without strings_as_factors for texts up to 2^29 bytes; with the flag it never returns (col_id is not advanced)
* **C32** JSON constructors build the value they name. nx_json_node_new_false and nx_json_node_new_null build nodes of type true (nx_json_tree.c:187-195); refuted by C32_false_null_refuted. Proved for all values without false and null.
* **C33** JSON element and member lookup. Negative positions return the first element instead of NULL, INT_MIN overflows (C33_negative_refuted); positions 0..INT_MAX proved.
* **C34** JSON string escapes accepted by the lexer decode. The escape of a slash is accepted by the lexer and aborts in the decoder (C34_slash_refuted); proved for all other strings.
* **C36** Option lookup is independent of hash collisions. Lookup and rejection of duplicates are proved for every outcome of the int overflow in the hash; missing: under the C standard the overflow itself is undefined for names and arguments of seven or more characters (C36_long_names_refuted). Of two names of one sort (-a|-b) the first is dropped (C36_two_short_refuted).
* **C38** Adjacency graphs stay symmetric with an exact edge count. Matrix: proved for all weights except DBL_MAX, which marks an absent edge (refuted for it). Lists: structure proved for all histories; the reported edge count of the list graph is never incremented (refuted).
* **C40** Homography sampling draws four distinct correspondences. Partial: the code compares the fourth index with the second twice and never with the third (refuted), and float rounding lets the index equal the pool size for the 128 highest generator outputs (refuted). First termination check converts -DBL_MAX to int (refuted). Pool bounds, iteration bound and termination proved.
* **C41** Order statistics. Doubles: proved for finite data and any sort meeting the qsort contract. Ints: proved when sums and differences of elements fit int; refuted otherwise. Mean and deviation are C134.
* **C42** Number comparators are consistent total orders. Ints: proved when the difference fits int, refuted otherwise. Doubles: proved without NaN, refuted with NaN.
* **C49** BRIEF extractor save/load round-trip. holds only for extractors whose radius equals the number of octets; C49_write_read_refuted: for every other one reading exchanges the two
* **C57** Image normalization maps the value range onto [0,1]. Exact arithmetic: proved when the maximum occurs at a pixel other than the first; single precision: results proved in [0,1] or NaN. Refuted: a unique maximum in the first pixel is missed (else-if in the scan); tiny ranges give NaN.
* **C58** Float to byte conversion clamps. Refuted for every image: the min/max limits are exchanged, every pixel becomes 0. Proved: size, and values not above 0.
* **C77** Image scaling. Proved for every factor below 1/(1 + n/2^22), n the larger of width and height (size, positions, interpolated values, no access outside), for byte images and for float images with byte values. Refuted: a factor of one or more reads below the last row (1 and 2 for every image, any other for an image of one pixel). Not covered: factors between 1/(1 + n/2^22) and 1.
* **C80** Conversion between gray and RGBA images. Gray to RGBA and the buffer conversion are proved. nx_image_convert_type on an RGBA image always fails an assertion (C80_to_gray_refuted), and gray -> RGBA -> gray is not the identity: 7 becomes 6 (C80_gray_rgba_gray_refuted).
* **C82** PNM headers allowed by the format are accepted. Proved for nx_image_xload_pnm. nx_image_load_pnm rejects comments, takes pixel bytes for header text when a space ends the header, and aborts on a negative size (refuted theorems).
* **C87** Homography from four points. Proved: an estimate maps the four points and is unique; failure is reported for degenerate destinations. Refuted: quadrilaterals whose horizon passes through the origin get no estimate (C87_horizon_refuted); collinear source points are not reported (C87_collinear_refuted).
* **C89** Homography sanity check. The code divides by squared lengths: the angle test is scale dependent (C89_angle_refuted).
* **C94** Essential matrix from a fundamental matrix. The code multiplies by K' instead of its transpose: right only for diagonal K' (C94_principal_point_refuted).
* **C95** Triangulation. Proved when the inliers fit; with more inliers than n_pt the arrays overflow (C95_capacity_refuted).
* **C100** SIFT key files. Missing: a save whose last flush fails returns normally, and files announcing 2^24 or more keypoints overflow int; both refuted.
* **C101** Descriptor matching without ratio test. Missing: an empty second set, refuted (undefined behaviour).
* **C103** Growth of the keypoint store. Missing: initial capacities 0 and 1 (refuted) and more than 10485760 keypoints.
* **C104** Result caches are transparent. Proved for histories in which equal hashes mean equal results; refuted without that proviso.
* **C105** Search for scale space extrema. Missing: that nothing beyond the right border is handed on, refuted.
* **C106** Orientations of a keypoint. Missing: the first bin, refuted.
* **C107** Descriptor accumulation. Missing: orientation exactly 0, refuted.
* **C108** Detector options default to the default parameters. Missing: image doubling, refuted.
* **C110** Range of uniform samples. Samples are in 0..1; 1 itself is reached by the 128 highest generator outputs, so the half-open range is refuted.
* **C113** Robust homography estimation reports what it found. Missing: a defined result when no sampled matrix has inliers, keeping the best refinement, retrying after a failed check, and indices when the float sample is 1; all refuted.
* **C114** Robust fundamental matrix estimation reports what it found. Missing: eight pairwise different indices (the first is never compared), a defined result without inliers, keeping the best refinement, the index when the float sample is 1; all refuted.
* **C115** Affine warping resamples the source. Missing: the last row and column (black, white, noise), positions between -1 and 0, exact constants, mirroring beyond twice the size; refuted.
* **C116** Rotation by 45 degrees turns about the centre. Bytes proved away from the border cases of C115; float images lose their fractions (refuted).
* **C117** Colour maps interpolate their tables. Proved for values from 0 to 1; other values read outside of the table (refuted).
* **C118** Colouring an image maps every pixel. Bytes proved; floats proved from 0 to 1, refuted otherwise.
* **C124** Descriptor maps hold what was added. Histories with descriptors in the caller's memory (C124_history_partial) and adding own descriptors into reserved room (C124_own_partial) are proved; own descriptors otherwise and searching an empty map are refuted.
* **C128** Keypoints survive JSON. Partial because ids from 2^31 to 2^64-2^31 change (C128_id_refuted).
* **C132** Affine warps resample the image. Partial because the warp as a whole always aborts at its first blur (C132_warp_refuted); the resampling itself is proved for the scalar code.
* **C133** The background of affine warps. Partial because pixels of the image within the border are replaced too (C133_inside_refuted).
* **C135** KITTI sequences. Proved for sequences with ground truth; refuted for sequences without a pose file (NULL stream).
* **C136** VGG affine sequences. Proved with the name check of the code; refuted: names that only begin with a standard name are accepted.
* **C137** Temple Color sequences. Proved with the name check of the code and for ranges whose length fits int; both restrictions refuted.
* **C138** Temple Color attributes. Proved for one attribute on every line; refuted for other layouts.
* **C140** Sampling consensus for a homography. _partial: the third and fourth sampled match may coincide, random outputs of 2^32-128 and above are excluded (they index past the pool), and an estimate from the inliers that fails the check can replace an accepted matrix (refuted).
* **C142** Lists of point matches are values. Partial because copies made by the implicit copy constructor share the statistics (C142_copy_refuted) and a second normalize forgets the first (C142_twice_refuted). Over the reals; normalizing needs points that do not all coincide.
* **C146** Usage text and printed option values. Partial because values of string options may be NULL, which printing passes to %s (C146_null_refuted), and strings are cut to 1021 bytes (C146_long_refuted). C146_added: every option the interface adds has a name and values of its type.
* **C148** What is sent to gnuplot. Titles, names and strings without quotes, backslashes and newlines, and frames without missing values; the setters of one label are refuted
* **C149** Data of a closed stream are in the file. Full claim only if the device takes the rest of the buffer at closing; refuted otherwise
* **C150** Directories exist after they were ensured. Dies although the directory exists under a race or without read permission (refuted)
* **C151** Match images show both images side by side. Holds without assertions; with them the conversion asserts a gray image, so match images are never made (refuted). Images without data and float images are not modelled.
* **C152** Drawings show the shapes asked for. Everything but curves holds; curves end at the wrong point and relative curves are absolute (refuted). Cairo is a small explicit semantics, coordinates are reals.
* **C154** PNG files load with their pixels and keep images. Two combinations go wrong and are refuted: RGB or palette files without transparency loaded as RGBA, and gray files with a transparent level loaded as they are.
* **C155** JPEG files load with their pixels. CMYK files loaded as they are overrun the row buffer (refuted).
* **C157** The error function behaves as one. Odd except at 0, where the code gives 1e-9 (refuted).
* **C159** Refined SIFT peaks lie where the fit puts them. C159_position_refuted: when the fifth try still asks for a move, the reported position adds the offset of the previous pixel to the new one. The start is assumed inside the image; the search of C105 also hands on places beyond the right border (refuted there).
* **C161** LAPACK is called as its documentation demands. Refuted: failure of the decompositions is not reported; symmetric systems of more than 46340 unknowns overflow int. Everything else proved.
* **C163** C++ images are freed once, with their last owner. Missing: images used through a view (pyramid level) after their owner is gone, which is a use after free (C163_view_refuted).
* **C165** Transferring a point by a homography gives its image. Missing: results written over the point given, which are wrong (C165_in_place_refuted); in place is proved for matrices whose second row does not use the first coordinate.
* **C166** Panoramas join images over shortest paths. Missing: images without a path of matches to the reference image, for which the code is undefined (C166_unmatched_refuted).
* **C167** Panoramas hold the images and show the last one. Partial: fractions are dropped towards zero when the frame is laid out, so up to a pixel of an image is cut off (C167_lost_refuted), and pixels on the line at infinity of an image are undefined (C167_horizon_refuted). Proved: the frame holds every image up to less than a pixel and is as small as the corners allow, the origin is moved without changing relative positions, maps back are inverses, and pixels have the value of the last covering image.

## Findings

Where the code does not have a property, a theorem `..._refuted` gives a witness.

* SHA-256: the length load reads past the message for lengths that are a multiple of 64 (C05); a multi-segment copy started at the end reads past the segments (C07); rotation by 0 is undefined (C04).
* Memory blocks: copying a block to itself and copying an emptied block (C09). Growth macros overflow for huge sizes (C11, C12). `nx_string_array` self assignment reads freed memory (C18). Strings: stored length SIZE_MAX (C15).
* Lexers: byte 255 is taken for end of input, `isdigit` gets negative values (C20-C22).
* CSV and data frames: hexadecimal and octal integers are stored wrongly (C26); labels with quotes or control characters, all-NA columns, integer-valued doubles, factors, one-column NA rows and empty frames do not survive save/load (C28); `strings_as_factors` never returns (C29); storing a cell's own string is undefined (C27).
* JSON: `new_false` and `new_null` build nodes of type true (C32); negative positions return the first element (C33); the escape of a slash aborts (C34); text after the root value is ignored (C31).
* Options: the hash overflows for names of seven or more characters; `-a|-b` drops `-a` (C36).
* Graphs: weight DBL_MAX means absent; list graphs never count edges (C38).
* USAC: the fourth index is never compared with the third; an index can equal the pool size; the first termination check converts -DBL_MAX to int (C40).
* Statistics: comparators and sums overflow; NaN breaks the order (C41, C42).
* FAST: corners missed for negative thresholds (C43); scoring with a threshold above 255 never returns (C44).
* BRIEF: reading exchanges radius and octets (C49); radius 1 never returns (C68).
* Filters: mirrored border as long as the data reads uninitialised memory (C56); box filter keeps rounding errors (C55).
* Images: RGBA wrapping accepts rows shorter than their pixels (C51); normalisation misses a maximum in the first pixel (C57); float to byte conversion always gives 0 (C58); scaling by a factor of one or more, upsampling of empty images, antialiased halving below four columns, derivatives of one column or row read outside (C53, C73, C74, C77); RGBA to gray aborts (C80).
* PNM: `nx_image_load_pnm` takes pixels for header text, rejects comments and aborts on negative sizes (C82).
* Geometry: a zero axis does not give a rotation (C84); four-point estimation fails when the horizon passes through the origin and does not report collinear sources (C87); the homography check divides by squared lengths (C89); the essential matrix uses K' instead of its transpose (C94); triangulation writes past its arrays when there are more inliers than announced (C95).
* Matrices: `nx_dmat_transpose` computes m*n in `int`, so more than INT_MAX elements overflow (C96).
* SIFT files: `nx_sift_xsave` returns normally although the last buffered bytes did not fit on the medium (C100); a count of 2^24 or more in a file overflows `int` in `nx_sift_xload` (C100).
* SIFT matching: an empty second set without ratio test reads `keyps[-1]` (C101).
* SIFT key store: capacity 0 or 1 cannot grow, the program is stopped (C103).
* SIFT caches: neither sizes nor shapes enter the hash, and of float images no pixel does, so results of other inputs are returned, possibly beyond the end of the caller's array (C104).
* SIFT detector: the scan runs to column `width + border` instead of `width - border` (C105); the left neighbour of the first orientation bin comes from the round before (C106); orientation 0 writes at index -1 (C107); the option `--sift-double-image` defaults to off, the default parameters to on (C108).
* Uniform sampler: `nx_uniform_sampler_sample_s` returns 1.0f for 128 of the 2^32 words (C110), so index computations of the form `sample * n` can give `n`.
* Normal sampler: `nx_gaussian_sampler_free` also frees a uniform sampler the caller passed in; a pair of uniform values of exactly one half gives NaN (not a theorem: no seed with it is known).
* Random sampling of homographies and fundamental matrices: `h_best`/`f_best` is used uninitialised when no sampled matrix has an inlier (or the iteration limit is 0); the last refinement is kept even if it lost inliers; the retry condition of the homography sampler needs a zero determinant *and* a failed check, so a matrix that fails the check is not sampled again; the eight indices of the fundamental matrix sampler are never compared with the first one (C113, C114).
* `nx_image_warp_affine_bilinear`: with a black, white or noise background the last row and column of the source are lost (the identity map blackens them); positions between -1 and 0 are truncated to 0 and extrapolated in all modes; a constant image of 15 can become 14; `NX_IMAGE_WARP_MIRROR` divides by zero for a source one pixel wide and reads outside of the source from position 2*width-2 (C115). `nx_image_rotate45_f32` truncates the interpolated values to integers (C116).
* `nx_color_map_apply` does not check its value: values above 1 (by one table step), below 0 and NaN read outside of the table or convert out of range, which a float image can trigger through `nx_image_apply_colormap` (C117, C118).
* `nx_image_smooth` truncates the weighted mean of bytes: a flat image of level 3 smoothed with sigma 1 gets level 2 (C120).
* Image pyramids: the rows of a source with padding are sheared, because building first copies the image with its stride and then resets the stride of level 0 to its width (C122); a float source is copied as bytes for the same reason. The sigmas of a scaled pyramid grow with 2^i whatever the scale factor, so with a factor other than 2 its levels are blurred differently in their own pixels (C123).
* `VGDescriptorMap::add` with a descriptor of the map itself (a pointer from `search_by_id` or `get_descriptor`) reads freed memory when the vector grows; `search_nn` of an empty map is undefined (C124).
* `VGHarrisDetector::adapt_threshold`: enough images without keys (about 67 from the default) drive the threshold to exactly 0, from where no later image can raise it (C127_starved). `set_sigma_win`, `set_k` and `set_threshold` of the class are declared in the header but defined nowhere, so a caller cannot repair this. A budget of 2^30 keys or more overflows int (C126_budget).
* `nx_json_bundle_keypoint` passes the 64-bit id through an int: ids from 2^31 to 2^64 - 2^31 change (C128_id_refuted). The floats are printed with %e, which keeps 7 significant digits. `nx_json_unbundle_keypoint` aborts when a float member is written as an integer literal, although float arrays accept those (C128_reads, C129_float_arrays).
* `nx_affine_warp_processor_warp` never delivers a result: `compute_skew_rotation_buffer` always blurs with `sigma_y == 0`, which `nx_kernel_sym_gaussian` rejects with an assertion (C132_warp_refuted); without assertions the kernel is NaN and the conversion to uchar is undefined. The default `post_blur_sigma` of 0 has the same effect.
* `fill_warp_buffer_bg` treats positions before the second pixel and from the last but one pixel on as background, although the resampling has filled them from the image (C133_inside_refuted); in the repeat mode it replaces them by the outermost pixel.
* `nx_kitti_slam_sequence_new` sets `is_gt_available` from the file name instead of the stream, so a sequence without pose file (11 to 21 of the benchmark) calls fscanf on NULL (C135_no_ground_truth_refuted).
* The name checks of the VGG and Temple Color readers accept every name that begins with a standard name (C136_name_refuted, C137_refuted). The length of a frame range from 0 to INT_MAX overflows (C137_refuted).
* `nx_temple_color_128_xread_attributes` stops at the first piece of seven characters that does not begin with an attribute, so of a comma separated list only the first is seen (C138_refuted).
* `nx_usac_estimate_homography` lets the estimate from all inliers replace an accepted matrix without the shape check, so it can answer 0 although an accepted matrix with inliers was found (C140_refinement_refuted).
* `NX_JLOG_ADD*` under a key whose first entry is not an array adds a new one-element array entry each time, so the added values never meet in one array (C141_add_refuted). `nx_json_log_clear_all` is declared but not defined.
* Copies of a `VGPointCorrespondence2D` made by its implicit copy constructor share the normalization statistics: normalizing the copy changes what `denormalize` does to the original (C142_copy_refuted). Normalizing twice loses the way back (C142_twice_refuted).
* A blank image does not get a zero checkerboard score near its border, because the turned images take in the black outside (C145_blank_refuted).
* Printing the usage of a string option whose default is NULL passes NULL to %s, which is undefined (C146_null_refuted).
* String values longer than 1021 bytes are printed cut off, without the closing quote (C146_long_refuted).
* Setting only the x or only the y label of a plot sends `set title xlabel "..."`, which sets no label, whatever its text (C148_labels_refuted).
* Titles and names with a quote end the string early, and with a newline they can carry commands (C148_quotes_refuted).
* A missing value of a data frame leaves no trace in the blank-separated row sent to gnuplot, so that later values move to earlier columns; a string with a newline can end the data block (C148_missing_refuted).
* Closing a stream ignores the result of fclose: if the device is full when the buffer is emptied, data are lost and success is reported (C149_complete_refuted).
* Ensuring a directory dies although the directory exists, if another program makes it between the check and mkdir, or if it cannot be listed (C150_returns_refuted). The check of a file is true for directories (C150_file_refuted).
* With assertions, match images can never be made and annotators never for colour images: the conversion to colour asserts that the image is gray (C151_canvas_refuted, C151_annotator_refuted).
* Curves are passed to Cairo with the end point first, so they end at the second control point (C152_curves_refuted); relative curves are absolute (C152_relative_refuted).
* RGB and palette PNG files loaded as RGBA get three bytes per pixel of four: wrong colours, the rest of each row unwritten (C154_rgb_refuted).
* Gray PNG files with a transparent level, loaded as they are, are written past the end of the image (C154_transparent_refuted).
* CMYK JPEG files loaded as they are overrun the row buffer (C155_cmyk_refuted).
* nx_erf(0) is 1e-9, not 0 (C157_zero_refuted).
* If the fifth try of the refinement of a SIFT peak still moves, the position reported is the new pixel plus the offset of the old one (C159_position_refuted).
* nx_pinhole_project_h cannot be used in place (C160_in_place_refuted).
* The singular value decompositions do not report that LAPACK failed (C161_failure_refuted).
* nx_dsym_solver overflows int for systems of more than 46340 unknowns (C161_large_refuted).
* An image returned by VGImagePyr::operator[] does not keep its pyramid alive; using it, or a copy of it, after the pyramid is gone is a use after free (C163_view_refuted).
* VGHomography::transfer_fwd and nx_homography_transfer_fwd cannot be used in place (C165_in_place_refuted).
* nx_panorama_builder_find_shortest_paths writes before an array if some image has no path of matches to the reference image (C166_unmatched_refuted).
* nx_panorama_builder_create_reference drops fractions towards zero, so up to a pixel of the images is cut off at the border of the panorama (C167_lost_refuted).
* nx_panorama_builder_composite_value converts infinity or NaN to int for pixels on the line at infinity of an image (C167_horizon_refuted).
