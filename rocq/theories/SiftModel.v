(** Matching of SIFT descriptors, the key store and the result caches of
    src/nx_sift_detector.c. *)
From Verif Require Import Base Bytes Flt MatModel KeyModel ShaModel.

Local Open Scope Z_scope.

(** The value of a float given by its bits (IEEE 754 binary32). *)
Definition flt_of_bits (b : N) : flt :=
  let s := N.testbit b 31 in
  let e := Z.of_N ((b / 2 ^ 23) mod 256)%N in
  let m := Z.of_N (b mod 2 ^ 23)%N in
  if e =? 255 then (if m =? 0 then FInf s else FNaN)
  else FF ((if s then -1 else 1) * (if e =? 0 then m else (2 ^ 23 + m) * 2 ^ (e - 1))).

(** struct NXPointMatch2D, include/virg/nexus/nx_point_match_2d.h:33-43. *)
Record pmatch := PMatch { p_x : flt; p_y : flt; p_xp : flt; p_yp : flt; p_cost : flt; p_sigma_x : flt; p_sigma_xp : flt; p_id : N; p_idp : N; p_inlier : bool }.

(** nx_keypoint_xs0, nx_keypoint_ys0, nx_keypoint.h:61-69. *)
Definition xs0 (k : key) : flt := fmul (flt_of_bits (k_xs k)) (flt_of_bits (k_scale k)).
Definition ys0 (k : key) : flt := fmul (flt_of_bits (k_ys k)) (flt_of_bits (k_scale k)).
(** nx_point_match_2d_from_keypoints, nx_point_match_2d.h:45-64. *)
Definition from_keypoints (k kp : key) (sigma0 cost : flt) (inlier : bool) : pmatch :=
  PMatch (xs0 k) (ys0 k) (xs0 kp) (ys0 kp) cost (fmul sigma0 (flt_of_bits (k_scale k))) (fmul sigma0 (flt_of_bits (k_scale kp))) (k_id k) (k_id kp) inlier.

(** nx_ucvec_dist_sq, include/virg/nexus/nx_vec.h:196-210, on the vectors
    starting at offsets [o0] and [o1]. *)
Definition nx_ucvec_dist_sq (n : Z) (v0 : list N) (o0 : Z) (v1 : list N) (o1 : Z) : res Z :=
  if n <? 0 then Fatal else
  for_each (fun i d_sq =>
    let* a := zget v0 (o0 + i) in
    let* b := zget v1 (o1 + i) in
    let* d := chk_int (Z.of_N a - Z.of_N b) in
    let* dd := chk_int (d * d) in
    chk_int (d_sq + dd)) (upto n) 0.

(** 0.3f, nx_sift_detector.c:747. *)
Definition SIFT_LOCALIZATION_STD_DEV : flt := mkf (3 * U) 10.

(** The inner loop without ratio check, nx_sift_detector.c:799-808: id and
    squared distance of the nearest descriptor. *)
Definition nearest (desc : list N) (oi : Z) (np : Z) (descp : list N) : res (Z * Z) :=
  for_each (fun j s =>
    let* oj := chk_int (j * DESC_DIM) in
    let* d_sq := nx_ucvec_dist_sq DESC_DIM desc oi descp oj in
    if d_sq <? snd s then Ok (j, d_sq) else Ok s) (upto np) (-1, INT_MAX).
(** The inner loop with ratio check, 760-775: the two nearest. *)
Definition nearest2 (desc : list N) (oi : Z) (np : Z) (descp : list N) : res ((Z * Z) * (Z * Z)) :=
  for_each (fun j s =>
    let '((id0, d0), (id1, d1)) := s in
    let* oj := chk_int (j * DESC_DIM) in
    let* d_sq := nx_ucvec_dist_sq DESC_DIM desc oi descp oj in
    if d_sq <? d0 then Ok ((j, d_sq), (id0, d0))
    else if d_sq <? d1 then Ok ((id0, d0), (j, d_sq)) else Ok s) (upto np) ((-1, INT_MAX), (-1, INT_MAX)).

(** nx_sift_match_brute_force, 729-818.  Pointers are not NULL. *)
Definition nx_sift_match_brute_force (n : Z) (keys : list key) (desc : list N) (np : Z) (keyps : list key) (descp : list N)
  (corr : list pmatch) (thr : flt) : res (Z * list pmatch) :=
  if n <? 0 then Fatal else if np <? 0 then Fatal else
  if f_gt thr F0 && f_lt thr F1 then
    let thr_sq := fmul thr thr in
    for_each (fun i s =>
      let '(n_matches, corr) := s in
      let* oi := chk_int (i * DESC_DIM) in
      let* r := nearest2 desc oi np descp in
      let '((id0, d0), (_, d1)) := r in
      if f_lt (of_int d0) (fmul thr_sq (of_int d1)) then
        let* k := zget keys i in
        let* kp := zget keyps id0 in
        let* corr := zset corr n_matches (from_keypoints k kp SIFT_LOCALIZATION_STD_DEV (of_int d0) false) in
        let* n_matches := chk_int (n_matches + 1) in
        Ok (n_matches, corr)
      else Ok (n_matches, corr)) (upto n) (0, corr)
  else
    let* corr := for_each (fun i corr =>
      let* oi := chk_int (i * DESC_DIM) in
      let* r := nearest desc oi np descp in
      let '(id, d) := r in
      let* k := zget keys i in
      let* kp := zget keyps id in
      zset corr i (from_keypoints k kp SIFT_LOCALIZATION_STD_DEV (of_int d) false)) (upto n) corr in
    Ok (n, corr).

(** * The key store *)

(** struct NXSIFTKeyStore, nx_sift_detector.c:141-146. *)
Record store := Store { st_n : Z; st_cap : Z; st_keys : list key; st_desc : list N }.
(** 1.6f. *)
Definition F16 : flt := mkf (16 * U) 10.
(** nx_sift_key_store_append, 148-164. *)
Definition nx_sift_key_store_append (junkk : nat -> key) (junkd : nat -> N) (s : store) : res (Z * store) :=
  let* s :=
    if st_cap s <=? st_n s then
      let* new_cap := to_int (fmul (of_int (st_cap s)) F16) in
      let keys := drealloc junkk (st_keys s) (Z.to_nat new_cap) in
      let* m := chk_int (new_cap * DESC_DIM) in
      Ok (Store (st_n s) new_cap keys (drealloc junkd (st_desc s) (Z.to_nat m)))
    else Ok s in
  if st_n s <? st_cap s then
    let* n := chk_int (st_n s + 1) in
    Ok (st_n s, Store n (st_cap s) (st_keys s) (st_desc s))
  else Fatal.

(** * Caches *)

(** The cache directory: contents of the file named after a hash.  Files are
    kept as the values written to them (fwrite and fread of whole structures
    give back what was written). *)
Definition cache (A : Type) := list (list N * A).
Fixpoint cache_find {A} (h : list N) (c : cache A) : option A :=
  match c with [] => None | (h', a) :: c' => if list_eq_dec N.eq_dec h h' then Some a else cache_find h c' end.

(** struct NXKeypoint in memory: the fields, four bytes of padding before the
    id, which have arbitrary values [pad]. *)
Definition key_mem (pad : list N) (k : key) : list N :=
  le_encode 4 (k_x k) ++ le_encode 4 (k_y k) ++ le_encode 4 (k_xs k) ++ le_encode 4 (k_ys k) ++ le_encode 4 (k_level k) ++
  le_encode 4 (k_scale k) ++ le_encode 4 (k_sigma k) ++ le_encode 4 (k_score k) ++ le_encode 4 (k_ori k) ++ pad ++ le_encode 8 (k_id k).

(** The messages hashed by nx_sift_match_brute_force_with_cache, 841-855; keys
    come with their padding, [thr_bits] are the four bytes of the threshold. *)
Definition match_msgs (n : nat) (keys : list (list N * key)) (desc : list N) (np : nat) (keyps : list (list N * key)) (descp : list N) (thr_bits : N) : list (list N) :=
  [ concat (map (fun pk => key_mem (fst pk) (snd pk)) (firstn n keys)); firstn (128 * n) desc;
    concat (map (fun pk => key_mem (fst pk) (snd pk)) (firstn np keyps)); firstn (128 * np) descp; le_encode 4 thr_bits ].

(** nx_sift_match_brute_force_with_cache, 820-889, with directory [c]; the
    result is the count and the matches; [sha] is nx_sha256_multi. *)
Definition match_with_cache (sha : list (list N) -> res (list N)) (n : nat) (keys : list (list N * key)) (desc : list N) (np : nat)
  (keyps : list (list N * key)) (descp : list N) (corr : list pmatch) (thr_bits : N) (c : cache (list pmatch))
  : res (Z * list pmatch * cache (list pmatch)) :=
  let* hash := sha (match_msgs n keys desc np keyps descp thr_bits) in
  let name := nx_hash_to_str hash in
  match cache_find name c with
  | Some ms =>
    if (length corr <? length ms)%nat then UB
    else Ok (Z.of_nat (length ms), ms ++ skipn (length ms) corr, c)
  | None =>
    let* r := nx_sift_match_brute_force (Z.of_nat n) (map snd keys) desc (Z.of_nat np) (map snd keyps) descp corr (flt_of_bits thr_bits) in
    let '(n_corr, corr) := r in
    Ok (n_corr, corr, (name, firstn (Z.to_nat n_corr) corr) :: c)
  end.

(** Images as nx_sift_detector_compute_with_cache sees them (grayscale). *)
Record simage := SImage { s_w : nat; s_h : nat; s_float : bool; s_rows : list (list N) }.
(** The messages hashed for an image, 674-688: the bytes of its rows and the
    parameters.  The second branch tests NX_IMAGE_UCHAR again, so for float
    images all row lengths stay zero (and the pointers uninitialised; they are
    taken to be harmless here because nothing is read through them). *)
Definition image_msgs (im : simage) (param : list N) : list (list N) :=
  (if s_float im then repeat [] (s_h im) else s_rows im) ++ [param].
(** nx_sift_detector_compute_with_cache, 655-727.  [detect] stands for
    nx_sift_detector_compute. *)
Definition compute_with_cache {A} (sha : list (list N) -> res (list N)) (detect : simage -> list N -> A) (im : simage) (param : list N) (c : cache A) : res (A * cache A) :=
  let* hash := sha (image_msgs im param) in
  let name := nx_hash_to_str hash in
  match cache_find name c with
  | Some a => Ok (a, c)
  | None => let a := detect im param in Ok (a, (name, a) :: c)
  end.

(** The part of nx_sift_compute_keys that stores a keypoint and its descriptor,
    nx_sift_detector.c:383-400: append, then fill in the new places. *)
Definition add_key (junkk : nat -> key) (junkd : nat -> N) (kd : key * list N) (s : store) : res store :=
  let* r := nx_sift_key_store_append junkk junkd s in
  let '(id, s) := r in
  let* keys := zset (st_keys s) id (fst kd) in
  let* o := chk_int (id * DESC_DIM) in
  let* desc := blit (st_desc s) (Z.to_nat o) (snd kd) in
  Ok (Store (st_n s) (st_cap s) keys desc).
