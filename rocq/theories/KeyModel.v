(** Keypoints in files: src/nx_keypoint.c and the save/load functions of
    src/nx_sift_detector.c. *)
From Verif Require Import Base Bytes MatModel.

Local Open Scope nat_scope.

(** struct NXKeypoint, include/virg/nexus/nx_keypoint.h:35-50.  Fields are kept
    as the bit patterns that are copied to and from files: 32 bits for the
    ints and floats, 64 for the id. *)
Record key := Key { k_x : N; k_y : N; k_xs : N; k_ys : N; k_level : N; k_scale : N; k_sigma : N; k_score : N; k_ori : N; k_id : N }.

(** An output stream: what was handed to fwrite and how many bytes fwrite takes
    before it reports an error.  Simplification: a refused item leaves the bytes
    that still fit. *)
Record ostream := OStream { o_data : list N; o_limit : nat }.
(** fwrite of one item. *)
Definition fwrite_item (bs : list N) (s : ostream) : bool * ostream :=
  let d := o_data s ++ bs in
  if length d <=? o_limit s then (true, OStream d (o_limit s)) else (false, OStream (firstn (o_limit s) d) (o_limit s)).
(** fread of one item of [size] bytes over the old value: a short item changes
    only the bytes that were read. *)
Definition fread_item (size : nat) (old : N) (st : list N) : bool * N * list N :=
  let '(bs, rest) := take size st in
  (length bs =? size, le_decode (bs ++ skipn (length bs) (le_encode size old)), rest).

(** The fields in the order of nx_keypoint.c:43-52 and 61-70, with size and
    assignment. *)
Definition fields : list (nat * (key -> N) * (N -> key -> key)) :=
  [ (4, k_x, fun v k => Key v (k_y k) (k_xs k) (k_ys k) (k_level k) (k_scale k) (k_sigma k) (k_score k) (k_ori k) (k_id k));
    (4, k_y, fun v k => Key (k_x k) v (k_xs k) (k_ys k) (k_level k) (k_scale k) (k_sigma k) (k_score k) (k_ori k) (k_id k));
    (4, k_xs, fun v k => Key (k_x k) (k_y k) v (k_ys k) (k_level k) (k_scale k) (k_sigma k) (k_score k) (k_ori k) (k_id k));
    (4, k_ys, fun v k => Key (k_x k) (k_y k) (k_xs k) v (k_level k) (k_scale k) (k_sigma k) (k_score k) (k_ori k) (k_id k));
    (4, k_level, fun v k => Key (k_x k) (k_y k) (k_xs k) (k_ys k) v (k_scale k) (k_sigma k) (k_score k) (k_ori k) (k_id k));
    (4, k_scale, fun v k => Key (k_x k) (k_y k) (k_xs k) (k_ys k) (k_level k) v (k_sigma k) (k_score k) (k_ori k) (k_id k));
    (4, k_sigma, fun v k => Key (k_x k) (k_y k) (k_xs k) (k_ys k) (k_level k) (k_scale k) v (k_score k) (k_ori k) (k_id k));
    (4, k_score, fun v k => Key (k_x k) (k_y k) (k_xs k) (k_ys k) (k_level k) (k_scale k) (k_sigma k) v (k_ori k) (k_id k));
    (4, k_ori, fun v k => Key (k_x k) (k_y k) (k_xs k) (k_ys k) (k_level k) (k_scale k) (k_sigma k) (k_score k) v (k_id k));
    (8, k_id, fun v k => Key (k_x k) (k_y k) (k_xs k) (k_ys k) (k_level k) (k_scale k) (k_sigma k) (k_score k) (k_ori k) v) ].

(** WRITE_FIELD for each field, nx_keypoint.c:30-33. *)
Fixpoint write_fields (fs : list (nat * (key -> N) * (N -> key -> key))) (k : key) (s : ostream) : bool * ostream :=
  match fs with
  | [] => (true, s)
  | (size, get, _) :: fs' => let '(ok, s') := fwrite_item (le_encode size (get k)) s in if ok then write_fields fs' k s' else (false, s')
  end.
(** The loop of nx_keypoint_write from position i, with [m] keypoints left. *)
Fixpoint write_from (keys : list key) (m i : nat) (s : ostream) : res (option nat * ostream) :=
  match m with
  | O => Ok (None, s)
  | S m' =>
    let* k := aget keys i in
    let '(ok, s') := write_fields fields k s in
    if ok then write_from keys m' (S i) s' else Ok (Some i, s')
  end.
(** nx_keypoint_write, nx_keypoint.c:40-56. *)
Definition nx_keypoint_write (keys : list key) (n : Z) (s : ostream) : res (Z * ostream) :=
  let* r := write_from keys (Z.to_nat n) 0 s in
  Ok (match fst r with Some i => Z.of_nat i | None => n end, snd r).
(** nx_keypoint_xwrite, 78-83. *)
Definition nx_keypoint_xwrite (keys : list key) (n : Z) (s : ostream) : res ostream :=
  let* r := nx_keypoint_write keys n s in
  if (fst r =? n)%Z then Ok (snd r) else Fatal.

(** READ_FIELD for each field, 35-38. *)
Fixpoint read_fields (fs : list (nat * (key -> N) * (N -> key -> key))) (k : key) (st : list N) : bool * key * list N :=
  match fs with
  | [] => (true, k, st)
  | (size, get, put) :: fs' =>
    let '(ok, v, st') := fread_item size (get k) st in
    if ok then read_fields fs' (put v k) st' else (false, put v k, st')
  end.
Fixpoint read_from (keys : list key) (m i : nat) (st : list N) : res (option nat * list key * list N) :=
  match m with
  | O => Ok (None, keys, st)
  | S m' =>
    let* k := aget keys i in
    let '(ok, k', st') := read_fields fields k st in
    let* keys := aset keys i k' in
    if ok then read_from keys m' (S i) st' else Ok (Some i, keys, st')
  end.
(** nx_keypoint_read, 58-76. *)
Definition nx_keypoint_read (keys : list key) (n : Z) (st : list N) : res (Z * list key * list N) :=
  let* r := read_from keys (Z.to_nat n) 0 st in
  let '(stop, keys', st') := r in
  Ok (match stop with Some i => Z.of_nat i | None => n end, keys', st').
(** nx_keypoint_xread, 85-90. *)
Definition nx_keypoint_xread (keys : list key) (n : Z) (st : list N) : res (list key * list N) :=
  let* r := nx_keypoint_read keys n st in
  let '(n_rd, keys', st') := r in
  if (n_rd =? n)%Z then Ok (keys', st') else Fatal.

(** nx_xfwrite, src/nx_io.c:92-96, of bytes in one call. *)
Definition nx_xfwrite (bs : list N) (s : ostream) : res ostream :=
  let '(ok, s') := fwrite_item bs s in if ok then Ok s' else Fatal.
(** nx_xfread, nx_io.c:98-102, of [n] bytes. *)
Definition nx_xfread (n : nat) (st : list N) : res (list N * list N) :=
  let '(bs, rest) := take n st in if length bs =? n then Ok (bs, rest) else Fatal.

Definition DESC_DIM : Z := 128.

(** nx_sift_xsave, src/nx_sift_detector.c:891-911, writing a file on a disk
    with space for [room] bytes; [slack] is what stdio buffers beyond the disk
    before fwrite reports an error.  nx_xfclose (nx_io.c:48-61) looks at the
    error flag before fclose flushes the buffer, so the file finally holds the
    bytes that fit on the disk.  Arguments are not NULL and the file can be
    opened. *)
Definition nx_sift_xsave (room slack : nat) (n : Z) (keys : list key) (desc : list N) : res (list N) :=
  if (n <? 0)%Z then Fatal else
  let s := OStream [] (room + slack) in
  let* s := nx_xfwrite (int_bytes n) s in
  let* s := nx_xfwrite (int_bytes DESC_DIM) s in
  let* s := nx_keypoint_xwrite keys n s in
  let* m := chk_int (n * DESC_DIM) in
  if (length desc <? Z.to_nat m)%nat then UB else
  let* s := nx_xfwrite (firstn (Z.to_nat m) desc) s in
  Ok (firstn room (o_data s)).

(** nx_sift_xload, nx_sift_detector.c:913-954, of a file with contents [st];
    the arrays hold max_n_keys elements. *)
Definition nx_sift_xload (junkk : nat -> key) (junkd : nat -> N) (st : list N) (max_n_keys : Z) (keys : list key) (desc : list N)
  : res (Z * (Z * list key * list N)) :=
  if (max_n_keys <? 0)%Z then Fatal else
  let* r := nx_xfread 4 st in
  let '(bs, st) := r in
  let n := int_of_bytes bs in
  if (n <? 0)%Z then Fatal else
  let* r := nx_xfread 4 st in
  let '(bs, st) := r in
  if negb (int_of_bytes bs =? DESC_DIM)%Z then Fatal else
  let* r :=
    if (max_n_keys <? n)%Z then
      let keys := drealloc junkk keys (Z.to_nat n) in
      let* m := chk_int (n * DESC_DIM) in
      Ok (n, keys, drealloc junkd desc (Z.to_nat m))
    else Ok (max_n_keys, keys, desc) in
  let '(max_n_keys, keys, desc) := r in
  let* r := nx_keypoint_xread keys n st in
  let '(keys, st) := r in
  let* m := chk_int (n * DESC_DIM) in
  let* r := nx_xfread (Z.to_nat m) st in
  let '(bs, _) := r in
  if (length desc <? Z.to_nat m)%nat then UB else
  Ok (n, (max_n_keys, keys, bs ++ skipn (Z.to_nat m) desc)).
