(** Model of the dataset readers: src/nx_kitti_slam.c,
    src/nx_vgg_affine_dataset.c and src/nx_temple_color_128.c.

    The file system is two functions: [dir path] tells whether a directory can be
    opened, [file path] gives the bytes of a readable file.  Numbers scanned by
    %lf and %f are values of a type [num]; [scan s] is the conversion, the number
    at the front of [s] and what follows it.  Paths and names are byte lists.
    Counts are naturals: that they fit int and size_t is not modelled.  Releasing
    the structures is not modelled. *)
From Verif Require Import Base CsvModel LexModel DfModel PnmModel.
From Coq Require Import String Ascii.
Local Open Scope list_scope.

Definition bs (s : string) : list N := map N_of_ascii (list_ascii_of_string s).

(** printf %0wd. *)
Definition print_pad (w : nat) (z : Z) : list N :=
  if (z <? 0)%Z then 45%N :: repeat 48%N (w - List.length (print_int z)) ++ print_int (- z)
  else repeat 48%N (w - List.length (print_int z)) ++ print_int z.

(** strncmp(a, b, strlen(b)) == 0. *)
Fixpoint has_prefix (a b : list N) : bool :=
  match b, a with
  | [], _ => true
  | c :: b', d :: a' => (c =? d)%N && has_prefix a' b'
  | _ :: _, [] => false
  end.

(** * fscanf *)
(** A format string: ordinary characters, white space, conversions. *)
Inductive directive := Lit (c : N) | Ws | Conv.
Section Scanf.
Context {num : Type}.
Variable scan : list N -> option (num * list N).
(** The numbers stored and the rest of the stream (C11 7.21.6.2). *)
Fixpoint fscanf (fmt : list directive) (s : list N) : list num * list N :=
  match fmt with
  | [] => ([], s)
  | Lit c :: f => match s with d :: s' => if (d =? c)%N then fscanf f s' else ([], s) | [] => ([], s) end
  | Ws :: f => fscanf f (skip_space s)
  | Conv :: f => match scan s with
                 | Some (v, s') => let (vs, r) := fscanf f s' in (v :: vs, r)
                 | None => ([], s)
                 end
  end.
End Scanf.

(** Storing scanned numbers at given places of an array of doubles; [None] is a
    double that was not written. *)
Definition store {num} (places : list nat) (vs : list num) (P : list (option num)) : res (list (option num)) :=
  for_each (fun '(i, v) P => aset P i (Some v)) (combine places vs) P.

(** * KITTI, src/nx_kitti_slam.c *)
Section Kitti.
Context {num : Type}.
Variables (dir : list N -> bool) (file : list N -> option (list N)) (scan : list N -> option (num * list N)).

(** NX_KITTI_SLAM_MAX_SEQ_ID, nx_kitti_slam.h. *)
Definition KITTI_MAX_SEQ_ID : nat := 22.
(** The formats of lines 37-42. *)
Definition kitti_sequence_dir (base : list N) (id : Z) : list N := base ++ bs "/sequences/" ++ print_pad 2 id.
Definition kitti_pose_file (base : list N) (id : Z) : list N := base ++ bs "/poses/" ++ print_pad 2 id ++ bs ".txt".
Definition kitti_seq_file (base : list N) (id : Z) (name : list N) : list N := base ++ bs "/sequences/" ++ print_pad 2 id ++ bs "/" ++ name.
Definition kitti_cam_dir (base : list N) (id i : Z) : list N := base ++ bs "/sequences/" ++ print_pad 2 id ++ bs "/image_" ++ print_int i.
Definition kitti_lidar_dir (base : list N) (id : Z) : list N := base ++ bs "/sequences/" ++ print_pad 2 id ++ bs "/velodyne".
Definition kitti_frame (base : list N) (id cam frame : Z) : list N :=
  base ++ bs "/sequences/" ++ print_pad 2 id ++ bs "/image_" ++ print_int cam ++ bs "/" ++ print_pad 6 frame ++ bs ".png".

(** struct NXKittiSLAM, and nx_kitti_slam_new, 44-62. *)
Record kitti := { kd_base : list N; kd_available : list bool }.
Definition kitti_new (base : list N) : res kitti :=
  if dir base then Ok {| kd_base := base; kd_available := map (fun i => dir (kitti_sequence_dir base (Z.of_nat i))) (seq 0 KITTI_MAX_SEQ_ID) |}
  else Fatal.

(** The twelve conversions and the places they store to, 80-84. *)
Definition lf12 : list directive := Conv :: List.concat (repeat [Ws; Conv] 11).
Definition places12 : list nat := [0; 3; 6; 9; 1; 4; 7; 10; 2; 5; 8; 11]%nat.
(** nx_read_poses_from_pose_file, 72-99: the array of poses, with its whole
    capacity, and the number of poses. *)
Fixpoint pose_loop (fuel : nat) (s : list N) (P : list (option num)) (poses : list (option (list (option num)))) (n : nat)
  : res (list (option (list (option num))) * nat) :=
  match fuel with
  | O => NoFuel
  | S fuel =>
    let (vs, s') := fscanf scan lf12 s in
    if (List.length vs =? 12)%nat then
      let* P := store places12 vs P in
      let poses := if (List.length poses <=? n)%nat then poses ++ repeat None 1000 else poses in
      let* poses := aset poses n (Some P) in
      pose_loop fuel s' P poses (S n)
    else Ok (poses, n)
  end.
Definition read_poses (s : list N) := pose_loop (S (List.length s)) s (repeat None 12) (repeat None 300) 0.
(** nx_read_times_from_times_file, 101-122. *)
Fixpoint time_loop (fuel : nat) (s : list N) (times : list (option num)) (n : nat) : res (list (option num) * nat) :=
  match fuel with
  | O => NoFuel
  | S fuel =>
    let (vs, s') := fscanf scan [Conv] s in
    match vs with
    | [t] =>
      let times := if (List.length times <=? n)%nat then times ++ repeat None 1000 else times in
      let* times := aset times n (Some t) in
      time_loop fuel s' times (S n)
    | _ => Ok (times, n)
    end
  end.
Definition read_times (s : list N) := time_loop (S (List.length s)) s (repeat None 300) 0.

(** struct NXKittiSLAMSequence. *)
Record kitti_sequence := { k_base : list N; k_id : Z; k_length : nat; k_gt : bool;
  k_poses : list (option (list (option num))); k_times : list (option num);
  k_calib : list (list (option num)); k_cams : list bool; k_lidar : bool }.

(** One row of the calibration file, 162-185: "Pi: %lf ... %lf\n". *)
Definition calib_fmt (i : nat) : list directive := [Lit 80; Lit (48 + N.of_nat i); Lit 58; Ws] ++ lf12 ++ [Ws].
Definition calib_row (i : nat) (st : list (list (option num)) * list N) : res (list (list (option num)) * list N) :=
  let (calib, s) := st in
  let (vs, s') := fscanf scan (calib_fmt i) s in
  if (List.length vs =? 12)%nat then
    let* P := aget calib i in
    let* P := store places12 vs P in
    let* calib := aset calib i P in Ok (calib, s')
  else Fatal.

(** nx_kitti_slam_sequence_new, 124-201.  The pose file is opened by nx_fopen,
    which gives NULL for a missing file; the flag tests the name instead of the
    stream, so it is always set and fscanf gets the NULL stream. *)
Definition kitti_sequence_new (d : kitti) (id : Z) : res kitti_sequence :=
  if (id <? 0)%Z || (Z.of_nat KITTI_MAX_SEQ_ID - 1 <? id)%Z then Fatal else
  let* available := zget (kd_available d) id in
  if negb available then Fatal else
  let base := kd_base d in
  let pose_in := file (kitti_pose_file base id) in
  let gt := true in
  let* pn := match pose_in with None => UB | Some s => read_poses s end in
  let (poses, length) := pn : list (option (list (option num))) * nat in
  match file (kitti_seq_file base id (bs "times.txt")) with
  | None => Fatal
  | Some ts =>
    let* tn := read_times ts in
    let (times, n) := tn : list (option num) * nat in
    if gt && negb (n =? length)%nat then Fatal else
    let length := n in
    match file (kitti_seq_file base id (bs "calib.txt")) with
    | None => Fatal
    | Some cs =>
      let* c := for_each calib_row [0; 1; 2; 3]%nat (repeat (repeat None 12) 4, cs) in
      Ok {| k_base := base; k_id := id; k_length := length; k_gt := gt; k_poses := poses; k_times := times; k_calib := fst c;
            k_cams := map (fun i => dir (kitti_cam_dir base id i)) [0; 1; 2; 3]%Z; k_lidar := dir (kitti_lidar_dir base id) |}
    end
  end.

(** nx_kitti_slam_sequence_xload_frame, 216-237; [load path] is nx_image_load as
    it is, [None] when it fails. *)
Definition kitti_load_frame {img} (load : list N -> option img) (q : kitti_sequence) (cam frame : Z) : res img :=
  if (cam <? 0)%Z || (3 <? cam)%Z then Fatal else
  if (frame <? 0)%Z || (Z.of_nat (k_length q) - 1 <? frame)%Z then Fatal else
  let* available := zget (k_cams q) cam in
  if negb available then Fatal else
  match load (kitti_frame (k_base q) (k_id q) cam frame) with Some i => Ok i | None => Fatal end.
End Kitti.

(** * VGG Affine, src/nx_vgg_affine_dataset.c *)
(** NX_VGG_AFFINE_SEQ_NAMES, 38-39. *)
Definition vgg_names : list (list N) := map bs ["bark"; "bikes"; "boat"; "graf"; "leuven"; "trees"; "ubc"; "wall"]%string.
(** Lines 90-96 and nx_temple_color_128.c:134-139: the check of the name. *)
Definition name_found (names : list (list N)) (name : list N) : bool :=
  fold_left (fun found std => if has_prefix name std then true else found) names false.
Section Vgg.
Context {num : Type}.
Variables (dir : list N -> bool) (file : list N -> option (list N)) (scan : list N -> option (num * list N)) (zero one : num).
(** The formats of lines 41-44. *)
Definition vgg_dir (base name : list N) : list N := base ++ bs "/" ++ name.
Definition vgg_h_file (base name : list N) (i : Z) : list N := base ++ bs "/" ++ name ++ bs "/H1to" ++ print_int i ++ bs "p".
Definition vgg_frame (base name : list N) (i : Z) : list N := base ++ bs "/" ++ name ++ bs "/img" ++ print_int i ++ bs ".ppm".
Definition vgg_frame_alt (base name : list N) (i : Z) : list N := base ++ bs "/" ++ name ++ bs "/img" ++ print_int i ++ bs ".pgm".

(** nx_vgg_affine_xread_ground_truth, 46-77.  nx_dmat3_eye is
    src/nx_mat234.c. *)
Definition vgg_cell (rc : nat * nat) (st : list (option num) * list N) : res (list (option num) * list N) :=
  let (h, s) := st in
  match fscanf scan [Conv] s with
  | ([v], s') => let* h := aset h (snd rc * 3 + fst rc) (Some v) in Ok (h, s')
  | _ => Fatal
  end.
Definition vgg_h (s : list N) : res (list (option num)) :=
  let* st := for_each vgg_cell (list_prod [0; 1; 2] [0; 1; 2])%nat (repeat None 9, s) in Ok (fst st).
Definition vgg_read_ground_truth (base name : list N) (length : nat) : res (list (option (list (option num)))) :=
  let h := repeat None length in
  let* h := aset h 0 (Some (map Some [one; zero; zero; zero; one; zero; zero; zero; one])) in
  for_each (fun i h =>
    match file (vgg_h_file base name (Z.of_nat i + 1)) with
    | None => Fatal
    | Some s => let* m := vgg_h s in aset h i (Some m)
    end) (seq 1 (length - 1)) h.

(** struct NXVGGAffineSequence and nx_vgg_affine_sequence_new, 79-112. *)
Record vgg_sequence := { v_base : list N; v_name : list N; v_length : nat; v_h : list (option (list (option num))) }.
Definition vgg_sequence_new (base name : list N) : res vgg_sequence :=
  if negb (dir base) then Fatal else
  if negb (name_found vgg_names name) then Fatal else
  if negb (dir (vgg_dir base name)) then Fatal else
  let* h := vgg_read_ground_truth base name 6 in
  Ok {| v_base := base; v_name := name; v_length := 6; v_h := h |}.

(** nx_vgg_affine_sequence_xload_frame, 126-149. *)
Definition vgg_load_frame {img} (load : list N -> option img) (q : vgg_sequence) (frame : Z) : res img :=
  if (frame <? 0)%Z || (Z.of_nat (v_length q) - 1 <? frame)%Z then Fatal else
  match load (vgg_frame (v_base q) (v_name q) (frame + 1)) with
  | Some i => Ok i
  | None => match load (vgg_frame_alt (v_base q) (v_name q) (frame + 1)) with Some i => Ok i | None => Fatal end
  end.
End Vgg.

(** * Temple Color 128, src/nx_temple_color_128.c *)
(** NX_TEMPLE_COLOR_128_ATTRIBUTES, 46-47. *)
Definition tc_attributes : list (list N) := map bs ["VI"; "SV"; "OCC"; "DEF"; "MB"; "FM"; "IPR"; "OPR"; "OV"; "BC"; "LR"]%string.
(** fgets with a buffer of eight bytes: the line or its first seven bytes, and
    the rest. *)
Fixpoint get_chunk (n : nat) (s : list N) : list N * list N :=
  match n, s with
  | S n', c :: s' => if (c =? 10)%N then ([c], s') else let (l, r) := get_chunk n' s' in (c :: l, r)
  | _, _ => ([], s)
  end.
(** nx_temple_color_128_get_attr, 64-77. *)
Fixpoint attr_of (names : list (list N)) (i : Z) (buffer : list N) : Z :=
  match names with
  | [] => 0%Z
  | a :: names' => if has_prefix buffer a then Z.shiftl 1 i else attr_of names' (i + 1)%Z buffer
  end.
Definition get_attr (s : list N) : Z * list N :=
  match s with
  | [] => (0%Z, [])
  | _ => let (buffer, r) := get_chunk 7 s in (attr_of tc_attributes 0 buffer, r)
  end.
(** nx_temple_color_128_xread_attributes, 79-98. *)
Fixpoint attr_loop (fuel : nat) (s : list N) (attr : Z) : res Z :=
  match fuel with
  | O => NoFuel
  | S fuel =>
    let (fattr, r) := get_attr s in
    let attr := Z.lor attr fattr in
    if (fattr =? 0)%Z then Ok attr else attr_loop fuel r attr
  end.
Definition read_attributes (s : list N) : res Z := attr_loop (S (List.length s)) s 0.

(** NX_TEMPLE_COLOR_128_SEQ_NAMES, nx_temple_color_128.h: 129 names. *)
Definition tc_names : list (list N) := map bs [
  "Airport_ce"; "Baby_ce"; "Badminton_ce1"; "Badminton_ce2"; "Ball_ce1"; "Ball_ce2"; "Ball_ce3"; "Ball_ce4";
  "Basketball"; "Basketball_ce1"; "Basketball_ce2"; "Basketball_ce3"; "Bee_ce"; "Bicycle"; "Bike_ce1";
  "Bike_ce2"; "Biker"; "Bikeshow_ce"; "Bird"; "Board"; "Boat_ce1"; "Boat_ce2"; "Bolt"; "Boy"; "Busstation_ce1";
  "Busstation_ce2"; "Carchasing_ce1"; "Carchasing_ce3"; "Carchasing_ce4"; "CarDark"; "CarScale"; "Charger_ce";
  "Coke"; "Couple"; "Crossing"; "Cup"; "Cup_ce"; "David"; "David3"; "Deer"; "Diving"; "Doll"; "Eagle_ce";
  "Electricalbike_ce"; "Face_ce"; "Face_ce2"; "FaceOcc1"; "Fish_ce1"; "Fish_ce2"; "Football1"; "Girl";
  "Girlmov"; "Guitar_ce1"; "Guitar_ce2"; "Gym"; "Hand"; "Hand_ce1"; "Hand_ce2"; "Hurdle_ce1"; "Hurdle_ce2";
  "Iceskater"; "Ironman"; "Jogging1"; "Jogging2"; "Juice"; "Kite_ce1"; "Kite_ce2"; "Kite_ce3"; "Kobe_ce";
  "Lemming"; "Liquor"; "Logo_ce"; "Matrix"; "Messi_ce"; "Michaeljackson_ce"; "Microphone_ce1";
  "Microphone_ce2"; "Motorbike_ce"; "MotorRolling"; "MountainBike"; "Panda"; "Plane_ce2"; "Plate_ce1";
  "Plate_ce2"; "Pool_ce1"; "Pool_ce2"; "Pool_ce3"; "Railwaystation_ce"; "Ring_ce"; "Sailor_ce"; "Shaking";
  "Singer1"; "Singer2"; "Singer_ce1"; "Singer_ce2"; "Skating1"; "Skating2"; "Skating_ce1"; "Skating_ce2";
  "Skiing"; "Skiing_ce"; "Skyjumping_ce"; "Soccer"; "Spiderman_ce"; "Subway"; "Suitcase_ce"; "Sunshade";
  "SuperMario_ce"; "Surf_ce1"; "Surf_ce2"; "Surf_ce3"; "Surf_ce4"; "TableTennis_ce"; "TennisBall_ce";
  "Tennis_ce1"; "Tennis_ce2"; "Tennis_ce3"; "Thunder_ce"; "Tiger1"; "Tiger2"; "Torus"; "Toyplane_ce";
  "Trellis"; "Walking"; "Walking2"; "Woman"; "Yo-yos_ce1"; "Yo-yos_ce2"; "Yo-yos_ce3"]%string.

Section Temple.
Context {num : Type}.
Variables (dir : list N -> bool) (file : list N -> option (list N)) (scan : list N -> option (num * list N)).
(** The formats of lines 38-42. *)
Definition tc_dir (base name : list N) : list N := base ++ bs "/" ++ name.
Definition tc_file (base name suffix : list N) : list N := base ++ bs "/" ++ name ++ bs "/" ++ name ++ suffix.
Definition tc_frame (base name : list N) (i : Z) : list N := base ++ bs "/" ++ name ++ bs "/img/" ++ print_pad 4 i ++ bs ".jpg".
(** nx_temple_color_128_xread_frame_range, 49-62: fscanf "%d,%d". *)
Definition tc_frame_range (s : list N) : res (Z * Z) :=
  let* a := scan_int s in
  match a with
  | None => Fatal
  | Some (start, s) =>
    match s with
    | c :: s => if (c =? 44)%N then let* b := scan_int s in match b with None => Fatal | Some (end_, _) => Ok (start, end_) end else Fatal
    | [] => Fatal
    end
  end.
(** nx_temple_color_128_xread_ground_truth, 100-126: "%f,%f,%f,%f\n" for every
    frame.  A negative length asks for more memory than there is. *)
Definition gt_fmt : list directive := [Conv; Lit 44; Conv; Lit 44; Conv; Lit 44; Conv; Ws].
Definition tc_gt_row (i : nat) (st : list (list (option num)) * list N) : res (list (list (option num)) * list N) :=
  let (gt, s) := st in
  let (vs, s') := fscanf scan gt_fmt s in
  if (List.length vs =? 4)%nat then
    let* row := aget gt i in
    let* row := store [0; 1; 2; 3]%nat vs row in
    let* gt := aset gt i row in Ok (gt, s')
  else Fatal.
Definition tc_ground_truth (content : option (list N)) (length : Z) : res (list (list (option num))) :=
  if (length <? 0)%Z then Fatal else
  let n := Z.to_nat length in
  match content with
  | None => Fatal
  | Some s => let* st := for_each tc_gt_row (seq 0 n) (repeat (repeat None 4) n, s) in Ok (fst st)
  end.

(** struct NXTempleColor128Sequence and nx_temple_color_128_sequence_new,
    128-166. *)
Record tc_sequence := { t_base : list N; t_name : list N; t_start : Z; t_end : Z; t_length : Z; t_attr : Z; t_gt : list (list (option num)) }.
Definition tc_sequence_new (base name : list N) : res tc_sequence :=
  if negb (dir base) then Fatal else
  if negb (name_found tc_names name) then Fatal else
  if negb (dir (tc_dir base name)) then Fatal else
  match file (tc_file base name (bs "_frames.txt")) with
  | None => Fatal
  | Some fs =>
    let* r := tc_frame_range fs in
    let (start, end_) := r : Z * Z in
    let* d := chk_int (end_ - start) in
    let* length := chk_int (d + 1) in
    match file (tc_file base name (bs "_att.txt")) with
    | None => Fatal
    | Some att =>
      let* attr := read_attributes att in
      let* gt := tc_ground_truth (file (tc_file base name (bs "_gt.txt"))) length in
      Ok {| t_base := base; t_name := name; t_start := start; t_end := end_; t_length := length; t_attr := attr; t_gt := gt |}
    end
  end.
(** nx_temple_color_128_sequence_xload_frame, 194-211. *)
Definition tc_load_frame {img} (load : list N -> option img) (q : tc_sequence) (frame : Z) : res img :=
  if (frame <? t_start q)%Z || (t_end q <? frame)%Z then Fatal else
  match load (tc_frame (t_base q) (t_name q) frame) with Some i => Ok i | None => Fatal end.
End Temple.
