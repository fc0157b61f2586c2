(** What the files of the three datasets say. *)
From Verif Require Import Base CsvSpec PnmSpec.
From Coq Require Import String Ascii.
Local Open Scope list_scope.
Local Open Scope nat_scope.

Definition text (s : string) : list N := map N_of_ascii (list_ascii_of_string s).
(** The two digits of a number below 100; the padded decimal text of a number
    that is not negative. *)
Definition two_digits (n : nat) : list N := [48 + N.of_nat (n / 10); 48 + N.of_nat (n mod 10)]%N.
Definition one_digit (n : nat) : N := (48 + N.of_nat n)%N.
Definition padded (w : nat) (z : Z) (t : list N) : Prop :=
  exists zeros ds, t = repeat 48%N zeros ++ ds /\ decimal_digits ds /\ dec_value ds = z /\ w <= List.length t /\ (zeros = 0 \/ List.length t = w).
(** The text of an integer as %d reads it. *)
Definition int_text (t : list N) (z : Z) : Prop := exists sg ds v, t = sg ++ ds /\ sign_ok sg /\ numeral ds v /\ sign_of sg v = z.

(** A number conversion skips white space and takes at least a byte. *)
Definition scan_ok {num} (scan : list N -> option (num * list N)) : Prop :=
  (forall ws s, spaces ws -> scan (ws ++ s) = scan s) /\
  (forall s v r, scan s = Some (v, r) -> List.length r < List.length s).

Section Files.
Context {num : Type}.
Variable scan : list N -> option (num * list N).
(** [vs] are the first numbers of [s], [r] is what follows them. *)
Inductive reads : list N -> list num -> list N -> Prop :=
| reads_nil s : reads s [] s
| reads_cons s v s' vs r : scan s = Some (v, s') -> reads s' vs r -> reads s (v :: vs) r.
(** [vs] are all the numbers up to the end or to what is no number. *)
Definition all_numbers (s : list N) (vs : list num) : Prop := exists r, reads s vs r /\ scan r = None.

(** [p] is, column by column, the 3 x 4 matrix whose rows start at the k-th
    number of [vs]. *)
Definition matrix_3x4 (vs : list num) (k : nat) (p : list (option num)) : Prop :=
  List.length p = 12 /\ forall r c, r < 3 -> c < 4 -> exists v, nth_error vs (k + 4 * r + c) = Some v /\ nth_error p (3 * c + r) = Some (Some v).
Definition matrix_3x3 (vs : list num) (p : list (option num)) : Prop :=
  List.length p = 9 /\ forall r c, r < 3 -> c < 3 -> exists v, nth_error vs (3 * r + c) = Some v /\ nth_error p (3 * c + r) = Some (Some v).

(** White space is skipped up to the next line. *)
Definition next_line (r s : list N) : Prop := exists ws, spaces ws /\ r = ws ++ s /\ forall c s', s = c :: s' -> ~ spaces [c].
(** The rows of a calibration file, from row i on. *)
Inductive calibration : nat -> list N -> list (list num) -> Prop :=
| cal_nil i s : calibration i s []
| cal_cons i t vs r s rows : reads t vs r -> List.length vs = 12 -> next_line r s -> calibration (S i) s rows ->
    calibration i (text "P" ++ [one_digit i] ++ text ":" ++ t) (vs :: rows).
(** The rows of a ground truth file: four numbers with commas between. *)
Inductive boxes : list N -> list (list num) -> Prop :=
| boxes_nil s : boxes s []
| boxes_cons s a s1 b s2 c s3 d r s' rows :
    scan s = Some (a, 44%N :: s1) -> scan s1 = Some (b, 44%N :: s2) -> scan s2 = Some (c, 44%N :: s3) -> scan s3 = Some (d, r) ->
    next_line r s' -> boxes s' rows -> boxes s ([a; b; c; d] :: rows).
End Files.

(** A KITTI sequence directory with ground truth, and what is returned for it. *)
Section Kitti.
Context {num : Type}.
Variables (dir : list N -> bool) (file : list N -> option (list N)) (scan : list N -> option (num * list N)).
Definition kitti_dir (base : list N) (id : nat) : list N := base ++ text "/sequences/" ++ two_digits id.
Definition kitti_says (base : list N) (id : nat) (poses times : list num) (calib : list (list num)) : Prop :=
  id < 22 /\ dir base = true /\ dir (kitti_dir base id) = true /\
  (exists s, file (base ++ text "/poses/" ++ two_digits id ++ text ".txt") = Some s /\ all_numbers scan s poses) /\
  (exists s, file (kitti_dir base id ++ text "/times.txt") = Some s /\ all_numbers scan s times) /\
  (exists s, file (kitti_dir base id ++ text "/calib.txt") = Some s /\ calibration scan 0 s calib) /\
  List.length calib = 4 /\ List.length poses / 12 = List.length times.
End Kitti.

(** The accepted names. *)
Definition vgg_standard : list (list N) := map text ["bark"; "bikes"; "boat"; "graf"; "leuven"; "trees"; "ubc"; "wall"]%string.
Definition begins_with (std name : list N) : Prop := exists t, name = std ++ t.

(** A VGG sequence: [hs i] are the nine numbers of the i-th homography. *)
Definition vgg_says {num} (dir : list N -> bool) (file : list N -> option (list N)) (scan : list N -> option (num * list N))
    (base name : list N) (hs : nat -> list num) : Prop :=
  dir base = true /\ (exists std, In std vgg_standard /\ begins_with std name) /\ dir (base ++ text "/" ++ name) = true /\
  forall i, 1 <= i <= 5 -> exists s r, file (base ++ text "/" ++ name ++ text "/H1to" ++ [one_digit (i + 1)] ++ text "p") = Some s /\
    reads scan s (hs i) r /\ List.length (hs i) = 9.

(** A Temple Color sequence: first and last frame, attribute file, boxes. *)
Definition range_file (s : list N) (first last : Z) : Prop :=
  exists ws1 t1 ws2 t2 r, s = ws1 ++ t1 ++ [44%N] ++ ws2 ++ t2 ++ r /\ spaces ws1 /\ int_text t1 first /\ spaces ws2 /\ int_text t2 last /\
  (forall c r', r = c :: r' -> ~ (48 <= c <= 57)%N) /\ (INT_MIN <= first <= INT_MAX)%Z /\ (INT_MIN <= last <= INT_MAX)%Z.
Definition temple_says {num} (names : list (list N)) (dir : list N -> bool) (file : list N -> option (list N)) (scan : list N -> option (num * list N))
    (base name : list N) (first last : Z) (rows : list (list num)) : Prop :=
  dir base = true /\ (exists std, In std names /\ begins_with std name) /\ dir (base ++ text "/" ++ name) = true /\
  (exists s, file (base ++ text "/" ++ name ++ text "/" ++ name ++ text "_frames.txt") = Some s /\ range_file s first last) /\
  file (base ++ text "/" ++ name ++ text "/" ++ name ++ text "_att.txt") <> None /\
  (exists s, file (base ++ text "/" ++ name ++ text "/" ++ name ++ text "_gt.txt") = Some s /\ boxes scan s rows) /\
  (INT_MIN <= last - first <= INT_MAX)%Z /\ Z.of_nat (List.length rows) = (last - first + 1)%Z /\ (last - first + 1 <= INT_MAX)%Z.

(** The attributes of Temple Color 128 in the order of their bits. *)
Definition attribute_names : list (list N) := map text ["VI"; "SV"; "OCC"; "DEF"; "MB"; "FM"; "IPR"; "OPR"; "OV"; "BC"; "LR"]%string.
(** A file with one attribute on every line. *)
Definition attribute_lines (ls : list (list N)) : list N := flat_map (fun l => l ++ [10%N]) ls.
