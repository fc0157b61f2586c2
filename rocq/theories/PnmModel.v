(** Model of src/nx_image_io_pnm.c, of the format detection of
    src/nx_image_io.c and of the colour conversions of src/nx_colorspace.c.
    A file is the list of its bytes. *)
From Verif Require Import Base BaseLemmas Gray Img Flt CsvModel DfModel.
Local Open Scope Z_scope.

(** * Images with channels *)

(** enum NXImageType, include/virg/nexus/nx_image.h. *)
Inductive itype := GRAY | RGBA.
Definition n_ch (t : itype) : Z := match t with GRAY => 1 | RGBA => 4 end.
(** struct NXImage of uchar: type, width in pixels and the samples; the columns
    of [u_px] are the n_ch * width samples of a row. *)
Record uimg := mkU { u_type : itype; u_w : Z; u_px : image N }.
Notation u_h u := (i_h (u_px u)).
(** nx_image_resize with the default stride, src/nx_image.c:119-153. *)
Definition u_new (junk : nat -> N) (w h : Z) (t : itype) : res uimg :=
  if (w <? 0) || (h <? 0) then Fatal
  else let* s := chk_int (n_ch t * w) in let* g := img_new junk s h in Ok (mkU t w g).

(** * Colour conversion *)

(** The floats 0.3f, 0.59f, 0.11f in units of 2^-149. *)
Definition F_03 : flt := mkf (3 * U) 10.
Definition F_059 : flt := mkf (59 * U) 100.
Definition F_011 : flt := mkf (11 * U) 100.
(** nx_rgb_to_gray_uc, include/virg/nexus/nx_colorspace.h:34-44. *)
Definition rgb_to_gray (r g b : N) : res N :=
  let* gray := to_int (fadd (fadd (fmul (of_int (Z.of_N r)) F_03) (fmul (of_int (Z.of_N g)) F_059)) (fmul (of_int (Z.of_N b)) F_011)) in
  Ok (if gray <? 0 then 0%N else if 255 <? gray then 255%N else Z.to_N gray).
(** nx_rgb_to_gray_f32, 46-56. *)
Definition rgb_to_gray_f32 (r g b : flt) : flt :=
  let gray := fadd (fadd (fmul r F_03) (fmul g F_059)) (fmul b F_011) in
  if f_lt gray F0 then F0 else if f_lt F1 gray then F1 else gray.

(** nx_convert_rgba_to_gray_uc, src/nx_colorspace.c:32-48; [w], [h] are the sizes
    given, the strides are those of the two images. *)
Definition rgba_to_gray (w h : Z) (gray rgba : image N) : res (image N) :=
  scan 0 w 0 h (fun x y gray =>
    let* r := iget rgba (4 * x) y in
    let* g := iget rgba (4 * x + 1) y in
    let* b := iget rgba (4 * x + 2) y in
    let* v := rgb_to_gray r g b in
    iput gray x y v) gray.
(** nx_convert_gray_to_rgba_uc, 50-67. *)
Definition gray_to_rgba (w h : Z) (rgba gray : image N) : res (image N) :=
  scan 0 w 0 h (fun x y rgba =>
    let* v := iget gray x y in
    let* rgba := iput rgba (4 * x) y v in
    let* rgba := iput rgba (4 * x + 1) y v in
    let* rgba := iput rgba (4 * x + 2) y v in
    iput rgba (4 * x + 3) y 255%N) rgba.
(** nx_image_convert_type, src/nx_image.c:351-378: a new image of the other type
    replaces the old one.  The assertion refuses everything but gray images. *)
Definition convert_type (junk : nat -> N) (u : uimg) (t : itype) : res uimg :=
  match u_type u, t with
  | RGBA, _ => Fatal
  | GRAY, GRAY => Ok u
  | GRAY, RGBA => let* v := u_new junk (u_w u) (u_h u) RGBA in let* g := gray_to_rgba (u_w u) (u_h u) (u_px v) (u_px u) in Ok (mkU RGBA (u_w u) g)
  end.

(** * Writing *)

(** save_as_pnm, nx_image_io_pnm.c:35-63. *)
Definition save_pnm (u : uimg) : res (list N) :=
  match u_type u with
  | GRAY =>
    scan 0 (u_w u) 0 (u_h u) (fun x y out => let* v := iget (u_px u) x y in Ok (out ++ [v]))
      ([80; 53; 10]%N ++ print_int (u_w u) ++ [32%N] ++ print_int (u_h u) ++ [32%N] ++ print_int 255 ++ [10%N])
  | RGBA =>
    scan 0 (u_w u) 0 (u_h u) (fun x y out =>
      let* r := iget (u_px u) (4 * x) y in
      let* g := iget (u_px u) (4 * x + 1) y in
      let* b := iget (u_px u) (4 * x + 2) y in Ok (out ++ [r; g; b]))
      ([80; 54; 10]%N ++ print_int (u_w u) ++ [32%N] ++ print_int (u_h u) ++ [10%N] ++ print_int 255 ++ [10%N])
  end.

(** * Reading *)

(** fscanf %d (C11 7.21.6.2): white space, sign, digits.  [None]: no number.  A
    value that does not fit an int is undefined. *)
Definition scan_int (s : list N) : res (option (Z * list N)) :=
  let s1 := skip_space s in
  let '(neg, s2) := match s1 with
                    | c :: s' => if (c =? 45)%N then (true, s') else if (c =? 43)%N then (false, s') else (false, s1)
                    | [] => (false, [])
                    end in
  let '(v, n, rest) := read_digits 10 s2 0 0 in
  if (n =? 0)%nat then Ok None else let* z := chk_int (if neg then - v else v) in Ok (Some (z, rest)).
(** fscanf "%d %d %d". *)
Definition scan_3 (s : list N) : res (option (Z * Z * Z * list N)) :=
  let* r := scan_int s in
  match r with
  | None => Ok None
  | Some (a, s) =>
    let* r := scan_int s in
    match r with
    | None => Ok None
    | Some (b, s) =>
      let* r := scan_int s in
      match r with None => Ok None | Some (c, s) => Ok (Some (a, b, c, s)) end
    end
  end.
(** fgets with a buffer of [n]+1 bytes; [None] at the end of the file. *)
Fixpoint fgets_go (n : nat) (s : list N) : list N :=
  match n, s with S n', c :: s' => if (c =? 10)%N then s' else fgets_go n' s' | _, _ => s end.
Definition fgets (n : nat) (s : list N) : option (list N) := match s with [] => None | _ => Some (fgets_go n s) end.

(** The two pixel loops of read_pnm_data; [None] when the file is too short. *)
Definition loop_read (w h : Z) (f : Z -> Z -> image N -> list N -> res (option (image N * list N))) (g : image N) (s : list N) : res (option (image N * list N)) :=
  scan 0 w 0 h (fun x y st => match st with None => Ok None | Some (g, s) => f x y g s end) (Some (g, s)).
(** read_pnm_data, 101-159. *)
Definition read_pnm_data (junk : nat -> N) (img_type : itype) (s : list N) (w h : Z) (pnm_type : itype) : res (option uimg) :=
  let* u := u_new junk w h img_type in
  let* r := (match pnm_type, img_type with
    | GRAY, GRAY => loop_read w h (fun x y g s =>
        match s with [] => Ok None | v :: s' => let* g := iput g x y v in Ok (Some (g, s')) end) (u_px u) s
    | GRAY, RGBA => loop_read w h (fun x y g s =>
        match s with
        | [] => Ok None
        | v :: s' =>
          let* g := iput g (4 * x) y v in
          let* g := iput g (4 * x + 1) y v in
          let* g := iput g (4 * x + 2) y v in
          let* g := iput g (4 * x + 3) y 255%N in Ok (Some (g, s'))
        end) (u_px u) s
    | RGBA, GRAY => loop_read w h (fun x y g s =>
        match s with
        | a :: b :: c :: s' => let* v := rgb_to_gray a b c in let* g := iput g x y v in Ok (Some (g, s'))
        | _ => Ok None
        end) (u_px u) s
    | RGBA, RGBA => loop_read w h (fun x y g s =>
        match s with
        | a :: b :: c :: s' =>
          let* g := iput g (4 * x) y a in
          let* g := iput g (4 * x + 1) y b in
          let* g := iput g (4 * x + 2) y c in
          let* g := iput g (4 * x + 3) y 255%N in Ok (Some (g, s'))
        | _ => Ok None
        end) (u_px u) s
    end) in
  Ok (match r with Some (g, _) => Some (mkU img_type w g) | None => None end).

(** enum NXImageLoadMode. *)
Inductive load_mode := LOAD_GRAY | LOAD_RGBA | LOAD_AS_IS.
Definition mode_type (m : load_mode) (pnm_type : itype) : itype := match m with LOAD_GRAY => GRAY | LOAD_RGBA => RGBA | LOAD_AS_IS => pnm_type end.
(** The first two bytes. *)
Definition magic (s : list N) : option (itype * list N) :=
  match s with
  | c1 :: c2 :: s' => if (c1 =? 80)%N then (if (c2 =? 53)%N then Some (GRAY, s') else if (c2 =? 54)%N then Some (RGBA, s') else None) else None
  | _ => None
  end.
(** nx_image_load_pnm, 229-301; [None] is NX_FAIL. *)
Definition load_pnm (junk : nat -> N) (mode : load_mode) (s : list N) : res (option uimg) :=
  match magic s with
  | None => Ok None
  | Some (pnm_type, s) =>
    let* r := scan_3 s in
    match r with
    | None => Ok None
    | Some (w, h, _, s) =>
      match fgets 255 s with
      | None => Ok None
      | Some s => read_pnm_data junk (mode_type mode pnm_type) s w h pnm_type
      end
    end
  end.
(** The comment skipping of nx_image_xload_pnm, 186-199: the stream in front of
    the character put back. *)
Fixpoint skip_blank (s : list N) : list N :=
  match s with c :: s' => if ((c =? 32) || (c =? 10) || (c =? 9))%N then skip_blank s' else s | [] => [] end.
Fixpoint skip_line (s : list N) : option (list N) :=
  match s with c :: s' => if (c =? 10)%N then Some s' else skip_line s' | [] => None end.
Fixpoint skip_comments (fuel : nat) (s : list N) : res (list N) :=
  match fuel with
  | O => NoFuel
  | S f =>
    match s with
    | c :: s' => if (c =? 35)%N then match skip_line s' with None => Fatal | Some s => skip_comments f s end else Ok s
    | [] => Ok []
    end
  end.
(** nx_image_xload_pnm, 161-227. *)
Definition xload_pnm (junk : nat -> N) (mode : load_mode) (s : list N) : res uimg :=
  match magic s with
  | None => Fatal
  | Some (pnm_type, s) =>
    let s := skip_blank s in
    let* s := skip_comments (S (length s)) s in
    let* r := scan_3 s in
    match r with
    | None => Fatal
    | Some (w, h, _, s) =>
      let s := tl s in
      let* r := read_pnm_data junk (mode_type mode pnm_type) s w h pnm_type in
      match r with None => Fatal | Some u => Ok u end
    end
  end.

(** * File formats *)

Inductive iformat := FMT_UNKNOWN | FMT_PNM_BINARY | FMT_PNM_ASCII | FMT_JPEG | FMT_PNG.
(** nx_image_file_format_from_header, nx_image_io.c:35-69, on the content of the
    file ([None] if it cannot be opened). *)
Definition format_from_header (file : option (list N)) : iformat :=
  match file with
  | Some (m0 :: m1 :: m2 :: m3 :: _) =>
    let fmt := if (m0 =? 80)%N then
                 (if ((m1 =? 52) || (m1 =? 53) || (m1 =? 54))%N then FMT_PNM_BINARY
                  else if ((m1 =? 49) || (m1 =? 50) || (m1 =? 51))%N then FMT_PNM_ASCII
                  else FMT_UNKNOWN)
               else FMT_UNKNOWN in
    let fmt := if ((m0 =? 255) && (m1 =? 216))%N then FMT_JPEG else fmt in
    if ((m0 =? 137) && (m1 =? 80) && (m2 =? 78) && (m3 =? 71))%N then FMT_PNG else fmt
  | _ => FMT_UNKNOWN
  end.
(** strrchr: the suffix from the last [c]. *)
Fixpoint strrchr (c : N) (s : list N) : option (list N) :=
  match s with
  | [] => None
  | x :: s' => match strrchr c s' with Some r => Some r | None => if (x =? c)%N then Some s else None end
  end.
Definition str_eqb (a b : list N) : bool := if list_eq_dec N.eq_dec a b then true else false.
(** nx_image_file_format_from_filename, 71-86. *)
Definition format_from_filename (name : list N) : iformat :=
  match strrchr 46%N name with
  | None => FMT_UNKNOWN
  | Some dot =>
    if str_eqb dot [46; 112; 103; 109]%N || str_eqb dot [46; 80; 71; 77]%N || str_eqb dot [46; 112; 112; 109]%N || str_eqb dot [46; 80; 80; 77]%N then FMT_PNM_BINARY
    else if str_eqb dot [46; 106; 112; 103]%N || str_eqb dot [46; 106; 112; 101; 103]%N || str_eqb dot [46; 74; 80; 71]%N || str_eqb dot [46; 74; 80; 69; 71]%N then FMT_JPEG
    else if str_eqb dot [46; 112; 110; 103]%N || str_eqb dot [46; 80; 78; 71]%N then FMT_PNG
    else FMT_UNKNOWN
  end.
