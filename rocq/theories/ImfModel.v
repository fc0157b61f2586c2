(** PNG and JPEG files and the choice of the format: src/nx_image_io_png.c,
    src/nx_image_io_jpeg.c, src/nx_image_io.c.

    Simplifications.  The libraries libpng and libjpeg are described by what they give
    for each pixel (below).  Their failures in the middle of a file, interlacing and
    the errors of the file system are not modelled.  Images are of bytes. *)
From Verif Require Import Base BaseLemmas Gray Img PnmModel.
Local Open Scope Z_scope.

(** * PNG *)

(** Colour types; a file without alpha channel may have a transparent colour (tRNS). *)
Inductive ctype := PGray | PRgb | PPalette | PGrayAlpha | PRgba.
(** A file as libpng presents it, at 8 bits: red, green, blue and alpha of each pixel. *)
Record pfile := mkP { f_ct : ctype; f_trns : bool; f_w : Z; f_h : Z; f_px : Z -> Z -> N * N * N * N }.
Definition coloured (ct : ctype) : bool := match ct with PRgb | PPalette | PRgba => true | _ => false end.
Definition has_alpha (ct : ctype) (trns : bool) : bool := match ct with PGrayAlpha | PRgba => true | _ => trns end.
(** The transformations: strip_alpha, rgb_to_gray, gray_to_rgb, add_alpha; expand is
    always set. *)
Record ptrans := mkT { t_strip : bool; t_gray : bool; t_rgb : bool; t_add : bool }.
(** The samples libpng writes for a pixel, in the order of png_do_read_transformations;
    [lum] is its gray value of a colour. *)
Definition png_samples (lum : N -> N -> N -> N) (t : ptrans) (f : pfile) (x y : Z) : list N :=
  let '(r, g, b, a) := f_px f x y in
  let alpha := has_alpha (f_ct f) (f_trns f) && negb (t_strip t) in
  let gray := if coloured (f_ct f) then if t_gray t then Some (lum r g b) else None else if t_rgb t then None else Some r in
  (match gray with Some v => [v] | None => [r; g; b] end) ++ (if alpha then [a] else if t_add t then [255%N] else []).

(** load_as_png, src/nx_image_io_png.c:149-184 (RGB_TO_GRAY with weights 164): the type of the image and the
    transformations. *)
Definition png_setup (mode : load_mode) (ct : ctype) : itype * ptrans :=
  let ga := match ct with PGrayAlpha => true | _ => false end in
  match mode with
  | LOAD_GRAY => (GRAY, mkT true true false false)
  | LOAD_RGBA => (RGBA, mkT ga false (negb (coloured ct)) (negb (coloured ct)))
  | LOAD_AS_IS => (if coloured ct then RGBA else GRAY, mkT ga false false (match ct with PRgb | PPalette => true | _ => false end))
  end.
(** load_as_png, 186-206: rows of samples are written to the rows of the image.
    Simplified: the image is resized even if it has the right size and type already
    (186-188), where its old samples and stride are kept; the old samples are covered
    by [junk], the stride is not. *)
Definition load_png (lum : N -> N -> N -> N) (junk : nat -> N) (mode : load_mode) (f : pfile) : res uimg :=
  let '(ty, t) := png_setup mode (f_ct f) in
  let* u := u_new junk (f_w f) (f_h f) ty in
  let ch := Z.of_nat (length (png_samples lum t f 0 0)) in
  let* g := scan 0 (ch * f_w f) 0 (f_h f) (fun k y g =>
    let* v := zget (png_samples lum t f (k / ch) y) (k mod ch) in iput g k y v) (u_px u) in
  Ok (mkU ty (f_w f) g).
(** save_as_png, 47-111: rows of the image are given to libpng. *)
Definition save_png (u : uimg) : res pfile :=
  let n := n_ch (u_type u) in
  let* s := scan 0 (n * u_w u) 0 (u_h u) (fun k y out => let* v := iget (u_px u) k y in Ok (out ++ [v])) [] in
  let at_ x y c := nth (Z.to_nat (y * (n * u_w u) + (n * x + c))) s 0%N in
  Ok (match u_type u with
      | GRAY => mkP PGray false (u_w u) (u_h u) (fun x y => (at_ x y 0, at_ x y 0, at_ x y 0, 255%N))
      | RGBA => mkP PRgba false (u_w u) (u_h u) (fun x y => (at_ x y 0, at_ x y 1, at_ x y 2, at_ x y 3))
      end).

(** * JPEG *)

(** A file: gray, colour (RGB or YCbCr) or CMYK; the components libjpeg gives for each
    pixel, and its gray value. *)
Inductive jkind := JGray | JColour | JCmyk.
Record jfile := mkJ { j_kind : jkind; j_w : Z; j_h : Z; j_px : Z -> Z -> N * N * N * N; j_gray : Z -> Z -> N }.
(** load_as_jpeg, src/nx_image_io_jpeg.c:173-183: number of output components, as asked
    for or libjpeg's default; [None]: libjpeg cannot convert. *)
Definition jpeg_components (mode : load_mode) (k : jkind) : option Z :=
  match mode, k with
  | LOAD_AS_IS, JGray => Some 1 | LOAD_AS_IS, JColour => Some 3 | LOAD_AS_IS, JCmyk => Some 4
  | _, JCmyk => None
  | LOAD_GRAY, _ => Some 1
  | LOAD_RGBA, _ => Some 3
  end.
(** The components of a pixel; gray is replicated for colour output. *)
Definition jpeg_samples (n : Z) (f : jfile) (x y : Z) : list N :=
  let '(a, b, c, d) := j_px f x y in
  if n =? 1 then [j_gray f x y]
  else if n =? 3 then (match j_kind f with JGray => [j_gray f x y; j_gray f x y; j_gray f x y] | _ => [a; b; c] end)
  else [a; b; c; d].
(** jpeg_read_scanlines: a row of samples is written to a buffer. *)
Definition jpeg_read_row (n : Z) (f : jfile) (y : Z) (buffer : list N) : res (list N) :=
  for_each (fun k buffer => let* v := zget (jpeg_samples n f (k / n) y) (k mod n) in zset buffer k v) (zrange 0 (n * j_w f)) buffer.
(** load_as_jpeg, 184-213; [None] is NX_FAIL.  The junk is the memory of the new image
    and of the buffer. *)
Definition load_jpeg (junk bjunk : nat -> N) (mode : load_mode) (f : jfile) : res (option uimg) :=
  match jpeg_components mode (j_kind f) with
  | None => Ok None
  | Some n =>
    let* u := u_new junk (j_w f) (j_h f) (if n =? 1 then GRAY else RGBA) in
    if n =? 1 then
      let* g := scan 0 (j_w f) 0 (j_h f) (fun x y g => let* v := zget (jpeg_samples 1 f x y) 0 in iput g x y v) (u_px u) in
      Ok (Some (mkU GRAY (j_w f) g))
    else
      let buffer := map bjunk (seq 0 (Z.to_nat (3 * j_w f))) in
      let* st := for_each (fun y '(g, buffer) =>
          let* buffer := jpeg_read_row n f y buffer in
          let* g := for_each (fun x g =>
              let* r := zget buffer (3 * x) in
              let* g := iput g (4 * x) y r in
              let* v := zget buffer (3 * x + 1) in
              let* g := iput g (4 * x + 1) y v in
              let* b := zget buffer (3 * x + 2) in
              let* g := iput g (4 * x + 2) y b in
              iput g (4 * x + 3) y 255%N) (zrange 0 (j_w f)) g in
          Ok (g, buffer)) (zrange 0 (j_h f)) (u_px u, buffer) in
      Ok (Some (mkU RGBA (j_w f) (fst st)))
  end.

(** What save_as_jpeg gives to the encoder: rows of 1 or 3 bytes per pixel. *)
Record jsrc := mkS { js_colour : bool; js_w : Z; js_h : Z; js_rows : list N }.
(** save_as_jpeg, 75-106.  Simplified: the row buffer of 92-101 is left out, the bytes
    go straight to the encoder. *)
Definition save_jpeg (u : uimg) : res jsrc :=
  let* s := match u_type u with
    | GRAY => scan 0 (u_w u) 0 (u_h u) (fun x y out => let* v := iget (u_px u) x y in Ok (out ++ [v])) []
    | RGBA => scan 0 (u_w u) 0 (u_h u) (fun x y out =>
        let* r := iget (u_px u) (4 * x) y in
        let* g := iget (u_px u) (4 * x + 1) y in
        let* b := iget (u_px u) (4 * x + 2) y in
        Ok (out ++ [r; g; b])) []
    end in
  Ok (mkS (match u_type u with GRAY => false | RGBA => true end) (u_w u) (u_h u) s).

(** * The choice of the format *)

(** The encoders and decoders of the libraries: the content of a file. *)
Record codecs := mkC { png_enc : pfile -> list N; png_dec : list N -> option pfile;
                       jpeg_enc : jsrc -> list N; jpeg_dec : list N -> option jfile }.
(** nx_image_save, src/nx_image_io.c:100-116: the content of the file. *)
Definition image_save (C : codecs) (u : uimg) (name : list N) : res (list N) :=
  match format_from_filename name with
  | FMT_PNM_BINARY => save_pnm u
  | FMT_JPEG => let* s := save_jpeg u in Ok (jpeg_enc C s)
  | FMT_PNG => let* f := save_png u in Ok (png_enc C f)
  | _ => save_pnm u
  end.
(** nx_image_load, 118-136; [None] is NX_FAIL. *)
Definition image_load (C : codecs) (lum : N -> N -> N -> N) (junk bjunk : nat -> N) (mode : load_mode) (file : option (list N)) : res (option uimg) :=
  match format_from_header file, file with
  | FMT_PNM_BINARY, Some s => load_pnm junk mode s
  | FMT_JPEG, Some s => match jpeg_dec C s with Some f => load_jpeg junk bjunk mode f | None => Ok None end
  | FMT_PNG, Some s => match png_dec C s with Some f => let* u := load_png lum junk mode f in Ok (Some u) | None => Ok None end
  | _, _ => Ok None
  end.
