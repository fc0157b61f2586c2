(** The canvas of annotated images: src/vg_image_annotator.cc, for images of bytes.
    [asserts] tells whether the library was built with assertions (without NDEBUG). *)
From Verif Require Import Base Gray Img PnmModel.
Local Open Scope Z_scope.

(** VGImage::convert_type_to(RGBA) = nx_image_convert_type, src/nx_image.c:351-378: the
    assertion at 354 refuses colour images; without it 356-357 returns them as they
    are.  Images without data are not modelled. *)
Definition to_rgba (asserts : bool) (junk : nat -> N) (u : uimg) : res uimg :=
  match u_type u with
  | RGBA => if asserts then Fatal else Ok u
  | GRAY => convert_type junk u RGBA
  end.
(** VGImageAnnotator, src/vg_image_annotator.cc:40-43, and set_image, 45-51: the canvas. *)
Definition annotator_canvas (asserts : bool) (junk : nat -> N) (u : uimg) : res uimg := to_rgba asserts junk u.
(** nx_image_set_zero, src/nx_image.c:488-493. *)
Definition zeroed (g : image N) : image N := mkImg (i_w g) (i_h g) (i_stride g) (map (fun _ => 0%N) (i_data g)).
(** memcpy of the first [n] samples of row [y] of [src] to column [off] of row [y],
    src/vg_image_annotator.cc:188, 193; sample by sample. *)
Definition copy_row (src : image N) (off n y : Z) (g : image N) : res (image N) :=
  scan off (off + n) y (y + 1) (fun X Y g => let* v := iget src (X - off) Y in iput g X Y v) g.
(** create_match_image, src/vg_image_annotator.cc:163-197: the canvas before the matches
    are drawn.  The junk is the memory of the new images. *)
Definition match_canvas (asserts : bool) (j1 j2 j3 j4 : nat -> N) (left right : uimg) : res uimg :=
  let lw := u_w left in let rw := u_w right in
  let* w := chk_int (lw + rw) in
  let lh := u_h left in let rh := u_h right in
  let h := Z.max lh rh in
  let* l := to_rgba asserts j1 left in
  let* r := to_rgba asserts j2 right in
  let* c := u_new j3 w h RGBA in
  let* g := for_each (fun y g =>
      let* g := if y <? lh then copy_row (u_px l) 0 (lw * 4) y g else Ok g in
      if y <? rh then copy_row (u_px r) (lw * 4) (rw * 4) y g else Ok g)
    (zrange 0 h) (zeroed (u_px c)) in
  annotator_canvas asserts j4 (mkU RGBA w g).
