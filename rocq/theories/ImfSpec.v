(** What the properties of image files say. *)
From Verif Require Import Base Img PnmModel PnmSpec ImfModel.
Local Open Scope Z_scope.

(** Files with colours, files with transparency. *)
Definition colour_file (f : pfile) : bool := match f_ct f with PGray | PGrayAlpha => false | PRgb | PPalette | PRgba => true end.
Definition opaque_file (f : pfile) : Prop := match f_ct f with PGrayAlpha | PRgba => False | _ => f_trns f = false end.
(** A gray file has gray pixels; without alpha or transparent colour all are opaque. *)
Definition pfile_ok (f : pfile) : Prop := forall x y, let '(r, g, b, a) := f_px f x y in
  (colour_file f = false -> g = r /\ b = r) /\ (opaque_file f -> a = 255%N).
(** The type of the image loaded. *)
Definition wanted_type (mode : load_mode) (colour : bool) : itype :=
  match mode with LOAD_GRAY => GRAY | LOAD_RGBA => RGBA | LOAD_AS_IS => if colour then RGBA else GRAY end.
(** Pixel (x, y) of the image shows that of the file.  The alpha of gray files with an
    alpha channel is dropped. *)
Definition shows_png (lum : N -> N -> N -> N) (f : pfile) (u : uimg) (x y : Z) : Prop :=
  let '(r, g, b, a) := f_px f x y in
  match u_type u with
  | GRAY => sample u x y 0 = if colour_file f then lum r g b else r
  | RGBA => sample u x y 0 = r /\ sample u x y 1 = g /\ sample u x y 2 = b /\
            sample u x y 3 = match f_ct f with PGrayAlpha => 255%N | _ => a end
  end.
(** Files with colours but no transparency, loaded as RGBA, and gray files with a
    transparent level, loaded as they are, are the exceptions. *)
Definition png_exception (mode : load_mode) (f : pfile) : Prop :=
  (mode = LOAD_RGBA /\ (f_ct f = PRgb \/ f_ct f = PPalette) /\ f_trns f = false) \/
  (mode = LOAD_AS_IS /\ f_ct f = PGray /\ f_trns f = true).
Definition shows_jpeg (f : jfile) (u : uimg) (x y : Z) : Prop :=
  let '(r, g, b, _) := j_px f x y in
  match u_type u with
  | GRAY => sample u x y 0 = j_gray f x y
  | RGBA => sample u x y 3 = 255%N /\
            match j_kind f with
            | JGray => sample u x y 0 = j_gray f x y /\ sample u x y 1 = j_gray f x y /\ sample u x y 2 = j_gray f x y
            | _ => sample u x y 0 = r /\ sample u x y 1 = g /\ sample u x y 2 = b
            end
  end.
(** The sizes the library can handle. *)
Definition fits (w h : Z) : Prop := 0 < w /\ 0 < h /\ 4 * w * h <= INT_MAX.
(** What the libraries promise: a decoder reads what the encoder wrote, PNG exactly,
    JPEG with some loss; the contents start with the signatures. *)
Record codecs_ok (C : codecs) : Prop := {
  co_png : forall f, fits (f_w f) (f_h f) -> exists g, png_dec C (png_enc C f) = Some g /\ f_ct g = f_ct f /\ f_trns g = f_trns f /\ f_w g = f_w f /\ f_h g = f_h f /\
    forall x y, 0 <= x < f_w f -> 0 <= y < f_h f -> f_px g x y = f_px f x y;
  co_png_sig : forall f, signature FMT_PNG (png_enc C f);
  co_jpeg : forall s, fits (js_w s) (js_h s) -> exists f, jpeg_dec C (jpeg_enc C s) = Some f /\ j_kind f = (if js_colour s then JColour else JGray) /\ j_w f = js_w s /\ j_h f = js_h s;
  co_jpeg_sig : forall s, signature FMT_JPEG (jpeg_enc C s) /\ (4 <= length (jpeg_enc C s))%nat }.
(** Names with an ending of format [f]. *)
Definition named (name : list N) (f : iformat) : Prop := exists stem e, name = stem ++ 46%N :: e /\ In e (endings f).
