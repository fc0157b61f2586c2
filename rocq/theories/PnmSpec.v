(** What the properties of image files and colours say. *)
From Verif Require Import Base Img PnmModel.
Local Open Scope Z_scope.

(** A well-formed image: the samples of a row fit its stride, everything fits
    an int. *)
Record u_ok (u : uimg) : Prop := {
  uo_w : 0 <= u_w u <= INT_MAX;
  uo_h : u_h u <= INT_MAX;
  uo_px : image_ok (u_px u);
  uo_cols : i_w (u_px u) = n_ch (u_type u) * u_w u;
  uo_max : n_ch (u_type u) * u_w u <= INT_MAX }.
Definition in_uimg (u : uimg) (x y : Z) : Prop := 0 <= x < u_w u /\ 0 <= y < u_h u.
(** Channel [c] of pixel (x, y). *)
Definition sample (u : uimg) (x y c : Z) : N := pix 0%N (u_px u) (n_ch (u_type u) * x + c) y.
(** [u] has the given type and size. *)
Definition sized (u : uimg) (t : itype) (w h : Z) : Prop := u_ok u /\ u_type u = t /\ u_w u = w /\ u_h u = h.
(** Bytes per pixel in a file. *)
Definition bpp (t : itype) : Z := match t with GRAY => 1 | RGBA => 3 end.
(** Byte [k] of a file content. *)
Definition byte_at (s : list N) (k : Z) : N := nth (Z.to_nat k) s 0%N.
(** How pixel (x, y) of the loaded image [u] of type [t] follows from the pixel
    data [s] of a file of type [pt] with [w] columns. *)
Definition pixel_ok (pt t : itype) (s : list N) (w : Z) (u : uimg) (x y : Z) : Prop :=
  let k := y * w + x in
  match pt, t with
  | GRAY, GRAY => sample u x y 0 = byte_at s k
  | GRAY, RGBA => (forall c, 0 <= c < 3 -> sample u x y c = byte_at s k) /\ sample u x y 3 = 255%N
  | RGBA, RGBA => (forall c, 0 <= c < 3 -> sample u x y c = byte_at s (3 * k + c)) /\ sample u x y 3 = 255%N
  | RGBA, GRAY => rgb_to_gray (byte_at s (3 * k)) (byte_at s (3 * k + 1)) (byte_at s (3 * k + 2)) = Ok (sample u x y 0)
  end.
(** All samples are bytes. *)
Definition byte_samples (u : uimg) : Prop := forall x y c, in_uimg u x y -> 0 <= c < n_ch (u_type u) -> (sample u x y c < 256)%N.
(** The colours of pixel (x, y) of [v] are those of [u], in the type of [v]. *)
Definition same_colour (u v : uimg) (x y : Z) : Prop :=
  match u_type u, u_type v with
  | GRAY, GRAY => sample v x y 0 = sample u x y 0
  | GRAY, RGBA => (forall c, 0 <= c < 3 -> sample v x y c = sample u x y 0) /\ sample v x y 3 = 255%N
  | RGBA, RGBA => (forall c, 0 <= c < 3 -> sample v x y c = sample u x y c) /\ sample v x y 3 = 255%N
  | RGBA, GRAY => rgb_to_gray (sample u x y 0) (sample u x y 1) (sample u x y 2) = Ok (sample v x y 0)
  end.

(** * Files *)

From Verif Require Import CsvSpec.
Definition numeral (ds : list N) (z : Z) : Prop := ds <> [] /\ Forall (fun b => 48 <= b <= 57)%N ds /\ dec_value ds = z.
(** Three numbers separated by white space. *)
Definition numbers (w h m : Z) (s : list N) : Prop :=
  exists ws1 dw ws2 dh ws3 dm, s = ws1 ++ dw ++ ws2 ++ dh ++ ws3 ++ dm /\ spaces ws1 /\ spaces ws2 /\ ws2 <> [] /\ spaces ws3 /\ ws3 <> [] /\
    numeral dw w /\ numeral dh h /\ numeral dm m.
Definition magic_of (t : itype) : list N := match t with GRAY => [80; 53]%N | RGBA => [80; 54]%N end.
(** A comment line. *)
Definition comment (c : list N) : Prop := exists text, c = 35%N :: text ++ [10%N] /\ ~ In 10%N text.
(** What reading the pixel data [s] has to give. *)
Definition reads (r : option uimg) (pt t : itype) (s : list N) (w h : Z) : Prop :=
  (Z.of_nat (length s) < bpp pt * (w * h) /\ r = None) \/
  (bpp pt * (w * h) <= Z.of_nat (length s) /\ exists u, r = Some u /\ sized u t w h /\ forall x y, 0 <= x < w -> 0 <= y < h -> pixel_ok pt t s w u x y).

(** * Formats *)

Definition signature (f : iformat) (s : list N) : Prop :=
  match f with
  | FMT_PNM_BINARY => exists d r, s = 80%N :: d :: r /\ In d [52; 53; 54]%N
  | FMT_PNM_ASCII => exists d r, s = 80%N :: d :: r /\ In d [49; 50; 51]%N
  | FMT_JPEG => exists r, s = 255%N :: 216%N :: r
  | FMT_PNG => exists r, s = 137%N :: 80%N :: 78%N :: 71%N :: r
  | FMT_UNKNOWN => False
  end.
(** The endings, without the dot. *)
Definition endings (f : iformat) : list (list N) :=
  match f with
  | FMT_PNM_BINARY => [[112; 103; 109]; [80; 71; 77]; [112; 112; 109]; [80; 80; 77]]%N (* pgm PGM ppm PPM *)
  | FMT_JPEG => [[106; 112; 103]; [106; 112; 101; 103]; [74; 80; 71]; [74; 80; 69; 71]]%N (* jpg jpeg JPG JPEG *)
  | FMT_PNG => [[112; 110; 103]; [80; 78; 71]]%N (* png PNG *)
  | _ => []
  end.
