(** Model of src/nx_brief_extractor.c. *)
From Verif Require Import Base BaseLemmas Gray FastModel UsacModel.
Local Open Scope Z_scope.

(** * Float arithmetic used here *)

(** A positive float, value [fs_m * 2 ^ fs_e]. *)
Record fscale := { fs_m : Z; fs_e : Z }.
(** Rounding of an integer to float. *)
Definition rne24s (x : Z) : Z := Z.sgn x * rne24 (Z.abs x).
(** (int)(v * s) for an int expression [v]: v is converted to float, the product
    is rounded to float and truncated; out of range conversions are undefined.
    Products that would be subnormal truncate to 0 as here; products that would
    overflow are out of range as here. *)
Definition sample (v : Z) (s : fscale) : res Z :=
  let* v := chk_int v in
  let p := rne24s (rne24s v * fs_m s) in
  chk_int (if 0 <=? fs_e s then p * 2 ^ fs_e s else Z.quot p (2 ^ (- fs_e s))).

(** struct NXBriefExtractor, include/virg/nexus/nx_brief_extractor.h:41-49.
    offset_limits is (x_min, x_max, y_min, y_max). *)
Record brief := { b_radius : Z; b_octets : Z; b_offsets : option (list Z); b_limits : Z * Z * Z * Z; b_plo : Z }.
(** nx_brief_extractor_alloc, 41-58. *)
Definition brief_alloc : brief := {| b_radius := 0; b_octets := 0; b_offsets := None; b_limits := (0, 0, 0, 0); b_plo := 2 |}.

(** nx_brief_extractor_update_limits, 104-131. *)
Definition quad (offs : list Z) (i : nat) : res (Z * Z * Z * Z) :=
  let* x0 := aget offs (4 * i) in
  let* y0 := aget offs (4 * i + 1) in
  let* x1 := aget offs (4 * i + 2) in
  let* y1 := aget offs (4 * i + 3) in
  Ok (x0, y0, x1, y1).
Definition update_limits (b : brief) : res brief :=
  let* length := chk_int (b_octets b * 8) in
  let* l := for_each (fun i '(xmin, xmax, ymin, ymax) =>
      match b_offsets b with
      | None => UB
      | Some offs =>
        let* (x0, y0, x1, y1) := quad offs i in
        Ok (Z.min (Z.min xmin x0) x1, Z.max (Z.max xmax x0) x1, Z.min (Z.min ymin y0) y1, Z.max (Z.max ymax y0) y1)
      end) (seq 0 (Z.to_nat length)) (INT_MAX, - INT_MAX, INT_MAX, - INT_MAX) in
  Ok {| b_radius := b_radius b; b_octets := b_octets b; b_offsets := b_offsets b; b_limits := l; b_plo := b_plo b |}.

(** One coordinate, 152-153: [r] is the 32-bit generator output, the float
    sample is rne24 r / 2^32 (see UsacModel.draw). *)
Definition coord (radius r : Z) : Z := Z.quot (rne24s (rne24 (2 * radius) * rne24s (rne24 r - 2 ^ 31))) (2 ^ 32).
(** 155-163.  The generator is its future outputs. *)
Fixpoint second_point (radius x0 y0 : Z) (rs : list Z) : res (Z * Z * list Z) :=
  match rs with
  | r1 :: r2 :: rs =>
      let x1 := coord radius r1 in
      let y1 := coord radius r2 in
      let* dx := chk_int (x1 - x0) in
      let* dy := chk_int (y1 - y0) in
      let* d2 := chk_int (dx * dx + dy * dy) in
      if d2 <? 9 then second_point radius x0 y0 rs else Ok (x1, y1, rs)
  | _ => NoFuel
  end.
(** nx_brief_extractor_randomize_with_seed, 141-174. *)
Definition rand_step (radius : Z) (i : nat) (st : list Z * list Z) : res (list Z * list Z) :=
  let '(offs, rs) := st in
  match rs with
  | r1 :: r2 :: rs =>
      let x0 := coord radius r1 in
      let y0 := coord radius r2 in
      let* (x1, y1, rs) := second_point radius x0 y0 rs in
      let* offs := aset offs (4 * i) x0 in
      let* offs := aset offs (4 * i + 1) y0 in
      let* offs := aset offs (4 * i + 2) x1 in
      let* offs := aset offs (4 * i + 3) y1 in
      Ok (offs, rs)
  | _ => NoFuel
  end.
Definition randomize (b : brief) (rs : list Z) : res brief :=
  match b_offsets b with
  | None => Fatal
  | Some offs =>
    let* length := chk_int (b_octets b * 8) in
    let* _ := chk_int (2 * b_radius b) in
    let* (offs, rs) := for_each (rand_step (b_radius b)) (seq 0 (Z.to_nat length)) (offs, rs) in
    update_limits {| b_radius := b_radius b; b_octets := b_octets b; b_offsets := Some offs; b_limits := b_limits b; b_plo := b_plo b |}
  end.
(** nx_brief_extractor_resize, 82-102.  [junk] is the content of fresh memory. *)
Definition brief_resize (junk : nat -> Z) (b : brief) (n_octets radius : Z) (rs : list Z) : res brief :=
  if (n_octets <=? 0) || (radius <=? 0) then Fatal
  else
    let offs := if b_octets b <? n_octets then None else b_offsets b in
    let* offs := (match offs with
                  | Some o => Ok o
                  | None => let* length := chk_int (n_octets * 8 * 4) in Ok (map junk (seq 0 (Z.to_nat length)))
                  end) in
    randomize {| b_radius := radius; b_octets := n_octets; b_offsets := Some offs; b_limits := b_limits b; b_plo := b_plo b |} rs.

(** * Descriptors *)

Section Pyr.
(** key_scale / sample_scale. *)
Variable ratio : N -> N -> fscale.
(** nx_brief_extractor_check_point_pyr, 176-198. *)
Definition check_point (b : brief) (pyr : list plevel) (x y level : Z) : res bool :=
  let* sl := chk_int (level + b_plo b) in
  if Z.of_nat (length pyr) <=? sl then Ok false
  else
    let* slv := zget pyr sl in
    let* klv := zget pyr level in
    let s := ratio (pl_scale klv) (pl_scale slv) in
    let '(lxmin, lxmax, lymin, lymax) := b_limits b in
    let* x_min := sample (x + lxmin) s in
    let* x_max := sample (x + lxmax) s in
    let* y_min := sample (y + lymin) s in
    let* y_max := sample (y + lymax) s in
    Ok ((0 <=? x_min) && (x_max <? g_w (pl_img slv)) && (0 <=? y_min) && (y_max <? g_h (pl_img slv))).

(** img->data.uc[img->row_stride * y + x]. *)
Definition pixel (g : gray) (x y : Z) : res N :=
  let* r := chk_int (g_stride g * y) in
  let* i := chk_int (r + x) in
  zget (g_data g) i.
(** 218-231: one octet. *)
Definition octet (points : Z * Z * Z * Z -> res (Z * Z * Z * Z)) (g : gray) (offs : list Z) (i : nat) : res N :=
  for_each (fun j d =>
      let* q := quad offs (8 * i + j) in
      let* (x0, y0, x1, y1) := points q in
      let* I0 := pixel g x0 y0 in
      let* I1 := pixel g x1 y1 in
      Ok ((N.shiftl d 1) mod 256 + (if N.ltb I1 I0 then 1 else 0))%N) (seq 0 8) 0%N.
(** nx_brief_extractor_compute_pyr, 200-233. *)
Definition compute_pyr (b : brief) (pyr : list plevel) (x y level : Z) : res (list N) :=
  let* sl := chk_int (level + b_plo b) in
  let* slv := zget pyr sl in
  let* klv := zget pyr level in
  let s := ratio (pl_scale klv) (pl_scale slv) in
  match b_offsets b with
  | None => UB
  | Some offs =>
    for_each (fun i desc =>
        let* d := octet (fun '(ox0, oy0, ox1, oy1) =>
          let* x0 := sample (x + ox0) s in
          let* y0 := sample (y + oy0) s in
          let* x1 := sample (x + ox1) s in
          let* y1 := sample (y + oy1) s in
          Ok (x0, y0, x1, y1)) (pl_img slv) offs i in
        Ok (desc ++ [d])) (seq 0 (Z.to_nat (b_octets b))) []
  end.
(** nx_brief_extractor_compute_pyr_at_theta, 235-277.  [turn ox oy] stands for the
    rotated and scaled sample position of lines 259-262, converted to int.  None is
    the return of NX_FALSE. *)
Definition octet_theta (turn : Z -> Z -> Z * Z) (g : gray) (offs : list Z) (i : nat) : res (option N) :=
  for_each (fun j d =>
      match d with
      | None => Ok None
      | Some d =>
        let* (ox0, oy0, ox1, oy1) := quad offs (8 * i + j) in
        let '(x0, y0) := turn ox0 oy0 in
        let '(x1, y1) := turn ox1 oy1 in
        if (x0 <? 0) || (g_w g <=? x0) || (x1 <? 0) || (g_w g <=? x1) || (y0 <? 0) || (g_h g <=? y0) || (y1 <? 0) || (g_h g <=? y1)
        then Ok None
        else
          let* I0 := pixel g x0 y0 in
          let* I1 := pixel g x1 y1 in
          Ok (Some ((N.shiftl d 1) mod 256 + (if N.ltb I1 I0 then 1 else 0))%N)
      end) (seq 0 8) (Some 0%N).
Definition compute_at_theta (turn : Z -> Z -> Z * Z) (b : brief) (pyr : list plevel) (level : Z) : res (option (list N)) :=
  let* sl := chk_int (level + b_plo b) in
  let* slv := zget pyr sl in
  let* klv := zget pyr level in
  match b_offsets b with
  | None => UB
  | Some offs =>
    for_each (fun i desc =>
        match desc with
        | None => Ok None
        | Some desc =>
          let* d := octet_theta turn (pl_img slv) offs i in
          Ok (match d with Some d => Some (desc ++ [d]) | None => None end)
        end) (seq 0 (Z.to_nat (b_octets b))) (Some [])
  end.
End Pyr.

(** * Distance *)

(** OCTET_BIT_COUNT_TABLE, 280-313. *)
Definition BIT_COUNT : list Z :=
  [0; 1; 1; 2; 1; 2; 2; 3;
   1; 2; 2; 3; 2; 3; 3; 4;
   1; 2; 2; 3; 2; 3; 3; 4;
   2; 3; 3; 4; 3; 4; 4; 5;
   1; 2; 2; 3; 2; 3; 3; 4;
   2; 3; 3; 4; 3; 4; 4; 5;
   2; 3; 3; 4; 3; 4; 4; 5;
   3; 4; 4; 5; 4; 5; 5; 6;
   1; 2; 2; 3; 2; 3; 3; 4;
   2; 3; 3; 4; 3; 4; 4; 5;
   2; 3; 3; 4; 3; 4; 4; 5;
   3; 4; 4; 5; 4; 5; 5; 6;
   2; 3; 3; 4; 3; 4; 4; 5;
   3; 4; 4; 5; 4; 5; 5; 6;
   3; 4; 4; 5; 4; 5; 5; 6;
   4; 5; 5; 6; 5; 6; 6; 7;
   1; 2; 2; 3; 2; 3; 3; 4;
   2; 3; 3; 4; 3; 4; 4; 5;
   2; 3; 3; 4; 3; 4; 4; 5;
   3; 4; 4; 5; 4; 5; 5; 6;
   2; 3; 3; 4; 3; 4; 4; 5;
   3; 4; 4; 5; 4; 5; 5; 6;
   3; 4; 4; 5; 4; 5; 5; 6;
   4; 5; 5; 6; 5; 6; 6; 7;
   2; 3; 3; 4; 3; 4; 4; 5;
   3; 4; 4; 5; 4; 5; 5; 6;
   3; 4; 4; 5; 4; 5; 5; 6;
   4; 5; 5; 6; 5; 6; 6; 7;
   3; 4; 4; 5; 4; 5; 5; 6;
   4; 5; 5; 6; 5; 6; 6; 7;
   4; 5; 5; 6; 5; 6; 6; 7;
   5; 6; 6; 7; 6; 7; 7; 8].
(** OCTET_BIT_COUNT_TABLE[desc0[k] ^ desc1[k]] with the pointers at [p]. *)
Definition octet_dist (d0 d1 : list N) (p k : nat) : res Z :=
  let* a := aget d0 (p + k) in
  let* b := aget d1 (p + k) in
  aget BIT_COUNT (N.to_nat (N.lxor a b)).
(** 320-331.  [p] is how far the pointers have moved. *)
Fixpoint dist_by8 (fuel : nat) (n : Z) (d0 d1 : list N) (i : Z) (p : nat) (dist : Z) : res (Z * nat * Z) :=
  match fuel with
  | O => NoFuel
  | S f =>
    if i <? n - 7 then
      let* s := for_each (fun k s => let* c := octet_dist d0 d1 p k in Ok (s + c)) (seq 0 8) 0 in
      let* dist := chk_int (dist + s) in
      dist_by8 f n d0 d1 (i + 8) (p + 8) dist
    else Ok (i, p, dist)
  end.
(** 333-337. *)
Fixpoint dist_by1 (fuel : nat) (n : Z) (d0 d1 : list N) (i : Z) (p : nat) (dist : Z) : res Z :=
  match fuel with
  | O => NoFuel
  | S f =>
    if i <? n then
      let* c := octet_dist d0 d1 p 0 in
      let* dist := chk_int (dist + c) in
      dist_by1 f n d0 d1 (i + 1) (p + 1) dist
    else Ok dist
  end.
(** nx_brief_extractor_descriptor_distance, 315-340. *)
Definition distance (fuel : nat) (n : Z) (d0 d1 : list N) : res Z :=
  let* (i, p, dist) := dist_by8 fuel n d0 d1 0 0 0 in
  dist_by1 fuel n d0 d1 i p dist.

(** * Files *)

(** nx_brief_extractor_write, 342-361.  The file is the sequence of ints written;
    both directions use the machine's own byte order. *)
Definition brief_write (b : brief) : res (list Z) :=
  let* n := chk_int (b_octets b * 4 * 8) in
  match b_offsets b with
  | None => UB
  | Some offs => if Z.of_nat (length offs) <? n then UB
                 else Ok ([b_radius b; b_octets b] ++ firstn (Z.to_nat n) offs ++ [b_plo b])
  end.
(** nx_brief_extractor_read, 363-387.  None is NX_FAIL. *)
Definition brief_read (junk : nat -> Z) (b : brief) (file : list Z) (rs : list Z) : res (option brief) :=
  match file with
  | radius :: n_octets :: file =>
      let* b := brief_resize junk b radius n_octets rs in
      let* n := chk_int (b_octets b * 4 * 8) in
      match b_offsets b with
      | None => UB
      | Some offs =>
        if Z.of_nat (length offs) <? n then UB
        else if Z.of_nat (length file) <? n then Ok None
        else
          let offs := firstn (Z.to_nat n) file ++ skipn (Z.to_nat n) offs in
          let* b := update_limits {| b_radius := b_radius b; b_octets := b_octets b; b_offsets := Some offs; b_limits := b_limits b; b_plo := b_plo b |} in
          match skipn (Z.to_nat n) file with
          | plo :: _ => Ok (Some {| b_radius := b_radius b; b_octets := b_octets b; b_offsets := b_offsets b; b_limits := b_limits b; b_plo := plo |})
          | [] => Ok None
          end
      end
  | _ => Ok None
  end.
