(** Model of src/nx_harris_detector.c (scores and detection). *)
From Verif Require Import Base BaseLemmas Gray Img Flt.
Local Open Scope Z_scope.

(** struct NXKeypoint, include/virg/nexus/nx_keypoint.h, with exact floats. *)
Record hkey := { h_x : Z; h_y : Z; h_xs : flt; h_ys : flt; h_level : Z; h_scale : flt; h_sigma : flt; h_score : flt; h_ori : flt; h_id : Z }.

(** nx_harris_score_image, 75-99; [x2], [y2], [xy] are dimg[0], dimg[1], dimg[2]. *)
Definition score_image (junk : nat -> flt) (x2 y2 xy : image flt) (k : flt) : res (image flt) :=
  let w := i_w x2 in
  let h := i_h x2 in
  let* s := img_new junk w h in
  scan 0 w 0 h (fun x y s =>
    let* v := (let* a := iget x2 x y in
               let* b := iget y2 x y in
               let* c := iget xy x y in
               let det := fsub (fmul a b) (fmul c c) in
               let tr := fadd a b in
               Ok (fsub det (fmul (fmul k tr) tr))) in
    iput s x y v) s.

(** 121-131: the test at one pixel.  && evaluates from left to right. *)
Definition local_max (s : image flt) (threshold : flt) (x y : Z) : res bool :=
  let* v := iget s x y in
  let gt dx dy (k : res bool) := let* u := iget s (x + dx) (y + dy) in if f_gt v u then k else Ok false in
  if f_gt v threshold then
    gt (-1) 0 (gt 1 0 (gt (-1) (-1) (gt 0 (-1) (gt 1 (-1) (gt (-1) 1 (gt 0 1 (gt 1 1 (Ok true))))))))
  else Ok false.
(** nx_harris_detect_keypoints, 101-150; the second component tells that the
    function has returned. *)
Definition harris_detect (n_keys_max : Z) (s : image flt) (threshold : flt) : res (list hkey) :=
  if n_keys_max <? 1 then Ok []
  else
    let* (keys, _) := scan 2 (i_w s - 2) 2 (i_h s - 2) (fun x y '(keys, done) =>
        if done : bool then Ok (keys, done)
        else
          let* c := local_max s threshold x y in
          if negb c then Ok (keys, false)
          else
            let* v := iget s x y in
            let keys := keys ++ [{| h_x := x; h_y := y; h_xs := of_int x; h_ys := of_int y; h_level := 0; h_scale := F1; h_sigma := F1;
                                    h_score := v; h_ori := F0; h_id := Z.of_nat (length keys) |}] in
            Ok (keys, n_keys_max <=? Z.of_nat (length keys))) ([], false) in
    Ok keys.
