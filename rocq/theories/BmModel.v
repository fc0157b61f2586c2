(** Descriptors of many keypoints: VGBriefExtractor, src/vg_brief_extractor.cc:63-77 and
    include/virg/nexus/vg_brief_extractor.hpp:78-106. *)
From Verif Require Import Base Gray FastModel BriefModel DmapModel.
Local Open Scope Z_scope.

(** struct NXKeypoint, include/virg/nexus/nx_keypoint.h:36-51; the members used. *)
Record key := mkKey { k_x : Z; k_y : Z; k_level : Z; k_id : Z }.
(** compute_pyr for keypoints, .cc:63-77.  Simplification: the array of keypoints is a
    list; an assertion that fails is fatal, as with NX_ASSERT enabled. *)
Definition compute_all (ratio : N -> N -> fscale) (grow : Z -> Z -> Z) (b : brief) (pyr : list plevel) (keys : list key) (m : dmap) : res dmap :=
  if negb (d_oct m =? b_octets b) then Fatal
  else for_each (fun k m =>
    let* c := check_point ratio b pyr (k_x k) (k_y k) (k_level k) in
    if c then
      let* desc := compute_pyr ratio b pyr (k_x k) (k_y k) (k_level k) in
      let* (m, _) := add grow m (k_id k) (Caller desc) in
      Ok m
    else Ok m) keys m.
