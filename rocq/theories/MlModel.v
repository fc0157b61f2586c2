(** Model of src/vg_point_correspondence_2d.cc and its header: lists of point
    matches with the statistics of their normalization, over the reals. *)
From Verif Require Import Base ProjModel.
Local Open Scope R_scope.

(** The objects that exist, in order of construction.  An object is its
    m_matches and the shared pointer m_stats: an index into the statistics
    allocated so far.  (The pointers are never NULL and a statistics block is
    freed with its last object, so none is used after it is freed; releasing
    them is not modelled.) *)
Record world := W { w_stats : list stats; w_objs : list (nat * list pmatch) }.

(** nx_point_match_2d_stats_reset, src/nx_point_match_2d_stats.c:45-53. *)
Definition stats_reset : stats := St (V2 0 0) (V2 0 0) 1 1.

(** The constructor, vg_point_correspondence_2d.hpp:41-42. *)
Definition ml_new (w : world) : world := W (w_stats w ++ [stats_reset]) (w_objs w ++ [(length (w_stats w), [])]).
(** The implicit copy constructor: a copy of the vector, the same statistics. *)
Definition ml_copy (w : world) (i : nat) : res world :=
  let* o := aget (w_objs w) i in Ok (W (w_stats w) (w_objs w ++ [o])).
(** clone, vg_point_correspondence_2d.cc:46-54. *)
Definition ml_clone (w : world) (i : nat) : res world :=
  let* o := aget (w_objs w) i in
  let* s := aget (w_stats w) (fst o) in
  Ok (W (w_stats w ++ [s]) (w_objs w ++ [(length (w_stats w), snd o)])).
(** clear, vg_point_correspondence_2d.hpp:45, with reset_stats, .cc:41-44. *)
Definition ml_clear (w : world) (i : nat) : res world :=
  let* o := aget (w_objs w) i in
  let* st := aset (w_stats w) (fst o) stats_reset in
  Ok (W st (lset (w_objs w) i (fst o, []))).
(** add_match, vg_point_correspondence_2d.hpp:82-99, and add_keypoint_match,
    101-113, which differ in how the new match is made; returns the new size. *)
Definition ml_add (w : world) (i : nat) (c : pmatch) : res (world * nat) :=
  let* o := aget (w_objs w) i in
  let l := snd o ++ [c] in
  Ok (W (w_stats w) (lset (w_objs w) i (fst o, l)), length l).
(** set_inlier, vg_point_correspondence_2d.hpp:61. *)
Definition ml_set_inlier (w : world) (i : nat) (idx : Z) (b : bool) : res world :=
  let* o := aget (w_objs w) i in
  let* c := zget (snd o) idx in
  let* l := zset (snd o) idx (set_inlier b c) in
  Ok (W (w_stats w) (lset (w_objs w) i (fst o, l))).
(** normalize, vg_point_correspondence_2d.cc:56-61. *)
Definition ml_normalize (w : world) (i : nat) : res world :=
  let* o := aget (w_objs w) i in
  let '(s, l) := normalize_matches (snd o) in
  let* st := aset (w_stats w) (fst o) s in
  Ok (W st (lset (w_objs w) i (fst o, l))).
(** denormalize, vg_point_correspondence_2d.cc:63-69. *)
Definition ml_denormalize (w : world) (i : nat) : res world :=
  let* o := aget (w_objs w) i in
  let* s := aget (w_stats w) (fst o) in
  let l := denormalize_matches s (snd o) in
  let* st := aset (w_stats w) (fst o) stats_reset in
  Ok (W st (lset (w_objs w) i (fst o, l))).
(** sort_by_match_cost, vg_point_correspondence_2d.cc:71-77; std::sort is the
    parameter. *)
Definition ml_sort (sort : list pmatch -> list pmatch) (w : world) (i : nat) : res world :=
  let* o := aget (w_objs w) i in
  Ok (W (w_stats w) (lset (w_objs w) i (fst o, sort (snd o)))).
(** stats(), vg_point_correspondence_2d.hpp:65. *)
Definition ml_stats (w : world) (i : nat) : res stats :=
  let* o := aget (w_objs w) i in aget (w_stats w) (fst o).
