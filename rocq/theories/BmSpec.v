(** What users expect of the descriptors of many keypoints. *)
From Verif Require Import Base Gray FastModel BriefModel BriefSpec DmapSpec BmModel.
Local Open Scope Z_scope.

Section Keys.
Variable ratio : N -> N -> fscale.
Variables (b : brief) (offs : list Z) (pyr : list plevel).
(** All pixels compared for the keypoint exist, on the level sampled, which exists. *)
Definition visible (k : key) : Prop :=
  exists klv slv, zget pyr (k_level k) = Ok klv /\ zget pyr (k_level k + b_plo b) = Ok slv /\
    forall i x0 y0 x1 y1, (i < Z.to_nat (b_octets b * 8))%nat -> test_points (ratio (pl_scale klv) (pl_scale slv)) offs (k_x k) (k_y k) i x0 y0 x1 y1 ->
      in_image (pl_img slv) x0 y0 /\ in_image (pl_img slv) x1 y1.
(** The descriptor has one bit for each comparison. *)
Definition describes (k : key) (d : list N) : Prop :=
  Z.of_nat (length d) = b_octets b /\
  exists klv slv, zget pyr (k_level k) = Ok klv /\ zget pyr (k_level k + b_plo b) = Ok slv /\
    forall i, (i < Z.to_nat (b_octets b * 8))%nat -> exists x0 y0 x1 y1, test_points (ratio (pl_scale klv) (pl_scale slv)) offs (k_x k) (k_y k) i x0 y0 x1 y1 /\
      desc_bit d i = (px (pl_img slv) x1 y1 <? px (pl_img slv) x0 y0).
(** The entries for a list of keypoints: those visible, in order. *)
Inductive entries : list key -> table -> Prop :=
| E_nil : entries [] []
| E_take k ks d t : visible k -> describes k d -> entries ks t -> entries (k :: ks) ((k_id k, d) :: t)
| E_skip k ks t : ~ visible k -> entries ks t -> entries (k :: ks) t.
(** A keypoint on a level of the pyramid, at most 2^22 pixels away; levels sampled are
    smaller and their scale is a positive float. *)
Definition fits (k : key) : Prop :=
  Z.abs (k_x k) <= 2 ^ 22 /\ Z.abs (k_y k) <= 2 ^ 22 /\ 0 <= k_level k < Z.of_nat (length pyr) /\ 0 <= b_plo b /\ k_level k + b_plo b <= INT_MAX /\
  forall klv slv, zget pyr (k_level k) = Ok klv -> zget pyr (k_level k + b_plo b) = Ok slv ->
    let s := ratio (pl_scale klv) (pl_scale slv) in gray_ok (pl_img slv) /\ 0 < fs_m s /\ fs_e s <= 0 /\ fs_m s <= 2 ^ (- fs_e s).
End Keys.
