(** The file format of keypoints, without reference to the model's functions. *)
From Verif Require Import Base Bytes KeyModel.

(** A keypoint in a file: nine fields of four bytes and the id of eight, least
    significant byte first. *)
Definition key_bytes (k : key) : list N :=
  le_encode 4 (k_x k) ++ le_encode 4 (k_y k) ++ le_encode 4 (k_xs k) ++ le_encode 4 (k_ys k) ++ le_encode 4 (k_level k) ++
  le_encode 4 (k_scale k) ++ le_encode 4 (k_sigma k) ++ le_encode 4 (k_score k) ++ le_encode 4 (k_ori k) ++ le_encode 8 (k_id k).
Definition keys_bytes (ks : list key) : list N := concat (map key_bytes ks).
(** The fields are 32-bit and 64-bit patterns. *)
Definition key_ok (k : key) : Prop :=
  (k_x k < 2 ^ 32 /\ k_y k < 2 ^ 32 /\ k_xs k < 2 ^ 32 /\ k_ys k < 2 ^ 32 /\ k_level k < 2 ^ 32 /\ k_scale k < 2 ^ 32 /\
   k_sigma k < 2 ^ 32 /\ k_score k < 2 ^ 32 /\ k_ori k < 2 ^ 32 /\ k_id k < 2 ^ 64)%N.
(** A SIFT file: number of keypoints, dimension 128, keypoints, descriptors. *)
Definition sift_file (ks : list key) (desc : list N) : list N :=
  int_bytes (Z.of_nat (length ks)) ++ int_bytes 128 ++ keys_bytes ks ++ desc.
