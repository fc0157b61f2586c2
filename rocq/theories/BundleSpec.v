(** Specification vocabulary for bundled numbers and keypoints. *)
From Coq Require Import String Ascii.
From Verif Require Import Base CsvModel DfModel JsonModel JsonSpec BundleModel.
Local Open Scope Z_scope.

(** Member names in plain sight. *)
Definition name (s : string) : list N := map N_of_ascii (list_ascii_of_string s).

Fixpoint all_of {A} (l : list (option A)) : option (list A) :=
  match l with
  | [] => Some []
  | x :: l' => match x, all_of l' with Some a, Some r => Some (a :: r) | _, _ => None end
  end.
(** The answer of a call that aborts when there is none. *)
Definition or_abort {A} (o : option A) : res A := match o with Some x => Ok x | None => Fatal end.

(** A number node read as a floating-point number; any other node has none. *)
Definition number_of {D} (atof : list N -> D) (j : json) : option D :=
  match j with JInt s | JFp s => Some (atof s) | _ => None end.

Section Keys.
Context {F D : Type}.
Variable print_e : D -> list N.
Variable atof : list N -> D.
Variable widen : F -> D.
Variable narrow : D -> F.

(** The JSON object of a keypoint. *)
Definition key_json (k : keypoint F) (id : Z) : json :=
  let int z := JInt (print_int z) in
  let fp f := JFp (print_e (widen f)) in
  JObj [ (name "x", int (kp_x k)); (name "y", int (kp_y k));
         (name "xs", fp (kp_xs k)); (name "ys", fp (kp_ys k));
         (name "level", int (kp_level k)); (name "scale", fp (kp_scale k)); (name "sigma", fp (kp_sigma k));
         (name "score", fp (kp_score k)); (name "ori", fp (kp_ori k)); (name "id", int id) ].

(** The keypoint a JSON value describes, if any: all ten members must be there,
    the integers as integers, the others with a fraction or an exponent. *)
Definition int_at (ms : list (list N * json)) (s : string) : option Z :=
  match first_member (name s) ms with Some (_, JInt t) => Some (atoi t) | _ => None end.
Definition fp_at (ms : list (list N * json)) (s : string) : option F :=
  match first_member (name s) ms with Some (_, JFp t) => Some (narrow (atof t)) | _ => None end.
Definition json_key (j : json) : option (keypoint F) :=
  match j with
  | JObj ms =>
    match int_at ms "x", int_at ms "y", fp_at ms "xs", fp_at ms "ys", int_at ms "level" with
    | Some x, Some y, Some xs, Some ys, Some level =>
      match fp_at ms "scale", fp_at ms "sigma", fp_at ms "score", fp_at ms "ori", int_at ms "id" with
      | Some scale, Some sigma, Some score, Some ori, Some id =>
        Some (mkKey x y xs ys level scale sigma score ori (id mod 2 ^ 64))
      | _, _, _, _, _ => None
      end
    | _, _, _, _, _ => None
    end
  | _ => None
  end.

(** A float after a trip through its printed form. *)
Definition via_text (f : F) : F := narrow (atof (print_e (widen f))).
Definition key_via_text (k : keypoint F) : keypoint F :=
  mkKey (kp_x k) (kp_y k) (via_text (kp_xs k)) (via_text (kp_ys k)) (kp_level k) (via_text (kp_scale k)) (via_text (kp_sigma k))
    (via_text (kp_score k)) (via_text (kp_ori k)) (kp_id k).
Definition key_ints_ok (k : keypoint F) : Prop := in_int (kp_x k) = true /\ in_int (kp_y k) = true /\ in_int (kp_level k) = true.
Definition key_floats (k : keypoint F) : list F := [kp_xs k; kp_ys k; kp_scale k; kp_sigma k; kp_score k; kp_ori k].
End Keys.
