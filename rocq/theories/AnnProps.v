(** Images shown side by side (C151). *)
From Verif Require Import Base Gray Img ImgSpec PnmModel PnmSpec AnnModel AnnSpec AnnProofs.
Local Open Scope Z_scope.

(** ** C151 *)
(** Without assertions the canvas shows the two images side by side. *)
Theorem C151_canvas_partial : forall j1 j2 j3 j4 a b, u_ok a -> u_ok b -> 0 < u_w a -> 0 < u_h a -> 0 < u_w b -> 0 < u_h b ->
  4 * (u_w a + u_w b) * Z.max (u_h a) (u_h b) <= INT_MAX ->
  exists v, match_canvas false j1 j2 j3 j4 a b = Ok v /\ side_by_side v a b.
Proof. exact canvas_ok. Qed.
Print Assumptions C151_canvas_partial.
(** With assertions there is never a canvas, whatever the two images. *)
Theorem C151_canvas_refuted : forall j1 j2 j3 j4 a b v, match_canvas true j1 j2 j3 j4 a b <> Ok v.
Proof.
  intros j1 j2 j3 j4 a b v. unfold match_canvas. destruct (chk_int (u_w a + u_w b)) as [w| | |]; cbn [bind]; try discriminate.
  destruct (to_rgba true j1 a); cbn [bind]; try discriminate. destruct (to_rgba true j2 b); cbn [bind]; try discriminate.
  destruct (u_new j3 w (Z.max (u_h a) (u_h b)) RGBA); cbn [bind]; try discriminate.
  match goal with |- (let* g := ?m in _) <> _ => destruct m end; cbn; discriminate.
Qed.
Print Assumptions C151_canvas_refuted.
(** An annotator made for a gray image shows it, with or without assertions; one for a
    colour image shows it without assertions. *)
Theorem C151_annotator_partial : forall asserts junk u, u_ok u -> 0 < u_w u -> 0 < u_h u -> 4 * u_w u * u_h u <= INT_MAX ->
  u_type u = GRAY \/ asserts = false ->
  exists v, annotator_canvas asserts junk u = Ok v /\ sized v RGBA (u_w u) (u_h u) /\
    forall x y c, in_uimg u x y -> 0 <= c < 4 -> sample v x y c = shown u x y c.
Proof.
  intros asserts junk u G W H M T. destruct (to_rgba_shown junk u G W H M) as (v & E & P). exists v. split; [|exact P].
  destruct T as [T| ->]; [|exact E]. unfold annotator_canvas, to_rgba in *. rewrite T in *. exact E.
Qed.
Print Assumptions C151_annotator_partial.
(** With assertions one for a colour image always ends the program. *)
Theorem C151_annotator_refuted : forall junk u, u_type u = RGBA -> annotator_canvas true junk u = Fatal.
Proof. intros junk u T. unfold annotator_canvas, to_rgba. rewrite T. reflexivity. Qed.
Print Assumptions C151_annotator_refuted.
(** A gray pixel beside a column of two coloured ones. *)
Definition ex151a : uimg := mkU GRAY 1 (mkImg 1 1 1 [7]%N).
Definition ex151b : uimg := mkU RGBA 1 (mkImg 4 2 4 [1; 2; 3; 4; 5; 6; 7; 8]%N).
Example C151_example : u_ok ex151a /\ u_ok ex151b /\
  match_canvas false (fun _ => 9%N) (fun _ => 9%N) (fun _ => 9%N) (fun _ => 9%N) ex151a ex151b =
  Ok (mkU RGBA 2 (mkImg 8 2 8 [7; 7; 7; 255; 1; 2; 3; 4; 0; 0; 0; 0; 5; 6; 7; 8]%N)).
Proof. repeat split; try (cbn; cbv delta [INT_MAX]; lia); vm_compute; try discriminate; reflexivity. Qed.
