(** What the Cairo library does with its calls, as far as needed: current point, path
    and strokes. *)
From Coq Require Import Reals.
From Verif Require Import Base GcModel.
Local Open Scope R_scope.

Notation point := (R * R)%type.
Inductive seg := Line (p q : point) | Bezier (p c1 c2 q : point) | ArcSeg (centre : point) (r a0 a1 : R).
(** A stroke: the colour given to Cairo, the width, the path. *)
Definition stroke : Type := (color * R * list seg)%type.
Record canvas := mkCv { source : color; width : R; cur : option point; path : list seg; drawn : list stroke }.

(** One call.  [None]: the context is in an error state (a relative call without a
    current point). *)
Definition cairo (c : cop) (v : canvas) : option canvas :=
  match c with
  | SetSource r g b a => Some (mkCv (r, g, b, a) (width v) (cur v) (path v) (drawn v))
  | SetWidth w => Some (mkCv (source v) w (cur v) (path v) (drawn v))
  | NewPath => Some (mkCv (source v) (width v) None [] (drawn v))
  | MoveTo x y => Some (mkCv (source v) (width v) (Some (x, y)) (path v) (drawn v))
  | LineTo x y =>
    match cur v with
    | None => Some (mkCv (source v) (width v) (Some (x, y)) (path v) (drawn v))
    | Some p => Some (mkCv (source v) (width v) (Some (x, y)) (path v ++ [Line p (x, y)]) (drawn v))
    end
  | RelMoveTo dx dy =>
    match cur v with
    | None => None
    | Some (x, y) => Some (mkCv (source v) (width v) (Some (x + dx, y + dy)) (path v) (drawn v))
    end
  | RelLineTo dx dy =>
    match cur v with
    | None => None
    | Some (x, y) => Some (mkCv (source v) (width v) (Some (x + dx, y + dy)) (path v ++ [Line (x, y) (x + dx, y + dy)]) (drawn v))
    end
  | CurveTo x1 y1 x2 y2 x3 y3 =>
    let p := match cur v with None => (x1, y1) | Some p => p end in
    Some (mkCv (source v) (width v) (Some (x3, y3)) (path v ++ [Bezier p (x1, y1) (x2, y2) (x3, y3)]) (drawn v))
  | Rectangle x y w h =>
    Some (mkCv (source v) (width v) (Some (x, y))
      (path v ++ [Line (x, y) (x + w, y); Line (x + w, y) (x + w, y + h); Line (x + w, y + h) (x, y + h); Line (x, y + h) (x, y)]) (drawn v))
  | Arc x y r a0 a1 =>
    let start := (x + r * cos a0, y + r * sin a0) in
    let lead := match cur v with None => [] | Some p => [Line p start] end in
    Some (mkCv (source v) (width v) (Some (x + r * cos a1, y + r * sin a1)) (path v ++ lead ++ [ArcSeg (x, y) r a0 a1]) (drawn v))
  | Stroke =>
    Some (mkCv (source v) (width v) None []
      (drawn v ++ match path v with [] => [] | _ => [(source v, width v, path v)] end))
  end.
Fixpoint cairos (cs : list cop) (v : canvas) : option canvas :=
  match cs with [] => Some v | c :: cs' => match cairo c v with Some v' => cairos cs' v' | None => None end end.

(** On an image Cairo stores a pixel as the bytes blue, green, red, alpha; the images
    of the library are read as red, green, blue, alpha. *)
Definition seen (c : color) : color := let '(r, g, b, a) := c in (b, g, r, a).
(** Calls that draw some strokes, each with the colour seen in the image, whatever was
    on the canvas, and leave no unfinished path. *)
Definition draws (cs : list cop) (ss : list stroke) : Prop :=
  forall v, exists v', cairos cs v = Some v' /\
    map (fun s => (seen (fst (fst s)), snd (fst s), snd s)) (drawn v') =
    map (fun s => (seen (fst (fst s)), snd (fst s), snd s)) (drawn v) ++ ss /\ (cs <> [] -> path v' = []).

(** The marks of a given size, around (x, y). *)
Definition mark_shape (ty : mark) (x y size : R) : list seg :=
  let l := x - size / 2 in let r := x + size / 2 in let t := y - size / 2 in let b := y + size / 2 in
  match ty with
  | MPoint => [ArcSeg (x, y) (size / 2) 0 (2 * PI)]
  | MSquare => [Line (l, t) (r, t); Line (r, t) (r, b); Line (r, b) (l, b); Line (l, b) (l, t)]
  | MDiamond => [Line (x, t) (r, y); Line (r, y) (x, b); Line (x, b) (l, y); Line (l, y) (x, t)]
  | MPlus => [Line (x, t) (x, b); Line (l, y) (r, y)]
  | MCross => [Line (l, t) (r, b); Line (r, t) (l, b)]
  end.

(** The colours of the levels 0, 1, ..., 6: red, blue, green, yellow, purple, cyan and
    white, all opaque; others have a random one. *)
Definition palette : list color :=
  [(1, 0, 0, 1); (0, 0, 1, 1); (0, 1, 0, 1); (1, 1, 0, 1); (1, 0, 1, 1); (0, 1, 1, 1); (1, 1, 1, 1)].
Definition level_colour (rnd : color) (level : Z) : color :=
  if (level <? 0)%Z then rnd else nth (Z.to_nat level) palette rnd.
(** A curve from p to q with control points c1 and c2 is what is added to the path. *)
Definition adds_curve (cs : list cop) (v : canvas) (p c1 c2 q : point) : Prop :=
  exists v', cairos cs v = Some v' /\ path v' = path v ++ [Bezier p c1 c2 q] /\ cur v' = Some q.
