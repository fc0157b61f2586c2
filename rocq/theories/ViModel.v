(** Images shared by C++ objects: VGImage, src/vg_image.cc:35-45, 76-88, 102-112, 126-130,
    and the levels of VGImagePyr, include/virg/nexus/vg_image_pyr.hpp:62.

    Simplifications.  std::shared_ptr is modelled by control blocks with a number of
    owners and whether the deleter is nx_image_free; weak pointers and threads are left
    out.  An image is only alive or freed.  C++ objects are numbered variables; one that
    is not constructed, or was destroyed, holds no image. *)
From Verif Require Import Base.

(** A control block: owners, whether it frees, the image. *)
Record block := mkBlock { refs : nat; frees : bool; img : nat }.
Record world := mkW { vars : list (option nat); blocks : list block; alive : list bool }.
(** An owner of block [b] goes away; the last one calls the deleter. *)
Definition release (b : nat) (w : world) : res world :=
  let* k := aget (blocks w) b in
  match refs k with
  | O => UB
  | S r =>
    let bl := lset (blocks w) b (mkBlock r (frees k) (img k)) in
    if (r =? 0)%nat && frees k then
      let* a := aget (alive w) (img k) in
      if a then Ok (mkW (vars w) bl (lset (alive w) (img k) false)) else UB
    else Ok (mkW (vars w) bl (alive w))
  end.
(** Assignment of a shared pointer that already counts as an owner. *)
Definition assign (i : nat) (h : option nat) (w : world) : res world :=
  let* old := aget (vars w) i in
  let w := mkW (lset (vars w) i h) (blocks w) (alive w) in
  match old with None => Ok w | Some b => release b w end.
Definition acquire (h : option nat) (w : world) : res world :=
  match h with
  | None => Ok w
  | Some b => let* k := aget (blocks w) b in Ok (mkW (vars w) (lset (blocks w) b (mkBlock (S (refs k)) (frees k) (img k))) (alive w))
  end.
(** What programs do with images: construct one (35-37, or wrap of a new image with
    own_memory, 104-106), copy or assign (compiler generated), view without owning
    (107-109, operator[] of pyramids), swap_with (126-130), destroy (44), and use by any
    other member. *)
Inductive op := Make (i : nat) | Copy (i j : nat) | View (i j : nat) | Swap (i j : nat) | Destroy (i : nat) | Use (i : nat).
Definition step (o : op) (w : world) : res world :=
  match o with
  | Make i => assign i (Some (length (blocks w))) (mkW (vars w) (blocks w ++ [mkBlock 1 true (length (alive w))]) (alive w ++ [true]))
  | Copy i j => let* h := aget (vars w) j in let* w := acquire h w in assign i h w
  | View i j =>
    let* h := aget (vars w) j in
    match h with
    | None => assign i None w
    | Some b => let* k := aget (blocks w) b in
                assign i (Some (length (blocks w))) (mkW (vars w) (blocks w ++ [mkBlock 1 false (img k)]) (alive w))
    end
  | Swap i j => let* a := aget (vars w) i in let* b := aget (vars w) j in Ok (mkW (lset (lset (vars w) i b) j a) (blocks w) (alive w))
  | Destroy i => assign i None w
  | Use i =>
    let* h := aget (vars w) i in
    match h with
    | None => UB
    | Some b => let* k := aget (blocks w) b in let* a := aget (alive w) (img k) in if a then Ok w else UB
    end
  end.
Definition run (l : list op) (w : world) : res world := for_each step l w.
Definition start (n : nat) : world := mkW (repeat None n) [] [].
