(** What images are, without pointers: a shape and a memory block of MemSpec.
    [None]: the operation is outside its contract. *)
From Verif Require Import Base MemModel MemSpec PnmModel ImemModel.
Local Open Scope Z_scope.

Record shape := mkSh { sh_w : Z; sh_h : Z; sh_type : itype; sh_dt : idtype; sh_stride : Z }.
Record simg := mkSI { s_mem : sstate; s_shs : list (option shape) }.
Definition shape_of (s : simg) (i : nat) : option shape := match nth_error (s_shs s) i with Some (Some g) => Some g | _ => None end.
Definition empty_shape : shape := mkSh 0 0 GRAY UCHAR 0.
(** Rows hold their pixels, everything fits an int. *)
Definition shape_ok (g : shape) : bool :=
  (0 <=? sh_w g) && (0 <=? sh_h g) && (n_ch (sh_type g) * sh_w g <=? sh_stride g) && (n_ch (sh_type g) * sh_w g <=? INT_MAX) && (sh_stride g * sh_h g <=? INT_MAX).
Definition size_of (g : shape) : nat := Z.to_nat (sh_stride g * sh_h g * n_bytes (sh_dt g)).
(** Byte [b] of channel [c] of pixel (x, y). *)
Definition in_shape (g : shape) (x y c b : Z) : bool :=
  (0 <=? x) && (x <? sh_w g) && (0 <=? y) && (y <? sh_h g) && (0 <=? c) && (c <? n_ch (sh_type g)) && (0 <=? b) && (b <? n_bytes (sh_dt g)).
Definition place (g : shape) (x y c b : Z) : nat := Z.to_nat ((y * sh_stride g + (n_ch (sh_type g) * x + c)) * n_bytes (sh_dt g) + b).

Definition s_with (s : simg) (o : mop) (f : list (option shape) -> list (option shape)) : option (simg * option (option N)) :=
  do (m, x) <- m_spec (s_mem s) o; Some (mkSI m (f (s_shs s)), x).
Definition s_resize_img (s : simg) (i : nat) (w h stride : Z) (t : itype) (d : idtype) : option (simg * option (option N)) :=
  let g := mkSh w h t d (Z.max stride (n_ch t * w)) in
  do _ <- shape_of s i;
  if shape_ok g then s_with s (MResize i (size_of g)) (fun l => lset l i (Some g)) else None.
Definition s_alloc_img (s : simg) : option (simg * option (option N)) := s_with s MAlloc (fun l => l ++ [Some empty_shape]).
Definition s_copy_img (s : simg) (i j : nat) : option (simg * option (option N)) :=
  do g <- shape_of s j; do _ <- shape_of s i; s_with s (MCopy i j) (fun l => lset l i (Some g)).

Definition i_spec (s : simg) (o : iop) : option (simg * option (option N)) :=
  let n := length (s_shs s) in
  match o with
  | IAlloc => s_alloc_img s
  | INew w h t d => do (s, _) <- s_alloc_img s; s_resize_img s n w h (-1) t d
  | IFree i => do _ <- shape_of s i; s_with s (MFree i) (fun l => lset l i None)
  | IResize i w h st t d => s_resize_img s i w h st t d
  | IResizeLike i j => do g <- shape_of s j; s_resize_img s i (sh_w g) (sh_h g) (-1) (sh_type g) (sh_dt g)
  | IRelease i => do _ <- shape_of s i; s_with s (MRelease i) (fun l => lset l i (Some empty_shape))
  | ICopy0 i => do (s, _) <- s_alloc_img s; s_copy_img s n i
  | ICopy i j => s_copy_img s i j
  | ISetZero i => do _ <- shape_of s i; s_with s (MSetZero i) (fun l => l)
  | IWrap i k w h st t d own =>
    let g := mkSh w h t d st in
    do _ <- shape_of s i;
    if shape_ok g then s_with s (MWrap i k (size_of g) (size_of g) own) (fun l => lset l i (Some g)) else None
  | ISwap i j =>
    do g0 <- shape_of s i; do g1 <- shape_of s j; s_with s (MSwap i j) (fun l => lset (lset l i (Some g1)) j (Some g0))
  | IStore i x y c b v => do g <- shape_of s i; if in_shape g x y c b then s_with s (MStore i (place g x y c b) v) (fun l => l) else None
  | ILoad i x y c b => do g <- shape_of s i; if in_shape g x y c b then s_with s (MLoad i (place g x y c b)) (fun l => l) else None
  | IXMalloc bs => s_with s (XMalloc bs) (fun l => l)
  | IXFree k => s_with s (XFree k) (fun l => l)
  | IXStore k off v => s_with s (XStore k off v) (fun l => l)
  | IXLoad k off => s_with s (XLoad k off) (fun l => l)
  end.
Fixpoint i_spec_run (s : simg) (os : list iop) : option (simg * list (option (option N))) :=
  match os with
  | [] => Some (s, [])
  | o :: os' => do (s, x) <- i_spec s o; do (s, xs) <- i_spec_run s os'; Some (s, x :: xs)
  end.
Definition si_init : simg := mkSI s_init [].

(** The pixels of image [i] are there: it owns them, or it shows a client's
    buffer that has not been freed. *)
Definition live (s : simg) (i : nat) : Prop :=
  match block (s_mem s) i with
  | Some (SOwned _ _) => True
  | Some (SView k _ _) => buffer (s_mem s) k <> None
  | None => False
  end.
(** Two images do not show the same client's buffer. *)
Definition apart (s : simg) (i j : nat) : Prop :=
  match block (s_mem s) i, block (s_mem s) j with
  | Some (SView k _ _), Some (SView k' _ _) => k <> k'
  | _, _ => True
  end.
