(** Model of the life of images, src/nx_image.c, over the memory blocks of
    MemModel.  Image i owns the block with the same number; its header keeps its
    own copy of the block's pointer, through which all pixels are reached. *)
From Verif Require Import Base Heap MemModel PnmModel.
Local Open Scope Z_scope.

(** enum NXImageDataType and nx_image_bytes_per_channel, include/virg/nexus/nx_image.h. *)
Inductive idtype := UCHAR | FLOAT32.
Definition n_bytes (d : idtype) : Z := match d with UCHAR => 1 | FLOAT32 => 4 end.
(** struct NXImage without mem, nx_image.h:50-65. *)
Record ihdr := mkH { h_w : Z; h_h : Z; h_type : itype; h_dt : idtype; h_nch : Z; h_stride : Z; h_data : option nat }.
Record ist := mkI { i_mem : mstate; i_hdrs : list (option ihdr) }.
Definition get_hdr (st : ist) (i : nat) : res ihdr := match nth_error (i_hdrs st) i with Some (Some g) => Ok g | _ => UB end.
Definition set_hdr (st : ist) (m : mstate) (i : nat) (g : option ihdr) : ist := mkI m (lset (i_hdrs st) i g).
(** img->mem->ptr. *)
Definition ptr_of (m : mstate) (i : nat) : res (option nat) := let* b := get_blk m i in Ok (bptr b).
Definition itype_eqb (a b : itype) : bool := match a, b with GRAY, GRAY | RGBA, RGBA => true | _, _ => false end.
Definition idtype_eqb (a b : idtype) : bool := match a, b with UCHAR, UCHAR | FLOAT32, FLOAT32 => true | _, _ => false end.

Inductive iop :=
| IAlloc | INew (w h : Z) (t : itype) (d : idtype) | IFree (i : nat)
| IResize (i : nat) (w h stride : Z) (t : itype) (d : idtype) | IResizeLike (i j : nat) | IRelease (i : nat)
| ICopy0 (i : nat) | ICopy (i j : nat) | ISetZero (i : nat)
| IWrap (i k : nat) (w h stride : Z) (t : itype) (d : idtype) (own : bool) | ISwap (i j : nat)
| IStore (i : nat) (x y c b : Z) (v : N) | ILoad (i : nat) (x y c b : Z)
| IXMalloc (bytes : list N) | IXFree (k : nat) | IXStore (k off : nat) (v : N) | IXLoad (k off : nat).

Section Step.
Variable junk : nat -> N.
(** memcpy of no bytes to NULL does nothing here (see MemModel). *)
Notation mstep m o := (m_step false junk m o).

(** nx_image_alloc, 43-58. *)
Definition i_alloc (st : ist) : res ist :=
  let* r := mstep (i_mem st) MAlloc in Ok (mkI (fst r) (i_hdrs st ++ [Some (mkH 0 0 GRAY UCHAR 1 0 None)])).
(** nx_image_resize, 119-153. *)
Definition i_resize (st : ist) (i : nat) (w h stride : Z) (t : itype) (d : idtype) : res ist :=
  if (w <? 0) || (h <? 0) then Fatal else
  let* g := get_hdr st i in
  if (h_w g =? w) && (h_h g =? h) && (h_stride g =? stride) && itype_eqb (h_type g) t && idtype_eqb (h_dt g) d then Ok st else
  let* rs := chk_int (n_ch t * w) in
  let stride := if stride <? rs then rs else stride in
  let* len := chk_int (stride * h) in
  let* r := mstep (i_mem st) (MResize i (Z.to_nat (len * n_bytes d))) in
  let* p := ptr_of (fst r) i in
  Ok (set_hdr st (fst r) i (Some (mkH w h t d (n_ch t) stride p))).
(** nx_image_copy, 188-202. *)
Definition i_copy (st : ist) (i j : nat) : res ist :=
  let* g := get_hdr st j in
  let* _ := get_hdr st i in
  let* r := mstep (i_mem st) (MCopy i j) in
  let* p := ptr_of (fst r) i in
  Ok (set_hdr st (fst r) i (Some (mkH (h_w g) (h_h g) (h_type g) (h_dt g) (h_nch g) (h_stride g) p))).
(** The address of byte [b] of channel [c] of pixel (x, y): the row starts at
    data + y * row_stride, the sample is row[n_channels * x + c]. *)
Definition i_offset (g : ihdr) (x y c b : Z) : res nat :=
  let* r := chk_int (y * h_stride g) in
  let k := (r + (h_nch g * x + c)) * n_bytes (h_dt g) + b in
  if k <? 0 then UB else Ok (Z.to_nat k).
Definition with_mem (st : ist) (o : mop) : res (ist * option N) :=
  let* r := mstep (i_mem st) o in Ok (mkI (fst r) (i_hdrs st), snd r).

Definition i_step (st : ist) (o : iop) : res (ist * option N) :=
  match o with
  | IAlloc => let* st := i_alloc st in Ok (st, None)
  (* nx_image_new, 60-70 *)
  | INew w h t d =>
    if (w <? 0) || (h <? 0) then Fatal
    else let n := length (i_hdrs st) in let* st := i_alloc st in let* st := i_resize st n w h (-1) t d in Ok (st, None)
  (* nx_image_free, 111-117 *)
  | IFree i => let* _ := get_hdr st i in let* r := mstep (i_mem st) (MFree i) in Ok (set_hdr st (fst r) i None, None)
  | IResize i w h s t d => let* st := i_resize st i w h s t d in Ok (st, None)
  (* nx_image_resize_like, 155-162 *)
  | IResizeLike i j => let* g := get_hdr st j in let* st := i_resize st i (h_w g) (h_h g) (-1) (h_type g) (h_dt g) in Ok (st, None)
  (* nx_image_release, 164-177 *)
  | IRelease i =>
    let* _ := get_hdr st i in
    let* r := mstep (i_mem st) (MRelease i) in Ok (set_hdr st (fst r) i (Some (mkH 0 0 GRAY UCHAR 1 0 None)), None)
  (* nx_image_copy0, 179-186 *)
  | ICopy0 i => let n := length (i_hdrs st) in let* st := i_alloc st in let* st := i_copy st n i in Ok (st, None)
  | ICopy i j => let* st := i_copy st i j in Ok (st, None)
  (* nx_image_set_zero, 488-493 *)
  | ISetZero i => let* _ := get_hdr st i in with_mem st (MSetZero i)
  (* nx_image_wrap, 495-514; a negative size, which becomes a huge size_t, is undefined *)
  | IWrap i k w h s t d own =>
    if s <? w then Fatal else
    let* _ := get_hdr st i in
    let* len := chk_int (s * h) in
    if len <? 0 then UB else
    let sz := Z.to_nat (len * n_bytes d) in
    let* r := mstep (i_mem st) (MWrap i k sz sz own) in
    let* p := ptr_of (fst r) i in
    Ok (set_hdr st (fst r) i (Some (mkH w h t d (n_ch t) s p)), None)
  (* nx_image_swap, 517-532 *)
  | ISwap i j =>
    let* g0 := get_hdr st i in
    let* g1 := get_hdr st j in
    let* r := mstep (i_mem st) (MSwap i j) in
    let* p0 := ptr_of (fst r) i in
    let* p1 := ptr_of (fst r) j in
    Ok (mkI (fst r) (lset (lset (i_hdrs st) i (Some (mkH (h_w g1) (h_h g1) (h_type g1) (h_dt g1) (h_nch g1) (h_stride g1) p0)))
                          j (Some (mkH (h_w g0) (h_h g0) (h_type g0) (h_dt g0) (h_nch g0) (h_stride g0) p1))), None)
  (* pixel access by the client *)
  | IStore i x y c b v =>
    let* g := get_hdr st i in
    let* off := i_offset g x y c b in
    let* h := poke (hp (i_mem st)) (h_data g) off v in Ok (mkI (mkM h (blks (i_mem st)) (exts (i_mem st))) (i_hdrs st), None)
  | ILoad i x y c b =>
    let* g := get_hdr st i in
    let* off := i_offset g x y c b in
    let* v := peek (hp (i_mem st)) (h_data g) off in Ok (st, Some v)
  (* the client's own buffers *)
  | IXMalloc bs => with_mem st (XMalloc bs)
  | IXFree k => with_mem st (XFree k)
  | IXStore k off v => with_mem st (XStore k off v)
  | IXLoad k off => with_mem st (XLoad k off)
  end.
Fixpoint i_run (st : ist) (os : list iop) : res (ist * list (option N)) :=
  match os with
  | [] => Ok (st, [])
  | o :: os' =>
    let* r := i_step st o in
    let '(st, x) := r in
    let* r := i_run st os' in
    let '(st, xs) := r in Ok (st, x :: xs)
  end.
End Step.
Definition i_init : ist := mkI m_init [].
