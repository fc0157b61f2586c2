(** Model of src/nx_vector_gen.c (instantiated for keypoints by
    src/nx_keypoint_vector.c).  [isz] is sizeof(NX_VECTOR_ITEM); an item is its
    [isz] bytes. *)
From Verif Require Import Base Heap ShaModel StrModel MemModel.
Local Open Scope nat_scope.

Section Vec.
Variable isz : nat.

(** struct NX_VECTOR_NAME, include/virg/nexus/nx_vector_gen.h:42-48; the block
    behind [mem] belongs to the vector alone. *)
Record vec := mkVec { vsize : nat; vcap : nat; vdata : option nat; vmem : blk }.

(** size_t multiplication. *)
Definition szmul (a b : nat) : nat := N.to_nat ((N.of_nat a * N.of_nat b) mod 2 ^ 64).

(** src/nx_vector_gen.c:39-44. *)
Definition update_vector_fields (b : blk) : vec := mkVec (bsize b / isz) (bcap b / isz) (bptr b) b.

(** src/nx_vector_gen.c:46-57. *)
Definition vec_alloc : vec := mkVec 0 0 None nx_mem_block_alloc.

(** src/nx_vector_gen.c:74-82. *)
Definition vec_release (h : bheap) (v : vec) : res (bheap * vec) :=
  let* r := nx_mem_block_release h (vmem v) in
  let '(h, b) := r in Ok (h, mkVec 0 0 None b).

(** src/nx_vector_gen.c:84-90. *)
Definition vec_reserve (junk : nat -> N) (h : bheap) (v : vec) (n : nat) : res (bheap * vec) :=
  if vcap v <? n then
    let* r := nx_mem_block_reserve false junk h (vmem v) (szmul n isz) in
    let '(h, b) := r in Ok (h, update_vector_fields b)
  else Ok (h, v).

(** src/nx_vector_gen.c:92-96. *)
Definition vec_resize (junk : nat -> N) (h : bheap) (v : vec) (n : nat) : res (bheap * vec) :=
  let* r := nx_mem_block_resize false junk h (vmem v) (szmul n isz) in
  let '(h, b) := r in Ok (h, update_vector_fields b).

(** src/nx_vector_gen.c:59-64. *)
Definition vec_new (junk : nat -> N) (h : bheap) (n : nat) : res (bheap * vec) := vec_reserve junk h vec_alloc n.

(** src/nx_vector_gen.c:98-101. *)
Definition vec_clear (junk : nat -> N) (h : bheap) (v : vec) := vec_resize junk h v 0.

(** src/nx_vector_gen.c:103-107. *)
Definition vec_wrap (h : bheap) (v : vec) (p : option nat) (sz cap : nat) (own : bool) : res (bheap * vec) :=
  let* r := nx_mem_block_wrap h (vmem v) p (szmul sz isz) (szmul cap isz) own in
  let '(h, b) := r in Ok (h, update_vector_fields b).

(** src/nx_vector_gen.c:116-120. *)
Definition vec_copy (junk : nat -> N) (h : bheap) (dest src : vec) : res (bheap * vec) :=
  let* r := nx_mem_block_copy false junk h (vmem dest) (vmem src) in
  let '(h, b) := r in Ok (h, update_vector_fields b).

(** src/nx_vector_gen.c:109-114. *)
Definition vec_copy0 (junk : nat -> N) (h : bheap) (src : vec) := vec_copy junk h vec_alloc src.

(** src/nx_vector_gen.c:122-128: the new vector and the index of the returned
    item pointer. *)
Definition vec_push_back (junk : nat -> N) (h : bheap) (v : vec) : res (bheap * vec * nat) :=
  let* r := (if vcap v <=? vsize v then vec_reserve junk h v (szmul (vsize v) 2) else Ok (h, v)) in
  let '(h, v) := r in
  let* r := vec_resize junk h v (N.to_nat ((N.of_nat (vsize v) + 1) mod 2 ^ 64)) in
  let '(h, v) := r in
  Ok (h, v, vsize v - 1).

(** Client access to item [k] of the array [data]. *)
Definition item_store (h : bheap) (p : option nat) (k : nat) (it : list N) : res bheap :=
  match p with
  | None => UB
  | Some p => let* c := hget h p in let* c := blit c (k * isz) it in hset h p c
  end.
Definition item_load (h : bheap) (p : option nat) (k : nat) : res (list N) :=
  match p with
  | None => UB
  | Some p => let* c := hget h p in
              if k * isz + isz <=? length c then Ok (firstn isz (skipn (k * isz) c)) else UB
  end.

(** Driver: a client with several vectors (a freed one is [None]) that may also
    hand over arrays it allocated itself. *)
Record vstate := mkV { vhp : bheap; vecs : list (option vec); vexts : list nat }.

Inductive vop :=
| VAlloc | VNew (n : nat) | VFree (i : nat) | VRelease (i : nat)
| VReserve (i n : nat) | VResize (i n : nat) | VClear (i : nat)
| VPush (i : nat) (it : list N)                      (* *push_back(v) = it *)
| VWrapOwn (i : nat) (items : list (list N)) (sz : nat) (* malloc'ed array handed over *)
| VCopy0 (i : nat) | VCopy (i j : nat)
| VSet (i k : nat) (it : list N) | VGet (i k : nat) | VSize (i : nat).

Inductive vout := VNone | VNum (n : nat) | VItem (it : list N).

Definition get_vec (m : vstate) (i : nat) : res vec :=
  match nth_error (vecs m) i with Some (Some b) => Ok b | _ => UB end.
Definition set_vec (m : vstate) (h : bheap) (i : nat) (b : option vec) : vstate :=
  mkV h (lset (vecs m) i b) (vexts m).

Definition v_step (junk : nat -> N) (m : vstate) (o : vop) : res (vstate * vout) :=
  let upd i (f : vec -> res (bheap * vec)) :=
    let* b := get_vec m i in
    let* r := f b in
    let '(h, b) := r in Ok (set_vec m h i (Some b), VNone) in
  match o with
  | VAlloc => Ok (mkV (vhp m) (vecs m ++ [Some vec_alloc]) (vexts m), VNone)
  | VNew n =>
    let* r := vec_new junk (vhp m) n in
    let '(h, b) := r in Ok (mkV h (vecs m ++ [Some b]) (vexts m), VNone)
  | VFree i =>   (* src/nx_vector_gen.c:66-72 *)
    let* b := get_vec m i in
    let* h := nx_mem_block_free (vhp m) (vmem b) in Ok (set_vec m h i None, VNone)
  | VRelease i => upd i (fun v => vec_release (vhp m) v)
  | VReserve i n => upd i (fun v => vec_reserve junk (vhp m) v n)
  | VResize i n => upd i (fun v => vec_resize junk (vhp m) v n)
  | VClear i => upd i (fun v => vec_clear junk (vhp m) v)
  | VPush i it =>
    let* v := get_vec m i in
    let* r := vec_push_back junk (vhp m) v in
    let '(h, v, k) := r in
    let* h := item_store h (vdata v) k it in
    Ok (set_vec m h i (Some v), VNone)
  | VWrapOwn i items sz =>
    let* v := get_vec m i in
    let '(h, q) := halloc (vhp m) (concat items) in
    let* r := vec_wrap h v (Some q) sz (length items) true in
    let '(h, v) := r in
    Ok (mkV h (lset (vecs m) i (Some v)) (vexts m ++ [q]), VNone)
  | VCopy0 i =>
    let* b := get_vec m i in
    let* r := vec_copy0 junk (vhp m) b in
    let '(h, c) := r in Ok (mkV h (vecs m ++ [Some c]) (vexts m), VNone)
  | VCopy i j => let* s := get_vec m j in upd i (fun d => vec_copy junk (vhp m) d s)
  | VSet i k it => upd i (fun v => let* h := item_store (vhp m) (vdata v) k it in Ok (h, v))
  | VGet i k =>
    let* v := get_vec m i in
    let* x := item_load (vhp m) (vdata v) k in Ok (m, VItem x)
  | VSize i => let* v := get_vec m i in Ok (m, VNum (vsize v))
  end.

Fixpoint v_run (junk : nat -> N) (m : vstate) (os : list vop) : res (vstate * list vout) :=
  match os with
  | [] => Ok (m, [])
  | o :: os' =>
    let* r := v_step junk m o in
    let '(m, x) := r in
    let* r := v_run junk m os' in
    let '(m, xs) := r in Ok (m, x :: xs)
  end.
Definition v_init : vstate := mkV [] [] [].
End Vec.
