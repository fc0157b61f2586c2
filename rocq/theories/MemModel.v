(** Model of src/nx_mem_block.c and src/nx_vector_gen.c over an explicit heap
    of byte buffers. *)
From Verif Require Import Base Heap ShaModel StrModel.
Local Open Scope nat_scope.

(** struct NXMemBlock, include/virg/nexus/nx_mem_block.h:36-42.  [None] is the
    NULL pointer; a pointer is always the start of a buffer.  Sizes are
    unbounded: an allocation that does not fit ends in NX_FATAL. *)
Record blk := mkBlk { bptr : option nat; bsize : nat; bcap : nat; bown : bool }.
Notation bheap := (heap (list N)).

(** src/nx_mem_block.c:33-43. *)
Definition nx_mem_block_alloc : blk := mkBlk None 0 0 false.

(** memcpy(dst, src, n) with [src] the start of buffer [q].  Overlapping
    buffers are undefined.  For n = 0 and a NULL destination C11 7.24.1p2 makes
    the call undefined ([strict = true]); implementations do nothing. *)
Definition memcpy (strict : bool) (h : bheap) (dst : option nat) (q : nat) (n : nat) : res bheap :=
  match dst with
  | None => if (n =? 0) && negb strict then Ok h else UB
  | Some p =>
    if n =? 0 then Ok h
    else if p =? q then UB
    else let* c := hget h q in
         if n <=? length c
         then let* d := hget h p in
              let* d := blit d 0 (firstn n c) in
              hset h p d
         else UB
  end.

(** src/nx_mem_block.c:63-82.  realloc moves the buffer. *)
Definition nx_mem_block_reserve (strict : bool) (junk : nat -> N) (h : bheap) (b : blk) (n : nat) : res (bheap * blk) :=
  if bcap b <? n then
    if bown b then
      match bptr b with
      | None =>
        let '(h, q) := halloc h (realloc junk [] n) in
        Ok (h, mkBlk (Some q) (bsize b) n true)
      | Some p =>
        let* c := hget h p in
        let* h := hfree h p in
        let '(h, q) := halloc h (realloc junk c n) in
        Ok (h, mkBlk (Some q) (bsize b) n true)
      end
    else
      let '(h, q) := halloc h (realloc junk [] n) in
      let* h := (if 0 <? bsize b then
                   match bptr b with
                   | None => UB
                   | Some p => memcpy strict h (Some q) p (bsize b)
                   end
                 else Ok h) in
      Ok (h, mkBlk (Some q) (bsize b) n true)
  else Ok (h, b).

(** src/nx_mem_block.c:84-92. *)
Definition nx_mem_block_resize (strict : bool) (junk : nat -> N) (h : bheap) (b : blk) (n : nat) : res (bheap * blk) :=
  let* r := nx_mem_block_reserve strict junk h b n in
  let '(h, b) := r in
  Ok (h, mkBlk (bptr b) n (bcap b) (bown b)).

(** src/nx_mem_block.c:45-51. *)
Definition nx_mem_block_new (strict : bool) (junk : nat -> N) (h : bheap) (n : nat) : res (bheap * blk) :=
  nx_mem_block_resize strict junk h nx_mem_block_alloc n.

(** src/nx_mem_block.c:53-61: the buffer part (the struct itself is handled by
    the driver). *)
Definition nx_mem_block_free (h : bheap) (b : blk) : res bheap :=
  if bown b then nx_free h (bptr b) else Ok h.

(** src/nx_mem_block.c:94-106. *)
Definition nx_mem_block_release (h : bheap) (b : blk) : res (bheap * blk) :=
  let* h := (match bptr b with
             | Some p => if bown b then nx_free h (Some p) else Ok h
             | None => Ok h
             end) in
  Ok (h, mkBlk None 0 0 false).

(** src/nx_mem_block.c:108-121. *)
Definition nx_mem_block_wrap (h : bheap) (b : blk) (p : option nat) (sz cap : nat) (own : bool) : res (bheap * blk) :=
  match p with
  | None => Fatal
  | Some p =>
    let* r := nx_mem_block_release h b in
    let '(h, _) := r in
    Ok (h, mkBlk (Some p) sz cap own)
  end.

(** src/nx_mem_block.c:123-136. *)
Definition nx_mem_block_swap (b0 b1 : blk) : blk * blk :=
  (mkBlk (bptr b1) (bsize b1) (bcap b1) (bown b1), mkBlk (bptr b0) (bsize b0) (bcap b0) (bown b0)).

(** src/nx_mem_block.c:147-159. *)
Definition nx_mem_block_copy (strict : bool) (junk : nat -> N) (h : bheap) (dest src : blk) : res (bheap * blk) :=
  let* r := nx_mem_block_resize strict junk h dest (bsize src) in
  let '(h, dest) := r in
  match bptr src with
  | None => Ok (h, dest)
  | Some q => let* h := memcpy strict h (bptr dest) q (bsize dest) in Ok (h, dest)
  end.

(** src/nx_mem_block.c:138-145. *)
Definition nx_mem_block_copy0 (strict : bool) (junk : nat -> N) (h : bheap) (src : blk) : res (bheap * blk) :=
  nx_mem_block_copy strict junk h nx_mem_block_alloc src.

(** src/nx_mem_block.c:161-168. *)
Definition nx_mem_block_set_zero (h : bheap) (b : blk) : res bheap :=
  match bptr b with
  | None => Ok h
  | Some p =>
    if bsize b =? 0 then Ok h
    else let* c := hget h p in
         let* c := blit c 0 (repeat 0%N (bsize b)) in
         hset h p c
  end.

(** Client access to one byte of a buffer. *)
Definition poke (h : bheap) (p : option nat) (off : nat) (v : N) : res bheap :=
  match p with
  | None => UB
  | Some p => let* c := hget h p in let* c := aset c off v in hset h p c
  end.
Definition peek (h : bheap) (p : option nat) (off : nat) : res N :=
  match p with
  | None => UB
  | Some p => let* c := hget h p in aget c off
  end.

(** Driver: a client holding several blocks and several buffers of its own
    (numbered in order of allocation; [exts] gives their addresses).  A freed
    block struct is [None]. *)
Record mstate := mkM { hp : bheap; blks : list (option blk); exts : list nat }.

Inductive mop :=
| MAlloc | MNew (n : nat) | MFree (i : nat)
| MReserve (i n : nat) | MResize (i n : nat) | MRelease (i : nat)
| MWrap (i k sz cap : nat) (own : bool)
| MSwap (i j : nat) | MCopy0 (i : nat) | MCopy (i j : nat) | MSetZero (i : nat)
| MStore (i off : nat) (v : N) | MLoad (i off : nat) | MSize (i : nat) | MCap (i : nat)
| XMalloc (bytes : list N) | XFree (k : nat) | XStore (k off : nat) (v : N) | XLoad (k off : nat).

Definition get_blk (m : mstate) (i : nat) : res blk :=
  match nth_error (blks m) i with Some (Some b) => Ok b | _ => UB end.
Definition set_blk (m : mstate) (h : bheap) (i : nat) (b : option blk) : mstate :=
  mkM h (lset (blks m) i b) (exts m).

Definition m_step (strict : bool) (junk : nat -> N) (m : mstate) (o : mop) : res (mstate * option N) :=
  let upd i (f : blk -> res (bheap * blk)) :=
    let* b := get_blk m i in
    let* r := f b in
    let '(h, b) := r in Ok (set_blk m h i (Some b), None) in
  match o with
  | MAlloc => Ok (mkM (hp m) (blks m ++ [Some nx_mem_block_alloc]) (exts m), None)
  | MNew n =>
    let* r := nx_mem_block_new strict junk (hp m) n in
    let '(h, b) := r in Ok (mkM h (blks m ++ [Some b]) (exts m), None)
  | MFree i =>
    let* b := get_blk m i in
    let* h := nx_mem_block_free (hp m) b in Ok (set_blk m h i None, None)
  | MReserve i n => upd i (fun b => nx_mem_block_reserve strict junk (hp m) b n)
  | MResize i n => upd i (fun b => nx_mem_block_resize strict junk (hp m) b n)
  | MRelease i => upd i (fun b => nx_mem_block_release (hp m) b)
  | MWrap i k sz cap own => upd i (fun b => nx_mem_block_wrap (hp m) b (nth_error (exts m) k) sz cap own)
  | MSwap i j =>
    let* b0 := get_blk m i in
    let* b1 := get_blk m j in
    let '(b0, b1) := nx_mem_block_swap b0 b1 in
    Ok (mkM (hp m) (lset (lset (blks m) i (Some b0)) j (Some b1)) (exts m), None)
  | MCopy0 i =>
    let* b := get_blk m i in
    let* r := nx_mem_block_copy0 strict junk (hp m) b in
    let '(h, c) := r in Ok (mkM h (blks m ++ [Some c]) (exts m), None)
  | MCopy i j =>
    let* s := get_blk m j in
    upd i (fun d => nx_mem_block_copy strict junk (hp m) d s)
  | MSetZero i => upd i (fun b => let* h := nx_mem_block_set_zero (hp m) b in Ok (h, b))
  | MStore i off v => upd i (fun b => let* h := poke (hp m) (bptr b) off v in Ok (h, b))
  | MLoad i off =>
    let* b := get_blk m i in
    let* v := peek (hp m) (bptr b) off in Ok (m, Some v)
  | MSize i => let* b := get_blk m i in Ok (m, Some (N.of_nat (bsize b)))
  | MCap i => let* b := get_blk m i in Ok (m, Some (N.of_nat (bcap b)))
  | XMalloc bs => let '(h, q) := halloc (hp m) bs in Ok (mkM h (blks m) (exts m ++ [q]), None)
  | XFree k =>
    let* p := aget (exts m) k in
    let* h := hfree (hp m) p in Ok (mkM h (blks m) (exts m), None)
  | XStore k off v =>
    let* p := aget (exts m) k in
    let* h := poke (hp m) (Some p) off v in Ok (mkM h (blks m) (exts m), None)
  | XLoad k off =>
    let* p := aget (exts m) k in
    let* v := peek (hp m) (Some p) off in Ok (m, Some v)
  end.

Fixpoint m_run (strict : bool) (junk : nat -> N) (m : mstate) (os : list mop) : res (mstate * list (option N)) :=
  match os with
  | [] => Ok (m, [])
  | o :: os' =>
    let* r := m_step strict junk m o in
    let '(m, x) := r in
    let* r := m_run strict junk m os' in
    let '(m, xs) := r in Ok (m, x :: xs)
  end.
Definition m_init : mstate := mkM [] [] [].
