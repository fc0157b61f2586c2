(** Model of src/nx_hash_sha256.c and of nx_memncpy_multi / nx_hash_to_str
    (src/nx_string.c). *)
From Verif Require Import Base BitsModel.
Local Open Scope N_scope.

(** Writing [bs] at byte position [pos] of a fixed-size C array. *)
Definition blit {A} (buf : list A) (pos : nat) (bs : list A) : res (list A) :=
  if (pos + length bs <=? length buf)%nat
  then Ok (firstn pos buf ++ bs ++ skipn (pos + length bs) buf)
  else UB.

(** ** nx_memncpy_multi, src/nx_string.c:210-247.
    [segs] are the source buffers; l_src[i] is [length (nth i segs)].  The
    cursor ( *src_offset, *offset ) is threaded.  [dest] is modelled by the list
    of bytes written from it on (the callers below place them in their
    buffer).  [n_copied] is the length of that list.

    [oob] describes a read of l_src[n_src], one past the end of the length
    array: [None] is the C standard's view (undefined behaviour), [Some v] the
    view that the load yields some arbitrary value [v]. *)

(** The while loop, lines 226-244.  An iteration either finishes the request
    or advances to the next source; [fuel] bounds the iterations. *)
Fixpoint memncpy_loop (fuel : nat) (segs : list (list N)) (n : nat)
         (so : nat) (off : nat) (acc : list N) : res (list N * nat * nat) :=
  if (0 <? n)%nat && (so <? length segs)%nat then
    match fuel with
    | O => NoFuel
    | S fuel' =>
      let* s := aget segs so in
      let l_left := (length s - off)%nat in
      if (n <? l_left)%nat
      then memncpy_loop fuel' segs 0 so (off + n) (acc ++ firstn n (skipn off s))
      else memncpy_loop fuel' segs (n - l_left) (S so) 0 (acc ++ firstn l_left (skipn off s))
    end
  else Ok (acc, so, off).

Definition nx_memncpy_multi (oob : option N) (segs : list (list N)) (n : nat)
           (so off : nat) : res (list N * nat * nat) :=
  match segs with
  | [] => Fatal                                   (* line 215: NX_ASSERT(n_src > 0) *)
  | _ =>
    let* l := (match nth_error segs so with       (* line 221: l_src[ *src_offset ] *)
               | Some s => Ok (N.of_nat (length s))
               | None => if (so =? length segs)%nat
                         then match oob with Some v => Ok v | None => UB end
                         else UB
               end) in
    let '(so, off) := (if l <? N.of_nat off then (S so, 0%nat) else (so, off)) in
    memncpy_loop (S (length segs)) segs n so off []
  end.

(** Driver: a caller issuing a sequence of requests. *)
Fixpoint run_requests (oob : option N) (segs : list (list N)) (so off : nat) (reqs : list nat) : res (list (list N)) :=
  match reqs with
  | [] => Ok []
  | n :: t =>
    let* c := nx_memncpy_multi oob segs n so off in
    let '(bs, so, off) := c in
    let* rest := run_requests oob segs so off t in
    Ok (bs :: rest)
  end.

(** ** SHA-256 *)

Definition W32 := 32.
(** nx_rotr32 at the constant amounts used by the macros (all in 2..25, for
    which [BitsModel.nx_rotr32] is defined and equal to this value). *)
Definition rotr32c (x n : N) : N := N.lor (N.shiftr x n) (wrap 32 (N.shiftl x (32 - n))).
Definition not32 (x : N) : N := N.lxor x 0xFFFFFFFF.
Definition add32 (x y : N) : N := uadd 32 x y.

(** src/nx_hash_sha256.c:36-39. *)
Definition SHA256_CH (x y z : N) : N := N.lxor (N.land x y) (N.land (not32 x) z).
Definition SHA256_MAJ (x y z : N) : N := N.lxor (N.lxor (N.land x y) (N.land x z)) (N.land y z).
Definition SHA256_SIGMA0 (x : N) : N := N.lxor (N.lxor (rotr32c x 2) (rotr32c x 13)) (rotr32c x 22).
Definition SHA256_SIGMA1 (x : N) : N := N.lxor (N.lxor (rotr32c x 6) (rotr32c x 11)) (rotr32c x 25).

(** src/nx_hash_sha256.c:43-51. *)
Definition K : list N := [
  0x428a2f98; 0x71374491; 0xb5c0fbcf; 0xe9b5dba5; 0x3956c25b; 0x59f111f1; 0x923f82a4; 0xab1c5ed5;
  0xd807aa98; 0x12835b01; 0x243185be; 0x550c7dc3; 0x72be5d74; 0x80deb1fe; 0x9bdc06a7; 0xc19bf174;
  0xe49b69c1; 0xefbe4786; 0x0fc19dc6; 0x240ca1cc; 0x2de92c6f; 0x4a7484aa; 0x5cb0a9dc; 0x76f988da;
  0x983e5152; 0xa831c66d; 0xb00327c8; 0xbf597fc7; 0xc6e00bf3; 0xd5a79147; 0x06ca6351; 0x14292967;
  0x27b70a85; 0x2e1b2138; 0x4d2c6dfc; 0x53380d13; 0x650a7354; 0x766a0abb; 0x81c2c92e; 0x92722c85;
  0xa2bfe8a1; 0xa81a664b; 0xc24b8b70; 0xc76c51a3; 0xd192e819; 0xd6990624; 0xf40e3585; 0x106aa070;
  0x19a4c116; 0x1e376c08; 0x2748774c; 0x34b0bcb5; 0x391c0cb3; 0x4ed8aa4a; 0x5b9cca4f; 0x682e6ff3;
  0x748f82ee; 0x78a5636f; 0x84c87814; 0x8cc70208; 0x90befffa; 0xa4506ceb; 0xbef9a3f7; 0xc67178f2 ].

(** src/nx_hash_sha256.c:63-65: W[i] for i < 16. *)
Definition sched_load (block : list N) (i : nat) (W : list N) : res (list N) :=
  let* b0 := aget block (i * 4) in
  let* b1 := aget block (i * 4 + 1) in
  let* b2 := aget block (i * 4 + 2) in
  let* b3 := aget block (i * 4 + 3) in
  aset W i (nx_compose_big_endian32 b0 b1 b2 b3).

(** src/nx_hash_sha256.c:66-71: W[i] for 16 <= i < 64. *)
Definition sched_extend (i : nat) (W : list N) : res (list N) :=
  let* w2 := aget W (i - 2) in
  let* w7 := aget W (i - 7) in
  let* w15 := aget W (i - 15) in
  let* w16 := aget W (i - 16) in
  aset W i
    (add32 (add32 (add32
       (N.lxor (N.lxor (rotr32c w2 17) (rotr32c w2 19)) (N.shiftr w2 10))
       w7)
       (N.lxor (N.lxor (rotr32c w15 7) (rotr32c w15 18)) (N.shiftr w15 3)))
       w16).

Record regs := mkRegs { ra : N; rb : N; rc : N; rd : N; re : N; rf : N; rg : N; rh : N }.

(** src/nx_hash_sha256.c:73-84, one round. *)
Definition round_step (W : list N) (i : nat) (r : regs) : res regs :=
  let* k := aget K i in
  let* w := aget W i in
  let T1 := add32 (add32 (add32 (add32 (rh r) (SHA256_SIGMA1 (re r)))
                                (SHA256_CH (re r) (rf r) (rg r))) k) w in
  let T2 := add32 (SHA256_SIGMA0 (ra r)) (SHA256_MAJ (ra r) (rb r) (rc r)) in
  Ok {| rh := rg r; rg := rf r; rf := re r; re := add32 (rd r) T1;
        rd := rc r; rc := rb r; rb := ra r; ra := add32 T1 T2 |}.

(** src/nx_hash_sha256.c:41-94.  The eight-word state H is the record [regs];
    the local array W is uninitialised storage [W0] of 64 words. *)
Definition nx_sha256_process_block (W0 : list N) (block : list N) (H : regs) : res regs :=
  let* W := for_each (sched_load block) (seq 0 16) W0 in
  let* W := for_each sched_extend (seq 16 48) W in
  let* r := for_each (round_step W) (seq 0 64) H in
  Ok {| ra := add32 (ra H) (ra r); rb := add32 (rb H) (rb r);
        rc := add32 (rc H) (rc r); rd := add32 (rd H) (rd r);
        re := add32 (re H) (re r); rf := add32 (rf H) (rf r);
        rg := add32 (rg H) (rg r); rh := add32 (rh H) (rh r) |}.

(** src/nx_hash_sha256.c:105-113. *)
Definition H_init : regs :=
  mkRegs 0x6a09e667 0xbb67ae85 0x3c6ef372 0xa54ff53a
         0x510e527f 0x9b05688c 0x1f83d9ab 0x5be0cd19.

(** src/nx_hash_sha256.c:175-177. *)
Definition hash_bytes (H : regs) : list N :=
  nx_split_big_endian32 (ra H) ++ nx_split_big_endian32 (rb H) ++
  nx_split_big_endian32 (rc H) ++ nx_split_big_endian32 (rd H) ++
  nx_split_big_endian32 (re H) ++ nx_split_big_endian32 (rf H) ++
  nx_split_big_endian32 (rg H) ++ nx_split_big_endian32 (rh H).

(** State of the block loop: block buffer, hash state, cursor. *)
Definition sha_state : Type := list N * regs * (nat * nat).

(** src/nx_hash_sha256.c:131-139, one iteration. *)
Definition full_block_step (oob : option N) (W0 : list N) (segs : list (list N))
           (_ : nat) (s : sha_state) : res sha_state :=
  let '(block, H, (so, off)) := s in
  let* c := nx_memncpy_multi oob segs 64 so off in
  let '(bs, so, off) := c in
  let* block := blit block 0 bs in
  let* _ := (if (length bs =? 64)%nat then Ok tt else Fatal) in
  let* H := nx_sha256_process_block W0 block H in
  Ok (block, H, (so, off)).

(** src/nx_hash_sha256.c:101-178.  [block0] and [W0] are the uninitialised
    contents of the local arrays.  size_t sums wrap at 2^64; the total length
    is kept as a number for that reason. *)
Definition nx_sha256_multi (oob : option N) (block0 W0 : list N) (segs : list (list N)) : res (list N) :=
  let lmsg_total := fold_left (fun a s => uadd 64 a (N.of_nat (length s))) segs 0 in
  let n_msg_only_blocks := lmsg_total / 64 in
  let l_rem := N.to_nat (lmsg_total - n_msg_only_blocks * 64) in
  let k := (if l_rem <=? 55 then 55 - l_rem else 119 - l_rem)%nat in
  let* st := for_each (full_block_step oob W0 segs) (seq 0 (N.to_nat n_msg_only_blocks))
                      (block0, H_init, (0%nat, 0%nat)) in
  let '(block, H, (so, off)) := st in
  let* c := nx_memncpy_multi oob segs l_rem so off in
  let '(bs, so, off) := c in
  let* block := blit block 0 bs in
  let* _ := (if (length bs =? l_rem)%nat then Ok tt else Fatal) in
  let* block := blit block l_rem [0x80] in
  let len_bytes := nx_split_big_endian64 (wrap 64 (lmsg_total * 8)) in
  let* H :=
    (if (l_rem <=? 55)%nat then
       let* block := blit block (l_rem + 1) (repeat 0 k) in
       let* block := blit block (l_rem + 1 + k) len_bytes in
       nx_sha256_process_block W0 block H
     else
       let k0 := (64 - (l_rem + 1))%nat in
       let k1 := (k - k0)%nat in
       let* block := blit block (l_rem + 1) (repeat 0 k0) in
       let* H := nx_sha256_process_block W0 block H in
       let* block := blit block 0 (repeat 0 k1) in
       let* block := blit block k1 len_bytes in
       nx_sha256_process_block W0 block H) in
  Ok (hash_bytes H).

(** src/nx_hash_sha256.c:96-99. *)
Definition nx_sha256 (oob : option N) (block0 W0 : list N) (msg : list N) : res (list N) :=
  nx_sha256_multi oob block0 W0 [msg].

(** ** nx_hash_to_str, src/nx_string.c:249-261: sprintf "%02x" per byte. The
    terminating NUL is omitted. *)
Definition hex_digit (d : N) : N := if d <? 10 then 48 + d else 87 + d.
Definition nx_hash_to_str (hash : list N) : list N :=
  flat_map (fun b => [hex_digit (b / 16); hex_digit (b mod 16)]) hash.
