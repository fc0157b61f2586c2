(** Specification of memory blocks, without heap or pointers.

    A block either owns its bytes ([SOwned]: the whole capacity is listed) or
    is a view of client buffer [k] ([SView]).  A byte is [None] where its value
    is unspecified.  An operation outside the documented contract has no
    specified result ([None]). *)
From Verif Require Import Base MemModel.
Local Open Scope nat_scope.

Notation bytes := (list (option N)).
Inductive sblk := SOwned (size : nat) (buf : bytes) | SView (k size cap : nat).
Record sstate := mkS { sblks : list (option sblk); sbufs : list (option bytes) }.

Definition s_size b := match b with SOwned n _ => n | SView _ n _ => n end.
Definition s_cap b := match b with SOwned _ buf => length buf | SView _ _ c => c end.
Definition s_set_size b n := match b with SOwned _ buf => SOwned n buf | SView k _ c => SView k n c end.

Definition overwrite {A} (l : list A) (off : nat) (bs : list A) : option (list A) :=
  if off + length bs <=? length l then Some (firstn off l ++ bs ++ skipn (off + length bs) l) else None.

Definition buffer (s : sstate) (k : nat) : option bytes :=
  match nth_error (sbufs s) k with Some (Some c) => Some c | _ => None end.
Definition block (s : sstate) (i : nat) : option sblk :=
  match nth_error (sblks s) i with Some (Some b) => Some b | _ => None end.

(** The first [n] bytes of a block. *)
Definition s_bytes (s : sstate) (b : sblk) (n : nat) : option bytes :=
  match b with
  | SOwned _ buf => Some (firstn n buf)
  | SView k _ _ => if n =? 0 then Some [] else
                   match buffer s k with Some c => Some (firstn n c) | None => None end
  end.

Definition s_reserve (s : sstate) (b : sblk) (n : nat) : option sblk :=
  if n <=? s_cap b then Some b
  else match b with
       | SOwned sz buf => Some (SOwned sz (buf ++ repeat None (n - length buf)))
       | SView _ sz _ =>
         match s_bytes s b sz with
         | Some c => Some (SOwned sz (c ++ repeat None (n - sz)))
         | None => None
         end
       end.
Definition s_resize (s : sstate) (b : sblk) (n : nat) : option sblk :=
  match s_reserve s b n with Some b => Some (s_set_size b n) | None => None end.

(** Storing bytes through a block: into its own storage or into the viewed
    client buffer. *)
Definition s_store (s : sstate) (i : nat) (b : sblk) (off : nat) (bs : bytes) : option sstate :=
  match b with
  | SOwned sz buf =>
    match overwrite buf off bs with
    | Some buf => Some (mkS (lset (sblks s) i (Some (SOwned sz buf))) (sbufs s))
    | None => None
    end
  | SView k sz c =>
    let s' := mkS (lset (sblks s) i (Some b)) (sbufs s) in
    match bs with
    | [] => Some s'
    | _ => match buffer s k with
           | None => None
           | Some d => if off + length bs <=? c then
                         match overwrite d off bs with
                         | Some d => Some (mkS (sblks s') (lset (sbufs s) k (Some d)))
                         | None => None
                         end
                       else None
           end
    end
  end.

Definition same_view (b0 b1 : sblk) : bool :=
  match b0, b1 with SView k _ _, SView k' _ _ => k =? k' | _, _ => false end.

Notation "'do' x <- m ; k" := (match m with Some x => k | None => None end)
  (at level 200, x pattern, right associativity).

Definition m_spec (s : sstate) (o : mop) : option (sstate * option (option N)) :=
  let put i b := mkS (lset (sblks s) i b) (sbufs s) in
  let add b := mkS (sblks s ++ [Some b]) (sbufs s) in
  match o with
  | MAlloc => Some (add (SOwned 0 []), None)
  | MNew n => Some (add (SOwned n (repeat None n)), None)
  | MFree i => do _ <- block s i; Some (put i None, None)
  | MReserve i n => do b <- block s i; do b <- s_reserve s b n; Some (put i (Some b), None)
  | MResize i n => do b <- block s i; do b <- s_resize s b n; Some (put i (Some b), None)
  | MRelease i => do _ <- block s i; Some (put i (Some (SOwned 0 [])), None)
  | MWrap i k sz cap own =>
    do _ <- block s i;
    do c <- buffer s k;
    if (sz <=? cap) && (cap <=? length c) then
      if own
      then Some (mkS (lset (sblks s) i (Some (SOwned sz (firstn cap c)))) (lset (sbufs s) k None), None)
      else Some (put i (Some (SView k sz cap)), None)
    else None
  | MSwap i j =>
    do b0 <- block s i; do b1 <- block s j;
    Some (mkS (lset (lset (sblks s) i (Some b1)) j (Some b0)) (sbufs s), None)
  | MCopy0 i =>
    do b <- block s i; do c <- s_bytes s b (s_size b); Some (add (SOwned (s_size b) c), None)
  | MCopy i j =>
    do d <- block s i; do b <- block s j;
    if (i =? j) then None
    else
      do c <- s_bytes s b (s_size b);
      do d <- s_resize s d (s_size b);
      if same_view d b && negb (s_size b =? 0) then None
      else do s <- s_store s i d 0 c; Some (s, None)
  | MSetZero i =>
    do b <- block s i; do s <- s_store s i b 0 (repeat (Some 0%N) (s_size b)); Some (s, None)
  | MStore i off v =>
    do b <- block s i; do s <- s_store s i b off [Some v]; Some (s, None)
  | MLoad i off =>
    do b <- block s i;
    if off <? s_size b then do c <- s_bytes s b (s_size b); do x <- nth_error c off; Some (s, Some x) else None
  | MSize i => do b <- block s i; Some (s, Some (Some (N.of_nat (s_size b))))
  | MCap i => do b <- block s i; Some (s, Some (Some (N.of_nat (s_cap b))))
  | XMalloc bs => Some (mkS (sblks s) (sbufs s ++ [Some (map Some bs)]), None)
  | XFree k => do _ <- buffer s k; Some (mkS (sblks s) (lset (sbufs s) k None), None)
  | XStore k off v =>
    do c <- buffer s k; do c <- overwrite c off [Some v];
    Some (mkS (sblks s) (lset (sbufs s) k (Some c)), None)
  | XLoad k off => do c <- buffer s k; do x <- nth_error c off; Some (s, Some x)
  end.

Fixpoint m_spec_run (s : sstate) (os : list mop) : option (sstate * list (option (option N))) :=
  match os with
  | [] => Some (s, [])
  | o :: os' =>
    do (s, x) <- m_spec s o; do (s, xs) <- m_spec_run s os'; Some (s, x :: xs)
  end.
Definition s_init := mkS [] [].

(** An observed value agrees with the specified one. *)
Definition agrees (spec : option (option N)) (seen : option N) : Prop :=
  match spec with
  | None => seen = None
  | Some None => exists v, seen = Some v
  | Some (Some v) => seen = Some v
  end.
