(** Property C51: pixels of images are reached inside live memory. *)
From Verif Require Import Base BaseLemmas Heap MemModel MemSpec MemProofs PnmModel ImemModel ImemSpec ImemProofs.
Local Open Scope Z_scope.

(** Any geometry whose rows hold their pixels: every byte of every pixel lies
    inside the buffer and no two share a place. *)
Theorem C51_layout : forall g, shape_ok g = true ->
  (forall x y c b, in_shape g x y c b = true -> (place g x y c b < size_of g)%nat) /\
  (forall x y c b x' y' c' b', in_shape g x y c b = true -> in_shape g x' y' c' b' = true ->
     place g x y c b = place g x' y' c' b' -> (x, y, c, b) = (x', y', c', b')).
Proof. intros g H. split; [intros; apply place_lt; auto|]. intros. eapply place_inj; eauto. Qed.
Print Assumptions C51_layout.
Example C51_layout_example : shape_ok (mkSh 3 2 RGBA FLOAT32 13) = true /\ in_shape (mkSh 3 2 RGBA FLOAT32 13) 2 1 3 3 = true
  /\ (place (mkSh 3 2 RGBA FLOAT32 13) 2 1 3 3, size_of (mkSh 3 2 RGBA FLOAT32 13)) = (99, 104)%nat.
Proof. repeat split. Qed.

(** Every history of allocations, resizes, copies, wraps, swaps, releases and
    pixel accesses within the contract runs without undefined behaviour and
    observes what the pointer-free specification says; afterwards every header
    has the shape of the specification and rows that hold their pixels. *)
Theorem C51_history : forall junk os s xs, i_spec_run si_init os = Some (s, xs) ->
  exists st ys, i_run junk i_init os = Ok (st, ys) /\ Forall2 agrees xs ys /\
    forall i sh, shape_of s i = Some sh -> exists g, get_hdr st i = Ok g /\
      h_w g = sh_w sh /\ h_h g = sh_h sh /\ h_type g = sh_type sh /\ h_dt g = sh_dt sh /\ h_stride g = sh_stride sh /\
      h_nch g = n_ch (h_type g) /\ 0 <= h_w g /\ 0 <= h_h g /\ h_nch g * h_w g <= h_stride g.
Proof.
  intros junk os s xs H. destruct (i_run_spec junk _ _ _ _ _ irel_init H) as (st & ys & E & R & A).
  exists st, ys. split; [auto|]. split; [auto|]. intros i sh Hs.
  destruct (irel_get _ _ _ _ R Hs) as (g & Hg & _ & _ & (Hgeq & Hok & _) & _). exists g. split; [auto|].
  apply shape_ok_facts in Hok. rewrite Hgeq. cbn. tauto.
Qed.
Print Assumptions C51_history.

(** In every state so reached, every in-range pixel of an image whose memory
    has not been freed can be read and written; a write is read back, and it
    changes no other pixel of that image, nor any pixel of another image that
    does not show the same client's buffer. *)
Theorem C51_access : forall junk os s xs i sh x y c b,
  i_spec_run si_init os = Some (s, xs) -> shape_of s i = Some sh -> live s i -> in_shape sh x y c b = true ->
  exists st ys w, i_run junk i_init os = Ok (st, ys) /\ i_step junk st (ILoad i x y c b) = Ok (st, Some w) /\
    forall v, exists st', i_step junk st (IStore i x y c b v) = Ok (st', None) /\
      i_step junk st' (ILoad i x y c b) = Ok (st', Some v) /\
      (forall x' y' c' b' w, in_shape sh x' y' c' b' = true -> (x', y', c', b') <> (x, y, c, b) ->
         i_step junk st (ILoad i x' y' c' b') = Ok (st, Some w) -> i_step junk st' (ILoad i x' y' c' b') = Ok (st', Some w)) /\
      (forall j sh' x' y' c' b' w, j <> i -> shape_of s j = Some sh' -> live s j -> apart s i j -> in_shape sh' x' y' c' b' = true ->
         i_step junk st (ILoad j x' y' c' b') = Ok (st, Some w) -> i_step junk st' (ILoad j x' y' c' b') = Ok (st', Some w)).
Proof.
  intros junk os s xs i sh x y c b H Hs Hl Hin. destruct (i_run_spec junk _ _ _ _ _ irel_init H) as (st & ys & E & R & A).
  destruct (pixel_at _ _ _ _ _ _ _ _ R Hs Hl Hin) as (g & p & d & w & Hg & Ho & Hp & Hd & Hn).
  exists st, ys, w. split; [auto|]. split.
  - cbn [i_step]. rewrite Hg. cbn [bind]. rewrite Ho. cbn [bind]. rewrite Hp, (proj2 (peek_cell _ _ _ w)) by eauto. reflexivity.
  - intros v. apply (store_img junk st s i sh); auto.
Qed.
Print Assumptions C51_access.

(** After a copy both images have the same geometry and equal pixels. *)
Theorem C51_copy : forall junk os s xs i j s' x,
  i_spec_run si_init os = Some (s, xs) -> i_spec s (ICopy i j) = Some (s', x) ->
  exists st ys st' g g', i_run junk i_init os = Ok (st, ys) /\ i_step junk st (ICopy i j) = Ok (st', None) /\
    get_hdr st' i = Ok g /\ get_hdr st' j = Ok g' /\
    h_w g = h_w g' /\ h_h g = h_h g' /\ h_type g = h_type g' /\ h_dt g = h_dt g' /\ h_stride g = h_stride g' /\
    forall x y c b, 0 <= x < h_w g -> 0 <= y < h_h g -> 0 <= c < n_ch (h_type g) -> 0 <= b < n_bytes (h_dt g) -> exists v,
      i_step junk st' (ILoad i x y c b) = Ok (st', Some v) /\ i_step junk st' (ILoad j x y c b) = Ok (st', Some v).
Proof.
  intros junk os s xs i j s' x H Hc. destruct (i_run_spec junk _ _ _ _ _ irel_init H) as (st & ys & E & R & A).
  destruct (copy_img junk _ _ _ _ _ _ R Hc) as (st' & g & g' & sh & H1 & R' & H2 & H3 & H4 & H5 & H6 & H7).
  destruct (irel_get _ _ _ _ R' H5) as (g1 & Hg1 & _ & _ & (Hgeq & _) & _). assert (g1 = g) by congruence. subst g1.
  exists st, ys, st', g, g'. split; [auto|]. split; [auto|]. split; [auto|]. split; [auto|].
  split; [rewrite H6; reflexivity|]. split; [rewrite H6; reflexivity|]. split; [rewrite H6; reflexivity|]. split; [rewrite H6; reflexivity|]. split; [rewrite H6; reflexivity|].
  intros x0 y0 c b X Y C B. apply H7. rewrite Hgeq in X, Y, C, B. cbn in X, Y, C, B. unfold in_shape. rewrite !andb_true_iff, !Z.leb_le, !Z.ltb_lt. lia.
Qed.
Print Assumptions C51_copy.

(** A history: a fresh 2x2 RGBA image and a view, with rows of 3, of a client's
    buffer of six bytes are written, copied, resized, swapped and read. *)
Definition C51_ops : list iop :=
  [ INew 2 2 RGBA UCHAR; ISetZero 0; IStore 0 1 1 3 0 7%N; IXMalloc [1; 2; 3; 4; 5; 6]%N; IAlloc; IWrap 1 0 2 2 3 GRAY UCHAR false;
    ILoad 1 1 1 0 0; IStore 1 0 1 0 0 9%N; IXLoad 0 3; ICopy0 1; ISwap 0 2; ILoad 0 0 1 0 0; ILoad 2 1 1 3 0;
    IResize 2 1 5 (-1) GRAY FLOAT32; IStore 2 0 4 0 3 8%N; ILoad 2 0 4 0 3; IResizeLike 1 2; ICopy 1 2; ILoad 1 0 4 0 3; IRelease 0; IXFree 0; IFree 2 ]%nat.
Example C51_example : exists s xs, i_spec_run si_init C51_ops = Some (s, xs) /\
  filter (fun o => match o with Some _ => true | None => false end) xs = map (fun v => Some (Some v)) [5; 9; 9; 7; 8; 8]%N /\
  shape_of s 1 = Some (mkSh 1 5 GRAY FLOAT32 1) /\ live s 1 /\ in_shape (mkSh 1 5 GRAY FLOAT32 1) 0 4 0 2 = true.
Proof. eexists _, _. split; [vm_compute; reflexivity|]. repeat split. Qed.

(** FINDING: nx_image_wrap only asks that a row has as many bytes as pixels; for
    an RGBA image that is accepted with a stride of one byte per pixel, and the
    last pixel of the row then lies outside the wrapped buffer. *)
Theorem C51_wrap_refuted : exists os st ys g,
  i_run (fun _ => 0%N) i_init os = Ok (st, ys) /\ get_hdr st 0 = Ok g /\ h_w g <= h_stride g /\ 0 <= 3 < h_w g /\ 0 <= 0 < h_h g /\
  i_step (fun _ => 0%N) st (ILoad 0 3 0 0 0) = UB.
Proof.
  exists [IXMalloc [1; 2; 3; 4]%N; IAlloc; IWrap 0 0 4 1 4 RGBA UCHAR false]. eexists _, _, _.
  split; [vm_compute; reflexivity|]. split; [vm_compute; reflexivity|]. cbn. repeat split; try lia; discriminate.
Qed.
Print Assumptions C51_wrap_refuted.
