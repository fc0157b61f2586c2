(** Properties C09 and C10: memory blocks. *)
From Verif Require Import Base BaseLemmas Heap ShaModel StrModel MemModel MemSpec MemProofs.
Local Open Scope nat_scope.

(** C09: every history within the contract runs without undefined behaviour and
    every observation (bytes, sizes, capacities) is the one of the pointer-free
    specification; sizes never exceed capacities. *)
Theorem C09_block_history : forall junk os s xs,
  m_spec_run s_init os = Some (s, xs) ->
  exists m ys,
    m_run false junk m_init os = Ok (m, ys) /\ Forall2 agrees xs ys /\
    forall i b, nth_error (blks m) i = Some (Some b) -> bsize b <= bcap b.
Proof.
  intros junk os s xs H. destruct (run_spec junk os _ _ _ _ rel_init H) as (m & ys & E & R & A).
  exists m, ys. split; [auto|]. split; [auto|]. intros i b Hb.
  destruct (nth_error (sblks s) i) as [sb|] eqn:Es.
  - pose proof (R_blk _ _ R _ _ _ Hb Es) as Ho. destruct sb as [sb|]; [|contradiction].
    destruct (brel_sizes _ _ _ _ _ Ho) as (-> & -> & Hl). auto.
  - apply nth_error_None in Es. rewrite <- (R_len _ _ R) in Es. assert (i < length (blks m)) by (apply nth_error_Some; congruence). lia.
Qed.
Print Assumptions C09_block_history.

(** Resizing (hence reserving) keeps the first min(old, new) bytes, whatever
    they are, and never shrinks the capacity. *)
Theorem C09_resize_keeps_bytes : forall junk os s xs i n sb sb' off,
  m_spec_run s_init os = Some (s, xs) -> block s i = Some sb -> s_resize s sb n = Some sb' ->
  off < s_size sb -> off < n -> s_bytes s sb (s_size sb) <> None ->
  exists m ys m' v c c',
    m_run false junk m_init os = Ok (m, ys) /\
    m_step false junk m (MLoad i off) = Ok (m, Some v) /\
    m_step false junk m (MCap i) = Ok (m, Some c) /\
    m_step false junk m (MResize i n) = Ok (m', None) /\
    m_step false junk m' (MLoad i off) = Ok (m', Some v) /\
    m_step false junk m' (MCap i) = Ok (m', Some c') /\ (c <= c' /\ N.of_nat n <= c')%N.
Proof.
  intros junk os s xs i n sb sb' off H Hb Hr Hoff Hn Hl.
  destruct (run_spec junk os _ _ _ _ rel_init H) as (m & ys & E & R & A).
  destruct (rel_get _ _ _ _ R Hb) as (b & H1 & H2 & H3 & H4).
  destruct (brel_sizes _ _ _ _ _ H4) as (Hs & Hc & Hsc).
  destruct (s_bytes s sb (s_size sb)) as [c0|] eqn:Eb; [|congruence].
  destruct (bytes_spec _ _ _ _ _ _ R H4 Eb) as (p & d & Hp & Hd & Hld & _); [lia|lia|].
  destruct (nth_error d off) as [v|] eqn:Ev; [|apply nth_error_None in Ev; lia].
  destruct (resize_spec false junk _ _ _ _ _ _ _ R H1 H4 H3 Hr) as (h' & b' & Er & R' & Hb' & Hn' & Hcap').
  assert (i < length (blks m)) as Hi by (apply nth_error_Some; congruence).
  assert (get_blk (set_blk m h' i (Some b')) i = Ok b') as Hg.
  { unfold get_blk, set_blk. cbn. rewrite nth_lset_eqb, Nat.eqb_refl by auto. reflexivity. }
  exists m, ys, (set_blk m h' i (Some b')), v, (N.of_nat (bcap b)), (N.of_nat (bcap b')). split; [exact E|].
  assert (peek (hp m) (bptr b) off = Ok v) as Hpk by (rewrite Hp; apply peek_cell; eauto).
  unfold m_step. rewrite Hg, H2. cbn [bind]. rewrite Hpk, Er. cbn [bind].
  unfold nx_mem_block_resize in Er. destruct (nx_mem_block_reserve false junk (hp m) b n) as [[h1 b1]| | |] eqn:Ers; try discriminate. cbn [bind] in Er.
  injection Er as <- <-. cbn [bptr set_blk hp]. rewrite (reserve_peek _ _ _ _ _ _ _ off v Ers) by (auto; lia). cbn [bind].
  repeat split; auto.
  - cbn [bcap]. clear - Ers. unfold nx_mem_block_reserve in Ers. destruct (Nat.ltb_spec (bcap b) n); [|injection Ers as <- <-; lia].
    destruct (bown b); [destruct (bptr b)|].
    + destruct (hget (hp m) n0); try discriminate. cbn [bind] in Ers. destruct (hfree (hp m) n0); try discriminate. cbn [bind halloc] in Ers.
      injection Ers as <- <-. cbn. lia.
    + cbn in Ers. injection Ers as <- <-. cbn. lia.
    + cbn [halloc] in Ers. match type of Ers with context [bind ?e] => destruct e; try discriminate end. cbn [bind] in Ers. injection Ers as <- <-. cbn. lia.
  - cbn [bcap]. destruct (brel_sizes _ _ _ _ _ Hb') as (_ & Hc' & _). cbn [bcap] in Hc'. lia.
Qed.
Print Assumptions C09_resize_keeps_bytes.

(** A copy has the size and the bytes of its source, and the source keeps its
    bytes. *)
Theorem C09_copy_equal : forall junk os s xs i j s' x,
  m_spec_run s_init os = Some (s, xs) -> m_spec s (MCopy i j) = Some (s', x) ->
  exists m ys m' n,
    m_run false junk m_init os = Ok (m, ys) /\
    m_step false junk m (MCopy i j) = Ok (m', None) /\
    m_step false junk m' (MSize i) = Ok (m', Some (N.of_nat n)) /\
    m_step false junk m' (MSize j) = Ok (m', Some (N.of_nat n)) /\
    forall off, off < n -> exists v,
      m_step false junk m' (MLoad i off) = Ok (m', Some v) /\ m_step false junk m' (MLoad j off) = Ok (m', Some v).
Proof.
  intros junk os s xs i j s' x H Hs.
  destruct (run_spec junk os _ _ _ _ rel_init H) as (m & ys & E & R & A).
  destruct (step_spec junk _ _ _ _ _ R Hs) as (m' & y & E' & R' & A').
  assert (exists b d, get_blk m j = Ok b /\ get_blk m i = Ok d /\ i <> j /\ (0 < bsize b -> bptr b <> None)) as (b & d & Hb & Hd & Hij & Hnn).
  { cbn [m_spec] in Hs. destruct (block s i) as [sd|] eqn:Esd; [|discriminate]. destruct (block s j) as [sb|] eqn:Esb; [|discriminate].
    destruct (Nat.eqb_spec i j) as [|Hij]; [discriminate|]. destruct (s_bytes s sb (s_size sb)) as [c0|] eqn:Eb; [|discriminate].
    destruct (rel_get _ _ _ _ R Esd) as (d & _ & H2d & _ & _). destruct (rel_get _ _ _ _ R Esb) as (b & _ & H2 & _ & H4).
    exists b, d. repeat split; auto. intros Hpos. destruct (brel_sizes _ _ _ _ _ H4) as (Hbs & _ & Hle).
    destruct (bytes_spec _ _ _ _ _ _ R H4 Eb) as (p & d0 & Hp & _); try lia. congruence. }
  exists m, ys, m', (bsize b). split; [auto|]. unfold m_step in E'. rewrite Hb, Hd in E'. cbn [bind] in E'.
  destruct (nx_mem_block_copy false junk (hp m) d b) as [[h1 d1]| | |] eqn:Ec; try discriminate. cbn [bind] in E'. injection E' as <- <-.
  assert (i < length (blks m)) as Hi by (unfold get_blk in Hd; apply nth_error_Some; destruct (nth_error (blks m) i); congruence).
  assert (get_blk (set_blk m h1 i (Some d1)) i = Ok d1) as Hg.
  { unfold get_blk, set_blk. cbn. rewrite nth_lset_eqb, Nat.eqb_refl by auto. reflexivity. }
  assert (get_blk (set_blk m h1 i (Some d1)) j = Ok b) as Hgj.
  { unfold get_blk, set_blk in *. cbn. rewrite nth_lset_eqb by auto. replace (j =? i) with false by lia. auto. }
  destruct (copy_peek _ _ _ _ _ _ _ Ec) as [Hsz Hpk].
  split; [unfold m_step; rewrite Hb, Hd; cbn [bind]; rewrite Ec; reflexivity|].
  split; [unfold m_step; rewrite Hg; cbn [bind]; rewrite Hsz; reflexivity|].
  split; [unfold m_step; rewrite Hgj; reflexivity|].
  intros off Hoff. destruct (Hpk off Hoff) as (v & Hv1 & Hv2); [apply Hnn; lia|]. exists v.
  unfold m_step. rewrite Hg, Hgj. cbn [bind set_blk hp]. rewrite Hv1, Hv2. split; reflexivity.
Qed.
Print Assumptions C09_copy_equal.

(** Copying a non-empty owning block onto itself is an overlapping memcpy. *)
Theorem C09_self_copy_refuted : forall junk n,
  0 < n -> m_run false junk m_init [MNew n; MCopy 0 0] = UB.
Proof.
  intros junk n Hn. cbn [m_run m_step m_init]. unfold nx_mem_block_new, nx_mem_block_resize, nx_mem_block_reserve. cbn -[Nat.ltb Nat.eqb].
  replace (0 <? n) with true by lia. change (0 <? 0) with false. cbn -[Nat.ltb Nat.eqb]. unfold nx_mem_block_copy, nx_mem_block_resize, nx_mem_block_reserve.
  cbn -[Nat.ltb Nat.eqb]. replace (n <? n) with false by lia. cbn -[Nat.ltb Nat.eqb]. unfold memcpy.
  replace (n =? 0) with false by lia. reflexivity.
Qed.
Print Assumptions C09_self_copy_refuted.

(** Copying a block emptied by resize(0) onto a fresh block passes NULL to
    memcpy, which C leaves undefined ([strict]). *)
Theorem C09_copy_emptied_refuted :
  m_run true (fun _ => 0%N) m_init [MNew 4; MResize 0 0; MAlloc; MCopy 1 0] = UB.
Proof. reflexivity. Qed.
Print Assumptions C09_copy_emptied_refuted.

Example C09_example :
  let os := [MNew 2; MStore 0 0 7%N; MStore 0 1 8%N; MResize 0 4; XMalloc [1; 2; 3]%N; MAlloc; MWrap 1 0 3 3 false;
             MSwap 0 1; MCopy 0 1; MSetZero 1; MLoad 0 1; MLoad 0 2; MLoad 1 2; MSize 0; MCap 0; XLoad 0 2; MCopy0 0; MReserve 2 9; MSize 2; MCap 2; MRelease 2; MCap 2] in
  let (s, xs) := match m_spec_run s_init os with Some r => r | None => (s_init, []) end in
  xs = [None; None; None; None; None; None; None; None; None; None; Some (Some 8%N); Some None; Some (Some 0%N); Some (Some 4%N);
        Some (Some 4%N); Some (Some 3%N); None; None; Some (Some 4%N); Some (Some 9%N); None; Some (Some 0%N)].
Proof. vm_compute. reflexivity. Qed.

(** C10: in every state reached by a history within the contract, a live heap
    buffer is owned by exactly one block or is a client buffer that was neither
    freed nor handed over, never both; so no buffer leaks and none is freed
    twice (a double free is undefined behaviour in the model). *)
Theorem C10_ownership : forall junk os s xs,
  m_spec_run s_init os = Some (s, xs) ->
  exists m ys,
    m_run false junk m_init os = Ok (m, ys) /\
    let owned i p := exists b, nth_error (blks m) i = Some (Some b) /\ bown b = true /\ bptr b = Some p in
    let client k p := nth_error (exts m) k = Some p /\ buffer s k <> None in
    (forall p, cell (hp m) p <> None <-> (exists i, owned i p) \/ (exists k, client k p)) /\
    (forall i j p, owned i p -> owned j p -> i = j) /\
    (forall i k p, owned i p -> client k p -> False) /\
    (Forall (fun b => b = None) (blks m) -> Forall (fun c => c = None) (sbufs s) -> forall p, cell (hp m) p = None).
Proof.
  intros junk os s xs H. destruct (run_spec junk os _ _ _ _ rel_init H) as (m & ys & E & R & A).
  exists m, ys. split; [auto|]. intros owned client.
  assert (forall i p, owned i p <-> owns (blks m) i p) as Ho.
  { intros i p. unfold owned, owns, bowned. split.
    - intros (b & H1 & H2 & H3). exists (Some b). split; [auto|]. rewrite H2. auto.
    - intros ([b|] & H1 & H2); [|discriminate]. exists b. split; [auto|]. destruct (bown b); [auto|discriminate]. }
  assert (forall p, cell (hp m) p <> None <-> (exists i, owned i p) \/ (exists k, client k p)) as HL.
  { intros p. rewrite (R_live _ _ R p). split; (intros [(i & Hi)|Hk]; [left; exists i; apply Ho; auto|right]).
    - destruct Hk as (k & c & H1 & H2). exists k. split; [auto|congruence].
    - destruct Hk as (k & H1 & H2). destruct (buffer s k) as [c|] eqn:Eb; [|congruence]. exists k, c. auto. }
  split; [exact HL|]. split; [|split].
  - intros i j p H1 H2. apply (R_owninj _ _ R i j p); apply Ho; auto.
  - intros i k p H1 [H2 H3]. apply H3. eapply (R_ownext _ _ R); [apply Ho|]; eauto.
  - intros H1 H2 p. destruct (cell (hp m) p) eqn:Ec; [|auto]. exfalso.
    destruct (proj1 (HL p)) as [(i & b & Hb & _)|(k & _ & Hk)]; [congruence| |].
    + eapply Forall_forall in H1; [|eapply nth_error_In; eauto]. discriminate.
    + apply Hk. unfold buffer. destruct (nth_error (sbufs s) k) as [c|] eqn:En; [|auto].
      eapply Forall_forall in H2; [|eapply nth_error_In; eauto]. subst; auto.
Qed.
Print Assumptions C10_ownership.

(** A client buffer stays allocated until the client frees it or hands it over
    with ownership, whatever the blocks wrapping it do. *)
Theorem C10_foreign_buffer_survives : forall junk os1 bs os2 s1 xs1 s xs,
  m_spec_run s_init os1 = Some (s1, xs1) ->
  let k := length (sbufs s1) in
  m_spec_run s_init (os1 ++ XMalloc bs :: os2) = Some (s, xs) ->
  ~ In (XFree k) os2 -> (forall i sz cap, ~ In (MWrap i k sz cap true) os2) ->
  exists m ys p d,
    m_run false junk m_init (os1 ++ XMalloc bs :: os2) = Ok (m, ys) /\
    nth_error (exts m) k = Some p /\ cell (hp m) p = Some d /\ length d = length bs.
Proof.
  intros junk os1 bs os2 s1 xs1 s xs H1 k H Hf Hw.
  destruct (run_spec junk _ _ _ _ _ rel_init H) as (m & ys & E & R & A).
  assert (exists s2 xs2, m_spec_run (mkS (sblks s1) (sbufs s1 ++ [Some (map Some bs)])) os2 = Some (s2, xs2) /\ s2 = s) as (s2 & xs2 & H2 & ->).
  { assert (forall os1 s0 s1 xs1, m_spec_run s0 os1 = Some (s1, xs1) -> forall os2 s xs, m_spec_run s0 (os1 ++ os2) = Some (s, xs) ->
      exists xs2, m_spec_run s1 os2 = Some (s, xs2)) as G.
    { clear. induction os1 as [|o os1 IH]; intros s0 s1 xs1 H os2 s xs H2; cbn in H, H2.
      - injection H as <- <-. eauto.
      - destruct (m_spec s0 o) as [[s' x]|]; [|discriminate]. destruct (m_spec_run s' os1) as [[s'' xs']|] eqn:E1; [|discriminate]. injection H as <- <-.
        destruct (m_spec_run s' (os1 ++ os2)) as [[s3 xs3]|] eqn:E2; [|discriminate]. injection H2 as <- <-. eapply IH; eauto. }
    destruct (G _ _ _ _ H1 _ _ _ H) as (xs2 & H2). cbn [m_spec_run m_spec] in H2.
    destruct (m_spec_run _ os2) as [[s2 ys2]|]; [|discriminate]. injection H2 as -> _. eauto. }
  destruct (run_buffer _ _ _ _ k (map Some bs) H2) as (c & Hc & Hl); auto.
  { unfold buffer. cbn. rewrite nth_error_app2, Nat.sub_diag by (unfold k; lia). reflexivity. }
  assert (k < length (exts m)) as Hk.
  { rewrite (R_ext_len _ _ R). unfold buffer in Hc. apply nth_error_Some. destruct (nth_error (sbufs s) k); congruence. }
  destruct (nth_error (exts m) k) as [p|] eqn:Ep; [|apply nth_error_None in Ep; lia].
  destruct (R_buf _ _ R _ _ _ Hc Ep) as (d & Hd & Hs). exists m, ys, p, d. split; [auto|]. split; [auto|]. split; [auto|].
  apply Forall2_length in Hs. rewrite map_length in Hl. lia.
Qed.
Print Assumptions C10_foreign_buffer_survives.

Example C10_example :
  let os1 := [MNew 3] in
  let os2 := [MWrap 0 0 2 2 false; MResize 0 5; MAlloc; MWrap 1 0 2 2 false; MFree 1; MFree 0] in
  match m_spec_run s_init (os1 ++ XMalloc [1; 2]%N :: os2) with
  | Some (s, _) => sblks s = [None; None] /\ sbufs s = [Some [Some 1%N; Some 2%N]]
  | None => False
  end /\
  match m_run false (fun _ => 9%N) m_init (os1 ++ XMalloc [1; 2]%N :: os2) with
  | Ok (m, _) => hp m = [None; Some [1; 2]%N; None]
  | _ => False
  end.
Proof. vm_compute. auto. Qed.
