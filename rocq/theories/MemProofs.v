(** Proofs about memory blocks. *)
From Verif Require Import Base BaseLemmas Heap ShaModel StrModel MemModel MemSpec.
Local Open Scope nat_scope.

Definition matches (o : option N) (b : N) : Prop := match o with None => True | Some v => v = b end.
Notation sees := (Forall2 matches).

Lemma onat_dec (a b : option nat) : {a = b} + {a <> b}.
Proof. decide equality. apply Nat.eq_dec. Defined.

Lemma sees_app a b c d : sees a c -> sees b d -> sees (a ++ b) (c ++ d).
Proof. apply Forall2_app. Qed.
Lemma sees_firstn n a c : sees a c -> sees (firstn n a) (firstn n c).
Proof.
  intros H. revert n. induction H as [|x y a c Hx H IH]; intros [|n]; cbn; constructor; auto.
Qed.
Lemma sees_skipn n a c : sees a c -> sees (skipn n a) (skipn n c).
Proof.
  intros H. revert n. induction H as [|x y a c Hx H IH]; intros [|n]; cbn; try constructor; auto.
Qed.
Lemma sees_none l : sees (repeat None (length l)) l.
Proof. induction l; cbn; constructor; cbn; auto. Qed.
Lemma sees_none_n l n : length l = n -> sees (repeat None n) l.
Proof. intros <-. apply sees_none. Qed.
Lemma sees_length a c : sees a c -> length a = length c.
Proof. apply Forall2_length. Qed.
Lemma sees_map_some l : sees (map Some l) l.
Proof. induction l; cbn; constructor; cbn; auto. Qed.
Lemma sees_nth a c i x : sees a c -> nth_error a i = Some x -> exists v, nth_error c i = Some v /\ matches x v.
Proof.
  intros H. revert i. induction H as [|y v a c Hy H IH]; intros [|i] E; cbn in *; try discriminate.
  - injection E as ->. eauto.
  - eauto.
Qed.

Lemma realloc_length junk c n : length (realloc junk c n) = n.
Proof.
  unfold realloc. rewrite app_length, firstn_length, map_length, seq_length. lia.
Qed.

(** Pointers owned by a block. *)
Definition bowned (b : option blk) : option nat :=
  match b with Some b => if bown b then bptr b else None | None => None end.
Definition owns (bl : list (option blk)) (i p : nat) : Prop :=
  exists b, nth_error bl i = Some b /\ bowned b = Some p.

Definition brel (h : bheap) (ex : list nat) (s : sstate) (b : blk) (sb : sblk) : Prop :=
  match sb with
  | SOwned n buf =>
    bsize b = n /\ bcap b = length buf /\ n <= length buf /\
    ((bptr b = None /\ bown b = false /\ buf = []) \/
     exists p c1 c2, bptr b = Some p /\ bown b = true /\ cell h p = Some (c1 ++ c2) /\ sees buf c1)
  | SView k n cap =>
    exists p, nth_error ex k = Some p /\ b = mkBlk (Some p) n cap false /\ n <= cap /\
              (forall c, buffer s k = Some c -> cap <= length c)
  end.

Definition orel h ex s (b : option blk) (sb : option sblk) : Prop :=
  match b, sb with Some b, Some sb => brel h ex s b sb | None, None => True | _, _ => False end.

Record rel (m : mstate) (s : sstate) : Prop := {
  R_len : length (blks m) = length (sblks s);
  R_blk : forall i b sb, nth_error (blks m) i = Some b -> nth_error (sblks s) i = Some sb -> orel (hp m) (exts m) s b sb;
  R_ext_len : length (exts m) = length (sbufs s);
  R_inj : NoDup (exts m);
  R_ext_lt : forall p, In p (exts m) -> p < length (hp m);
  R_buf : forall k c p, buffer s k = Some c -> nth_error (exts m) k = Some p ->
            exists d, cell (hp m) p = Some d /\ sees c d;
  R_owninj : forall i j p, owns (blks m) i p -> owns (blks m) j p -> i = j;
  R_ownext : forall i k p, owns (blks m) i p -> nth_error (exts m) k = Some p -> buffer s k = None;
  R_live : forall p, cell (hp m) p <> None <->
             (exists i, owns (blks m) i p) \/ (exists k c, nth_error (exts m) k = Some p /\ buffer s k = Some c) }.

Lemma rel_init : rel m_init s_init.
Proof.
  constructor; cbn; auto.
  - intros [|i]; discriminate.
  - constructor.
  - intros p [].
  - intros [|k]; discriminate.
  - intros [|i] j p (b & E & _); discriminate.
  - intros [|i] k p (b & E & _); discriminate.
  - intros p. unfold cell. destruct p; cbn [nth_error]; (split; [intros H; contradiction H; reflexivity|]);
    (intros [(i & b & E & _)|(k & c & E & _)]; [destruct i|destruct k]; discriminate).
Qed.

Lemma nth_lset_eqb {A} (l : list A) i j v : i < length l ->
  nth_error (lset l i v) j = if j =? i then Some v else nth_error l j.
Proof.
  intros H. destruct (Nat.eqb_spec j i) as [->|Hn].
  - apply nth_error_lset_eq; auto.
  - apply nth_error_lset_neq; auto.
Qed.

Lemma owns_lset bl i j ob p : i < length bl ->
  owns (lset bl i ob) j p <-> if j =? i then bowned ob = Some p else owns bl j p.
Proof.
  intros H. unfold owns. rewrite nth_lset_eqb by auto. destruct (j =? i); [|reflexivity].
  split; [intros (b & [= ->] & E); auto|eauto].
Qed.

Lemma brel_ext h h' ex s s' b sb :
  (forall p, bowned (Some b) = Some p -> cell h' p = cell h p) ->
  (forall k c, buffer s' k = Some c -> exists c', buffer s k = Some c' /\ length c' = length c) ->
  brel h ex s b sb -> brel h' ex s' b sb.
Proof.
  intros Hc Hb. destruct sb as [n buf|k n cap]; cbn.
  - intros (H1 & H2 & H3 & [H4|(p & c1 & c2 & Hp & Ho & Hcell & Hs)]); repeat (split; [assumption|]); [left; auto|].
    right. exists p, c1, c2. repeat (split; auto). rewrite Hc; auto. cbn. rewrite Ho. auto.
  - intros (p & E & -> & Hn & Hl). exists p. repeat (split; auto).
    intros c Hk. destruct (Hb _ _ Hk) as (c' & Hc' & <-). eauto.
Qed.

(** *** Changing one block and the buffer it owns *)
Lemma owns_at bl i b q : nth_error bl i = Some b -> owns bl i q <-> bowned b = Some q.
Proof. intros E. unfold owns. split; [intros (b' & E' & H); congruence|eauto]. Qed.

Lemma rel_upd m s i b h' ob osb :
  rel m s -> nth_error (blks m) i = Some b ->
  (forall q, bowned ob = Some q -> bowned b = Some q \/ length (hp m) <= q) ->
  length (hp m) <= length h' ->
  (forall q, bowned ob = Some q -> cell h' q <> None) ->
  (forall q, bowned ob <> Some q -> bowned b = Some q -> cell h' q = None) ->
  (forall q, bowned ob <> Some q -> bowned b <> Some q -> cell h' q = cell (hp m) q) ->
  orel h' (exts m) s ob osb ->
  rel (mkM h' (lset (blks m) i ob) (exts m)) (mkS (lset (sblks s) i osb) (sbufs s)).
Proof.
  intros R Hi Hnew Hlen Hlive Hdead Hsame Hob.
  assert (i < length (blks m)) as Hlt by (apply nth_error_Some; congruence).
  assert (Hltlive : forall q, cell (hp m) q <> None -> q < length (hp m)).
  { intros q Hq. destruct (cell (hp m) q) eqn:E; [|congruence]. eapply cell_lt; eauto. }
  assert (Hownlt : forall j q, owns (blks m) j q -> q < length (hp m)).
  { intros j q Hq. apply Hltlive. apply (R_live _ _ R). eauto. }
  assert (Hother : forall j q, j <> i -> owns (blks m) j q -> bowned ob <> Some q /\ bowned b <> Some q).
  { intros j q Hj Hq. assert (bowned b <> Some q) as Hb.
    { intros E. apply Hj. eapply (R_owninj _ _ R); [exact Hq|]. apply (owns_at _ _ _ _ Hi); auto. }
    split; auto. intros E. destruct (Hnew _ E) as [E'|E']; [auto|]. specialize (Hownlt _ _ Hq). lia. }
  assert (Hextok : forall k c q, nth_error (exts m) k = Some q -> buffer s k = Some c -> bowned ob <> Some q /\ bowned b <> Some q).
  { intros k c q Hk Hc. assert (bowned b <> Some q) as Hb.
    { intros E. apply (owns_at _ _ _ _ Hi) in E. rewrite (R_ownext _ _ R _ _ _ E Hk) in Hc. discriminate. }
    split; auto. intros E. destruct (Hnew _ E) as [E'|E']; [auto|].
    apply nth_error_In in Hk. pose proof (R_ext_lt _ _ R _ Hk). lia. }
  constructor; cbn [hp blks exts sblks sbufs].
  - rewrite !lset_length. apply (R_len _ _ R).
  - intros j b' sb'. rewrite nth_lset_eqb by auto. rewrite nth_lset_eqb by (rewrite <- (R_len _ _ R); auto).
    destruct (Nat.eqb_spec j i) as [->|Hj].
    + intros [= <-] [= <-]. exact Hob.
    + intros E1 E2. pose proof (R_blk _ _ R _ _ _ E1 E2) as Hr.
      destruct b' as [b'|], sb' as [sb'|]; cbn in *; auto.
      eapply brel_ext; [| |exact Hr].
      * intros p Hp. destruct (Hother j p Hj) as [H1 H2]; [exists (Some b'); auto|]. apply Hsame; auto.
      * intros k c Hk. exists c. auto.
  - apply (R_ext_len _ _ R).
  - apply (R_inj _ _ R).
  - intros p Hp. pose proof (R_ext_lt _ _ R _ Hp). lia.
  - intros k c p Hk Hp. change (buffer s k = Some c) in Hk. destruct (R_buf _ _ R _ _ _ Hk Hp) as (d & Hd & Hs).
    destruct (Hextok _ _ _ Hp Hk). exists d. rewrite Hsame; auto.
  - intros j j' p. rewrite !owns_lset by auto.
    destruct (Nat.eqb_spec j i) as [->|Hj], (Nat.eqb_spec j' i) as [->|Hj']; auto.
    + intros E Ho. destruct (Hother _ _ Hj' Ho). contradiction.
    + intros Ho E. destruct (Hother _ _ Hj Ho). contradiction.
    + apply (R_owninj _ _ R).
  - intros j k p. rewrite owns_lset by auto. change (buffer (mkS (lset (sblks s) i osb) (sbufs s)) k) with (buffer s k).
    destruct (Nat.eqb_spec j i) as [->|Hj]; [|apply (R_ownext _ _ R)].
    intros E Hk. destruct (buffer s k) eqn:Eb; [|reflexivity]. destruct (Hextok _ _ _ Hk Eb). contradiction.
  - intros p. split.
    + intros Hp. destruct (onat_dec (bowned ob) (Some p)) as [E|E].
      * left. exists i. apply owns_lset; auto. rewrite Nat.eqb_refl. auto.
      * destruct (onat_dec (bowned b) (Some p)) as [E'|E']; [rewrite (Hdead p) in Hp; congruence|].
        rewrite Hsame in Hp by auto. apply (R_live _ _ R) in Hp as [(j & Hj)|H]; [|right; exact H].
        left. exists j. apply owns_lset; auto. destruct (Nat.eqb_spec j i) as [->|]; auto.
        apply (owns_at _ _ _ _ Hi) in Hj. contradiction.
    + intros [(j & Hj)|(k & c & Hk & Hc)].
      * rewrite owns_lset in Hj by auto. revert Hj. destruct (Nat.eqb_spec j i) as [Heq|Hne]; intros Hj; [apply Hlive; auto|].
        destruct (Hother _ _ Hne Hj). rewrite Hsame by auto. apply (R_live _ _ R). eauto.
      * change (buffer s k = Some c) in Hc. destruct (Hextok _ _ _ Hk Hc). rewrite Hsame by auto. apply (R_live _ _ R). eauto.
Qed.

(** *** Other frame rules *)
Lemma rel_bufupd m s k c p d' c' :
  rel m s -> buffer s k = Some c -> nth_error (exts m) k = Some p ->
  sees c' d' -> length c' = length c ->
  rel (mkM (lset (hp m) p (Some d')) (blks m) (exts m)) (mkS (sblks s) (lset (sbufs s) k (Some c'))).
Proof.
  intros R Hk Hp Hs Hl.
  assert (k < length (sbufs s)) as Hklt.
  { unfold buffer in Hk. apply nth_error_Some. destruct (nth_error (sbufs s) k); congruence. }
  assert (p < length (hp m)) as Hplt by (apply (R_ext_lt _ _ R); eapply nth_error_In; eauto).
  assert (Hbuf : forall j, buffer (mkS (sblks s) (lset (sbufs s) k (Some c'))) j = if j =? k then Some c' else buffer s j).
  { intros j. unfold buffer. cbn [sbufs]. rewrite nth_lset_eqb by auto. destruct (j =? k); reflexivity. }
  assert (Hnown : forall i, ~ owns (blks m) i p).
  { intros i Ho. rewrite (R_ownext _ _ R _ _ _ Ho Hp) in Hk. discriminate. }
  constructor; cbn [hp blks exts sblks sbufs].
  - apply (R_len _ _ R).
  - intros i b sb E1 E2. pose proof (R_blk _ _ R _ _ _ E1 E2) as Hr. destruct b as [b|], sb as [sb|]; cbn in *; auto.
    eapply brel_ext; [| |exact Hr].
    + intros q Hq. rewrite cell_lset by auto. destruct (Nat.eqb_spec q p) as [->|]; auto.
      exfalso. apply (Hnown i). exists (Some b). auto.
    + intros j cj. rewrite Hbuf. destruct (Nat.eqb_spec j k) as [->|]; eauto. intros [= <-]. eauto.
  - rewrite lset_length. apply (R_ext_len _ _ R).
  - apply (R_inj _ _ R).
  - rewrite lset_length. apply (R_ext_lt _ _ R).
  - intros j cj q. rewrite Hbuf, cell_lset by auto. destruct (Nat.eqb_spec j k) as [->|Hj].
    + intros [= <-] Hq. rewrite Hp in Hq. injection Hq as <-. rewrite Nat.eqb_refl. eauto.
    + intros Hc Hq. destruct (Nat.eqb_spec q p) as [->|]; [|eapply (R_buf _ _ R); eauto].
      exfalso. apply Hj. apply (proj1 (NoDup_nth_error (exts m)) (R_inj _ _ R)); [|congruence].
      apply nth_error_Some. congruence.
  - apply (R_owninj _ _ R).
  - intros i j q Ho Hq. rewrite Hbuf. destruct (Nat.eqb_spec j k) as [->|]; [|eapply (R_ownext _ _ R); eauto].
    rewrite Hp in Hq. injection Hq as <-. exfalso. eapply Hnown; eauto.
  - intros q. rewrite cell_lset by auto. destruct (Nat.eqb_spec q p) as [->|Hq].
    + split; [|congruence]. intros _. right. exists k, c'. rewrite Hbuf, Nat.eqb_refl. auto.
    + rewrite (R_live _ _ R). split; (intros [H|(j & cj & Hj & Hc)]; [left; exact H|right]).
      * exists j, cj. rewrite Hbuf. destruct (Nat.eqb_spec j k) as [->|]; [congruence|auto].
      * rewrite Hbuf in Hc. revert Hc. destruct (Nat.eqb_spec j k) as [->|]; intros Hc; [congruence|eauto].
Qed.

(** Ending the life of client buffer [k]: its cell is freed, or taken over by
    block [i] that owned nothing. *)
Lemma rel_buffree m s k c p :
  rel m s -> buffer s k = Some c -> nth_error (exts m) k = Some p ->
  rel (mkM (lset (hp m) p None) (blks m) (exts m)) (mkS (sblks s) (lset (sbufs s) k None)).
Proof.
  intros R Hk Hp.
  assert (k < length (sbufs s)) as Hklt.
  { unfold buffer in Hk. apply nth_error_Some. destruct (nth_error (sbufs s) k); congruence. }
  assert (p < length (hp m)) as Hplt by (apply (R_ext_lt _ _ R); eapply nth_error_In; eauto).
  assert (Hbuf : forall j, buffer (mkS (sblks s) (lset (sbufs s) k None)) j = if j =? k then None else buffer s j).
  { intros j. unfold buffer. cbn [sbufs]. rewrite nth_lset_eqb by auto. destruct (j =? k); reflexivity. }
  assert (Hnown : forall i, ~ owns (blks m) i p).
  { intros i Ho. rewrite (R_ownext _ _ R _ _ _ Ho Hp) in Hk. discriminate. }
  constructor; cbn [hp blks exts sblks sbufs].
  - apply (R_len _ _ R).
  - intros i b sb E1 E2. pose proof (R_blk _ _ R _ _ _ E1 E2) as Hr. destruct b as [b|], sb as [sb|]; cbn in *; auto.
    eapply brel_ext; [| |exact Hr].
    + intros q Hq. rewrite cell_lset by auto. destruct (Nat.eqb_spec q p) as [->|]; auto.
      exfalso. apply (Hnown i). exists (Some b). auto.
    + intros j cj. rewrite Hbuf. destruct (Nat.eqb_spec j k) as [->|]; eauto. discriminate.
  - rewrite lset_length. apply (R_ext_len _ _ R).
  - apply (R_inj _ _ R).
  - rewrite lset_length. apply (R_ext_lt _ _ R).
  - intros j cj q. rewrite Hbuf, cell_lset by auto. destruct (Nat.eqb_spec j k) as [->|Hj]; [discriminate|].
    intros Hc Hq. destruct (Nat.eqb_spec q p) as [->|]; [|eapply (R_buf _ _ R); eauto].
    exfalso. apply Hj. apply (proj1 (NoDup_nth_error (exts m)) (R_inj _ _ R)); [|congruence].
    apply nth_error_Some. congruence.
  - apply (R_owninj _ _ R).
  - intros i j q Ho Hq. rewrite Hbuf. destruct (Nat.eqb_spec j k) as [->|]; [auto|eapply (R_ownext _ _ R); eauto].
  - intros q. rewrite cell_lset by auto. destruct (Nat.eqb_spec q p) as [->|Hq].
    + split; [congruence|]. intros [(i & Ho)|(j & cj & Hj & Hc)]; [exfalso; eapply Hnown; eauto|].
      rewrite Hbuf in Hc. revert Hc. destruct (Nat.eqb_spec j k) as [->|Hne]; intros Hc; [discriminate|].
      exfalso. apply Hne. apply (proj1 (NoDup_nth_error (exts m)) (R_inj _ _ R)); [|congruence].
      apply nth_error_Some. congruence.
    + rewrite (R_live _ _ R). split; (intros [H|(j & cj & Hj & Hc)]; [left; exact H|right]).
      * exists j, cj. rewrite Hbuf. destruct (Nat.eqb_spec j k) as [->|]; [congruence|auto].
      * rewrite Hbuf in Hc. revert Hc. destruct (Nat.eqb_spec j k) as [->|]; intros Hc; [discriminate|eauto].
Qed.

Lemma rel_take m s i b k c p sz cap :
  rel m s -> nth_error (blks m) i = Some b -> bowned b = None ->
  buffer s k = Some c -> nth_error (exts m) k = Some p -> sz <= cap -> cap <= length c ->
  rel (mkM (hp m) (lset (blks m) i (Some (mkBlk (Some p) sz cap true))) (exts m))
      (mkS (lset (sblks s) i (Some (SOwned sz (firstn cap c)))) (lset (sbufs s) k None)).
Proof.
  intros R Hi Hb Hk Hp Hsz Hcap.
  assert (i < length (blks m)) as Hlt by (apply nth_error_Some; congruence).
  assert (k < length (sbufs s)) as Hklt.
  { unfold buffer in Hk. apply nth_error_Some. destruct (nth_error (sbufs s) k); congruence. }
  assert (p < length (hp m)) as Hplt by (apply (R_ext_lt _ _ R); eapply nth_error_In; eauto).
  set (s' := mkS _ _).
  assert (Hbuf : forall j, buffer s' j = if j =? k then None else buffer s j).
  { intros j. unfold buffer, s'. cbn [sbufs]. rewrite nth_lset_eqb by auto. destruct (j =? k); reflexivity. }
  assert (Hnown : forall i, ~ owns (blks m) i p).
  { intros j Ho. rewrite (R_ownext _ _ R _ _ _ Ho Hp) in Hk. discriminate. }
  assert (Hno : forall q, ~ owns (blks m) i q).
  { intros q Ho. apply (owns_at _ _ _ _ Hi) in Ho. congruence. }
  destruct (R_buf _ _ R _ _ _ Hk Hp) as (d & Hd & Hs).
  constructor; cbn [hp blks exts].
  - unfold s'. cbn [sblks]. rewrite !lset_length. apply (R_len _ _ R).
  - intros j b' sb'. unfold s' at 1. cbn [sblks]. rewrite nth_lset_eqb by auto. rewrite nth_lset_eqb by (rewrite <- (R_len _ _ R); auto).
    destruct (Nat.eqb_spec j i) as [->|Hj].
    + intros [= <-] [= <-]. cbn. rewrite firstn_length. split; [auto|]. split; [lia|]. split; [lia|]. right.
      exists p, (firstn cap d), (skipn cap d). rewrite firstn_skipn. repeat (split; auto). apply sees_firstn; auto.
    + intros E1 E2. pose proof (R_blk _ _ R _ _ _ E1 E2) as Hr.
      destruct b' as [b'|], sb' as [sb'|]; cbn in *; auto.
      eapply brel_ext; [| |exact Hr]; auto.
      intros x cx. rewrite Hbuf. destruct (x =? k); [discriminate|eauto].
  - unfold s'. cbn [sbufs]. rewrite lset_length. apply (R_ext_len _ _ R).
  - apply (R_inj _ _ R).
  - apply (R_ext_lt _ _ R).
  - intros j cj q. rewrite Hbuf. destruct (j =? k); [discriminate|]. apply (R_buf _ _ R).
  - intros j j' q. rewrite !owns_lset by auto.
    destruct (Nat.eqb_spec j i) as [->|Hj], (Nat.eqb_spec j' i) as [->|Hj']; auto; cbn.
    + intros [= <-] Ho. exfalso. eapply Hnown; eauto.
    + intros Ho [= <-]. exfalso. eapply Hnown; eauto.
    + apply (R_owninj _ _ R).
  - intros j x q. rewrite owns_lset, Hbuf by auto. destruct (Nat.eqb_spec x k) as [->|Hx]; [auto|].
    destruct (Nat.eqb_spec j i) as [->|Hj]; cbn; [|apply (R_ownext _ _ R)].
    intros [= <-] Hq. exfalso. apply Hx. apply (proj1 (NoDup_nth_error (exts m)) (R_inj _ _ R)); [|congruence].
    apply nth_error_Some. congruence.
  - intros q. rewrite (R_live _ _ R). split.
    + intros [(j & Ho)|(x & cx & Hx & Hc)].
      * left. exists j. rewrite owns_lset by auto. destruct (Nat.eqb_spec j i) as [->|]; auto. exfalso. eapply Hno; eauto.
      * destruct (Nat.eq_dec x k) as [->|Hne].
        -- left. exists i. rewrite owns_lset, Nat.eqb_refl by auto. cbn. congruence.
        -- right. exists x, cx. rewrite Hbuf. replace (x =? k) with false by lia. auto.
    + intros [(j & Ho)|(x & cx & Hx & Hc)].
      * rewrite owns_lset in Ho by auto. revert Ho. destruct (Nat.eqb_spec j i) as [Heq|]; intros Ho; [|left; eauto].
        cbn in Ho. injection Ho as <-. right. eauto.
      * rewrite Hbuf in Hc. revert Hc. destruct (Nat.eqb_spec x k) as [->|]; intros Hc; [discriminate|]. right. eauto.
Qed.

Lemma rel_addbuf m s bs : rel m s ->
  rel (mkM (hp m ++ [Some bs]) (blks m) (exts m ++ [length (hp m)])) (mkS (sblks s) (sbufs s ++ [Some (map Some bs)])).
Proof.
  intros R.
  assert (Hltlive : forall q, cell (hp m) q <> None -> q < length (hp m)).
  { intros q Hq. destruct (cell (hp m) q) eqn:E; [|congruence]. eapply cell_lt; eauto. }
  assert (Hownlt : forall j q, owns (blks m) j q -> q < length (hp m)).
  { intros j q Hq. apply Hltlive. apply (R_live _ _ R). eauto. }
  set (s' := mkS _ _).
  assert (Hbuf : forall j, buffer s' j = if j =? length (sbufs s) then Some (map Some bs) else buffer s j).
  { intros j. unfold buffer, s'. cbn [sbufs]. destruct (Nat.eqb_spec j (length (sbufs s))) as [->|Hj].
    - rewrite nth_error_app2, Nat.sub_diag by lia. reflexivity.
    - destruct (Nat.lt_ge_cases j (length (sbufs s))).
      + rewrite nth_error_app1 by auto. reflexivity.
      + rewrite !(proj2 (nth_error_None _ _)); [reflexivity|lia|rewrite app_length; cbn; lia]. }
  assert (Hnth : forall k p, nth_error (exts m ++ [length (hp m)]) k = Some p ->
     (k = length (sbufs s) /\ p = length (hp m)) \/ (k < length (sbufs s) /\ nth_error (exts m) k = Some p)).
  { intros k p E. rewrite <- (R_ext_len _ _ R). destruct (Nat.lt_ge_cases k (length (exts m))) as [Hl|Hl].
    - rewrite nth_error_app1 in E by auto. auto.
    - left. rewrite nth_error_app2 in E by auto. destruct (k - length (exts m)) as [|x] eqn:Ex; cbn in E.
      + split; [lia|congruence].
      + destruct x; discriminate. }
  constructor; cbn [hp blks exts].
  - apply (R_len _ _ R).
  - intros j b' sb' E1 E2. pose proof (R_blk _ _ R _ _ _ E1 E2) as Hr. cbn [exts].
    destruct b' as [b'|], sb' as [sb'|]; cbn in *; auto.
    destruct sb' as [n buf|k n cap].
    + cbn in *. destruct Hr as (H1 & H2 & H3 & [H4|(p & c1 & c2 & Hp & Ho & Hcell & Hs)]); repeat (split; [assumption|]); [left; auto|].
      right. exists p, c1, c2. rewrite cell_app_old by (eapply cell_lt; eauto). auto.
    + cbn in *. destruct Hr as (p & E & -> & Hn & Hl). exists p.
      assert (k < length (exts m)) by (apply nth_error_Some; congruence).
      rewrite nth_error_app1 by auto. repeat (split; auto). intros c. rewrite Hbuf.
      replace (k =? length (sbufs s)) with false by (rewrite <- (R_ext_len _ _ R); lia). auto.
  - unfold s'. cbn. rewrite !app_length. cbn. rewrite (R_ext_len _ _ R). reflexivity.
  - apply NoDup_app_iff. split; [apply (R_inj _ _ R)|]. split; [repeat constructor; intros []|].
    intros x Hx [<-|[]]. apply (R_ext_lt _ _ R) in Hx. lia.
  - intros p Hp. rewrite app_length. cbn. apply in_app_or in Hp as [Hp|[<-|[]]]; [apply (R_ext_lt _ _ R) in Hp|]; lia.
  - intros k c p Hc Hp. rewrite Hbuf in Hc. apply Hnth in Hp as [[-> ->]|[Hk Hp]].
    + rewrite Nat.eqb_refl in Hc. injection Hc as <-. exists bs. split; [apply cell_alloc_new|apply sees_map_some].
    + replace (k =? length (sbufs s)) with false in Hc by lia.
      destruct (R_buf _ _ R _ _ _ Hc Hp) as (d & Hd & Hs). exists d. rewrite cell_app_old by (eapply cell_lt; eauto). auto.
  - apply (R_owninj _ _ R).
  - intros i k p Ho Hp. rewrite Hbuf. apply Hnth in Hp as [[-> ->]|[Hk Hp]].
    + apply Hownlt in Ho. lia.
    + replace (k =? length (sbufs s)) with false by lia. eapply (R_ownext _ _ R); eauto.
  - intros p. rewrite cell_alloc. destruct (Nat.eqb_spec p (length (hp m))) as [->|Hne].
    + split; [|congruence]. intros _. right. exists (length (sbufs s)), (map Some bs). rewrite Hbuf, Nat.eqb_refl. split; auto.
      rewrite <- (R_ext_len _ _ R), nth_error_app2, Nat.sub_diag by lia. reflexivity.
    + rewrite (R_live _ _ R). split; (intros [H|(j & cj & Hj & Hc)]; [left; exact H|right]).
      * exists j, cj. assert (j < length (exts m)) by (apply nth_error_Some; congruence).
        rewrite nth_error_app1, Hbuf by auto. replace (j =? length (sbufs s)) with false by (rewrite <- (R_ext_len _ _ R); lia). auto.
      * apply Hnth in Hj as [[-> ->]|[Hk Hj]]; [congruence|]. rewrite Hbuf in Hc.
        replace (j =? length (sbufs s)) with false in Hc by lia. eauto.
Qed.

(** A new block. *)
Lemma rel_addblk m s : rel m s ->
  rel (mkM (hp m) (blks m ++ [Some nx_mem_block_alloc]) (exts m)) (mkS (sblks s ++ [Some (SOwned 0 [])]) (sbufs s)).
Proof.
  intros R.
  assert (Ho : forall i p, owns (blks m ++ [Some nx_mem_block_alloc]) i p <-> owns (blks m) i p).
  { intros i p. unfold owns. split; intros (b & E & Hb).
    - destruct (Nat.lt_ge_cases i (length (blks m))) as [Hl|Hl].
      + rewrite nth_error_app1 in E by auto. eauto.
      + rewrite nth_error_app2 in E by auto. destruct (i - length (blks m)) as [|[|?]]; cbn in E; try discriminate.
        injection E as <-. discriminate.
    - exists b. rewrite nth_error_app1 by (apply nth_error_Some; congruence). auto. }
  constructor; cbn [hp blks exts sblks sbufs].
  - rewrite !app_length, (R_len _ _ R). reflexivity.
  - intros i b sb E1 E2. destruct (Nat.lt_ge_cases i (length (blks m))) as [Hl|Hl].
    + rewrite nth_error_app1 in E1 by auto. rewrite nth_error_app1 in E2 by (rewrite <- (R_len _ _ R); auto).
      exact (R_blk _ _ R _ _ _ E1 E2).
    + rewrite nth_error_app2 in E1 by auto. rewrite nth_error_app2 in E2 by (rewrite <- (R_len _ _ R); auto).
      rewrite <- (R_len _ _ R) in E2. destruct (i - length (blks m)) as [|[|?]]; cbn in E1, E2; try discriminate.
      injection E1 as <-. injection E2 as <-. cbn. auto 10.
  - apply (R_ext_len _ _ R).
  - apply (R_inj _ _ R).
  - apply (R_ext_lt _ _ R).
  - apply (R_buf _ _ R).
  - intros i j p. rewrite !Ho. apply (R_owninj _ _ R).
  - intros i k p. rewrite Ho. apply (R_ownext _ _ R).
  - intros p. rewrite (R_live _ _ R). split; (intros [(i & H)|H]; [left; exists i; apply Ho; auto|right; exact H]).
Qed.

Lemma lset_last {A} (l : list A) x y : lset (l ++ [x]) (length l) y = l ++ [y].
Proof. induction l; cbn; congruence. Qed.

Lemma lset_same {A} (l : list A) i x : nth_error l i = Some x -> lset l i x = l.
Proof. revert i; induction l as [|y l IH]; intros [|i] E; cbn in *; try discriminate; [congruence|]. rewrite IH; auto. Qed.
Lemma lset_lset {A} (l : list A) i x y : lset (lset l i x) i y = lset l i y.
Proof. revert i; induction l as [|z l IH]; intros [|i]; cbn; auto. rewrite IH; auto. Qed.

Lemma rel_get m s i sb : rel m s -> block s i = Some sb ->
  exists b, nth_error (blks m) i = Some (Some b) /\ get_blk m i = Ok b /\
            nth_error (sblks s) i = Some (Some sb) /\ brel (hp m) (exts m) s b sb.
Proof.
  intros R Hb. unfold block in Hb. destruct (nth_error (sblks s) i) as [[x|]|] eqn:E; try discriminate. injection Hb as ->.
  assert (i < length (blks m)) as Hl.
  { rewrite (R_len _ _ R). apply nth_error_Some. congruence. }
  destruct (nth_error (blks m) i) as [b|] eqn:Eb; [|apply nth_error_None in Eb; lia].
  pose proof (R_blk _ _ R _ _ _ Eb E) as Hr. destruct b as [b|]; [|contradiction Hr].
  exists b. unfold get_blk. rewrite Eb. auto.
Qed.

Lemma brel_sizes h ex s b sb : brel h ex s b sb -> bsize b = s_size sb /\ bcap b = s_cap sb /\ s_size sb <= s_cap sb.
Proof.
  destruct sb as [n buf|k n cap]; cbn.
  - intros (-> & -> & H & _). auto.
  - intros (p & _ & -> & H & _). auto.
Qed.

(** The bytes of a block. *)
Lemma bytes_spec m s b sb n c : rel m s -> brel (hp m) (exts m) s b sb ->
  s_bytes s sb n = Some c -> n <= s_cap sb -> 0 < n ->
  exists p d, bptr b = Some p /\ cell (hp m) p = Some d /\ n <= length d /\ sees c (firstn n d) /\ length c = n.
Proof.
  intros R Hb Hc Hn Hpos. destruct sb as [sz buf|k sz cap]; cbn in *.
  - injection Hc as <-. destruct Hb as (H1 & H2 & H3 & [(H4 & H5 & ->)|(p & c1 & c2 & Hp & Ho & Hcell & Hs)]); [cbn in Hn; lia|].
    pose proof (sees_length _ _ Hs) as Hl.
    exists p, (c1 ++ c2). split; [auto|]. split; [auto|]. rewrite app_length. split; [lia|]. split; [|rewrite firstn_length; lia].
    rewrite firstn_app. replace (n - length c1) with 0 by lia. change (firstn 0 c2) with (@nil N). rewrite app_nil_r.
    apply sees_firstn; auto.
  - destruct Hb as (p & Hp & -> & Hsz & Hl). destruct (Nat.eqb_spec n 0); [lia|].
    destruct (buffer s k) as [c0|] eqn:Ek; [|discriminate]. injection Hc as <-.
    destruct (R_buf _ _ R _ _ _ Ek Hp) as (d & Hd & Hs). pose proof (sees_length _ _ Hs) as Hl2. specialize (Hl _ eq_refl).
    exists p, d. split; [reflexivity|]. split; [auto|]. split; [lia|]. split; [apply sees_firstn; auto|]. rewrite firstn_length. lia.
Qed.

Lemma s_bytes_zero s sb c : s_bytes s sb 0 = Some c -> c = [].
Proof. destruct sb; cbn; congruence. Qed.

Lemma sees_realloc junk c1 c2 buf n : sees buf c1 -> length buf <= n ->
  exists d1, realloc junk (c1 ++ c2) n = d1 ++ [] /\ sees (buf ++ repeat None (n - length buf)) d1.
Proof.
  intros Hs Hn. pose proof (sees_length _ _ Hs) as Hl. exists (realloc junk (c1 ++ c2) n). split; [rewrite app_nil_r; auto|].
  pose proof (realloc_length junk (c1 ++ c2) n) as Hr.
  rewrite <- (firstn_skipn (length c1) (realloc junk (c1 ++ c2) n)). apply sees_app.
  - assert (firstn (length c1) (realloc junk (c1 ++ c2) n) = c1) as ->; auto.
    unfold realloc. rewrite firstn_app. rewrite firstn_firstn. replace (Nat.min (length c1) n) with (length c1) by lia.
    rewrite firstn_app, Nat.sub_diag, firstn_all, firstn_length, app_length.
    change (firstn 0 c2) with (@nil N). rewrite app_nil_r.
    replace (length c1 - Nat.min n (length c1 + length c2)) with 0 by lia.
    match goal with |- _ ++ firstn 0 ?x = _ => change (firstn 0 x) with (@nil N) end. apply app_nil_r.
  - apply sees_none_n. rewrite skipn_length. lia.
Qed.

Lemma cell_fresh (h : bheap) : cell h (length h) = None.
Proof. unfold cell. rewrite (proj2 (nth_error_None h (length h))); auto. Qed.

Lemma cell_beyond (h : bheap) q : length h <= q -> cell h q = None.
Proof. intros H. unfold cell. rewrite (proj2 (nth_error_None h q)); auto. Qed.

Lemma reserve_spec strict junk m s i b sb n sb' :
  rel m s -> nth_error (blks m) i = Some (Some b) -> brel (hp m) (exts m) s b sb -> nth_error (sblks s) i = Some (Some sb) ->
  s_reserve s sb n = Some sb' ->
  exists h' b', nx_mem_block_reserve strict junk (hp m) b n = Ok (h', b') /\
    rel (set_blk m h' i (Some b')) (mkS (lset (sblks s) i (Some sb')) (sbufs s)) /\
    brel h' (exts m) s b' sb' /\ n <= s_cap sb' /\ s_size sb' = s_size sb.
Proof.
  intros R Hi Hb Hsi Hs. destruct (brel_sizes _ _ _ _ _ Hb) as (Esz & Ecap & Hle).
  unfold s_reserve in Hs. unfold nx_mem_block_reserve. rewrite Ecap.
  destruct (Nat.leb_spec n (s_cap sb)) as [Hn|Hn].
  - injection Hs as <-. replace (s_cap sb <? n) with false by lia. exists (hp m), b. split; [auto|].
    split; [|auto]. unfold set_blk. rewrite (lset_same _ _ _ Hi), (lset_same _ _ _ Hsi). destruct m, s; exact R.
  - replace (s_cap sb <? n) with true by lia.
    assert (Hltlive : forall q, cell (hp m) q <> None -> q < length (hp m)).
    { intros q Hq. destruct (cell (hp m) q) eqn:E; [|congruence]. eapply cell_lt; eauto. }
    destruct sb as [sz buf|k sz cap]; cbn in Esz, Ecap, Hle, Hn.
    + injection Hs as <-. cbn in Hb.
      destruct Hb as (_ & _ & _ & [(Hp & Ho & ->)|(p & c1 & c2 & Hp & Ho & Hcell & Hsees)]).
      * (* never allocated *)
        rewrite Hp, Ho. cbn in Hle. replace (0 <? bsize b) with false by lia. cbn [halloc bind].
        eexists _, _. split; [reflexivity|].
        match goal with |- rel (set_blk m ?h i (Some ?b')) _ /\ _ => assert (Hbr : brel h (exts m) s b' (SOwned sz ([] ++ repeat None (n - 0)))) end.
        { cbn [brel app length]. rewrite repeat_length. cbn [bsize bcap bptr bown]. split; [auto|]. split; [lia|]. split; [lia|]. right.
          exists (length (hp m)), (realloc junk [] n), []. rewrite cell_alloc_new, app_nil_r. repeat (split; auto).
          apply sees_none_n. rewrite realloc_length. lia. }
        split; [|split; [exact Hbr|cbn; rewrite repeat_length; lia]].
        eapply rel_upd; eauto.
        -- cbn. intros q [= <-]. auto.
        -- rewrite app_length. lia.
        -- cbn. intros q [= <-]. rewrite cell_alloc_new. congruence.
        -- cbn. rewrite Ho. discriminate.
        -- cbn. intros q Hq _. rewrite cell_alloc. destruct (Nat.eqb_spec q (length (hp m))); congruence.
      * (* realloc *)
        rewrite Hp, Ho. rewrite (proj2 (hget_cell _ _ _) Hcell). cbn [bind]. rewrite (hfree_ok _ _ _ Hcell). cbn [bind halloc].
        pose proof (cell_lt _ _ _ Hcell) as Hplt.
        eexists _, _. split; [reflexivity|]. rewrite lset_length.
        match goal with |- rel (set_blk m ?h i (Some ?b')) _ /\ _ => assert (Hbr : brel h (exts m) s b' (SOwned sz (buf ++ repeat None (n - length buf)))) end.
        { cbn [brel]. rewrite app_length, repeat_length. cbn [bsize bcap bptr bown]. split; [auto|]. split; [lia|]. split; [lia|]. right.
          destruct (sees_realloc junk c1 c2 buf n Hsees) as (d1 & E & Hd); [lia|].
          exists (length (hp m)), d1, []. rewrite E.
          rewrite cell_alloc, lset_length, Nat.eqb_refl. auto. }
        split; [|split; [exact Hbr|cbn; rewrite app_length, repeat_length; lia]].
        eapply rel_upd; eauto.
        -- cbn. intros q [= <-]. auto.
        -- rewrite app_length, lset_length. lia.
        -- cbn. intros q [= <-]. rewrite cell_alloc, lset_length, Nat.eqb_refl. congruence.
        -- cbn. rewrite Ho, Hp. intros q Hq [= <-]. rewrite cell_alloc, lset_length, cell_lset, Nat.eqb_refl by auto.
           destruct (Nat.eqb_spec p (length (hp m))); [lia|auto].
        -- cbn. rewrite Ho, Hp. intros q Hq Hqp. rewrite cell_alloc, lset_length, cell_lset by auto.
           destruct (Nat.eqb_spec q (length (hp m))); [congruence|]. destruct (Nat.eqb_spec q p); congruence.
    + destruct (s_bytes s (SView k sz cap) sz) as [c|] eqn:Ec; [|discriminate]. injection Hs as <-.
      pose proof Hb as Hb0. cbn in Hb. destruct Hb as (p & Hp & -> & _ & Hl). cbn [bown bptr bsize].
      cbn [halloc].
      assert (exists d1, (if 0 <? sz then memcpy strict (hp m ++ [Some (realloc junk [] n)]) (Some (length (hp m))) p sz else Ok (hp m ++ [Some (realloc junk [] n)]))
                = Ok (hp m ++ [Some d1]) /\ sees (c ++ repeat None (n - sz)) d1 /\ length c = sz) as (d1 & E & Hd1 & Hlc).
      { destruct (Nat.ltb_spec 0 sz) as [Hpos|Hz].
        - destruct (bytes_spec m s _ _ _ _ R Hb0 Ec Hle Hpos) as (p' & d & [= <-] & Hd & Hld & Hsd & Hlc).
          pose proof (cell_lt _ _ _ Hd) as Hplt.
          unfold memcpy. replace (sz =? 0) with false by lia. replace (length (hp m) =? p) with false by lia.
          rewrite (proj2 (hget_cell _ _ d)) by (rewrite cell_app_old; auto). cbn [bind].
          replace (sz <=? length d) with true by lia.
          rewrite (proj2 (hget_cell _ _ (realloc junk [] n))) by apply cell_alloc_new. cbn [bind].
          unfold blit. rewrite realloc_length, firstn_length. replace (0 + Nat.min sz (length d) <=? n) with true by lia. cbn [bind].
          rewrite (hset_ok _ _ (realloc junk [] n)) by apply cell_alloc_new. rewrite lset_last.
          eexists. split; [reflexivity|]. split; [|auto]. cbn [firstn app Nat.add]. apply sees_app; auto.
          apply sees_none_n. rewrite skipn_length, realloc_length. lia.
        - assert (sz = 0) as -> by lia. apply s_bytes_zero in Ec. subst c. eexists. split; [reflexivity|]. split; [|auto].
          cbn [app]. apply sees_none_n. rewrite realloc_length. lia. }
      rewrite E. cbn [bind]. eexists _, _. split; [reflexivity|].
      match goal with |- rel (set_blk m ?h i (Some ?b')) _ /\ _ => assert (Hbr : brel h (exts m) s b' (SOwned sz (c ++ repeat None (n - sz)))) end.
      { cbn [brel]. rewrite app_length, repeat_length. cbn [bsize bcap bptr bown]. split; [auto|]. split; [lia|]. split; [lia|]. right.
        exists (length (hp m)), d1, []. rewrite cell_alloc_new, app_nil_r. auto. }
      split; [|split; [exact Hbr|cbn; rewrite app_length, repeat_length; lia]].
      eapply rel_upd; eauto.
      * cbn. intros q [= <-]. auto.
      * rewrite app_length. lia.
      * cbn. intros q [= <-]. rewrite cell_alloc_new. congruence.
      * cbn. discriminate.
      * cbn. intros q Hq _. rewrite cell_alloc. destruct (Nat.eqb_spec q (length (hp m))); congruence.
Qed.

Lemma brel_set_size h ex s b sb n : brel h ex s b sb -> n <= s_cap sb ->
  brel h ex s (mkBlk (bptr b) n (bcap b) (bown b)) (s_set_size sb n).
Proof.
  destruct sb as [sz buf|k sz cap]; cbn.
  - intros (_ & H2 & _ & H) Hn. auto.
  - intros (p & Hp & -> & _ & Hl) Hn. exists p. auto.
Qed.

Lemma s_set_size_cap sb n : s_cap (s_set_size sb n) = s_cap sb.
Proof. destruct sb; reflexivity. Qed.
Lemma s_set_size_size sb n : s_size (s_set_size sb n) = n.
Proof. destruct sb; reflexivity. Qed.

Lemma resize_spec strict junk m s i b sb n sb' :
  rel m s -> nth_error (blks m) i = Some (Some b) -> brel (hp m) (exts m) s b sb -> nth_error (sblks s) i = Some (Some sb) ->
  s_resize s sb n = Some sb' ->
  exists h' b', nx_mem_block_resize strict junk (hp m) b n = Ok (h', b') /\
    rel (set_blk m h' i (Some b')) (mkS (lset (sblks s) i (Some sb')) (sbufs s)) /\
    brel h' (exts m) s b' sb' /\ s_size sb' = n /\ n <= s_cap sb'.
Proof.
  intros R Hi Hb Hsi Hs. unfold s_resize in Hs. destruct (s_reserve s sb n) as [sb1|] eqn:E1; [|discriminate]. injection Hs as <-.
  destruct (reserve_spec strict junk m s i b sb n sb1 R Hi Hb Hsi E1) as (h1 & b1 & E & R1 & Hb1 & Hcap & _).
  unfold nx_mem_block_resize. rewrite E. cbn [bind]. eexists _, _. split; [reflexivity|].
  assert (i < length (blks m)) as Hl by (apply nth_error_Some; congruence).
  assert (i < length (sblks s)) as Hl2 by (apply nth_error_Some; congruence).
  split; [|split; [apply brel_set_size; auto|rewrite s_set_size_cap, s_set_size_size; auto]].
  pose proof (rel_upd _ _ i (Some b1) h1 (Some (mkBlk (bptr b1) n (bcap b1) (bown b1))) (Some (s_set_size sb1 n)) R1) as H.
  unfold set_blk in *. cbn [hp blks exts sblks sbufs] in H. rewrite !lset_lset in H. apply H; clear H; auto.
  - rewrite nth_lset_eqb, Nat.eqb_refl by auto. reflexivity.
  - intros q Hq. cbn in *. apply (R_live _ _ R1). left. exists i. unfold owns. cbn [blks].
    rewrite nth_lset_eqb, Nat.eqb_refl by auto. exists (Some b1). split; [reflexivity|exact Hq].
  - cbn. congruence.
  - cbn. apply brel_set_size; auto.
Qed.

(** Storing through a block. *)
Lemma overwrite_spec (l : bytes) d off bs cs l' : sees l d -> sees bs cs -> overwrite l off bs = Some l' ->
  off + length cs <= length d /\ sees l' (firstn off d ++ cs ++ skipn (off + length cs) d) /\ length l' = length l.
Proof.
  intros Hl Hb E. unfold overwrite in E. destruct (Nat.leb_spec (off + length bs) (length l)) as [H|H]; [|discriminate].
  injection E as <-. pose proof (sees_length _ _ Hl). pose proof (sees_length _ _ Hb) as Hbl. rewrite <- Hbl. split; [lia|]. split.
  - apply sees_app; [apply sees_firstn; auto|]. apply sees_app; [auto|apply sees_skipn; auto].
  - rewrite !app_length, firstn_length, skipn_length. lia.
Qed.

Lemma store_spec m s i b sb off bs cs s' :
  rel m s -> nth_error (blks m) i = Some (Some b) -> brel (hp m) (exts m) s b sb -> nth_error (sblks s) i = Some (Some sb) ->
  s_store s i sb off bs = Some s' -> sees bs cs -> bs <> [] ->
  exists p d, bptr b = Some p /\ cell (hp m) p = Some d /\ off + length cs <= length d /\
    rel (mkM (lset (hp m) p (Some (firstn off d ++ cs ++ skipn (off + length cs) d))) (blks m) (exts m)) s'.
Proof.
  intros R Hi Hb Hsi Hs Hsee Hne. pose proof (sees_length _ _ Hsee) as Hbl.
  assert (0 < length bs) as Hpos by (destruct bs; [congruence|cbn; lia]).
  destruct sb as [sz buf|k sz cap]; cbn in Hb, Hs.
  - destruct (overwrite buf off bs) as [buf'|] eqn:Eo; [|discriminate]. injection Hs as <-.
    destruct Hb as (H1 & H2 & H3 & [(Hp & Ho & ->)|(p & c1 & c2 & Hp & Ho & Hcell & Hsees)]).
    + unfold overwrite in Eo. cbn in Eo. destruct (off + length bs <=? 0) eqn:E; [lia|discriminate].
    + destruct (overwrite_spec _ _ _ _ _ _ Hsees Hsee Eo) as (Hlen & Hs' & Hl').
      pose proof (cell_lt _ _ _ Hcell) as Hplt.
      exists p, (c1 ++ c2). split; [auto|]. split; [auto|]. rewrite app_length. split; [lia|].
      pose proof (rel_upd m s i (Some b)) as H.
      rewrite <- (lset_same (blks m) i (Some b) Hi). assert (bowned (Some b) = Some p) as Hbo by (cbn; rewrite Ho; auto).
      eapply H; clear H; eauto; try (rewrite Hbo).
      * rewrite lset_length; auto.
      * intros q [= <-]. rewrite cell_lset, Nat.eqb_refl by auto. congruence.
      * congruence.
      * intros q Hq _. rewrite cell_lset by auto. destruct (Nat.eqb_spec q p); congruence.
      * cbn. split; [auto|]. split; [lia|]. split; [lia|]. right.
        exists p, (firstn off c1 ++ cs ++ skipn (off + length cs) c1), c2. repeat (split; auto).
        rewrite cell_lset, Nat.eqb_refl by auto. f_equal.
        rewrite firstn_app, skipn_app. replace (off - length c1) with 0 by lia. replace (off + length cs - length c1) with 0 by lia.
        change (firstn 0 c2) with (@nil N). change (skipn 0 c2) with c2. rewrite app_nil_r, <- !app_assoc. reflexivity.
  - destruct Hb as (p & Hp & -> & Hsz & Hl). destruct bs as [|x bs']; [congruence|]. set (bs := x :: bs') in *.
    destruct (buffer s k) as [c|] eqn:Ek; [|discriminate].
    destruct (off + length bs <=? cap) eqn:Ecap; [|discriminate].
    destruct (overwrite c off bs) as [c'|] eqn:Eo; [|discriminate]. injection Hs as <-.
    destruct (R_buf _ _ R _ _ _ Ek Hp) as (d & Hd & Hsd).
    destruct (overwrite_spec _ _ _ _ _ _ Hsd Hsee Eo) as (Hlen & Hs' & Hl').
    exists p, d. split; [auto|]. split; [auto|]. split; [auto|].
    rewrite (lset_same _ _ _ Hsi). apply (rel_bufupd m s k c p _ c'); auto.
Qed.

Lemma overwrite_nil {A} (l : list A) l' off : overwrite l off [] = Some l' -> l' = l.
Proof.
  unfold overwrite. destruct (_ <=? _); [|discriminate]. intros [= <-]. cbn [app length]. rewrite Nat.add_0_r. apply firstn_skipn.
Qed.

Lemma store_nil m s i b sb off s' :
  rel m s -> nth_error (blks m) i = Some (Some b) -> nth_error (sblks s) i = Some (Some sb) ->
  s_store s i sb off [] = Some s' -> s' = s.
Proof.
  intros R Hi Hsi Hs. destruct sb as [sz buf|k sz cap]; cbn in Hs.
  - destruct (overwrite buf off []) as [buf'|] eqn:Eo; [|discriminate]. injection Hs as <-.
    apply overwrite_nil in Eo. subst buf'. rewrite (lset_same _ _ _ Hsi). destruct s; reflexivity.
  - injection Hs as <-. rewrite (lset_same _ _ _ Hsi). destruct s; reflexivity.
Qed.

(** *** Giving up the owned buffer *)
Lemma rel_drop m s i b sb ob osb : rel m s -> nth_error (blks m) i = Some (Some b) ->
  brel (hp m) (exts m) s b sb -> bowned ob = None ->
  (forall h, orel h (exts m) s ob osb) ->
  exists h', nx_mem_block_free (hp m) b = Ok h' /\
    (let* r := nx_mem_block_release (hp m) b in Ok (fst r)) = Ok h' /\
    rel (mkM h' (lset (blks m) i ob) (exts m)) (mkS (lset (sblks s) i osb) (sbufs s)).
Proof.
  intros R Hi Hb Hob Hor. unfold nx_mem_block_free, nx_mem_block_release.
  destruct (bown b) eqn:Ho; [destruct (bptr b) as [p|] eqn:Hp|].
  - assert (bowned (Some b) = Some p) as Hbo by (cbn; rewrite Ho; auto).
    assert (cell (hp m) p <> None) as Hl.
    { apply (R_live _ _ R). left. exists i. exists (Some b). auto. }
    destruct (cell (hp m) p) as [c|] eqn:Hc; [|congruence]. cbn [nx_free]. rewrite (hfree_ok _ _ _ Hc). cbn [bind fst].
    pose proof (cell_lt _ _ _ Hc) as Hplt.
    eexists. split; [reflexivity|]. split; [reflexivity|]. eapply rel_upd; eauto; rewrite ?Hbo, ?Hob.
    + discriminate.
    + rewrite lset_length; auto.
    + discriminate.
    + intros q _ [= <-]. rewrite cell_lset, Nat.eqb_refl by auto. auto.
    + intros q _ Hq. rewrite cell_lset by auto. destruct (Nat.eqb_spec q p); congruence.
  - cbn [nx_free bind fst]. eexists. split; [reflexivity|]. split; [reflexivity|].
    eapply rel_upd; eauto; rewrite ?Hob; try discriminate. cbn. rewrite Ho, Hp. discriminate.
  - assert (bowned (Some b) = None) as Hbo by (cbn; rewrite Ho; auto).
    exists (hp m). split; [reflexivity|]. split; [destruct (bptr b); reflexivity|].
    eapply rel_upd; eauto; rewrite ?Hob, ?Hbo; discriminate.
Qed.

Lemma brel_empty h ex s : brel h ex s nx_mem_block_alloc (SOwned 0 []).
Proof. cbn. auto 10. Qed.

Lemma agrees_none : agrees None None. Proof. reflexivity. Qed.

(** Swapping two blocks. *)
Lemma rel_swap m s i j b0 b1 sb0 sb1 : rel m s ->
  nth_error (blks m) i = Some (Some b0) -> nth_error (blks m) j = Some (Some b1) ->
  nth_error (sblks s) i = Some (Some sb0) -> nth_error (sblks s) j = Some (Some sb1) ->
  rel (mkM (hp m) (lset (lset (blks m) i (Some b1)) j (Some b0)) (exts m))
      (mkS (lset (lset (sblks s) i (Some sb1)) j (Some sb0)) (sbufs s)).
Proof.
  intros R Hi Hj Hsi Hsj.
  assert (i < length (blks m)) as Hli by (apply nth_error_Some; congruence).
  assert (j < length (blks m)) as Hlj by (apply nth_error_Some; congruence).
  pose proof (R_len _ _ R) as HL.
  set (tau := fun x => if x =? j then i else if x =? i then j else x).
  assert (Hnb : forall x, nth_error (lset (lset (blks m) i (Some b1)) j (Some b0)) x = nth_error (blks m) (tau x)).
  { intros x. unfold tau. rewrite nth_lset_eqb by (rewrite lset_length; auto). destruct (x =? j); [auto|].
    rewrite nth_lset_eqb by auto. destruct (x =? i); auto. }
  assert (Hns : forall x, nth_error (lset (lset (sblks s) i (Some sb1)) j (Some sb0)) x = nth_error (sblks s) (tau x)).
  { intros x. unfold tau. rewrite nth_lset_eqb by (rewrite lset_length; lia). destruct (x =? j); [auto|].
    rewrite nth_lset_eqb by lia. destruct (x =? i); auto. }
  assert (Hinv : forall x, tau (tau x) = x).
  { intros x. unfold tau. destruct (Nat.eqb_spec x j), (Nat.eqb_spec x i), (Nat.eqb_spec i j), (Nat.eqb_spec j i);
    repeat (match goal with |- context [?a =? ?b] => destruct (Nat.eqb_spec a b) end); lia. }
  assert (Hown : forall x p, owns (lset (lset (blks m) i (Some b1)) j (Some b0)) x p <-> owns (blks m) (tau x) p).
  { intros x p. unfold owns. rewrite Hnb. reflexivity. }
  constructor; cbn [hp blks exts sblks sbufs].
  - rewrite !lset_length. auto.
  - intros x b sb. rewrite Hnb, Hns. apply (R_blk _ _ R).
  - apply (R_ext_len _ _ R).
  - apply (R_inj _ _ R).
  - apply (R_ext_lt _ _ R).
  - apply (R_buf _ _ R).
  - intros x y p. rewrite !Hown. intros H1 H2. rewrite <- (Hinv x), <- (Hinv y). f_equal. eapply (R_owninj _ _ R); eauto.
  - intros x k p. rewrite Hown. apply (R_ownext _ _ R).
  - intros p. rewrite (R_live _ _ R). split; (intros [(x & H)|H]; [left; exists (tau x); apply Hown; rewrite ?Hinv; auto|right; exact H]).
Qed.

(** *** Copying *)
Lemma copy_spec junk m s i j d sd b sb c sd' s' :
  rel m s -> i <> j ->
  nth_error (blks m) i = Some (Some d) -> brel (hp m) (exts m) s d sd -> nth_error (sblks s) i = Some (Some sd) ->
  nth_error (blks m) j = Some (Some b) -> brel (hp m) (exts m) s b sb -> nth_error (sblks s) j = Some (Some sb) ->
  s_bytes s sb (s_size sb) = Some c -> s_resize s sd (s_size sb) = Some sd' ->
  same_view sd' sb && negb (s_size sb =? 0) = false ->
  s_store s i sd' 0 c = Some s' ->
  exists h' d', nx_mem_block_copy false junk (hp m) d b = Ok (h', d') /\ rel (set_blk m h' i (Some d')) s'.
Proof.
  intros R Hij Hi Hd Hsi Hj Hb Hsj Hc Hrs Hview Hst.
  destruct (brel_sizes _ _ _ _ _ Hb) as (Ebs & _ & Hbcap).
  assert (i < length (blks m)) as Hli by (apply nth_error_Some; congruence).
  assert (i < length (sblks s)) as Hlsi by (apply nth_error_Some; congruence).
  unfold nx_mem_block_copy. rewrite Ebs.
  destruct (resize_spec false junk m s i d sd (s_size sb) sd' R Hi Hd Hsi Hrs) as (h1 & d1 & E & R1 & Hd1 & Hsz1 & Hcap1).
  rewrite E. cbn [bind].
  set (m1 := set_blk m h1 i (Some d1)) in *. set (s1 := mkS (lset (sblks s) i (Some sd')) (sbufs s)) in *.
  assert (nth_error (blks m1) i = Some (Some d1)) as Hi1 by (unfold m1; cbn; rewrite nth_lset_eqb, Nat.eqb_refl; auto).
  assert (nth_error (sblks s1) i = Some (Some sd')) as Hsi1 by (unfold s1; cbn; rewrite nth_lset_eqb, Nat.eqb_refl; auto).
  assert (nth_error (blks m1) j = Some (Some b)) as Hj1.
  { unfold m1. cbn. rewrite nth_lset_eqb by auto. replace (j =? i) with false by lia. auto. }
  assert (nth_error (sblks s1) j = Some (Some sb)) as Hsj1.
  { unfold s1. cbn. rewrite nth_lset_eqb by auto. replace (j =? i) with false by lia. auto. }
  pose proof (R_blk _ _ R1 _ _ _ Hj1 Hsj1) as Hb1. cbn in Hb1.
  assert (s_bytes s1 sb (s_size sb) = Some c) as Hc1 by (destruct sb; exact Hc).
  destruct (brel_sizes _ _ _ _ _ Hd1) as (Eds & _ & _).
  assert (s_store s1 i sd' 0 c = Some s') as Hst1.
  { revert Hst. unfold s_store, s1, buffer. destruct sd' as [n1 buf1|k1 n1 cap1]; cbn [sblks sbufs]; cbv zeta; [destruct (overwrite buf1 0 c)|]; rewrite ?lset_lset; auto. }
  destruct (Nat.eq_dec (s_size sb) 0) as [Ez|Enz].
  - (* nothing to copy *)
    assert (c = []) as -> by (rewrite Ez in Hc; apply s_bytes_zero in Hc; auto).
    assert (s' = s1) as -> by (apply (store_nil m1 s1 i d1 sd' 0 s'); auto).
    destruct (bptr b) as [q|].
    + unfold memcpy. rewrite Eds, Hsz1, Ez. cbn. destruct (bptr d1); eexists _, _; (split; [reflexivity|exact R1]).
    + eexists _, _. split; [reflexivity|exact R1].
  - destruct (bytes_spec m1 s1 b sb (s_size sb) c R1 Hb1 Hc1 Hbcap) as (q & dq & Hq & Hcell & Hlen & Hsee & Hlc); [lia|].
    assert (c <> []) as Hcne by (intros ->; cbn in Hlc; lia).
    destruct (store_spec m1 s1 i d1 sd' 0 c (firstn (s_size sb) dq) s' R1 Hi1 Hd1 Hsi1 Hst1 Hsee Hcne) as (p & dp & Hp & Hcp & Hlp & R2).
    assert (p <> q) as Hpq.
    { (* the destination is not the source buffer *)
      intros ->. destruct sd' as [n1 buf1|k1 n1 cap1].
      - destruct Hd1 as (_ & _ & _ & [(Hn & _)|(p' & c1 & c2 & Hp' & Ho & _)]); [congruence|].
        assert (owns (blks m1) i q) as Ho1 by (exists (Some d1); cbn; rewrite Ho; split; [auto|congruence]).
        destruct sb as [n2 buf2|k2 n2 cap2]; cbn in Hb1.
        + destruct Hb1 as (_ & _ & _ & [(Hn & _)|(p'' & c1' & c2' & Hp'' & Ho' & _)]); [congruence|].
          apply Hij. eapply (R_owninj _ _ R1); [exact Ho1|]. exists (Some b). cbn. rewrite Ho'. split; [auto|congruence].
        + destruct Hb1 as (p'' & Hk2 & -> & _). cbn in Hq. injection Hq as ->.
          pose proof (R_ownext _ _ R1 _ _ _ Ho1 Hk2) as Hdead. cbn [s_size s_bytes] in Hc1, Enz.
          replace (n2 =? 0) with false in Hc1 by lia. rewrite Hdead in Hc1. discriminate.
      - destruct Hd1 as (p' & Hk1 & -> & _). cbn in Hp. injection Hp as ->.
        assert (exists c0, buffer s1 k1 = Some c0) as (c0 & Hk1c).
        { cbn in Hst1. destruct c; [congruence|]. destruct (buffer s1 k1); [eauto|discriminate]. }
        destruct sb as [n2 buf2|k2 n2 cap2]; cbn in Hb1.
        + destruct Hb1 as (_ & _ & _ & [(Hn & _)|(p'' & c1' & c2' & Hp'' & Ho' & _)]); [congruence|].
          assert (owns (blks m1) j q) as Ho1 by (exists (Some b); cbn; rewrite Ho'; split; [auto|congruence]).
          rewrite (R_ownext _ _ R1 _ _ _ Ho1 Hk1) in Hk1c. discriminate.
        + destruct Hb1 as (p'' & Hk2 & -> & _). cbn in Hq. injection Hq as ->.
          cbn [same_view s_size] in Hview, Enz. assert (k1 <> k2) as Hk by lia. apply Hk.
          apply (proj1 (NoDup_nth_error (exts m1)) (R_inj _ _ R1)); [|unfold m1; cbn [set_blk exts] in *; congruence].
          apply nth_error_Some. unfold m1. cbn [set_blk exts]. congruence. }
    rewrite Hq. unfold memcpy. rewrite Hp, Eds, Hsz1. replace (s_size sb =? 0) with false by lia. replace (p =? q) with false by lia.
    change (hp m1) with h1 in *.
    rewrite (proj2 (hget_cell _ _ _) Hcell). cbn [bind]. replace (s_size sb <=? length dq) with true by lia.
    rewrite (proj2 (hget_cell _ _ _) Hcp). cbn [bind]. unfold blit.
    replace (0 + length (firstn (s_size sb) dq) <=? length dp) with true by lia. cbn [bind].
    rewrite (hset_ok _ _ _ _ Hcp). cbn [bind]. eexists _, _. split; [reflexivity|]. exact R2.
Qed.

Lemma fresh_index m : nth_error (blks m ++ [Some nx_mem_block_alloc]) (length (blks m)) = Some (Some nx_mem_block_alloc).
Proof. rewrite nth_error_app2, Nat.sub_diag by lia. reflexivity. Qed.

Lemma step_spec junk m s o s' x : rel m s -> m_spec s o = Some (s', x) ->
  exists m' y, m_step false junk m o = Ok (m', y) /\ rel m' s' /\ agrees x y.
Proof.
  intros R Hs. destruct o as [|n|i|i n|i n|i|i k sz cap own|i j|i|i j|i|i off v|i off|i|i|bs|k|k off v|k off];
    cbn [m_spec] in Hs; unfold m_step.
  - (* alloc *) injection Hs as <- <-. eexists _, _. split; [reflexivity|]. split; [|reflexivity]. apply rel_addblk; auto.
  - (* new *) injection Hs as <- <-. unfold nx_mem_block_new. pose proof (rel_addblk m s R) as R1.
    set (m1 := mkM (hp m) (blks m ++ [Some nx_mem_block_alloc]) (exts m)) in *.
    set (s1 := mkS (sblks s ++ [Some (SOwned 0 [])]) (sbufs s)) in *.
    destruct (resize_spec false junk m1 s1 (length (blks m)) nx_mem_block_alloc (SOwned 0 []) n (SOwned n (repeat None n)) R1) as (h' & b' & E & R2 & _).
    + apply fresh_index.
    + apply brel_empty.
    + unfold s1. cbn. rewrite (R_len _ _ R), nth_error_app2, Nat.sub_diag by lia. reflexivity.
    + unfold s_resize, s_reserve. cbn. destruct n; cbn; [reflexivity|]. reflexivity.
    + cbn [hp m1] in E. rewrite E. cbn [bind]. eexists _, _. split; [reflexivity|]. split; [|reflexivity].
      unfold set_blk, m1, s1 in R2. cbn [hp blks exts sblks sbufs] in R2. rewrite lset_last in R2.
      rewrite (R_len _ _ R), lset_last in R2. exact R2.
  - (* free *) destruct (block s i) as [sb|] eqn:Eb; [|discriminate]. injection Hs as <- <-.
    destruct (rel_get _ _ _ _ R Eb) as (b & Hi & Hg & Hsi & Hb). rewrite Hg. cbn [bind].
    destruct (rel_drop m s i b sb None None R Hi Hb eq_refl) as (h' & E & _ & R'); [cbn; auto|].
    rewrite E. cbn [bind]. eexists _, _. split; [reflexivity|]. split; [exact R'|reflexivity].
  - (* reserve *) destruct (block s i) as [sb|] eqn:Eb; [|discriminate].
    destruct (s_reserve s sb n) as [sb'|] eqn:Er; [|discriminate]. injection Hs as <- <-.
    destruct (rel_get _ _ _ _ R Eb) as (b & Hi & Hg & Hsi & Hb). rewrite Hg. cbn [bind].
    destruct (reserve_spec false junk m s i b sb n sb' R Hi Hb Hsi Er) as (h' & b' & E & R' & _). rewrite E. cbn [bind].
    eexists _, _. split; [reflexivity|]. split; [exact R'|reflexivity].
  - (* resize *) destruct (block s i) as [sb|] eqn:Eb; [|discriminate].
    destruct (s_resize s sb n) as [sb'|] eqn:Er; [|discriminate]. injection Hs as <- <-.
    destruct (rel_get _ _ _ _ R Eb) as (b & Hi & Hg & Hsi & Hb). rewrite Hg. cbn [bind].
    destruct (resize_spec false junk m s i b sb n sb' R Hi Hb Hsi Er) as (h' & b' & E & R' & _). rewrite E. cbn [bind].
    eexists _, _. split; [reflexivity|]. split; [exact R'|reflexivity].
  - (* release *) destruct (block s i) as [sb|] eqn:Eb; [|discriminate]. injection Hs as <- <-.
    destruct (rel_get _ _ _ _ R Eb) as (b & Hi & Hg & Hsi & Hb). rewrite Hg. cbn [bind].
    destruct (rel_drop m s i b sb (Some nx_mem_block_alloc) (Some (SOwned 0 [])) R Hi Hb eq_refl) as (h' & _ & E & R').
    { intros h. apply brel_empty. }
    destruct (nx_mem_block_release (hp m) b) as [[h1 b1]| | |] eqn:Er; try discriminate. cbn in E. injection E as ->.
    assert (b1 = nx_mem_block_alloc) as ->.
    { unfold nx_mem_block_release in Er. apply bind_ok in Er as (hh & _ & [= _ <-]). reflexivity. }
    cbn [bind]. eexists _, _. split; [reflexivity|]. split; [exact R'|reflexivity].
  - (* wrap *) destruct (block s i) as [sb|] eqn:Eb; [|discriminate].
    destruct (buffer s k) as [c|] eqn:Ek; [|discriminate].
    destruct ((sz <=? cap) && (cap <=? length c)) eqn:Esz; [|discriminate].
    destruct (rel_get _ _ _ _ R Eb) as (b & Hi & Hg & Hsi & Hb). rewrite Hg. cbn [bind].
    assert (exists p, nth_error (exts m) k = Some p) as (p & Hp).
    { destruct (nth_error (exts m) k) eqn:E; [eauto|]. apply nth_error_None in E. rewrite (R_ext_len _ _ R) in E.
      unfold buffer in Ek. rewrite (proj2 (nth_error_None (sbufs s) k)) in Ek by lia. discriminate. }
    rewrite Hp. unfold nx_mem_block_wrap.
    assert (i < length (blks m)) as Hli by (apply nth_error_Some; congruence).
    destruct own.
    + injection Hs as <- <-.
      destruct (rel_drop m s i b sb (Some nx_mem_block_alloc) (Some (SOwned 0 [])) R Hi Hb eq_refl) as (h' & _ & E & R').
      { intros h. apply brel_empty. }
      destruct (nx_mem_block_release (hp m) b) as [[h1 b1]| | |] eqn:Er; try discriminate. cbn in E. injection E as ->.
      cbn [bind]. eexists _, _. split; [reflexivity|]. split; [|reflexivity].
      pose proof (rel_take _ _ i (Some nx_mem_block_alloc) k c p sz cap R') as H. unfold set_blk.
      cbn [hp blks exts sblks sbufs] in H. rewrite !lset_lset in H. apply H; auto; try lia.
      rewrite nth_lset_eqb, Nat.eqb_refl by auto. reflexivity.
    + injection Hs as <- <-.
      destruct (rel_drop m s i b sb (Some (mkBlk (Some p) sz cap false)) (Some (SView k sz cap)) R Hi Hb eq_refl) as (h' & _ & E & R').
      { intros h. cbn. exists p. repeat (split; [auto; lia|]). intros c'. rewrite Ek. intros [= <-]. lia. }
      destruct (nx_mem_block_release (hp m) b) as [[h1 b1]| | |] eqn:Er; try discriminate. cbn in E. injection E as ->.
      cbn [bind]. eexists _, _. split; [reflexivity|]. split; [exact R'|reflexivity].
  - (* swap *) destruct (block s i) as [sb0|] eqn:Eb0; [|discriminate]. destruct (block s j) as [sb1|] eqn:Eb1; [|discriminate].
    injection Hs as <- <-.
    destruct (rel_get _ _ _ _ R Eb0) as (b0 & Hi & Hg & Hsi & Hb). rewrite Hg. cbn [bind].
    destruct (rel_get _ _ _ _ R Eb1) as (b1 & Hj & Hg1 & Hsj & Hb1). rewrite Hg1. cbn [bind nx_mem_block_swap].
    eexists _, _. split; [reflexivity|]. split; [|reflexivity].
    assert (forall b : blk, mkBlk (bptr b) (bsize b) (bcap b) (bown b) = b) as Heta by (intros []; reflexivity). rewrite !Heta. eapply rel_swap; eauto.
  - (* copy0 *) destruct (block s i) as [sb|] eqn:Eb; [|discriminate].
    destruct (s_bytes s sb (s_size sb)) as [c|] eqn:Ec; [|discriminate]. injection Hs as <- <-.
    destruct (rel_get _ _ _ _ R Eb) as (b & Hi & Hg & Hsi & Hb). rewrite Hg. cbn [bind]. unfold nx_mem_block_copy0.
    pose proof (rel_addblk m s R) as R1.
    set (m1 := mkM (hp m) (blks m ++ [Some nx_mem_block_alloc]) (exts m)) in *.
    set (s1 := mkS (sblks s ++ [Some (SOwned 0 [])]) (sbufs s)) in *.
    assert (i < length (blks m)) as Hli by (apply nth_error_Some; congruence).
    pose proof (R_len _ _ R) as HL. destruct (brel_sizes _ _ _ _ _ Hb) as (Ebs & _ & Hbcap).
    assert (length c = s_size sb) as Hlc.
    { destruct (Nat.eq_dec (s_size sb) 0) as [E|E].
      - rewrite E in *. apply s_bytes_zero in Ec. subst; auto.
      - destruct (bytes_spec m s b sb _ c R Hb Ec Hbcap) as (? & ? & _ & _ & _ & _ & H); [lia|auto]. }
    destruct (copy_spec junk m1 s1 (length (blks m)) i nx_mem_block_alloc (SOwned 0 []) b sb c (SOwned (s_size sb) (repeat None (s_size sb)))
       (mkS (sblks s ++ [Some (SOwned (s_size sb) c)]) (sbufs s)) R1) as (h' & d' & E & R2); auto.
    + lia.
    + apply fresh_index.
    + apply brel_empty.
    + unfold s1. cbn [sblks]. rewrite HL, nth_error_app2, Nat.sub_diag by lia. reflexivity.
    + unfold m1. cbn [blks]. rewrite nth_error_app1 by auto. auto.
    + unfold s1. cbn [sblks]. rewrite nth_error_app1 by lia. auto.
    + unfold s_resize, s_reserve. cbn. destruct (s_size sb); reflexivity.
    + cbn [s_store]. unfold overwrite. rewrite repeat_length, Hlc. cbn [Nat.add]. rewrite Nat.leb_refl.
      cbn [firstn app]. rewrite skipn_all2 by (rewrite repeat_length; lia). rewrite app_nil_r.
      unfold s1. cbn [sblks sbufs]. rewrite HL, lset_last. reflexivity.
    + unfold m1 in E. cbn [hp] in E. rewrite E. cbn [bind]. eexists _, _. split; [reflexivity|]. split; [|reflexivity].
      unfold set_blk, m1 in R2. cbn [blks exts] in R2. rewrite lset_last in R2. exact R2.
  - (* copy *) destruct (block s i) as [sd|] eqn:Ed; [|discriminate]. destruct (block s j) as [sb|] eqn:Eb; [|discriminate].
    destruct (Nat.eqb_spec i j) as [|Hij]; [discriminate|].
    destruct (s_bytes s sb (s_size sb)) as [c|] eqn:Ec; [|discriminate].
    destruct (s_resize s sd (s_size sb)) as [sd'|] eqn:Er; [|discriminate].
    destruct (same_view sd' sb && negb (s_size sb =? 0)) eqn:Ev; [discriminate|].
    destruct (s_store s i sd' 0 c) as [s2|] eqn:Est; [|discriminate]. injection Hs as <- <-.
    destruct (rel_get _ _ _ _ R Eb) as (b & Hj & Hg & Hsj & Hb). rewrite Hg. cbn [bind].
    destruct (rel_get _ _ _ _ R Ed) as (d & Hi & Hgd & Hsi & Hd). rewrite Hgd. cbn [bind].
    destruct (copy_spec junk m s i j d sd b sb c sd' s2 R Hij Hi Hd Hsi Hj Hb Hsj Ec Er Ev Est) as (h' & d' & E & R').
    rewrite E. cbn [bind]. eexists _, _. split; [reflexivity|]. split; [exact R'|reflexivity].
  - (* set_zero *) destruct (block s i) as [sb|] eqn:Eb; [|discriminate].
    destruct (s_store s i sb 0 (repeat (Some 0%N) (s_size sb))) as [s2|] eqn:Est; [|discriminate]. injection Hs as <- <-.
    destruct (rel_get _ _ _ _ R Eb) as (b & Hi & Hg & Hsi & Hb). rewrite Hg. cbn [bind].
    destruct (brel_sizes _ _ _ _ _ Hb) as (Ebs & _ & _). unfold nx_mem_block_set_zero. rewrite Ebs.
    destruct (Nat.eq_dec (s_size sb) 0) as [Ez|Enz].
    + rewrite Ez in *. cbn [repeat] in Est. assert (s2 = s) as -> by (eapply (store_nil m s); eauto). cbn [Nat.eqb].
      assert ((match bptr b with Some _ => Ok (hp m) | None => Ok (hp m) end) = Ok (hp m)) as -> by (destruct (bptr b); auto).
      cbn [bind]. eexists _, _. split; [reflexivity|]. split; [|reflexivity]. unfold set_blk. rewrite (lset_same _ _ _ Hi). destruct m; exact R.
    + destruct (store_spec m s i b sb 0 (repeat (Some 0%N) (s_size sb)) (repeat 0%N (s_size sb)) s2 R Hi Hb Hsi Est) as (p & d & Hp & Hc & Hl & R').
      { clear. induction (s_size sb); cbn; constructor; cbn; auto. }
      { destruct (s_size sb); [lia|discriminate]. }
      rewrite Hp. replace (s_size sb =? 0) with false by lia. rewrite (proj2 (hget_cell _ _ _) Hc). cbn [bind]. unfold blit.
      rewrite repeat_length in *. replace (0 + s_size sb <=? length d) with true by lia. cbn [bind]. rewrite (hset_ok _ _ _ _ Hc). cbn [bind].
      eexists _, _. split; [reflexivity|]. split; [|reflexivity]. unfold set_blk. rewrite (lset_same _ _ _ Hi). exact R'.
  - (* store *) destruct (block s i) as [sb|] eqn:Eb; [|discriminate].
    destruct (s_store s i sb off [Some v]) as [s2|] eqn:Est; [|discriminate]. injection Hs as <- <-.
    destruct (rel_get _ _ _ _ R Eb) as (b & Hi & Hg & Hsi & Hb). rewrite Hg. cbn [bind].
    destruct (store_spec m s i b sb off [Some v] [v] s2 R Hi Hb Hsi Est) as (p & d & Hp & Hc & Hl & R').
    { repeat constructor. } { discriminate. }
    rewrite Hp. cbn [poke]. rewrite (proj2 (hget_cell _ _ _) Hc). cbn [bind]. cbn [length] in *. unfold aset.
    replace (off <? length d) with true by lia. cbn [bind]. rewrite (hset_ok _ _ _ _ Hc). cbn [bind].
    eexists _, _. split; [reflexivity|]. split; [|reflexivity]. unfold set_blk. rewrite (lset_same _ _ _ Hi).
    replace (lset d off v) with (firstn off d ++ [v] ++ skipn (off + 1) d); [exact R'|].
    assert (off < length d) as Hl2 by lia. clear -Hl2. revert off Hl2. induction d as [|y d IH]; intros [|off] H; cbn in *; try lia; auto.
    rewrite <- IH by lia. reflexivity.
  - (* load *) destruct (block s i) as [sb|] eqn:Eb; [|discriminate]. destruct (Nat.ltb_spec off (s_size sb)) as [Hoff|]; [|discriminate].
    destruct (s_bytes s sb (s_size sb)) as [c|] eqn:Ec; [|discriminate]. destruct (nth_error c off) as [x0|] eqn:Ex; [|discriminate].
    injection Hs as <- <-.
    destruct (rel_get _ _ _ _ R Eb) as (b & Hi & Hg & Hsi & Hb). rewrite Hg. cbn [bind]. destruct (brel_sizes _ _ _ _ _ Hb) as (Ebs & _ & Hbcap).
    destruct (bytes_spec m s b sb _ c R Hb Ec Hbcap) as (p & d & Hp & Hc & Hl & Hsee & Hlc); [lia|].
    rewrite Hp. cbn [peek]. rewrite (proj2 (hget_cell _ _ _) Hc). cbn [bind].
    destruct (sees_nth _ _ _ _ Hsee Ex) as (v & Ev & Hm).
    assert (nth_error d off = Some v) as Ed.
    { rewrite <- Ev. clear -Hoff. revert off Hoff. generalize (s_size sb). intros n. revert d.
      induction n as [|n IH]; intros d off H; [lia|]. destruct d as [|y d], off; cbn; auto. apply IH. lia. }
    rewrite (proj2 (aget_ok _ _ _) Ed). cbn [bind]. eexists _, _. split; [reflexivity|]. split; [auto|].
    destruct x0; cbn in *; [congruence|eauto].
  - destruct (block s i) as [sb|] eqn:Eb; [|discriminate]. injection Hs as <- <-.
    destruct (rel_get _ _ _ _ R Eb) as (b & Hi & Hg & Hsi & Hb). rewrite Hg. cbn [bind]. destruct (brel_sizes _ _ _ _ _ Hb) as (-> & _ & _).
    eexists _, _. split; [reflexivity|]. split; [auto|reflexivity].
  - destruct (block s i) as [sb|] eqn:Eb; [|discriminate]. injection Hs as <- <-.
    destruct (rel_get _ _ _ _ R Eb) as (b & Hi & Hg & Hsi & Hb). rewrite Hg. cbn [bind]. destruct (brel_sizes _ _ _ _ _ Hb) as (_ & -> & _).
    eexists _, _. split; [reflexivity|]. split; [auto|reflexivity].
  - injection Hs as <- <-. cbn [halloc]. eexists _, _. split; [reflexivity|]. split; [|reflexivity]. apply rel_addbuf; auto.
  - destruct (buffer s k) as [c|] eqn:Ek; [|discriminate]. injection Hs as <- <-.
    assert (exists p, nth_error (exts m) k = Some p) as (p & Hp).
    { destruct (nth_error (exts m) k) eqn:E; [eauto|]. apply nth_error_None in E. rewrite (R_ext_len _ _ R) in E.
      unfold buffer in Ek. rewrite (proj2 (nth_error_None (sbufs s) k)) in Ek by lia. discriminate. }
    rewrite (proj2 (aget_ok _ _ _) Hp). cbn [bind]. destruct (R_buf _ _ R _ _ _ Ek Hp) as (d & Hd & Hs).
    rewrite (hfree_ok _ _ _ Hd). cbn [bind]. eexists _, _. split; [reflexivity|]. split; [|reflexivity].
    eapply rel_buffree; eauto.
  - destruct (buffer s k) as [c|] eqn:Ek; [|discriminate]. destruct (overwrite c off [Some v]) as [c'|] eqn:Eo; [|discriminate].
    injection Hs as <- <-.
    assert (exists p, nth_error (exts m) k = Some p) as (p & Hp).
    { destruct (nth_error (exts m) k) eqn:E; [eauto|]. apply nth_error_None in E. rewrite (R_ext_len _ _ R) in E.
      unfold buffer in Ek. rewrite (proj2 (nth_error_None (sbufs s) k)) in Ek by lia. discriminate. }
    rewrite (proj2 (aget_ok _ _ _) Hp). cbn [bind]. destruct (R_buf _ _ R _ _ _ Ek Hp) as (d & Hd & Hs).
    assert (sees [Some v] [v]) as Hv by (repeat constructor).
    destruct (overwrite_spec _ _ _ _ _ _ Hs Hv Eo) as (Hl & Hs' & Hl').
    cbn [poke]. rewrite (proj2 (hget_cell _ _ _) Hd). cbn [bind length] in *. unfold aset. replace (off <? length d) with true by lia.
    cbn [bind]. rewrite (hset_ok _ _ _ _ Hd). cbn [bind]. eexists _, _. split; [reflexivity|]. split; [|reflexivity].
    replace (lset d off v) with (firstn off d ++ [v] ++ skipn (off + 1) d); [eapply rel_bufupd; eauto|].
    assert (off < length d) as Hl2 by lia. clear -Hl2. revert off Hl2. induction d as [|y d IH]; intros [|off] H; cbn in *; try lia; auto.
    rewrite <- IH by lia. reflexivity.
  - destruct (buffer s k) as [c|] eqn:Ek; [|discriminate]. destruct (nth_error c off) as [x0|] eqn:Ex; [|discriminate].
    injection Hs as <- <-.
    assert (exists p, nth_error (exts m) k = Some p) as (p & Hp).
    { destruct (nth_error (exts m) k) eqn:E; [eauto|]. apply nth_error_None in E. rewrite (R_ext_len _ _ R) in E.
      unfold buffer in Ek. rewrite (proj2 (nth_error_None (sbufs s) k)) in Ek by lia. discriminate. }
    rewrite (proj2 (aget_ok _ _ _) Hp). cbn [bind]. destruct (R_buf _ _ R _ _ _ Ek Hp) as (d & Hd & Hs).
    destruct (sees_nth _ _ _ _ Hs Ex) as (v & Ev & Hm).
    cbn [peek]. rewrite (proj2 (hget_cell _ _ _) Hd). cbn [bind]. rewrite (proj2 (aget_ok _ _ _) Ev). cbn [bind].
    eexists _, _. split; [reflexivity|]. split; [auto|]. destruct x0; cbn in *; [congruence|eauto].
Qed.

Lemma run_spec junk : forall os m s s' xs, rel m s -> m_spec_run s os = Some (s', xs) ->
  exists m' ys, m_run false junk m os = Ok (m', ys) /\ rel m' s' /\ Forall2 agrees xs ys.
Proof.
  induction os as [|o os IH]; intros m s s' xs R Hs; cbn [m_spec_run m_run] in *.
  - injection Hs as <- <-. eexists _, _. split; [reflexivity|]. split; [auto|constructor].
  - destruct (m_spec s o) as [[s1 x]|] eqn:E1; [|discriminate]. destruct (m_spec_run s1 os) as [[s2 xs']|] eqn:E2; [|discriminate].
    injection Hs as <- <-. destruct (step_spec junk m s o s1 x R E1) as (m1 & y & E & R1 & Hy). rewrite E. cbn [bind].
    destruct (IH _ _ _ _ R1 E2) as (m2 & ys & E' & R2 & Hys). rewrite E'. cbn [bind]. eexists _, _. split; [reflexivity|]. split; [auto|constructor; auto].
Qed.

(** Bytes seen through a block across growth and copy. *)
Lemma peek_cell h p off v : peek h (Some p) off = Ok v <-> exists c, cell h p = Some c /\ nth_error c off = Some v.
Proof.
  unfold peek, cell, hget, aget. destruct (nth_error h p) as [[c|]|]; cbn [bind].
  - destruct (nth_error c off) eqn:E; split; try discriminate.
    + intros [= <-]. eauto.
    + intros (c' & [= <-] & H). congruence.
    + intros (c' & [= <-] & H). congruence.
  - split; [discriminate|]. intros (? & ? & _). discriminate.
  - split; [discriminate|]. intros (? & ? & _). discriminate.
Qed.

Lemma realloc_nth junk c n off v : nth_error c off = Some v -> off < n -> nth_error (realloc junk c n) off = Some v.
Proof.
  intros H Hn. assert (off < length c) by (apply nth_error_Some; congruence).
  unfold realloc. rewrite nth_error_app1 by (rewrite firstn_length; lia).
  rewrite <- (firstn_skipn n c), nth_error_app1 in H by (rewrite firstn_length; lia). auto.
Qed.

Lemma memcpy_peek strict h p q n h' : memcpy strict h (Some p) q n = Ok h' ->
  (n = 0 /\ h' = h) \/ exists c d, p <> q /\ cell h q = Some c /\ n <= length c /\ cell h p = Some d /\ n <= length d /\
    h' = lset h p (Some (firstn n c ++ skipn n d)).
Proof.
  unfold memcpy. destruct (Nat.eqb_spec n 0) as [E0|E0]; [intros [= <-]; auto|]. destruct (Nat.eqb_spec p q) as [|Hpq]; [discriminate|].
  destruct (hget h q) as [c| | |] eqn:Eq; try discriminate. cbn [bind]. destruct (Nat.leb_spec n (length c)) as [Hn|]; [|discriminate].
  destruct (hget h p) as [d| | |] eqn:Ep; try discriminate. cbn [bind]. unfold blit. rewrite firstn_length, Nat.min_l by auto. cbn [Nat.add].
  destruct (Nat.leb_spec n (length d)) as [Hd|]; [|discriminate]. cbn [bind]. apply hget_cell in Eq, Ep.
  rewrite (hset_ok _ _ _ _ Ep). intros [= <-]. right. exists c, d. cbn [firstn app]. auto 10.
Qed.

Lemma reserve_peek strict junk h b n h' b' off v : nx_mem_block_reserve strict junk h b n = Ok (h', b') ->
  bsize b <= bcap b -> off < bsize b -> peek h (bptr b) off = Ok v -> peek h' (bptr b') off = Ok v.
Proof.
  unfold nx_mem_block_reserve. intros H Hsz Hoff Hp. destruct (Nat.ltb_spec (bcap b) n) as [Hn|Hn]; [|injection H as <- <-; auto].
  destruct (bptr b) as [p|] eqn:Eb; [|discriminate]. pose proof Hp as Hp'. apply peek_cell in Hp as (c & Hc & Hv).
  destruct (bown b).
  - rewrite (proj2 (hget_cell _ _ _) Hc) in H. cbn [bind] in H. rewrite (hfree_ok _ _ _ Hc) in H. cbn [bind halloc] in H.
    injection H as <- <-. cbn [bptr]. apply peek_cell. exists (realloc junk c n). split; [apply cell_alloc_new|].
    apply realloc_nth; auto; lia.
  - cbn [halloc] in H. replace (0 <? bsize b) with true in H by lia.
    destruct (memcpy _ _ _ _ _) as [h1| | |] eqn:Em; try discriminate. cbn [bind] in H. injection H as <- <-. cbn [bptr].
    apply memcpy_peek in Em as [[H0 _]|(c' & d & Hne & Hq & Hl & Hd & Hl' & ->)].
    + lia.
    + apply peek_cell. eexists. split; [rewrite cell_lset, Nat.eqb_refl; [reflexivity|rewrite app_length; cbn; lia]|].
      rewrite cell_app_old in Hq by (apply cell_lt in Hc; auto). rewrite Hc in Hq. injection Hq as <-.
      rewrite nth_error_app1 by (rewrite firstn_length; lia).
      rewrite <- (firstn_skipn (bsize b) c), nth_error_app1 in Hv by (rewrite firstn_length; lia). auto.
Qed.

Lemma copy_peek strict junk h d b h' d' : nx_mem_block_copy strict junk h d b = Ok (h', d') ->
  bsize d' = bsize b /\
  forall off, off < bsize b -> bptr b <> None -> exists v, peek h' (bptr d') off = Ok v /\ peek h' (bptr b) off = Ok v.
Proof.
  unfold nx_mem_block_copy. destruct (nx_mem_block_resize strict junk h d (bsize b)) as [[h1 d1]| | |] eqn:Er; try discriminate. cbn [bind].
  assert (bsize d1 = bsize b) as Hs.
  { unfold nx_mem_block_resize in Er. destruct (nx_mem_block_reserve strict junk h d (bsize b)) as [[h2 d2]| | |]; try discriminate. cbn [bind] in Er.
    injection Er as <- <-. reflexivity. }
  destruct (bptr b) as [q|] eqn:Eq.
  - destruct (memcpy strict h1 (bptr d1) q (bsize d1)) as [h2| | |] eqn:Em; try discriminate. cbn [bind]. intros [= <- <-]. split; [auto|].
    intros off Hoff _. destruct (bptr d1) as [p|] eqn:Ep.
    + apply memcpy_peek in Em as [[H _]|(c & e & Hne & Hq & Hl & Hd & Hl' & ->)]; [lia|].
      assert (exists v, nth_error c off = Some v) as [v Hv].
      { destruct (nth_error c off) eqn:E; eauto. apply nth_error_None in E. lia. }
      exists v. pose proof (cell_lt _ _ _ Hd) as Hlt. split; apply peek_cell.
      * eexists. rewrite cell_lset, Nat.eqb_refl by auto. split; [reflexivity|]. rewrite nth_error_app1 by (rewrite firstn_length; lia).
        rewrite <- (firstn_skipn (bsize d1) c), nth_error_app1 in Hv by (rewrite firstn_length; lia). auto.
      * exists c. rewrite cell_lset by auto. replace (q =? p) with false by lia. auto.
    + unfold memcpy in Em. destruct (Nat.eqb_spec (bsize d1) 0); [lia|discriminate].
  - intros [= <- <-]. split; [auto|]. intros off Hoff []; auto.
Qed.

(** Client buffers change hands only by free and by an owning wrap. *)
Lemma store_buffer s i b off bs s' k c : s_store s i b off bs = Some s' -> buffer s k = Some c ->
  exists c', buffer s' k = Some c' /\ length c' = length c.
Proof.
  intros H Hc. destruct b as [sz buf|k' sz cap]; cbn [s_store] in H.
  - destruct (overwrite buf off bs); [|discriminate]. injection H as <-. eauto.
  - destruct bs as [|x bs]; [injection H as <-; eauto|]. destruct (buffer s k') as [d|] eqn:Ed; [|discriminate].
    destruct (_ <=? cap); [|discriminate]. destruct (overwrite d off (x :: bs)) as [d'|] eqn:Eo; [|discriminate]. injection H as <-.
    unfold overwrite in Eo. destruct (Nat.leb_spec (off + length (x :: bs)) (length d)) as [Hl|]; [|discriminate].
    assert (length d' = length d) as Hd'.
    { injection Eo as <-. rewrite app_length, firstn_length. cbn [length app] in *. rewrite app_length, skipn_length. lia. }
    unfold buffer in *. cbn [sbufs].
    assert (k' < length (sbufs s)) as Hk' by (apply nth_error_Some; destruct (nth_error (sbufs s) k'); congruence).
    rewrite nth_lset_eqb by auto. destruct (Nat.eqb_spec k k') as [->|Hn]; [|eauto]. rewrite Hc in Ed. injection Ed as ->. eauto.
Qed.

Lemma buffer_lset s bl k j v c : buffer s k = Some c -> k <> j -> buffer (mkS bl (lset (sbufs s) j v)) k = Some c.
Proof. intros H Hn. unfold buffer in *. cbn [sbufs]. rewrite nth_error_lset_neq by auto. auto. Qed.

Lemma step_buffer s o s' x k c : m_spec s o = Some (s', x) -> buffer s k = Some c ->
  o <> XFree k -> (forall i sz cap, o <> MWrap i k sz cap true) ->
  exists c', buffer s' k = Some c' /\ length c' = length c.
Proof.
  intros H Hc H1 H2. destruct o; cbn [m_spec] in H;
    repeat match type of H with
           | match ?e with Some _ => _ | None => None end = Some _ => let E := fresh "E" in destruct e eqn:E; [|discriminate H]
           | (if ?b then None else _) = Some _ => destruct b; [discriminate H|]
           | (if ?b then _ else None) = Some _ => destruct b; [|discriminate H]
           end;
    try (injection H as <- _; solve [eauto]);
    try (injection H as <- _; eapply store_buffer; solve [eauto]).
  - (* wrap *) destruct own; injection H as <- _; [|eauto]. exists c. split; [|auto]. apply buffer_lset; auto. intros ->. eapply H2; eauto.
  - (* malloc *) injection H as <- _. exists c. split; [|auto]. unfold buffer in *. cbn [sbufs].
    rewrite nth_error_app1; auto. apply nth_error_Some. destruct (nth_error (sbufs s) k); congruence.
  - (* free *) injection H as <- _. exists c. split; [|auto]. apply buffer_lset; auto.
  - (* store *) injection H as <- _. unfold overwrite in E0. destruct (_ <=? _) eqn:El; [|discriminate]. injection E0 as <-. apply Nat.leb_le in El.
    destruct (Nat.eq_dec k k0) as [->|Hn].
    + rewrite Hc in E. injection E as <-. eexists. split.
      * unfold buffer in *. cbn [sbufs]. rewrite nth_lset_eqb, Nat.eqb_refl; [reflexivity|]. apply nth_error_Some. destruct (nth_error (sbufs s) k0); congruence.
      * rewrite app_length, firstn_length. cbn [length app] in *. rewrite ?app_length, skipn_length. lia.
    + exists c. split; [|auto]. apply buffer_lset; auto.
Qed.

Lemma run_buffer os : forall s s' xs k c, m_spec_run s os = Some (s', xs) -> buffer s k = Some c ->
  ~ In (XFree k) os -> (forall i sz cap, ~ In (MWrap i k sz cap true) os) ->
  exists c', buffer s' k = Some c' /\ length c' = length c.
Proof.
  induction os as [|o os IH]; intros s s' xs k c H Hc H1 H2; cbn [m_spec_run] in H.
  - injection H as <- <-. eauto.
  - destruct (m_spec s o) as [[s1 x]|] eqn:E; [|discriminate]. destruct (m_spec_run s1 os) as [[s2 ys]|] eqn:E2; [|discriminate]. injection H as <- <-.
    destruct (step_buffer _ _ _ _ _ _ E Hc) as (c1 & Hc1 & Hl1).
    { intros ->. apply H1. left; auto. } { intros i sz cap ->. apply (H2 i sz cap). left; auto. }
    destruct (IH _ _ _ _ _ E2 Hc1) as (c2 & Hc2 & Hl2).
    { intros Hi. apply H1. right; auto. } { intros i sz cap Hi. apply (H2 i sz cap). right; auto. }
    exists c2. split; [auto|congruence].
Qed.

Lemma m_run_app strict junk os1 os2 m : m_run strict junk m (os1 ++ os2) =
  let* r := m_run strict junk m os1 in
  let '(m1, ys) := r in
  let* r := m_run strict junk m1 os2 in
  let '(m2, zs) := r in Ok (m2, ys ++ zs).
Proof.
  revert m. induction os1 as [|o os1 IH]; intros m; cbn [app m_run bind].
  - destruct (m_run strict junk m os2) as [[m2 zs]| | |]; reflexivity.
  - destruct (m_step strict junk m o) as [[m1 x]| | |]; cbn [bind]; auto. rewrite IH.
    destruct (m_run strict junk m1 os1) as [[m2 ys]| | |]; cbn [bind]; auto.
    destruct (m_run strict junk m2 os2) as [[m3 zs]| | |]; reflexivity.
Qed.
