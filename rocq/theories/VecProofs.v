(** Vectors refine lists of items. *)
From Verif Require Import Base BaseLemmas Heap ShaModel StrModel MemModel MemSpec MemProofs VecModel VecSpec.
Local Open Scope nat_scope.

Section VecProofs.
Variable isz : nat.
Hypothesis isz_pos : 0 < isz.
Notation items := (list (option (list N))).

Definition wk : bytes -> bytes -> Prop := Forall2 (fun a b => a = None \/ a = b).
Definition flat1 (o : option (list N)) : bytes := match o with None => repeat None isz | Some it => map Some it end.
Definition flat (l : items) : bytes := flat_map flat1 l.
Definition sized (l : items) : Prop := Forall (fun o => match o with Some it => length it = isz | None => True end) l.

Lemma flat1_length o : match o with Some it => length it = isz | None => True end -> length (flat1 o) = isz.
Proof. destruct o; cbn; [rewrite map_length|rewrite repeat_length]; auto. Qed.
Lemma flat_length l : sized l -> length (flat l) = length l * isz.
Proof.
  induction 1 as [|o l Ho Hl IH]; cbn [flat flat_map length]; auto. rewrite app_length, flat1_length by auto.
  fold (flat l). rewrite IH. lia.
Qed.
Lemma flat_app a b : flat (a ++ b) = flat a ++ flat b.
Proof. apply flat_map_app. Qed.
Lemma flat_none n : flat (repeat None n) = repeat None (n * isz).
Proof. induction n as [|n IH]; cbn; auto. fold (flat (repeat None n)). rewrite IH, <- repeat_app. reflexivity. Qed.
Lemma sized_firstn n l : sized l -> sized (firstn n l).
Proof. intros H. apply Forall_forall. intros x Hx. rewrite <- (firstn_skipn n l) in H. apply Forall_app in H as [H _]. eapply Forall_forall in H; eauto. Qed.
Lemma sized_skipn n l : sized l -> sized (skipn n l).
Proof. intros H. apply Forall_forall. intros x Hx. rewrite <- (firstn_skipn n l) in H. apply Forall_app in H as [_ H]. eapply Forall_forall in H; eauto. Qed.
Lemma flat_firstn n l : sized l -> flat (firstn n l) = firstn (n * isz) (flat l).
Proof.
  intros H. destruct (Nat.le_ge_cases n (length l)) as [Hn|Hn].
  - rewrite <- (firstn_skipn n l) at 2. rewrite flat_app, firstn_app, flat_length by (apply sized_firstn; auto).
    rewrite firstn_length, Nat.min_l, Nat.sub_diag by auto.
    rewrite (firstn_all2 (flat (firstn n l))) by (rewrite flat_length, firstn_length by (apply sized_firstn; auto); nia).
    change (firstn 0 (flat (skipn n l))) with (@nil (option N)). rewrite app_nil_r. reflexivity.
  - rewrite !firstn_all2; auto. rewrite flat_length by auto. nia.
Qed.

Lemma wk_refl l : wk l l. Proof. induction l; constructor; auto. Qed.
Lemma wk_app a b c d : wk a c -> wk b d -> wk (a ++ b) (c ++ d).
Proof. apply Forall2_app. Qed.
Lemma wk_firstn n a c : wk a c -> wk (firstn n a) (firstn n c).
Proof. intros H. revert n. induction H as [|x y a c Hx H IH]; intros [|n]; cbn; constructor; auto; apply IH. Qed.
Lemma wk_skipn n a c : wk a c -> wk (skipn n a) (skipn n c).
Proof. intros H. revert n. induction H as [|x y a c Hx H IH]; intros [|n]; cbn; try (constructor; auto); apply IH. Qed.
Lemma wk_none n l : length l = n -> wk (repeat None n) l.
Proof. intros <-. induction l; cbn; constructor; auto. Qed.
Lemma wk_length a b : wk a b -> length a = length b.
Proof. apply Forall2_length. Qed.
Lemma wk_sees a b c : wk a b -> sees b c -> sees a c.
Proof.
  intros H. revert c. induction H as [|x y a b Hx H IH]; intros c Hc; inversion Hc; subst; constructor; auto.
  destruct Hx as [->| ->]; cbn; auto.
Qed.

Lemma fits_mul n : fits isz n = true -> szmul n isz = n * isz.
Proof.
  intros H. unfold fits in H. apply N.ltb_lt in H. unfold szmul. rewrite N.mod_small by auto. rewrite <- Nat2N.inj_mul, Nat2N.id. reflexivity.
Qed.
Lemma fits_le n n' : fits isz n = true -> n' <= n -> fits isz n' = true.
Proof. intros H Hl. unfold fits in *. apply N.ltb_lt in H. apply N.ltb_lt. eapply N.le_lt_trans; [|exact H]. nia. Qed.

(** State of the blocks behind the vectors. *)
Definition M (V : vstate) : mstate := mkM (vhp V) (map (option_map vmem) (vecs V)) (vexts V).

Definition item_ok (v : vec) (l : items) (sb : sblk) : Prop :=
  vsize v = length l /\ vdata v = bptr (vmem v) /\ sized l /\ vcap v = bcap (vmem v) / isz /\
  exists buf, sb = SOwned (length l * isz) buf /\ length l * isz <= length buf /\
              wk (flat l) (firstn (length l * isz) buf).
Definition oitem_ok (v : option vec) (l : option items) (sb : option sblk) : Prop :=
  match v, l, sb with Some v, Some l, Some sb => item_ok v l sb | None, None, None => True | _, _, _ => False end.

Definition vrel1 (V : vstate) (T : list (option items)) (s : sstate) : Prop :=
  rel (M V) s /\ (forall k, buffer s k = None) /\ length (vecs V) = length T /\
  (forall i v l sb, nth_error (vecs V) i = Some v -> nth_error T i = Some l -> nth_error (sblks s) i = Some sb -> oitem_ok v l sb).
Definition vrel V T := exists s, vrel1 V T s.

Lemma map_lset {A B} (f : A -> B) l i x : map f (lset l i x) = lset (map f l) i (f x).
Proof. revert i; induction l as [|y l IH]; intros [|i]; cbn; auto. rewrite IH; auto. Qed.
Lemma M_set V h i v : M (set_vec V h i (Some v)) = set_blk (M V) h i (Some (vmem v)).
Proof. unfold M, set_vec, set_blk. cbn. rewrite map_lset. reflexivity. Qed.

Lemma vrel_get V T s i l : vrel1 V T s -> vec_at T i = Some l ->
  exists v buf, get_vec V i = Ok v /\ nth_error (vecs V) i = Some (Some v) /\ nth_error T i = Some (Some l) /\
    nth_error (blks (M V)) i = Some (Some (vmem v)) /\
    nth_error (sblks s) i = Some (Some (SOwned (length l * isz) buf)) /\
    brel (vhp V) (vexts V) s (vmem v) (SOwned (length l * isz) buf) /\
    vsize v = length l /\ vdata v = bptr (vmem v) /\ sized l /\ vcap v = bcap (vmem v) / isz /\ length l * isz <= length buf /\
    wk (flat l) (firstn (length l * isz) buf).
Proof.
  intros (R & Hb & Hlen & Hok) Hl. unfold vec_at in Hl. destruct (nth_error T i) as [[l0|]|] eqn:ES; try discriminate. injection Hl as ->.
  assert (i < length (vecs V)) as Hi by (rewrite Hlen; apply nth_error_Some; congruence).
  destruct (nth_error (vecs V) i) as [ov|] eqn:EV; [|apply nth_error_None in EV; lia].
  assert (length (sblks s) = length (vecs V)) as Hsl by (rewrite <- (R_len _ _ R); cbn; apply map_length).
  destruct (nth_error (sblks s) i) as [osb|] eqn:Es; [|apply nth_error_None in Es; lia].
  pose proof (Hok i ov (Some l) osb EV ES Es) as H. destruct ov as [v|], osb as [sb|]; cbn in H; try contradiction.
  destruct H as (H1 & H2 & H3 & H6 & buf & -> & H4 & H5).
  assert (nth_error (blks (M V)) i = Some (Some (vmem v))) as Hblk by (cbn; rewrite nth_error_map, EV; reflexivity).
  pose proof (R_blk _ _ R _ _ _ Hblk Es) as Hbr. exists v, buf. unfold get_vec. rewrite EV. auto 15.
Qed.

Lemma vrel_set V T s i h v' l' sb' : vrel1 V T s -> i < length (vecs V) ->
  rel (set_blk (M V) h i (Some (vmem v'))) (mkS (lset (sblks s) i (Some sb')) (sbufs s)) ->
  item_ok v' l' sb' -> vrel1 (set_vec V h i (Some v')) (lset T i (Some l')) (mkS (lset (sblks s) i (Some sb')) (sbufs s)).
Proof.
  intros (R & Hb & Hlen & Hok) Hi R' Hit. split; [rewrite M_set; exact R'|]. split; [exact Hb|].
  assert (length (sblks s) = length (vecs V)) as Hsl by (rewrite <- (R_len _ _ R); cbn; apply map_length).
  split; [cbn; rewrite !lset_length; auto|]. cbn [set_vec vecs sblks]. intros j v l sb.
  rewrite !nth_lset_eqb by lia. destruct (j =? i).
  - intros [= <-] [= <-] [= <-]. exact Hit.
  - apply Hok.
Qed.

Lemma set_vec_twice V h h' i a b : set_vec (set_vec V h i a) h' i b = set_vec V h' i b.
Proof. unfold set_vec. cbn. rewrite lset_lset. reflexivity. Qed.

Lemma update_ok b l buf : bsize b = length l * isz -> sized l -> length l * isz <= length buf ->
  wk (flat l) (firstn (length l * isz) buf) ->
  item_ok (update_vector_fields isz b) l (SOwned (length l * isz) buf).
Proof.
  intros Hs Hl Hb Hw. unfold update_vector_fields. cbn. split; [cbn; rewrite Hs, Nat.div_mul by lia; reflexivity|]. split; [reflexivity|]. split; [auto|]. split; [reflexivity|].
  exists buf. auto.
Qed.

Lemma vec_reserve_ok junk V T s i l v n : vrel1 V T s -> vec_at T i = Some l -> get_vec V i = Ok v -> fits isz n = true ->
  exists h' v' s', vec_reserve isz junk (vhp V) v n = Ok (h', v') /\ vrel1 (set_vec V h' i (Some v')) T s' /\ vsize v' = vsize v.
Proof.
  intros HV Hl Hg Hn. destruct (vrel_get _ _ _ _ _ HV Hl) as (v0 & buf & Hg0 & Hi & HS & Hb & Hs & Hbr & Hsz & Hd & Hsl & Hcap & Hle & Hw).
  rewrite Hg in Hg0. injection Hg0 as <-. unfold vec_reserve.
  assert (i < length (vecs V)) as Hil by (apply nth_error_Some; congruence).
  destruct (vcap v <? n).
  - destruct (reserve_spec false junk (M V) s i (vmem v) (SOwned (length l * isz) buf) (szmul n isz)
       (SOwned (length l * isz) (if szmul n isz <=? length buf then buf else buf ++ repeat None (szmul n isz - length buf))) (proj1 HV) Hb Hbr Hs)
      as (h' & b' & E & R' & Hb' & _).
    + unfold s_reserve. cbn [s_cap]. destruct (_ <=? _); reflexivity.
    + cbn [vhp M hp] in E. rewrite E. cbn [bind]. exists h', (update_vector_fields isz b'). eexists. split; [reflexivity|].
      assert (item_ok (update_vector_fields isz b') l (SOwned (length l * isz) (if szmul n isz <=? length buf then buf else buf ++ repeat None (szmul n isz - length buf)))) as Hit.
      { apply update_ok; auto; try (destruct Hb' as (-> & _); reflexivity).
        - destruct (_ <=? _); [auto|]. rewrite app_length. lia.
        - destruct (_ <=? _); [auto|]. rewrite firstn_app. replace (length l * isz - length buf) with 0 by lia.
          match goal with |- context [firstn 0 ?x] => change (firstn 0 x) with (@nil (option N)) end. rewrite app_nil_r. auto. }
      split; [|destruct Hit as (-> & _); auto].
      replace T with (lset T i (Some l)) by (apply lset_same; auto). eapply vrel_set; eauto.
  - exists (vhp V), v, s. split; [reflexivity|]. split; [|auto]. unfold set_vec. rewrite lset_same by auto. destruct V; exact HV.
Qed.

Lemma vec_resize_ok junk V T s i l v n : vrel1 V T s -> vec_at T i = Some l -> get_vec V i = Ok v -> fits isz n = true ->
  exists h' v' s', vec_resize isz junk (vhp V) v n = Ok (h', v') /\
    vrel1 (set_vec V h' i (Some v')) (lset T i (Some (firstn n l ++ repeat None (n - length l)))) s'.
Proof.
  intros HV Hl Hg Hn. destruct (vrel_get _ _ _ _ _ HV Hl) as (v0 & buf & Hg0 & Hi & HS & Hb & Hs & Hbr & Hsz & Hd & Hsl & Hcap & Hle & Hw).
  rewrite Hg in Hg0. injection Hg0 as <-. unfold vec_resize. rewrite (fits_mul _ Hn).
  assert (i < length (vecs V)) as Hil by (apply nth_error_Some; congruence).
  set (buf' := if n * isz <=? length buf then buf else buf ++ repeat None (n * isz - length buf)).
  destruct (resize_spec false junk (M V) s i (vmem v) (SOwned (length l * isz) buf) (n * isz) (SOwned (n * isz) buf') (proj1 HV) Hb Hbr Hs)
      as (h' & b' & E & R' & Hb' & _).
  { unfold s_resize, s_reserve, buf'. cbn [s_cap]. destruct (_ <=? _); reflexivity. }
  cbn [vhp M hp] in E. rewrite E. cbn [bind]. exists h', (update_vector_fields isz b'). eexists. split; [reflexivity|].
  assert (n * isz <= length buf') as Hb'l.
  { unfold buf'. destruct (Nat.leb_spec (n * isz) (length buf)); [auto|]. rewrite app_length, repeat_length. lia. }
  set (l' := firstn n l ++ repeat None (n - length l)).
  assert (length l' = n) as Hl'.
  { unfold l'. rewrite app_length, firstn_length, repeat_length. lia. }
  assert (exists rest, buf' = buf ++ rest) as (rest & Hrest).
  { unfold buf'. destruct (_ <=? _); [exists []; rewrite app_nil_r; auto|eauto]. }
  eapply vrel_set; eauto. rewrite <- Hl'. apply update_ok.
  - destruct Hb' as (-> & _). rewrite Hl'. reflexivity.
  - unfold l'. apply Forall_app. split; [apply sized_firstn; auto|]. apply Forall_forall. intros x Hx. apply repeat_spec in Hx. rewrite Hx. exact I.
  - rewrite Hl'. auto.
  - rewrite Hl'. unfold l'. rewrite flat_app, flat_none, flat_firstn by auto. rewrite Hrest in *.
    destruct (Nat.le_ge_cases n (length l)) as [Hc|Hc].
    + replace (n - length l) with 0 by lia. cbn [Nat.mul repeat]. rewrite app_nil_r.
      replace (firstn (n * isz) (buf ++ rest)) with (firstn (n * isz) (firstn (length l * isz) buf)); [apply wk_firstn; auto|].
      rewrite firstn_firstn, firstn_app. replace (n * isz - length buf) with 0 by nia.
      change (firstn 0 rest) with (@nil (option N)). rewrite app_nil_r. f_equal. nia.
    + rewrite firstn_all2 by (rewrite flat_length by auto; nia).
      rewrite <- (firstn_skipn (length l * isz) (firstn (n * isz) (buf ++ rest))).
      apply wk_app.
      * rewrite firstn_firstn. replace (Nat.min (length l * isz) (n * isz)) with (length l * isz) by nia.
        rewrite firstn_app. replace (length l * isz - length buf) with 0 by lia.
        change (firstn 0 rest) with (@nil (option N)). rewrite app_nil_r. auto.
      * apply wk_none. rewrite skipn_length, firstn_length. rewrite app_length in *. nia.
Qed.

Lemma get_set V h i v : i < length (vecs V) -> get_vec (set_vec V h i (Some v)) i = Ok v.
Proof. intros H. unfold get_vec, set_vec. cbn. rewrite nth_lset_eqb, Nat.eqb_refl by auto. reflexivity. Qed.

(** Storing one item. *)
Lemma item_store_ok V T s i l v k it : vrel1 V T s -> vec_at T i = Some l -> get_vec V i = Ok v ->
  k < length l -> length it = isz ->
  exists h' s', item_store isz (vhp V) (vdata v) k it = Ok h' /\
    vrel1 (set_vec V h' i (Some v)) (lset T i (Some (firstn k l ++ Some it :: skipn (S k) l))) s'.
Proof.
  intros HV Hl Hg Hk Hit. destruct (vrel_get _ _ _ _ _ HV Hl) as (v0 & buf & Hg0 & Hi & HS & Hb & Hs & Hbr & Hsz & Hd & Hsl & Hcap & Hle & Hw).
  rewrite Hg in Hg0. injection Hg0 as <-.
  assert (i < length (vecs V)) as Hil by (apply nth_error_Some; congruence).
  set (buf' := firstn (k * isz) buf ++ map Some it ++ skipn (k * isz + isz) buf).
  assert (k * isz + isz <= length buf) as Hfit by nia.
  destruct (store_spec (M V) s i (vmem v) (SOwned (length l * isz) buf) (k * isz) (map Some it) it
     (mkS (lset (sblks s) i (Some (SOwned (length l * isz) buf'))) (sbufs s)) (proj1 HV) Hb Hbr Hs) as (p & d & Hp & Hc & Hlen & R').
  { cbn [s_store]. unfold overwrite. rewrite map_length, Hit. replace (k * isz + isz <=? length buf) with true by lia. reflexivity. }
  { apply sees_map_some. }
  { destruct it; [cbn in Hit; lia|discriminate]. }
  unfold item_store. rewrite Hd, Hp. cbn [M hp] in Hc. rewrite (proj2 (hget_cell _ _ _) Hc). cbn [bind]. unfold blit.
  replace (k * isz + length it <=? length d) with true by lia. cbn [bind]. rewrite (hset_ok _ _ _ _ Hc).
  eexists. eexists. split; [reflexivity|].
  assert (length (firstn k l ++ Some it :: skipn (S k) l) = length l) as Hll.
  { rewrite app_length, firstn_length. cbn [length]. rewrite skipn_length. lia. }
  eapply vrel_set; eauto.
  - unfold set_blk. rewrite (lset_same (blks (M V)) i) by auto. exact R'.
  - split; [congruence|]. split; [auto|]. split.
    + apply Forall_app. split; [apply sized_firstn; auto|]. constructor; [auto|apply sized_skipn; auto].
    + split; [auto|]. exists buf'. rewrite Hll. split; [reflexivity|]. split.
      { unfold buf'. rewrite !app_length, firstn_length, map_length, skipn_length. lia. }
      rewrite flat_app. cbn [flat flat_map]. fold (flat (skipn (S k) l)). cbn [flat1].
      assert (length l * isz = k * isz + (isz + (length l - S k) * isz)) as Hsum by nia.
      unfold buf'. rewrite firstn_app, firstn_firstn, firstn_length.
      replace (Nat.min (length l * isz) (k * isz)) with (k * isz) by nia.
      replace (length l * isz - Nat.min (k * isz) (length buf)) with (isz + (length l - S k) * isz) by nia.
      rewrite firstn_app, map_length, Hit. rewrite (firstn_all2 (map Some it)) by (rewrite map_length, Hit; apply Nat.le_add_r).
      rewrite (Nat.add_comm isz ((length l - S k) * isz)), Nat.add_sub.
      apply wk_app; [|apply wk_app; [apply wk_refl|]].
      * rewrite flat_firstn by auto. replace (firstn (k * isz) buf) with (firstn (k * isz) (firstn (length l * isz) buf)).
        { apply wk_firstn; auto. }
        rewrite firstn_firstn. f_equal. nia.
      * assert (flat (skipn (S k) l) = skipn (S k * isz) (flat l)) as ->.
        { rewrite <- (firstn_skipn (S k) l) at 2. rewrite flat_app, skipn_app.
          rewrite flat_length, firstn_length by (apply sized_firstn; auto). replace (Nat.min (S k) (length l)) with (S k) by lia.
          rewrite Nat.sub_diag. rewrite (skipn_all2 (flat (firstn (S k) l))) by (rewrite flat_length, firstn_length by (apply sized_firstn; auto); nia).
          reflexivity. }
        replace (firstn ((length l - S k) * isz) (skipn (k * isz + isz) buf)) with (skipn (S k * isz) (firstn (length l * isz) buf)).
        { apply wk_skipn; auto. }
        rewrite firstn_skipn_comm. f_equal; [lia|]. f_equal. nia.
Qed.

Lemma item_load_ok V T s i l v k x : vrel1 V T s -> vec_at T i = Some l -> get_vec V i = Ok v ->
  nth_error l k = Some x -> exists it, item_load isz (vhp V) (vdata v) k = Ok it /\ match x with Some y => it = y | None => True end.
Proof.
  intros HV Hl Hg Hk. destruct (vrel_get _ _ _ _ _ HV Hl) as (v0 & buf & Hg0 & Hi & HS & Hb & Hs & Hbr & Hsz & Hd & Hsl & Hcap & Hle & Hw).
  rewrite Hg in Hg0. injection Hg0 as <-.
  assert (k < length l) as Hkl by (apply nth_error_Some; congruence).
  destruct (bytes_spec (M V) s (vmem v) (SOwned (length l * isz) buf) (length l * isz) (firstn (length l * isz) buf) (proj1 HV) Hbr eq_refl)
    as (p & d & Hp & Hc & Hld & Hsee & Hlc); [cbn; auto|nia|].
  unfold item_load. rewrite Hd, Hp. cbn [M hp] in Hc. rewrite (proj2 (hget_cell _ _ _) Hc). cbn [bind].
  replace (k * isz + isz <=? length d) with true by nia. eexists. split; [reflexivity|].
  destruct x as [y|]; [|auto].
  pose proof (wk_sees _ _ _ Hw Hsee) as Hf.
  assert (sees (map Some y) (firstn isz (skipn (k * isz) d))) as Hy.
  { apply nth_error_split in Hk as (l1 & l2 & -> & <-). apply Forall_app in Hsl as [Hs1 Hs2]. inversion Hs2 as [|? ? Hy Hs2']; subst.
    rewrite flat_app in Hf. cbn [flat flat_map flat1] in Hf. fold (flat l2) in Hf.
    apply (sees_skipn (length l1 * isz)) in Hf. rewrite skipn_app, flat_length, Nat.sub_diag in Hf by auto.
    rewrite skipn_all2 in Hf by (rewrite flat_length; auto). cbn [app skipn] in Hf.
    apply (sees_firstn isz) in Hf. rewrite firstn_app, map_length, Hy, Nat.sub_diag in Hf.
    rewrite (firstn_all2 (map Some y)) in Hf by (rewrite map_length; lia).
    change (firstn 0 (flat l2)) with (@nil (option N)) in Hf. rewrite app_nil_r in Hf.
    rewrite skipn_firstn_comm, firstn_firstn in Hf. rewrite app_length in Hf. cbn [length] in Hf.
    replace (Nat.min isz ((length l1 + S (length l2)) * isz - length l1 * isz)) with isz in Hf by nia. exact Hf. }
  clear -Hy. revert Hy. generalize (firstn isz (skipn (k * isz) d)). intros z H. remember (map Some y) as w eqn:E. revert y E.
  induction H as [|a b w z Ha H IH]; intros [|c y] E; try discriminate; auto. cbn in E. injection E as -> ->. cbn in Ha. subst. rewrite (IH y); auto.
Qed.

Lemma set_bsize V h i b n buf s : i < length (vecs V) -> length (sblks s) = length (vecs V) ->
  rel (set_blk (M V) h i (Some b)) (mkS (lset (sblks s) i (Some (SOwned n buf))) (sbufs s)) -> bsize b = n /\ n <= length buf.
Proof.
  intros Hi Hl R. pose proof (R_blk _ _ R i (Some b) (Some (SOwned n buf))) as H. cbn [set_blk blks sblks hp exts] in H.
  assert (i < length (blks (M V))) as Hi' by (cbn; rewrite map_length; auto).
  rewrite !nth_lset_eqb, Nat.eqb_refl in H by (cbn; rewrite ?map_length; lia). specialize (H eq_refl eq_refl). destruct H as (H & _ & H' & _). auto.
Qed.

Lemma vrel_len V T s : vrel1 V T s -> length (sblks s) = length (vecs V) /\ length (vecs V) = length T.
Proof. intros (R & _ & H & _). split; [|auto]. rewrite <- (R_len _ _ R). cbn. apply map_length. Qed.

Lemma vec_at_some T i l : vec_at T i = Some l -> nth_error T i = Some (Some l) /\ i < length T.
Proof.
  unfold vec_at. destruct (nth_error T i) as [[x|]|] eqn:E; try discriminate. intros [= ->]. split; [auto|]. apply nth_error_Some. congruence.
Qed.

Lemma vrel_add V T s : vrel1 V T s ->
  vrel1 (mkV (vhp V) (vecs V ++ [Some vec_alloc]) (vexts V)) (T ++ [Some []]) (mkS (sblks s ++ [Some (SOwned 0 [])]) (sbufs s)).
Proof.
  intros HV. destruct (vrel_len _ _ _ HV) as [L1 L2]. destruct HV as (R & Hb & Hlen & Hok). split.
  - unfold M. cbn [vhp vecs vexts]. rewrite map_app. apply (rel_addblk _ _ R).
  - split; [exact Hb|]. split; [cbn [vecs]; rewrite !app_length; cbn [length]; lia|]. cbn [vecs sblks]. intros i v l sb H1 H2 H3.
    destruct (Nat.lt_ge_cases i (length (vecs V))) as [Hi|Hi].
    + rewrite nth_error_app1 in H1, H2, H3 by lia. eapply Hok; eauto.
    + rewrite nth_error_app2 in H1, H2, H3 by lia. rewrite L1 in H3. rewrite <- L2 in H2. destruct (i - length (vecs V)) as [|[|]]; try discriminate.
      cbn in H1, H2, H3. injection H1 as <-. injection H2 as <-. injection H3 as <-. cbn. split; [auto|]. split; [auto|]. split; [constructor|].
      split; [rewrite Nat.div_0_l by lia; reflexivity|]. exists []. cbn. repeat split; auto. constructor.
Qed.

Lemma vec_at_last T l : vec_at (T ++ [Some l]) (length T) = Some l.
Proof. unfold vec_at. rewrite nth_error_app2, Nat.sub_diag by lia. reflexivity. Qed.
Lemma vec_at_old T x i l : vec_at T i = Some l -> vec_at (T ++ [x]) i = Some l.
Proof. intros H. destruct (vec_at_some _ _ _ H) as [H1 H2]. unfold vec_at. rewrite nth_error_app1 by auto. rewrite H1. reflexivity. Qed.

Lemma vec_copy_ok junk V T s i j l ls v vs : vrel1 V T s -> i <> j -> vec_at T i = Some l -> get_vec V i = Ok v ->
  vec_at T j = Some ls -> get_vec V j = Ok vs ->
  exists h' v' s', vec_copy isz junk (vhp V) v vs = Ok (h', v') /\ vrel1 (set_vec V h' i (Some v')) (lset T i (Some ls)) s'.
Proof.
  intros HV Hij Hl Hg Hls Hgs. destruct (vrel_len _ _ _ HV) as [L1 L2].
  destruct (vrel_get _ _ _ _ _ HV Hl) as (v0 & buf & Hg0 & Hi & HS & Hb & Hs & Hbr & Hsz & Hd & Hsl & Hcap & Hle & Hw).
  rewrite Hg in Hg0. injection Hg0 as <-.
  destruct (vrel_get _ _ _ _ _ HV Hls) as (v0 & buf2 & Hg0 & Hi2 & HS2 & Hb2 & Hs2 & Hbr2 & Hsz2 & Hd2 & Hsl2 & Hcap2 & Hle2 & Hw2).
  rewrite Hgs in Hg0. injection Hg0 as <-.
  assert (i < length (vecs V)) as Hil by (apply nth_error_Some; congruence).
  set (n := length ls * isz) in *.
  set (bd := if n <=? length buf then buf else buf ++ repeat None (n - length buf)).
  assert (n <= length bd) as Hbd.
  { unfold bd. destruct (Nat.leb_spec n (length buf)); [auto|]. rewrite app_length, repeat_length. lia. }
  assert (length (firstn n buf2) = n) as Hfl by (rewrite firstn_length; lia).
  destruct (copy_spec junk (M V) s i j (vmem v) (SOwned (length l * isz) buf) (vmem vs) (SOwned n buf2) (firstn n buf2)
     (SOwned n bd) (mkS (lset (sblks s) i (Some (SOwned n (firstn n buf2 ++ skipn n bd)))) (sbufs s)) (proj1 HV) Hij Hb Hbr Hs Hb2 Hbr2 Hs2)
    as (h' & d' & E & R').
  - reflexivity.
  - cbn [s_size]. unfold s_resize, s_reserve, bd. cbn [s_cap]. destruct (_ <=? _); reflexivity.
  - reflexivity.
  - cbn [s_store]. unfold overwrite. cbn [Nat.add firstn app]. rewrite Hfl. replace (n <=? length bd) with true by lia. reflexivity.
  - unfold vec_copy. cbn [M hp] in E. rewrite E. cbn [bind]. eexists. eexists. eexists. split; [reflexivity|].
    destruct (set_bsize _ _ _ _ _ _ _ Hil L1 R') as [Hbs _].
    eapply vrel_set; eauto. apply update_ok; auto.
    + rewrite app_length, skipn_length. fold n. lia.
    + fold n. rewrite firstn_app, Hfl, Nat.sub_diag. change (firstn 0 (skipn n bd)) with (@nil (option N)). rewrite app_nil_r.
      rewrite firstn_firstn, Nat.min_id. exact Hw2.
Qed.

Lemma set_last V (a b : vec) h : set_vec (mkV (vhp V) (vecs V ++ [Some a]) (vexts V)) h (length (vecs V)) (Some b) = mkV h (vecs V ++ [Some b]) (vexts V).
Proof. unfold set_vec. cbn. rewrite lset_last. reflexivity. Qed.

Lemma get_ok V T s i l : vrel1 V T s -> vec_at T i = Some l -> exists v, get_vec V i = Ok v /\ vsize v = length l /\ i < length (vecs V).
Proof.
  intros HV Hl. destruct (vrel_get _ _ _ _ _ HV Hl) as (v0 & buf & Hg0 & Hi & HS & Hb & Hs & Hbr & Hsz & Hd & Hsl & Hcap & Hle & Hw).
  exists v0. repeat split; auto. apply nth_error_Some. congruence.
Qed.

Lemma concat_length its : forallb (is_item isz) its = true -> length (concat its) = length its * isz.
Proof.
  induction its as [|a its IH]; cbn; auto. intros H. apply andb_prop in H as [H1 H2]. apply Nat.eqb_eq in H1. rewrite app_length, IH by auto. lia.
Qed.
Lemma flat_concat its : flat (map Some its) = map Some (concat its).
Proof. induction its as [|a its IH]; cbn; auto. rewrite map_app. f_equal. exact IH. Qed.
Lemma sized_some its : forallb (is_item isz) its = true -> sized (map Some its).
Proof. induction its as [|a its IH]; cbn; intros H; constructor; apply andb_prop in H as [H1 H2]; [apply Nat.eqb_eq; auto|apply IH; auto]. Qed.

Lemma vstep_spec junk V T o T' x : vrel V T -> v_spec isz T o = Some (T', x) ->
  exists V' y, v_step isz junk V o = Ok (V', y) /\ vrel V' T' /\ out_agrees x y.
Proof.
  intros [s HV] H. destruct (vrel_len _ _ _ HV) as [L1 L2]. destruct o; cbn [v_spec] in H; unfold v_step.
  - (* alloc *) injection H as <- <-. eexists. eexists. split; [reflexivity|]. split; [|reflexivity]. eexists. apply vrel_add; eauto.
  - (* new *) destruct (fits isz n) eqn:Hf; [|discriminate]. injection H as <- <-.
    destruct (vec_reserve_ok junk _ _ _ (length (vecs V)) [] vec_alloc n (vrel_add _ _ _ HV)) as (h' & v' & s' & E & HV' & _); auto.
    { rewrite L2. apply vec_at_last. }
    { unfold get_vec. cbn. rewrite nth_error_app2, Nat.sub_diag by lia. reflexivity. }
    unfold vec_new. cbn [vhp] in E. rewrite E. cbn [bind]. eexists. eexists. split; [reflexivity|]. split; [|reflexivity].
    rewrite set_last in HV'. eexists; eauto.
  - (* free *) destruct (vec_at T i) as [l|] eqn:Hl; [|discriminate]. injection H as <- <-.
    destruct (vrel_get _ _ _ _ _ HV Hl) as (v & buf & Hg & Hi & HS & Hb & Hs & Hbr & Hsz & Hd & Hsl & Hcap & Hle & Hw).
    rewrite Hg. cbn [bind]. destruct (rel_drop (M V) s i (vmem v) _ None None (proj1 HV) Hb Hbr eq_refl) as (h' & E & _ & R'); [intros; exact I|].
    cbn [M hp] in E. rewrite E. cbn [bind]. eexists. eexists. split; [reflexivity|]. split; [|reflexivity].
    assert (i < length (vecs V)) as Hil by (apply nth_error_Some; congruence).
    eexists. split; [|split; [|split]].
    + unfold M, set_vec. cbn [vhp vecs vexts]. rewrite map_lset. exact R'.
    + apply HV.
    + cbn. rewrite !lset_length. auto.
    + cbn [set_vec vecs sblks]. intros k v0 l0 sb0. rewrite !nth_lset_eqb by lia. destruct (k =? i); [intros [= <-] [= <-] [= <-]; exact I|apply HV].
  - (* release *) destruct (vec_at T i) as [l|] eqn:Hl; [|discriminate]. injection H as <- <-.
    destruct (vrel_get _ _ _ _ _ HV Hl) as (v & buf & Hg & Hi & HS & Hb & Hs & Hbr & Hsz & Hd & Hsl & Hcap & Hle & Hw).
    rewrite Hg. cbn [bind]. destruct (rel_drop (M V) s i (vmem v) _ (Some (mkBlk None 0 0 false)) (Some (SOwned 0 [])) (proj1 HV) Hb Hbr eq_refl) as (h' & _ & E & R').
    { intros h. cbn. auto 10. }
    cbn [M hp] in E. unfold vec_release. unfold nx_mem_block_release in E |- *. destruct (match bptr (vmem v) with Some p => _ | None => _ end) as [h1| | |]; try discriminate.
    cbn in E. injection E as ->. cbn [bind]. eexists. eexists. split; [reflexivity|]. split; [|reflexivity].
    assert (i < length (vecs V)) as Hil by (apply nth_error_Some; congruence).
    eexists. eapply vrel_set; [exact HV|auto|exact R'|].
    cbn. split; [auto|]. split; [auto|]. split; [constructor|]. split; [rewrite Nat.div_0_l by lia; reflexivity|].
    exists []. cbn. repeat split; auto. constructor.
  - (* reserve *) destruct (vec_at T i) as [l|] eqn:Hl; [|discriminate]. destruct (fits isz n) eqn:Hf; [|discriminate]. injection H as <- <-.
    destruct (get_ok _ _ _ _ _ HV Hl) as (v & Hg & _ & Hil). rewrite Hg. cbn [bind].
    destruct (vec_reserve_ok junk _ _ _ _ _ _ n HV Hl Hg Hf) as (h' & v' & s' & E & HV' & _). rewrite E. cbn [bind].
    eexists. eexists. split; [reflexivity|]. split; [|reflexivity]. rewrite lset_same by (apply vec_at_some in Hl as [? _]; auto). eexists; eauto.
  - (* resize *) destruct (vec_at T i) as [l|] eqn:Hl; [|discriminate]. destruct (fits isz n) eqn:Hf; [|discriminate]. injection H as <- <-.
    destruct (get_ok _ _ _ _ _ HV Hl) as (v & Hg & _ & Hil). rewrite Hg. cbn [bind].
    destruct (vec_resize_ok junk _ _ _ _ _ _ n HV Hl Hg Hf) as (h' & v' & s' & E & HV'). rewrite E. cbn [bind].
    eexists. eexists. split; [reflexivity|]. split; [|reflexivity]. eexists; eauto.
  - (* clear *) destruct (vec_at T i) as [l|] eqn:Hl; [|discriminate]. injection H as <- <-.
    destruct (get_ok _ _ _ _ _ HV Hl) as (v & Hg & _ & Hil). rewrite Hg. cbn [bind].
    destruct (vec_resize_ok junk _ _ _ _ _ _ 0 HV Hl Hg eq_refl) as (h' & v' & s' & E & HV'). unfold vec_clear. rewrite E. cbn [bind].
    eexists. eexists. split; [reflexivity|]. split; [|reflexivity]. eexists; eauto.
  - (* push *) destruct (vec_at T i) as [l|] eqn:Hl; [|discriminate]. destruct (is_item isz it && fits isz (2 * length l + 1)) eqn:Hf; [|discriminate].
    injection H as <- <-. apply andb_prop in Hf as [Hit Hf]. apply Nat.eqb_eq in Hit.
    destruct (get_ok _ _ _ _ _ HV Hl) as (v & Hg & Hvs & Hil). rewrite Hg. cbn [bind]. unfold vec_push_back.
    assert (szmul (vsize v) 2 = 2 * length l) as H2.
    { unfold szmul. rewrite Hvs. unfold fits in Hf. apply N.ltb_lt in Hf. rewrite N.mod_small by nia. lia. }
    assert (exists h1 v1 s1, (if vcap v <=? vsize v then vec_reserve isz junk (vhp V) v (szmul (vsize v) 2) else Ok (vhp V, v)) = Ok (h1, v1) /\
      vrel1 (set_vec V h1 i (Some v1)) T s1 /\ vsize v1 = vsize v) as (h1 & v1 & s1 & E1 & HV1 & Hv1).
    { destruct (vcap v <=? vsize v).
      - rewrite H2. apply (vec_reserve_ok junk _ _ _ _ _ _ _ HV Hl Hg). eapply fits_le; eauto. lia.
      - exists (vhp V), v, s. split; [auto|]. split; [|auto]. unfold set_vec. rewrite lset_same; [destruct V; auto|].
        unfold get_vec in Hg. destruct (nth_error (vecs V) i) as [[?|]|]; try discriminate. injection Hg as ->. auto. }
    rewrite E1. cbn [bind].
    assert (N.to_nat ((N.of_nat (vsize v1) + 1) mod 2 ^ 64) = length l + 1) as H3.
    { rewrite Hv1, Hvs. unfold fits in Hf. apply N.ltb_lt in Hf. rewrite N.mod_small by nia. lia. }
    rewrite H3.
    destruct (vec_resize_ok junk _ _ _ _ _ v1 (length l + 1) HV1 Hl) as (h2 & v2 & s2 & E2 & HV2).
    { apply get_set; auto. } { eapply fits_le; eauto. lia. }
    cbn [set_vec vhp] in E2. rewrite E2. cbn [bind].
    rewrite set_vec_twice in HV2. rewrite firstn_all2 in HV2 by lia. replace (length l + 1 - length l) with 1 in HV2 by lia. cbn [repeat] in HV2.
    assert (vec_at (lset T i (Some (l ++ [None]))) i = Some (l ++ [None])) as Hl2.
    { unfold vec_at. rewrite nth_lset_eqb, Nat.eqb_refl by lia. reflexivity. }
    destruct (get_ok _ _ _ _ _ HV2 Hl2) as (v2' & Hg2 & Hvs2 & _). rewrite get_set in Hg2 by auto. injection Hg2 as <-.
    rewrite app_length in Hvs2. cbn [length] in Hvs2. rewrite Hvs2. replace (length l + 1 - 1) with (length l) by lia.
    destruct (item_store_ok _ _ _ i _ v2 (length l) it HV2 Hl2) as (h3 & s3 & E3 & HV3).
    { apply get_set; auto. } { rewrite app_length; cbn; lia. } { auto. }
    cbn [set_vec vhp] in E3. rewrite E3. cbn [bind]. rewrite set_vec_twice, lset_lset in HV3.
    rewrite firstn_app, Nat.sub_diag, firstn_all2 in HV3 by lia. rewrite (skipn_all2 (l ++ [None])) in HV3 by (rewrite app_length; cbn; lia).
    cbn [firstn] in HV3. rewrite app_nil_r in HV3.
    eexists. eexists. split; [reflexivity|]. split; [|reflexivity]. eexists; eauto.
  - (* wrap *) destruct (vec_at T i) as [l|] eqn:Hl; [|discriminate].
    destruct (forallb (is_item isz) items && (sz <=? length items) && fits isz (length items)) eqn:Hf; [|discriminate]. injection H as <- <-.
    apply andb_prop in Hf as [Hf Hfits]. apply andb_prop in Hf as [Hall Hsz0]. apply Nat.leb_le in Hsz0.
    destruct (vrel_get _ _ _ _ _ HV Hl) as (v & buf & Hg & Hi & HS & Hb & Hs & Hbr & Hsz & Hd & Hsl & Hcap & Hle & Hw).
    assert (i < length (vecs V)) as Hil by (apply nth_error_Some; congruence).
    rewrite Hg. cbn [bind halloc].
    pose proof (rel_addbuf _ _ (concat items) (proj1 HV)) as R1.
    pose proof (R_blk _ _ R1 i _ _ Hb Hs) as Hbr1. cbn [orel] in Hbr1.
    destruct (rel_drop _ _ i (vmem v) _ (Some (mkBlk None 0 0 false)) (Some (SOwned 0 [])) R1 Hb Hbr1 eq_refl) as (h' & _ & E & R').
    { intros h. cbn. auto 10. }
    cbn [M hp exts blks] in *. unfold vec_wrap, nx_mem_block_wrap. unfold nx_mem_block_release in E |- *.
    destruct (match bptr (vmem v) with Some p => _ | None => _ end) as [h1| | |]; try discriminate.
    cbn in E. injection E as ->. cbn [bind]. rewrite (fits_mul _ Hfits), (fits_mul sz) by (eapply fits_le; eauto).
    eexists. eexists. split; [reflexivity|]. split; [|reflexivity].
    assert (length (vexts V) = length (sbufs s)) as Hel by (apply (R_ext_len _ _ (proj1 HV))).
    pose proof (rel_take _ _ i (Some (mkBlk None 0 0 false)) (length (sbufs s)) (map Some (concat items)) (length (vhp V)) (sz * isz) (length items * isz) R') as R2.
    cbn [hp blks exts sblks sbufs] in R2. rewrite !lset_lset in R2. rewrite lset_last in R2. rewrite firstn_all2 in R2 by (rewrite map_length, concat_length; auto).
    eexists. split; [|split; [|split]].
    + unfold M. cbn [vhp vecs vexts]. rewrite map_lset. cbn [option_map update_vector_fields vmem]. apply R2.
      * rewrite nth_lset_eqb, Nat.eqb_refl; [reflexivity|]. rewrite map_length; auto.
      * reflexivity.
      * unfold buffer. cbn. rewrite nth_error_app2, Nat.sub_diag by lia. reflexivity.
      * rewrite <- Hel. rewrite nth_error_app2, Nat.sub_diag by lia. reflexivity.
      * nia.
      * rewrite map_length, concat_length; auto.
    + intros k. destruct HV as (_ & Hdead & _). specialize (Hdead k). unfold buffer in *. cbn [sbufs].
      destruct (Nat.lt_ge_cases k (length (sbufs s))) as [Hk|Hk].
      * rewrite nth_error_app1 by auto. auto.
      * rewrite nth_error_app2 by auto. destruct (k - length (sbufs s)) as [|[|]]; reflexivity.
    + cbn. rewrite !lset_length. auto.
    + cbn [vecs sblks]. intros k v0 l0 sb0. rewrite !nth_lset_eqb by lia. destruct (k =? i); [|apply HV].
      intros [= <-] [= <-] [= <-]. cbn [oitem_ok].
      assert (length (firstn sz (map Some items)) = sz) as Hfl by (rewrite firstn_length, map_length; lia).
      rewrite <- Hfl at 3. apply update_ok.
      * cbn. rewrite Hfl. reflexivity.
      * apply sized_firstn, sized_some; auto.
      * rewrite Hfl, map_length, concat_length by auto. nia.
      * rewrite Hfl, flat_firstn, flat_concat by (apply sized_some; auto). apply wk_refl.
  - (* copy0 *) destruct (vec_at T i) as [l|] eqn:Hl; [|discriminate]. injection H as <- <-.
    destruct (get_ok _ _ _ _ _ HV Hl) as (v & Hg & Hvs & Hil). rewrite Hg. cbn [bind]. unfold vec_copy0.
    destruct (vec_copy_ok junk _ _ _ (length (vecs V)) i [] l vec_alloc v (vrel_add _ _ _ HV)) as (h' & v' & s' & E & HV'); auto.
    { lia. }
    { rewrite L2. apply vec_at_last. }
    { unfold get_vec. cbn. rewrite nth_error_app2, Nat.sub_diag by lia. reflexivity. }
    { apply vec_at_old; auto. }
    { unfold get_vec in *. cbn. rewrite nth_error_app1 by auto. auto. }
    cbn [vhp] in E. rewrite E. cbn [bind]. eexists. eexists. split; [reflexivity|]. split; [|reflexivity].
    rewrite set_last in HV'. rewrite L2, lset_last in HV'. eexists; eauto.
  - (* copy *) destruct (Nat.eqb_spec i j) as [|Hij]; [discriminate|]. destruct (vec_at T j) as [ls|] eqn:Hls; [|discriminate].
    destruct (vec_at T i) as [l|] eqn:Hl; [|discriminate]. injection H as <- <-.
    destruct (get_ok _ _ _ _ _ HV Hls) as (vs & Hgs & _ & _). destruct (get_ok _ _ _ _ _ HV Hl) as (v & Hg & _ & _).
    rewrite Hgs, Hg. cbn [bind]. destruct (vec_copy_ok junk _ _ _ _ _ _ _ _ _ HV Hij Hl Hg Hls Hgs) as (h' & v' & s' & E & HV').
    rewrite E. cbn [bind]. eexists. eexists. split; [reflexivity|]. split; [|reflexivity]. eexists; eauto.
  - (* set *) destruct (vec_at T i) as [l|] eqn:Hl; [|discriminate]. destruct (is_item isz it && (k <? length l)) eqn:Hf; [|discriminate]. injection H as <- <-.
    apply andb_prop in Hf as [Hit Hk]. apply Nat.eqb_eq in Hit. apply Nat.ltb_lt in Hk.
    destruct (get_ok _ _ _ _ _ HV Hl) as (v & Hg & _ & _). rewrite Hg. cbn [bind].
    destruct (item_store_ok _ _ _ _ _ _ _ _ HV Hl Hg Hk Hit) as (h' & s' & E & HV'). rewrite E. cbn [bind].
    eexists. eexists. split; [reflexivity|]. split; [|reflexivity]. eexists; eauto.
  - (* get *) destruct (vec_at T i) as [l|] eqn:Hl; [|discriminate]. destruct (nth_error l k) as [y|] eqn:Hk; [|discriminate]. injection H as <- <-.
    destruct (get_ok _ _ _ _ _ HV Hl) as (v & Hg & _ & _). rewrite Hg. cbn [bind].
    destruct (item_load_ok _ _ _ _ _ _ _ _ HV Hl Hg Hk) as (it & E & Hit). rewrite E. cbn [bind].
    eexists. eexists. split; [reflexivity|]. split; [eexists; eauto|]. destruct y; cbn; [subst; auto|eauto].
  - (* size *) destruct (vec_at T i) as [l|] eqn:Hl; [|discriminate]. injection H as <- <-.
    destruct (get_ok _ _ _ _ _ HV Hl) as (v & Hg & Hvs & _). rewrite Hg. cbn [bind].
    eexists. eexists. split; [reflexivity|]. split; [eexists; eauto|]. cbn. congruence.
Qed.

Lemma vrun_spec junk os V T T' xs : vrel V T -> v_spec_run isz T os = Some (T', xs) ->
  exists V' ys, v_run isz junk V os = Ok (V', ys) /\ vrel V' T' /\ Forall2 out_agrees xs ys.
Proof.
  revert V T xs. induction os as [|o os IH]; intros V T xs HV H; cbn [v_spec_run v_run] in *.
  - injection H as <- <-. eexists. eexists. split; [reflexivity|]. auto.
  - destruct (v_spec isz T o) as [[T1 x]|] eqn:E; [|discriminate]. destruct (v_spec_run isz T1 os) as [[T2 xs']|] eqn:E2; [|discriminate]. injection H as <- <-.
    destruct (vstep_spec junk _ _ _ _ _ HV E) as (V1 & y & E1 & HV1 & Hy). rewrite E1. cbn [bind].
    destruct (IH _ _ _ HV1 E2) as (V2 & ys & E3 & HV2 & Hys). rewrite E3. cbn [bind]. eexists. eexists. split; [reflexivity|]. auto.
Qed.

Lemma vrel_init : vrel v_init [].
Proof.
  exists s_init. split; [apply rel_init|]. split; [intros k; unfold buffer; cbn; destruct k; reflexivity|]. split; [reflexivity|].
  intros i v l sb H. destruct i; discriminate.
Qed.

Lemma vrel_final V T : vrel V T ->
  length (vecs V) = length T /\
  (forall i l, nth_error T i = Some (Some l) -> exists v, nth_error (vecs V) i = Some (Some v) /\ vsize v = length l /\ vsize v <= vcap v) /\
  (Forall (fun x => x = None) T -> forall p, cell (vhp V) p = None).
Proof.
  intros [s HV]. destruct (vrel_len _ _ _ HV) as [L1 L2]. split; [auto|]. split.
  - intros i l Hl. destruct (vrel_get _ _ _ i l HV) as (v & buf & Hg & Hi & HS & Hb & Hs & Hbr & Hsz & Hd & Hsl & Hcap & Hle & Hw).
    { unfold vec_at. rewrite Hl. reflexivity. }
    exists v. split; [auto|]. split; [auto|]. rewrite Hcap, Hsz. destruct Hbr as (_ & -> & _). apply Nat.div_le_lower_bound; lia.
  - intros Hn p. destruct (cell (vhp V) p) eqn:E; [|auto]. exfalso. destruct HV as (R & Hdead & _ & Hok).
    destruct (proj1 (R_live _ _ R p)) as [[i Ho]|(k & c & _ & Hk)]; [cbn; congruence| |].
    + destruct Ho as (b & Hb & Ho). cbn in Hb. rewrite nth_error_map in Hb. destruct (nth_error (vecs V) i) as [[v|]|] eqn:Ev; try discriminate.
      assert (i < length (vecs V)) as Hil by (apply nth_error_Some; congruence).
      destruct (nth_error T i) as [ol|] eqn:El; [|apply nth_error_None in El; lia].
      destruct (nth_error (sblks s) i) as [osb|] eqn:Es; [|apply nth_error_None in Es; lia].
      specialize (Hok _ _ _ _ Ev El Es). eapply Forall_forall in Hn; [|eapply nth_error_In; eauto]. subst ol. exact Hok.
      injection Hb as <-. cbn in Ho. discriminate.
    + rewrite Hdead in Hk. discriminate.
Qed.
End VecProofs.
