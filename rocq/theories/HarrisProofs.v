(** Proofs about the Harris detector. *)
From Verif Require Import Base BaseLemmas Gray Img Flt HarrisModel HarrisSpec.
Local Open Scope Z_scope.

Definition cornerb (s : image flt) (t : flt) (p : Z * Z) : bool :=
  let v := pix P0 s (fst p) (snd p) in let gt dx dy := f_gt v (pix P0 s (fst p + dx) (snd p + dy)) in
  f_gt v t && (gt (-1) 0 && (gt 1 0 && (gt (-1) (-1) && (gt 0 (-1) && (gt 1 (-1) && (gt (-1) 1 && (gt 0 1 && (gt 1 1 && true)))))))).
Definition hkey_at (s : image flt) (i : nat) (p : Z * Z) : hkey :=
  {| h_x := fst p; h_y := snd p; h_xs := of_int (fst p); h_ys := of_int (snd p); h_level := 0; h_scale := F1; h_sigma := F1;
     h_score := pix P0 s (fst p) (snd p); h_ori := F0; h_id := Z.of_nat i |}.
Definition hkeys (s : image flt) (l : list (Z * Z)) : list hkey := map (fun '(i, p) => hkey_at s i p) (combine (seq 0 (length l)) l).
Lemma hkeys_length s l : length (hkeys s l) = length l.
Proof. unfold hkeys. rewrite map_length, combine_length, seq_length. lia. Qed.
Lemma combine_app {A B} (a a' : list A) (b b' : list B) : length a = length b -> combine (a ++ a') (b ++ b') = combine a b ++ combine a' b'.
Proof. revert b. induction a as [|x a IH]; intros [|y b] H; cbn in *; try discriminate; auto. f_equal. apply IH. lia. Qed.
Lemma hkeys_snoc s l p : hkeys s (l ++ [p]) = hkeys s l ++ [hkey_at s (length l) p].
Proof.
  unfold hkeys. rewrite app_length. cbn [length]. rewrite seq_app. cbn [seq]. rewrite combine_app by now rewrite seq_length. rewrite map_app. reflexivity.
Qed.
Lemma local_max_ok s t x y : image_ok s -> 2 <= x < i_w s - 2 -> 2 <= y < i_h s - 2 -> local_max s t x y = Ok (cornerb s t (x, y)).
Proof.
  intros G X Y. unfold local_max, cornerb. cbn [fst snd].
  assert (R : forall dx dy, -1 <= dx <= 1 -> -1 <= dy <= 1 -> iget s (x + dx) (y + dy) = Ok (pix P0 s (x + dx) (y + dy))).
  { intros. apply iget_ok; auto. unfold in_img. lia. }
  rewrite (iget_ok P0) by (auto; unfold in_img; lia). cbn [bind]. destruct (f_gt _ t); [|reflexivity]. cbn [andb].
  repeat (rewrite R by lia; cbn [bind]; match goal with |- (if ?c then _ else _) = _ => destruct c end; cbn [andb]; [|reflexivity]). reflexivity.
Qed.
Lemma cornerb_iff s t x y : 2 <= x < i_w s - 2 -> 2 <= y < i_h s - 2 -> cornerb s t (x, y) = true <-> harris_corner s t x y.
Proof.
  intros X Y. unfold cornerb, harris_corner, f_gt. cbn [fst snd]. rewrite !Bool.andb_true_iff. split.
  - intros (H0 & H1 & H2 & H3 & H4 & H5 & H6 & H7 & H8 & _). repeat (split; [assumption|]). intros dx dy DX DY NE.
    assert (dx = -1 \/ dx = 0 \/ dx = 1) as [?|[?|?]] by lia; assert (dy = -1 \/ dy = 0 \/ dy = 1) as [?|[?|?]] by lia; subst; auto; congruence.
  - intros (_ & _ & H0 & H). repeat split; auto; apply H; try lia; congruence.
Qed.
Definition corners (s : image flt) (t : flt) : list (Z * Z) := filter (cornerb s t) (raster 2 (i_w s - 2) 2 (i_h s - 2)).
Lemma harris_detect_ok n s t : image_ok s -> harris_detect n s t = Ok (hkeys s (firstn (Z.to_nat n) (corners s t))).
Proof.
  intro G. unfold harris_detect. destruct (Z.ltb_spec n 1) as [L|L]; [replace (Z.to_nat n) with 0%nat by lia; reflexivity|]. rewrite scan_raster.
  set (l := raster 2 (i_w s - 2) 2 (i_h s - 2)). set (F := cornerb s t). set (m := Z.to_nat n). unfold corners. fold l F.
  match goal with |- context [for_each ?f l _] => set (body := f) end.
  destruct (for_each_inv body (fun pre st => fst st = hkeys s (firstn m (filter F pre)) /\
      (snd st = true -> (m <= length (filter F pre))%nat) /\ (snd st = false -> (length (filter F pre) < m)%nat)) l ([], false)) as ([o b] & E & O & _).
  - cbn. rewrite firstn_nil. repeat split; [discriminate|lia].
  - intros pre p [o dn] (O & D1 & D2) [post LL]. cbn [fst snd] in *.
    assert (In p l) as Ip by (rewrite LL; apply in_or_app; right; now left). destruct p as [x y]. apply raster_in in Ip as [X Y].
    rewrite filter_app, app_length. cbn [filter]. unfold body. cbn [fst snd]. destruct dn.
    + exists (o, true). split; [reflexivity|]. specialize (D1 eq_refl). cbn [fst snd]. repeat split; [|lia|discriminate].
      rewrite firstn_app. replace (m - _)%nat with 0%nat by lia. cbn. now rewrite app_nil_r.
    + specialize (D2 eq_refl). rewrite local_max_ok by auto. cbn [bind]. fold F. destruct (F (x, y)) eqn:EF; cbn [negb length].
      * rewrite (iget_ok P0) by (auto; unfold in_img; lia). cbn [bind]. eexists. split; [reflexivity|]. cbn [fst snd].
        assert (LO : length o = length (filter F pre)) by (rewrite O, hkeys_length, firstn_length; lia).
        rewrite firstn_all2 by (rewrite app_length; cbn; lia). rewrite hkeys_snoc. rewrite firstn_all2 in O by lia. rewrite <- LO. split; [now rewrite O at 1|].
        rewrite app_length. cbn [length]. split; intro K; [apply Z.leb_le in K|apply Z.leb_gt in K]; lia.
      * exists (o, false). split; [reflexivity|]. cbn [fst snd]. rewrite app_nil_r. repeat split; [exact O|discriminate|lia].
  - rewrite E. cbn [bind fst] in *. now rewrite O.
Qed.

