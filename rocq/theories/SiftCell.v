From Verif Require Import Base BaseLemmas Gray Flt MatModel MatIo KeyProofs ShaModel SiftProofs SiftCache SiftDogModel SiftDogSpec SiftHist.

Local Open Scope Z_scope.

Definition idx (r c b : Z) : nat := Z.to_nat (r * 4 * 8 + (c * 8 + b)).
(** Cells changed by adding what [f] says. *)
Definition added (f : Z -> Z -> Z -> option flt) (desc desc' : list flt) : Prop :=
  length desc' = 128%nat /\ forall r c b, 0 <= r < 4 -> 0 <= c < 4 -> 0 <= b < 8 ->
    nth (idx r c b) desc' FNaN = match f r c b with Some a => fadd (nth (idx r c b) desc FNaN) a | None => nth (idx r c b) desc FNaN end.
Lemma added_none desc : length desc = 128%nat -> added (fun _ _ _ => None) desc desc.
Proof. intros L. split; auto. Qed.
Lemma added_then f g d0 d1 d2 : added f d0 d1 -> added g d1 d2 -> (forall r c b, f r c b = None \/ g r c b = None) ->
  added (fun r c b => match f r c b with Some a => Some a | None => g r c b end) d0 d2.
Proof.
  intros [L1 A1] [L2 A2] D. split; [auto|]. intros r c b R C B. rewrite A2 by auto. rewrite A1 by auto. destruct (D r c b) as [E|E]; rewrite E; [|destruct (f r c b)]; reflexivity.
Qed.
Lemma added_ext f g d0 d1 : added f d0 d1 -> (forall r c b, 0 <= r < 4 -> 0 <= c < 4 -> 0 <= b < 8 -> f r c b = g r c b) -> added g d0 d1.
Proof. intros [L A] E. split; auto. intros r c b R C B. rewrite <- E by auto. auto. Qed.
Lemma idx_inj r c b r' c' b' : 0 <= r < 4 -> 0 <= c < 4 -> 0 <= b < 8 -> 0 <= r' < 4 -> 0 <= c' < 4 -> 0 <= b' < 8 -> idx r c b = idx r' c' b' -> r = r' /\ c = c' /\ b = b'.
Proof. unfold idx. lia. Qed.
Lemma idx_lt r c b : 0 <= r < 4 -> 0 <= c < 4 -> 0 <= b < 8 -> (idx r c b < 128)%nat.
Proof. unfold idx. lia. Qed.

Definition at_cell (r c b : Z) (w : flt) : Z -> Z -> Z -> option flt := fun r' c' b' => if (r' =? r) && (c' =? c) && (b' =? b) then Some w else None.
Lemma bump_ok desc r c b w : length desc = 128%nat -> 0 <= r < 4 -> 0 <= c < 4 -> 0 <= b < 8 ->
  exists d, bump desc (r * 4 * 8 + (c * 8 + b)) w = Ok d /\ added (at_cell r c b w) desc d.
Proof.
  intros L R C B. pose proof (idx_lt r c b R C B) as LT. unfold bump. replace (r * 4 * 8 + (c * 8 + b)) with (Z.of_nat (idx r c b)) by (unfold idx; lia).
  rewrite (zget_nat _ _ (nth (idx r c b) desc FNaN)) by (apply nth_error_nth'; lia). cbn [bind]. rewrite zset_nat by lia.
  eexists. split; [reflexivity|]. split; [now rewrite lset_length|]. intros r' c' b' R' C' B'. pose proof (idx_lt r' c' b' R' C' B') as LT'. unfold at_cell.
  destruct ((r' =? r) && (c' =? c) && (b' =? b)) eqn:E.
  - apply andb_true_iff in E as [E E3]. apply andb_true_iff in E as [E1 E2]. apply Z.eqb_eq in E1, E2, E3. subst. apply nth_error_nth. apply nth_error_lset_eq. lia.
  - assert (Ne : idx r c b <> idx r' c' b').
    { intro Q. apply idx_inj in Q; auto. destruct Q as (-> & -> & ->). rewrite !Z.eqb_refl in E. discriminate. }
    apply nth_error_nth. rewrite nth_error_lset_neq by auto. apply nth_error_nth'. lia.
Qed.

Definition cellf (r c hi0 hi1 : Z) (ww heps : flt) : Z -> Z -> Z -> option flt := fun r' c' b' =>
  if (r' =? r) && (c' =? c) then (if b' =? hi0 then Some (fsub ww (fmul ww heps)) else if b' =? hi1 then Some (fmul ww heps) else None) else None.
Lemma cell_ok desc r c hi0 hi1 ww heps : length desc = 128%nat -> 0 <= r < 4 -> 0 <= c < 4 -> 0 <= hi0 < 8 -> 0 <= hi1 < 8 -> hi0 <> hi1 ->
  exists d, cell desc r c hi0 hi1 ww heps = Ok d /\ added (cellf r c hi0 hi1 ww heps) desc d.
Proof.
  intros L R C H0 H1 Ne. unfold cell. destruct (bump_ok desc r c hi0 (fsub ww (fmul ww heps)) L R C H0) as (d1 & E1 & A1). rewrite E1. cbn [bind].
  destruct (bump_ok d1 r c hi1 (fmul ww heps) (proj1 A1) R C H1) as (d2 & E2 & A2). exists d2. split; [exact E2|].
  eapply added_ext; [apply (added_then _ _ _ _ _ A1 A2)|].
  - intros r' c' b'. unfold at_cell. destruct (Z.eqb_spec b' hi0), (Z.eqb_spec b' hi1); rewrite ?andb_false_r; auto. lia.
  - intros r' c' b' _ _ _. unfold at_cell, cellf. destruct ((r' =? r) && (c' =? c)); cbn [andb]; [|reflexivity]. destruct (b' =? hi0); reflexivity.
Qed.

Definition rowf (r pxi hi0 hi1 : Z) (w xeps heps : flt) : Z -> Z -> Z -> option flt := fun r' c' b' =>
  if r' =? r then
    match (if c' =? pxi then Some (fmul w (fsub F1 xeps)) else if c' =? pxi + 1 then Some (fmul w xeps) else None) with
    | None => None
    | Some ww => if b' =? hi0 then Some (fsub ww (fmul ww heps)) else if b' =? hi1 then Some (fmul ww heps) else None
    end
  else None.
Lemma inside_true i : inside i = true -> 0 <= i < 4.
Proof. unfold inside. rewrite andb_true_iff, Z.leb_le, Z.ltb_lt. auto. Qed.
Lemma inside_false i c : inside i = false -> 0 <= c < 4 -> (c =? i) = false.
Proof. unfold inside. rewrite andb_false_iff, Z.leb_gt, Z.ltb_ge, Z.eqb_neq. lia. Qed.

Lemma row_ok desc r pxi hi0 hi1 w xeps heps : length desc = 128%nat -> 0 <= r < 4 -> 0 <= hi0 < 8 -> 0 <= hi1 < 8 -> hi0 <> hi1 ->
  exists d, cells_row desc r pxi hi0 hi1 w xeps heps = Ok d /\ added (rowf r pxi hi0 hi1 w xeps heps) desc d.
Proof.
  intros L R H0 H1 Ne. unfold cells_row.
  assert (X1 : exists d1, (if inside pxi then cell desc r pxi hi0 hi1 (fmul w (fsub F1 xeps)) heps else Ok desc) = Ok d1 /\ added (cellf r pxi hi0 hi1 (fmul w (fsub F1 xeps)) heps) desc d1).
  { destruct (inside pxi) eqn:I; [apply cell_ok; auto using inside_true|]. exists desc. split; [reflexivity|]. eapply added_ext; [apply added_none; auto|].
    intros r' c' b' _ C' _. unfold cellf. now rewrite (inside_false pxi c' I C'), andb_false_r. }
  destruct X1 as (d1 & -> & A1). cbn [bind].
  assert (X2 : exists d2, (if inside (pxi + 1) then cell d1 r (pxi + 1) hi0 hi1 (fmul w xeps) heps else Ok d1) = Ok d2 /\ added (cellf r (pxi + 1) hi0 hi1 (fmul w xeps) heps) d1 d2).
  { destruct A1 as [L1 _]. destruct (inside (pxi + 1)) eqn:I; [apply cell_ok; auto using inside_true|]. exists d1. split; [reflexivity|]. eapply added_ext; [apply added_none; auto|].
    intros r' c' b' _ C' _. unfold cellf. now rewrite (inside_false (pxi + 1) c' I C'), andb_false_r. }
  destruct X2 as (d2 & -> & A2). exists d2. split; [reflexivity|]. eapply added_ext; [apply (added_then _ _ _ _ _ A1 A2)|].
  - intros r' c' b'. unfold cellf. destruct (Z.eqb_spec c' pxi), (Z.eqb_spec c' (pxi + 1)); rewrite ?andb_false_r; auto. lia.
  - intros r' c' b' _ _ _. unfold cellf, rowf. destruct (r' =? r); cbn [andb]; [|reflexivity].
    destruct (Z.eqb_spec c' pxi) as [->|]; [|destruct (c' =? pxi + 1); reflexivity]. destruct (Z.eqb_spec pxi (pxi + 1)); [lia|]. destruct (b' =? hi0); [reflexivity|]. destruct (b' =? hi1); reflexivity.
Qed.

Lemma deposit_cells desc px py h weight pxi pyi hi : length desc = 128%nat -> down px = Ok pxi -> down py = Ok pyi -> down h = Ok hi -> 0 <= hi <= 8 ->
  exists d, deposit desc px py h weight = Ok d /\
    added (share pxi pyi hi (fsub px (of_int pxi)) (fsub py (of_int pyi)) (fsub h (of_int hi)) weight) desc d.
Proof.
  intros L E1 E2 E3 HH. unfold deposit. rewrite E1, E2, E3. cbn [bind].
  set (hi0 := if hi >=? 8 then 0 else hi). set (hi1 := if hi0 + 1 >=? 8 then 0 else hi0 + 1).
  set (xeps := fsub px (of_int pxi)). set (yeps := fsub py (of_int pyi)). set (heps := fsub h (of_int hi)).
  assert (M0 : hi0 = hi mod 8).
  { unfold hi0. destruct (Z.geb_spec hi 8); [assert (hi = 8) as -> by lia; reflexivity|]. now rewrite Z.mod_small by lia. }
  assert (M1 : hi1 = (hi + 1) mod 8).
  { unfold hi1. rewrite M0. destruct (Z.eq_dec hi 8) as [->|]; [reflexivity|]. destruct (Z.eq_dec hi 7) as [->|]; [reflexivity|]. rewrite !Z.mod_small by lia. destruct (Z.geb_spec (hi + 1) 8); lia. }
  assert (B0 : 0 <= hi0 < 8) by (rewrite M0; apply Z.mod_pos_bound; lia). assert (B1 : 0 <= hi1 < 8) by (rewrite M1; apply Z.mod_pos_bound; lia).
  assert (Ne : hi0 <> hi1) by (unfold hi1; destruct (Z.geb_spec (hi0 + 1) 8); lia).
  assert (X1 : exists d1, (if inside pyi then cells_row desc pyi pxi hi0 hi1 (fmul weight (fsub F1 yeps)) xeps heps else Ok desc) = Ok d1 /\
    added (rowf pyi pxi hi0 hi1 (fmul weight (fsub F1 yeps)) xeps heps) desc d1).
  { destruct (inside pyi) eqn:I; [apply row_ok; auto using inside_true|]. exists desc. split; [reflexivity|]. eapply added_ext; [apply added_none; auto|].
    intros r c b R _ _. unfold rowf. now rewrite (inside_false pyi r I R). }
  destruct X1 as (d1 & -> & A1). cbn [bind].
  assert (X2 : exists d2, (if inside (pyi + 1) then cells_row d1 (pyi + 1) pxi hi0 hi1 (fmul weight yeps) xeps heps else Ok d1) = Ok d2 /\
    added (rowf (pyi + 1) pxi hi0 hi1 (fmul weight yeps) xeps heps) d1 d2).
  { destruct A1 as [L1 _]. destruct (inside (pyi + 1)) eqn:I; [apply row_ok; auto using inside_true|]. exists d1. split; [reflexivity|]. eapply added_ext; [apply added_none; auto|].
    intros r c b R _ _. unfold rowf. now rewrite (inside_false (pyi + 1) r I R). }
  destruct X2 as (d2 & -> & A2). exists d2. split; [reflexivity|]. eapply added_ext; [apply (added_then _ _ _ _ _ A1 A2)|].
  - intros r c b. unfold rowf. destruct (Z.eqb_spec r pyi), (Z.eqb_spec r (pyi + 1)); auto. lia.
  - intros r c b _ _ _. unfold rowf, share. rewrite <- M0, <- M1. destruct (Z.eqb_spec r pyi) as [->|].
    + destruct (Z.eqb_spec pyi (pyi + 1)); [lia|]. destruct (c =? pxi); [destruct (b =? hi0); [reflexivity|]; destruct (b =? hi1); reflexivity|].
      destruct (c =? pxi + 1); [|reflexivity]. destruct (b =? hi0); [reflexivity|]. destruct (b =? hi1); reflexivity.
    + destruct (r =? pyi + 1); reflexivity.
Qed.

Lemma down_pos n : 0 < n <= 8 * U -> exists hi, down (FF n) = Ok hi /\ 0 <= hi <= 8 /\ hi * U <= n < (hi + 1) * U.
Proof.
  intros H. pose proof U_pos as UP. unfold down, f_gt, f_lt, F0. destruct (Z.ltb_spec 0 n); [|lia]. unfold to_int.
  rewrite Z.quot_div_nonneg by lia. pose proof (Z.div_mod n U ltac:(lia)) as D. pose proof (Z.mod_pos_bound n U UP) as M.
  assert (Q : 0 <= n / U <= 8) by (split; [apply Z.div_pos; lia|]; apply Z.div_le_upper_bound; lia).
  rewrite chk_small by lia. eexists. split; [reflexivity|]. split; [lia|]. nia.
Qed.
Lemma down_any n : -15 * U < n < 16 * U -> exists pi, down (FF n) = Ok pi /\ cell_of n pi /\ -16 <= pi < 16.
Proof.
  intros H. pose proof U_pos as UP. assert (U1 : U = 2 ^ 19 * 2 ^ 130) by reflexivity. unfold down, cell_of. unfold f_gt, f_lt, F0. assert (P130 : 0 < 2 ^ 130) by reflexivity. destruct (Z.ltb_spec 0 n).
  - unfold to_int. rewrite Z.quot_div_nonneg by lia. pose proof (Z.div_mod n U ltac:(lia)) as D. pose proof (Z.mod_pos_bound n U UP) as M.
    assert (Q : 0 <= n / U < 16) by (split; [apply Z.div_pos; lia|]; apply Z.div_lt_upper_bound; lia).
    rewrite chk_small by lia. eexists. split; [reflexivity|]. split; [|lia]. split; [nia|]. apply Z.le_trans with ((n / U + 1) * U); [nia|lia].
  - unfold fsub, F1, fneg, fadd. set (q := U - n). assert (Q : U <= q < 16 * U) by (unfold q; lia).
    assert (E : mkf (n + - U) 1 = FF (- rnd q 1)).
    { unfold mkf. replace (Z.abs (n + - U)) with q by (unfold q; lia). assert (R : rnd q 1 <= 16 * 2 ^ 149) by (apply rnd_le; [lia|lia|lia|lia|]; change (2 ^ 149) with U; lia).
      destruct (Z.ltb_spec (rnd q 1) (2 ^ 277)) as [_|X]; [|exfalso; apply (Z.lt_irrefl (2 ^ 277)); apply Z.le_lt_trans with (16 * 2 ^ 149); [lia|reflexivity]].
      rewrite Z.sgn_neg by lia. f_equal. }
    rewrite E. clear E. unfold to_int. rewrite Z.quot_opp_l by lia.
    set (a := q / U). assert (A1 : a * U <= q < (a + 1) * U) by (unfold a; pose proof (Z.div_mod q U ltac:(lia)); pose proof (Z.mod_pos_bound q U UP); nia).
    assert (A2 : 1 <= a < 16) by nia.
    assert (R1 : a * U <= rnd q 1) by (change (a * 2 ^ 149 <= rnd q 1); apply rnd_ge; [lia|lia|lia|lia|]; change (2 ^ 149) with U; lia).
    assert (R2 : rnd q 1 <= (a + 1) * U) by (change (rnd q 1 <= (a + 1) * 2 ^ 149); apply rnd_le; [lia|lia|lia|lia|]; change (2 ^ 149) with U; lia).
    rewrite Z.quot_div_nonneg by lia. set (r := rnd q 1) in *.
    assert (B : r / U = a \/ (r / U = a + 1 /\ (a + 1) * U <= r)).
    { pose proof (Z.div_mod r U ltac:(lia)). pose proof (Z.mod_pos_bound r U UP). assert (a <= r / U) by (apply Z.div_le_lower_bound; lia). assert (r / U <= a + 1) by (apply Z.div_le_upper_bound; lia). nia. }
    rewrite chk_small by lia. eexists. split; [reflexivity|]. split; [|lia]. destruct B as [->|[-> Br]].
    + unfold q in A1. split; lia.
    + assert (Hq : (a + 1) * U - 2 ^ 130 <= q).
      { destruct (Z.le_gt_cases ((a + 1) * U - 2 ^ 130) q) as [|X]; [auto|]. exfalso.
        assert (Y : r <= ((a + 1) * 2 ^ 19 - 1) * 2 ^ 130) by (unfold r; apply rnd_le; [lia|lia|lia|lia|]; rewrite U1 in X; lia). rewrite U1 in Br. lia. }
      unfold q in *. split; lia.
Qed.
