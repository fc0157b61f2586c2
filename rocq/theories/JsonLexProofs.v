(** Proofs about the JSON lexer. *)
From Verif Require Import Base BaseLemmas Heap StrModel StrSpec StrProofs LexModel LexSpec LexProofs JsonModel JsonSpec.
Local Open Scope N_scope.

Definition ws_char (b : N) : Prop := b = 10 \/ b = 13 \/ b = 9 \/ b = 32.

Lemma slice t n p rest : skipn n (visible t) = p ++ rest -> firstn (length p) (skipn n t) = p.
Proof.
  intros H. destruct (visible_cases t) as (r & Ht & _). destruct p as [|b p]; [reflexivity|].
  assert (n < length (visible t))%nat as Hn.
  { destruct (Nat.lt_ge_cases n (length (visible t))) as [|G]; auto. rewrite skipn_all2 in H by auto. discriminate. }
  rewrite Ht, skipn_app, H, <- app_assoc.
  rewrite firstn_app, Nat.sub_diag, firstn_all. cbn [firstn]. apply app_nil_r.
Qed.

Section JL.
Variable t : list N.
Hypothesis Ht : bytes_ok t.
Notation v := (visible t).

Lemma rest_ok n r : skipn n v = r -> bytes_ok r.
Proof. intros <-. apply bytes_ok_skipn. apply Forall_forall. intros b Hb. apply (visible_ok t b Ht Hb). Qed.
Lemma rest_vis n r b : skipn n v = r -> In b r -> b <> 0 /\ b <> 255 /\ b < 256.
Proof.
  intros <- H. assert (In b v) as Hb. { rewrite <- (firstn_skipn n v). apply in_or_app. auto. }
  destruct (visible_in t b Hb). split; auto. split; auto. apply (visible_ok t b Ht Hb).
Qed.
Lemma rest_len n r : skipn n v = r -> r <> [] -> (n + length r <= length t)%nat.
Proof. intros H Hn. destruct (len_vis t n r H Hn). lia. Qed.

Lemma cur_eq n r c : skipn n v = r -> (0 < c < 128)%Z -> (cur (st t n) =? c)%Z = match r with b :: _ => b =? Z.to_N c | [] => false end.
Proof. intros H Hc. rewrite (cur_st t n r H), head_eqb_b; auto. apply (rest_ok n). auto. Qed.
Lemma cur_eof_b n r : skipn n v = r -> (cur (st t n) =? EOF)%Z = match r with [] => true | _ => false end.
Proof.
  intros H. rewrite (cur_st t n r H). destruct r as [|b r]; [reflexivity|]. cbn [head].
  destruct (rest_vis n (b :: r) b H) as (H0 & H1 & H2); [left; auto|]. pose proof (schar_ne b H2 H0 H1). lia.
Qed.

(** *** quoted strings *)
Definition q_tail (fuel : nat) (n : nat) : res lexer :=
  if negb (cur (st t n) =? EOF)%Z && negb (cur (st t n) =? 34)%Z then quoted_loop fuel t (st t n) else Ok (st t n).
Definition q_dec (n : nat) (r : list N) (o : res lexer) : Prop :=
  (exists c rest, r = c ++ 34 :: rest /\ quoted_body c /\ o = Ok (st t (n + length c))) \/
  ((forall c rest, r = c ++ 34 :: rest -> ~ quoted_body c) /\ (o = Fatal \/ exists m, o = Ok (st t m) /\ skipn m v = [])).

Lemma escape_b n r : skipn n v = r -> existsb (Z.eqb (cur (st t n))) [34; 92; 47; 98; 102; 110; 114; 116]%Z =
  match r with [] => false | b :: _ => existsb (N.eqb b) [34; 92; 47; 98; 102; 110; 114; 116] end.
Proof.
  intros H. cbn [existsb]. rewrite !(cur_eq n r) by (auto; lia). destruct r; reflexivity.
Qed.
Lemma escape_in b : existsb (N.eqb b) [34; 92; 47; 98; 102; 110; 114; 116] = true <-> escape b.
Proof.
  unfold escape. rewrite existsb_exists. split.
  - intros (x & Hx & E). apply N.eqb_eq in E. subst. exact Hx.
  - intros H. exists b. split; auto. apply N.eqb_refl.
Qed.

Lemma q_tail_dec fuel : forall n r, skipn n v = r -> (length r <= fuel)%nat -> q_dec n r (q_tail fuel n).
Proof.
  induction fuel as [fuel IH] using (well_founded_induction Wf_nat.lt_wf). intros n r Hr Hl.
  unfold q_tail. rewrite (cur_eof_b n r Hr), (cur_eq n r) by (auto; lia). destruct r as [|x r]; cbn [negb andb].
  { right. split; [intros [|? ?] rest; discriminate|]. right. exists n. auto. }
  change (Z.to_N 34) with 34. destruct (N.eqb_spec x 34) as [->|Hx]; cbn [negb].
  { left. exists [], r. cbn. rewrite Nat.add_0_r. repeat split; auto. constructor. }
  destruct fuel as [|f]; [cbn in Hl; lia|]. cbn [quoted_loop]. cbn [length] in Hl.
  rewrite (cur_eq n (x :: r)) by (auto; lia). change (Z.to_N 92) with 92. destruct (consume_r t Ht n x r Hr) as [Hc Hr1].
  destruct (N.eqb_spec x 92) as [->|Hx'].
  - rewrite Hc. cbn [bind]. rewrite (escape_b (S n) r Hr1). destruct r as [|e r].
    { right. split; [|auto]. intros [|c0 [|c1 c]] rest E; cbn in E; discriminate. }
    destruct (existsb (N.eqb e) [34; 92; 47; 98; 102; 110; 114; 116]) eqn:Ee.
    + apply escape_in in Ee. destruct (consume_r t Ht (S n) e r Hr1) as [-> Hr2]. cbn [bind].
      fold (q_tail f (S (S n))). destruct (IH f (Nat.lt_succ_diag_r f) (S (S n)) r Hr2) as [(c & rest & -> & Hq & ->)|[Hno Ho]]; [cbn in Hl; lia| |].
      * left. exists (92 :: e :: c), rest. cbn [app length]. split; [auto|]. split; [apply qb_esc; auto|]. replace (n + S (S (length c)))%nat with (S (S n) + length c)%nat by lia. reflexivity.
      * right. split; [|auto]. intros c rest E Hq. destruct Hq as [|b c Hb1 Hb2 Hq|e' c He Hq]; cbn in E.
        -- discriminate.
        -- injection E as <- E. congruence.
        -- injection E as <- E. apply (Hno c rest); auto.
    + right. split; [|auto]. intros c rest E Hq. destruct Hq as [|b c Hb1 Hb2 Hq|e' c He Hq]; cbn in E.
      * discriminate.
      * injection E as <- E. congruence.
      * injection E as <- E. apply escape_in in He. congruence.
  - rewrite Hc. cbn [bind]. fold (q_tail f (S n)).
    destruct (IH f (Nat.lt_succ_diag_r f) (S n) r Hr1) as [(c & rest & -> & Hq & ->)|[Hno Ho]]; [lia| |].
    + left. exists (x :: c), rest. cbn [app length]. split; [auto|]. split; [constructor; auto|]. replace (n + S (length c))%nat with (S n + length c)%nat by lia. reflexivity.
    + right. split; [|auto]. intros c rest E Hq. destruct Hq as [|b c Hb1 Hb2 Hq|e' c He Hq]; cbn in E.
      * injection E as E1 E2; congruence.
      * injection E as <- E. apply (Hno c rest); auto.
      * injection E as E1 E2; congruence.
Qed.

Lemma body_unique c : quoted_body c -> forall c' rest rest', quoted_body c' -> c ++ 34 :: rest = c' ++ 34 :: rest' -> c = c' /\ rest = rest'.
Proof.
  induction 1 as [|b c H1 H2 H IH|e c He H IH]; intros c' rest rest' H' E.
  - destruct H'; cbn in E; injection E; intros; subst; try congruence; auto.
  - destruct H' as [|b' c' H1' H2' H'|e' c' He' H']; cbn in E; injection E; intros; subst; try congruence.
    destruct (IH c' rest rest') as [-> ->]; auto.
  - destruct H' as [|b' c' H1' H2' H'|e' c' He' H']; cbn in E; injection E; intros; subst; try congruence.
    destruct (IH c' rest rest') as [-> ->]; auto.
Qed.

Lemma quoted_dec n r : skipn n v = 34 :: r ->
  (exists c rest, r = c ++ 34 :: rest /\ quoted_body c /\
     lexer_QUOTED_STRING t (st t n) = Ok (st t (n + length c + 2), S n, length c)) \/
  ((forall c rest, r = c ++ 34 :: rest -> ~ quoted_body c) /\ lexer_QUOTED_STRING t (st t n) = Fatal).
Proof.
  intros Hr. unfold lexer_QUOTED_STRING. cbn [quoted_loop]. rewrite (cur_eq n _ 92 Hr) by lia. cbn [N.eqb Pos.eqb Z.to_N].
  destruct (consume_r t Ht n 34 r Hr) as [-> Hr1]. cbn [bind]. fold (q_tail (length t) (S n)).
  pose proof (rest_len n _ Hr ltac:(discriminate)) as Hl. cbn [length] in Hl.
  destruct (q_tail_dec (length t) (S n) r Hr1) as [(c & rest & -> & Hq & ->)|[Hno [->|(m & -> & Hm)]]]; [lia| | |].
  - left. exists c, rest. split; [auto|]. split; [auto|]. cbn [bind]. pose proof (skipn_more v (S n) c (34 :: rest) Hr1) as Hr2.
    rewrite (cur_eq _ _ 34 Hr2) by lia. cbn [Z.to_N]. rewrite N.eqb_refl. cbn [negb].
    destruct (consume_r t Ht _ 34 rest Hr2) as [-> _]. cbn [bind]. change (pos (st t ?k)) with k.
    change (pos (st t n)) with n. f_equal. f_equal; [f_equal; f_equal; lia|lia].
  - right. split; auto.
  - right. split; [auto|]. cbn [bind]. rewrite (cur_eq m [] 34 Hm) by lia. reflexivity.
Qed.

(** *** white space *)
Lemma is_ws_head n r : skipn n v = r -> is_ws (cur (st t n)) = match r with b :: _ => (b =? 10) || (b =? 13) || (b =? 9) || (b =? 32) | [] => false end.
Proof.
  intros H. unfold is_ws. rewrite !(cur_eq n r) by (auto; lia). destruct r; reflexivity.
Qed.
Definition not_ws (r : list N) : Prop := match r with [] => True | b :: _ => ~ ws_char b end.
Lemma skip_ws_st fuel : forall ws n r, skipn n v = ws ++ r -> Forall ws_char ws -> not_ws r -> (length ws < fuel)%nat ->
  skip_ws fuel t (st t n) = Ok (st t (n + length ws)).
Proof.
  induction fuel as [|f IH]; intros ws n r Hr Hw Hn Hl; [lia|]. cbn [skip_ws]. rewrite (is_ws_head n _ Hr). destruct ws as [|w ws].
  - cbn [app length]. rewrite Nat.add_0_r. destruct r as [|b r]; [reflexivity|]. cbn in Hn. unfold ws_char in Hn.
    replace ((b =? 10) || (b =? 13) || (b =? 9) || (b =? 32)) with false by lia. reflexivity.
  - cbn [app]. apply Forall_cons_iff in Hw as [Hw0 Hw]. unfold ws_char in Hw0.
    replace ((w =? 10) || (w =? 13) || (w =? 9) || (w =? 32)) with true by lia.
    destruct (consume_r t Ht n w _ Hr) as [-> Hr1]. cbn [bind]. rewrite (IH ws (S n) r); auto; [cbn [length]; do 2 f_equal; lia|cbn in Hl; lia].
Qed.
Lemma ws_split r : exists ws r', r = ws ++ r' /\ Forall ws_char ws /\ not_ws r'.
Proof.
  induction r as [|b r (ws & r' & -> & H1 & H2)]; [exists [], []; cbn; auto|].
  destruct ((b =? 10) || (b =? 13) || (b =? 9) || (b =? 32)) eqn:E.
  - exists (b :: ws), r'. repeat split; auto. constructor; auto. unfold ws_char. lia.
  - exists [], (b :: ws ++ r'). repeat split; auto. cbn. unfold ws_char. lia.
Qed.
Lemma skip_all n ws r : skipn n v = ws ++ r -> Forall ws_char ws -> not_ws r ->
  skip_ws (S (S (length t))) t (st t n) = Ok (st t (n + length ws)).
Proof.
  intros Hr Hw Hn. apply (skip_ws_st _ ws n r); auto. destruct ws as [|w ws]; [cbn; lia|].
  pose proof (rest_len n _ Hr ltac:(discriminate)) as Hl. rewrite app_length in Hl. lia.
Qed.
Lemma next_ws n ws r : skipn n v = ws ++ r -> Forall ws_char ws -> next_token t (st t n) = next_token t (st t (n + length ws)).
Proof.
  intros Hr Hw. destruct (ws_split r) as (ws' & r' & -> & Hw' & Hn). unfold next_token.
  pose proof (skipn_more v n ws (ws' ++ r') Hr) as Hr1.
  rewrite (skip_all (n + length ws) ws' r') by auto. rewrite (skip_all n (ws ++ ws') r'); auto.
  - rewrite app_length, Nat.add_assoc. reflexivity.
  - rewrite <- app_assoc. auto.
  - apply Forall_app. auto.
Qed.

(** *** tokens *)
Lemma skip_none n r : skipn n v = r -> not_ws r -> skip_ws (S (S (length t))) t (st t n) = Ok (st t n).
Proof. intros Hr Hn. rewrite (skip_all n [] r) by auto. cbn. rewrite Nat.add_0_r. reflexivity. Qed.

Lemma nt_eof n : skipn n v = [] -> next_token t (st t n) = Ok (st t n, Teof).
Proof. intros Hr. unfold next_token. rewrite (skip_none n [] Hr) by (cbn; auto). cbn [bind]. rewrite (cur_eof_b n _ Hr). reflexivity. Qed.

Lemma nt_punct n c r k : skipn n v = c :: r -> In (c, k) [(91, Tlsb); (93, Trsb); (123, Tlcb); (125, Trcb); (44, Tcomma); (58, Tcolon)] ->
  next_token t (st t n) = Ok (st t (S n), k).
Proof.
  intros Hr Hk. unfold next_token, punct. rewrite (skip_none n _ Hr).
  2:{ cbn. unfold ws_char. cbn [In] in Hk. intuition; congruence. }
  cbn [bind]. rewrite (cur_eof_b n _ Hr), !(cur_eq n _ _ Hr) by lia. destruct (consume_r t Ht n c r Hr) as [-> _].
  cbn [In] in Hk. decompose [or] Hk; try contradiction; match goal with H : (_, _) = _ |- _ => injection H as <- <- end; reflexivity.
Qed.

Lemma nt_word n c s r k : skipn n v = c :: s ++ r -> In (c, s, k) [(116, [114; 117; 101], Ttrue); (102, [97; 108; 115; 101], Tfalse); (110, [117; 108; 108], Tnull)] ->
  next_token t (st t n) = Ok (st t (n + S (length s)), k).
Proof.
  intros Hr Hk. unfold next_token, word. rewrite (skip_none n _ Hr).
  2:{ cbn. unfold ws_char. cbn [In] in Hk. intuition; congruence. }
  cbn [bind]. rewrite (cur_eof_b n _ Hr), !(cur_eq n _ _ Hr) by lia. destruct (consume_r t Ht n c _ Hr) as [-> Hr1]. cbn [bind].
  assert (lexer_match t (st t (S n)) s = Ok (true, st t (S n + length s))) as Hm.
  { apply (match_st t Ht (st t (S n)) s) with (r := s ++ r); auto; [| |exists r; auto];
      cbn [In] in Hk; decompose [or] Hk; try contradiction; match goal with H : (_, _, _) = _ |- _ => injection H as <- <- <- end;
      [repeat constructor..| | |]; cbn; intros; intuition; congruence. }
  replace (n + S (length s))%nat with (S n + length s)%nat by lia.
  cbn [In] in Hk. decompose [or] Hk; try contradiction; match goal with H : (_, _, _) = _ |- _ => injection H as <- <- <- end;
    cbn [N.eqb Pos.eqb Z.to_N]; rewrite Hm; reflexivity.
Qed.

Lemma nt_str n c rest s : skipn n v = 34 :: c ++ 34 :: rest -> quoted_body c -> nx_xstr_from_readable c = Ok s ->
  next_token t (st t n) = Ok (st t (n + length c + 2), Tstr s).
Proof.
  intros Hr Hq Hd. unfold next_token. rewrite (skip_none n _ Hr) by (cbn; unfold ws_char; lia). cbn [bind].
  rewrite (cur_eof_b n _ Hr), !(cur_eq n _ _ Hr) by lia. cbn [N.eqb Pos.eqb Z.to_N].
  destruct (quoted_dec n _ Hr) as [(c' & rest' & E & Hq' & ->)|[Hno _]]; [|exfalso; apply (Hno c rest); auto].
  destruct (body_unique c Hq c' rest rest' Hq' E) as [<- <-]. cbn [bind].
  destruct (consume_r t Ht n _ _ Hr) as [_ Hr1]. rewrite (slice t (S n) c (34 :: rest) Hr1), Hd. reflexivity.
Qed.

Lemma number_head p ty : json_number p ty -> exists b p', p = b :: p' /\ (b = 45 \/ digit b).
Proof.
  intros (sg & i & f & e & -> & Hsg & Hi & _). destruct Hsg as [->| ->]; [|cbn; eauto].
  inversion Hi; subst; cbn; eexists _, _; split; try reflexivity; right; unfold digit; lia.
Qed.
Lemma nt_num n p rest ty : skipn n v = p ++ rest -> ascii_ahead (p ++ rest) -> json_number p ty -> ~ goes_on p rest ->
  next_token t (st t n) = Ok (st t (n + length p), match ty with LNT_INTEGER => Tint p | LNT_FLOAT => Tfp p end).
Proof.
  intros Hr Ha Hp Hg. destruct (number_head p ty Hp) as (b & p' & E & Hb).
  assert (skipn n v = b :: p' ++ rest) as Hr' by (rewrite Hr, E; reflexivity). unfold digit in Hb.
  unfold next_token. rewrite (skip_none n _ Hr') by (cbn; unfold ws_char; lia). cbn [bind].
  rewrite (cur_eof_b n _ Hr'), !(cur_eq n _ _ Hr') by lia. cbn [Z.to_N].
  replace (b =? 91) with false by lia. replace (b =? 93) with false by lia. replace (b =? 123) with false by lia.
  replace (b =? 125) with false by lia. replace (b =? 44) with false by lia. replace (b =? 58) with false by lia.
  replace (b =? 116) with false by lia. replace (b =? 102) with false by lia. replace (b =? 110) with false by lia.
  replace (b =? 34) with false by lia.
  replace (if b =? 45 then Ok true else isdigit (cur (st t n))) with (Ok true).
  2:{ destruct (N.eqb_spec b 45) as [|Hn]; auto. rewrite (cur_st t n _ Hr'). cbn [head]. unfold isdigit, schar.
      replace (b <? 128) with true by lia. replace (Z.of_N b <? -1)%Z with false by lia. f_equal. lia. }
  cbn [bind]. rewrite (number_complete t Ht n p rest ty Hr Ha Hp Hg). cbn [bind]. change (pos (st t n)) with n.
  rewrite (slice t n p rest Hr). destruct ty; reflexivity.
Qed.

(** *** token lists *)
Lemma tf_ws n ws r L : skipn n v = ws ++ r -> Forall ws_char ws -> tokens_from t (st t (n + length ws)) L -> tokens_from t (st t n) L.
Proof.
  intros Hr Hw H. pose proof (next_ws n ws r Hr Hw) as E. inversion H; subst.
  - eapply tk_end. rewrite E. eauto.
  - eapply tk_next; eauto. rewrite E. eauto.
Qed.
End JL.

(** The text of a readable string. *)
Lemma readable_body s : quoted_body (flat_map readable_char s).
Proof.
  induction s as [|c s IH]; [constructor|]. cbn [flat_map]. destruct (special c) eqn:E.
  - apply special_cases in E. cbn [In] in E. decompose [or] E; try contradiction; subst c; cbn; apply qb_esc; auto; unfold escape; cbn; auto 10.
  - rewrite readable_char_plain by auto. cbn. apply qb_char; auto; intros ->; discriminate.
Qed.
Lemma readable_str_ok s : str_ok s -> str_ok (flat_map readable_char s).
Proof.
  induction 1 as [|c s Hc Hs IH]; [constructor|]. cbn [flat_map]. apply Forall_app. split; [|exact IH].
  destruct (special c) eqn:E.
  - apply special_cases in E. cbn [In] in E. decompose [or] E; try contradiction; subst c; repeat constructor.
  - rewrite readable_char_plain by auto. constructor; auto.
Qed.

(** Decoding an accepted string. *)
Lemma body_decode c : quoted_body c ->
  (slash_escaped c -> nx_xstr_from_readable c = Fatal) /\ (~ slash_escaped c -> exists s, nx_xstr_from_readable c = Ok s).
Proof.
  induction 1 as [|b c H1 H2 H [IH1 IH2]|e c He H [IH1 IH2]].
  - split; [inversion 1|]. exists []. reflexivity.
  - cbn [nx_xstr_from_readable]. replace (b =? 92) with false by lia. split.
    + intros Hs. inversion Hs; subst; try congruence. rewrite IH1 by auto. reflexivity.
    + intros Hs. destruct IH2 as [s ->]; [intros G; apply Hs; constructor; auto|]. exists (b :: s). reflexivity.
  - cbn [nx_xstr_from_readable N.eqb Pos.eqb]. split.
    + intros Hs. inversion Hs as [c'|b' c' Hb' Hs'|e' c' Hs']; subst; [reflexivity|congruence|].
      rewrite IH1 by auto. unfold escape in He. cbn [In] in He. decompose [or] He; try contradiction; subst e; reflexivity.
    + intros Hs. destruct IH2 as [s ->]; [intros G; apply Hs; apply se_esc; auto|]. unfold escape in He. cbn [In] in He.
      decompose [or] He; try contradiction; subst e; try (cbn; eexists; reflexivity). exfalso. apply Hs. constructor.
Qed.
