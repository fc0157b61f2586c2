(** Properties C20, C21 and C22: the lexer. *)
From Verif Require Import Base BaseLemmas LexModel LexSpec LexProofs.
Local Open Scope Z_scope.

(** C20: after [n] consume calls on a fresh lexer. *)
Theorem C20_lexer_position : forall t n,
  bytes_ok t ->
  let v := visible t in
  let k := Nat.min n (length v) in
  exists l,
    (let* l := lexer_new t in consume_n t n l) = Ok l /\
    pos l = k /\
    cur l = (if (k <? length v)%nat then schar (nth k v 0%N) else EOF) /\
    line_no l = 1 + Z.of_nat (newlines (firstn (S k) v)) /\
    col_no l = column (firstn (S k) (v ++ [0%N])) /\
    (k = length v -> consume t l = Ok l).
Proof.
  intros t n Ht v k. exists (st t k). rewrite (new_st t Ht). cbn [bind]. rewrite (consume_n_st t Ht) by lia. cbn [Nat.add].
  split; [reflexivity|]. split; [reflexivity|]. split; [|split; [reflexivity|split; [reflexivity|]]].
  - cbn [cur st]. fold v. unfold char_at. destruct (Nat.ltb_spec k (length v)) as [H|H].
    + rewrite (nth_error_nth' v 0%N H). reflexivity.
    + rewrite (proj2 (nth_error_None v k)) by auto. reflexivity.
  - intros Hk. apply consume_end; auto. fold v. lia.
Qed.
Print Assumptions C20_lexer_position.

(** What the lexer sees is the text up to its NUL, provided no byte is 255;
    that byte is taken for the end of the input. *)
Theorem C20_visible_text : forall s r,
  (forall b, In b s -> b <> 0 /\ b <> 255)%N -> visible s = s /\ visible (s ++ 0%N :: r) = s.
Proof.
  induction s as [|b s IH]; intros r H; cbn [visible app]; [auto|].
  destruct (H b (or_introl eq_refl)) as [H0 H1]. replace ((b =? 0) || (b =? 255))%N with false by lia.
  destruct (IH r) as [-> ->]; auto. intros; apply H; right; auto.
Qed.
Print Assumptions C20_visible_text.
Theorem C20_byte_255_refuted : forall s r n,
  bytes_ok s -> bytes_ok r -> (forall b, In b s -> b <> 0 /\ b <> 255)%N -> (length s <= n)%nat ->
  exists l, (let* l := lexer_new (s ++ 255%N :: r) in consume_n (s ++ 255%N :: r) n l) = Ok l /\
            pos l = length s /\ cur l = EOF.
Proof.
  intros s r n Hs Hr H Hn. set (t := s ++ 255%N :: r).
  assert (bytes_ok t) as Ht by (apply bytes_ok_app; split; auto; constructor; [reflexivity|auto]).
  assert (visible t = s) as Hv.
  { unfold t. clear - H. induction s as [|b s IH]; cbn [visible app]; [reflexivity|].
    destruct (H b (or_introl eq_refl)) as [H0 H1]. replace ((b =? 0) || (b =? 255))%N with false by lia. f_equal. apply IH. intros; apply H; right; auto. }
  destruct (C20_lexer_position t n Ht) as (l & E & Hp & Hc & _). rewrite Hv in Hp, Hc. exists l. split; [auto|].
  rewrite Nat.min_r in Hp, Hc by auto. split; [auto|]. rewrite Hc, Nat.ltb_irrefl. reflexivity.
Qed.
Print Assumptions C20_byte_255_refuted.

Example C20_example :
  (let* l := lexer_new [97; 10; 9; 98]%N in consume_n [97; 10; 9; 98]%N 3 l) = Ok (mkLex 3 98 2 9) /\
  (let* l := lexer_new [97; 10; 9; 98]%N in consume_n [97; 10; 9; 98]%N 30 l) = Ok (mkLex 4 EOF 2 10) /\
  visible [97; 10; 0; 98]%N = [97; 10]%N.
Proof. vm_compute. auto. Qed.

(** C21: all-or-nothing matching, from every state a lexer reaches. *)
Theorem C21_lexer_match : forall t s n l,
  bytes_ok t -> bytes_ok s -> (forall b, In b s -> b <> 255%N) ->
  (let* l := lexer_new t in consume_n t n l) = Ok l ->
  let rest := skipn (pos l) (visible t) in
  (starts_with s rest ->
     exists l', lexer_match t l s = Ok (true, l') /\ consume_n t (length s) l = Ok l' /\ pos l' = (pos l + length s)%nat) /\
  (~ starts_with s rest -> lexer_match t l s = Ok (false, l)).
Proof.
  intros t s n l Ht Hs Hne Hl. rewrite (new_st t Ht) in Hl. cbn [bind] in Hl. rewrite (consume_n_st t Ht) in Hl by lia. cbn [Nat.add] in Hl.
  injection Hl as <-. set (k := Nat.min n (length (visible t))). change (pos (st t k)) with k.
  destruct (match_st t Ht (st t k) s Hs Hne k _ eq_refl) as [H1 H2]. unfold lexer_match. split.
  - intros H. exists (st t (k + length s)). split; [apply H1; auto|]. split; [|reflexivity].
    rewrite (consume_n_st t Ht) by (unfold k; lia). do 2 f_equal.
    destruct H as (r & H). apply (f_equal (@length N)) in H. rewrite skipn_length, app_length in H. unfold k in *. lia.
  - auto.
Qed.
Print Assumptions C21_lexer_match.

(** A match string holding byte 255 matches the end of the input. *)
Theorem C21_match_255_refuted : lexer_match [97%N] (st [97%N] 1) [255; 255]%N = Ok (true, st [97%N] 1).
Proof. reflexivity. Qed.
Print Assumptions C21_match_255_refuted.

Example C21_example :
  let t := [116; 114; 117; 101; 33]%N in
  (let* l := lexer_new t in lexer_match t l [116; 114; 117; 101]%N) = Ok (true, mkLex 4 33 1 5) /\
  (let* l := lexer_new t in lexer_match t l [116; 114; 117; 120]%N) = Ok (false, mkLex 0 116 1 1).
Proof. vm_compute. auto. Qed.

(** C22: started on a minus sign or a digit of ASCII text, the number scanner
    returns the number prefix that the rest of the input does not continue, with
    its type; if there is none it reports an error. *)
Theorem C22_number : forall t n l,
  bytes_ok t -> (let* l := lexer_new t in consume_n t n l) = Ok l ->
  let r := skipn (pos l) (visible t) in
  ascii_ahead r ->
  (exists b r', r = b :: r' /\ (b = 45%N \/ digit b)) ->
  (forall p rest ty, r = p ++ rest -> json_number p ty -> ~ goes_on p rest ->
     exists l', lexer_NUMBER t l = Ok (l', length p, ty) /\ pos l' = (pos l + length p)%nat) /\
  ((forall p rest ty, r = p ++ rest -> json_number p ty -> goes_on p rest) -> lexer_NUMBER t l = Fatal).
Proof.
  intros t n l Ht Hl. rewrite (new_st t Ht) in Hl. cbn [bind] in Hl. rewrite (consume_n_st t Ht) in Hl by lia. cbn [Nat.add] in Hl.
  injection Hl as <-. set (k := Nat.min n (length (visible t))). change (pos (st t k)) with k. intros r Ha (b & r' & Hr & Hb).
  split.
  - intros p rest ty Hp Hnum Hgo. exists (st t (k + length p)). split; [|reflexivity].
    apply (number_complete t Ht k p rest ty); auto. rewrite <- Hp. auto.
  - intros H. destruct (number_sound t Ht k r eq_refl Ha) as [H1|(p & rest & ty & H1 & H2 & H3)]; auto.
    + rewrite Hr. destruct Hb as [->|Hb]; [left; reflexivity|right]. cbn. apply digb_digit; auto.
    + exfalso. eapply H3, H; eauto.
Qed.
Print Assumptions C22_number.

(** What is returned is a longest number prefix: it is a number and no longer
    prefix of the input is one. *)
Theorem C22_longest : forall t n l l' len ty,
  bytes_ok t -> (let* l := lexer_new t in consume_n t n l) = Ok l ->
  let r := skipn (pos l) (visible t) in
  ascii_ahead r ->
  (exists b r', r = b :: r' /\ (b = 45%N \/ digit b)) ->
  lexer_NUMBER t l = Ok (l', len, ty) ->
  json_number (firstn len r) ty /\ ~ goes_on (firstn len r) (skipn len r) /\
  forall q rest ty', r = q ++ rest -> json_number q ty' -> (length q <= len)%nat.
Proof.
  intros t n l l' len ty Ht Hl r Ha Hst Hok. destruct (C22_number t n l Ht Hl Ha Hst) as [H1 H2].
  fold r in H1, H2.
  assert (exists p rest ty0, r = p ++ rest /\ json_number p ty0 /\ ~ goes_on p rest) as (p & rest & ty0 & Hp & Hnum & Hgo).
  { rewrite (new_st t Ht) in Hl. cbn [bind] in Hl. rewrite (consume_n_st t Ht) in Hl by lia. injection Hl as <-.
    destruct Hst as (b & r' & Hr & Hb).
    cbn [Nat.add] in *. destruct (number_sound t Ht _ r eq_refl Ha) as [H3|H3]; [|change (lexer_NUMBER t (st t (Nat.min n (length (visible t)))) = Fatal) in H3; rewrite Hok in H3; discriminate|auto].
    rewrite Hr. destruct Hb as [->|Hb]; [left; reflexivity|right]. cbn. apply digb_digit; auto. }
  destruct (H1 p rest ty0 Hp Hnum Hgo) as (l1 & E & _). rewrite Hok in E. injection E as <- -> ->.
  rewrite Hp. rewrite firstn_app, Nat.sub_diag, firstn_all, app_nil_r. rewrite skipn_app, Nat.sub_diag, skipn_all. cbn [app skipn].
  split; [auto|]. split; [auto|]. intros q rest' ty' Hq Hnq.
  destruct (Nat.le_gt_cases (length q) (length p)) as [Hle|Hgt]; [auto|exfalso].
  (* a longer number would make p go on *)
  apply Hgo. clear - Hnum Hnq Hq Hgt.
  assert (exists b m, q = p ++ b :: m /\ exists rr, rest = b :: rr) as (b & m & Hqm & rr & Hrr).
  { assert (firstn (length p) q = p) as Hf.
    { apply (f_equal (firstn (length p))) in Hq. rewrite firstn_app, Nat.sub_diag, firstn_all, app_nil_r in Hq.
      rewrite firstn_app in Hq. replace (length p - length q)%nat with 0%nat in Hq by lia. cbn [firstn] in Hq. rewrite app_nil_r in Hq. auto. }
    rewrite <- (firstn_skipn (length p) q), Hf in Hq |- *. destruct (skipn (length p) q) as [|b m] eqn:Es.
    - apply (f_equal (@length N)) in Es. rewrite skipn_length in Es. cbn in Es. lia.
    - exists b, m. split; [auto|]. rewrite <- app_assoc in Hq. apply app_inv_head in Hq. exists (m ++ rest'). rewrite Hq. reflexivity. }
  exists b, rr. split; [auto|]. subst q.
  eapply number_next; eauto.
Qed.
Print Assumptions C22_longest.

(** Before a byte above 127, isdigit receives a negative value. *)
Theorem C22_non_ascii_refuted : forall b,
  (128 <= b < 255)%N -> (let* l := lexer_new [49; b]%N in lexer_NUMBER [49; b]%N l) = UB.
Proof.
  intros b Hb. cbn [lexer_new load_char text_at]. unfold lexer_new, load_char, text_at. cbn [length Nat.eqb aget nth_error bind].
  change (schar 49) with 49. cbn [Z.eqb Pos.eqb bind]. unfold lexer_NUMBER. cbn [cur pos Z.eqb Pos.eqb bind skip_digits].
  change (isdigit 49) with (@Ok bool true). cbn [bind]. unfold consume, load_char, text_at. cbn [cur pos length Nat.eqb aget nth_error bind Z.eqb Pos.eqb EOF].
  assert (schar b = Z.of_N b - 256) as -> by (unfold schar; replace (b <? 128)%N with false by lia; reflexivity).
  replace (Z.of_N b - 256 =? 0) with false by lia. replace (Z.of_N b - 256 =? 10) with false by lia.
  replace (Z.of_N b - 256 =? 13) with false by lia. replace (Z.of_N b - 256 =? 9) with false by lia.
  cbn [cur]. unfold isdigit. replace (Z.of_N b - 256 <? -1) with true by lia. reflexivity.
Qed.
Print Assumptions C22_non_ascii_refuted.

(** Started elsewhere the scanner accepts the empty text as an integer. *)
Theorem C22_no_digit_refuted : (let* l := lexer_new [120%N] in lexer_NUMBER [120%N] l) = Ok (st [120%N] 0, 0%nat, LNT_INTEGER).
Proof. reflexivity. Qed.
Print Assumptions C22_no_digit_refuted.

Example C22_example :
  (let* l := lexer_new [45; 49; 50; 46; 53; 101; 43; 55; 44]%N in lexer_NUMBER [45; 49; 50; 46; 53; 101; 43; 55; 44]%N l) = Ok (mkLex 8 44 1 9, 8%nat, LNT_FLOAT) /\
  (let* l := lexer_new [48; 49]%N in lexer_NUMBER [48; 49]%N l) = Fatal /\
  (let* l := lexer_new [49; 46]%N in lexer_NUMBER [49; 46]%N l) = Fatal /\
  json_number [45; 49; 50; 46; 53; 101; 43; 55]%N LNT_FLOAT /\ ~ goes_on [45; 49; 50; 46; 53; 101; 43; 55]%N [44%N].
Proof.
  split; [vm_compute; reflexivity|]. split; [vm_compute; reflexivity|]. split; [vm_compute; reflexivity|]. split.
  - exists [45%N], [49; 50]%N, [46; 53]%N, [101; 43; 55]%N. split; [reflexivity|]. split; [auto|]. split.
    { constructor; [lia|]. repeat constructor; unfold digit; lia. }
    split. { right. exists 53%N, []. split; [auto|]. repeat constructor; unfold digit; lia. }
    split. { right. exists 101%N, [43%N], 55%N, []. split; [auto|]. repeat split; auto. repeat constructor; unfold digit; lia. }
    split; [discriminate|intros []; discriminate].
  - intros (b & r & [= <- <-] & [H|[[H _]|[[H|H] _]]]); try discriminate. unfold digit in H. lia.
Qed.
