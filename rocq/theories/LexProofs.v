(** Proofs about the lexer. *)
From Verif Require Import Base BaseLemmas LexModel LexSpec.
Local Open Scope Z_scope.

Definition char_at (v : list N) (n : nat) : Z := match nth_error v n with Some b => schar b | None => EOF end.
Definition st (t : list N) (n : nat) : lexer :=
  let v := visible t in
  mkLex n (char_at v n) (1 + Z.of_nat (newlines (firstn (S n) v))) (column (firstn (S n) (v ++ [0%N]))).

Lemma visible_cases t : (exists r, t = visible t ++ r /\ match r with [] => True | b :: _ => b = 0%N \/ b = 255%N end).
Proof.
  induction t as [|b t (r & H & Hr)]; cbn [visible]; [exists []; auto|].
  destruct ((b =? 0) || (b =? 255))%N eqn:E.
  - exists (b :: t). split; [reflexivity|]. lia.
  - exists r. cbn. rewrite <- H. auto.
Qed.
Lemma visible_in t b : In b (visible t) -> b <> 0%N /\ b <> 255%N.
Proof.
  induction t as [|a t IH]; cbn [visible]; [intros []|]. destruct ((a =? 0) || (a =? 255))%N eqn:E; [intros []|].
  intros [->|H]; [lia|auto].
Qed.

Lemma text_at_lt t n b : nth_error (visible t) n = Some b -> text_at t n = Ok (schar b).
Proof.
  intros H. destruct (visible_cases t) as (r & Ht & _). assert (n < length (visible t))%nat by (apply nth_error_Some; congruence).
  assert (nth_error t n = Some b) as H1 by (rewrite Ht, nth_error_app1; auto).
  assert (n < length t)%nat by (apply nth_error_Some; congruence).
  unfold text_at. replace (n =? length t)%nat with false by lia. unfold aget. rewrite H1. reflexivity.
Qed.
Lemma text_at_end t : exists c, text_at t (length (visible t)) = Ok c /\ (c = 0 \/ c = EOF).
Proof.
  destruct (visible_cases t) as (r & Ht & Hr). set (v := visible t) in *. clearbody v. subst t. unfold text_at.
  rewrite app_length. destruct r as [|b r].
  - cbn [length]. rewrite Nat.add_0_r, Nat.eqb_refl. eauto.
  - cbn [length]. replace (length v =? length v + S (length r))%nat with false by lia. unfold aget.
    rewrite nth_error_app2, Nat.sub_diag by lia. cbn. exists (schar b). split; [auto|]. destruct Hr as [->| ->]; cbn; auto.
Qed.

Lemma firstn_snoc {A} (l : list A) n b : nth_error l n = Some b -> firstn (S n) l = firstn n l ++ [b].
Proof.
  revert n. induction l as [|x l IH]; intros [|n] H; try discriminate; cbn in *; [congruence|]. rewrite (IH n) by auto. reflexivity.
Qed.
Lemma schar_ne b : (b < 256)%N -> b <> 0%N -> b <> 255%N -> schar b <> 0 /\ schar b <> EOF.
Proof. unfold schar, EOF. intros. destruct (b <? 128)%N eqn:E; lia. Qed.
Lemma schar_small b c : (b < 256)%N -> 0 < c < 128 -> (schar b =? c) = (b =? Z.to_N c)%N.
Proof. unfold schar. intros. destruct (b <? 128)%N eqn:E; lia. Qed.

Lemma newlines_app a b : newlines (a ++ b) = (newlines a + newlines b)%nat.
Proof. apply count_occ_app. Qed.

Lemma visible_ok t b : bytes_ok t -> In b (visible t) -> (b < 256)%N.
Proof.
  intros H Hb. destruct (visible_cases t) as (r0 & Ht' & _). unfold bytes_ok in H. rewrite Ht' in H. apply Forall_app in H as [H _].
  eapply Forall_forall in H; [exact H|auto].
Qed.

Section Lex.
Variable t : list N.
Hypothesis Ht : bytes_ok t.

Lemma load_st n line col : (n <= length (visible t))%nat ->
  line = 1 + Z.of_nat (newlines (firstn n (visible t))) -> col = column (firstn n (visible t ++ [0%N])) ->
  load_char t n line col = Ok (st t n).
Proof.
  intros Hn -> ->. unfold load_char, st, char_at. destruct (nth_error (visible t) n) as [b|] eqn:E.
  - rewrite (text_at_lt _ _ _ E). cbn [bind].
    assert (n < length (visible t))%nat as Hl by (apply nth_error_Some; congruence).
    destruct (visible_in t b (nth_error_In _ _ E)) as [Hb0 Hb1]. pose proof (visible_ok t b Ht (nth_error_In _ _ E)) as Hb2. destruct (schar_ne b Hb2 Hb0 Hb1) as [Hs0 Hs1].
    replace (schar b =? 0) with false by lia. f_equal.
    rewrite (firstn_snoc (visible t) n b E). rewrite (firstn_snoc (visible t ++ [0%N]) n b) by (rewrite nth_error_app1; auto).
    rewrite newlines_app. unfold column. rewrite fold_left_app. cbn [fold_left].
    rewrite !schar_small by lia. change (Z.to_N 10) with 10%N. change (Z.to_N 13) with 13%N. change (Z.to_N 9) with 9%N.
    change (newlines [b]) with (if N.eq_dec b 10 then 1 else 0)%nat. destruct (N.eq_dec b 10) as [->|H10].
    + cbn [N.eqb Pos.eqb orb]. f_equal. lia.
    + replace (b =? 10)%N with false by lia. cbn [orb]. rewrite Nat.add_0_r. destruct (b =? 13)%N; [reflexivity|]. destruct (b =? 9)%N; reflexivity.
  - apply nth_error_None in E. assert (n = length (visible t)) as -> by lia.
    destruct (text_at_end t) as (c & -> & Hc). cbn [bind].
    replace (if c =? 0 then EOF else c) with EOF by (destruct Hc as [->| ->]; reflexivity). cbn [Z.eqb EOF].
    f_equal. unfold EOF. cbn [Z.eqb Pos.eqb]. f_equal.
    + rewrite !firstn_all2 by lia. reflexivity.
    + rewrite (firstn_snoc (visible t ++ [0%N]) (length (visible t)) 0%N) by (rewrite nth_error_app2, Nat.sub_diag by lia; reflexivity).
      unfold column. rewrite fold_left_app. reflexivity.
Qed.

Lemma new_st : lexer_new t = Ok (st t 0).
Proof. apply load_st; auto. lia. Qed.

Lemma char_at_lt n : (n < length (visible t))%nat -> char_at (visible t) n <> EOF.
Proof.
  intros H. unfold char_at. destruct (nth_error (visible t) n) as [b|] eqn:E; [|apply nth_error_None in E; lia].
  destruct (visible_in t b (nth_error_In _ _ E)) as [Hb0 Hb1]. apply schar_ne; auto. apply (visible_ok t b Ht (nth_error_In _ _ E)).
Qed.
Lemma char_at_ge v n : (length v <= n)%nat -> char_at v n = EOF.
Proof. intros H. unfold char_at. rewrite (proj2 (nth_error_None v n)) by auto. reflexivity. Qed.

Lemma consume_st n : (n < length (visible t))%nat -> consume t (st t n) = Ok (st t (S n)).
Proof.
  intros H. unfold consume. cbn [cur st]. pose proof (char_at_lt n H). replace (char_at (visible t) n =? EOF) with false by lia.
  apply load_st; auto.
Qed.
Lemma consume_end n : (length (visible t) <= n)%nat -> consume t (st t n) = Ok (st t n).
Proof. intros H. unfold consume. cbn [cur st]. rewrite char_at_ge by auto. reflexivity. Qed.

Lemma consume_n_st n k : (k <= length (visible t))%nat ->
  consume_n t n (st t k) = Ok (st t (Nat.min (k + n) (length (visible t)))).
Proof.
  revert k. induction n as [|n IH]; intros k Hk; cbn [consume_n].
  - rewrite Nat.add_0_r, Nat.min_l by auto. reflexivity.
  - destruct (Nat.eq_dec k (length (visible t))) as [->|Hn].
    + rewrite consume_end by lia. cbn [bind]. rewrite IH by lia. do 2 f_equal. lia.
    + rewrite consume_st by lia. cbn [bind]. rewrite IH by lia. do 2 f_equal. lia.
Qed.

(** *** match *)
Lemma skipn_cons {A} (v : list A) n b r : skipn n v = b :: r -> nth_error v n = Some b /\ skipn (S n) v = r /\ (n < length v)%nat.
Proof.
  revert n. induction v as [|x v IH]; intros [|n] H; cbn in H; try discriminate.
  - injection H as -> ->. cbn. repeat split; lia.
  - destruct (IH n H) as (H1 & H2 & H3). cbn. repeat split; auto; lia.
Qed.
Lemma skipn_nil_len {A} (v : list A) n : skipn n v = [] -> (length v <= n)%nat.
Proof. intros H. apply (f_equal (@length A)) in H. rewrite skipn_length in H. cbn in H. lia. Qed.

Lemma schar_inj a b : (a < 256)%N -> (b < 256)%N -> (schar a =? schar b) = (a =? b)%N.
Proof. intros. unfold schar. destruct (a <? 128)%N eqn:E, (b <? 128)%N eqn:E'; lia. Qed.

Lemma match_st start s : bytes_ok s -> (forall b, In b s -> b <> 255%N) -> forall n r, skipn n (visible t) = r ->
  (starts_with s r -> match_loop t start (st t n) s = Ok (true, st t (n + length s))) /\
  (~ starts_with s r -> match_loop t start (st t n) s = Ok (false, start)).
Proof.
  intros Hs Hne. induction s as [|c s IH]; intros n r Hr; cbn [match_loop length].
  - split; [intros _; rewrite Nat.add_0_r; reflexivity|]. intros []. exists r. reflexivity.
  - inversion Hs as [|? ? Hc Hs']; subst. cbn [st cur]. destruct (skipn n (visible t)) as [|b r'] eqn:E.
    + split; [intros (r' & H); discriminate|]. intros _. rewrite char_at_ge by (apply skipn_nil_len; auto).
      replace (EOF =? schar c) with false; [reflexivity|]. assert (c <> 255%N) by (apply Hne; left; auto).
      unfold byte_ok in Hc. unfold schar, EOF. destruct (c <? 128)%N eqn:Ec; lia.
    + destruct (skipn_cons _ _ _ _ E) as (E1 & E2 & E3). unfold char_at. rewrite E1.
      assert (byte_ok b) as Hb.
      { apply (visible_ok t b Ht). eapply nth_error_In; eauto. }
      unfold byte_ok in *. rewrite schar_inj by auto. change (mkLex n _ _ _) with (st t n).
      destruct (N.eqb_spec b c) as [->|Hbc].
      * replace {| pos := n; cur := schar c; line_no := 1 + Z.of_nat (newlines (firstn (S n) (visible t))); col_no := column (firstn (S n) (visible t ++ [0%N])) |} with (st t n)
          by (unfold st, char_at; rewrite E1; reflexivity).
        rewrite consume_st by auto. cbn [bind]. destruct (IH Hs' (fun b H => Hne b (or_intror H)) (S n) r' E2) as [I1 I2].
        split.
        -- intros (q & Hq). injection Hq as ->. rewrite I1 by (exists q; auto). do 3 f_equal. lia.
        -- intros Hn. apply I2. intros (q & ->). apply Hn. exists q. reflexivity.
      * split; [|reflexivity]. intros (q & Hq). injection Hq as -> _. congruence.
Qed.

(** *** numbers *)
Definition head (r : list N) : Z := match r with [] => EOF | b :: _ => schar b end.
Definition digb (b : N) : bool := ((48 <=? b) && (b <=? 57))%N.
Definition dig (r : list N) : bool := match r with [] => false | b :: _ => digb b end.
Notation ascii := ascii_ahead.
Lemma ascii_hd b r : ascii (b :: r) -> (b < 128)%N.
Proof. intros H. apply (H [] b r); auto. Qed.
Lemma ascii_cons b r : num_char b -> (b < 128)%N -> ascii r -> ascii (b :: r).
Proof.
  intros Hn Hb H [|a l] c r' E Ha; cbn in E; injection E as <- E; auto. apply Forall_cons_iff in Ha as [_ Ha]. eapply H; eauto.
Qed.
Lemma ascii_app_r a b : Forall num_char a -> ascii (a ++ b) -> ascii b.
Proof. intros Hn H l c r' -> Hl. apply (H (a ++ l) c r'); [rewrite <- app_assoc; auto|]. apply Forall_app. auto. Qed.
Lemma ascii_app a b : Forall num_char a -> ascii b -> ascii (a ++ b).
Proof.
  intros Hn H. induction Hn as [|x a Hx Ha IH]; cbn [app]; auto. apply ascii_cons; auto. unfold num_char, digit in Hx. cbn in Hx. lia.
Qed.
Lemma digits_num ds : Forall digit ds -> Forall num_char ds.
Proof. apply Forall_impl. left. auto. Qed.
Lemma sg_num sg : sg = [] \/ sg = [43%N] \/ sg = [45%N] -> Forall num_char sg.
Proof. intros [->|[->| ->]]; repeat constructor; right; cbn; auto. Qed.
Lemma frac_num f : opt json_frac f -> Forall num_char f.
Proof. intros [->|(d & ds & -> & H)]; [constructor|]. constructor; [right; cbn; auto|apply digits_num; auto]. Qed.
Lemma exp_num e : opt json_exp e -> Forall num_char e.
Proof.
  intros [->|(x & sg & d & ds & -> & Hx & Hs & H)]; [constructor|]. constructor; [right; cbn; lia|].
  apply Forall_app. split; [apply sg_num; auto|apply digits_num; auto].
Qed.

Lemma cur_st n r : skipn n (visible t) = r -> cur (st t n) = head r.
Proof.
  intros H. cbn [st cur]. destruct r as [|b r].
  - apply char_at_ge. apply skipn_nil_len; auto.
  - destruct (skipn_cons _ _ _ _ H) as (E & _). unfold char_at. rewrite E. reflexivity.
Qed.
Lemma consume_r n b r : skipn n (visible t) = b :: r -> consume t (st t n) = Ok (st t (S n)) /\ skipn (S n) (visible t) = r.
Proof. intros H. destruct (skipn_cons _ _ _ _ H) as (E1 & E2 & E3). split; [apply consume_st; auto|auto]. Qed.
Lemma skipn_skipn_add {A} (v : list A) a n : skipn a (skipn n v) = skipn (a + n) v.
Proof. revert v. induction n as [|n IH]; intros v; [rewrite Nat.add_0_r; reflexivity|]. rewrite Nat.add_succ_r. destruct v; cbn [skipn]; [apply skipn_nil|apply IH]. Qed.
Lemma skipn_more {A} (v : list A) n a b : skipn n v = a ++ b -> skipn (n + length a) v = b.
Proof. intros H. replace (n + length a)%nat with (length a + n)%nat by lia. rewrite <- skipn_skipn_add, H, skipn_app, Nat.sub_diag, skipn_all2 by lia. reflexivity. Qed.

Lemma digb_digit b : digb b = true <-> digit b.
Proof. unfold digb, digit. lia. Qed.
Lemma dig_split r : exists ds r', r = ds ++ r' /\ Forall digit ds /\ dig r' = false.
Proof.
  induction r as [|b r (ds & r' & H1 & H2 & H3)]; [exists [], []; auto|]. destruct (digb b) eqn:E.
  - exists (b :: ds), r'. subst. repeat split; auto. constructor; [apply digb_digit; auto|auto].
  - exists [], (b :: r). auto.
Qed.

Lemma isdigit_head r : ascii r -> isdigit (head r) = Ok (dig r).
Proof.
  intros H. unfold isdigit, head, dig. destruct r as [|b r]; [reflexivity|]. apply ascii_hd in H as Hb.
  unfold schar. replace (b <? 128)%N with true by lia. replace (Z.of_N b <? -1) with false by lia. f_equal. unfold digb. lia.
Qed.

Lemma skip_digits_st fuel : forall ds r' n, skipn n (visible t) = ds ++ r' -> Forall digit ds -> dig r' = false ->
  ascii (ds ++ r') -> (length ds < fuel)%nat -> skip_digits fuel t (st t n) = Ok (st t (n + length ds)).
Proof.
  induction fuel as [|fuel IH]; intros ds r' n H1 H2 H3 H4 H5; [lia|]. cbn [skip_digits].
  rewrite (cur_st _ _ H1), isdigit_head by auto. cbn [bind]. destruct ds as [|d ds].
  - cbn [app]. rewrite H3. cbn [length]. rewrite Nat.add_0_r. reflexivity.
  - inversion H2; subst. cbn [app dig]. replace (digb d) with true by (symmetry; apply digb_digit; auto).
    cbn [app] in H1. destruct (consume_r _ _ _ H1) as [-> Hc6]. cbn [bind].
    rewrite (IH ds r' (S n)); auto; [cbn [length]; do 2 f_equal; lia| |cbn in H5; lia].
    apply (ascii_app_r [d]); [apply digits_num; constructor; auto|auto].
Qed.

Lemma text_at_r n b r : skipn n (visible t) = b :: r -> text_at t n = Ok (schar b).
Proof. intros H. destruct (skipn_cons _ _ _ _ H) as (E1 & _). apply text_at_lt; auto. Qed.

Lemma digit_schar b : digit b -> schar b = Z.of_N b.
Proof. unfold digit, schar. intros. replace (b <? 128)%N with true by lia. reflexivity. Qed.
Lemma head_eqb_b r c : (0 < c < 128)%Z -> bytes_ok r -> (head r =? c) = match r with b :: _ => (b =? Z.to_N c)%N | [] => false end.
Proof.
  intros Hc Hr. destruct r as [|b r]; cbn [head].
  - unfold EOF. lia.
  - inversion Hr; subst. apply schar_small; auto.
Qed.
Lemma head_eqb r c : (0 < c < 128)%Z -> ascii r -> (head r =? c) = match r with b :: _ => (b =? Z.to_N c)%N | [] => false end.
Proof.
  intros Hc Hr. destruct r as [|b r]; cbn [head].
  - unfold EOF. lia.
  - apply ascii_hd in Hr. apply schar_small; auto. lia.
Qed.

Lemma len_vis n r : skipn n (visible t) = r -> r <> [] -> (n + length r = length (visible t) /\ length (visible t) <= length t)%nat.
Proof.
  intros H Hr. split.
  - apply (f_equal (@length N)) in H. rewrite skipn_length in H. destruct r; [congruence|]. cbn in *. lia.
  - destruct (visible_cases t) as (r0 & Ht' & _). rewrite Ht' at 2. rewrite app_length. lia.
Qed.

(** The scanner after the integer part. *)
Definition number_tail (l : lexer) (start len : nat) : res (lexer * nat * numtype) :=
  let fuel := S (S (length t)) in
  if negb (cur l =? 46) && negb (cur l =? 101) && negb (cur l =? 69) then Ok (l, len, LNT_INTEGER)
    else
      let* l := (if cur l =? 46 then
                   let* l := consume t l in
                   let* d := isdigit (cur l) in
                   if d then skip_digits fuel t l else Fatal
                 else Ok l) in
      let* l := (if (cur l =? 101) || (cur l =? 69) then
                   let* l := consume t l in
                   let* l := (if (cur l =? 43) || (cur l =? 45) then consume t l else Ok l) in
                   let* d := isdigit (cur l) in
                   if d then skip_digits fuel t l else Fatal
                 else Ok l) in
      Ok (l, (pos l - start)%nat, LNT_FLOAT).


(** Integer part: either the token so far is an integer of the grammar, or the
    scanner stops. *)
Lemma number_int n sg ds r' : skipn n (visible t) = sg ++ ds ++ r' -> (sg = [] /\ ds <> [] \/ sg = [45%N]) -> Forall digit ds -> dig r' = false ->
  ascii (sg ++ ds ++ r') ->
  (json_int ds -> lexer_NUMBER t (st t n) = number_tail (st t (n + length sg + length ds)) n (length sg + length ds)) /\
  (~ json_int ds -> lexer_NUMBER t (st t n) = Fatal).
Proof.
  intros Hr Hsg Hds Hnd Hasc. unfold lexer_NUMBER.
  change (pos (st t n)) with n.
  assert (exists b r, sg ++ ds ++ r' = b :: r) as (b0 & rr & Hne).
  { destruct Hsg as [[-> Hd]| ->]; [destruct ds; [congruence|]|]; cbn; eauto. }
  destruct (len_vis _ _ Hr) as [Hl1 Hl2]; [rewrite Hne; discriminate|]. rewrite !app_length in Hl1.
  assert ((if cur (st t n) =? 45 then consume t (st t n) else Ok (st t n)) = Ok (st t (n + length sg))) as ->.
  { rewrite (cur_st _ _ Hr), head_eqb by (auto; lia). destruct Hsg as [[-> Hd]| ->].
    - destruct ds as [|d ds]; [congruence|]. inversion Hds as [|? ? Hd']; subst. cbn [app]. unfold digit in Hd'. change (Z.to_N 45) with 45%N.
      replace (d =? 45)%N with false by lia. cbn [length]. rewrite Nat.add_0_r. reflexivity.
    - cbn [app]. rewrite N.eqb_refl. destruct (consume_r _ _ _ Hr) as [-> _]. cbn [length]. do 2 f_equal. lia. }
  cbn [bind]. pose proof (skipn_more _ _ _ _ Hr) as Hr1.
  assert (ascii (ds ++ r')) as Hasc' by (apply (ascii_app_r sg); auto; apply sg_num; destruct Hsg as [[? _]|?]; auto).
  rewrite (skip_digits_st _ ds r' _ Hr1 Hds Hnd Hasc') by lia. cbn [bind].
  change (pos (st t (n + length sg + length ds))) with (n + length sg + length ds)%nat.
  replace (n + length sg + length ds - n)%nat with (length sg + length ds)%nat by lia.
  fold (number_tail (st t (n + length sg + length ds)) n (length sg + length ds)).
  destruct Hsg as [[-> Hd]| ->].
  - destruct ds as [|d ds]; [congruence|]. cbn [app] in Hr. rewrite (text_at_r _ _ _ Hr). cbn [bind].
    inversion Hds as [|? ? Hd' Hds']; subst. rewrite (digit_schar _ Hd'). unfold digit in Hd'.
    replace (Z.of_N d =? 45) with false by lia. rewrite !andb_false_r. cbn [andb bind length Nat.add]. split.
    + intros Hj. replace ((Z.of_N d =? 48) && (1 <? S (length ds))%nat) with false; [reflexivity|].
      inversion Hj; subst; cbn [length]; lia.
    + intros Hj. destruct ((Z.of_N d =? 48) && (1 <? S (length ds))%nat) eqn:E; [reflexivity|]. exfalso. apply Hj.
      destruct (N.eq_dec d 48) as [->|Hn]; [|constructor; auto; lia]. destruct ds; [constructor|cbn in E; lia].
  - cbn [app] in Hr. rewrite (text_at_r _ _ _ Hr). cbn [bind length Nat.add].
    change (schar 45) with 45. cbn [Z.eqb Pos.eqb andb]. rewrite andb_true_r. destruct ds as [|d ds].
    + cbn [length Nat.eqb]. split; [inversion 1|reflexivity].
    + cbn [length Nat.eqb]. destruct (consume_r _ _ _ Hr) as [_ Hr2]. cbn [app] in Hr2.
      inversion Hds as [|? ? Hd' Hds']; subst. split.
      * intros Hj. destruct (2 <? S (S (length ds)))%nat eqn:E.
        -- rewrite (text_at_r _ _ _ Hr2). cbn [bind]. rewrite (digit_schar _ Hd'). inversion Hj; subst; [cbn in E; lia|].
           replace (Z.of_N d =? 48) with false by lia. reflexivity.
        -- reflexivity.
      * intros Hj. destruct ds as [|d' ds].
        { exfalso. apply Hj. destruct (N.eq_dec d 48) as [->|Hn]; [constructor|]. constructor; auto. unfold digit in Hd'. lia. }
        cbn [length]. replace (2 <? S (S (S (length ds))))%nat with true by lia.
        rewrite (text_at_r _ _ _ Hr2). cbn [bind]. rewrite (digit_schar _ Hd'). destruct (Z.eqb_spec (Z.of_N d) 48) as [E|E]; [reflexivity|].
        exfalso. apply Hj. unfold digit in Hd'. constructor; auto. lia.
Qed.

Definition frac_scan (l : lexer) : res lexer :=
  if cur l =? 46 then
    let* l := consume t l in
    let* d := isdigit (cur l) in
    if d then skip_digits (S (S (length t))) t l else Fatal
  else Ok l.
Definition exp_scan (l : lexer) : res lexer :=
  if (cur l =? 101) || (cur l =? 69) then
    let* l := consume t l in
    let* l := (if (cur l =? 43) || (cur l =? 45) then consume t l else Ok l) in
    let* d := isdigit (cur l) in
    if d then skip_digits (S (S (length t))) t l else Fatal
  else Ok l.
Lemma number_tail_eq l start len : number_tail l start len =
  if negb (cur l =? 46) && negb (cur l =? 101) && negb (cur l =? 69) then Ok (l, len, LNT_INTEGER)
  else let* l := frac_scan l in let* l := exp_scan l in Ok (l, (pos l - start)%nat, LNT_FLOAT).
Proof. reflexivity. Qed.

(** [hd_is r c]: the rest starts with [c]. *)
Definition hd_is (r : list N) (c : N) : bool := match r with b :: _ => (b =? c)%N | [] => false end.
Lemma cur_is n r c z : skipn n (visible t) = r -> ascii r -> (0 < c < 128)%N -> z = Z.of_N c -> (cur (st t n) =? z) = hd_is r c.
Proof.
  intros H Ha Hc ->. rewrite (cur_st _ _ H), head_eqb by (auto; lia). rewrite N2Z.id. reflexivity.
Qed.

Lemma digits_from m ds r' : skipn m (visible t) = ds ++ r' -> ds <> [] -> Forall digit ds -> dig r' = false -> ascii (ds ++ r') ->
  (let* d := isdigit (cur (st t m)) in if d then skip_digits (S (S (length t))) t (st t m) else Fatal) = Ok (st t (m + length ds)).
Proof.
  intros H1 H2 H3 H4 H5. rewrite (cur_st _ _ H1), isdigit_head by auto. cbn [bind].
  destruct ds as [|d ds]; [congruence|]. inversion H3; subst. cbn [app dig]. replace (digb d) with true by (symmetry; apply digb_digit; auto).
  destruct (len_vis _ _ H1) as [L1 L2]; [discriminate|]. rewrite app_length in L1.
  apply skip_digits_st with (r' := r'); auto. lia.
Qed.
Lemma digits_bad m r' : skipn m (visible t) = r' -> dig r' = false -> ascii r' ->
  (let* d := isdigit (cur (st t m)) in if d then skip_digits (S (S (length t))) t (st t m) else Fatal) = Fatal.
Proof. intros H1 H2 H3. rewrite (cur_st _ _ H1), isdigit_head by auto. cbn [bind]. rewrite H2. reflexivity. Qed.

Lemma frac_yes m ds r' : skipn m (visible t) = 46%N :: ds ++ r' -> ds <> [] -> Forall digit ds -> dig r' = false -> ascii (ds ++ r') ->
  frac_scan (st t m) = Ok (st t (m + S (length ds))).
Proof.
  intros H1 H2 H3 H4 H5. unfold frac_scan. rewrite (cur_is _ _ 46%N 46 H1) by (try (apply ascii_cons; [right; cbn; auto|lia|auto]); lia). cbn [hd_is N.eqb Pos.eqb].
  destruct (consume_r _ _ _ H1) as [-> H6]. cbn [bind]. rewrite (digits_from _ ds r' H6) by auto. do 2 f_equal. lia.
Qed.
Lemma frac_bad m r' : skipn m (visible t) = 46%N :: r' -> dig r' = false -> ascii r' -> frac_scan (st t m) = Fatal.
Proof.
  intros H1 H4 H5. unfold frac_scan. rewrite (cur_is _ _ 46%N 46 H1) by (try (apply ascii_cons; [right; cbn; auto|lia|auto]); lia). cbn [hd_is N.eqb Pos.eqb].
  destruct (consume_r _ _ _ H1) as [-> H6]. cbn [bind]. apply (digits_bad _ r' H6); auto.
Qed.
Lemma frac_no m r : skipn m (visible t) = r -> hd_is r 46 = false -> ascii r -> frac_scan (st t m) = Ok (st t m).
Proof. intros H1 H2 H3. unfold frac_scan. rewrite (cur_is _ _ 46%N 46 H1) by (auto; lia). rewrite H2. reflexivity. Qed.

Definition is_e (r : list N) : bool := hd_is r 101 || hd_is r 69.
Lemma cur_e m r : skipn m (visible t) = r -> ascii r -> (cur (st t m) =? 101) || (cur (st t m) =? 69) = is_e r.
Proof. intros H1 H2. rewrite (cur_is _ _ 101%N 101 H1), (cur_is _ _ 69%N 69 H1) by (auto; lia). reflexivity. Qed.
Definition is_sg (r : list N) : bool := hd_is r 43 || hd_is r 45.
Lemma cur_sg m r : skipn m (visible t) = r -> ascii r -> (cur (st t m) =? 43) || (cur (st t m) =? 45) = is_sg r.
Proof. intros H1 H2. rewrite (cur_is _ _ 43%N 43 H1), (cur_is _ _ 45%N 45 H1) by (auto; lia). reflexivity. Qed.

Lemma exp_sign m x sg r : skipn m (visible t) = x :: sg ++ r -> (x = 101 \/ x = 69)%N ->
  (sg = [] /\ is_sg r = false \/ sg = [43%N] \/ sg = [45%N]) -> ascii r ->
  exp_scan (st t m) = let* d := isdigit (cur (st t (m + S (length sg)))) in
                      if d then skip_digits (S (S (length t))) t (st t (m + S (length sg))) else Fatal.
Proof.
  intros H1 Hx Hsg Ha. assert (ascii (x :: sg ++ r)) as Ha'.
  { apply ascii_cons; [right; cbn; lia|lia|]. apply ascii_app; auto. apply sg_num. destruct Hsg as [[-> _]|[->| ->]]; auto. }
  unfold exp_scan. rewrite (cur_e _ _ H1) by auto. replace (is_e (x :: sg ++ r)) with true by (unfold is_e; cbn; lia).
  destruct (consume_r _ _ _ H1) as [-> H2]. cbn [bind].
  rewrite (cur_sg _ _ H2) by (apply (ascii_app_r [x]); auto; apply Forall_cons; [right; cbn; lia|constructor]). destruct Hsg as [[-> H3]|[->| ->]].
  - cbn [app]. rewrite H3. cbn [bind length]. replace (m + 1)%nat with (S m) by lia. reflexivity.
  - cbn [app]. cbn [is_sg hd_is N.eqb Pos.eqb orb]. destruct (consume_r _ _ _ H2) as [-> H4]. cbn [bind length].
    replace (m + 2)%nat with (S (S m)) by lia. reflexivity.
  - cbn [app]. cbn [is_sg hd_is N.eqb Pos.eqb orb]. destruct (consume_r _ _ _ H2) as [-> H4]. cbn [bind length].
    replace (m + 2)%nat with (S (S m)) by lia. reflexivity.
Qed.
Lemma exp_yes m x sg ds r' : skipn m (visible t) = x :: sg ++ ds ++ r' -> (x = 101 \/ x = 69)%N ->
  (sg = [] \/ sg = [43%N] \/ sg = [45%N]) -> ds <> [] -> Forall digit ds -> dig r' = false -> ascii (ds ++ r') ->
  exp_scan (st t m) = Ok (st t (m + S (length sg + length ds))).
Proof.
  intros H1 Hx Hsg H2 H3 H4 H5. rewrite (exp_sign _ _ _ _ H1 Hx); auto.
  - rewrite (digits_from _ ds r'); auto; [do 2 f_equal; lia|].
    change (x :: sg ++ ds ++ r') with ((x :: sg) ++ ds ++ r') in H1. apply skipn_more in H1. exact H1.
  - destruct Hsg as [->|Hsg]; [|auto]. left. split; [auto|]. destruct ds as [|d ds]; [congruence|]. inversion H3 as [|? ? Hd]; subst.
    unfold digit in Hd. unfold is_sg. cbn. lia.
Qed.
Lemma exp_bad m x sg r' : skipn m (visible t) = x :: sg ++ r' -> (x = 101 \/ x = 69)%N ->
  (sg = [] /\ is_sg r' = false \/ sg = [43%N] \/ sg = [45%N]) -> dig r' = false -> ascii r' -> exp_scan (st t m) = Fatal.
Proof.
  intros H1 Hx Hsg H4 H5. rewrite (exp_sign _ _ _ _ H1 Hx); auto. apply (digits_bad _ r'); auto.
  change (x :: sg ++ r') with ((x :: sg) ++ r') in H1. apply skipn_more in H1. exact H1.
Qed.
Lemma exp_no m r : skipn m (visible t) = r -> is_e r = false -> ascii r -> exp_scan (st t m) = Ok (st t m).
Proof. intros H1 H2 H3. unfold exp_scan. rewrite (cur_e _ _ H1) by auto. rewrite H2. reflexivity. Qed.

Lemma tail_cond m r : skipn m (visible t) = r -> ascii r ->
  negb (cur (st t m) =? 46) && negb (cur (st t m) =? 101) && negb (cur (st t m) =? 69) = negb (hd_is r 46) && negb (is_e r).
Proof.
  intros H1 H2. rewrite (cur_is _ _ 46%N 46 H1), (cur_is _ _ 101%N 101 H1), (cur_is _ _ 69%N 69 H1) by (auto; lia).
  unfold is_e. destruct (hd_is r 46), (hd_is r 101), (hd_is r 69); reflexivity.
Qed.

(** A number prefix that the rest does not continue is what is returned. *)
Lemma number_complete n p rest ty : skipn n (visible t) = p ++ rest -> ascii (p ++ rest) -> json_number p ty -> ~ goes_on p rest ->
  lexer_NUMBER t (st t n) = Ok (st t (n + length p), length p, ty).
Proof.
  intros Hr Ha (sg & i & f & e & -> & Hsg & Hi & Hf & He & Hty) Hgo.
  rewrite <- !app_assoc in Hr, Ha.
  assert (dig rest = false) as Hrd.
  { destruct rest as [|b r]; [reflexivity|]. cbn [dig]. destruct (digb b) eqn:E; [|auto]. exfalso. apply Hgo. exists b, r. split; [auto|]. left. apply digb_digit; auto. }
  assert (forall e0, opt json_exp e0 -> dig (e0 ++ rest) = false) as Hed.
  { intros e0 [->|(x & s0 & d & ds & -> & [->| ->] & _)]; auto. }
  assert (forall f0, opt json_frac f0 -> dig (f0 ++ e ++ rest) = false) as Hfd.
  { intros f0 [->|(d & ds & -> & _)]; auto. apply Hed; auto. }
  assert (Forall digit i /\ i <> []) as [Hid Hine].
  { inversion Hi; subst; split; try discriminate; constructor; auto; unfold digit; lia. }
  assert (ascii (i ++ f ++ e ++ rest)) as Ha1 by (apply (ascii_app_r sg); auto; apply sg_num; destruct Hsg as [?|?]; auto).
  assert (ascii (f ++ e ++ rest)) as Ha2 by (apply (ascii_app_r i); auto; apply digits_num; auto).
  assert (ascii (e ++ rest)) as Ha3 by (apply (ascii_app_r f); auto; apply frac_num; auto).
  assert (ascii rest) as Ha4 by (apply (ascii_app_r e); auto; apply exp_num; auto).
  destruct (number_int n sg i (f ++ e ++ rest) Hr) as [-> _]; auto.
  { destruct Hsg as [->| ->]; auto. }
  pose proof (skipn_more _ _ _ _ Hr) as Hr1. pose proof (skipn_more _ _ _ _ Hr1) as Hr2.
  rewrite number_tail_eq, (tail_cond _ _ Hr2) by auto. rewrite !app_length.
  assert (Forall (fun c => c = 45%N \/ digit c) (sg ++ i)) as Hdig.
  { apply Forall_app. split; [destruct Hsg as [->| ->]; auto|]. eapply Forall_impl; [|exact Hid]. auto. }
  assert (forall ds, Forall digit ds -> Forall (fun c => c <> 101%N /\ c <> 69%N) ds) as Hne.
  { intros ds. apply Forall_impl. unfold digit. intros; lia. }
  destruct Hf as [->|(d & ds & -> & Hds)].
  - destruct He as [->|(x & s0 & d & ds & -> & Hx & Hs0 & Hds)].
    + replace ty with LNT_INTEGER by (symmetry; apply Hty; auto). cbn [app] in *.
      replace (negb (hd_is rest 46) && negb (is_e rest)) with true.
      * cbn [length]. rewrite !Nat.add_0_r. do 3 f_equal. f_equal. lia.
      * destruct rest as [|b r]; [reflexivity|]. unfold is_e. cbn [hd_is]. symmetry.
        rewrite !app_nil_r in Hgo.
        destruct (N.eqb_spec b 46) as [->|H46]; [exfalso; apply Hgo; exists 46%N, r; auto|].
        destruct ((b =? 101) || (b =? 69))%N eqn:E; [|reflexivity]. exfalso. apply Hgo. exists b, r. split; [auto|]. right. right. split; [lia|].
        apply Forall_app. split; [destruct Hsg as [->| ->]; repeat constructor; discriminate|auto].
    + replace (negb (hd_is ([] ++ (x :: s0 ++ d :: ds) ++ rest) 46) && negb (is_e ([] ++ (x :: s0 ++ d :: ds) ++ rest))) with false
        by (unfold is_e; cbn; destruct Hx as [->| ->]; reflexivity).
      rewrite (frac_no _ _ Hr2) by (auto; cbn; destruct Hx as [->| ->]; reflexivity). cbn [bind].
      cbn [app] in Hr2, Ha3. rewrite <- app_assoc in Hr2, Ha3. rewrite (exp_yes _ x s0 (d :: ds) rest Hr2); auto; [|discriminate|].
      * cbn [bind]. change (pos (st t ?k)) with k. replace ty with LNT_FLOAT.
        -- do 2 f_equal. f_equal; [f_equal|]; cbn [length app]; rewrite ?app_length; cbn [length]; lia.
        -- destruct ty; [|auto]. destruct Hty as [Hty _]. destruct (Hty eq_refl). discriminate.
      * apply ascii_app; auto. apply digits_num; auto.
  - replace (negb (hd_is ((46%N :: d :: ds) ++ e ++ rest) 46) && negb (is_e ((46%N :: d :: ds) ++ e ++ rest))) with false by reflexivity.
    cbn [app] in Hr2, Ha2. change (d :: ds ++ e ++ rest) with ((d :: ds) ++ e ++ rest) in Hr2, Ha2.
    rewrite (frac_yes _ (d :: ds) (e ++ rest) Hr2); auto; [|discriminate|apply ascii_app; auto; apply digits_num; auto].
    cbn [bind]. change (46%N :: (d :: ds) ++ e ++ rest) with ((46%N :: d :: ds) ++ e ++ rest) in Hr2.
    pose proof (skipn_more _ _ _ _ Hr2) as Hr3. change (length (46%N :: d :: ds)) with (S (length (d :: ds))) in Hr3.
    replace ty with LNT_FLOAT by (destruct ty; [|auto]; destruct Hty as [Hty _]; destruct (Hty eq_refl); discriminate).
    destruct He as [->|(x & s0 & d' & ds' & -> & Hx & Hs0 & Hds')].
    + cbn [app] in Hr3. rewrite (exp_no _ _ Hr3); auto.
      * cbn [bind]. change (pos (st t ?k)) with k. do 2 f_equal. f_equal; [f_equal|]; cbn [length]; lia.
      * destruct rest as [|b r]; [reflexivity|]. unfold is_e. cbn [hd_is].
        destruct ((b =? 101) || (b =? 69))%N eqn:E; [|reflexivity]. exfalso. apply Hgo. exists b, r. split; [auto|]. right. right. split; [lia|].
        rewrite app_nil_r. apply Forall_app. split; [destruct Hsg as [->| ->]; repeat constructor; discriminate|]. apply Forall_app. split; [auto|].
        constructor; [split; discriminate|auto].
    + cbn [app] in Hr3, Ha3. rewrite <- app_assoc in Hr3, Ha3. rewrite (exp_yes _ x s0 (d' :: ds') rest Hr3); auto; [|discriminate|].
      * cbn [bind]. change (pos (st t ?k)) with k. do 2 f_equal. f_equal; [f_equal|]; cbn [length app]; rewrite ?app_length; cbn [length]; lia.
      * apply ascii_app; auto. apply digits_num; auto.
Qed.

(** Otherwise the scanner stops with an error. *)
Lemma number_sound n r : skipn n (visible t) = r -> ascii r -> (hd_is r 45 = true \/ dig r = true) ->
  lexer_NUMBER t (st t n) = Fatal \/ exists p rest ty, r = p ++ rest /\ json_number p ty /\ ~ goes_on p rest.
Proof.
  intros Hr Ha Hst.
  assert (exists sg ds r', r = sg ++ ds ++ r' /\ (sg = [] /\ ds <> [] \/ sg = [45%N]) /\ Forall digit ds /\ dig r' = false) as (sg & ds & r' & -> & Hsg & Hds & Hnd).
  { destruct r as [|b r]; [destruct Hst; discriminate|]. destruct (N.eqb_spec b 45) as [->|Hb].
    - destruct (dig_split r) as (ds & r' & -> & H1 & H2). exists [45%N], ds, r'. auto.
    - destruct (dig_split (b :: r)) as (ds & r' & H & H1 & H2). exists [], ds, r'. repeat split; auto. left. split; [auto|]. intros ->.
      cbn in H. subst r'. destruct Hst as [Hst|Hst]; [cbn in Hst; lia|congruence]. }
  destruct (number_int n sg ds r' Hr Hsg Hds Hnd Ha) as [Hy Hno].
  assert (json_int ds \/ ~ json_int ds) as [Hj|Hj].
  { destruct ds as [|d ds]; [right; inversion 1|]. inversion Hds as [|? ? Hd Hds']; subst. unfold digit in Hd. destruct (N.eq_dec d 48) as [->|Hn].
    - destruct ds; [left; constructor|right; inversion 1; lia].
    - left. constructor; auto. lia. }
  2: { left. auto. }
  rewrite (Hy Hj). clear Hy Hno.
  assert (sg = [] \/ sg = [45%N]) as Hsg' by (destruct Hsg as [[-> _]| ->]; auto).
  assert (ascii r') as Ha2 by (apply (ascii_app_r ds); [apply digits_num; auto|]; apply (ascii_app_r sg); auto; apply sg_num; destruct Hsg' as [?|?]; auto).
  assert (skipn (n + length sg + length ds) (visible t) = r') as Hr2 by (eapply skipn_more, skipn_more; eauto).
  rewrite number_tail_eq.
  destruct (hd_is r' 46) eqn:E46.
  - destruct r' as [|b r1]; [discriminate|]. cbn in E46. apply N.eqb_eq in E46. subst b.
    rewrite (tail_cond _ _ Hr2) by auto. cbn [hd_is N.eqb Pos.eqb negb andb].
    assert (ascii r1) as Ha1 by (apply (ascii_app_r [46%N]); auto; apply Forall_cons; [right; cbn; auto|constructor]).
    destruct (dig_split r1) as (fs & r2 & -> & Hfs & Hnd2). destruct fs as [|f0 fs].
    { left. rewrite (frac_bad _ _ Hr2) by auto. reflexivity. }
    rewrite (frac_yes _ (f0 :: fs) r2 Hr2) by (auto; discriminate). cbn [bind].
    assert (json_frac (46%N :: f0 :: fs)) as Hfrac by (exists f0, fs; auto).
    change (46%N :: (f0 :: fs) ++ r2) with ((46%N :: f0 :: fs) ++ r2) in *.
    pose proof (skipn_more _ _ _ _ Hr2) as Hr3. change (length (46%N :: f0 :: fs)) with (S (length (f0 :: fs))) in Hr3.
    assert (ascii r2) as Ha3 by (apply (ascii_app_r (46%N :: f0 :: fs)); auto; apply frac_num; right; auto).
    destruct (is_e r2) eqn:Ee.
    + destruct r2 as [|x r3]; [discriminate|]. assert (x = 101 \/ x = 69)%N as Hx by (unfold is_e in Ee; cbn in Ee; lia).
      assert (exists s0 r4, r3 = s0 ++ r4 /\ (s0 = [] /\ is_sg r4 = false \/ s0 = [43%N] \/ s0 = [45%N])) as (s0 & r4 & -> & Hs0).
      { destruct r3 as [|b r3]; [exists [], []; auto|]. destruct (is_sg (b :: r3)) eqn:Es; [|exists [], (b :: r3); auto].
        exists [b], r3. split; [auto|]. right. unfold is_sg in Es. cbn in Es. assert (b = 43 \/ b = 45)%N as [->| ->] by lia; auto. }
      assert (ascii r4) as Ha4.
      { apply (ascii_app_r (x :: s0)); [|exact Ha3]. constructor; [right; cbn; lia|]. apply sg_num. destruct Hs0 as [[-> _]|[->| ->]]; auto. }
      destruct (dig_split r4) as (es & r5 & -> & Hes & Hnd3). destruct es as [|e0 es].
      { left. rewrite (exp_bad _ x s0 r5 Hr3) by auto. reflexivity. }
      right. exists (sg ++ ds ++ (46%N :: f0 :: fs) ++ (x :: s0 ++ e0 :: es)), r5, LNT_FLOAT. split; [|split].
      * repeat (rewrite <- !app_assoc; cbn [app]). reflexivity.
      * exists sg, ds, (46%N :: f0 :: fs), (x :: s0 ++ e0 :: es). split; [auto|]. split; [auto|]. split; [auto|]. split; [right; auto|].
        split; [right; exists x, s0, e0, es; repeat split; auto; destruct Hs0 as [[-> _]|Hs0]; auto|].
        split; [discriminate|intros []; discriminate].
      * intros (b & rr & -> & [Hd|[[-> Hd]|[Hd Hd']]]).
        -- cbn in Hnd3. apply digb_digit in Hd. congruence.
        -- apply Forall_app in Hd as [_ Hd]. apply Forall_app in Hd as [_ Hd]. inversion Hd as [|? ? [Hd'|Hd']]; [discriminate|unfold digit in Hd'; lia].
        -- rewrite !Forall_app in Hd'. destruct Hd' as (_ & _ & _ & Hd'). inversion Hd' as [|? ? [? ?]]; subst. destruct Hx; congruence.
    + right. exists (sg ++ ds ++ (46%N :: f0 :: fs) ++ []), r2, LNT_FLOAT. split; [|split].
      * rewrite <- !app_assoc. cbn [app]. reflexivity.
      * exists sg, ds, (46%N :: f0 :: fs), []. split; [auto|]. split; [auto|]. split; [auto|]. split; [right; auto|]. split; [left; auto|].
        split; [discriminate|intros []; discriminate].
      * intros (b & rr & -> & [Hd|[[-> Hd]|[Hd _]]]).
        -- cbn in Hnd2. apply digb_digit in Hd. congruence.
        -- rewrite !Forall_app in Hd. destruct Hd as (_ & _ & Hd & _). inversion Hd as [|? ? [Hd'|Hd']]; [discriminate|unfold digit in Hd'; lia].
        -- unfold is_e in Ee. cbn in Ee. lia.
  - rewrite (tail_cond _ _ Hr2), E46 by auto. cbn [negb andb]. destruct (is_e r') eqn:Ee; cbn [negb].
    + rewrite (frac_no _ _ Hr2) by auto. cbn [bind].
      destruct r' as [|x r3]; [discriminate|]. assert (x = 101 \/ x = 69)%N as Hx by (unfold is_e in Ee; cbn in Ee; lia).
      assert (exists s0 r4, r3 = s0 ++ r4 /\ (s0 = [] /\ is_sg r4 = false \/ s0 = [43%N] \/ s0 = [45%N])) as (s0 & r4 & -> & Hs0).
      { destruct r3 as [|b r3]; [exists [], []; auto|]. destruct (is_sg (b :: r3)) eqn:Es; [|exists [], (b :: r3); auto].
        exists [b], r3. split; [auto|]. right. unfold is_sg in Es. cbn in Es. assert (b = 43 \/ b = 45)%N as [->| ->] by lia; auto. }
      assert (ascii r4) as Ha4.
      { apply (ascii_app_r (x :: s0)); [|exact Ha2]. constructor; [right; cbn; lia|]. apply sg_num. destruct Hs0 as [[-> _]|[->| ->]]; auto. }
      destruct (dig_split r4) as (es & r5 & -> & Hes & Hnd3). destruct es as [|e0 es].
      { left. rewrite (exp_bad _ x s0 r5 Hr2) by auto. reflexivity. }
      right. exists (sg ++ ds ++ [] ++ (x :: s0 ++ e0 :: es)), r5, LNT_FLOAT. split; [|split].
      * rewrite <- !app_assoc. cbn [app]. rewrite <- !app_assoc. reflexivity.
      * exists sg, ds, [], (x :: s0 ++ e0 :: es). split; [auto|]. split; [auto|]. split; [auto|]. split; [left; auto|].
        split; [right; exists x, s0, e0, es; repeat split; auto; destruct Hs0 as [[-> _]|Hs0]; auto|].
        split; [discriminate|intros []; discriminate].
      * intros (b & rr & -> & [Hd|[[-> Hd]|[Hd Hd']]]).
        -- cbn in Hnd3. apply digb_digit in Hd. congruence.
        -- rewrite !Forall_app in Hd. destruct Hd as (_ & _ & _ & Hd). inversion Hd as [|? ? [Hd'|Hd']]; subst; [destruct Hx; discriminate|unfold digit in Hd'; destruct Hx; lia].
        -- rewrite !Forall_app in Hd'. destruct Hd' as (_ & _ & _ & Hd'). inversion Hd' as [|? ? [? ?]]; subst. destruct Hx; congruence.
    + right. exists (sg ++ ds ++ [] ++ []), r', LNT_INTEGER. split; [|split].
      * rewrite <- !app_assoc. reflexivity.
      * exists sg, ds, [], []. repeat split; auto; left; auto.
      * intros (b & rr & -> & [Hd|[[-> Hd]|[Hd _]]]).
        -- cbn in Hnd. apply digb_digit in Hd. congruence.
        -- cbn in E46. discriminate.
        -- unfold is_e in Ee. cbn in Ee. lia.
Qed.
End Lex.

Lemma split_app {A} (p : list A) b m a c : p ++ b :: m = a ++ c ->
  (exists a2, a = p ++ b :: a2) \/ (exists p2, p = a ++ p2 /\ p2 ++ b :: m = c).
Proof.
  revert a. induction p as [|x p IH]; intros a H.
  - destruct a as [|y a]; [right; exists []; auto|]. cbn in H. injection H as -> ->. left. exists a. reflexivity.
  - destruct a as [|y a]; [right; exists (x :: p); auto|]. cbn in H. injection H as -> H. destruct (IH a H) as [(a2 & ->)|(p2 & -> & H2)].
    + left. exists a2. reflexivity.
    + right. exists p2. auto.
Qed.

Lemma last_digit ds : ds <> [] -> Forall digit ds -> exists p d, ds = p ++ [d] /\ digit d.
Proof.
  intros Hne H. destruct (exists_last Hne) as (p & d & ->). exists p, d. split; [auto|]. apply Forall_app in H as [_ H]. inversion H; auto.
Qed.
Lemma json_int_digits i : json_int i -> i <> [] /\ Forall digit i.
Proof. inversion 1; subst; split; try discriminate; constructor; auto; unfold digit; lia. Qed.

Lemma number_last p ty : json_number p ty -> exists p' d, p = p' ++ [d] /\ digit d.
Proof.
  intros (sg & i & f & e & -> & _ & Hi & Hf & He & _). destruct (json_int_digits i Hi) as [Hi1 Hi2].
  destruct He as [->|(x & s0 & d & ds & -> & _ & _ & Hd)].
  - rewrite app_nil_r. destruct Hf as [->|(d & ds & -> & Hd)].
    + rewrite app_nil_r. destruct (last_digit i Hi1 Hi2) as (p' & d & -> & Hd). exists (sg ++ p'), d. rewrite app_assoc. auto.
    + destruct (last_digit (d :: ds)) as (p' & d' & E & Hd'); [discriminate|auto|]. rewrite E. exists (sg ++ i ++ 46%N :: p'), d'.
      rewrite <- !app_assoc. auto.
  - destruct (last_digit (d :: ds)) as (p' & d' & E & Hd'); [discriminate|auto|]. rewrite E. exists (sg ++ i ++ f ++ x :: s0 ++ p'), d'.
    rewrite <- !app_assoc. cbn [app]. rewrite <- !app_assoc. auto.
Qed.

Lemma digits_no_e ds : Forall digit ds -> Forall (fun c => c <> 101%N /\ c <> 69%N) ds.
Proof. apply Forall_impl. unfold digit. intros; lia. Qed.
Lemma digits_in ds p b m : ds = p ++ b :: m -> Forall digit ds -> digit b.
Proof. intros -> H. apply Forall_app in H as [_ H]. inversion H; auto. Qed.

Lemma number_next p b m ty ty' : json_number p ty -> json_number (p ++ b :: m) ty' ->
  digit b \/ (b = 46%N /\ Forall (fun c => c = 45%N \/ digit c) p) \/ ((b = 101 \/ b = 69)%N /\ Forall (fun c => c <> 101%N /\ c <> 69%N) p).
Proof.
  intros Hp (sg & i & f & e & Hq & Hsg & Hi & Hf & He & _). destruct (number_last _ _ Hp) as (p' & d & Hpd & Hd).
  destruct (json_int_digits i Hi) as [Hi1 Hi2].
  assert (Forall (fun c => c <> 101%N /\ c <> 69%N) sg) as Hsge by (destruct Hsg as [->| ->]; repeat constructor; discriminate).
  apply split_app in Hq as [(a2 & Hq)|(p2 & -> & Hq)].
  { destruct Hsg as [->| ->]; destruct p as [|x p]; cbn in Hq; try discriminate; [destruct p'; discriminate|]. injection Hq as _ Hq. destruct p; discriminate. }
  apply split_app in Hq as [(a2 & Hq)|(p3 & -> & Hq)].
  { left. eapply digits_in; eauto. }
  apply split_app in Hq as [(a2 & Hq)|(p4 & -> & Hq)].
  { destruct Hf as [->|(x & ds & -> & Hds)]; [destruct p3; discriminate|]. destruct p3 as [|y p3]; cbn in Hq; injection Hq as Hq1 Hq2.
    - right. left. split; [auto|]. rewrite app_nil_r. apply Forall_app. split; [destruct Hsg as [->| ->]; auto|]. eapply Forall_impl; [|exact Hi2]. auto.
    - left. eapply digits_in; eauto. }
  destruct He as [->|(x & s0 & d0 & ds & -> & Hx & Hs0 & Hds)]; [destruct p4; discriminate|].
  destruct p4 as [|y p4]; cbn in Hq; injection Hq as Hq1 Hq2.
  { right. right. split; [subst; auto|]. rewrite app_nil_r. apply Forall_app. split; [auto|]. apply Forall_app. split; [apply digits_no_e; auto|].
    destruct Hf as [->|(d1 & ds1 & -> & Hds1)]; [auto|]. constructor; [split; discriminate|apply digits_no_e; auto]. }
  apply split_app in Hq2 as [(a2 & Hq2)|(p5 & -> & Hq2)].
  { exfalso. destruct Hs0 as [->|[->| ->]]; destruct p4 as [|z p4]; cbn in Hq2; try discriminate; injection Hq2 as Hb Hq2;
      try (destruct p4; discriminate).
    - replace (sg ++ i ++ f ++ [y]) with ((sg ++ i ++ f) ++ [y]) in Hpd by (rewrite <- !app_assoc; auto). apply app_inj_tail in Hpd as [_ ->].
      unfold digit in Hd. lia.
    - replace (sg ++ i ++ f ++ [y]) with ((sg ++ i ++ f) ++ [y]) in Hpd by (rewrite <- !app_assoc; auto). apply app_inj_tail in Hpd as [_ ->].
      unfold digit in Hd. lia. }
  left. eapply digits_in; [|exact Hds]; eauto.
Qed.
