(** Proofs about the CSV lexer and parser. *)
From Verif Require Import Base BaseLemmas StrModel StrProofs LexModel LexSpec LexProofs CsvModel CsvSpec.
Local Open Scope N_scope.

Lemma double_quotes_eq s : double_quotes s = flat_map double_quoted_char s.
Proof. induction s as [|c s IH]; [reflexivity|]. cbn [double_quotes flat_map]. unfold double_quoted_char at 1. destruct (c =? 34); cbn [app]; rewrite IH; reflexivity. Qed.

(** *** Tokens on the remaining text *)
Fixpoint scan_f (r : list N) : option (list N * list N) :=
  match r with
  | [] => None
  | c :: r' =>
    if c =? 34 then None
    else match r' with
         | [] => Some ([c], [])
         | d :: _ => if (d =? 10) || (d =? 44) then Some ([c], r')
                     else match scan_f r' with Some (a, b) => Some (c :: a, b) | None => None end
         end
  end.
Fixpoint scan_q (r : list N) : option (list N * list N) :=
  match r with
  | [] => None
  | c :: r' =>
    if c =? 34 then
      match r' with
      | d :: r'' => if d =? 34 then match scan_q r'' with Some (a, b) => Some (34 :: a, b) | None => None end
                    else Some ([], r')
      | [] => Some ([], [])
      end
    else match scan_q r' with Some (a, b) => Some (c :: a, b) | None => None end
  end.
Definition ptok (r : list N) : option (token * list N) :=
  match r with
  | [] => Some (TEOF, [])
  | c :: r' =>
    if c =? 44 then Some (TCOMMA, r')
    else if c =? 10 then Some (TEOR, r')
    else if c =? 34 then match scan_q r' with Some (s, b) => Some (TQFIELD s, b) | None => None end
    else match scan_f r with Some (s, b) => Some (TFIELD s, b) | None => None end
  end.

Definition boundary (r : list N) : Prop := match r with [] => True | c :: _ => c = 10 \/ c = 44 end.
Definition no_quote (r : list N) : Prop := match r with [] => True | c :: _ => c <> 34 end.

Lemma scan_f_ok r : forall a b, scan_f r = Some (a, b) -> r = a ++ b /\ boundary b /\
  exists c a', a = c :: a' /\ c <> 34 /\ Forall plain_char a'.
Proof.
  induction r as [|c r IH]; intros a b H; [discriminate|]. cbn [scan_f] in H. destruct (N.eqb_spec c 34) as [->|Hc]; [discriminate|].
  destruct r as [|d r].
  - injection H as <- <-. cbn. repeat split; auto. exists c, []. auto.
  - destruct ((d =? 10) || (d =? 44)) eqn:E.
    + injection H as <- <-. cbn. repeat split; auto; [lia|]. exists c, []. auto.
    + destruct (scan_f (d :: r)) as [[a0 b0]|] eqn:E1; [|discriminate]. injection H as <- <-.
      destruct (IH _ _ eq_refl) as (H1 & H2 & c' & a' & -> & H4 & H5). rewrite H1. repeat split; auto. exists c, (c' :: a'). repeat split; auto.
      constructor; auto. injection H1 as <- _. unfold plain_char. lia.
Qed.
Lemma scan_f_app a b : a <> [] -> Forall plain_char a -> boundary b -> scan_f (a ++ b) = Some (a, b).
Proof.
  induction a as [|c a IH]; intros Hn Ha Hb; [congruence|]. inversion Ha as [|? ? Hc Ha']; subst. cbn [app scan_f].
  unfold plain_char in Hc. replace (c =? 34) with false by lia. destruct a as [|d a].
  - cbn [app]. destruct b as [|e b]; [reflexivity|]. cbn in Hb. replace ((e =? 10) || (e =? 44)) with true by lia. reflexivity.
  - cbn [app]. inversion Ha' as [|? ? Hd]; subst. unfold plain_char in Hd. replace ((d =? 10) || (d =? 44)) with false by lia.
    change (d :: a ++ b) with ((d :: a) ++ b). rewrite IH by (auto; discriminate). reflexivity.
Qed.
Lemma scan_q_ok r : forall a b, scan_q r = Some (a, b) -> r = double_quotes a ++ 34 :: b /\ no_quote b.
Proof.
  induction r as [r IH] using (well_founded_induction (Wf_nat.well_founded_ltof _ (@length N))). unfold Wf_nat.ltof in IH.
  intros a b H. destruct r as [|c r]; [discriminate|]. cbn [scan_q] in H. destruct (N.eqb_spec c 34) as [->|Hc].
  - destruct r as [|d r]; [injection H as <- <-; cbn; auto|]. destruct (N.eqb_spec d 34) as [->|Hd].
    + destruct (scan_q r) as [[a0 b0]|] eqn:E; [|discriminate]. injection H as <- <-. destruct (IH r) with (a := a0) (b := b0) as [-> Hb]; [cbn; lia|auto|].
      cbn. auto.
    + injection H as <- <-. cbn. auto.
  - destruct (scan_q r) as [[a0 b0]|] eqn:E; [|discriminate]. injection H as <- <-. destruct (IH r) with (a := a0) (b := b0) as [-> Hb]; [cbn; lia|auto|].
    cbn [double_quotes]. replace (c =? 34) with false by lia. auto.
Qed.
Lemma scan_q_app a b : no_quote b -> scan_q (double_quotes a ++ 34 :: b) = Some (a, b).
Proof.
  intros Hb. induction a as [|c a IH]; cbn [double_quotes app].
  - cbn [scan_q N.eqb Pos.eqb]. destruct b as [|d b]; [reflexivity|]. cbn in Hb. replace (d =? 34) with false by lia. reflexivity.
  - destruct (N.eqb_spec c 34) as [->|Hc].
    + cbn [app scan_q N.eqb Pos.eqb]. rewrite IH. reflexivity.
    + cbn [app scan_q]. replace (c =? 34) with false by lia. rewrite IH. reflexivity.
Qed.

Section Csv.
Variable t : list N.
Hypothesis Ht : bytes_ok t.
Notation v := (visible t).

Lemma curb n r c z : skipn n v = r -> 0 < c < 128 -> z = Z.of_N c -> (cur (st t n) =? z)%Z = hd_is r c.
Proof.
  intros H Hc ->. rewrite (cur_st t n r H), head_eqb_b; [rewrite N2Z.id; reflexivity|lia|].
  subst r. apply bytes_ok_skipn. apply Forall_forall. intros b Hb. apply (visible_ok t b Ht Hb).
Qed.
Lemma cur_eof n r : skipn n v = r -> (cur (st t n) =? EOF)%Z = match r with [] => true | _ => false end.
Proof.
  intros H. rewrite (cur_st t n r H). destruct r as [|b r]; [reflexivity|]. cbn [head].
  destruct (skipn_cons _ _ _ _ H) as (E & _). pose proof (nth_error_In _ _ E) as Hi.
  destruct (visible_in t b Hi). pose proof (visible_ok t b Ht Hi). destruct (schar_ne b); auto. lia.
Qed.
Lemma len_skip n r : skipn n v = r -> (length r <= length t)%nat.
Proof.
  intros <-. rewrite skipn_length. destruct (visible_cases t) as (r0 & Ht' & _). rewrite Ht' at 2. rewrite app_length. lia.
Qed.
Lemma slice_st n a b : skipn n v = a ++ b -> slice t n (length a) = a.
Proof.
  intros H. unfold slice. destruct (visible_cases t) as (r0 & Ht' & _). rewrite Ht', skipn_app, H, <- app_assoc.
  rewrite firstn_app, Nat.sub_diag, firstn_all. apply app_nil_r.
Qed.

Lemma field_loop_st fuel : forall n r, skipn n v = r -> r <> [] -> (length r < fuel)%nat ->
  field_loop fuel t (st t n) = match scan_f r with Some (a, b) => Ok (st t (n + length a)) | None => Fatal end.
Proof.
  induction fuel as [|fuel IH]; intros n r Hr Hne Hf; [lia|]. cbn [field_loop].
  rewrite (curb n r 34 34%Z Hr) by lia. destruct r as [|c r]; [congruence|]. cbn [hd_is scan_f]. destruct (c =? 34); [reflexivity|].
  destruct (consume_r t Ht n c r Hr) as [-> Hr1]. cbn [bind].
  rewrite (cur_eof _ _ Hr1), (curb _ _ 10 10%Z Hr1), (curb _ _ 44 44%Z Hr1) by lia. destruct r as [|d r]; cbn [hd_is negb andb].
  - cbn [length]. do 2 f_equal. lia.
  - destruct (d =? 10) eqn:E1; [cbn; do 2 f_equal; lia|]. destruct (d =? 44) eqn:E2; [cbn; do 2 f_equal; lia|]. cbn [negb andb orb].
    rewrite (IH (S n) (d :: r)); auto; [|discriminate|cbn in *; lia]. destruct (scan_f (d :: r)) as [[a b]|]; [|reflexivity].
    cbn [length]. do 2 f_equal. lia.
Qed.

Lemma qfield_loop_st fuel : forall n r, skipn n v = r -> (length r < fuel)%nat ->
  match scan_q r with
  | Some (a, b) => qfield_loop fuel t (st t n) = Ok (true, st t (n + length (double_quotes a) + 1))
  | None => exists l, qfield_loop fuel t (st t n) = Ok (false, l)
  end.
Proof.
  induction fuel as [|fuel IH]; intros n r Hr Hf; [lia|]. cbn [qfield_loop].
  rewrite (curb n r 34 34%Z Hr) by lia. destruct r as [|c r]; cbn [hd_is scan_q].
  - rewrite (consume_end t n) by (apply skipn_nil_len; auto). cbn [bind]. rewrite (cur_eof _ _ Hr). cbn. eauto.
  - destruct (consume_r t Ht n c r Hr) as [-> Hr1]. cbn [bind]. destruct (N.eqb_spec c 34) as [->|Hc].
    + rewrite (curb _ _ 34 34%Z Hr1) by lia. destruct r as [|d r]; cbn [hd_is negb].
      * cbn. do 3 f_equal. lia.
      * destruct (N.eqb_spec d 34) as [->|Hd]; cbn [negb].
        -- destruct (consume_r t Ht _ _ r Hr1) as [-> Hr2]. cbn [bind]. rewrite (cur_eof _ _ Hr2).
           destruct r as [|e r]; cbn [negb]; [cbn; eauto|].
           pose proof (IH (S (S n)) (e :: r) Hr2 ltac:(cbn in *; lia)) as I. destruct (scan_q (e :: r)) as [[a b]|]; [|exact I].
           rewrite I. cbn [double_quotes N.eqb Pos.eqb length]. do 3 f_equal. lia.
        -- cbn. do 3 f_equal. lia.
    + rewrite (cur_eof _ _ Hr1). destruct r as [|e r]; cbn [negb]; [cbn; eauto|].
      pose proof (IH (S n) (e :: r) Hr1 ltac:(cbn in *; lia)) as I. destruct (scan_q (e :: r)) as [[a b]|]; [|exact I].
      rewrite I. cbn [double_quotes]. replace (c =? 34) with false by lia. cbn [length]. do 3 f_equal. lia.
Qed.

Lemma next_token_st n r : skipn n v = r ->
  match ptok r with
  | Some (k, r') => exists m, csv_next_token t (st t n) = Ok (st t m, k) /\ skipn m v = r'
  | None => csv_next_token t (st t n) = Fatal
  end.
Proof.
  intros Hr. unfold csv_next_token, ptok. rewrite (cur_eof _ _ Hr). destruct r as [|c r]; [eauto|].
  rewrite (curb _ _ 44 44%Z Hr), (curb _ _ 10 10%Z Hr), (curb _ _ 34 34%Z Hr) by lia. cbn [hd_is].
  destruct (N.eqb_spec c 44) as [->|H44]; [destruct (consume_r t Ht _ _ _ Hr) as [-> Hr1]; cbn; eauto|].
  destruct (N.eqb_spec c 10) as [->|H10]; [destruct (consume_r t Ht _ _ _ Hr) as [-> Hr1]; cbn; eauto|].
  pose proof (len_skip _ _ Hr) as Hl. destruct (N.eqb_spec c 34) as [->|H34].
  - unfold csv_QFIELD. destruct (consume_r t Ht _ _ _ Hr) as [-> Hr1]. cbn [bind]. change (pos (st t (S n))) with (S n).
    pose proof (qfield_loop_st (S (length t)) (S n) r Hr1 ltac:(cbn in Hl; lia)) as Q. destruct (scan_q r) as [[a b]|] eqn:E.
    + rewrite Q. cbn [bind negb]. change (pos (st t (S n + length (double_quotes a) + 1))) with (S n + length (double_quotes a) + 1)%nat.
      destruct (scan_q_ok _ _ _ E) as [E1 _]. rewrite E1 in Hr1.
      replace (S n + length (double_quotes a) + 1 - 1 - S n)%nat with (length (double_quotes a)) by lia.
      rewrite (slice_st _ _ _ Hr1). rewrite double_quotes_eq, double_quoted_decode. cbn [bind]. rewrite <- double_quotes_eq. eexists. split; [reflexivity|].
      replace (S n + length (double_quotes a) + 1)%nat with (S n + length (double_quotes a ++ [34%N]))%nat by (rewrite app_length; cbn; lia).
      apply skipn_more. rewrite <- app_assoc. exact Hr1.
    + destruct Q as (l & ->). reflexivity.
  - unfold csv_FIELD. change (pos (st t n)) with n. rewrite (field_loop_st (S (length t)) n (c :: r) Hr) by (auto; try discriminate; lia).
    destruct (scan_f (c :: r)) as [[a b]|] eqn:E; cbn [bind]; [|reflexivity]. change (pos (st t (n + length a))) with (n + length a)%nat.
    destruct (scan_f_ok _ _ _ E) as (E1 & _). rewrite E1 in Hr. replace (n + length a - n)%nat with (length a) by lia. rewrite (slice_st _ _ _ Hr).
    eexists. split; [reflexivity|]. apply skipn_more. exact Hr.
Qed.

Lemma ptok_text r k r' : ptok r = Some (k, r') -> r = token_text k ++ r' /\ (r <> [] -> k <> TEOF /\ (length r' < length r)%nat).
Proof.
  unfold ptok. destruct r as [|c r]; [intros [= <- <-]; cbn; split; [auto|congruence]|].
  destruct (N.eqb_spec c 44) as [->|H44]; [intros [= <- <-]; cbn; split; [auto|split; [congruence|lia]]|].
  destruct (N.eqb_spec c 10) as [->|H10]; [intros [= <- <-]; cbn; split; [auto|split; [congruence|lia]]|].
  destruct (N.eqb_spec c 34) as [->|H34].
  - destruct (scan_q r) as [[a b]|] eqn:E; [|discriminate]. intros [= <- <-]. destruct (scan_q_ok _ _ _ E) as [-> _].
    cbn [token_text]. split; [cbn; rewrite <- app_assoc; reflexivity|]. intros _. split; [discriminate|]. cbn. rewrite app_length. cbn. lia.
  - destruct (scan_f (c :: r)) as [[a b]|] eqn:E; [|discriminate]. intros [= <- <-]. destruct (scan_f_ok _ _ _ E) as (E1 & _ & c0 & a' & -> & _).
    rewrite E1. cbn [token_text]. split; [auto|]. intros _. split; [discriminate|]. rewrite app_length. cbn. lia.
Qed.

(** Tokens ahead (without TEOF); the flag tells whether the text ends well. *)
Inductive stream : list N -> list token -> bool -> Prop :=
| s_end : stream [] [] true
| s_bad r : ptok r = None -> stream r [] false
| s_cons r k r' ks ok : r <> [] -> ptok r = Some (k, r') -> stream r' ks ok -> stream r (k :: ks) ok.
Lemma stream_total r : exists ks ok, stream r ks ok /\ (length ks <= length r)%nat.
Proof.
  induction r as [r IH] using (well_founded_induction (Wf_nat.well_founded_ltof _ (@length N))). unfold Wf_nat.ltof in IH.
  destruct r as [|c r]; [exists [], true; split; [constructor|cbn; lia]|].
  destruct (ptok (c :: r)) as [[k r']|] eqn:E; [|exists [], false; split; [constructor; auto|cbn; lia]].
  destruct (ptok_text _ _ _ E) as [_ H]. destruct H as [_ H]; [discriminate|]. destruct (IH r' H) as (ks & ok & H1 & H2).
  exists (k :: ks), ok. split; [|cbn in *; lia]. econstructor; eauto. discriminate.
Qed.
Lemma stream_text r ks : stream r ks true -> r = flat_map token_text ks /\ ~ In TEOF ks.
Proof.
  remember true as ok eqn:E. induction 1 as [| |r k r' ks ok Hn Hp Hs IH]; [cbn; auto|discriminate|].
  destruct (IH E) as [-> H2]. destruct (ptok_text _ _ _ Hp) as [-> H]. destruct (H Hn) as [Hk _]. cbn. split; [auto|]. intros [H3|H3]; auto.
Qed.

Definition at_ (l : lexer) (ks : list token) (ok : bool) : Prop := exists n, l = st t n /\ stream (skipn n v) ks ok.
Lemma next_at l ks ok : at_ l ks ok ->
  match ks with
  | k :: ks' => k <> TEOF /\ exists l', csv_next_token t l = Ok (l', k) /\ at_ l' ks' ok
  | [] => if ok then exists l', csv_next_token t l = Ok (l', TEOF) /\ at_ l' [] true else csv_next_token t l = Fatal
  end.
Proof.
  intros (n & -> & Hs). pose proof (next_token_st n _ eq_refl) as Hx. remember (skipn n v) as r eqn:Er. destruct Hs as [|r Hp|r k r' ks ok Hn Hp Hs].
  - cbn in Hx. destruct Hx as (m & H1 & H2). eexists. split; [exact H1|]. exists m. rewrite H2. split; [auto|constructor].
  - rewrite Hp in Hx. exact Hx.
  - rewrite Hp in Hx. destruct Hx as (m & H1 & H2). destruct (ptok_text _ _ _ Hp) as [_ H]. split; [apply H; auto|].
    eexists. split; [exact H1|]. exists m. rewrite H2. auto.
Qed.
Lemma new_at : exists l ks ok, lexer_new t = Ok l /\ at_ l ks ok /\ stream v ks ok /\ (length ks <= length t)%nat.
Proof.
  destruct (stream_total v) as (ks & ok & H1 & H2). exists (st t 0), ks, ok. split; [apply new_st; auto|]. split; [exists 0%nat; auto|]. split; [auto|].
  pose proof (len_skip 0 _ eq_refl) as H. cbn [skipn] in H. lia.
Qed.

Lemma tokens_at fuel : forall l ks ok, at_ l ks ok -> (length ks < fuel)%nat ->
  tokens_loop fuel t l = if ok then Ok (ks ++ [TEOF]) else Fatal.
Proof.
  induction fuel as [|fuel IH]; intros l ks ok H Hf; [lia|]. cbn [tokens_loop]. pose proof (next_at _ _ _ H) as Hx. destruct ks as [|k ks].
  - destruct ok; [destruct Hx as (l' & -> & _); reflexivity|rewrite Hx; reflexivity].
  - destruct Hx as (Hk & l' & -> & H'). cbn [bind]. rewrite (IH _ _ _ H') by (cbn in Hf; lia). destruct k; try congruence; destruct ok; reflexivity.
Qed.
Lemma csv_tokens_at ks ok : stream v ks ok -> csv_tokens t = if ok then Ok (ks ++ [TEOF]) else Fatal.
Proof.
  intros Hs. unfold csv_tokens. rewrite (new_st t Ht). cbn [bind]. apply tokens_at; [exists 0%nat; auto|].
  clear - Hs Ht. assert (length ks <= length v)%nat as H.
  { induction Hs as [| |r k r' ks ok Hn Hp Hs IH]; cbn; try lia. destruct (ptok_text _ _ _ Hp) as [_ H]. destruct (H Hn). lia. }
  pose proof (len_skip 0 _ eq_refl) as H'. cbn [skipn] in H'. lia.
Qed.

(** *** Parser: what it accepts *)
Definition consT (k : token) (ks : list token) : list token := match k with TEOF => ks | _ => k :: ks end.
Definition tail_tokens (fs : list csv_field) : list token := flat_map (fun f => TCOMMA :: field_tokens f) fs.
Lemma record_tokens_cons f fs : record_tokens (f :: fs) = field_tokens f ++ tail_tokens fs.
Proof.
  unfold record_tokens. revert f. induction fs as [|g fs IH]; intros f; [cbn; rewrite app_nil_r; reflexivity|].
  change (map field_tokens (f :: g :: fs)) with (field_tokens f :: map field_tokens (g :: fs)). cbn [join].
  change (map field_tokens (g :: fs)) with (field_tokens g :: map field_tokens fs) at 1. cbn [join map]. cbn [map join] in IH. rewrite IH. reflexivity.
Qed.
Definition tok_end (k : token) (ks : list token) (ok : bool) : Prop := k = TEOF -> ks = [] /\ ok = true.

Lemma fields_at fuel : forall l k ks ok acc, at_ l ks ok -> tok_end k ks ok -> (length (consT k ks) < fuel)%nat ->
  fields_loop fuel t l k acc = Fatal \/
  exists l' k' ks' fs, fields_loop fuel t l k acc = Ok (l', k', acc ++ fs) /\ at_ l' ks' ok /\ tok_end k' ks' ok /\
    consT k ks = tail_tokens fs ++ consT k' ks' /\ (k' = TEOR \/ k' = TEOF).
Proof.
  induction fuel as [|fuel IH]; intros l k ks ok acc H He Hf; [lia|]. cbn [fields_loop]. destruct k; auto.
  - right. exists l, TEOF, ks, []. rewrite app_nil_r. auto 10.
  - right. exists l, TEOR, ks, []. rewrite app_nil_r. auto 10.
  - pose proof (next_at _ _ _ H) as Hx. destruct ks as [|k ks].
    + destruct ok; [|left; rewrite Hx; reflexivity]. destruct Hx as (l1 & -> & H1). cbn [bind].
      destruct (IH l1 TEOF [] true (acc ++ [None])) as [->|(l2 & k2 & ks2 & fs & H2 & H3 & H4 & H5 & H6)]; auto; [red; auto|cbn in *; lia|].
      right. exists l2, k2, ks2, (None :: fs). rewrite H2, <- app_assoc. cbn [consT tail_tokens flat_map field_tokens app].
      repeat split; auto; try (apply H4; auto). cbn [consT] in H5. rewrite H5. reflexivity.
    + destruct Hx as (Hk & l1 & -> & H1). cbn [bind consT length] in *.
      assert ((exists f, field_tokens f = [k] /\ field_of k = f) \/ (k = TCOMMA \/ k = TEOR)) as Hc
        by (destruct k as [| | |s|s]; [congruence|auto|auto|left; exists (Some (false, s)); auto|left; exists (Some (true, s)); auto]).
      destruct Hc as [(f & Hf1 & Hf2)|Hc].
      * assert (forall B (x y : res B), match k with TCOMMA | TEOR | TEOF => x | _ => y end = y) as Hm by (destruct f as [[[] ?]|]; cbn in Hf1; try discriminate; injection Hf1 as <-; reflexivity).
        rewrite Hm. clear Hm. pose proof (next_at _ _ _ H1) as Hx. assert (exists l2 k2 ks2, csv_next_token t l1 = Ok (l2, k2) /\ at_ l2 ks2 ok /\ tok_end k2 ks2 ok /\ ks = consT k2 ks2 \/ csv_next_token t l1 = Fatal) as (l2 & k2 & ks2 & [(E & H2 & H3 & H4)|E]).
        { destruct ks as [|k2 ks2].
          - destruct ok; [|exists l1, TEOF, []; auto]. destruct Hx as (l2 & E & H2). exists l2, TEOF, []. left. repeat split; auto.
          - destruct Hx as (Hk2 & l2 & E & H2). exists l2, k2, ks2. left. repeat split; auto; destruct k2; try reflexivity; congruence. }
        2: { left. rewrite E. reflexivity. }
        rewrite E. cbn [bind]. rewrite H4 in Hf. destruct (IH l2 k2 ks2 ok (acc ++ [field_of k])) as [->|(l3 & k3 & ks3 & fs & G1 & G2 & G3 & G4 & G5)]; auto; [lia|].
        right. exists l3, k3, ks3, (f :: fs). rewrite G1, <- app_assoc, Hf2. repeat split; auto; try (apply G3; auto).
        cbn [tail_tokens flat_map]. rewrite Hf1. cbn [app]. rewrite H4, G4. reflexivity.
      * assert (forall B (x y : res B), match k with TCOMMA | TEOR | TEOF => x | _ => y end = x) as -> by (destruct Hc as [->| ->]; reflexivity).
        assert (consT k ks = k :: ks) as Hck by (destruct Hc as [->| ->]; reflexivity).
        destruct (IH l1 k ks ok (acc ++ [None])) as [->|(l3 & k3 & ks3 & fs & G1 & G2 & G3 & G4 & G5)]; auto; [red; intros; subst; destruct Hc; congruence|rewrite Hck; cbn; lia|].
        right. exists l3, k3, ks3, (None :: fs). rewrite G1, <- app_assoc. repeat split; auto; try (apply G3; auto).
        cbn [tail_tokens flat_map field_tokens app]. rewrite <- Hck, G4. reflexivity.
Qed.

Lemma next_consT l ks ok : at_ l ks ok ->
  csv_next_token t l = Fatal \/ exists l' k' ks', csv_next_token t l = Ok (l', k') /\ at_ l' ks' ok /\ tok_end k' ks' ok /\ ks = consT k' ks'.
Proof.
  intros H. pose proof (next_at _ _ _ H) as Hx. destruct ks as [|k ks].
  - destruct ok; [|auto]. destruct Hx as (l2 & E & H2). right. exists l2, TEOF, []. repeat split; auto.
  - destruct Hx as (Hk & l2 & E & H2). right. exists l2, k, ks. repeat split; auto; destruct k; try reflexivity; congruence.
Qed.

Lemma record_at l k ks ok : at_ l ks ok -> k <> TEOF -> (length (k :: ks) <= length t)%nat ->
  parse_record t l k = Fatal \/
  exists l' k' ks' r, parse_record t l k = Ok (l', k', r) /\ at_ l' ks' ok /\ tok_end k' ks' ok /\ r <> [] /\ r <> [None] /\
    (k :: ks = record_tokens r ++ TEOR :: consT k' ks' \/ k :: ks = record_tokens r /\ k' = TEOF /\ ks' = [] /\ ok = true).
Proof.
  intros H Hk Hl. unfold parse_record.
  assert (forall l1 k1 ks1 f, at_ l1 ks1 ok -> tok_end k1 ks1 ok -> k :: ks = field_tokens f ++ consT k1 ks1 ->
    (f = None -> k1 = TCOMMA) ->
    (let* (l, k, r) := fields_loop (S (length t)) t l1 k1 [f] in
     match k with TEOR => let* (l, k) := csv_next_token t l in Ok (l, k, r) | _ => Ok (l, k, r) end) = Fatal \/
    exists l' k' ks' r, (let* (l, k, r) := fields_loop (S (length t)) t l1 k1 [f] in
     match k with TEOR => let* (l, k) := csv_next_token t l in Ok (l, k, r) | _ => Ok (l, k, r) end) = Ok (l', k', r) /\ at_ l' ks' ok /\ tok_end k' ks' ok /\ r <> [] /\ r <> [None] /\
    (k :: ks = record_tokens r ++ TEOR :: consT k' ks' \/ k :: ks = record_tokens r /\ k' = TEOF /\ ks' = [] /\ ok = true)) as G.
  { intros l1 k1 ks1 f G1 G2 G3 G4. assert (length (consT k1 ks1) < S (length t))%nat as Hl1.
    { apply (f_equal (@length token)) in G3. rewrite app_length in G3. lia. }
    destruct (fields_at _ l1 k1 ks1 ok [f] G1 G2 Hl1) as [->|(l2 & k2 & ks2 & fs & -> & K2 & K3 & K4 & K5)]; [auto|]. cbn [bind].
    assert ([f] ++ fs <> [None]) as Hnn.
    { intros E. injection E as -> ->. rewrite (G4 eq_refl) in K4. cbn in K4. destruct K5 as [-> | ->]; [discriminate|].
      destruct (K3 eq_refl) as [-> _]. discriminate. }
    assert ([f] ++ fs <> []) as Hne by discriminate.
    destruct K5 as [-> | ->].
    - destruct (next_consT _ _ _ K2) as [->|(l3 & k3 & ks3 & -> & E2 & E3 & E4)]; [auto|]. right. exists l3, k3, ks3, ([f] ++ fs). cbn [bind].
      repeat (split; auto). left. cbn [app]. rewrite record_tokens_cons, G3, K4, <- app_assoc. cbn [consT]. rewrite E4. reflexivity.
    - right. exists l2, TEOF, ks2, ([f] ++ fs). destruct (K3 eq_refl) as [-> ->]. repeat (split; auto). right. cbn [app].
      rewrite record_tokens_cons, G3, K4. cbn [consT]. rewrite app_nil_r. auto. }
  destruct k; try congruence; auto.
  - apply (G l TCOMMA ks None); auto. red; discriminate.
  - destruct (next_consT _ _ _ H) as [->|(l1 & k1 & ks1 & -> & E2 & E3 & ->)]; [auto|]. cbn [bind].
    apply (G l1 k1 ks1 (Some (false, s))); auto. discriminate.
  - destruct (next_consT _ _ _ H) as [->|(l1 & k1 & ks1 & -> & E2 & E3 & ->)]; [auto|]. cbn [bind].
    apply (G l1 k1 ks1 (Some (true, s))); auto. discriminate.
Qed.

Definition good_rec (r : list csv_field) : Prop := r <> [] /\ r <> [None].
Definition ends (ks : list token) (rs : list (list csv_field)) : Prop :=
  ks = csv_text_tokens rs \/ ks ++ [TEOR] = csv_text_tokens rs.

Lemma records_at fuel : forall l k ks ok nc acc, at_ l ks ok -> tok_end k ks ok -> (length (consT k ks) < fuel <= S (length t))%nat ->
  records_loop fuel t l k nc acc = Fatal \/
  exists nc' rs, records_loop fuel t l k nc acc = Ok (nc', acc ++ rs) /\ ok = true /\ Forall good_rec rs /\ ends (consT k ks) rs /\
    (nc <> 0%nat -> nc' = nc) /\ Forall (fun r => length r = nc') rs.
Proof.
  induction fuel as [|fuel IH]; intros l k ks ok nc acc H He Hf; [lia|]. cbn [records_loop].
  destruct (match k with TEOF => true | _ => false end) eqn:Ek.
  - destruct k; try discriminate. right. destruct (He eq_refl) as [-> ->]. exists nc, []. rewrite app_nil_r. repeat split; auto. left. reflexivity.
  - assert (k <> TEOF) as Hk by (intros ->; discriminate). assert (consT k ks = k :: ks) as Hck by (destruct k; congruence || reflexivity).
    assert (forall B (x y : B), match k with TEOF => x | _ => y end = y) as -> by (destruct k; congruence || reflexivity).
    rewrite Hck in Hf. destruct (record_at l k ks ok H Hk ltac:(lia)) as [->|(l1 & k1 & ks1 & r & -> & G1 & G2 & G3 & G4 & G5)]; [auto|]. cbn [bind].
    set (nc1 := if (nc =? 0)%nat then length r else nc).
    destruct ((nc =? 0)%nat || (length r =? nc)%nat) eqn:En.
    2: { left. destruct (nc =? 0)%nat; [discriminate|]. cbn in En. rewrite En. reflexivity. }
    assert ((if (nc =? 0)%nat then records_loop fuel t l1 k1 (length r) (acc ++ [r]) else if negb (length r =? nc)%nat then Fatal else records_loop fuel t l1 k1 nc (acc ++ [r])) = records_loop fuel t l1 k1 nc1 (acc ++ [r])) as ->.
    { unfold nc1. destruct (nc =? 0)%nat; [reflexivity|]. cbn in En. rewrite En. reflexivity. }
    assert (length (consT k1 ks1) < fuel)%nat as Hl.
    { destruct G5 as [E|(E & -> & -> & _)].
      - apply (f_equal (@length token)) in E. rewrite app_length in E. cbn [length] in *. lia.
      - cbn [consT length] in *. lia. }
    destruct (IH l1 k1 ks1 ok nc1 (acc ++ [r]) G1 G2 ltac:(lia)) as [->|(nc' & rs & -> & E1 & E2 & E3 & E4 & E5)]; [auto|]. right.
    exists nc', (r :: rs). rewrite <- app_assoc. assert (nc1 <> 0)%nat as Hn1.
    { unfold nc1. destruct (Nat.eqb_spec nc 0); [destruct r; [congruence|discriminate]|auto]. }
    rewrite (E4 Hn1) in *. clear E4. repeat split; auto.
    + constructor; [split; auto|auto].
    + rewrite Hck. unfold ends in *. cbn [csv_text_tokens flat_map]. destruct G5 as [->|(-> & -> & -> & _)].
      * rewrite <- app_assoc. cbn [app]. destruct E3 as [-> |E3]; [left; reflexivity|]. right. rewrite <- app_assoc. cbn [app]. rewrite E3. reflexivity.
      * right. cbn [consT] in E3. destruct E3 as [E3|E3]; cbn [app] in E3.
        -- unfold csv_text_tokens in E3. rewrite <- E3. rewrite app_nil_r. reflexivity.
        -- exfalso. destruct rs as [|r' rs]; [discriminate|]. inversion E2 as [|? ? [Hr1 Hr2] _]; subst. cbn [csv_text_tokens flat_map] in E3.
           destruct r' as [|f fs]; [congruence|]. rewrite record_tokens_cons in E3. destruct f as [[[] s]|]; cbn in E3; try discriminate.
           destruct fs; [congruence|discriminate].
    + intros Hnc. unfold nc1. destruct (Nat.eqb_spec nc 0); [congruence|reflexivity].
    + constructor; [|auto]. unfold nc1. destruct (Nat.eqb_spec nc 0); [reflexivity|]. cbn in En. lia.
Qed.

Lemma parse_at : parse_csv t = Fatal \/
  exists nc rs ks, parse_csv t = Ok (nc, rs) /\ stream v ks true /\ Forall good_rec rs /\ ends ks rs /\ rs <> [] /\ Forall (fun r => length r = nc) rs.
Proof.
  unfold parse_csv. destruct new_at as (l & ks & ok & -> & H & Hs & Hl). cbn [bind].
  destruct (next_consT _ _ _ H) as [->|(l1 & k1 & ks1 & -> & E2 & E3 & ->)]; [auto|]. cbn [bind].
  destruct (match k1 with TEOF => true | _ => false end) eqn:Ek; [destruct k1; auto; discriminate|].
  assert (forall B (x y : B), match k1 with TEOF => x | _ => y end = y) as -> by (destruct k1; discriminate || reflexivity).
  destruct (records_at (S (length t)) l1 k1 ks1 ok 0%nat [] E2 E3 ltac:(lia)) as [->|(nc & rs & -> & -> & G1 & G2 & G3 & G4)]; [auto|].
  right. exists nc, rs, (consT k1 ks1). cbn [app]. repeat split; auto. intros ->. destruct G2 as [G2|G2]; cbn in G2; destruct k1; discriminate.
Qed.

(** *** Parser: it accepts every table *)
Lemma fields_back fuel : forall fs l k ks acc rest, at_ l ks true -> tok_end k ks true ->
  consT k ks = tail_tokens fs ++ rest -> rest = [] \/ (exists r', rest = TEOR :: r') -> (length fs < fuel)%nat ->
  exists l' k' ks', fields_loop fuel t l k acc = Ok (l', k', acc ++ fs) /\ at_ l' ks' true /\ tok_end k' ks' true /\ consT k' ks' = rest /\ (k' = TEOR \/ k' = TEOF).
Proof.
  induction fuel as [|fuel IH]; intros fs l k ks acc rest H He E Hr Hf; [lia|]. cbn [fields_loop]. destruct fs as [|f fs].
  - cbn in E. assert (k = TEOR \/ k = TEOF) as Hk.
    { destruct Hr as [->|(r' & ->)]; destruct k; cbn in E; auto; discriminate. }
    exists l, k, ks. rewrite app_nil_r. repeat split; auto; try (apply He; auto). destruct Hk as [->| ->]; reflexivity.
  - cbn [tail_tokens flat_map app] in E. fold (tail_tokens fs) in E.
    assert (k = TCOMMA) as ->.
    { destruct k; cbn in E; try discriminate; auto. exfalso. destruct (He eq_refl) as [-> _]. discriminate. }
    cbn [consT] in E. injection E as E. rewrite <- app_assoc in E.
    pose proof (next_at _ _ _ H) as Hx. destruct f as [f0|].
    + assert (exists kf, field_tokens (Some f0) = [kf] /\ field_of kf = Some f0 /\ forall B (x y : res B), match kf with TCOMMA | TEOR | TEOF => x | _ => y end = y) as (kf & F1 & F2 & F3).
      { destruct f0 as [[] s]; eexists; repeat split; reflexivity. }
      rewrite F1 in E. cbn [app] in E. destruct ks as [|k ks]; [discriminate|]. injection E as -> E. destruct Hx as (Hk & l1 & -> & H1). cbn [bind]. rewrite F3, F2.
      destruct (next_consT _ _ _ H1) as [Ex|(l2 & k2 & ks2 & -> & H2 & H3 & H4)].
      { exfalso. pose proof (next_at _ _ _ H1) as Hy. destruct ks; [destruct Hy as (? & Hy & _)|destruct Hy as (_ & ? & Hy & _)]; congruence. }
      cbn [bind]. rewrite H4 in E. destruct (IH fs l2 k2 ks2 (acc ++ [Some f0]) rest) as (l3 & k3 & ks3 & -> & G2 & G3 & G4 & G5); auto; [cbn in Hf; lia|].
      exists l3, k3, ks3. rewrite <- app_assoc. auto.
    + cbn [field_tokens app] in E. destruct ks as [|k ks].
      * destruct Hx as (l1 & -> & H1). cbn [bind]. destruct (IH fs l1 TEOF [] (acc ++ [None]) rest) as (l3 & k3 & ks3 & -> & G2 & G3 & G4 & G5); auto; [red; auto|cbn in Hf; lia|].
        exists l3, k3, ks3. rewrite <- app_assoc. auto.
      * destruct Hx as (Hk & l1 & -> & H1). cbn [bind].
        assert (k = TCOMMA \/ k = TEOR) as Hc.
        { destruct fs as [|g fs]; cbn in E; [|injection E as -> _; auto]. destruct Hr as [->|(r' & ->)]; [discriminate|]. injection E as -> _. auto. }
        assert (forall B (x y : res B), match k with TCOMMA | TEOR | TEOF => x | _ => y end = x) as -> by (destruct Hc as [->| ->]; reflexivity).
        assert (consT k ks = k :: ks) as Hck by (destruct Hc as [->| ->]; reflexivity).
        destruct (IH fs l1 k ks (acc ++ [None]) rest) as (l3 & k3 & ks3 & -> & G2 & G3 & G4 & G5); auto; [red; congruence|rewrite Hck; auto|cbn in Hf; lia|].
        exists l3, k3, ks3. rewrite <- app_assoc. auto.
Qed.

Lemma next_true l ks : at_ l ks true -> exists l' k' ks', csv_next_token t l = Ok (l', k') /\ at_ l' ks' true /\ tok_end k' ks' true /\ ks = consT k' ks'.
Proof.
  intros H. destruct (next_consT _ _ _ H) as [Ex|Hx]; [|exact Hx].
  exfalso. pose proof (next_at _ _ _ H) as Hy. destruct ks; [destruct Hy as (? & Hy & _)|destruct Hy as (_ & ? & Hy & _)]; congruence.
Qed.

Lemma record_back r l k ks rest : good_rec r -> at_ l ks true -> tok_end k ks true -> (length r <= S (length t))%nat ->
  consT k ks = record_tokens r ++ rest -> rest = [] \/ (exists r', rest = TEOR :: r') ->
  exists l' k' ks', parse_record t l k = Ok (l', k', r) /\ at_ l' ks' true /\ tok_end k' ks' true /\ consT k' ks' = tl rest.
Proof.
  intros [Hr1 Hr2] H He Hl E Hrest. destruct r as [|f fs]; [congruence|]. rewrite record_tokens_cons in E. rewrite <- app_assoc in E.
  assert (forall l1 k1 ks1, at_ l1 ks1 true -> tok_end k1 ks1 true -> consT k1 ks1 = tail_tokens fs ++ rest ->
    exists l' k' ks', (let* (l, k, r) := fields_loop (S (length t)) t l1 k1 [f] in
     match k with TEOR => let* (l, k) := csv_next_token t l in Ok (l, k, r) | _ => Ok (l, k, r) end) = Ok (l', k', f :: fs) /\ at_ l' ks' true /\ tok_end k' ks' true /\ consT k' ks' = tl rest) as G.
  { intros l1 k1 ks1 G1 G2 G3. destruct (fields_back (S (length t)) fs l1 k1 ks1 [f] rest G1 G2 G3 Hrest ltac:(cbn in Hl; lia)) as (l2 & k2 & ks2 & -> & K2 & K3 & K4 & K5).
    cbn [bind]. destruct K5 as [-> | ->].
    - destruct (next_true _ _ K2) as (l3 & k3 & ks3 & -> & E2 & E3 & E4). cbn [bind]. exists l3, k3, ks3. repeat split; auto; try (apply E3; auto). rewrite <- K4, E4. reflexivity.
    - exists l2, TEOF, ks2. repeat split; auto; try (apply K3; auto). destruct (K3 eq_refl) as [-> _]. cbn in *. subst rest. reflexivity. }
  unfold parse_record. destruct f as [[[] s]|]; cbn [field_tokens app] in E.
  - destruct k; cbn in E; try discriminate; [destruct (He eq_refl) as [-> _]; discriminate|]. injection E as -> E. destruct (next_true _ _ H) as (l1 & k1 & ks1 & -> & E2 & E3 & ->). cbn [bind].
    apply (G l1 k1 ks1); auto.
  - destruct k; cbn in E; try discriminate; [destruct (He eq_refl) as [-> _]; discriminate|]. injection E as -> E. destruct (next_true _ _ H) as (l1 & k1 & ks1 & -> & E2 & E3 & ->). cbn [bind].
    apply (G l1 k1 ks1); auto.
  - destruct fs as [|g fs]; [congruence|]. assert (k = TCOMMA) as ->.
    { destruct k; cbn in E; try discriminate; auto. destruct (He eq_refl) as [-> _]; discriminate. }
    apply (G l TCOMMA ks); auto.
Qed.

Definition check (nc : nat) (rs : list (list csv_field)) : bool := forallb (fun r => (length r =? nc)%nat) rs.
Lemma tail_tokens_len fs : (length fs <= length (tail_tokens fs))%nat.
Proof. induction fs; cbn [tail_tokens flat_map]; cbn; [lia|]. rewrite app_length. unfold tail_tokens in *. lia. Qed.
Lemma record_tokens_len r : (length r <= S (length (record_tokens r)))%nat.
Proof. destruct r; [cbn; lia|]. rewrite record_tokens_cons, app_length. pose proof (tail_tokens_len r). cbn. lia. Qed.

Lemma csv_tokens_nonempty r rs : good_rec r -> exists k ks, k <> TEOF /\ csv_text_tokens (r :: rs) = k :: ks /\ k <> TEOR.
Proof.
  intros [H1 H2]. cbn [csv_text_tokens flat_map]. destruct r as [|f fs]; [congruence|]. rewrite record_tokens_cons.
  destruct f as [[[] s]|]; cbn; try (eexists; eexists; (split; [|split; [reflexivity|]]; discriminate)).
  destruct fs; [congruence|]. cbn. eexists; eexists; (split; [|split; [reflexivity|]]; discriminate).
Qed.

Lemma ends_first ks r rs : ends ks (r :: rs) -> exists rest, ks = record_tokens r ++ rest /\ (rest = [] \/ (exists r', rest = TEOR :: r')) /\ ends (tl rest) rs.
Proof.
  intros E. unfold ends in E. cbn [csv_text_tokens flat_map] in E. fold (csv_text_tokens rs) in E. destruct E as [E|E].
      - rewrite <- app_assoc in E. cbn in E. eexists. split; [exact E|]. split; [eauto|]. left. reflexivity.
      - destruct rs as [|r1 rs1].
        + cbn [csv_text_tokens flat_map] in E. rewrite app_nil_r in E. apply app_inj_tail in E as [-> _]. exists []. rewrite app_nil_r. repeat split; auto. left. reflexivity.
        + assert (exists ts, csv_text_tokens (r1 :: rs1) = ts ++ [TEOR]) as (ts & Ets).
          { clear. assert (forall rs : list (list csv_field), rs <> [] -> exists ts, csv_text_tokens rs = ts ++ [TEOR]) as G.
            { induction rs as [|r rs IHr]; [congruence|]. intros _. cbn [csv_text_tokens flat_map]. destruct rs as [|r' rs]; [exists (record_tokens r); cbn; rewrite app_nil_r; reflexivity|].
              destruct IHr as (ts & E); [discriminate|]. fold (csv_text_tokens (r' :: rs)). rewrite E. eexists. rewrite app_assoc. reflexivity. }
            apply G. discriminate. }
          rewrite Ets in E. rewrite app_assoc in E. apply app_inj_tail in E as [E _]. rewrite <- app_assoc in E. cbn [app] in E.
          exists (TEOR :: ts). split; [exact E|]. split; [eauto|]. right. cbn [tl]. auto.
Qed.
Lemma records_back fuel : forall rs l k ks nc acc, Forall good_rec rs -> at_ l ks true -> tok_end k ks true ->
  ends (consT k ks) rs -> (length rs < fuel)%nat -> (length (consT k ks) <= length t)%nat -> (nc <> 0)%nat ->
  records_loop fuel t l k nc acc = if check nc rs then Ok (nc, acc ++ rs) else Fatal.
Proof.
  induction fuel as [|fuel IH]; intros rs l k ks nc acc Hg H He E Hf Hl Hnc; [lia|]. cbn [records_loop]. destruct rs as [|r rs].
  - assert (consT k ks = []) as E'. { destruct E as [E|E]; [exact E|]. destruct (consT k ks); discriminate. }
    destruct k; try discriminate. cbn. rewrite app_nil_r. reflexivity.
  - inversion Hg as [|? ? Hr Hrs]; subst. assert (k <> TEOF) as Hk.
    { intros ->. destruct (He eq_refl) as [-> _]. destruct (csv_tokens_nonempty r rs Hr) as (k & ks & H1 & H2 & H3). unfold ends in E. rewrite H2 in E. destruct E as [E|E]; cbn in E; congruence. }
    assert (forall B (x y : B), match k with TEOF => x | _ => y end = y) as -> by (destruct k; congruence || reflexivity).
    destruct (ends_first _ _ _ E) as (rest & E1 & E2 & E3).
    destruct (record_back r l k ks rest Hr H He) as (l1 & k1 & ks1 & -> & G1 & G2 & G3); auto.
    { pose proof (record_tokens_len r). rewrite E1, app_length in Hl. lia. }
    cbn [bind]. replace (nc =? 0)%nat with false by lia. cbn [check forallb]. destruct (length r =? nc)%nat; cbn [negb andb]; [|reflexivity].
    rewrite (IH rs l1 k1 ks1 nc (acc ++ [r])); auto; [rewrite <- app_assoc; reflexivity|rewrite G3; auto|cbn in Hf; lia|].
    rewrite G3. rewrite E1, app_length in Hl. destruct rest; cbn in *; lia.
Qed.

Lemma csv_len rs : Forall good_rec rs -> (2 * length rs <= length (csv_text_tokens rs))%nat.
Proof.
  induction 1 as [|r rs [H1 H2] Hrs IH]; cbn [csv_text_tokens flat_map]; [cbn; lia|]. rewrite !app_length. unfold csv_text_tokens in IH. cbn [length].
  assert (length (record_tokens r) >= 1)%nat; [|lia]. destruct r as [|f fs]; [congruence|]. rewrite record_tokens_cons.
  destruct f as [[[] s]|]; cbn; try lia. destruct fs; [congruence|cbn; lia].
Qed.
Lemma parse_back r0 rs ks : Forall good_rec (r0 :: rs) -> stream v ks true -> ends ks (r0 :: rs) ->
  parse_csv t = if check (length r0) rs then Ok (length r0, r0 :: rs) else Fatal.
Proof.
  intros Hg Hs E. unfold parse_csv. rewrite (new_st t Ht). cbn [bind].
  assert (at_ (st t 0) ks true) as H by (exists 0%nat; auto).
  assert (length ks <= length t)%nat as Hl.
  { clear - Hs Ht. assert (length ks <= length v)%nat as H.
    { induction Hs as [| |r k r' ks ok Hn Hp Hs IH]; cbn; try lia. destruct (ptok_text _ _ _ Hp) as [_ H]. destruct (H Hn). lia. }
    pose proof (len_skip 0 _ eq_refl) as H'. cbn [skipn] in H'. lia. }
  destruct (next_true _ _ H) as (l1 & k1 & ks1 & -> & E2 & E3 & ->). cbn [bind].
  assert (k1 <> TEOF) as Hk.
  { intros ->. destruct (E3 eq_refl) as [-> _]. inversion Hg as [|? ? Hr Hrs]; subst. destruct (csv_tokens_nonempty r0 rs Hr) as (k & ks & H1 & H2 & H3). unfold ends in E. rewrite H2 in E. destruct E as [E|E]; cbn in E; congruence. }
  assert (forall B (x y : B), match k1 with TEOF => x | _ => y end = y) as -> by (destruct k1; congruence || reflexivity).
  assert (length (r0 :: rs) < S (length t))%nat as Hlr.
  { pose proof (csv_len (r0 :: rs) Hg) as Hc. destruct E as [E|E]; rewrite <- E in Hc; [lia|]. rewrite app_length in Hc. cbn [length] in *. lia. }
  (* the first record fixes the number of columns *)
  inversion Hg as [|? ? Hr Hrs]; subst. assert (length r0 <> 0)%nat as Hn0 by (destruct r0; [destruct Hr; congruence|discriminate]).
  assert (forall fuel, records_loop (S fuel) t l1 k1 0 [] = records_loop (S fuel) t l1 k1 (length r0) []) as Hz.
  { intros fuel. cbn [records_loop]. assert (forall B (x y : B), match k1 with TEOF => x | _ => y end = y) as Hm by (destruct k1; congruence || reflexivity).
    rewrite !Hm. destruct (ends_first _ _ _ E) as (rest & R1 & R2 & _).
    destruct (record_back r0 l1 k1 ks1 rest Hr E2 E3) as (l2 & k2 & ks2 & -> & _); auto.
    { pose proof (record_tokens_len r0). rewrite R1, app_length in Hl. lia. }
    cbn [bind Nat.eqb]. replace (length r0 =? 0)%nat with false by lia. rewrite Nat.eqb_refl. reflexivity. }
  rewrite Hz. rewrite (records_back (S (length t)) (r0 :: rs) l1 k1 ks1 (length r0) []); auto.
  cbn [check forallb]. rewrite Nat.eqb_refl. reflexivity.
Qed.
End Csv.

(** *** Texts and token streams *)
Lemma visible_id t : Forall text_char t -> visible t = t.
Proof. induction 1 as [|b t Hb Ht IH]; [reflexivity|]. cbn [visible]. unfold text_char in Hb. replace ((b =? 0) || (b =? 255)) with false by lia. rewrite IH. reflexivity. Qed.
Lemma visible_chars t : bytes_ok t -> Forall text_char (visible t).
Proof. intros H. apply Forall_forall. intros b Hb. destruct (visible_in t b Hb). pose proof (visible_ok t b H Hb). unfold text_char. lia. Qed.

Definition tok_ok (k : token) : Prop :=
  match k with TFIELD s => field_ok (Some (false, s)) | TQFIELD s => field_ok (Some (true, s)) | _ => True end.
Lemma dq_chars s : Forall text_char s <-> Forall text_char (double_quotes s).
Proof.
  induction s as [|c s IH]; [cbn; tauto|]. cbn [double_quotes]. destruct (N.eqb_spec c 34) as [->|Hc].
  - rewrite !Forall_cons_iff. tauto.
  - rewrite !Forall_cons_iff. tauto.
Qed.
Lemma stream_tok_ok r ks ok : stream r ks ok -> Forall text_char r -> Forall tok_ok ks.
Proof.
  induction 1 as [| |r k r' ks ok Hn Hp Hs IH]; intros Hc; [constructor|constructor|].
  destruct (ptok_text _ _ _ Hp) as [E _]. rewrite E in Hc. apply Forall_app in Hc as [Hc1 Hc2]. constructor; [|auto].
  destruct k; cbn [tok_ok]; auto.
  - cbn [token_text] in *. unfold ptok in Hp. destruct r as [|c r]; [congruence|].
    destruct (N.eqb_spec c 44); [discriminate|]. destruct (N.eqb_spec c 10); [discriminate|]. destruct (N.eqb_spec c 34).
    + destruct (scan_q r) as [[]|]; discriminate.
    + destruct (scan_f (c :: r)) as [[a b]|] eqn:Ef; [|discriminate]. injection Hp as -> ->.
      destruct (scan_f_ok _ _ _ Ef) as (_ & _ & c' & a' & -> & H1 & H2). cbn. split; [discriminate|]. split; [auto|].
      constructor; auto. injection E as <- _. unfold plain_char. auto.
  - cbn [token_text] in Hc1. inversion Hc1; subst. apply Forall_app in H2 as [H2 _]. cbn. apply dq_chars. auto.
Qed.

Lemma tokens_text_record r : flat_map token_text (record_tokens r) = record_text r.
Proof.
  unfold record_tokens, record_text. induction r as [|f r IH]; [reflexivity|]. destruct r as [|g r].
  - cbn. destruct f as [[[] s]|]; cbn; rewrite ?app_nil_r; reflexivity.
  - change (map field_tokens (f :: g :: r)) with (field_tokens f :: map field_tokens (g :: r)).
    change (map field_text (f :: g :: r)) with (field_text f :: map field_text (g :: r)).
    assert (forall A (s x : list A) (sep : A) l, l <> [] -> join sep (x :: l) = x ++ sep :: join sep l) as J by (intros A s0 x sep [|]; [congruence|reflexivity]).
    rewrite !J by (try discriminate; try exact []). rewrite flat_map_app. cbn [flat_map token_text app]. rewrite IH.
    f_equal. destruct f as [[[] s]|]; cbn; rewrite ?app_nil_r; reflexivity.
Qed.
Lemma tokens_text rs : flat_map token_text (csv_text_tokens rs) = csv_text rs.
Proof.
  induction rs as [|r rs IH]; [reflexivity|]. cbn [csv_text_tokens csv_text flat_map]. rewrite !flat_map_app, tokens_text_record. cbn [flat_map token_text app].
  unfold csv_text_tokens, csv_text in IH. rewrite IH. reflexivity.
Qed.
Lemma record_toks_ok r : Forall tok_ok (record_tokens r) -> Forall field_ok r.
Proof.
  destruct r as [|f r]; [constructor|]. rewrite record_tokens_cons. intros H. apply Forall_app in H as [H1 H2]. constructor.
  - destruct f as [[[] s]|]; [| |exact I]; inversion H1; auto.
  - clear H1. induction r as [|g r IH]; [constructor|]. cbn [tail_tokens flat_map] in H2. inversion H2 as [|? ? _ H3]; subst. apply Forall_app in H3 as [H3 H4].
    constructor; [|auto]. destruct g as [[[] s]|]; [| |exact I]; inversion H3; auto.
Qed.
Lemma csv_toks_ok rs : Forall tok_ok (csv_text_tokens rs) -> Forall (Forall field_ok) rs.
Proof.
  induction rs as [|r rs IH]; [constructor|]. cbn [csv_text_tokens flat_map]. intros H. apply Forall_app in H as [H1 H2]. apply Forall_app in H1 as [H1 _].
  constructor; [apply record_toks_ok; auto|auto].
Qed.

Lemma field_stream f rest ks ok : field_ok f -> boundary rest -> stream rest ks ok -> stream (field_text f ++ rest) (field_tokens f ++ ks) ok.
Proof.
  intros Hf Hb Hs. destruct f as [[[] s]|]; cbn [field_text field_tokens app]; [| |exact Hs].
  - apply s_cons with (r' := rest); [discriminate| |auto]. cbn [ptok N.eqb Pos.eqb]. rewrite <- app_assoc. cbn [app].
    rewrite scan_q_app; [reflexivity|]. destruct rest; cbn in *; [auto|lia].
  - destruct Hf as (H1 & H2 & H3). apply s_cons with (r' := rest); [destruct s; [congruence|discriminate]| |auto].
    destruct s as [|c s]; [congruence|]. cbn [app ptok]. inversion H3 as [|? ? Hc]; subst. unfold plain_char in Hc.
    replace (c =? 44) with false by lia. replace (c =? 10) with false by lia. replace (c =? 34) with false by lia.
    change (c :: s ++ rest) with ((c :: s) ++ rest). rewrite scan_f_app by auto. reflexivity.
Qed.
Definition tail_text (fs : list csv_field) : list N := flat_map (fun f => 44 :: field_text f) fs.
Lemma record_text_cons f fs : record_text (f :: fs) = field_text f ++ tail_text fs.
Proof. rewrite <- tokens_text_record, record_tokens_cons, flat_map_app. f_equal.
  - destruct f as [[[] s]|]; cbn; rewrite ?app_nil_r; reflexivity.
  - induction fs as [|g fs IH]; [reflexivity|]. cbn [tail_tokens tail_text flat_map]. rewrite flat_map_app. cbn [flat_map token_text app].
    fold (tail_tokens fs). fold (tail_text fs). rewrite IH. do 2 f_equal. destruct g as [[[] s]|]; cbn; rewrite ?app_nil_r; reflexivity.
Qed.
Lemma tail_stream fs rest ks ok : Forall field_ok fs -> boundary rest -> stream rest ks ok -> stream (tail_text fs ++ rest) (tail_tokens fs ++ ks) ok.
Proof.
  intros Hf Hb Hs. induction Hf as [|f fs Hf Hfs IH]; [exact Hs|]. cbn [tail_text tail_tokens flat_map app]. apply s_cons with (r' := (field_text f ++ tail_text fs) ++ rest); [discriminate|reflexivity|].
  rewrite <- !app_assoc. apply field_stream; auto. destruct fs; cbn; auto.
Qed.
Lemma record_stream r rest ks ok : Forall field_ok r -> boundary rest -> stream rest ks ok -> stream (record_text r ++ rest) (record_tokens r ++ ks) ok.
Proof.
  intros Hf Hb Hs. destruct Hf as [|f fs Hf Hfs]; [exact Hs|]. rewrite record_text_cons, record_tokens_cons, <- !app_assoc. apply field_stream; auto; [|apply tail_stream; auto].
  destruct fs; cbn; auto.
Qed.
Lemma csv_stream rs rest ks ok : Forall (Forall field_ok) rs -> stream rest ks ok -> stream (csv_text rs ++ rest) (csv_text_tokens rs ++ ks) ok.
Proof.
  intros Hf Hs. induction Hf as [|r rs Hr Hrs IH]; [exact Hs|]. cbn [csv_text csv_text_tokens flat_map]. rewrite <- !app_assoc. apply record_stream; cbn; auto.
  eapply s_cons; [discriminate|reflexivity|]. exact IH.
Qed.

Lemma csv_text_snoc rs r : csv_text (rs ++ [r]) = (csv_text rs ++ record_text r) ++ [10].
Proof. unfold csv_text. rewrite flat_map_app. cbn. rewrite app_nil_r, app_assoc. reflexivity. Qed.
Lemma csv_tokens_snoc rs r : csv_text_tokens (rs ++ [r]) = (csv_text_tokens rs ++ record_tokens r) ++ [TEOR].
Proof. unfold csv_text_tokens. rewrite flat_map_app. cbn. rewrite app_nil_r, app_assoc. reflexivity. Qed.

Lemma table_stream rs v : Forall (Forall field_ok) rs -> text_of_table rs v -> exists ks, stream v ks true /\ ends ks rs.
Proof.
  intros Hf [->|E].
  - exists (csv_text_tokens rs). split; [|left; auto]. pose proof (csv_stream rs [] [] true Hf s_end) as H. rewrite !app_nil_r in H. exact H.
  - destruct rs as [|r rs _] using rev_ind; [destruct v; discriminate|]. rewrite csv_text_snoc in E. apply app_inj_tail in E as [-> _].
    apply Forall_app in Hf as [H1 H2]. inversion H2; subst. exists (csv_text_tokens rs ++ record_tokens r). split; [|right; rewrite csv_tokens_snoc; reflexivity].
    apply csv_stream; auto. pose proof (record_stream r [] [] true H3 I s_end) as H. rewrite !app_nil_r in H. exact H.
Qed.
Lemma ends_text ks rs : ends ks rs -> text_of_table rs (flat_map token_text ks).
Proof.
  intros [->|E]; [left; apply tokens_text|]. right. rewrite <- tokens_text, <- E, flat_map_app. reflexivity.
Qed.
Lemma ends_ok ks rs : ends ks rs -> Forall tok_ok ks -> Forall (Forall field_ok) rs.
Proof. intros [->|E] H; apply csv_toks_ok; auto. rewrite <- E. apply Forall_app. split; [auto|]. constructor; [exact I|constructor]. Qed.

Lemma parse_iff t nc rs : bytes_ok t ->
  parse_csv t = Ok (nc, rs) <-> table rs /\ Forall (fun r => length r = nc) rs /\ text_of_table rs (visible t).
Proof.
  intros Ht. split.
  - intros H. destruct (parse_at t Ht) as [E|(nc' & rs' & ks & E & Hs & Hg & He & Hn & Hl)]; [congruence|]. rewrite E in H. injection H as -> ->.
    destruct (stream_text _ _ Hs) as [Ev _]. pose proof (stream_tok_ok _ _ _ Hs (visible_chars t Ht)) as Hk. pose proof (ends_ok _ _ He Hk) as Hf.
    repeat split; auto.
    + destruct rs as [|r0 rs]; [congruence|]. exists r0, rs. split; [reflexivity|]. split.
      * inversion Hl as [|? ? E0 _]; subst. exact Hl.
      * apply Forall_forall. intros r Hr. rewrite Forall_forall in Hg, Hf. destruct (Hg r Hr) as [G1 G2]. split; [auto|]. split; [auto|]. auto.
    + rewrite Ev. apply ends_text. auto.
  - intros ((r0 & rest & -> & H1 & H2) & H3 & H4).
    assert (Forall (Forall field_ok) (r0 :: rest)) as Hf by (eapply Forall_impl; [|exact H2]; intros r (_ & _ & Hr); exact Hr).
    destruct (table_stream _ _ Hf H4) as (ks & Hs & He).
    rewrite (parse_back t Ht r0 rest ks); auto.
    + inversion H3; subst. replace (check (length r0) rest) with true; [reflexivity|]. symmetry. apply forallb_forall. intros r Hr.
      inversion H1 as [|? ? _ H5]; subst. rewrite Forall_forall in H5. rewrite (H5 r Hr). apply Nat.eqb_refl.
    + eapply Forall_impl; [|exact H2]. intros r (G1 & G2 & _). split; auto.
Qed.
Lemma parse_ragged t r0 rest : bytes_ok t -> Forall (fun r => r <> [] /\ r <> [None] /\ Forall field_ok r) (r0 :: rest) -> text_of_table (r0 :: rest) (visible t) ->
  (exists r, In r rest /\ length r <> length r0) -> parse_csv t = Fatal.
Proof.
  intros Ht H2 H4 (r & Hr1 & Hr2). assert (Forall (Forall field_ok) (r0 :: rest)) as Hf by (eapply Forall_impl; [|exact H2]; intros r' (_ & _ & Hr); exact Hr).
  destruct (table_stream _ _ Hf H4) as (ks & Hs & He). rewrite (parse_back t Ht r0 rest ks); auto.
  - destruct (check (length r0) rest) eqn:E; [|reflexivity]. unfold check in E. rewrite forallb_forall in E. specialize (E r Hr1). apply Nat.eqb_eq in E. congruence.
  - eapply Forall_impl; [|exact H2]. intros r' (G1 & G2 & _). split; auto.
Qed.
Lemma csv_text_chars rs : Forall (Forall field_ok) rs -> Forall text_char (csv_text rs).
Proof.
  induction 1 as [|r rs Hr Hrs IH]; [constructor|]. cbn [csv_text flat_map]. apply Forall_app. split; [|exact IH]. apply Forall_app. split; [|constructor; [split; lia|constructor]].
  assert (forall f, field_ok f -> Forall text_char (field_text f)) as Hft.
  { intros [[[] s]|] H; cbn in *; [|tauto|constructor]. constructor; [split; lia|]. apply Forall_app. split; [apply (proj1 (dq_chars s)); auto|]. constructor; [split; lia|constructor]. }
  destruct Hr as [|f fs Hf Hfs]; [constructor|]. rewrite record_text_cons. apply Forall_app. split; [auto|].
  induction Hfs as [|g fs Hg Hfs IHf]; [constructor|]. cbn [tail_text flat_map]. constructor; [split; lia|]. apply Forall_app. split; auto.
Qed.
Lemma text_bytes t : Forall text_char t -> bytes_ok t.
Proof. apply Forall_impl. unfold text_char, byte_ok. intros; lia. Qed.
Lemma tokens_csv rs : Forall (Forall field_ok) rs -> csv_tokens (csv_text rs) = Ok (csv_text_tokens rs ++ [TEOF]).
Proof.
  intros H. pose proof (csv_text_chars rs H) as Hc. rewrite (csv_tokens_at (csv_text rs) (text_bytes _ Hc) (csv_text_tokens rs) true); [reflexivity|].
  rewrite visible_id by auto. pose proof (csv_stream rs [] [] true H s_end) as Hs. rewrite !app_nil_r in Hs. exact Hs.
Qed.
Lemma tokens_lossless t : bytes_ok t -> csv_tokens t = Fatal \/
  exists ks, csv_tokens t = Ok (ks ++ [TEOF]) /\ visible t = flat_map token_text ks /\ Forall tok_ok ks.
Proof.
  intros Ht. destruct (stream_total t (visible t)) as (ks & ok & Hs & _). rewrite (csv_tokens_at t Ht ks ok Hs). destruct ok; [|auto]. right.
  exists ks. split; [reflexivity|]. split; [apply stream_text; auto|]. apply (stream_tok_ok _ _ _ Hs). apply visible_chars; auto.
Qed.
