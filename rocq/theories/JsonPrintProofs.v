(** Printing a tree and reading the printed text. *)
From Verif Require Import Base BaseLemmas Heap StrModel StrSpec StrProofs LexModel LexSpec LexProofs JsonModel JsonSpec JsonLexProofs JsonProofs JsonParseProofs JsonParse2.
Local Open Scope nat_scope.

Fixpoint jn (glue : list N) (ls : list (list N)) : list N :=
  match ls with [] => [] | [l] => l | l :: ls' => l ++ glue ++ jn glue ls' end.
Lemma jn_cons2 glue l l' ls : jn glue (l :: l' :: ls) = l ++ glue ++ jn glue (l' :: ls).
Proof. reflexivity. Qed.
Definition tabw (level tab : Z) : Z := if (0 <? level)%Z then (tab + 4)%Z else 0%Z.
Definition ppw (level : Z) : list N := if (0 <? level)%Z then [10%N] else [32%N].
Definition inner (level tab : Z) : list N := ppw level ++ make_tab (tabw level tab).
Definition outer (level tab : Z) : list N := ppw level ++ make_tab (tabw level tab - 4).

Fixpoint ptext (level tab : Z) (j : json) : list N :=
  match j with
  | JObj ms => [123%N] ++ inner level tab ++ jn (44%N :: inner level tab)
      (map (fun m => nx_fputs_readable (Some (fst m)) ++ [32; 58; 32]%N ++ ptext (level - 1) (tab + 4) (snd m)) ms) ++ outer level tab ++ [125%N]
  | JArr vs => [91%N] ++ inner level tab ++ jn (44%N :: inner level tab) (map (ptext (level - 1) (tab + 4)) vs) ++ outer level tab ++ [93%N]
  | JStr s => nx_fputs_readable (Some s)
  | JInt s | JFp s => s
  | JTrue => [116; 114; 117; 101]%N
  | JFalse => [102; 97; 108; 115; 101]%N
  | JNull => [110; 117; 108; 108]%N
  end.

Definition room (level tab : Z) (d : nat) : Prop :=
  (INT_MIN + Z.of_nat d <= level <= INT_MAX /\ 0 <= tab /\ tab + 4 * (Z.of_nat d + 1) <= INT_MAX)%Z.

Notation int_ok z := (INT_MIN <= z <= INT_MAX)%Z.
Lemma chk_int_ok z : int_ok z -> chk_int z = Ok z.
Proof. unfold chk_int, in_int. intros H. replace (_ && _) with true by lia. reflexivity. Qed.

Definition prints (h : heap node) (t : itree) : Prop := forall r j, tree_at h r t -> strip t = gen j -> forall fuel level tab, 2 * length (ids t) <= fuel -> room level tab (depth j) ->
  fprint_rec fuel h (Some (iid t)) level tab = Ok (ptext level tab j).

Lemma arr_print h level tab vs : forall ts, forest_at h ts -> map strip ts = map gen vs -> Forall (prints h) ts ->
  forall fuel tabc pp, 2 * length (fids ts) + 1 <= fuel -> Forall (fun v => room (level - 1) (tab + 4) (depth v)) vs ->
  (vs <> [] -> int_ok (level - 1) /\ int_ok (tab + 4)) ->
  array_loop fuel h (first_id ts) level tab tabc pp = Ok (jn (44%N :: pp ++ make_tab tabc) (map (ptext (level - 1) (tab + 4)) vs)).
Proof.
  induction vs as [|v vs IH]; intros ts Hf Hm Hp fuel tabc pp Hl Hr Hi; (destruct ts as [|t ts]; [try discriminate|try discriminate]); (destruct fuel as [|f]; [lia|]); [reflexivity|].
  injection Hm as Hm1 Hm2. destruct Hf as [Hf1 Hf2]. apply Forall_cons_iff in Hp as [Hp1 Hp2]. apply Forall_cons_iff in Hr as [Hr1 Hr2].
  destruct Hi as [Hi1 Hi2]; [discriminate|]. unfold fids in Hl. cbn [flat_map] in Hl. rewrite app_length in Hl. fold (fids ts) in Hl.
  cbn [array_loop first_id]. unfold JSON_TAB_WIDTH. rewrite (chk_int_ok _ Hi1), (chk_int_ok _ Hi2). cbn [bind]. rewrite (Hp1 _ v Hf1 Hm1 f) by (auto; lia). cbn [bind].
  destruct (tree_root _ _ _ Hf1) as (n & Hn & Hnr). rewrite (proj2 (hget_cell _ _ _) Hn). cbn [bind]. rewrite Hnr.
  assert (1 <= length (ids t)) as H1 by (destruct t; cbn; lia).
  destruct ts as [|t2 ts]; [destruct vs; [reflexivity|discriminate]|]. cbn [first_id]. change (Some (iid t2)) with (first_id (t2 :: ts)).
  rewrite (IH (t2 :: ts)); auto; [|lia]. cbn [bind]. destruct vs as [|v2 vs]; [discriminate|].
  cbn [map]. rewrite jn_cons2. cbn [app]. rewrite <- app_assoc. reflexivity.
Qed.

Lemma obj_print h level tab ms : forall ts, forest_at h ts -> map strip ts = gmem ms -> Forall (prints h) ts ->
  forall fuel tabc pp, 2 * length (fids ts) + 1 <= fuel -> Forall (fun m => room (level - 1) (tab + 4) (depth (snd m))) ms ->
  (ms <> [] -> int_ok (level - 1) /\ int_ok (tab + 4)) ->
  object_loop fuel h (first_id ts) level tab tabc pp = Ok (jn (44%N :: pp ++ make_tab tabc)
    (map (fun m => nx_fputs_readable (Some (fst m)) ++ [32; 58; 32]%N ++ ptext (level - 1) (tab + 4) (snd m)) ms)).
Proof.
  induction ms as [|[k v] ms IH]; intros ts Hf Hm Hp fuel tabc pp Hl Hr Hi.
  { destruct ts; [|discriminate]. destruct fuel; [lia|reflexivity]. }
  destruct fuel as [|f]; [lia|]. cbn in Hm. destruct ts as [|[p pty ptx pks] ts]; [discriminate|]. destruct ts as [|t ts]; [discriminate|].
  injection Hm as Hty Htx Hks Hm1 Hm2. destruct Hf as [Hf0 [Hf1 Hf2]]. apply Forall_cons_iff in Hp as [_ Hp]. apply Forall_cons_iff in Hp as [Hp1 Hp2]. apply Forall_cons_iff in Hr as [Hr1 Hr2].
  destruct Hi as [Hi1 Hi2]; [discriminate|]. unfold fids in Hl. cbn [flat_map] in Hl. rewrite !app_length in Hl. fold (fids ts) in Hl. cbn [ids length] in Hl.
  apply tree_at_eq in Hf0 as [Hc0 _]. cbn [object_loop first_id iid]. rewrite (proj2 (hget_cell _ _ _) Hc0). cbn [bind jtype jtext jright first_id]. rewrite Hty. cbn [N.eqb JNT_STRING Pos.eqb negb].
  unfold JSON_TAB_WIDTH. rewrite (chk_int_ok _ Hi1), (chk_int_ok _ Hi2). cbn [bind]. rewrite (Hp1 _ v Hf1 Hm1 f) by (auto; lia). cbn [bind].
  destruct (tree_root _ _ _ Hf1) as (n & Hn & Hnr). rewrite (proj2 (hget_cell _ _ _) Hn). cbn [bind]. rewrite Hnr, Htx.
  assert (1 <= length (ids t)) as H1 by (destruct t; cbn; lia).
  destruct ts as [|t2 ts]; [destruct ms as [|[k2 v2] ms]; [reflexivity|discriminate]|]. cbn [first_id]. change (Some (iid t2)) with (first_id (t2 :: ts)).
  rewrite (IH (t2 :: ts)); auto; [|lia]. cbn [bind]. destruct ms as [|[k2 v2] ms]; [discriminate|]. 
  cbn [map fst snd]. rewrite jn_cons2. rewrite <- !app_assoc. cbn [app]. rewrite <- !app_assoc. reflexivity.
Qed.

Lemma depth_in_arr vs v : In v vs -> depth v < depth (JArr vs).
Proof. cbn. induction vs as [|w vs IH]; [intros []|]; intros [->|H]; cbn; [lia|specialize (IH H); lia]. Qed.
Lemma depth_in_obj ms m : In m ms -> depth (snd m) < depth (JObj ms).
Proof. cbn. induction ms as [|w ms IH]; [intros []|]; intros [->|H]; cbn; [lia|specialize (IH H); lia]. Qed.

Lemma print_tree h t : prints h t.
Proof.
  induction t as [p ty tx ks IH] using itree_ind'. intros r j Hat Hs fuel level tab Hl (Hr1 & Hr2 & Hr3).
  apply tree_at_eq in Hat as [Hc Hf]. cbn [iid]. cbn [ids length] in Hl. fold (fids ks) in Hl. destruct fuel as [|f]; [lia|]. cbn [fprint_rec].
  assert ((if (0 <? level)%Z then chk_int (tab + JSON_TAB_WIDTH) else Ok 0%Z) = Ok (tabw level tab)) as ->.
  { unfold tabw, JSON_TAB_WIDTH. destruct (0 <? level)%Z; [|reflexivity]. apply chk_int_ok. unfold INT_MIN, INT_MAX in *. lia. }
  cbn [bind]. rewrite (proj2 (hget_cell _ _ _) Hc). cbn [bind jtype jtext jdown]. fold (ppw level).
  destruct j as [ms|vs|s|s|s| | |]; cbn in Hs; injection Hs as -> -> Hk; cbn [N.eqb JNT_NULL JNT_TRUE JNT_FALSE JNT_STRING JNT_FPNUMBER JNT_INTEGER JNT_ARRAY JNT_OBJECT Pos.eqb orb]; try reflexivity.
  - erewrite obj_print; [|exact Hf|exact Hk|exact IH|lia| |].
    + cbn [bind ptext]. unfold inner, outer, JSON_TAB_WIDTH. rewrite <- !app_assoc. reflexivity.
    + apply Forall_forall. intros m Hm. apply depth_in_obj in Hm. unfold room, INT_MIN, INT_MAX in *. lia.
    + intros Hne. destruct ms as [|m ms]; [congruence|]. pose proof (depth_in_obj (m :: ms) m ltac:(left; auto)). unfold INT_MIN, INT_MAX in *. lia.
  - erewrite arr_print; [|exact Hf|exact Hk|exact IH|lia| |].
    + cbn [bind ptext]. unfold inner, outer, JSON_TAB_WIDTH. rewrite <- !app_assoc. reflexivity.
    + apply Forall_forall. intros m Hm. apply depth_in_arr in Hm. unfold room, INT_MIN, INT_MAX in *. lia.
    + intros Hne. destruct vs as [|m ms]; [congruence|]. pose proof (depth_in_arr (m :: ms) m ltac:(left; auto)). unfold INT_MIN, INT_MAX in *. lia.
Qed.

(** ** Tokens of the printed text *)
Fixpoint toks (j : json) : list token :=
  match j with
  | JObj ms => Tlcb :: sep Tcomma (map (fun m => Tstr (fst m) :: Tcolon :: toks (snd m)) ms) ++ [Trcb]
  | JArr vs => Tlsb :: sep Tcomma (map toks vs) ++ [Trsb]
  | JStr s => [Tstr s]
  | JInt s => [Tint s]
  | JFp s => [Tfp s]
  | JTrue => [Ttrue]
  | JFalse => [Tfalse]
  | JNull => [Tnull]
  end.
Lemma toks_spelled j : spelled j (toks j).
Proof.
  induction j as [ms IH|vs IH| | | | | |] using json_ind'; cbn [toks]; constructor.
  - induction IH as [|m ms Hm H IH]; cbn [map]; constructor; [eauto|exact IH].
  - induction IH as [|m ms Hm H IH]; cbn [map]; constructor; [exact Hm|exact IH].
Qed.

Lemma ws_inner level tab : Forall ws_char (inner level tab).
Proof.
  unfold inner, ppw, make_tab. apply Forall_app. split.
  - destruct (0 <? level)%Z; (constructor; [unfold ws_char; auto|constructor]).
  - apply Forall_forall. intros b Hb. apply repeat_spec in Hb. subst. unfold ws_char. auto.
Qed.
Lemma ws_outer level tab : Forall ws_char (outer level tab).
Proof.
  unfold outer, ppw, make_tab. apply Forall_app. split.
  - destruct (0 <? level)%Z; (constructor; [unfold ws_char; auto|constructor]).
  - apply Forall_forall. intros b Hb. apply repeat_spec in Hb. subst. unfold ws_char. auto.
Qed.
Definition stops (r : list N) : Prop := match r with b :: _ => b = 44%N \/ b = 32%N \/ b = 10%N | [] => False end.
Lemma stops_outer level tab r : stops (outer level tab ++ r).
Proof. unfold outer, ppw. destruct (0 <? level)%Z; cbn; auto. Qed.

Lemma num_chars p ty : json_number p ty -> Forall num_char p.
Proof.
  intros (sg & i & f & e & -> & Hsg & Hi & Hf & He & _). apply json_int_digits in Hi as [_ Hi]. rewrite !Forall_app. split; [|split; [|split]].
  - destruct Hsg as [->| ->]; [constructor|constructor; [right; cbn; auto|constructor]].
  - apply digits_num. auto.
  - apply frac_num. auto.
  - apply exp_num. auto.
Qed.
Lemma num_stop p ty rest : json_number p ty -> stops rest -> ascii_ahead (p ++ rest) /\ ~ goes_on p rest.
Proof.
  intros Hp Hs. destruct rest as [|b rest]; [destruct Hs|]. cbn in Hs. split.
  - apply ascii_app; [eapply num_chars; eauto|]. intros [|a l] c r' E Ha; cbn in E; injection E as <- E; [lia|].
    apply Forall_cons_iff in Ha as [Ha _]. unfold num_char, digit in Ha. cbn in Ha. lia.
  - intros (c & r & E & H). injection E as <- <-. unfold digit in H. lia.
Qed.

Section T.
Variable t : list N.
Hypothesis Ht : bytes_ok t.
Notation v := (visible t).
Definition lexes (txt : list N) (ks : list token) : Prop := forall n rest L, skipn n v = txt ++ rest -> stops rest ->
  tokens_from t (st t (n + length txt)) L -> tokens_from t (st t n) (ks ++ L).

Lemma lex_str s n rest L : skipn n v = nx_fputs_readable (Some s) ++ rest -> tokens_from t (st t (n + length (nx_fputs_readable (Some s)))) L -> tokens_from t (st t n) (Tstr s :: L).
Proof.
  intros Hr HL. unfold nx_fputs_readable in *. cbn [app] in Hr. rewrite <- app_assoc in Hr. cbn [app] in Hr.
  eapply tk_next; [apply (nt_str t Ht n _ rest s Hr (readable_body s) (readable_decode s))|discriminate|].
  rewrite !app_length in HL. cbn [length] in HL. replace (n + length (flat_map readable_char s) + 2) with (n + (1 + (length (flat_map readable_char s) + 1))) by lia. exact HL.
Qed.
Lemma lex_ws ws n rest L : skipn n v = ws ++ rest -> Forall ws_char ws -> tokens_from t (st t (n + length ws)) L -> tokens_from t (st t n) L.
Proof. intros. eapply tf_ws; eauto. Qed.
Lemma lex_p c k n rest L : skipn n v = c :: rest -> In (c, k) [(91, Tlsb); (93, Trsb); (123, Tlcb); (125, Trcb); (44, Tcomma); (58, Tcolon)]%N ->
  tokens_from t (st t (n + 1)) L -> tokens_from t (st t n) (k :: L).
Proof.
  intros Hr Hk HL. eapply tk_next; [apply (nt_punct t Ht n c rest k Hr Hk)|cbn in Hk; intuition congruence|]. replace (S n) with (n + 1) by lia. exact HL.
Qed.

Lemma lex_list glue_ws txts tks : Forall ws_char glue_ws -> Forall2 lexes txts tks -> lexes (jn (44%N :: glue_ws) txts) (sep Tcomma tks).
Proof.
  intros Hw. induction 1 as [|x k txts tks Hx H IH]; intros n rest L Hr Hs HL.
  - cbn in *. rewrite Nat.add_0_r in HL. exact HL.
  - destruct H as [|x2 k2 txts tks H2 H]; [exact (Hx n rest L Hr Hs HL)|].
    change (jn (44%N :: glue_ws) (x :: x2 :: txts)) with (x ++ (44%N :: glue_ws) ++ jn (44%N :: glue_ws) (x2 :: txts)) in *. rewrite sep_cons2, <- app_assoc. cbn [app].
    rewrite <- !app_assoc in Hr. apply (Hx n _ _ Hr); [cbn; auto|]. apply skipn_more in Hr. cbn [app] in Hr.
    eapply lex_p; [exact Hr|cbn; auto 10|]. change (44%N :: ?l) with ([44%N] ++ l) in Hr. apply skipn_more in Hr. cbn [length] in Hr.
    eapply lex_ws; [exact Hr|exact Hw|]. apply skipn_more in Hr. apply (IH _ _ _ Hr Hs).
    rewrite !app_length in HL. cbn [length] in HL.
    replace (n + length x + 1 + length glue_ws + length (jn (44%N :: glue_ws) (x2 :: txts))) with (n + (length x + (S (length glue_ws) + length (jn (44%N :: glue_ws) (x2 :: txts))))) by lia. exact HL.
Qed.

Lemma lex_word c s k txt n rest L : txt = c :: s -> skipn n v = txt ++ rest -> In (c, s, k) [(116, [114; 117; 101], Ttrue); (102, [97; 108; 115; 101], Tfalse); (110, [117; 108; 108], Tnull)]%N ->
  tokens_from t (st t (n + length txt)) L -> tokens_from t (st t n) (k :: L).
Proof.
  intros -> Hr Hk HL. eapply tk_next; [apply (nt_word t Ht n c s rest k Hr Hk)|cbn in Hk; intuition congruence|exact HL].
Qed.

Lemma lex_bracket o c ko kc level tab txts tks : 
  In (o, ko) [(91, Tlsb); (93, Trsb); (123, Tlcb); (125, Trcb); (44, Tcomma); (58, Tcolon)]%N -> In (c, kc) [(91, Tlsb); (93, Trsb); (123, Tlcb); (125, Trcb); (44, Tcomma); (58, Tcolon)]%N ->
  Forall2 lexes txts tks ->
  lexes ([o] ++ inner level tab ++ jn (44%N :: inner level tab) txts ++ outer level tab ++ [c]) (ko :: sep Tcomma tks ++ [kc]).
Proof.
  intros Ho Hc H n rest L Hr Hs HL. rewrite <- !app_assoc in Hr. cbn [app] in Hr. cbn [app].
  eapply lex_p; [exact Hr|auto|]. change (o :: ?l) with ([o] ++ l) in Hr. apply skipn_more in Hr. cbn [length] in Hr.
  eapply lex_ws; [exact Hr|apply ws_inner|]. apply skipn_more in Hr. rewrite <- app_assoc. eapply (lex_list _ txts tks (ws_inner level tab) H); [exact Hr|apply stops_outer|].
  apply skipn_more in Hr. eapply lex_ws; [exact Hr|apply ws_outer|]. apply skipn_more in Hr. cbn [app] in Hr |- *. eapply lex_p; [exact Hr|auto|].
  rewrite !app_length in HL. cbn [length] in HL.
  match goal with |- tokens_from _ (st _ ?a) _ => match type of HL with tokens_from _ (st _ ?b) _ => replace a with b by lia end end. exact HL.
Qed.

Lemma lex_json j : json_ok j -> forall level tab, lexes (ptext level tab j) (toks j).
Proof.
  induction j as [ms IH|vs IH|s|s|s| | |] using json_ind'; intros Hok level tab.
  - inversion Hok as [ms' Hm| | | | | | |]; subst. cbn [ptext toks]. apply lex_bracket; [cbn; auto 10|cbn; auto 10|].
    clear Hok. induction IH as [|m ms Hm' H IH]; cbn [map]; constructor.
    + apply Forall_cons_iff in Hm as [[_ Hm] _]. intros n rest L Hr Hs HL. rewrite <- app_assoc in Hr. eapply lex_str; [exact Hr|]. apply skipn_more in Hr.
      cbn [app] in Hr. change (32%N :: ?l) with ([32%N] ++ l) in Hr at 1. eapply lex_ws; [exact Hr|(constructor; [unfold ws_char; auto|constructor])|]. apply skipn_more in Hr.
      cbn [app] in Hr |- *. eapply lex_p; [exact Hr|cbn; auto 10|]. change (58%N :: 32%N :: ?l) with ([58%N] ++ [32%N] ++ l) in Hr at 1. apply skipn_more in Hr.
      eapply lex_ws; [exact Hr|(constructor; [unfold ws_char; auto|constructor])|]. apply skipn_more in Hr. apply (Hm' Hm _ _ _ _ _ Hr Hs).
      rewrite !app_length in HL. cbn [length] in HL |- *.
      match goal with |- tokens_from _ (st _ ?a) _ => match type of HL with tokens_from _ (st _ ?b) _ => replace a with b by lia end end. exact HL.
    + apply IH. apply Forall_cons_iff in Hm as [_ Hm]. auto.
  - inversion Hok as [|vs' Hm| | | | | |]; subst. cbn [ptext toks]. apply lex_bracket; [cbn; auto 10|cbn; auto 10|].
    clear Hok. induction IH as [|m ms Hm' H IH]; cbn [map]; constructor.
    + apply Forall_cons_iff in Hm as [Hm _]. apply Hm'. auto.
    + apply IH. apply Forall_cons_iff in Hm as [_ Hm]. auto.
  - intros n rest L Hr Hs HL. exact (lex_str s n rest L Hr HL).
  - inversion Hok as [| | |s' Hn| | | |]; subst. intros n rest L Hr Hs HL. cbn [ptext toks app] in *. destruct (num_stop _ _ rest Hn Hs) as [Ha Hg].
    eapply tk_next; [apply (nt_num t Ht n s rest _ Hr Ha Hn Hg)|discriminate|exact HL].
  - inversion Hok as [| | | |s' Hn| | |]; subst. intros n rest L Hr Hs HL. cbn [ptext toks app] in *. destruct (num_stop _ _ rest Hn Hs) as [Ha Hg].
    eapply tk_next; [apply (nt_num t Ht n s rest _ Hr Ha Hn Hg)|discriminate|exact HL].
  - intros n rest L Hr Hs HL. eapply lex_word; [reflexivity|exact Hr|cbn; auto|exact HL].
  - intros n rest L Hr Hs HL. eapply lex_word; [reflexivity|exact Hr|cbn; auto|exact HL].
  - intros n rest L Hr Hs HL. eapply lex_word; [reflexivity|exact Hr|cbn; auto|exact HL].
Qed.
End T.

Lemma ws_str ws : Forall ws_char ws -> str_ok ws.
Proof. apply Forall_impl. unfold ws_char. intros. lia. Qed.
Lemma jn_ok glue ls : str_ok glue -> Forall str_ok ls -> str_ok (jn glue ls).
Proof.
  intros Hg. induction 1 as [|x ls Hx H IH]; [constructor|]. cbn [jn]. destruct ls; auto. apply Forall_app. split; auto. apply Forall_app. auto.
Qed.
Lemma readable_ok s : str_ok s -> str_ok (nx_fputs_readable (Some s)).
Proof. intros H. unfold nx_fputs_readable. apply Forall_app. split; [repeat constructor|]. apply Forall_app. split; [apply readable_str_ok; auto|repeat constructor]. Qed.
Lemma ptext_ok j : json_ok j -> forall level tab, str_ok (ptext level tab j).
Proof.
  induction j as [ms IH|vs IH|s|s|s| | |] using json_ind'; intros Hok level tab; cbn [ptext].
  - inversion Hok as [ms' Hm| | | | | | |]; subst. apply Forall_app; split; [repeat constructor|]. apply Forall_app; split; [apply ws_str, ws_inner|].
    apply Forall_app; split; [|apply Forall_app; split; [apply ws_str, ws_outer|repeat constructor]]. apply jn_ok; [constructor; [lia|apply ws_str, ws_inner]|].
    apply Forall_map. rewrite Forall_forall in *. intros m Hi. destruct (Hm m Hi) as [H1 H2]. apply Forall_app; split; [apply readable_ok; auto|].
    apply Forall_app; split; [repeat constructor|]. apply IH; auto.
  - inversion Hok as [|vs' Hm| | | | | |]; subst. apply Forall_app; split; [repeat constructor|]. apply Forall_app; split; [apply ws_str, ws_inner|].
    apply Forall_app; split; [|apply Forall_app; split; [apply ws_str, ws_outer|repeat constructor]]. apply jn_ok; [constructor; [lia|apply ws_str, ws_inner]|].
    apply Forall_map. rewrite Forall_forall in *. intros m Hi. apply IH; auto.
  - inversion Hok; subst. apply readable_ok; auto.
  - inversion Hok as [| | |s' Hn| | | |]; subst. eapply Forall_impl; [|eapply num_chars; eauto]. unfold num_char, digit. cbn. intros. lia.
  - inversion Hok as [| | | |s' Hn| | |]; subst. eapply Forall_impl; [|eapply num_chars; eauto]. unfold num_char, digit. cbn. intros. lia.
  - repeat constructor.
  - repeat constructor.
  - repeat constructor.
Qed.
Lemma visible_str s : str_ok s -> visible s = s.
Proof. induction 1 as [|b s Hb H IH]; [reflexivity|]. cbn. replace ((b =? 0)%N || (b =? 255)%N) with false by lia. congruence. Qed.
Lemma str_bytes s : str_ok s -> bytes_ok s.
Proof. apply Forall_impl. unfold byte_ok. intros. lia. Qed.

Lemma printed_tokens j level : json_ok j -> tokens (ptext level 0 j ++ [10%N]) (toks j).
Proof.
  intros Hok. set (txt := ptext level 0 j ++ [10%N]).
  assert (str_ok txt) as Hs by (apply Forall_app; split; [apply ptext_ok; auto|repeat constructor]).
  pose proof (str_bytes _ Hs) as Hb. pose proof (visible_str _ Hs) as Hv.
  exists (st txt 0). split; [apply new_st; auto|]. rewrite <- (app_nil_r (toks j)).
  apply (lex_json txt Hb j Hok level 0%Z 0 [10%N]); [rewrite Hv; reflexivity|cbn; auto|].
  eapply lex_ws with (ws := [10%N]) (rest := []); [auto|rewrite Hv|(constructor; [unfold ws_char; auto|constructor])|].
  - unfold txt. cbn [Nat.add]. rewrite skipn_app, Nat.sub_diag, skipn_all2 by lia. reflexivity.
  - eapply tk_end. apply nt_eof; auto. rewrite Hv. unfold txt. apply skipn_all2. rewrite app_length. cbn. lia.
Qed.

Lemma spelled_prefix_len j L : spelled j L -> forall j' L' rest rest', spelled j' L' -> L ++ rest = L' ++ rest' -> built j = built j' /\ rest = rest'.
Proof.
  intros H j' L' rest rest' H' E. pose proof (pvalue_complete _ _ H (3 * length L + 3 * length L') rest ltac:(lia)) as E1.
  pose proof (pvalue_complete _ _ H' (3 * length L + 3 * length L') rest' ltac:(lia)) as E2. rewrite E in E1. split; congruence.
Qed.

Lemma round_trip h p j r t level : tree_at h r t -> iid t = p -> strip t = gen j -> NoDup (ids t) -> json_ok j -> composite j -> room level 0 (depth j) ->
  exists txt, tree_fprint h (Some p) level = Ok txt /\ str_ok txt /\
  forall h0, exists h' q ts, tree_from_string h0 txt = Ok (h', q) /\ iid ts = q /\ tree_at h' None ts /\ NoDup (ids ts) /\ strip ts = gen (built j) /\
    Forall (fun i => length h0 <= i) (ids ts) /\ length h0 <= length h' /\ forall i, i < length h0 -> cell h' i = cell h0 i.
Proof.
  intros Hat <- Hs Hnd Hok Hc Hroom. exists (ptext level 0 j ++ [10%N]). split; [|split].
  - unfold tree_fprint. rewrite (print_tree h t r j Hat Hs); [reflexivity| |auto].
    assert (length (ids t) <= length h); [|lia]. apply NoDup_len; auto. intros q Hq. destruct (tree_cells _ _ _ Hat q Hq) as (n & Hn). eapply cell_lt; eauto.
  - apply Forall_app; split; [apply ptext_ok; auto|repeat constructor].
  - intros h0. assert (str_ok (ptext level 0 j ++ [10%N])) as Hso by (apply Forall_app; split; [apply ptext_ok; auto|repeat constructor]).
    destruct (parse_total _ (str_bytes _ Hso) h0 (toks j) (printed_tokens j level Hok)) as [(j' & L0 & rest & E & Hsp & Hcj & h' & q & ts & A1 & A2 & A3 & A4 & A5 & A6)|[Hno _]].
    + rewrite <- (app_nil_r (toks j)) in E. destruct (spelled_prefix_len _ _ (toks_spelled j) _ _ _ _ Hsp E) as [Eb _]. rewrite <- Eb in A5.
      exists h', q, ts. auto 10.
    + exfalso. apply (Hno j (toks j) []); auto using toks_spelled. rewrite app_nil_r. auto.
Qed.

Lemma plain_built j : plain j -> built j = j.
Proof.
  induction j as [ms IH|vs IH|s|s|s| | |] using json_ind'; intros H; inversion H; subst; cbn; try reflexivity; f_equal.
  - clear H. rewrite <- (map_id ms) at 2. apply map_ext_in. intros [k w] Hi. cbn. f_equal. rewrite Forall_forall in *. apply (IH _ Hi). apply (H1 _ Hi).
  - clear H. rewrite <- (map_id vs) at 2. apply map_ext_in. intros w Hi. rewrite Forall_forall in *. apply (IH _ Hi). apply (H1 _ Hi).
Qed.
