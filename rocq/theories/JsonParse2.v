(** The pure parser and the token grammar; length of token lists. *)
From Verif Require Import Base BaseLemmas Heap StrModel LexModel LexSpec LexProofs JsonModel JsonSpec JsonLexProofs JsonProofs JsonParseProofs.
Local Open Scope nat_scope.

(** ** The grammar *)
Lemma spelled_pos j L : spelled j L -> 1 <= length L.
Proof. destruct 1; cbn; lia. Qed.

Lemma sep_cons2 {A} (x : A) l l' ls : sep x (l :: l' :: ls) = l ++ x :: sep x (l' :: ls).
Proof. reflexivity. Qed.

Lemma spelled_ind' (P : json -> list token -> Prop) :
  (forall ms ls, Forall2 (fun m l => exists l', l = Tstr (fst m) :: Tcolon :: l' /\ spelled (snd m) l' /\ P (snd m) l') ms ls -> P (JObj ms) (Tlcb :: sep Tcomma ls ++ [Trcb])) ->
  (forall vs ls, Forall2 (fun v l => spelled v l /\ P v l) vs ls -> P (JArr vs) (Tlsb :: sep Tcomma ls ++ [Trsb])) ->
  (forall s, P (JStr s) [Tstr s]) -> (forall s, P (JInt s) [Tint s]) -> (forall s, P (JFp s) [Tfp s]) ->
  P JTrue [Ttrue] -> P JFalse [Tfalse] -> P JNull [Tnull] -> forall j L, spelled j L -> P j L.
Proof.
  intros H1 H2 H3 H4 H5 H6 H7 H8. fix IH 3. intros j L H. destruct H as [ms ls H|vs ls H| | | | | | ]; auto.
  - apply H1. induction H as [|m l ms ls (l' & E & Hl) H IHf]; constructor; [exists l'; auto|exact IHf].
  - apply H2. induction H as [|v l vs ls Hl H IHf]; constructor; [split; auto|exact IHf].
Qed.

Definition no_comma (L : list token) : Prop := match L with Tcomma :: _ => False | _ => True end.

Lemma pelems_complete vs ls : Forall2 (fun v l => spelled v l /\ forall fuel rest, 3 * length l <= fuel -> pvalue fuel (l ++ rest) = Ok (built v, rest)) vs ls -> vs <> [] ->
  forall fuel rest, no_comma rest -> 3 * length (sep Tcomma ls) + 1 <= fuel -> pelems fuel (sep Tcomma ls ++ rest) = Ok (map built vs, rest).
Proof.
  induction 1 as [|v l vs ls (Hs & Hv) H IH]; intros Hne fuel rest Hr Hf; [congruence|].
  destruct fuel as [|f]; [lia|]. cbn [pelems]. destruct H as [|v' l' vs ls H' H].
  - cbn [sep] in *. rewrite Hv by lia. cbn [bind]. destruct rest as [|[] rest]; try reflexivity. destruct Hr.
  - rewrite sep_cons2 in *. rewrite app_length in Hf. cbn [length] in Hf. rewrite <- app_assoc. rewrite Hv by lia. cbn [bind app].
    rewrite IH; [reflexivity|discriminate|auto|lia].
Qed.
Lemma pmems_complete ms ls : Forall2 (fun m l => exists l', l = Tstr (fst m) :: Tcolon :: l' /\ spelled (snd m) l' /\ forall fuel rest, 3 * length l' <= fuel -> pvalue fuel (l' ++ rest) = Ok (built (snd m), rest)) ms ls -> ms <> [] ->
  forall fuel rest, no_comma rest -> 3 * length (sep Tcomma ls) + 1 <= fuel -> pmems fuel (sep Tcomma ls ++ rest) = Ok (map (fun m => (fst m, built (snd m))) ms, rest).
Proof.
  induction 1 as [|m l ms ls (l1 & -> & Hs & Hv) H IH]; intros Hne fuel rest Hr Hf; [congruence|].
  destruct fuel as [|f]; [lia|]. cbn [pmems]. destruct H as [|m' l' ms ls H' H].
  - cbn [sep] in *. cbn [length app] in *. rewrite Hv by lia. cbn [bind]. destruct rest as [|[] rest]; try reflexivity. destruct Hr.
  - rewrite sep_cons2 in *. rewrite app_length in Hf. cbn [length] in Hf. rewrite <- app_assoc. cbn [app]. rewrite Hv by lia. cbn [bind app].
    rewrite IH; [reflexivity|discriminate|auto|lia].
Qed.

Lemma sep_head {A} (P : list A -> Prop) (x : A) l ls : l <> [] -> exists a r, l = a :: r /\ exists r', sep x (l :: ls) = a :: r'.
Proof. destruct l as [|a l]; [congruence|]. intros _. exists a, l. split; auto. destruct ls; cbn; eauto. Qed.

Lemma spelled_head j L : spelled j L -> match L with [] | Trsb :: _ | Trcb :: _ | Tcomma :: _ => False | _ => True end.
Proof. destruct 1; exact I. Qed.

Lemma pvalue_complete j L : spelled j L -> forall fuel rest, 3 * length L <= fuel -> pvalue fuel (L ++ rest) = Ok (built j, rest).
Proof.
  induction 1 as [ms ls H|vs ls H| | | | | |] using spelled_ind'; intros fuel rest Hf; cbn [length] in Hf; rewrite ?app_length in Hf; cbn [length] in Hf;
    (destruct fuel as [|f]; [lia|]); try reflexivity; cbn [app pvalue built]; rewrite <- app_assoc; cbn [app]; (destruct f as [|f]; [lia|]).
  - cbn [pobj]. destruct ms as [|m ms]; inversion H as [|? l ? ls' (l' & El & Hs & Hv) H']; subst ls; [reflexivity|].
    assert (pmems f (sep Tcomma (l :: ls') ++ Trcb :: rest) = Ok (map (fun m => (fst m, built (snd m))) (m :: ms), Trcb :: rest)) as E.
    { apply pmems_complete; [exact H|discriminate|exact I|lia]. }
    destruct (sep_head (fun _ => True) Tcomma l ls') as (a & r & Ea & r' & Er); [subst; discriminate|]. rewrite El in Ea. injection Ea as <- _.
    rewrite Er in *. cbn [app] in *. rewrite E. reflexivity.
  - cbn [parr]. destruct vs as [|v vs]; inversion H as [|? l ? ls' (Hs & Hv) H']; subst ls; [reflexivity|].
    assert (pelems f (sep Tcomma (l :: ls') ++ Trsb :: rest) = Ok (map built (v :: vs), Trsb :: rest)) as E.
    { apply pelems_complete; [exact H|discriminate|exact I|lia]. }
    pose proof (spelled_head _ _ Hs) as Hh.
    destruct (sep_head (fun _ => True) Tcomma l ls') as (a & r & Ea & r' & Er); [destruct l; [contradiction|discriminate]|]. rewrite Ea in Hh.
    rewrite Er in *. cbn [app] in *. destruct a; try contradiction; rewrite E; reflexivity.
Qed.

(** Soundness and termination. *)
Definition Sv (fuel : nat) : Prop := forall L,
  match pvalue fuel L with
  | Ok (j, L') => exists v L0, L = L0 ++ L' /\ spelled v L0 /\ built v = j
  | UB => False | NoFuel => fuel < 3 * length L + 1 | Fatal => True end.
Definition Sa (fuel : nat) : Prop := forall L,
  match parr fuel L with
  | Ok (j, L') => exists v L0, Tlsb :: L = L0 ++ L' /\ spelled v L0 /\ built v = j /\ composite v
  | UB => False | NoFuel => fuel < 3 * length L + 3 | Fatal => True end.
Definition So (fuel : nat) : Prop := forall L,
  match pobj fuel L with
  | Ok (j, L') => exists v L0, Tlcb :: L = L0 ++ L' /\ spelled v L0 /\ built v = j /\ composite v
  | UB => False | NoFuel => fuel < 3 * length L + 3 | Fatal => True end.
Definition Se (fuel : nat) : Prop := forall L,
  match pelems fuel L with
  | Ok (js, L') => exists vs ls, L = sep Tcomma ls ++ L' /\ ls <> [] /\ Forall2 spelled vs ls /\ map built vs = js
  | UB => False | NoFuel => fuel < 3 * length L + 2 | Fatal => True end.
Definition Sm (fuel : nat) : Prop := forall L,
  match pmems fuel L with
  | Ok (js, L') => exists ms ls, L = sep Tcomma ls ++ L' /\ ls <> [] /\
      Forall2 (fun m l => exists l', l = Tstr (fst m) :: Tcolon :: l' /\ spelled (snd m) l') ms ls /\ map (fun m => (fst m, built (snd m))) ms = js
  | UB => False | NoFuel => fuel < 3 * length L + 2 | Fatal => True end.

Lemma sound fuel : Sv fuel /\ Sa fuel /\ So fuel /\ Se fuel /\ Sm fuel.
Proof.
  induction fuel as [|f (IHv & IHa & IHo & IHe & IHm)]; [repeat split; intros L; cbn; lia|]. split; [|split; [|split; [|split]]]; intros L.
  - cbn [pvalue]. destruct L as [|k L]; [exact I|]. destruct k; try exact I.
    + specialize (IHa L). destruct (parr f L) as [[j L']| | |]; cbn [length]; try lia; try exact I. destruct IHa as (v & L0 & ? & ? & ? & ?). eauto.
    + specialize (IHo L). destruct (pobj f L) as [[j L']| | |]; cbn [length]; try lia; try exact I. destruct IHo as (v & L0 & ? & ? & ? & ?). eauto.
    + exists JTrue, [Ttrue]. repeat split; constructor.
    + exists JFalse, [Tfalse]. repeat split; constructor.
    + exists JNull, [Tnull]. repeat split; constructor.
    + exists (JInt s), [Tint s]. repeat split; constructor.
    + exists (JFp s), [Tfp s]. repeat split; constructor.
    + exists (JStr s), [Tstr s]. repeat split; constructor.
  - cbn [parr]. assert (match (let* (vs, L1) := pelems f L in match L1 with Trsb :: L2 => Ok (JArr vs, L2) | _ => Fatal end) with
      | Ok (j, L') => exists v L0, Tlsb :: L = L0 ++ L' /\ spelled v L0 /\ built v = j /\ composite v
      | UB => False | NoFuel => S f < 3 * length L + 3 | Fatal => True end) as G.
    { specialize (IHe L). destruct (pelems f L) as [[js L1]| | |]; cbn [bind]; try lia; try exact I.
      destruct IHe as (vs & ls & -> & _ & Hf & <-). destruct L1 as [|[] L2]; try exact I.
      exists (JArr vs), (Tlsb :: sep Tcomma ls ++ [Trsb]). split; [cbn; rewrite <- app_assoc; reflexivity|]. split; [constructor; auto|]. split; [reflexivity|right; eauto]. }
    destruct L as [|[] L]; try exact G. exists (JArr []), [Tlsb; Trsb]. split; [reflexivity|]. split; [apply (sp_arr [] []); constructor|]. split; [reflexivity|right; eauto].
  - cbn [pobj]. assert (match (let* (vs, L1) := pmems f L in match L1 with Trcb :: L2 => Ok (JObj vs, L2) | _ => Fatal end) with
      | Ok (j, L') => exists v L0, Tlcb :: L = L0 ++ L' /\ spelled v L0 /\ built v = j /\ composite v
      | UB => False | NoFuel => S f < 3 * length L + 3 | Fatal => True end) as G.
    { specialize (IHm L). destruct (pmems f L) as [[js L1]| | |]; cbn [bind]; try lia; try exact I.
      destruct IHm as (vs & ls & -> & _ & Hf & <-). destruct L1 as [|[] L2]; try exact I.
      exists (JObj vs), (Tlcb :: sep Tcomma ls ++ [Trcb]). split; [cbn; rewrite <- app_assoc; reflexivity|]. split; [constructor; auto|]. split; [reflexivity|left; eauto]. }
    destruct L as [|[] L]; try exact G. exists (JObj []), [Tlcb; Trcb]. split; [reflexivity|]. split; [apply (sp_obj [] []); constructor|]. split; [reflexivity|left; eauto].
  - cbn [pelems]. specialize (IHv L). destruct (pvalue f L) as [[j L1]| | |]; cbn [bind]; try lia; try exact I.
    destruct IHv as (v & L0 & -> & Hs & <-). pose proof (spelled_pos _ _ Hs) as Hp.
    assert (exists vs ls, L0 ++ L1 = sep Tcomma ls ++ L1 /\ ls <> [] /\ Forall2 spelled vs ls /\ map built vs = [built v]) as G.
    { exists [v], [L0]. split; [reflexivity|]. split; [discriminate|]. split; [repeat constructor; auto|reflexivity]. }
    destruct L1 as [|[] L2]; try exact G. specialize (IHe L2). rewrite app_length. cbn [length].
    destruct (pelems f L2) as [[js L3]| | |]; cbn [bind]; try lia; try exact I.
    destruct IHe as (vs & ls & -> & Hne & Hf & <-). exists (v :: vs), (L0 :: ls). split; [|split; [discriminate|split; [constructor; auto|reflexivity]]].
    destruct ls as [|l ls]; [congruence|]. rewrite sep_cons2, <- app_assoc. reflexivity.
  - cbn [pmems]. destruct L as [|[] L]; try exact I. destruct L as [|[] L]; try exact I.
    specialize (IHv L). cbn [length]. destruct (pvalue f L) as [[j L1]| | |]; cbn [bind]; try lia; try exact I.
    destruct IHv as (v & L0 & -> & Hs & <-).
    assert (exists ms ls, Tstr s :: Tcolon :: L0 ++ L1 = sep Tcomma ls ++ L1 /\ ls <> [] /\
      Forall2 (fun m l => exists l', l = Tstr (fst m) :: Tcolon :: l' /\ spelled (snd m) l') ms ls /\ map (fun m => (fst m, built (snd m))) ms = [(s, built v)]) as G.
    { exists [(s, v)], [Tstr s :: Tcolon :: L0]. split; [reflexivity|]. split; [discriminate|]. split; [|reflexivity]. constructor; [exists L0; auto|constructor]. }
    destruct L1 as [|[] L2]; try exact G. specialize (IHm L2). rewrite app_length. cbn [length].
    destruct (pmems f L2) as [[js L3]| | |]; cbn [bind]; try lia; try exact I.
    destruct IHm as (ms & ls & -> & Hne & Hf & <-). exists ((s, v) :: ms), ((Tstr s :: Tcolon :: L0) :: ls).
    split; [|split; [discriminate|split; [constructor; [exists L0; auto|auto]|reflexivity]]].
    destruct ls as [|l ls]; [congruence|]. rewrite sep_cons2. cbn. rewrite <- app_assoc. reflexivity.
Qed.

(** ** Tokens use up text *)
Section Len.
Variable t : list N.
Hypothesis Ht : bytes_ok t.
Definition reach (n : nat) (l : lexer) : Prop := exists m, l = st t m /\ n <= m <= length (visible t).

Lemma consume_reach n l l' : reach n l -> consume t l = Ok l' -> reach n l'.
Proof.
  intros (m & -> & Hm) E. destruct (Nat.lt_ge_cases m (length (visible t))) as [G|G].
  - rewrite consume_st in E by auto. injection E as <-. exists (S m). split; [auto|lia].
  - rewrite consume_end in E by auto. injection E as <-. exists m. split; [auto|lia].
Qed.
Lemma consume_reach_S n l l' : reach n l -> cur l <> EOF -> consume t l = Ok l' -> reach (S n) l'.
Proof.
  intros (m & -> & Hm) Hc E. destruct (Nat.lt_ge_cases m (length (visible t))) as [G|G].
  - rewrite consume_st in E by auto. injection E as <-. exists (S m). split; [auto|lia].
  - exfalso. apply Hc. cbn [cur st]. apply char_at_ge. auto.
Qed.
Lemma reach_le n n' l : n' <= n -> reach n l -> reach n' l.
Proof. intros H (m & -> & Hm). exists m. split; [auto|lia]. Qed.
Lemma digits_reach fuel : forall n l l', reach n l -> skip_digits fuel t l = Ok l' -> reach n l' /\ (isdigit (cur l) = Ok true -> reach (S n) l').
Proof.
  induction fuel as [|f IH]; intros n l l' Hr E; [discriminate|]. cbn [skip_digits] in E. apply bind_ok in E as (d & Ed & E). destruct d.
  - apply bind_ok in E as (l1 & E1 & E). assert (reach (S n) l1) as H1.
    { eapply consume_reach_S; eauto. intros G. rewrite G in Ed. discriminate. }
    destruct (IH (S n) l1 l' H1 E) as [H2 _]. split; [eapply reach_le; [|eauto]; lia|auto].
  - injection E as <-. split; [auto|congruence].
Qed.
Lemma ws_reach fuel : forall n l l', reach n l -> skip_ws fuel t l = Ok l' -> reach n l'.
Proof.
  induction fuel as [|f IH]; intros n l l' Hr E; [discriminate|]. cbn [skip_ws] in E. destruct (is_ws (cur l)).
  - apply bind_ok in E as (l1 & E1 & E). eapply IH; [|eauto]. eapply consume_reach; eauto.
  - injection E as <-. auto.
Qed.
Lemma quoted_reach fuel : forall n l l', reach n l -> quoted_loop fuel t l = Ok l' -> reach n l'.
Proof.
  induction fuel as [|f IH]; intros n l l' Hr E; [discriminate|]. cbn [quoted_loop] in E. apply bind_ok in E as (l1 & E1 & E).
  assert (reach n l1) as H1.
  { destruct (cur l =? 92)%Z; [|eapply consume_reach; eauto]. apply bind_ok in E1 as (l2 & E2 & E1). destruct (existsb _ _); [|discriminate].
    eapply consume_reach; [|eauto]. eapply consume_reach; eauto. }
  destruct (_ && _); [eauto|]. injection E as <-. auto.
Qed.
Lemma match_reach start s : forall n l ok l', reach n l -> reach n start -> match_loop t start l s = Ok (ok, l') -> reach n l'.
Proof.
  induction s as [|c s IH]; intros n l ok l' Hr Hs E; cbn [match_loop] in E; [injection E as _ <-; auto|]. destruct (cur l =? schar c)%Z.
  - apply bind_ok in E as (l1 & E1 & E). eapply IH; [|exact Hs|exact E]. apply (consume_reach n l l1); auto.
  - injection E as _ <-. auto.
Qed.

Lemma number_reach n l l' len ty : reach n l -> (cur l = 45%Z \/ isdigit (cur l) = Ok true) -> lexer_NUMBER t l = Ok (l', len, ty) -> reach (S n) l'.
Proof.
  intros Hr Hc E. unfold lexer_NUMBER in E. apply bind_ok in E as (l1 & E1 & E). apply bind_ok in E as (l2 & E2 & E).
  assert (reach (S n) l2) as H2.
  { destruct (Z.eqb_spec (cur l) 45) as [Hm|Hm].
    - refine (proj1 (digits_reach _ (S n) l1 l2 _ E2)). eapply consume_reach_S; eauto. rewrite Hm. discriminate.
    - injection E1 as <-. destruct (digits_reach _ n l l2 Hr E2) as [_ H]. apply H. tauto. }
  clear E1 E2. apply bind_ok in E as (c0 & _ & E).
  destruct (_ && _); [discriminate|]. destruct (_ && _); [discriminate|]. apply bind_ok in E as (c1 & _ & E). destruct (_ && _); [discriminate|].
  destruct (_ && _); [injection E as <- _ _; auto|]. apply bind_ok in E as (l3 & E3 & E). apply bind_ok in E as (l4 & E4 & E). injection E as <- _ _.
  assert (reach (S n) l3) as H3.
  { destruct (cur l2 =? 46)%Z; [|injection E3 as <-; auto]. apply bind_ok in E3 as (l5 & E5 & E3). apply bind_ok in E3 as (d & _ & E3). destruct d; [|discriminate].
    refine (proj1 (digits_reach _ (S n) l5 l3 _ E3)). eapply consume_reach; eauto. }
  destruct (_ || _); [|injection E4 as <-; auto]. apply bind_ok in E4 as (l5 & E5 & E4). apply bind_ok in E4 as (l6 & E6 & E4). apply bind_ok in E4 as (d & _ & E4). destruct d; [|discriminate].
  refine (proj1 (digits_reach _ (S n) l6 l4 _ E4)). assert (reach (S n) l5) by (eapply consume_reach; eauto). destruct (_ || _); [eapply consume_reach; eauto|injection E6 as <-; auto].
Qed.

Lemma next_reach n l l' k : reach n l -> next_token t l = Ok (l', k) -> k <> Teof -> reach (S n) l'.
Proof.
  intros Hr E Hk. unfold next_token in E. apply bind_ok in E as (l1 & E1 & E). apply (ws_reach _ n) in E1; auto.
  destruct (Z.eqb_spec (cur l1) EOF) as [He|He]; [injection E; congruence|].
  assert (forall k, punct t l1 k = Ok (l', k) -> reach (S n) l') as Hp.
  { intros k' Hp. unfold punct in Hp. apply bind_ok in Hp as (l2 & E2 & Hp). injection Hp as <-. eapply consume_reach_S; eauto. }
  assert (forall s k', word t l1 s k' = Ok (l', k) -> reach (S n) l') as Hw.
  { intros s k' Hw. unfold word in Hw. apply bind_ok in Hw as (l2 & E2 & Hw). apply bind_ok in Hw as ((ok & l3) & E3 & Hw). destruct ok; [|discriminate].
    injection Hw as <- <-. assert (reach (S n) l2) by (eapply consume_reach_S; eauto). eapply match_reach; [| |exact E3]; auto. }
  assert (forall k', punct t l1 k' = Ok (l', k) -> reach (S n) l') as Hp'.
  { intros k' G. apply (Hp k'). rewrite G. unfold punct in G. apply bind_ok in G as (l2 & E2 & G). injection G as _ <-. reflexivity. }
  destruct (_ =? _)%Z; [eauto|]. destruct (_ =? _)%Z; [eauto|]. destruct (_ =? _)%Z; [eauto|]. destruct (_ =? _)%Z; [eauto|]. destruct (_ =? _)%Z; [eauto|]. destruct (_ =? _)%Z; [eauto|].
  destruct (_ =? _)%Z; [eauto|]. destruct (_ =? _)%Z; [eauto|]. destruct (_ =? _)%Z; [eauto|].
  destruct (Z.eqb_spec (cur l1) 34) as [Hq|Hq].
  - apply bind_ok in E as (((l2 & s0) & len) & E2 & E). apply bind_ok in E as (s & _ & E). injection E as <- _.
    unfold lexer_QUOTED_STRING in E2. apply bind_ok in E2 as (l3 & E3 & E2). destruct (Z.eqb_spec (cur l3) 34) as [H3|H3]; [|discriminate]. cbn [negb] in E2.
    apply bind_ok in E2 as (l4 & E4 & E2). injection E2 as <- _ _. apply (quoted_reach _ n) in E3; auto. eapply consume_reach_S; eauto. rewrite H3. discriminate.
  - apply bind_ok in E as (num & En & E). destruct num; [|discriminate]. apply bind_ok in E as (((l2 & len) & ty) & E2 & E). injection E as <- _.
    eapply number_reach; eauto. destruct (Z.eqb_spec (cur l1) 45); auto.
Qed.

Lemma tokens_len l L n : tokens_from t l L -> reach n l -> n + length L <= length (visible t).
Proof.
  intros H. revert n. induction H as [l l' E|l l' k L E Hk HL IH]; intros n Hr; cbn [length].
  - destruct Hr as (m & _ & Hm). lia.
  - specialize (IH (S n)). enough (reach (S n) l') by (specialize (IH H); lia). eapply next_reach; eauto.
Qed.
Lemma visible_len : length (visible t) <= length t.
Proof. destruct (visible_cases t) as (r & E & _). apply (f_equal (@length N)) in E. rewrite app_length in E. lia. Qed.

(** ** The whole parser *)
Lemma top_rest rest k ty p h l L : rest_ok t rest k ty p -> at_tok t (mkPar l k h None None) (k :: L) ->
  match p L with
  | Ok (j, L') => exists jp' q ts, (let* (jp, n) := enter (mkPar l k h None None) (node_new h ty None) in rest n jp) = Ok jp' /\ proot jp' = Some q /\
       tree_at (pheap jp') None (IT q ty None ts) /\ NoDup (ids (IT q ty None ts)) /\ strip (IT q ty None ts) = gen j /\
       Forall (fun i => length h <= i) (ids (IT q ty None ts)) /\ length h <= length (pheap jp') /\ forall i, i < length h -> cell (pheap jp') i = cell h i
  | r => same r (let* (jp, n) := enter (mkPar l k h None None) (node_new h ty None) in rest n jp)
  end.
Proof.
  intros Hrest Hat. cbn [enter node_new halloc set_heap set_root set_cur proot plex ptok pheap pcur bind].
  set (jp := mkPar l k (h ++ [Some (mkNode ty None None None None)]) (Some (length h)) (Some (length h))).
  assert (ctx (pheap jp) (length h) ty None None []) as Hc.
  { split; [apply cell_alloc_new|]. split; [exact I|]. repeat constructor. intros []. }
  specialize (Hrest (length h) jp L None Hat). specialize (Hrest ltac:(discriminate) Hc). destruct (p L) as [[j L']| | |]; try exact Hrest.
  destruct Hrest as (jp' & ks & E & _ & Hr & _ & (Hctx & Hle & Hfr & Hf) & Hg). cbn [app] in Hctx. apply ctx_tree in Hctx as [H1 H2].
  assert (length (pheap jp) = S (length h)) as Hlen by (cbn; rewrite app_length; cbn; lia).
  exists jp', (length h), ks. split; [exact E|]. split; [rewrite Hr; reflexivity|]. split; [auto|]. split; [auto|]. split; [auto|]. split; [|split; [lia|]].
  - cbn [ids]. constructor; [auto|]. eapply Forall_impl; [|exact Hfr]. cbn beta. intros. lia.
  - intros i Hi. rewrite Hf; [|lia|lia|auto]. cbn. apply cell_app_old. auto.
Qed.

Theorem parse_total h L : tokens t L ->
  (exists j L0 rest, L = L0 ++ rest /\ spelled j L0 /\ composite j /\
     exists h' q ts, tree_from_string h t = Ok (h', q) /\ iid ts = q /\ tree_at h' None ts /\ NoDup (ids ts) /\ strip ts = gen (built j) /\
       Forall (fun i => length h <= i) (ids ts) /\ length h <= length h' /\ forall i, i < length h -> cell h' i = cell h i) \/
  ((forall j L0 rest, L = L0 ++ rest -> spelled j L0 -> ~ composite j) /\ tree_from_string h t = Fatal).
Proof.
  intros (l & Hl & HL). rewrite (new_st t Ht) in Hl. injection Hl as <-.
  assert (length L <= length t) as Hlen.
  { pose proof visible_len. enough (0 + length L <= length (visible t)) by lia. eapply tokens_len; eauto. exists 0. split; [auto|lia]. }
  unfold tree_from_string. rewrite (new_st t Ht). cbn [bind].
  assert (forall k l' L' ty rest p (pp : nat -> list N -> parser -> res parser), next_token t (st t 0) = Ok (l', k) -> k <> Teof -> tokens_from t l' L' -> L = k :: L' ->
     rest_ok t rest k ty p -> 
     (match p L' with Ok (j, L2) => exists v L0, k :: L' = L0 ++ L2 /\ spelled v L0 /\ built v = j /\ composite v
      | UB => False | NoFuel => False | Fatal => forall j L0 rest, L = L0 ++ rest -> spelled j L0 -> ~ composite j end) ->
     let R := (let* jp := (let* (jp, n) := enter (mkPar l' k h None None) (node_new h ty None) in rest n jp) in match proot jp with None => UB | Some r => Ok (pheap jp, r) end) in
     (exists j L0 rest, L = L0 ++ rest /\ spelled j L0 /\ composite j /\
     exists h' q ts, R = Ok (h', q) /\ iid ts = q /\ tree_at h' None ts /\ NoDup (ids ts) /\ strip ts = gen (built j) /\
       Forall (fun i => length h <= i) (ids ts) /\ length h <= length h' /\ forall i, i < length h -> cell h' i = cell h i) \/
     ((forall j L0 rest, L = L0 ++ rest -> spelled j L0 -> ~ composite j) /\ R = Fatal)) as Hgo.
  { intros k l' L' ty rest p pp E Hk HL' EL Hrest Hp R. pose proof (top_rest rest k ty p h l' L' Hrest) as Htop. specialize (Htop ltac:(split; auto)).
    destruct (p L') as [[j L2]| | |]; try contradiction.
    - destruct Hp as (v & L0 & E1 & Hs & <- & Hcv). destruct Htop as (jp' & q & ts & Er & Hq & A1 & A2 & A3 & A4 & A5 & A6). left. exists v, L0, L2.
      split; [congruence|]. split; [auto|]. split; [auto|]. exists (pheap jp'), q, (IT q ty None ts). split; [unfold R; rewrite Er; cbn [bind]; rewrite Hq; reflexivity|]. auto 10.
    - right. split; [exact Hp|]. unfold R. unfold same in Htop. rewrite Htop. reflexivity. }
  inversion HL as [l l' E|l l' k L' E Hk HL']; subst; rewrite E; cbn [bind].
  - right. split; [|reflexivity]. intros j L0 rest E0 Hs. destruct L0; [|discriminate]. apply spelled_pos in Hs. cbn in Hs. lia.
  - cbn [length] in Hlen.
    assert (forall k0, k = k0 -> match k0 with Tlsb | Tlcb => False | _ => True end -> forall j L0 rest, k :: L' = L0 ++ rest -> spelled j L0 -> ~ composite j) as Hnc.
    { intros k0 -> Hk0 j L0 rest E0 Hs [(ms & ->)|(vs & ->)]; inversion Hs; subst; injection E0 as -> _; contradiction. }
    replace (3 * length t + 5) with (S (S (3 * length t + 3))) by lia. remember (S (3 * length t + 3)) as f eqn:Ef.
    assert (forall j L0 rest, k :: L' = L0 ++ rest -> spelled j L0 -> composite j ->
              (k = Tlsb -> exists r, parr (S f) L' = Ok r) /\ (k = Tlcb -> exists r, pobj (S f) L' = Ok r)) as Hcomp.
    { intros j L0 rest E0 Hs Hc. assert (length L0 <= S (length L')) as Hl0 by (apply (f_equal (@length token)) in E0; rewrite app_length in E0; cbn in E0; lia).
      pose proof (pvalue_complete j L0 Hs (S (S f)) rest) as Hv. rewrite <- E0 in Hv. cbn [pvalue] in Hv. specialize (Hv ltac:(lia)).
      split; intros ->; eauto. }
    pose proof (sound (S f)) as (_ & Sa' & So' & _). specialize (Sa' L'). specialize (So' L').
    unfold parse_json. cbn [ptok].
    destruct k; try (right; split; [apply (Hnc _ eq_refl I)|reflexivity]).
    + destruct (refine t f) as (_ & He & _). apply (Hgo Tlsb l' L' JNT_ARRAY (arr_rest t f) (parr (S f)) parse_value E Hk HL' eq_refl (arr_rest_ok t f He)).
      destruct (parr (S f) L') as [[j L2]| | |] eqn:Ep; auto; [|lia]. intros j L0 rest E0 Hs Hc. destruct (Hcomp j L0 rest E0 Hs Hc) as [[r G] _]; congruence.
    + destruct (refine t f) as (_ & _ & Hm). apply (Hgo Tlcb l' L' JNT_OBJECT (obj_rest t f) (pobj (S f)) parse_value E Hk HL' eq_refl (obj_rest_ok t f Hm)).
      destruct (pobj (S f) L') as [[j L2]| | |] eqn:Ep; auto; [|lia]. intros j L0 rest E0 Hs Hc. destruct (Hcomp j L0 rest E0 Hs Hc) as [_ [r G]]; congruence.
Qed.

Lemma tokens_unique l L L' : tokens_from t l L -> tokens_from t l L' -> L = L'.
Proof.
  intros H. revert L'. induction H as [l l' E|l l' k L E Hk HL IH]; intros L' H'; inversion H'; subst; try congruence.
  assert (l'0 = l') as -> by congruence. f_equal; [congruence|auto].
Qed.
End Len.
