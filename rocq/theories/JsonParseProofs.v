(** The parser, related to a pure parser on token lists. *)
From Verif Require Import Base BaseLemmas Heap StrModel LexModel LexSpec JsonModel JsonSpec JsonProofs.
Local Open Scope nat_scope.

(** ** A pure parser *)
Fixpoint pvalue (fuel : nat) (L : list token) : res (json * list token) :=
  match fuel with
  | O => NoFuel
  | S f =>
    match L with
    | Tstr s :: L' => Ok (JStr s, L')
    | Tint s :: L' => Ok (JInt s, L')
    | Tfp s :: L' => Ok (JFp s, L')
    | Ttrue :: L' | Tfalse :: L' | Tnull :: L' => Ok (JTrue, L')
    | Tlsb :: L' => parr f L'
    | Tlcb :: L' => pobj f L'
    | _ => Fatal
    end
  end
with parr (fuel : nat) (L : list token) : res (json * list token) :=
  match fuel with
  | O => NoFuel
  | S f =>
    match L with
    | Trsb :: L' => Ok (JArr [], L')
    | _ => let* (vs, L1) := pelems f L in
           match L1 with Trsb :: L2 => Ok (JArr vs, L2) | _ => Fatal end
    end
  end
with pelems (fuel : nat) (L : list token) : res (list json * list token) :=
  match fuel with
  | O => NoFuel
  | S f =>
    let* (v, L1) := pvalue f L in
    match L1 with
    | Tcomma :: L2 => let* (vs, L3) := pelems f L2 in Ok (v :: vs, L3)
    | _ => Ok ([v], L1)
    end
  end
with pobj (fuel : nat) (L : list token) : res (json * list token) :=
  match fuel with
  | O => NoFuel
  | S f =>
    match L with
    | Trcb :: L' => Ok (JObj [], L')
    | _ => let* (ms, L1) := pmems f L in
           match L1 with Trcb :: L2 => Ok (JObj ms, L2) | _ => Fatal end
    end
  end
with pmems (fuel : nat) (L : list token) : res (list (list N * json) * list token) :=
  match fuel with
  | O => NoFuel
  | S f =>
    match L with
    | Tstr k :: Tcolon :: L0 =>
      let* (v, L1) := pvalue f L0 in
      match L1 with
      | Tcomma :: L2 => let* (ms, L3) := pmems f L2 in Ok ((k, v) :: ms, L3)
      | _ => Ok ([(k, v)], L1)
      end
    | _ => Fatal
    end
  end.

(** ** Heap steps: trees [ts] are appended to the children [ks] of [c]. *)
Definition step (h h' : heap node) (c : nat) (ty : N) (tx : option (list N)) (right : option nat) (ks ts : list itree) : Prop :=
  ctx h' c ty tx right (ks ++ ts) /\ length h <= length h' /\ Forall (fun q => length h <= q) (fids ts) /\
  (forall q, q < length h -> q <> c -> ~ In q (fids ks) -> cell h' q = cell h q).

Lemma step_trans h h1 h2 c ty tx right ks t1 t2 : ctx h c ty tx right ks ->
  step h h1 c ty tx right ks t1 -> step h1 h2 c ty tx right (ks ++ t1) t2 -> step h h2 c ty tx right ks (t1 ++ t2).
Proof.
  intros H0 (A1 & A2 & A3 & A4) (B1 & B2 & B3 & B4). split; [rewrite app_assoc; auto|]. split; [lia|]. split.
  - rewrite fids_app. apply Forall_app. split; auto. eapply Forall_impl; [|exact B3]. cbn. intros; lia.
  - intros q Hq Hc Hk. rewrite B4; auto; [lia|]. rewrite fids_app. intros Hi. apply in_app_or in Hi as [Hi|Hi]; [auto|].
    eapply Forall_forall in A3; [|exact Hi]. cbn in A3. lia.
Qed.

Lemma ctx_lt h c ty tx right ks q : ctx h c ty tx right ks -> In q (c :: fids ks) -> q < length h.
Proof. intros (H1 & H2 & H3) [<-|Hq]; [eapply cell_lt; eauto|]. eapply forest_lt; eauto. Qed.

(** A new childless node is added to [c]. *)
Lemma add_new h c ty tx right ks ty' tx' : ctx h c ty tx right ks ->
  exists h', add_child (h ++ [Some (mkNode ty' tx' None None None)]) c (length h) = Ok h' /\
    step h h' c ty tx right ks [IT (length h) ty' tx' []] /\ length h' = S (length h).
Proof.
  intros H. pose proof H as (H1 & H2 & H3). set (n := length h). set (h1 := h ++ [Some (mkNode ty' tx' None None None)]).
  assert (forall q, q < n -> cell h1 q = cell h q) as Hold by (intros q Hq; apply cell_app_old; auto).
  assert (ctx h1 c ty tx right ks) as Hc1.
  { split; [|split; auto].
    - rewrite Hold; auto. eapply ctx_lt; eauto. left. auto.
    - apply (forest_frame h); auto. intros q Hq. apply Hold. eapply forest_lt; eauto. }
  destruct (add_trees h1 c ty tx right ks (IT n ty' tx' []) []) as (h' & E & Hl & Hc & Hf); auto.
  - split; [|exact I]. apply tree_at_eq. split; [|exact I]. apply cell_alloc_new.
  - rewrite fids_app. cbn. rewrite app_comm_cons. apply NoDup_app_iff. split; [auto|]. split; [repeat constructor; auto|].
    intros q Hq [<-|[]]. pose proof (ctx_lt h c ty tx right ks n H Hq). unfold n in *. lia.
  - cbn [iid] in E. exists h'. split; [exact E|]. assert (length h' = S n) as Hl'.
    { rewrite Hl. unfold h1. rewrite app_length. cbn. unfold n. lia. }
    split; [|exact Hl']. split; [exact Hc|]. split; [unfold n in Hl'; lia|]. split.
    + cbn. constructor; auto.
    + intros q Hq Hqc Hqk. rewrite Hf, Hold; auto. intros G. apply Hqk. destruct (rev ks) as [|k r] eqn:E'; unfold last_id in G; rewrite E' in G; [discriminate|].
      injection G as ->. apply in_flat_map. exists k. split; [apply in_rev; rewrite E'; left; auto|apply iid_in].
Qed.

Section P.
Variable t : list N.

Definition at_tok (jp : parser) (L : list token) : Prop :=
  match L with
  | [] => ptok jp = Teof
  | k :: L' => ptok jp = k /\ k <> Teof /\ tokens_from t (plex jp) L'
  end.

Lemma consume_at jp L : tokens_from t (plex jp) L ->
  exists jp', parser_consume t jp = Ok jp' /\ at_tok jp' L /\ pheap jp' = pheap jp /\ proot jp' = proot jp /\ pcur jp' = pcur jp.
Proof.
  intros H. unfold parser_consume. inversion H as [l l' E|l l' k L' E Hk HL]; subst; rewrite E; cbn [bind];
    eexists; (split; [reflexivity|]); cbn; auto.
Qed.

Lemma match_punct jp k L ty : at_tok jp (k :: L) -> kind k = ty ->
  match k with Tlsb | Trsb | Tlcb | Trcb | Tcomma | Tcolon => True | _ => False end ->
  exists jp', parser_match t jp ty = Ok jp' /\ at_tok jp' L /\ pheap jp' = pheap jp /\ proot jp' = proot jp /\ pcur jp' = pcur jp.
Proof.
  intros (E & Hk & HL) Hty Hp. unfold parser_match. rewrite E, Hty.
  destruct (jtt_eq_dec ty ty) as [_|]; [|congruence]. destruct k; try contradiction; cbn [bind]; apply consume_at; auto.
Qed.
Lemma match_bad jp L ty : at_tok jp L -> match L with [] => ty <> KEOF | k :: _ => kind k <> ty end -> parser_match t jp ty = Fatal.
Proof.
  intros H Hn. unfold parser_match. destruct L as [|k L].
  - cbn in H. rewrite H. cbn [kind]. destruct (jtt_eq_dec KEOF ty); congruence.
  - destruct H as (-> & _). destruct (jtt_eq_dec (kind k) ty); congruence.
Qed.

(** Scalar tokens make a leaf. *)
Definition leaf_of (k : token) : option (N * option (list N)) :=
  match k with
  | Tstr s => Some (JNT_STRING, Some s)
  | Tint s => Some (JNT_INTEGER, Some s)
  | Tfp s => Some (JNT_FPNUMBER, Some s)
  | Ttrue | Tfalse | Tnull => Some (JNT_TRUE, None)
  | _ => None
  end.
Lemma match_leaf jp k L ty' tx' c ty tx right ks : at_tok jp (k :: L) -> leaf_of k = Some (ty', tx') ->
  pcur jp = Some c -> ctx (pheap jp) c ty tx right ks ->
  exists jp' p, parser_match t jp (kind k) = Ok jp' /\ at_tok jp' L /\ proot jp' = proot jp /\ pcur jp' = pcur jp /\
    step (pheap jp) (pheap jp') c ty tx right ks [IT p ty' tx' []].
Proof.
  intros (E & Hk & HL) Hlf Hcur Hctx. unfold parser_match. rewrite E.
  destruct (jtt_eq_dec (kind k) (kind k)) as [_|]; [|congruence].
  destruct (add_new _ c ty tx right ks ty' tx' Hctx) as (h' & Ha & Hs & _).
  assert (forall f : heap node -> heap node * nat, f = (fun h => node_new h ty' tx') ->
    exists jp' p, (let* jp := (let (h0, n) := f (pheap jp) in add_child_node (set_heap jp h0) n) in parser_consume t jp) = Ok jp' /\
      at_tok jp' L /\ proot jp' = proot jp /\ pcur jp' = pcur jp /\ step (pheap jp) (pheap jp') c ty tx right ks [IT p ty' tx' []]) as Hgo.
  { intros f ->. unfold node_new, halloc, add_child_node. cbn [set_heap pcur pheap]. rewrite Hcur, Ha. cbn [bind].
    destruct (consume_at (set_heap (set_heap jp (pheap jp ++ [Some {| jtype := ty'; jtext := tx'; jright := None; jdown := None; jlast := None |}])) h') L) as (jp' & E1 & E2 & E3 & E4 & E5); [exact HL|].
    exists jp', (length (pheap jp)). split; [exact E1|]. split; [auto|]. split; [rewrite E4; reflexivity|]. split; [cbn in E5; congruence|]. rewrite E3. cbn. exact Hs. }
  destruct k; try discriminate; cbn in Hlf; injection Hlf as <- <-; apply (Hgo (fun h => node_new h _ _)); reflexivity.
Qed.

(** ** Refinement *)
Definition same {A B} (r : res A) (o : res B) : Prop :=
  match r with Ok _ => False | Fatal => o = Fatal | UB => o = UB | NoFuel => o = NoFuel end.

Definition Rv (fuel : nat) : Prop := forall jp L c ty tx right ks,
  at_tok jp L -> pcur jp = Some c -> proot jp <> None -> ctx (pheap jp) c ty tx right ks ->
  match pvalue fuel L with
  | Ok (j, L') => exists jp' t', parse_value fuel t jp = Ok jp' /\ at_tok jp' L' /\ proot jp' = proot jp /\ pcur jp' = pcur jp /\
                    step (pheap jp) (pheap jp') c ty tx right ks [t'] /\ strip t' = gen j
  | r => same r (parse_value fuel t jp)
  end.
Definition Re (fuel : nat) : Prop := forall jp L c ty tx right ks,
  at_tok jp L -> pcur jp = Some c -> proot jp <> None -> ctx (pheap jp) c ty tx right ks ->
  match pelems fuel L with
  | Ok (vs, L') => exists jp' ts, parse_elements fuel t jp = Ok jp' /\ at_tok jp' L' /\ proot jp' = proot jp /\ pcur jp' = pcur jp /\
                    step (pheap jp) (pheap jp') c ty tx right ks ts /\ map strip ts = map gen vs
  | r => same r (parse_elements fuel t jp)
  end.
Definition gmem (ms : list (list N * json)) := flat_map (fun m => [GT JNT_STRING (Some (fst m)) []; gen (snd m)]) ms.
Definition Rm (fuel : nat) : Prop := forall jp L c ty tx right ks,
  at_tok jp L -> pcur jp = Some c -> proot jp <> None -> ctx (pheap jp) c ty tx right ks ->
  match pmems fuel L with
  | Ok (ms, L') => exists jp' ts, parse_members fuel t jp = Ok jp' /\ at_tok jp' L' /\ proot jp' = proot jp /\ pcur jp' = pcur jp /\
                    step (pheap jp) (pheap jp') c ty tx right ks ts /\ map strip ts = gmem ms
  | r => same r (parse_members fuel t jp)
  end.

(** The part of parse_array / parse_object after the node was entered. *)
Definition arr_rest (f : nat) (n : nat) (jp : parser) : res parser :=
  let* jp := parser_match t jp KLSB in
  match ptok jp with
  | Trsb => parser_match t jp KRSB
  | _ =>
    let cn := pcur jp in
    let* jp := parse_elements f t (set_cur jp (Some n)) in
    parser_match t (set_cur jp cn) KRSB
  end.
Definition obj_rest (f : nat) (n : nat) (jp : parser) : res parser :=
  let* jp := parser_match t jp KLCB in
  match ptok jp with
  | Trcb => parser_match t jp KRCB
  | _ =>
    let cn := pcur jp in
    let* jp := parse_members f t (set_cur jp (Some n)) in
    parser_match t (set_cur jp cn) KRCB
  end.

Definition rest_ok (rest : nat -> parser -> res parser) (k : token) (ty : N) (p : list token -> res (json * list token)) : Prop :=
  forall n jp L right, at_tok jp (k :: L) -> proot jp <> None -> ctx (pheap jp) n ty None right [] ->
  match p L with
  | Ok (j, L') => exists jp' ks, rest n jp = Ok jp' /\ at_tok jp' L' /\ proot jp' = proot jp /\ pcur jp' = pcur jp /\
                    step (pheap jp) (pheap jp') n ty None right [] ks /\ GT ty None (map strip ks) = gen j
  | r => same r (rest n jp)
  end.

Lemma step_refl h c ty tx right ks : ctx h c ty tx right ks -> step h h c ty tx right ks [].
Proof. intros H. split; [rewrite app_nil_r; auto|]. split; [lia|]. split; [constructor|auto]. Qed.

Lemma arr_rest_ok f : Re f -> rest_ok (arr_rest f) Tlsb JNT_ARRAY (parr (S f)).
Proof.
  intros He n jp L right Hat Hroot Hctx. unfold arr_rest.
  destruct (match_punct jp Tlsb L KLSB Hat eq_refl I) as (jp1 & -> & Hat1 & Hh1 & Hr1 & Hc1). cbn [bind].
  assert (match parr (S f) L with
          | Ok (j, L') => exists jp' ks, (let cn := pcur jp1 in let* jp := parse_elements f t (set_cur jp1 (Some n)) in parser_match t (set_cur jp cn) KRSB) = Ok jp' /\
              at_tok jp' L' /\ proot jp' = proot jp /\ pcur jp' = pcur jp /\ step (pheap jp) (pheap jp') n JNT_ARRAY None right [] ks /\ GT JNT_ARRAY None (map strip ks) = gen j
          | r => same r (let cn := pcur jp1 in let* jp := parse_elements f t (set_cur jp1 (Some n)) in parser_match t (set_cur jp cn) KRSB)
          end \/ exists L', L = Trsb :: L') as Hcase.
  { assert (match L with Trsb :: _ => True | _ => False end \/ ~ match L with Trsb :: _ => True | _ => False end) as [Hy|Hn]
      by (destruct L as [|[]]; cbn; tauto).
    { right. destruct L as [|[]]; try contradiction. eauto. }
    left. replace (parr (S f) L) with (let* (vs, L1) := pelems f L in match L1 with Trsb :: L2 => Ok (JArr vs, L2) | _ => Fatal end)
      by (destruct L as [|[]]; cbn in Hn; try tauto; reflexivity).
    specialize (He (set_cur jp1 (Some n)) L n JNT_ARRAY None right []). cbn [pcur set_cur proot pheap] in He.
    rewrite Hh1, Hr1 in He. specialize (He). destruct (pelems f L) as [[vs L1]| | |].
    - destruct He as (jp2 & ts & E & Hat2 & Hr2 & Hc2 & Hs2 & Hm2); auto. rewrite E. cbn [bind].
      assert (match L1 with Trsb :: _ => True | _ => False end \/ ~ match L1 with Trsb :: _ => True | _ => False end) as [Hy|Hn1]
        by (destruct L1 as [|[]]; cbn; tauto).
      + destruct L1 as [|[] L2]; try contradiction.
        destruct (match_punct (set_cur jp2 (pcur jp1)) Trsb L2 KRSB) as (jp3 & -> & Hat3 & Hh3 & Hr3 & Hc3); [exact Hat2|reflexivity|exact I|].
        exists jp3, ts. split; [auto|]. split; [auto|]. cbn in *. split; [congruence|]. split; [congruence|]. split; [rewrite Hh3; auto|]. rewrite Hm2. reflexivity.
      + replace (match L1 with Trsb :: L2 => Ok (JArr vs, L2) | _ => Fatal end) with (@Fatal (json * list token)) by (destruct L1 as [|[]]; cbn in Hn1; try tauto; reflexivity).
        cbn. apply (match_bad _ L1); [exact Hat2|]. destruct L1 as [|[]]; cbn in Hn1; try tauto; discriminate.
    - cbn. cbn in He. rewrite He; auto.
    - cbn. cbn in He. rewrite He; auto.
    - cbn. cbn in He. rewrite He; auto. }
  destruct Hcase as [Hcase|(L' & ->)].
  - destruct L as [|k L]; [cbn in Hat1; rewrite Hat1; exact Hcase|]. destruct Hat1 as (Ek & Hk1 & HL1). rewrite Ek. destruct k; try exact Hcase.
    cbn [parr]. destruct (match_punct jp1 Trsb L KRSB) as (jp2 & -> & Hat2 & Hh2 & Hr2 & Hc2); [split; auto|reflexivity|exact I|].
    exists jp2, []. split; [auto|]. split; [auto|]. split; [congruence|]. split; [congruence|]. split; [|reflexivity].
    rewrite Hh2, Hh1. apply step_refl; auto.
  - destruct Hat1 as (Ek & Hk1 & HL1). rewrite Ek.
    cbn [parr]. destruct (match_punct jp1 Trsb L' KRSB) as (jp2 & -> & Hat2 & Hh2 & Hr2 & Hc2); [split; auto|reflexivity|exact I|].
    exists jp2, []. split; [auto|]. split; [auto|]. split; [congruence|]. split; [congruence|]. split; [|reflexivity].
    rewrite Hh2, Hh1. apply step_refl; auto.
Qed.

Lemma obj_rest_ok f : Rm f -> rest_ok (obj_rest f) Tlcb JNT_OBJECT (pobj (S f)).
Proof.
  intros He n jp L right Hat Hroot Hctx. unfold obj_rest.
  destruct (match_punct jp Tlcb L KLCB Hat eq_refl I) as (jp1 & -> & Hat1 & Hh1 & Hr1 & Hc1). cbn [bind].
  assert (match pobj (S f) L with
          | Ok (j, L') => exists jp' ks, (let cn := pcur jp1 in let* jp := parse_members f t (set_cur jp1 (Some n)) in parser_match t (set_cur jp cn) KRCB) = Ok jp' /\
              at_tok jp' L' /\ proot jp' = proot jp /\ pcur jp' = pcur jp /\ step (pheap jp) (pheap jp') n JNT_OBJECT None right [] ks /\ GT JNT_OBJECT None (map strip ks) = gen j
          | r => same r (let cn := pcur jp1 in let* jp := parse_members f t (set_cur jp1 (Some n)) in parser_match t (set_cur jp cn) KRCB)
          end \/ exists L', L = Trcb :: L') as Hcase.
  { assert (match L with Trcb :: _ => True | _ => False end \/ ~ match L with Trcb :: _ => True | _ => False end) as [Hy|Hn]
      by (destruct L as [|[]]; cbn; tauto).
    { right. destruct L as [|[]]; try contradiction. eauto. }
    left. replace (pobj (S f) L) with (let* (vs, L1) := pmems f L in match L1 with Trcb :: L2 => Ok (JObj vs, L2) | _ => Fatal end)
      by (destruct L as [|[]]; cbn in Hn; try tauto; reflexivity).
    specialize (He (set_cur jp1 (Some n)) L n JNT_OBJECT None right []). cbn [pcur set_cur proot pheap] in He.
    rewrite Hh1, Hr1 in He. specialize (He). destruct (pmems f L) as [[vs L1]| | |].
    - destruct He as (jp2 & ts & E & Hat2 & Hr2 & Hc2 & Hs2 & Hm2); auto. rewrite E. cbn [bind].
      assert (match L1 with Trcb :: _ => True | _ => False end \/ ~ match L1 with Trcb :: _ => True | _ => False end) as [Hy|Hn1]
        by (destruct L1 as [|[]]; cbn; tauto).
      + destruct L1 as [|[] L2]; try contradiction.
        destruct (match_punct (set_cur jp2 (pcur jp1)) Trcb L2 KRCB) as (jp3 & -> & Hat3 & Hh3 & Hr3 & Hc3); [exact Hat2|reflexivity|exact I|].
        exists jp3, ts. split; [auto|]. split; [auto|]. cbn in *. split; [congruence|]. split; [congruence|]. split; [rewrite Hh3; auto|]. rewrite Hm2. reflexivity.
      + replace (match L1 with Trcb :: L2 => Ok (JObj vs, L2) | _ => Fatal end) with (@Fatal (json * list token)) by (destruct L1 as [|[]]; cbn in Hn1; try tauto; reflexivity).
        cbn. apply (match_bad _ L1); [exact Hat2|]. destruct L1 as [|[]]; cbn in Hn1; try tauto; discriminate.
    - cbn. cbn in He. rewrite He; auto.
    - cbn. cbn in He. rewrite He; auto.
    - cbn. cbn in He. rewrite He; auto. }
  destruct Hcase as [Hcase|(L' & ->)].
  - destruct L as [|k L]; [cbn in Hat1; rewrite Hat1; exact Hcase|]. destruct Hat1 as (Ek & Hk1 & HL1). rewrite Ek. destruct k; try exact Hcase.
    cbn [pobj]. destruct (match_punct jp1 Trcb L KRCB) as (jp2 & -> & Hat2 & Hh2 & Hr2 & Hc2); [split; auto|reflexivity|exact I|].
    exists jp2, []. split; [auto|]. split; [auto|]. split; [congruence|]. split; [congruence|]. split; [|reflexivity].
    rewrite Hh2, Hh1. apply step_refl; auto.
  - destruct Hat1 as (Ek & Hk1 & HL1). rewrite Ek.
    cbn [pobj]. destruct (match_punct jp1 Trcb L' KRCB) as (jp2 & -> & Hat2 & Hh2 & Hr2 & Hc2); [split; auto|reflexivity|exact I|].
    exists jp2, []. split; [auto|]. split; [auto|]. split; [congruence|]. split; [congruence|]. split; [|reflexivity].
    rewrite Hh2, Hh1. apply step_refl; auto.
Qed.

(** A composite node as a child of [c]. *)
Lemma composite_ok rest k ty' p : rest_ok rest k ty' p -> forall jp L c ty tx right ks,
  at_tok jp (k :: L) -> pcur jp = Some c -> proot jp <> None -> ctx (pheap jp) c ty tx right ks ->
  match p L with
  | Ok (j, L') => exists jp' t', (let* (jp, n) := enter jp (node_new (pheap jp) ty' None) in rest n jp) = Ok jp' /\ at_tok jp' L' /\ proot jp' = proot jp /\ pcur jp' = pcur jp /\
                    step (pheap jp) (pheap jp') c ty tx right ks [t'] /\ strip t' = gen j
  | r => same r (let* (jp, n) := enter jp (node_new (pheap jp) ty' None) in rest n jp)
  end.
Proof.
  intros Hrest jp L c ty tx right ks Hat Hcur Hroot Hctx.
  destruct (add_new _ c ty tx right ks ty' None Hctx) as (h1 & Ha & Hs1 & Hl1).
  assert (enter jp (node_new (pheap jp) ty' None) = Ok (set_heap jp h1, length (pheap jp))) as ->.
  { unfold enter, node_new, halloc, add_child_node. cbn [set_heap proot pcur pheap]. destruct (proot jp); [|congruence]. rewrite Hcur, Ha. reflexivity. }
  cbn [bind]. set (n := length (pheap jp)) in *. destruct Hs1 as (Hctx1 & Hle1 & Hfr1 & Hf1).
  assert (ctx h1 n ty' None None []) as Hn1.
  { destruct Hctx1 as (_ & Hf & _). apply chain_app_r in Hf. destruct Hf as [Hf _]. apply tree_at_eq in Hf as [Hf _]. split; [exact Hf|]. split; [exact I|]. repeat constructor. intros []. }
  specialize (Hrest n (set_heap jp h1) L None Hat Hroot Hn1). destruct (p L) as [[j L']| | |]; try exact Hrest.
  destruct Hrest as (jp2 & ks2 & E2 & Hat2 & Hr2 & Hc2 & Hs2 & Hg2). exists jp2, (IT n ty' None ks2). split; [auto|]. split; [auto|]. split; [auto|]. split; [auto|].
  split; [|cbn; auto]. cbn [set_heap pheap] in Hs2. destruct Hs2 as (Hctx2 & Hle2 & Hfr2 & Hf2). cbn [app] in Hctx2.
  destruct Hctx1 as (A1 & A2 & A3). pose proof Hctx as (B1 & B2 & B3).
  assert (forall q, In q (c :: fids ks) -> cell (pheap jp2) q = cell h1 q) as Hsame.
  { intros q Hq. assert (q < n) as Hqn by (eapply ctx_lt; eauto). apply Hf2; [lia|lia|auto]. }
  assert (fids [IT n ty' None ks2] = n :: fids ks2) as Hfid by (cbn; rewrite app_nil_r; reflexivity).
  split; [|split; [lia|split]].
  - split; [|split].
    + rewrite Hsame by (left; auto). rewrite A1. rewrite !last_id_snoc, !first_id_app. destruct ks; reflexivity.
    + apply forest_app_join in A2 as [[A2 _] A4]. apply forest_app_join. split.
      * split; [|exact I]. apply ctx_tree. exact Hctx2.
      * assert (forall u, In u ks -> forall q, In q (ids u) -> cell (pheap jp2) q = cell h1 q) as Hsame'.
        { intros u Hu q Hq. apply Hsame. right. apply in_flat_map. eauto. }
        clear - A4 Hsame'. induction ks as [|u ks IH]; [exact I|]. destruct A4 as [H1 H2]. split.
        -- apply (tree_frame h1); [apply Hsame'; left; auto|]. rewrite first_id_app in *. destruct ks; auto.
        -- apply IH; auto. intros w Hw. apply Hsame'. right. auto.
    + rewrite fids_app, Hfid, app_comm_cons. apply NoDup_app_iff. split; [auto|]. split; [apply Hctx2|].
      intros q Hq Hq2. assert (q < n) by (eapply ctx_lt; eauto). destruct Hq2 as [->|Hq2]; [lia|]. eapply Forall_forall in Hfr2; [|exact Hq2]. cbn in Hfr2. lia.
  - rewrite Hfid. constructor; [auto|]. eapply Forall_impl; [|exact Hfr2]. cbn. intros. lia.
  - intros q Hq Hqc Hqk. rewrite Hf2; [apply Hf1; auto|lia|lia|auto].
Qed.

Lemma refine fuel : Rv fuel /\ Re fuel /\ Rm fuel.
Proof.
  induction fuel as [fuel IH] using (well_founded_induction Wf_nat.lt_wf). destruct fuel as [|f].
  { split; [|split]; intros jp L c ty tx right ks _ _ _ _; reflexivity. }
  destruct (IH f (Nat.lt_succ_diag_r f)) as (IHv & IHe & IHm). split; [|split].
  - intros jp L c ty tx right ks Hat Hcur Hroot Hctx. cbn [pvalue parse_value]. destruct L as [|k L]; [cbn in Hat; rewrite Hat; reflexivity|].
    pose proof Hat as (Ek & _ & _). rewrite Ek. destruct k; try reflexivity.
    + (* array *) destruct f as [|f]; [reflexivity|]. destruct (IH f) as (_ & He & _); [lia|].
      exact (composite_ok _ _ _ _ (arr_rest_ok f He) jp L c ty tx right ks Hat Hcur Hroot Hctx).
    + destruct f as [|f]; [reflexivity|]. destruct (IH f) as (_ & _ & Hm); [lia|].
      exact (composite_ok _ _ _ _ (obj_rest_ok f Hm) jp L c ty tx right ks Hat Hcur Hroot Hctx).
    + destruct (match_leaf jp Ttrue L JNT_TRUE None c ty tx right ks) as (jp' & p & E & ? & ? & ? & ?); auto. exists jp', (IT p JNT_TRUE None []). auto 10.
    + destruct (match_leaf jp Tfalse L JNT_TRUE None c ty tx right ks) as (jp' & p & E & ? & ? & ? & ?); auto. exists jp', (IT p JNT_TRUE None []). auto 10.
    + destruct (match_leaf jp Tnull L JNT_TRUE None c ty tx right ks) as (jp' & p & E & ? & ? & ? & ?); auto. exists jp', (IT p JNT_TRUE None []). auto 10.
    + destruct (match_leaf jp (Tint s) L JNT_INTEGER (Some s) c ty tx right ks) as (jp' & p & E & ? & ? & ? & ?); auto. exists jp', (IT p JNT_INTEGER (Some s) []). auto 10.
    + destruct (match_leaf jp (Tfp s) L JNT_FPNUMBER (Some s) c ty tx right ks) as (jp' & p & E & ? & ? & ? & ?); auto. exists jp', (IT p JNT_FPNUMBER (Some s) []). auto 10.
    + destruct (match_leaf jp (Tstr s) L JNT_STRING (Some s) c ty tx right ks) as (jp' & p & E & ? & ? & ? & ?); auto. exists jp', (IT p JNT_STRING (Some s) []). auto 10.
  - intros jp L c ty tx right ks Hat Hcur Hroot Hctx. cbn [pelems parse_elements].
    specialize (IHv jp L c ty tx right ks Hat Hcur Hroot Hctx). destruct (pvalue f L) as [[v L1]| | |]; cbn [bind]; try (cbn in IHv |- *; rewrite IHv; reflexivity).
    destruct IHv as (jp1 & t1 & -> & Hat1 & Hr1 & Hc1 & Hs1 & Hg1). cbn [bind].
    assert (match L1 with Tcomma :: _ => True | _ => False end \/ ~ match L1 with Tcomma :: _ => True | _ => False end) as [Hy|Hn]
      by (destruct L1 as [|[]]; cbn; tauto).
    + destruct L1 as [|[] L2]; try contradiction. pose proof Hat1 as (Ek & _). rewrite Ek.
      destruct (match_punct jp1 Tcomma L2 KCOMMA Hat1 eq_refl I) as (jp2 & -> & Hat2 & Hh2 & Hr2 & Hc2). cbn [bind].
      pose proof Hs1 as (Hctx1 & _). rewrite <- Hh2 in Hctx1.
      specialize (IHe jp2 L2 c ty tx right (ks ++ [t1]) Hat2). specialize (IHe ltac:(congruence) ltac:(congruence) Hctx1).
      destruct (pelems f L2) as [[vs L3]| | |]; cbn [bind]; try (cbn in IHe |- *; rewrite IHe; reflexivity).
      destruct IHe as (jp3 & ts & -> & Hat3 & Hr3 & Hc3 & Hs3 & Hg3). exists jp3, (t1 :: ts). split; [auto|]. split; [auto|]. split; [congruence|]. split; [congruence|].
      split; [|cbn; congruence]. rewrite Hh2 in Hs3. exact (step_trans _ _ _ _ _ _ _ _ [t1] ts Hctx Hs1 Hs3).
    + assert (ptok jp1 <> Tcomma) as Hnc. { destruct L1 as [|k L2]; cbn in Hat1; [congruence|]. destruct Hat1 as (-> & _). intros ->. apply Hn. exact I. }
      replace (match L1 with Tcomma :: L2 => let* (vs, L3) := pelems f L2 in Ok (v :: vs, L3) | _ => Ok ([v], L1) end) with (Ok ([v], L1))
        by (destruct L1 as [|[]]; cbn in Hn; try tauto; reflexivity).
      replace (match ptok jp1 with Tcomma => let* jp0 := parser_match t jp1 KCOMMA in parse_elements f t jp0 | _ => Ok jp1 end) with (Ok jp1) by (destruct (ptok jp1); congruence).
      exists jp1, [t1]. split; [auto|]. split; [auto|]. split; [auto|]. split; [auto|]. split; [auto|]. cbn. congruence.
  - intros jp L c ty tx right ks Hat Hcur Hroot Hctx. cbn [pmems parse_members].
    assert ((exists s L0, L = Tstr s :: L0) \/ ~ (exists s L0, L = Tstr s :: L0)) as [(s & L0 & ->)|Hn].
    { destruct L as [|[] L]; eauto; right; intros (? & ? & ?); discriminate. }
    2:{ replace (match L with Tstr k :: Tcolon :: L0 => let* (v, L1) := pvalue f L0 in match L1 with Tcomma :: L2 => let* (ms, L3) := pmems f L2 in Ok ((k, v) :: ms, L3) | _ => Ok ([(k, v)], L1) end | _ => Fatal end)
          with (@Fatal (list (list N * json) * list token)).
        - cbn. rewrite (match_bad jp L KSTR Hat); [reflexivity|]. destruct L as [|[]]; try discriminate. exfalso. apply Hn. eauto.
        - destruct L as [|[]]; try reflexivity. exfalso. apply Hn. eauto. }
    destruct (match_leaf jp (Tstr s) L0 JNT_STRING (Some s) c ty tx right ks) as (jp1 & p & E & Hat1 & Hr1 & Hc1 & Hs1); auto. cbn [kind] in E. rewrite E. cbn [bind]. clear E.
    assert ((exists L', L0 = Tcolon :: L') \/ ~ (exists L', L0 = Tcolon :: L')) as [(L1 & ->)|Hn].
    { destruct L0 as [|[] L0]; eauto; right; intros (? & ?); discriminate. }
    2:{ replace (match L0 with Tcolon :: L0 => let* (v, L1) := pvalue f L0 in match L1 with Tcomma :: L2 => let* (ms, L3) := pmems f L2 in Ok ((s, v) :: ms, L3) | _ => Ok ([(s, v)], L1) end | _ => Fatal end)
          with (@Fatal (list (list N * json) * list token)).
        - cbn. rewrite (match_bad jp1 L0 KCOLON Hat1); [reflexivity|]. destruct L0 as [|[]]; try discriminate. exfalso. apply Hn. eauto.
        - destruct L0 as [|[]]; try reflexivity. exfalso. apply Hn. eauto. }
    destruct (match_punct jp1 Tcolon L1 KCOLON Hat1 eq_refl I) as (jp2 & -> & Hat2 & Hh2 & Hr2 & Hc2). cbn [bind].
    pose proof Hs1 as (Hctx1 & _). rewrite <- Hh2 in Hctx1, Hs1.
    specialize (IHv jp2 L1 c ty tx right _ Hat2 ltac:(congruence) ltac:(congruence) Hctx1).
    destruct (pvalue f L1) as [[v L2]| | |]; cbn [bind]; try (cbn in IHv |- *; rewrite IHv; reflexivity).
    destruct IHv as (jp3 & t3 & -> & Hat3 & Hr3 & Hc3 & Hs3 & Hg3). cbn [bind].
    pose proof (step_trans _ _ _ _ _ _ _ _ _ _ Hctx Hs1 Hs3) as Hs13. cbn [app] in Hs13.
    assert (match L2 with Tcomma :: _ => True | _ => False end \/ ~ match L2 with Tcomma :: _ => True | _ => False end) as [Hy|Hn]
      by (destruct L2 as [|[]]; cbn; tauto).
    + destruct L2 as [|[] L3]; try contradiction. pose proof Hat3 as (Ek & _). rewrite Ek.
      destruct (match_punct jp3 Tcomma L3 KCOMMA Hat3 eq_refl I) as (jp4 & -> & Hat4 & Hh4 & Hr4 & Hc4). cbn [bind].
      pose proof Hs13 as (Hctx3 & _). rewrite <- Hh4 in Hctx3, Hs13.
      specialize (IHm jp4 L3 c ty tx right (ks ++ [IT p JNT_STRING (Some s) []; t3]) Hat4). specialize (IHm ltac:(congruence) ltac:(congruence) Hctx3).
      destruct (pmems f L3) as [[ms L4]| | |]; cbn [bind]; try (cbn in IHm |- *; rewrite IHm; reflexivity).
      destruct IHm as (jp5 & ts & -> & Hat5 & Hr5 & Hc5 & Hs5 & Hg5). eexists jp5, (_ :: t3 :: ts). split; [auto|]. split; [auto|]. split; [congruence|]. split; [congruence|].
      split; [exact (step_trans _ _ _ _ _ _ _ _ _ ts Hctx Hs13 Hs5)|]. cbn. rewrite Hg3, Hg5. reflexivity.
    + assert (ptok jp3 <> Tcomma) as Hnc. { destruct L2 as [|k L3]; cbn in Hat3; [congruence|]. destruct Hat3 as (-> & _). intros ->. apply Hn. exact I. }
      replace (match L2 with Tcomma :: L3 => let* (ms, L4) := pmems f L3 in Ok ((s, v) :: ms, L4) | _ => Ok ([(s, v)], L2) end) with (Ok ([(s, v)], L2))
        by (destruct L2 as [|[]]; cbn in Hn; try tauto; reflexivity).
      replace (match ptok jp3 with Tcomma => let* jp0 := parser_match t jp3 KCOMMA in parse_members f t jp0 | _ => Ok jp3 end) with (Ok jp3) by (destruct (ptok jp3); congruence).
      eexists jp3, [_; t3]. split; [auto|]. split; [auto|]. split; [congruence|]. split; [congruence|]. split; [exact Hs13|]. cbn. rewrite Hg3. reflexivity.
Qed.
End P.
