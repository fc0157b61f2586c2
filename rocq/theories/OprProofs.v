From Coq Require Import Lia String Ascii.
From Verif Require Import Base BaseLemmas Gray Img DfModel CsvSpec DfCsvSpec DfCsvProofs OptModel DsModel DsSpec OprModel OprSpec.
Local Open Scope Z_scope.
Local Open Scope list_scope.

Lemma cstr_app s r : ~ In 0%N s -> cstr (s ++ 0%N :: r) = Ok s.
Proof.
  induction s as [|c s IH]; intro N; cbn [app cstr]; [reflexivity|]. destruct (N.eqb_spec c 0) as [->|_]; [exfalso; apply N; now left|].
  rewrite IH by (intro I; apply N; now right). reflexivity.
Qed.
Lemma firstn_pre {A} (a b : list A) n : n = List.length a -> firstn n (a ++ b) = a.
Proof. intros ->. rewrite firstn_app, Nat.sub_diag, firstn_all. cbn. apply app_nil_r. Qed.
Lemma join_ok junk n s : ~ In 0%N n -> ~ In 0%N s -> name_join junk (Some n) (Some s) = Ok (Some (n ++ text ", " ++ s)).
Proof.
  intros HN HS. unfold name_join. change (bs ", ") with [44%N; 32%N]. change (text ", ") with [44%N; 32%N]. set (b := map junk _). assert (LB : List.length b = (List.length n + List.length s + 3)%nat) by (unfold b; now rewrite map_length, seq_length). clearbody b.
  unfold strcpy_at at 1. destruct (Nat.leb_spec (0 + List.length n + 1) (List.length b)); [|lia]. cbn [bind firstn app]. set (b1 := skipn (0 + List.length n + 1) b). assert (L1 : List.length b1 = (List.length s + 2)%nat) by (unfold b1; rewrite skipn_length; lia). clearbody b1. clear b LB H.
  unfold strcpy_at at 1. rewrite app_length. cbn [List.length]. destruct (Nat.leb_spec (List.length n + 2 + 1) (List.length n + S (List.length b1))); [|lia]. cbn [bind]. rewrite firstn_pre by reflexivity.
  set (b2 := skipn _ _). assert (L2 : List.length b2 = List.length s) by (unfold b2; rewrite skipn_length, app_length; cbn [List.length]; lia). clearbody b2. clear b1 L1 H.
  replace (n ++ [44%N; 32%N] ++ 0%N :: b2) with ((n ++ [44%N; 32%N]) ++ 0%N :: b2) by now rewrite <- app_assoc.
  unfold strcpy_at at 1. rewrite !app_length. cbn [List.length]. destruct (Nat.leb_spec (List.length n + 2 + List.length s + 1) (List.length n + 2 + S (List.length b2))); [|lia]. cbn [bind]. rewrite firstn_pre by (rewrite app_length; reflexivity).
  replace (skipn _ _) with (@nil N) by (symmetry; apply length_zero_iff_nil; rewrite skipn_length, !app_length; cbn [List.length]; lia).
  set (t := n ++ [44%N; 32%N] ++ s). replace ((n ++ [44%N; 32%N]) ++ s ++ [0%N]) with (t ++ [0%N]) by (unfold t; now rewrite <- !app_assoc).
  assert (LT : List.length t = (List.length n + List.length s + 2)%nat) by (unfold t; rewrite !app_length; cbn [List.length]; lia).
  unfold aset. rewrite app_length. cbn [List.length]. destruct (Nat.ltb_spec (List.length n + List.length s + 3 - 1) (List.length t + 1)); [|lia]. cbn [bind].
  replace (lset (t ++ [0%N]) (List.length n + List.length s + 3 - 1) 0%N) with (t ++ [0%N]).
  - rewrite cstr_app; [reflexivity|]. unfold t. rewrite !in_app_iff. cbn. intuition discriminate.
  - replace (List.length n + List.length s + 3 - 1)%nat with (List.length t) by lia. clear. induction t as [|c t IH]; cbn; [reflexivity|]. now rewrite <- IH.
Qed.
Definition clean (q : odata) : Prop := (forall n, q_name q = Some n -> ~ In 0%N n) /\ (forall n, q_short q = Some n -> ~ In 0%N n).
Lemma name_join_ok junk q : clean q -> q_name q <> None \/ q_short q <> None -> name_join junk (q_name q) (q_short q) = Ok (Some (shown_names q)).
Proof.
  intros [C1 C2] N. unfold shown_names. destruct (q_name q) as [n|], (q_short q) as [s|]; [apply join_ok; auto|reflexivity|reflexivity|intuition congruence].
Qed.
Lemma name_len_ok q : q_name q <> None \/ q_short q <> None -> Z.of_nat (List.length (shown_names q)) <= INT_MAX -> name_len q = Ok (Z.of_nat (List.length (shown_names q))).
Proof.
  intros N L. unfold name_len, shown_names in *. pose proof int_rng as [I0 I1]. destruct (q_name q) as [n|], (q_short q) as [s|]; [|rewrite chk_int_in by lia; reflexivity|rewrite chk_int_in by lia; reflexivity|intuition congruence].
  rewrite !app_length in *. change (List.length (text ", ")) with 2%nat in *. rewrite chk_int_in by lia. f_equal. lia.
Qed.
Lemma longest_snoc ts t w : longest ts w -> longest (ts ++ [t]) (Nat.max w (List.length t)).
Proof.
  intros [A B]. split.
  - intros u I. apply in_app_iff in I as [I|[<-|[]]]; [specialize (A u I)|]; lia.
  - destruct (Nat.le_gt_cases w (List.length t)) as [L|L].
    + right. exists t. split; [apply in_app_iff; right; now left|lia].
    + destruct B as [->|(u & I & E)]; [lia|]. right. exists u. split; [apply in_app_iff; now left|lia].
Qed.
Lemma width_ok (l : list (odata * list N)) : (forall it, In it l -> (q_name (fst it) <> None \/ q_short (fst it) <> None) /\ Z.of_nat (List.length (shown_names (fst it))) <= INT_MAX) ->
  exists w, for_each (fun it w => let* n := name_len (fst it) in Ok (if w <? n then n else w)) l 0 = Ok (Z.of_nat w) /\ longest (map (fun it => shown_names (fst it)) l) w.
Proof.
  induction l as [|it l IH] using rev_ind; intro H.
  - exists 0%nat. split; [reflexivity|]. split; [intros t []|now left].
  - destruct IH as (w & E & L); [intros i I; apply H, in_app_iff; now left|]. rewrite for_each_app, E. cbn [bind for_each].
    destruct (H it) as [N B]; [apply in_app_iff; right; now left|]. rewrite name_len_ok by assumption. cbn [bind].
    exists (Nat.max w (List.length (shown_names (fst it)))). split.
    + f_equal. destruct (Z.ltb_spec (Z.of_nat w) (Z.of_nat (List.length (shown_names (fst it))))); lia.
    + rewrite map_app. now apply longest_snoc.
Qed.
Lemma pad_ok w t : (List.length t <= w)%nat -> right_aligned w t (pad_left (Z.of_nat w) t).
Proof. intro L. unfold pad_left. rewrite Nat2Z.id. split; [rewrite app_length, repeat_length; lia|eauto]. Qed.
Lemma print_nat_len f : forall n acc, (List.length (print_nat f n acc) <= f + List.length acc)%nat.
Proof. induction f as [|f IH]; intros n acc; cbn [print_nat]; [lia|]. destruct (N.eqb_spec (n / 10) 0); [cbn; lia|]. specialize (IH (n / 10)%N ((48 + n mod 10)%N :: acc)). cbn [List.length] in IH. lia. Qed.
Lemma print_int_len z : in_int z = true -> (List.length (print_int z) <= 40)%nat.
Proof.
  intro I. unfold in_int in I. apply andb_prop in I as [I0 I1]. apply Z.leb_le in I0, I1. unfold INT_MIN, INT_MAX in *.
  assert (B : forall n, (n <= 2147483648)%N -> (List.length (print_nat (S (N.to_nat (N.log2 n))) n []) <= 32)%nat).
  { intros n L. pose proof (print_nat_len (S (N.to_nat (N.log2 n))) n []) as P. pose proof (N.log2_le_mono _ _ L) as M. change (N.log2 2147483648) with 31%N in M. cbn [List.length] in P. lia. }
  unfold print_int. destruct (Z.ltb_spec z 0).
  - cbn [List.length]. specialize (B (Z.to_N (- z)) ltac:(lia)). lia.
  - specialize (B (Z.to_N z) ltac:(lia)). lia.
Qed.
Lemma data_string_ok print_d ty v : of_type ty v -> v <> US None -> int_value v -> (forall d, (List.length (print_d d) <= 1023)%nat) -> exists t, data_to_string print_d ty v = Ok t /\ shown_value print_d v t.
Proof.
  intros T N I P. destruct ty, v as [b|i|d|[s|]|]; cbn [of_type] in T; try contradiction; try congruence; cbn [data_to_string int_value] in *; eexists; (split; [reflexivity|]).
  - destruct (Z.eqb_spec b 0) as [->|NE]; [apply sv_false|now apply sv_true].
  - rewrite firstn_all2 by (pose proof (print_int_len i I); lia). apply sv_int. apply print_int_shape.
  - rewrite firstn_all2 by apply P. apply sv_double.
  - apply sv_string.
  - apply sv_none.
Qed.
Lemma lines_ok {A} (f : A -> list N -> res (list N)) (R : A -> list N -> Prop) l : forall out, (forall a out, In a l -> exists t, f a out = Ok (out ++ t) /\ R a t) ->
  exists ts, for_each f l out = Ok (out ++ List.concat ts) /\ Forall2 R l ts.
Proof.
  induction l as [|a l IH]; intros out H; cbn [for_each].
  - exists []. split; [now rewrite app_nil_r|constructor].
  - destruct (H a out ltac:(now left)) as (t & -> & Q). cbn [bind]. destruct (IH (out ++ t)) as (ts & -> & F); [intros; apply H; now right|].
    exists (t :: ts). split; [cbn; now rewrite app_assoc|now constructor].
Qed.
Section Print.
Variables (junk : nat -> N) (print_d : N -> list N).
Hypothesis PD : forall d, (List.length (print_d d) <= 1023)%nat.
Definition printable (l : list (odata * list N)) : Prop := forall it, In it l ->
  wellformed (fst it) /\ no_null (fst it) /\ clean (fst it) /\ int_value (q_val (fst it)) /\ int_value (q_def (fst it)) /\ Z.of_nat (List.length (shown_names (fst it))) <= INT_MAX.
Lemma print_list_ok l rest out : printable l -> exists w ts, print_list junk print_d l rest out = Ok (out ++ List.concat ts) /\ longest (map (fun it => shown_names (fst it)) l) w /\ Forall2 (usage_line print_d w) l ts.
Proof.
  intro H. unfold print_list, column_size. destruct (width_ok l) as (w & E & L); [intros it I; destruct (H it I) as ((N & _) & _ & _ & _ & _ & B); auto|].
  rewrite E. cbn [bind]. assert (E' : match rest with Some (_, _) | _ => Ok (Z.of_nat w) end = Ok (Z.of_nat w)) by (destruct rest as [[? ?]|]; reflexivity). rewrite E'. cbn [bind]. exists w.
  destruct (lines_ok (fun it out => let '(q, help) := it in
    let* name_col := name_join junk (q_name q) (q_short q) in
    let* dflt := data_to_string print_d (q_type q) (q_def q) in
    let is_help := match q_type q with THelp => true | _ => false end in
    let open_delim := if q_req q then bs "(" else if negb is_help then bs "[" else [] in
    let close_delim := if q_req q then bs ")" else if negb is_help then bs "]" else [] in
    let* name_col := str_arg name_col in
    Ok (out ++ bs "  " ++ pad_left (Z.of_nat w) name_col ++ bs " : " ++ help ++ bs " " ++ open_delim ++ (if q_req q then bs "REQUIRED" else dflt) ++ close_delim ++ NL)) (usage_line print_d w) l out) as (ts & ET & F).
  - intros [q help] o I. destruct (H _ I) as ((N & _ & TD) & (_ & ND) & C & _ & ID & _). cbn [fst] in *. rewrite name_join_ok by assumption. cbn [bind].
    destruct (data_string_ok print_d (q_type q) (q_def q) TD ND ID PD) as (t & -> & SV). cbn [bind str_arg]. eexists. split; [reflexivity|].
    eexists _, t, _. split; [apply pad_ok; apply (proj1 L); apply in_map_iff; exists (q, help); auto|]. split; [exact SV|]. split; [reflexivity|]. cbn [fst snd].
    change bs with text. destruct (q_req q); [reflexivity|]. unfold NL. destruct (q_type q) eqn:ET; cbn [negb]; try (rewrite <- !app_assoc; reflexivity).
    assert (t = []) as -> by (destruct (q_def q); try contradiction; now inversion SV). reflexivity.
  - exists ts. split; [exact ET|]. split; [exact L|exact F].
Qed.
Lemma print_usage_ok header prog footer l rest : printable l ->
  exists w ts, longest (map (fun it => shown_names (fst it)) l) w /\ Forall2 (usage_line print_d w) l ts /\
    print_usage junk print_d header prog footer l rest = Ok (
      match header with Some t => t | None => [] end ++ text "USAGE: " ++ match prog with Some p => p | None => text "prog" end ++ text " [options]" ++
      match rest with Some (r, name) => if r_req r then text " <" ++ name ++ text ">" else text " [<" ++ name ++ text ">]" | None => [] end ++ [10%N] ++
      List.concat ts ++ match footer with Some t => t | None => [] end).
Proof.
  intro H. unfold print_usage. set (out := _ ++ NL). destruct (print_list_ok l rest out H) as (w & ts & E & L & F).
  exists w, ts. split; [exact L|]. split; [exact F|].
  assert (E' : match l with [] => Ok out | _ :: _ => print_list junk print_d l rest out end = Ok (out ++ List.concat ts)).
  { destruct l; [|exact E]. inversion F. subst. cbn. now rewrite app_nil_r. }
  rewrite E'. cbn [bind]. f_equal. unfold out, NL. change bs with text. destruct rest as [[r name]|]; [destruct (r_req r)|]; rewrite <- !app_assoc; reflexivity.
Qed.
Lemma quoted_ok vals out : exists q, for_each (fun i out => let* s := aget vals i in let out := out ++ bs "'" ++ s ++ bs "'" in Ok (if (i =? List.length vals - 1)%nat then out else out ++ bs ", ")) (seq 0 (List.length vals)) out = Ok (out ++ q) /\ q = quoted_list vals.
Proof.
  assert (G : forall vs pre out, vals = pre ++ vs -> for_each (fun i out => let* s := aget vals i in let out := out ++ bs "'" ++ s ++ bs "'" in Ok (if (i =? List.length vals - 1)%nat then out else out ++ bs ", ")) (seq (List.length pre) (List.length vs)) out = Ok (out ++ quoted_list vs)).
  { induction vs as [|v vs IH]; intros pre o E; cbn [List.length seq for_each]; [now rewrite app_nil_r|].
    assert (A : aget vals (List.length pre) = Ok v) by (unfold aget; rewrite E, nth_error_app2, Nat.sub_diag by lia; reflexivity). rewrite A. cbn [bind].
    assert (LV : List.length vals = (List.length pre + S (List.length vs))%nat) by (rewrite E, app_length; reflexivity).
    specialize (IH (pre ++ [v])). rewrite app_length in IH. cbn [List.length] in IH. rewrite Nat.add_1_r in IH. rewrite IH by (rewrite E, <- app_assoc; reflexivity).
    change bs with text. destruct (Nat.eqb_spec (List.length pre) (List.length vals - 1)) as [Q|Q].
    - assert (vs = []) as -> by (apply length_zero_iff_nil; lia). cbn [quoted_list]. rewrite app_nil_r. reflexivity.
    - destruct vs as [|v' vs]; [cbn in LV; lia|]. cbn [quoted_list]. rewrite <- !app_assoc. reflexivity. }
  exists (quoted_list vals). split; [|reflexivity]. exact (G vals [] out eq_refl).
Qed.
Lemma filter_lines (f : odata * list N -> list N -> res (list N)) (R : odata * list N -> list N -> Prop) l : forall out, (forall a out, In a l -> if not_help a then exists t, f a out = Ok (out ++ t) /\ R a t else f a out = Ok out) ->
  exists ts, for_each f l out = Ok (out ++ List.concat ts) /\ Forall2 R (filter not_help l) ts.
Proof.
  induction l as [|a l IH]; intros out H; cbn [for_each filter].
  - exists []. split; [now rewrite app_nil_r|constructor].
  - pose proof (H a out ltac:(now left)) as HA. destruct (not_help a).
    + destruct HA as (t & -> & Q). cbn [bind]. destruct (IH (out ++ t)) as (ts & -> & F); [intros; apply H; now right|].
      exists (t :: ts). split; [cbn; now rewrite app_assoc|now constructor].
    + rewrite HA. cbn [bind]. apply IH. intros; apply H; now right.
Qed.
Lemma print_values_ok l rest : printable l -> (forall r name, rest = Some (r, name) -> Z.of_nat (List.length name) <= INT_MAX) ->
  exists w ts, longest (map (fun it => shown_names (fst it)) l ++ match rest with Some (_, name) => [name] | None => [] end) w /\ Forall2 (value_line print_d w) (filter not_help l) ts /\
    exists last, print_values junk print_d l rest = Ok (List.concat ts ++ last) /\
      match rest with
      | None => last = []
      | Some (r, name) => exists a, right_aligned w name a /\ last = a ++ text ": [" ++ quoted_list (match r_val r with Some v => v | None => [] end) ++ text "]" ++ [10%N]
      end.
Proof.
  intros H HR. unfold print_values, column_size. destruct (width_ok l) as (w0 & E & L); [intros it I; destruct (H it I) as ((N & _) & _ & _ & _ & _ & B); auto|].
  rewrite E. cbn [bind].
  assert (W : exists w, match rest with Some (_, help) => let* n := chk_int (Z.of_nat (List.length help)) in Ok (if Z.of_nat w0 <? n then n else Z.of_nat w0) | None => Ok (Z.of_nat w0) end = Ok (Z.of_nat w) /\
    longest (map (fun it => shown_names (fst it)) l ++ match rest with Some (_, name) => [name] | None => [] end) w).
  { destruct rest as [[r name]|].
    - rewrite chk_int_in by (pose proof int_rng; specialize (HR r name eq_refl); lia). cbn [bind]. exists (Nat.max w0 (List.length name)). split; [f_equal; destruct (Z.ltb_spec (Z.of_nat w0) (Z.of_nat (List.length name))); lia|]. now apply longest_snoc.
    - exists w0. split; [reflexivity|]. now rewrite app_nil_r. }
  destruct W as (w & EW & LW). rewrite EW. cbn [bind]. exists w.
  match goal with |- context [for_each ?f l []] => destruct (filter_lines f (value_line print_d w) l []) as (ts & ET & F) end.
  { intros it out I. destruct (H it I) as ((N & TV & _) & (NV & _) & C & IV & _).
    destruct (data_string_ok print_d (q_type (fst it)) (q_val (fst it)) TV NV IV PD) as (t & E1 & SV).
    assert (G : exists t0, (let* v := data_to_string print_d (q_type (fst it)) (q_val (fst it)) in let* name := name_join junk (q_name (fst it)) (q_short (fst it)) in let* name := str_arg name in Ok (out ++ pad_left (Z.of_nat w) name ++ bs ": " ++ v ++ NL)) = Ok (out ++ t0) /\ value_line print_d w it t0).
    { rewrite E1. cbn [bind]. rewrite name_join_ok by assumption. cbn [bind str_arg]. eexists. split; [reflexivity|]. eexists _, t. split; [apply pad_ok; apply (proj1 LW), in_app_iff; left; apply in_map_iff; exists it; auto|]. split; [exact SV|reflexivity]. }
    unfold not_help. cbv zeta. destruct (q_type (fst it)); try exact G. reflexivity. }
  rewrite ET. cbn [bind app]. exists ts. split; [exact LW|]. split; [exact F|].
  destruct rest as [[r name]|]; [|exists []; split; [now rewrite app_nil_r|reflexivity]].
  cbv zeta. set (vals := match r_val r with Some v => v | None => [] end). destruct (quoted_ok vals (List.concat ts ++ pad_left (Z.of_nat w) name ++ bs ": [")) as (q & EQ & ->). cbv zeta in EQ. rewrite EQ. cbn [bind].
  eexists. split; [rewrite <- !app_assoc; reflexivity|]. exists (pad_left (Z.of_nat w) name). split; [apply pad_ok; apply (proj1 LW), in_app_iff; right; now left|reflexivity].
Qed.
End Print.
