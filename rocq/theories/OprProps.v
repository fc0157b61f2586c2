(** C146: the usage text and the printed option values. *)
From Coq Require Import Lia String Ascii.
From Verif Require Import Base BaseLemmas DfModel CsvSpec DfCsvSpec OptModel DsModel DsSpec OprModel OprSpec OprProofs.
Local Open Scope Z_scope.
Local Open Scope list_scope.

(** Options that can be printed: created by the interface, with C strings and ints. *)
Notation printable := OprProofs.printable.

(** The usage: header, the line with the program name and the remaining arguments,
    one line per option in the order of their addition, footer.  The names end in
    the same column, that of the longest. *)
Theorem C146_usage_partial : forall junk print_d header prog footer l rest, (forall d, (List.length (print_d d) <= 1023)%nat) -> printable l ->
  exists w ts, longest (map (fun it => shown_names (fst it)) l) w /\ Forall2 (usage_line print_d w) l ts /\
    print_usage junk print_d header prog footer l rest = Ok (
      match header with Some t => t | None => [] end ++ text "USAGE: " ++ match prog with Some p => p | None => text "prog" end ++ text " [options]" ++
      match rest with Some (r, name) => if r_req r then text " <" ++ name ++ text ">" else text " [<" ++ name ++ text ">]" | None => [] end ++ [10%N] ++
      List.concat ts ++ match footer with Some t => t | None => [] end).
Proof. intros. now apply print_usage_ok. Qed.
Print Assumptions C146_usage_partial.

(** The values: one line per option but the help option, then the remaining
    arguments. *)
Theorem C146_values_partial : forall junk print_d l rest, (forall d, (List.length (print_d d) <= 1023)%nat) -> printable l ->
  (forall r name, rest = Some (r, name) -> Z.of_nat (List.length name) <= INT_MAX) ->
  exists w ts, longest (map (fun it => shown_names (fst it)) l ++ match rest with Some (_, name) => [name] | None => [] end) w /\ Forall2 (value_line print_d w) (filter not_help l) ts /\
    exists last, print_values junk print_d l rest = Ok (List.concat ts ++ last) /\
      match rest with
      | None => last = []
      | Some (r, name) => exists a, right_aligned w name a /\ last = a ++ text ": [" ++ quoted_list (match r_val r with Some v => v | None => [] end) ++ text "]" ++ [10%N]
      end.
Proof. intros. now apply print_values_ok. Qed.
Print Assumptions C146_values_partial.

(** Shown names do not run together: options with different names show differently
    (names hold no comma). *)
Theorem C146_names_differ : forall q q', (forall t, In (Some t) [q_name q; q_short q; q_name q'; q_short q'] -> ~ In 44%N t) ->
  q_name q <> None \/ q_short q <> None -> q_name q' <> None \/ q_short q' <> None ->
  (forall n, q_name q = Some n -> exists t, n = text "--" ++ t) -> (forall n, q_name q' = Some n -> exists t, n = text "--" ++ t) ->
  (forall s, q_short q = Some s -> exists c, s = [45%N; c]) -> (forall s, q_short q' = Some s -> exists c, s = [45%N; c]) ->
  (forall n, q_name q = Some n -> n <> text "--") -> (forall n, q_name q' = Some n -> n <> text "--") ->
  shown_names q = shown_names q' -> q_name q = q_name q' /\ q_short q = q_short q'.
Proof.
  intros q q' NC N N' L L' S S' LL LL' E.
  assert (CUT : forall a b a' b', ~ In 44%N a -> ~ In 44%N a' -> a ++ text ", " ++ b = a' ++ text ", " ++ b' -> a = a' /\ b = b').
  { induction a as [|c a IH]; intros b a' b' A A' EQ; destruct a' as [|c' a']; cbn in EQ.
    - injection EQ as ->. auto.
    - injection EQ as <- _. exfalso. apply A'. now left.
    - injection EQ as -> _. exfalso. apply A. now left.
    - injection EQ as -> EQ. destruct (IH b a' b') as [-> ->]; [intro I; apply A; now right|intro I; apply A'; now right|exact EQ|auto]. }
  assert (HAS : forall a b, In 44%N (a ++ text ", " ++ b)) by (intros; apply in_app_iff; right; now left).
  unfold shown_names in E. destruct (q_name q) as [n|] eqn:EN, (q_short q) as [s|] eqn:ES, (q_name q') as [n'|] eqn:EN', (q_short q') as [s'|] eqn:ES'; try (intuition congruence);
    try solve [exfalso; match type of E with _ ++ text ", " ++ _ = ?t => apply (NC t); [cbn; tauto|rewrite <- E; apply HAS] end];
    try solve [exfalso; match type of E with ?t = _ ++ text ", " ++ _ => apply (NC t); [cbn; tauto|rewrite E; apply HAS] end].
  - apply CUT in E as [-> ->]; [auto| |]; apply NC; cbn; auto.
  - exfalso. destruct (L n eq_refl) as (t & ->). destruct (S' s' eq_refl) as (c & ->). cbn in E. injection E as E1 E2. destruct t; [|discriminate]. now apply (LL _ eq_refl).
  - exfalso. destruct (L' n' eq_refl) as (t & ->). destruct (S s eq_refl) as (c & ->). cbn in E. injection E as E1 E2. destruct t; [|discriminate]. now apply (LL' _ eq_refl).
Qed.
Print Assumptions C146_names_differ.

(** Every option added through the interface is well-formed. *)
Theorem C146_added : forall ovf format o, vadd ovf options_alloc format = Ok o -> Forall wellformed (o_list o).
Proof.
  intros ovf format o.
  assert (NEW : forall names ty v r q, of_type ty v -> data_new names ty v r = Ok q -> wellformed q).
  { intros names ty v r q T E. unfold data_new in E. destruct (set_names names) as [[n s]| | |] eqn:EN; try discriminate. cbn [bind] in E. injection E as <-. split; [|split; exact T]. cbn.
    assert (S1 : forall t nm x, set_name t nm = Ok x -> fst x <> None \/ snd x <> None).
    { intros t nm x H. unfold set_name in H. destruct t as [|c0 [|c1 [|c2 t]]]; try (destruct c0 as [|p]; [discriminate|]; repeat (destruct p as [p|p|]; try discriminate)); try discriminate.
      - injection H as <-. right. discriminate.
      - destruct (c1 =? 45)%N; [|discriminate]. injection H as <-. left. discriminate. }
    unfold set_names in EN. destruct (split_names names) as [a b]. destruct (set_name a (None, None)) as [nm| | |] eqn:EA; try discriminate. cbn [bind] in EN. destruct b as [b|]; [exact (S1 _ _ _ EN)|]. injection EN as ->. exact (S1 _ _ _ EA). }
  assert (MAP : forall o k i o', add_to_map ovf o k i = Ok o' -> o_list o' = o_list o).
  { intros o0 k i o' E. unfold add_to_map in E. destruct (zget (o_map o0) _) as [b| | |]; try discriminate. cbn [bind] in E. destruct (zset _ _ _) as [m| | |]; try discriminate. cbn [bind] in E. injection E as <-. reflexivity. }
  assert (ADD : forall q o o', wellformed q -> Forall wellformed (o_list o) -> data_add ovf q o = Ok o' -> Forall wellformed (o_list o')).
  { intros q o0 o' Q F E. unfold data_add in E. destruct (find_in_map ovf o0 (q_name q)) as [[?|]| | |]; try discriminate. cbn [bind] in E. destruct (find_in_map ovf o0 (q_short q)) as [[?|]| | |]; try discriminate. cbn [bind] in E.
    assert (F1 : Forall wellformed (o_list (o_with o0 (o_list o0 ++ [q])))) by (cbn; apply Forall_app; auto).
    destruct (q_name q) as [n|].
    - destruct (add_to_map ovf (o_with o0 (o_list o0 ++ [q])) n _) as [o1| | |] eqn:E1; try discriminate. cbn [bind] in E. apply MAP in E1. destruct (q_short q) as [s|]; [apply MAP in E; congruence|injection E as <-; congruence].
    - cbn [bind] in E. destruct (q_short q) as [s|]; [apply MAP in E; congruence|injection E as <-; exact F1]. }
  assert (G : forall fmt o0, Forall wellformed (o_list o0) -> vadd ovf o0 fmt = Ok o -> Forall wellformed (o_list o)).
  { induction fmt as [|[c a] fmt IH]; intros o0 F E; cbn in E; [injection E as <-; exact F|]. destruct (vadd1 ovf o0 c a) as [o1| | |] eqn:E1; try discriminate. cbn [bind] in E. eapply IH; [|exact E]. clear E IH.
    unfold vadd1 in E1. repeat match type of E1 with (if ?b then _ else _) = _ => destruct b end; try discriminate; destruct a; try discriminate;
      try (injection E1 as <-; exact F);
      match type of E1 with (let* q := ?m in _) = _ => destruct m as [q| | |] eqn:EQ; try discriminate; cbn [bind] in E1; eapply ADD; [eapply NEW; [|exact EQ]; exact I|exact F|exact E1] end. }
  intro E. apply (G format options_alloc); [constructor|exact E].
Qed.
Print Assumptions C146_added.

Definition ex_q1 : odata := {| q_short := Some (text "-n"); q_name := Some (text "--number"); q_type := TInt; q_val := UI (-7); q_req := false; q_set := true; q_def := UI 12 |}.
Definition ex_q2 : odata := {| q_short := Some (text "-h"); q_name := Some (text "--help"); q_type := THelp; q_val := UNone; q_req := false; q_set := false; q_def := UNone |}.
Definition ex_q3 : odata := {| q_short := None; q_name := Some (text "--out"); q_type := TString; q_val := US (Some (text "a b")); q_req := true; q_set := true; q_def := US (Some []) |}.
Definition ex_l := [(ex_q1, text "how many"); (ex_q2, text "this text"); (ex_q3, text "file")].
Definition ex_rest : option (rdata * list N) := Some ({| r_val := Some [text "x"; text "y"]; r_req := true; r_set := true |}, text "images").
Definition nl : string := String (ascii_of_nat 10) EmptyString.
Example C146_example : printable ex_l /\
  print_usage (fun _ => 7%N) (fun _ => []) None (Some (text "tool")) None ex_l ex_rest = Ok (text (
    "USAGE: tool [options] <images>" ++ nl ++
    "  --number, -n : how many [12]" ++ nl ++
    "    --help, -h : this text " ++ nl ++
    "         --out : file (REQUIRED)" ++ nl)%string) /\
  print_values (fun _ => 7%N) (fun _ => []) ex_l ex_rest = Ok (text (
    "--number, -n: -7" ++ nl ++
    "       --out: 'a b'" ++ nl ++
    "      images: ['x', 'y']" ++ nl)%string).
Proof.
  split; [|split; vm_compute; reflexivity]. intros it [<-|[<-|[<-|[]]]];
    (split; [repeat split; cbn; try (left; discriminate); exact I|]; split; [split; discriminate|]; split; [split; intros n E; inversion E; cbn; intuition discriminate|]; split; [exact I || reflexivity|]; split; [exact I || reflexivity|vm_compute; discriminate]).
Qed.

(** Not always: a string option without default (NULL) is undefined behaviour when
    the usage is printed, although the interface accepts it. *)
Theorem C146_null_refuted : exists ovf format o, vadd ovf options_alloc format = Ok o /\
  forall junk print_d header prog footer rest, print_usage junk print_d header prog footer (map (fun q => (q, [])) (o_list o)) rest = UB.
Proof.
  exists (fun z => z), [(115%N, AS (text "--out") None)]. eexists. split; [vm_compute; reflexivity|].
  intros junk print_d header prog footer rest. unfold print_usage, print_list, column_size. cbn [o_list map for_each fst name_len q_name q_short]. change (chk_int (Z.of_nat (List.length _))) with (Ok 5). cbn [bind].
  destruct rest as [[? ?]|]; reflexivity.
Qed.
Print Assumptions C146_null_refuted.
(** A long string is cut: different values are printed alike. *)
Theorem C146_long_refuted : exists s s' print_d t, s <> s' /\ data_to_string print_d TString (US (Some s)) = Ok t /\ data_to_string print_d TString (US (Some s')) = Ok t.
Proof.
  exists (repeat 97%N 1022), (repeat 97%N 1023), (fun _ => []). eexists. split; [|split; vm_compute; reflexivity].
  intro E. apply (f_equal (@List.length N)) in E. rewrite !repeat_length in E. discriminate.
Qed.
Print Assumptions C146_long_refuted.
