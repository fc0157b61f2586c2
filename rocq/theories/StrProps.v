(** Properties C13, C14, C15, C19 and C62. *)
From Verif Require Import Base BaseLemmas Bytes StrModel StrSpec StrProofs.
Local Open Scope N_scope.

(** C13: readable escaping.  The text is quoted, contains no raw control
    character, no quote that would close it, and decodes to the string; a text
    without raw specials is determined by the decoded string. *)
Theorem C13_readable_round_trip : forall s, exists t,
  nx_fputs_readable (Some s) = [34] ++ t ++ [34] /\
  nx_xstr_from_readable t = Ok s /\
  (forall c, In c t -> ~ is_control c) /\ closes t = false.
Proof.
  intros s. exists (flat_map readable_char s). split; [reflexivity|].
  split; [apply readable_decode|]. split; [apply readable_no_control|apply readable_not_closed].
Qed.
Print Assumptions C13_readable_round_trip.

Theorem C13_readable_injective : forall s1 s2,
  nx_fputs_readable (Some s1) = nx_fputs_readable (Some s2) -> s1 = s2.
Proof.
  intros s1 s2 H. unfold nx_fputs_readable in H. apply app_inv_head in H. apply app_inv_tail in H.
  pose proof (readable_decode s1) as H1. rewrite H, readable_decode in H1. congruence.
Qed.
Print Assumptions C13_readable_injective.

Theorem C13_readable_c_string : forall s, cstr_ok s ->
  cstr_ok (nx_fputs_readable (Some s)) /\ nx_fputs_readable (Some s) <> nx_fputs_readable None.
Proof.
  intros s H. split; [|discriminate]. unfold nx_fputs_readable, cstr_ok. rewrite !Forall_app.
  split; [repeat constructor; discriminate|]. split; [apply readable_bytes; auto|repeat constructor; discriminate].
Qed.
Print Assumptions C13_readable_c_string.

Example C13_example :
  nx_fputs_readable (Some [97; 34; 92; 110; 10; 9]) = [34; 97; 92; 34; 92; 92; 110; 92; 110; 92; 116; 34] /\
  nx_xstr_from_readable [97; 92; 34; 92; 92; 110; 92; 110; 92; 116] = Ok [97; 34; 92; 110; 10; 9] /\
  nx_xstr_from_readable [97; 92] = Fatal /\ nx_xstr_from_readable [92; 120] = Fatal.
Proof. vm_compute. auto. Qed.

(** C14: CSV double quoting, both directions. *)
Theorem C14_double_quoted_round_trip : forall s t,
  nx_fputs_double_quoted (Some s) = [34] ++ t ++ [34] <-> nx_xstr_from_double_quoted t = Ok s.
Proof.
  intros s t. unfold nx_fputs_double_quoted. split.
  - intros H. apply app_inv_head in H. apply app_inv_tail in H. subst t. apply double_quoted_decode.
  - intros H. rewrite (double_quoted_encode t s H). reflexivity.
Qed.
Print Assumptions C14_double_quoted_round_trip.

Theorem C14_double_quoted_total : forall s, exists t, nx_fputs_double_quoted (Some s) = [34] ++ t ++ [34].
Proof. intros s. eexists. reflexivity. Qed.
Print Assumptions C14_double_quoted_total.

Example C14_example :
  nx_fputs_double_quoted (Some [97; 34; 98]) = [34; 97; 34; 34; 98; 34] /\
  nx_xstr_from_double_quoted [97; 34; 34; 98] = Ok [97; 34; 98] /\
  nx_xstr_from_double_quoted [97; 34; 98] = Fatal.
Proof. vm_compute. auto. Qed.

(** C15: binary strings. *)
Theorem C15_string_round_trip : forall junk b size s rest,
  cstr_ok s -> N.of_nat (length s) + 1 < 2 ^ 64 -> size <= N.of_nat (length b) ->
  exists b', nx_strread junk b size (nx_strwrite s ++ rest) = Ok (0%Z, b', rest) /\ cstr b' = Ok s.
Proof.
  intros junk b size s rest Hs Hl Hsz.
  destruct (strread_strwrite junk b size s rest Hs Hl Hsz) as (b' & E & t & ->).
  exists (s ++ 0 :: t). split; [exact E|]. apply cstr_block; auto.
Qed.
Print Assumptions C15_string_round_trip.

Theorem C15_truncation_rejected : forall junk b size s k,
  cstr_ok s -> N.of_nat (length s) + 1 < 2 ^ 64 -> size <= N.of_nat (length b) ->
  (k < length (nx_strwrite s))%nat ->
  exists b' st', nx_strread junk b size (firstn k (nx_strwrite s)) = Ok (1%Z, b', st').
Proof. exact strread_truncated. Qed.
Print Assumptions C15_truncation_rejected.

Theorem C15_strread0_round_trip : forall junk s rest,
  cstr_ok s -> N.of_nat (length s) + 1 < 2 ^ 64 ->
  (exists b, nx_strread0 junk (nx_strwrite s ++ rest) = Ok (Some b, rest) /\ cstr b = Ok s) /\
  (forall k, (k < length (nx_strwrite s))%nat ->
     exists st', nx_strread0 junk (firstn k (nx_strwrite s)) = Ok (None, st')).
Proof.
  intros junk s rest Hs Hl. split.
  - destruct (C15_string_round_trip junk [] 0 s rest Hs Hl ltac:(discriminate)) as (b & E & Hb).
    exists b. unfold nx_strread0. rewrite E. auto.
  - intros k Hk. destruct (C15_truncation_rejected junk [] 0 s k Hs Hl ltac:(discriminate) Hk) as (b & st & E).
    exists st. unfold nx_strread0. rewrite E. reflexivity.
Qed.
Print Assumptions C15_strread0_round_trip.

(** Any stream content is handled without undefined behaviour, except an
    8-byte length field of SIZE_MAX, for which the buffer computation wraps. *)
Theorem C15_any_stream_defined : forall junk b size st,
  size <= N.of_nat (length b) -> bytes_ok st -> le_decode (firstn 8 st) <> 2 ^ 64 - 1 ->
  exists r b' st', nx_strread junk b size st = Ok (r, b', st') /\ (r = 0 \/ r = 1)%Z.
Proof. exact strread_defined. Qed.
Print Assumptions C15_any_stream_defined.

Theorem C15_any_stream_defined_refuted : forall junk,
  exists st, bytes_ok st /\ nx_strread junk [] 0 st = UB.
Proof.
  intros junk. exists (repeat 255 8). split; [|reflexivity].
  apply Forall_forall. intros x Hx. apply repeat_spec in Hx. subst. reflexivity.
Qed.
Print Assumptions C15_any_stream_defined_refuted.

Example C15_example :
  nx_strread (fun _ => 7) [1; 2] 2 (nx_strwrite [104; 105; 33] ++ [9; 9]) = Ok (0%Z, [104; 105; 33; 0], [9; 9]) /\
  nx_strread (fun _ => 7) [] 0 (firstn 10 (nx_strwrite [104; 105; 33])) = Ok (1%Z, [104; 105; 7; 0], []).
Proof. vm_compute. auto. Qed.

(** C19: line reading. [lines] is justified by C19_lines_characterised. *)
Theorem C19_getline_next_line : forall junk line st,
  (forall l, In l (lines st) -> N.of_nat (length l) < 2 ^ 30 - 1) ->
  exists line' st' n,
    nx_getline junk line st = Ok (line', Z.of_nat n, st') /\
    (n < length line')%nat /\ nth_error line' n = Some 0 /\
    st = firstn n line' ++ st' /\
    match lines st with
    | [] => n = 0%nat /\ st' = []
    | l :: ls => firstn n line' = l /\ n <> 0%nat /\ lines st' = ls
    end.
Proof.
  intros junk line st HF.
  destruct (getline_spec junk line st) as (line' & st' & E & Hf & H0 & Hln & Hst).
  { unfold first_line. destruct (lines st) as [|l ls]; [reflexivity|]. apply HF. left; reflexivity. }
  exists line', st', (length (first_line st)). split; [exact E|].
  split; [apply nth_error_Some; congruence|]. split; [auto|]. split; [congruence|].
  unfold first_line in *. destruct (lines st) as [|l ls] eqn:El.
  - split; [reflexivity|]. apply lines_nil in El. subst st. cbn [app length] in Hst. auto.
  - split; [auto|]. split; [|auto]. destruct l as [|x l]; [|discriminate].
    destruct (lines_shape st []) as [Hn _]; [rewrite El; left; reflexivity|congruence].
Qed.
Print Assumptions C19_getline_next_line.

Theorem C19_read_all_lines : forall junk line st,
  Forall (fun l => N.of_nat (length l) < 2 ^ 30 - 1) (lines st) ->
  read_lines (S (length (lines st))) junk line st = Ok (lines st).
Proof. intros junk line st H. apply read_lines_spec; auto. Qed.
Print Assumptions C19_read_all_lines.

Theorem C19_lines_characterised : forall st,
  concat (lines st) = st /\
  (forall l, In l (lines st) -> l <> [] /\ (forall i, (S i < length l)%nat -> nth_error l i <> Some 10)) /\
  (forall a l b, lines st = a ++ l :: b -> b <> [] -> last l 0 = 10).
Proof.
  intros st. split; [apply lines_concat|]. split; [apply lines_shape|apply lines_terminated].
Qed.
Print Assumptions C19_lines_characterised.

Example C19_example :
  read_lines 4 (fun _ => 7) [] [97; 98; 99; 100; 101; 102; 103; 10; 10; 98] =
  Ok [[97; 98; 99; 100; 101; 102; 103; 10]; [10]; [98]].
Proof. vm_compute. reflexivity. Qed.

(** C62: formatted strings are never cut. *)
Theorem C62_formatted_string_complete : forall junk text,
  cstr_ok text -> (Z.of_nat (length text) < INT_MAX)%Z ->
  exists b, nx_vfstr junk text = Ok b /\ cstr b = Ok text.
Proof.
  intros junk text Hs Hl. destruct (vfstr_spec junk text Hs Hl) as (b & t & E & ->).
  eexists. split; [exact E|]. apply cstr_block; auto.
Qed.
Print Assumptions C62_formatted_string_complete.

Example C62_example : exists b, nx_vfstr (fun _ => 7) (repeat 97 100) = Ok b /\ cstr b = Ok (repeat 97 100).
Proof. eexists. split; vm_compute; reflexivity. Qed.
