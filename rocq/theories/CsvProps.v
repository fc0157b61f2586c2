(** Theorems about CSV texts: C23-C26. *)
From Coq Require Import Permutation.
From Verif Require Import Base BaseLemmas LexSpec CsvModel CsvSpec CsvProofs CsvProofs2.
Local Open Scope N_scope.

(** C23. The tokens of a CSV text are its fields, commas and ends of record. *)
Theorem C23_tokens rs : Forall (Forall field_ok) rs ->
  csv_tokens (csv_text rs) = Ok (csv_text_tokens rs ++ [TEOF]).
Proof. apply tokens_csv. Qed.
Print Assumptions C23_tokens.

(** Any text that is tokenized at all is the concatenation of its tokens. *)
Theorem C23_lossless t : bytes_ok t ->
  csv_tokens t = Fatal \/
  exists ks, csv_tokens t = Ok (ks ++ [TEOF]) /\ visible t = flat_map token_text ks /\
    (forall s, In (TFIELD s) ks -> field_ok (Some (false, s))) /\ (forall s, In (TQFIELD s) ks -> field_ok (Some (true, s))).
Proof.
  intros Ht. destruct (tokens_lossless t Ht) as [H|(ks & H1 & H2 & H3)]; [auto|]. right. exists ks. rewrite Forall_forall in H3.
  split; [auto|]. split; [auto|]. split; intros s Hs; exact (H3 _ Hs).
Qed.
Print Assumptions C23_lossless.

(* a,,"x""y,<newline>" newline ",b" *)
Example C23_example :
  let rs := [[Some (false, [97]); None; Some (true, [120; 34; 121; 44; 10])]; [None; Some (false, [98])]] in
  csv_text rs = [97; 44; 44; 34; 120; 34; 34; 121; 44; 10; 34; 10; 44; 98; 10] /\ Forall (Forall field_ok) rs /\
  csv_tokens (csv_text rs) = Ok [TFIELD [97]; TCOMMA; TCOMMA; TQFIELD [120; 34; 121; 44; 10]; TEOR; TCOMMA; TFIELD [98]; TEOR; TEOF].
Proof.
  split; [reflexivity|]. split; [|reflexivity]. unfold field_ok, text_char, plain_char.
  repeat (apply Forall_cons || apply Forall_nil || split); try discriminate; try lia; auto.
Qed.

(** C24. A text parses to [rs] (with [nc] columns) exactly if [rs] is a
    rectangular table with [nc] columns and the text is a text of that table. *)
Theorem C24_parse t nc rs : bytes_ok t ->
  parse_csv t = Ok (nc, rs) <-> table rs /\ Forall (fun r => length r = nc) rs /\ text_of_table rs (visible t).
Proof. apply parse_iff. Qed.
Print Assumptions C24_parse.

(** Every text parses or is rejected with an error; the parser terminates and
    reads no byte outside the text. *)
Theorem C24_total t : bytes_ok t -> parse_csv t = Fatal \/ exists nc rs, parse_csv t = Ok (nc, rs).
Proof. intros Ht. destruct (parse_at t Ht) as [H|(nc & rs & ks & H & _)]; eauto. Qed.
Print Assumptions C24_total.

(** A text with a record whose length differs from the header's is rejected. *)
Theorem C24_ragged t r0 rest r : bytes_ok t ->
  Forall (fun r => r <> [] /\ r <> [None] /\ Forall field_ok r) (r0 :: rest) -> text_of_table (r0 :: rest) (visible t) ->
  In r rest -> length r <> length r0 -> parse_csv t = Fatal.
Proof. intros Ht H1 H2 H3 H4. apply (parse_ragged t r0 rest Ht H1 H2). eauto. Qed.
Print Assumptions C24_ragged.

Example C24_example :
  parse_csv [97; 44; 98; 10; 49; 44; 10; 44; 34; 34] = (* a,b 1, ,"" without final newline *)
    Ok (2%nat, [[Some (false, [97]); Some (false, [98])]; [Some (false, [49]); None]; [None; Some (true, [])]]) /\
  parse_csv [97; 44; 98; 10; 49; 10] = Fatal /\ parse_csv [97; 10; 10] = Fatal /\ parse_csv [] = Fatal.
Proof. repeat split; reflexivity. Qed.

(** C25. Column types of a table with header [hdr] and rows [rows]. *)
Theorem C25_column_types strtod_all hdr rows nc c tys :
  Forall (fun r => length r = nc) rows -> get_column_types strtod_all nc (hdr :: rows) = Ok tys -> (c < nc)%nat ->
  let ts := map (field_type strtod_all) (column_fields c rows) in
  exists ty, nth_error tys c = Some ty /\
  (ty = DINT <-> ts <> [] /\ Forall (eq DINT) ts) /\
  (ty = DDOUBLE <-> In DDOUBLE ts /\ Forall (fun t => t = DINT \/ t = DDOUBLE) ts) /\
  (ty = DBOOL <-> ts <> [] /\ Forall (eq DBOOL) ts) /\
  (ty = DSTRING <-> ts = [] \/ In DSTRING ts \/ (In DBOOL ts /\ (In DINT ts \/ In DDOUBLE ts))).
Proof.
  intros H1 H2 H3. destruct (column_types_ok strtod_all hdr rows nc H1) as (tys' & E & L & Hn). rewrite E in H2. injection H2 as ->.
  cbn zeta. exists (nth c tys DSTRING). split; [apply nth_error_nth'; lia|]. rewrite Hn. apply type_join_meaning.
  apply Forall_forall. intros t Ht. apply in_map_iff in Ht as (f & <- & _). apply ft_not_factor.
Qed.
Print Assumptions C25_column_types.

Theorem C25_types_exist strtod_all hdr rows nc : Forall (fun r => length r = nc) rows ->
  exists tys, get_column_types strtod_all nc (hdr :: rows) = Ok tys /\ length tys = nc.
Proof. intros H1. destruct (column_types_ok strtod_all hdr rows nc H1) as (tys' & E & L & Hn). eauto. Qed.
Print Assumptions C25_types_exist.

(** The order of the rows (and the header) does not matter. *)
Theorem C25_order strtod_all hdr hdr' rows rows' nc : Forall (fun r => length r = nc) rows -> Permutation rows rows' ->
  get_column_types strtod_all nc (hdr :: rows) = get_column_types strtod_all nc (hdr' :: rows').
Proof.
  intros H1 Hp. assert (Forall (fun r => length r = nc) rows') as H1' by (eapply Permutation_Forall; eauto).
  destruct (column_types_ok strtod_all hdr rows nc H1) as (a & -> & La & Na). destruct (column_types_ok strtod_all hdr' rows' nc H1') as (b & -> & Lb & Nb).
  f_equal. apply nth_ext with (d := DSTRING) (d' := DSTRING); [congruence|]. intros c _. rewrite Na, Nb. apply type_join_perm. apply Permutation_map. apply column_perm. auto.
Qed.
Print Assumptions C25_order.

(** Empty fields do not matter: a row of empty fields changes no type. *)
Theorem C25_empty_row strtod_all hdr rows nc : Forall (fun r => length r = nc) rows ->
  get_column_types strtod_all nc (hdr :: repeat None nc :: rows) = get_column_types strtod_all nc (hdr :: rows).
Proof.
  intros H1. assert (Forall (fun r => length r = nc) (repeat None nc :: rows)) as H1' by (constructor; auto; apply repeat_length).
  destruct (column_types_ok strtod_all hdr rows nc H1) as (a & -> & La & Na). destruct (column_types_ok strtod_all hdr _ nc H1') as (b & -> & Lb & Nb).
  f_equal. apply nth_ext with (d := DSTRING) (d' := DSTRING); [congruence|]. intros c _. rewrite Na, Nb. unfold column_fields. cbn [map]. rewrite nth_repeat. reflexivity.
Qed.
Print Assumptions C25_empty_row.

(* columns 1,2.5 | true, | 7, | quoted 1 *)
Example C25_example :
  let sd s := if list_eq_dec N.eq_dec s [50; 46; 53] then true else false in
  get_column_types sd 4 [[None; None; None; None];
    [Some (false, [49]); Some (false, s_true); Some (false, [55]); Some (true, [49])];
    [Some (false, [50; 46; 53]); None; None; None]] = Ok [DDOUBLE; DBOOL; DINT; DSTRING].
Proof. reflexivity. Qed.

(** C26. The part that holds: decimal numerals (blanks, sign, digits without a
    superfluous leading zero).  They are classified INT exactly if their value
    fits an int, and then both the classifier and the stored value (atoi) are
    that value. *)
Theorem C26_decimal_partial strtod_all ws sg ds : spaces ws -> sign_ok sg -> decimal_digits ds ->
  let s := ws ++ sg ++ ds in let v := sign_of sg (dec_value ds) in
  (field_type_from_text strtod_all s = DINT <-> (INT_MIN <= v <= INT_MAX)%Z) /\
  (field_type_from_text strtod_all s = DINT -> fst (strtol 0 s) = v /\ atoi s = v).
Proof.
  intros Hws Hsg Hd s v. destruct (decimal_all _ Hd) as [Ha Hn].
  assert (numeral_head s) as Hh.
  { apply numeral_head_ok; auto. destruct ds as [|d ds]; [congruence|]. inversion Ha; subst. eauto. }
  pose proof (strtol0_decimal ws sg ds Hws Hsg Hd) as E0. pose proof (strtol10_digits ws sg ds Hws Hsg Ha Hn) as E1.
  pose proof (type_of_numeral strtod_all s v Hh E0) as Ht. split; [rewrite Ht; unfold in_int; lia|].
  intros H. apply Ht in H. unfold atoi. fold s in E0, E1. rewrite E0, E1. cbn [fst]. fold v. rewrite clamp_in, wrap_in by auto. auto.
Qed.
Print Assumptions C26_decimal_partial.

(** Everything the classifier calls an integer is a decimal numeral as above,
    an octal one or a hexadecimal one. *)
Theorem C26_shapes strtod_all s : field_type_from_text strtod_all s = DINT ->
  s = [] \/ exists ws sg body, s = ws ++ sg ++ body /\ spaces ws /\ sign_ok sg /\ (decimal_digits body \/ oct_digits body \/ hex_digits body).
Proof. apply int_shape. Qed.
Print Assumptions C26_shapes.

(** Hexadecimal fields are classified by their value and always stored as 0. *)
Theorem C26_hex_refuted strtod_all ws sg ds : spaces ws -> sign_ok sg -> hex_digits ds ->
  let s := ws ++ sg ++ ds in let v := sign_of sg (hex_value ds) in
  (INT_MIN <= v <= INT_MAX)%Z -> field_type_from_text strtod_all s = DINT /\ fst (strtol 0 s) = v /\ atoi s = 0%Z.
Proof.
  intros Hws Hsg Hd s v Hv. destruct (strtol0_hex ws sg ds Hws Hsg Hd) as [E0 E1]. fold s v in E0, E1.
  assert (in_int v = true) as Hi by (unfold in_int; lia).
  assert (numeral_head s) as Hh.
  { apply numeral_head_ok; auto. destruct Hd as (x & hs & -> & _). exists 48, (x :: hs). split; [auto|lia]. }
  split; [apply (type_of_numeral strtod_all s v Hh E0); auto|]. unfold atoi. rewrite E0, E1. cbn [fst]. rewrite clamp_in by auto. auto.
Qed.
Print Assumptions C26_hex_refuted.

(** Octal fields are classified by their octal value and stored with their
    decimal reading: the same below 8, different from there on. *)
Theorem C26_octal_refuted strtod_all ws sg ds : spaces ws -> sign_ok sg -> oct_digits ds ->
  let s := ws ++ sg ++ ds in let v := sign_of sg (oct_value ds) in
  (INT_MIN <= v <= INT_MAX)%Z -> (-INT_MAX <= dec_value ds <= INT_MAX)%Z ->
  field_type_from_text strtod_all s = DINT /\ fst (strtol 0 s) = v /\ (atoi s = v <-> (oct_value ds < 8)%Z).
Proof.
  intros Hws Hsg Hd s v Hv Hdv. pose proof (strtol0_octal ws sg ds Hws Hsg Hd) as E0.
  assert (Forall (fun b => 48 <= b <= 57) ds /\ ds <> []) as [Ha Hn].
  { destruct Hd as (os & -> & _ & Ho). split; [|discriminate]. constructor; [lia|]. eapply Forall_impl; [|exact Ho]. intros b Hb. cbn in Hb. lia. }
  pose proof (strtol10_digits ws sg ds Hws Hsg Ha Hn) as E1. fold s v in E0, E1.
  assert (in_int v = true) as Hi by (unfold in_int; lia).
  assert (numeral_head s) as Hh.
  { apply numeral_head_ok; auto. destruct Hd as (os & -> & _). exists 48, os. split; [auto|lia]. }
  split; [apply (type_of_numeral strtod_all s v Hh E0); auto|]. unfold atoi. rewrite E0, E1. cbn [fst]. rewrite (clamp_in v) by auto. split; [auto|].
  assert (in_int (sign_of sg (dec_value ds)) = true) as Hi2. { destruct Hsg as [->|[->| ->]]; cbn; unfold in_int, INT_MIN, INT_MAX in *; lia. }
  rewrite clamp_in, wrap_in by auto. destruct (oct_nonneg ds Hd) as [Hn0 Hlt]. split.
  - intros E. destruct (Z.lt_ge_cases (oct_value ds) 8) as [|Hge]; [auto|]. pose proof (oct_lt_dec ds Hd Hge). unfold v in E. destruct Hsg as [->|[->| ->]]; cbn in E; lia.
  - intros Hl. rewrite (Hlt Hl). reflexivity.
Qed.
Print Assumptions C26_octal_refuted.

Example C26_example : (* " -42", "0x10", "010" *)
  decimal_digits [52; 50] /\ hex_digits [48; 120; 49; 48] /\ oct_digits [48; 49; 48] /\
  map (fun s => (fst (strtol 0 s), atoi s)) [[32; 45; 52; 50]; [48; 120; 49; 48]; [48; 49; 48]] = [(-42, -42); (16, 0); (8, 10)]%Z.
Proof.
  split; [right; exists 52, [50]; repeat split; try lia; repeat constructor; lia|].
  split; [exists 120, [49; 48]; repeat split; auto; [discriminate|]; repeat constructor; unfold hex_digit; lia|].
  split; [exists [49; 48]; repeat split; auto; [discriminate|]; repeat constructor; lia|]. reflexivity.
Qed.
