(** Proofs about what is sent to gnuplot. *)
From Coq Require Import Lia String Ascii.
From Verif Require Import Base BaseLemmas Heap StrModel StrArrModel StrArrProofs LexModel LexSpec CsvModel CsvSpec CsvProofs CsvProofs2
  DfModel DfSpec DfProofs DfProofs2 DfCsvSpec DfCsvProofs DfCsvProofs2 DsModel DsSpec GplModel GplSpec.
Local Open Scope list_scope.

(** *** Lines *)
Definition one_line (l : list N) : Prop := Forall (fun b => b <> 10%N) l.
Lemma lines_from_line l t : one_line l -> forall acc, lines_from acc (l ++ 10%N :: t) = (acc ++ l) :: lines t.
Proof.
  intros H. induction H as [|b l Hb _ IH]; intros acc; cbn [lines_from app].
  - rewrite N.eqb_refl, app_nil_r. reflexivity.
  - destruct (N.eqb_spec b 10); [contradiction|]. rewrite IH, <- app_assoc. reflexivity.
Qed.
Lemma lines_line l t : one_line l -> lines (l ++ 10%N :: t) = l :: lines t.
Proof. intros H. apply (lines_from_line l t H []). Qed.
Lemma lines_lines ls t : Forall one_line ls -> lines (flat_map (fun l => l ++ [10%N]) ls ++ t) = ls ++ lines t.
Proof.
  intros H. induction H as [|l ls Hl _ IH]; [reflexivity|]. cbn [flat_map]. rewrite <- !app_assoc. cbn [app]. rewrite lines_line, IH by auto. reflexivity.
Qed.

(** *** Tokens *)
Lemma in_str s l : Forall (fun b => b <> 34%N) s -> forall acc, tokens_from (InStr acc) (s ++ 34%N :: l) = Str (acc ++ s) :: tokens l.
Proof.
  intros H. induction H as [|b s Hb _ IH]; intros acc; cbn [tokens_from app].
  - rewrite app_nil_r. reflexivity.
  - destruct (N.eqb_spec b 34); [contradiction|]. rewrite IH, <- app_assoc. reflexivity.
Qed.
Definition no_blank (s : list N) : Prop := Forall (fun b => b <> 32 /\ b <> 9)%N s.
Lemma in_word s l : no_blank s -> forall acc, tokens_from (InWord acc) (s ++ l) = tokens_from (InWord (acc ++ s)) l.
Proof.
  intros H. induction H as [|b s [Hb Hc] _ IH]; intros acc; cbn [tokens_from app].
  - rewrite app_nil_r. reflexivity.
  - destruct (N.eqb_spec b 32); [contradiction|]. destruct (N.eqb_spec b 9); [contradiction|]. cbn [orb]. rewrite IH, <- app_assoc. reflexivity.
Qed.
Lemma start_word s l : word_like s -> tokens_from Between (s ++ l) = tokens_from (InWord s) l.
Proof.
  intros (H & b & s' & -> & _). inversion H as [|x y Hb Hs]; subst. cbn [app tokens_from].
  destruct (N.eqb_spec b 32); [tauto|]. destruct (N.eqb_spec b 9); [tauto|]. destruct (N.eqb_spec b 34); [tauto|]. cbn [orb].
  rewrite in_word; [reflexivity|]. eapply Forall_impl; [|exact Hs]. cbn. tauto.
Qed.
Lemma plain_no_quote s : plain s -> Forall (fun b => b <> 34%N) s.
Proof. intros H. eapply Forall_impl; [|exact H]. cbn. tauto. Qed.
Lemma plain_line s : plain s -> one_line s.
Proof. intros H. eapply Forall_impl; [|exact H]. cbn. tauto. Qed.
Lemma word_line s : word_like s -> one_line s.
Proof. intros [H _]. eapply Forall_impl; [|exact H]. cbn. tauto. Qed.
Lemma word_blank s : word_like s -> no_blank s.
Proof. intros [H _]. eapply Forall_impl; [|exact H]. cbn. tauto. Qed.

Lemma print_int_word z : word_like (print_int z).
Proof.
  destruct (print_int_shape z) as (sg & ds & -> & Hs & Hd & _).
  assert (Forall (fun b => 48 <= b <= 57)%N ds /\ ds <> []) as [Hd' Hn].
  { destruct Hd as [->|(d & ds' & -> & H1 & H2)]; (split; [|discriminate]); constructor; auto; lia. }
  assert (Forall (fun b => b <> 32 /\ b <> 9 /\ b <> 10 /\ b <> 34 /\ b <> 69 /\ b <> 101)%N (sg ++ ds)) as HF.
  { apply Forall_app. split.
    - destruct Hs as [->|[->| ->] ]; repeat constructor; discriminate.
    - eapply Forall_impl; [|exact Hd']. cbn. intros; lia. }
  split; [eapply Forall_impl; [|exact HF]; cbn; tauto|].
  destruct (sg ++ ds) as [|b s'] eqn:E.
  - destruct ds; [contradiction|]. destruct sg; discriminate.
  - exists b, s'. split; auto. inversion HF; subst. tauto.
Qed.

(** *** The text of a row *)
Definition token_text (t : token) : list N := match t with Word s => s | Str s => 34%N :: s ++ [34%N] end.
Definition token_ok (t : token) : Prop := match t with Word s => word_like s | Str s => plain s end.
Lemma tokens_join ts : Forall token_ok ts -> tokens (join 32%N (map token_text ts)) = ts.
Proof.
  intros H. induction H as [|t ts Ht Hts IH]; [reflexivity|]. destruct ts as [|t' ts].
  - cbn [map join]. destruct t as [s|s]; cbn [token_text token_ok] in *.
    + unfold tokens. rewrite <- (app_nil_r s) at 1. rewrite start_word by auto. reflexivity.
    + unfold tokens. cbn [tokens_from]. change ((34 =? 32)%N || (34 =? 9)%N)%bool with false. change (34 =? 34)%N with true. cbn iota.
      rewrite in_str by (apply plain_no_quote; auto). reflexivity.
  - change (join 32%N (map token_text (t :: t' :: ts))) with (token_text t ++ 32%N :: join 32%N (map token_text (t' :: ts))).
    set (r := join 32%N (map token_text (t' :: ts))) in *. destruct t as [s|s]; cbn [token_text token_ok] in *.
    + unfold tokens. rewrite start_word by auto. cbn [tokens_from]. change ((32 =? 32)%N || (32 =? 9)%N)%bool with true. cbn iota. f_equal. exact IH.
    + unfold tokens. cbn [app tokens_from]. change ((34 =? 32)%N || (34 =? 9)%N)%bool with false. change (34 =? 34)%N with true. cbn iota.
      rewrite <- app_assoc. cbn [app]. rewrite in_str by (apply plain_no_quote; auto). f_equal. unfold tokens. cbn [tokens_from].
      change ((32 =? 32)%N || (32 =? 9)%N)%bool with true. cbn iota. exact IH.
Qed.
Lemma join_line ts : Forall token_ok ts -> one_line (join 32%N (map token_text ts)).
Proof.
  intros H. assert (forall t, token_ok t -> one_line (token_text t)) as Hone.
  { intros [s|s] Hs; cbn [token_text token_ok] in *; [apply word_line; auto|]. constructor; [discriminate|]. apply Forall_app. split; [apply plain_line; auto|].
    repeat constructor. discriminate. }
  induction H as [|t ts Ht Hts IH]; [constructor|]. destruct ts as [|t' ts]; [apply Hone; auto|].
  change (join 32%N (map token_text (t :: t' :: ts))) with (token_text t ++ 32%N :: join 32%N (map token_text (t' :: ts))).
  apply Forall_app. split; [apply Hone; auto|]. constructor; [discriminate|auto].
Qed.
Lemma join_mark ts : Forall token_ok ts -> ts <> [] -> join 32%N (map token_text ts) <> text "EOD" /\ join 32%N (map token_text ts) <> text "e".
Proof.
  intros H Hne. destruct ts as [|t ts]; [congruence|]. inversion H as [|x y Ht _]; subst.
  assert (exists b r, join 32%N (map token_text (t :: ts)) = b :: r /\ b <> 69%N /\ b <> 101%N) as (b & r & -> & H1 & H2).
  { assert (exists b r, token_text t = b :: r /\ b <> 69%N /\ b <> 101%N) as (b & r & E & Hb).
    { destruct t as [s|s]; cbn [token_text token_ok] in *.
      - destruct Ht as (_ & b & s' & -> & Hb). eauto.
      - eexists; eexists; split; [reflexivity|]. split; discriminate. }
    destruct ts as [|t' ts].
    - cbn [map join]. eauto.
    - change (join 32%N (map token_text (t :: t' :: ts))) with (token_text t ++ 32%N :: join 32%N (map token_text (t' :: ts))). rewrite E. cbn [app]. eauto. }
  split; intros E; injection E; intros; subst; congruence.
Qed.

Lemma until_lines mark ls t : ~ In mark ls -> until mark (ls ++ mark :: t) = Some (ls, t).
Proof.
  induction ls as [|l ls IH]; intros H; cbn [until app].
  - destruct (list_eq_dec N.eq_dec mark mark); [reflexivity|contradiction].
  - destruct (list_eq_dec N.eq_dec l mark) as [->|]; [exfalso; apply H; left; auto|]. rewrite IH; auto. intros D. apply H. right. auto.
Qed.

(** *** A frame, as text *)
Local Open Scope nat_scope.
Lemma join_loop32 nc (f : nat -> res (list N)) (g : nat -> list N) : (forall i, i < nc -> f i = Ok (g i)) ->
  forall m k out, k + S m = nc ->
  for_each (fun i out => let* s := f i in Ok (out ++ s ++ (if negb (i =? nc - 1) then [32%N] else [10%N]))) (seq k (S m)) out =
  Ok (out ++ join 32%N (map g (seq k (S m))) ++ [10%N]).
Proof.
  intros Hf. induction m as [|m IH]; intros k out Hk.
  - cbn [seq for_each map join]. rewrite Hf by lia. cbn [bind]. replace (k =? nc - 1) with true by (symmetry; apply Nat.eqb_eq; lia). reflexivity.
  - change (seq k (S (S m))) with (k :: seq (S k) (S m)). cbn [for_each]. rewrite Hf by lia. cbn [bind].
    replace (k =? nc - 1) with false by (symmetry; apply Nat.eqb_neq; lia). cbn [negb].
    rewrite (IH (S k)) by lia. cbn [seq map join]. rewrite <- !app_assoc. reflexivity.
Qed.

Section Frame.
Variable print_d : N -> list N.
Lemma frame_text h df T : rep [] h df T -> tcols T <> [] ->
  frame_fprintf print_d h df [32%N] =
  Ok (flat_map (fun l => l ++ [10%N])
       (join 32%N (map (fun ac => nx_fputs_readable (Some (alabel ac))) (tcols T)) ::
        map (fun r => join 32%N (map field_text (row_record print_d T r))) (seq 0 (trows T)))).
Proof.
  intros HR Hne. pose proof HR as (Hn & _ & HF & _). pose proof (Forall2_length _ _ _ HF) as Hl.
  unfold frame_fprintf. rewrite Hn, Nat2Z.id, Hl.
  destruct (tcols T) as [|ac0 l0] eqn:ET; [congruence|]. set (nc := List.length (ac0 :: l0)) in *.
  assert (exists m, nc = S m) as (m & Em) by (exists (List.length l0); reflexivity).
  rewrite (for_each_ext _ (fun i out => let* s := (let* dc := aget (cols df) i in Ok (nx_fputs_readable (Some (clabel dc)))) in
      Ok (out ++ s ++ (if negb (i =? nc - 1) then [32%N] else [10%N])))).
  2:{ intros i s _. destruct (aget (cols df) i); reflexivity. }
  rewrite Em. rewrite (join_loop32 (S m) _ (fun i => nx_fputs_readable (Some (alabel (nth i (tcols T) ac0))))); [|intros i Hi|lia].
  2:{ assert (i < List.length (tcols T)) as Hi' by (rewrite ET; fold nc; lia). destruct (nth_error (tcols T) i) as [ac|] eqn:Ei.
      2:{ apply nth_error_None in Ei. lia. }
      rewrite ET in Ei. destruct (Forall2_nth_r _ _ _ _ _ HF Ei) as (dc & Edc & (_ & El & _)). unfold aget. rewrite Edc. cbn [bind].
      rewrite ET, (nth_error_nth _ _ ac0 Ei), El. reflexivity. }
  cbn [bind app].
  replace (map (fun i => nx_fputs_readable (Some (alabel (nth i (tcols T) ac0)))) (seq 0 (S m))) with (map (fun ac => nx_fputs_readable (Some (alabel ac))) (tcols T)).
  2:{ rewrite <- Em. replace nc with (List.length (tcols T)) by (rewrite ET; reflexivity).
      symmetry. exact (map_nth_seq (fun ac => nx_fputs_readable (Some (alabel ac))) (tcols T) ac0). }
  rewrite (rows_loop _ (fun r => join 32%N (map field_text (row_record print_d T r)) ++ [10%N])).
  - cbn [flat_map]. rewrite ET. f_equal. f_equal. rewrite !flat_map_concat_map, map_map. reflexivity.
  - intros r out Hr. apply in_seq in Hr.
    rewrite (join_loop32 (S m) _ (fun c => field_text (cell_field print_d (atype (nth c (tcols T) ac0)) (nth r (acells (nth c (tcols T) ac0)) None)))).
    + do 3 f_equal. unfold row_record. rewrite map_map. rewrite <- Em.
      replace nc with (List.length (tcols T)) by (rewrite ET; reflexivity).
      f_equal. exact (map_nth_seq (fun ac => field_text (cell_field print_d (atype ac) (nth r (acells ac) None))) (tcols T) ac0).
    + intros c Hc. assert (c < List.length (tcols T)) as Hc' by (rewrite ET; fold nc; lia).
      destruct (nth_error (tcols T) c) as [ac|] eqn:Ec; [|apply nth_error_None in Ec; lia].
      rewrite (nth_error_nth _ _ ac0 Ec). apply cell_text_sim with (T := T); auto. lia.
    + lia.
Qed.

Lemma double_quotes_id s : Forall (fun b => b <> 34%N) s -> double_quotes s = s.
Proof. intros H. induction H as [|b s Hb _ IH]; auto. cbn. destruct (N.eqb_spec b 34); [contradiction|]. rewrite IH. reflexivity. Qed.
Lemma readable_id s : plain s -> Forall (fun b => ~ In b [8; 9; 12; 13]%N) s -> nx_fputs_readable (Some s) = token_text (Str s).
Proof.
  intros Hp Hq. unfold nx_fputs_readable. cbn [token_text].
  assert (flat_map readable_char s = s) as ->; [|reflexivity].
  unfold plain in Hp. rewrite Forall_forall in Hp, Hq. induction s as [|b s IH]; [reflexivity|]. cbn [flat_map].
  rewrite IH; [|intros; apply Hp; right; auto|intros; apply Hq; right; auto].
  specialize (Hp b (or_introl eq_refl)). specialize (Hq b (or_introl eq_refl)). cbn [In] in Hq.
  assert (readable_char b = [b]) as ->; [|reflexivity]. clear IH.
  destruct b as [|p]; [reflexivity|]. unfold readable_char.
  repeat match goal with |- context [match ?x with xH => _ | _ => _ end] => destruct x end; try reflexivity; tauto.
Qed.

Lemma map_field_text l r :
  (forall c, In c l -> match nth r (acells c) None with None => False | Some (AStr s) => plain s | Some _ => True end) ->
  map field_text (map (fun ac => cell_field print_d (atype ac) (nth r (acells ac) None)) l) =
  map token_text (flat_map (fun c => match nth r (acells c) None with Some v => [value_token print_d v] | None => [] end) l).
Proof.
  induction l as [|c l IH]; intros H; [reflexivity|]. cbn [map flat_map]. rewrite map_app, IH by (intros; apply H; right; auto).
  specialize (H c (or_introl eq_refl)). destruct (nth r (acells c) None) as [v|]; [|contradiction]. cbn [map app]. f_equal.
  destruct v as [s|z|d|b]; cbn [cell_field field_text value_token token_text value_text].
  - rewrite double_quotes_id by (apply plain_no_quote; auto). reflexivity.
  - reflexivity.
  - reflexivity.
  - destruct (Z.eqb b 0); reflexivity.
Qed.

Lemma rows_sendable h df T : (forall d, word_like (print_d d)) -> rep [] h df T -> sendable T ->
  frame_fprintf print_d h df [32%N] =
    Ok (flat_map (fun l => l ++ [10%N]) (map (fun ts => join 32%N (map token_text ts)) (label_row T :: map (value_row print_d T) (seq 0 (trows T))))) /\
  Forall (fun ts => Forall token_ok ts /\ ts <> []) (label_row T :: map (value_row print_d T) (seq 0 (trows T))).
Proof.
  intros Hd HR (Hne & Hl & Hv).
  assert (forall r c, r < trows T -> In c (tcols T) -> match nth r (acells c) None with None => False | Some (AStr s) => plain s | Some _ => True end) as Hc.
  { intros r c Hr Hin. apply (Hv c); auto. apply nth_In. destruct (rep_typed [] h df T HR c Hin) as [-> _]. auto. }
  split.
  - rewrite (frame_text h df T HR Hne). f_equal. f_equal. cbn [map]. f_equal.
    + f_equal. unfold label_row. rewrite map_map. apply map_ext_in. intros c Hin. destruct (Hl c Hin). apply readable_id; auto.
    + rewrite map_map. apply map_ext_in. intros r Hr. apply in_seq in Hr. f_equal. unfold row_record, value_row. apply map_field_text.
      intros c Hin. apply Hc; auto. lia.
  - constructor; [split|].
    + apply Forall_forall. intros t Ht. unfold label_row in Ht. apply in_map_iff in Ht as (c & <- & Hin). cbn. apply Hl. auto.
    + unfold label_row. intros E. apply Hne. destruct (tcols T); auto. discriminate.
    + apply Forall_forall. intros ts Hts. apply in_map_iff in Hts as (r & <- & Hr). apply in_seq in Hr. unfold value_row. split.
      * apply Forall_forall. intros t Ht. apply in_flat_map in Ht as (c & Hin & Ht). specialize (Hc r c ltac:(lia) Hin).
        destruct (nth r (acells c) None) as [v|]; [|contradiction]. destruct Ht as [<-|[]]. destruct v as [s|z|d|b]; cbn [value_token token_ok]; auto.
        -- apply print_int_word.
        -- destruct (Z.eqb b 0); cbn; (split; [repeat constructor; lia|]); eexists; eexists; (split; [reflexivity|]); split; discriminate.
      * destruct (tcols T) as [|c l] eqn:ET; [congruence|]. cbn [flat_map]. specialize (Hc r c ltac:(lia) (or_introl eq_refl)).
        destruct (nth r (acells c) None); [discriminate|contradiction].
Qed.

Lemma send_lines rows : Forall (fun ts => Forall token_ok ts /\ ts <> []) rows ->
  let ls := map (fun ts => join 32%N (map token_text ts)) rows in
  Forall one_line ls /\ ~ In (text "EOD") ls /\ ~ In (text "e") ls /\ map tokens ls = rows.
Proof.
  intros H ls. unfold ls. split; [|split; [|split]].
  - apply Forall_map. eapply Forall_impl; [|exact H]. cbn. intros ts [Ht _]. apply join_line; auto.
  - intros D. apply in_map_iff in D as (ts & E & Hin). rewrite Forall_forall in H. destruct (H ts Hin) as [H1 H2]. destruct (join_mark ts H1 H2). auto.
  - intros D. apply in_map_iff in D as (ts & E & Hin). rewrite Forall_forall in H. destruct (H ts Hin) as [H1 H2]. destruct (join_mark ts H1 H2). auto.
  - clear ls. induction H as [|ts rows [Ht _] _ IH]; [reflexivity|]. cbn [map]. rewrite IH, tokens_join by auto. reflexivity.
Qed.
End Frame.
