(** Proofs about column types and integer fields. *)
From Coq Require Import Permutation.
From Verif Require Import Base BaseLemmas CsvModel CsvSpec.
Local Open Scope N_scope.

Section Types.
Variable strtod_all : list N -> bool.
Notation ft := (field_type strtod_all).

Definition step (f : csv_field) (o : option dctype) : option dctype :=
  match f with
  | None => o
  | Some _ => match o with None => Some (ft f) | Some t => Some (pick_larger_type t (ft f)) end
  end.

Lemma types_of_record_ok nc record ct : length record = nc -> length ct = nc ->
  exists ct', types_of_record strtod_all nc record ct = Ok ct' /\ length ct' = nc /\
    forall c, nth c ct' None = step (nth c record None) (nth c ct None).
Proof.
  intros Hr Hc. unfold types_of_record.
  match goal with |- context [for_each ?b _ _] => set (body := b) end.
  assert (forall k, (k <= nc)%nat -> exists ct', for_each body (seq 0 k) ct = Ok ct' /\ length ct' = nc /\
    forall c, nth c ct' None = if (c <? k)%nat then step (nth c record None) (nth c ct None) else nth c ct None) as G.
  { induction k as [|k IH]; intros Hk.
    - exists ct. cbn. auto.
    - destruct IH as (ct1 & E1 & L1 & N1); [lia|]. rewrite seq_S, for_each_app, E1. cbn [bind Nat.add]. cbn [for_each].
      assert (body k ct1 = Ok (lset ct1 k (step (nth k record None) (nth k ct1 None)))) as ->.
      { unfold body. rewrite (aget_lt record k None) by lia. cbn [bind]. destruct (nth k record None) as [f|] eqn:Ef.
        - rewrite (aget_lt ct1 k None) by lia. cbn [bind]. cbn [step]. destruct (nth k ct1 None); apply aset_lt; lia.
        - cbn [step]. f_equal. clear - L1 Hk. assert (k < length ct1)%nat as H by lia. clear L1 Hk. revert k H. induction ct1 as [|x l IHl]; intros [|k] H; cbn in *; try lia; auto.
          rewrite <- IHl by lia. reflexivity. }
      cbn [bind]. eexists. split; [reflexivity|]. rewrite lset_length. split; [auto|]. intros c. rewrite nth_lset. rewrite L1.
      rewrite !N1. replace (k <? k)%nat with false by lia. destruct (Nat.eqb_spec k c) as [->|Hkc].
      + replace (c <? nc)%nat with true by lia. replace (c <? S c)%nat with true by lia. reflexivity.
      + cbn [andb]. destruct (Nat.ltb_spec c k), (Nat.ltb_spec c (S k)); try lia; reflexivity. }
  destruct (G nc (le_n _)) as (ct' & E & L & Nn). exists ct'. split; [auto|]. split; [auto|]. intros c. rewrite Nn.
  destruct (Nat.ltb_spec c nc); [reflexivity|]. rewrite (nth_overflow record), (nth_overflow ct) by lia. reflexivity.
Qed.

Lemma rows_ok nc rows : forall ct, Forall (fun r => length r = nc) rows -> length ct = nc ->
  exists ct', for_each (types_of_record strtod_all nc) rows ct = Ok ct' /\ length ct' = nc /\
    forall c, nth c ct' None = fold_left (fun o r => step (nth c r None) o) rows (nth c ct None).
Proof.
  induction rows as [|r rows IH]; intros ct Hr Hc; [exists ct; cbn; auto|]. apply Forall_cons_iff in Hr as [H1 H2].
  destruct (types_of_record_ok nc r ct H1 Hc) as (ct1 & E1 & L1 & N1). cbn [for_each]. rewrite E1. cbn [bind].
  destruct (IH ct1 H2 L1) as (ct2 & E2 & L2 & N2). exists ct2. split; [auto|]. split; [auto|]. intros c. rewrite N2, N1. reflexivity.
Qed.

Definition not_factor (t : dctype) : Prop := t <> DFACTOR.
Lemma ft_not_factor f : not_factor (ft f).
Proof.
  destruct f as [[[] s]|]; cbn; try discriminate. unfold field_type_from_text. destruct (_ || _); [discriminate|].
  destruct (strtol 0 s) as [lv rest]. destruct (_ && _); [discriminate|]. destruct (strtod_all s); discriminate.
Qed.

Lemma type_join_snoc ts x : ts <> [] -> type_join (ts ++ [x]) = pick_larger_type (type_join ts) x.
Proof.
  intros Hn. unfold type_join. destruct ts as [|a ts]; [congruence|]. change ((a :: ts) ++ [x]) with (a :: (ts ++ [x])).
  set (l := a :: ts). change (a :: ts ++ [x]) with (l ++ [x]). rewrite !existsb_app, forallb_app. cbn [existsb forallb].
  assert (existsb is_bool l = false -> forallb is_bool l = false) as Hb by (unfold l; cbn; destruct (is_bool a); [discriminate|reflexivity]).
  destruct (existsb is_string l), (existsb is_bool l), (forallb is_bool l), (existsb is_double l), x; try reflexivity; specialize (Hb eq_refl); discriminate.
Qed.
Lemma type_join_one t : not_factor t -> type_join [t] = t.
Proof. destruct t; intros H; try reflexivity. exfalso. apply H. reflexivity. Qed.

Lemma fold_join c rows : Forall not_factor (map ft (column_fields c rows)) ->
  fold_left (fun o r => step (nth c r None) o) rows None =
  match column_fields c rows with [] => None | fs => Some (type_join (map ft fs)) end.
Proof.
  induction rows as [|r rows IH] using rev_ind; intros H; [reflexivity|]. rewrite fold_left_app. cbn [fold_left].
  unfold column_fields in *. rewrite map_app, filter_app in *. cbn [map filter app] in *. rewrite map_app in H. apply Forall_app in H as [H1 H2].
  rewrite (IH H1). destruct (nth c r None) as [f|]; cbn [step].
  - cbn [map] in *. inversion H2; subst. destruct (filter _ (map _ rows)) as [|g gs].
    + cbn [app map]. rewrite type_join_one by auto. reflexivity.
    + cbn [app]. f_equal. cbn [map]. rewrite map_app. cbn [map]. rewrite app_comm_cons. rewrite type_join_snoc by discriminate. reflexivity.
  - rewrite app_nil_r. reflexivity.
Qed.

Lemma column_types_ok hdr rows nc : Forall (fun r => length r = nc) rows ->
  exists tys, get_column_types strtod_all nc (hdr :: rows) = Ok tys /\ length tys = nc /\
    forall c, nth c tys DSTRING = type_join (map ft (column_fields c rows)).
Proof.
  intros H. destruct (rows_ok nc rows (repeat None nc) H (repeat_length _ _)) as (ct & E & L & Nn).
  unfold get_column_types. cbn [tl]. rewrite E. cbn [bind]. eexists. split; [reflexivity|]. rewrite map_length. split; [auto|].
  intros c. set (g := fun t : option dctype => match t with Some t => t | None => DSTRING end). change DSTRING with (g None) at 1. rewrite map_nth, Nn.
  replace (nth c (repeat None nc) None) with (@None dctype) by (symmetry; apply nth_repeat).
  rewrite fold_join by (apply Forall_forall; intros t Ht; apply in_map_iff in Ht as (f & <- & _); apply ft_not_factor).
  destruct (column_fields c rows); reflexivity.
Qed.
End Types.

Lemma existsb_perm {A} (p : A -> bool) l l' : Permutation l l' -> existsb p l = existsb p l'.
Proof. induction 1 as [|x a b _ IH|x y a|a b d _ IH1 _ IH2]; cbn; auto; [rewrite IH; auto| |congruence]. destruct (p x), (p y); reflexivity. Qed.
Lemma forallb_perm {A} (p : A -> bool) l l' : Permutation l l' -> forallb p l = forallb p l'.
Proof. induction 1 as [|x a b _ IH|x y a|a b d _ IH1 _ IH2]; cbn; auto; [rewrite IH; auto| |congruence]. destruct (p x), (p y); reflexivity. Qed.
Lemma type_join_perm l l' : Permutation l l' -> type_join l = type_join l'.
Proof.
  intros H. unfold type_join. rewrite (existsb_perm is_string _ _ H), (existsb_perm is_bool _ _ H), (existsb_perm is_double _ _ H), (forallb_perm is_bool _ _ H).
  destruct l as [|a l]; [apply Permutation_nil in H; subst; reflexivity|]. destruct l'; [apply Permutation_sym, Permutation_nil in H; discriminate|]. reflexivity.
Qed.
Lemma filter_perm {A} (p : A -> bool) l l' : Permutation l l' -> Permutation (filter p l) (filter p l').
Proof.
  induction 1 as [|x a b _ IH|x y a|a b d _ IH1 _ IH2]; cbn.
  - constructor.
  - destruct (p x); [constructor; auto|auto].
  - destruct (p x), (p y); try apply Permutation_refl. constructor.
  - eapply Permutation_trans; eauto.
Qed.
Lemma column_perm c rows rows' : Permutation rows rows' -> Permutation (column_fields c rows) (column_fields c rows').
Proof. intros H. apply filter_perm. apply Permutation_map. auto. Qed.

Lemma type_join_meaning ts : Forall not_factor ts ->
  (type_join ts = DINT <-> ts <> [] /\ Forall (eq DINT) ts) /\
  (type_join ts = DDOUBLE <-> In DDOUBLE ts /\ Forall (fun t => t = DINT \/ t = DDOUBLE) ts) /\
  (type_join ts = DBOOL <-> ts <> [] /\ Forall (eq DBOOL) ts) /\
  (type_join ts = DSTRING <-> ts = [] \/ In DSTRING ts \/ (In DBOOL ts /\ (In DINT ts \/ In DDOUBLE ts))).
Proof.
  intros Hf. assert (forall k p, (forall x, p x = true <-> x = k) -> (existsb p ts = true <-> In k ts)) as Hex.
  { intros k p Hp. rewrite existsb_exists. split; [intros (x & H1 & H2); apply Hp in H2; subst; auto|intros H; exists k; split; auto; apply Hp; auto]. }
  pose proof (Hex DSTRING is_string ltac:(intros []; cbn; split; congruence)) as Hs.
  pose proof (Hex DBOOL is_bool ltac:(intros []; cbn; split; congruence)) as Hb.
  pose proof (Hex DDOUBLE is_double ltac:(intros []; cbn; split; congruence)) as Hd. clear Hex.
  assert (forallb is_bool ts = true <-> Forall (eq DBOOL) ts) as Hall.
  { rewrite forallb_forall, Forall_forall. split; intros H x Hx; specialize (H x Hx); [destruct x; cbn in H; congruence|subst; reflexivity]. }
  destruct ts as [|a ts0]; [cbn; repeat split; try discriminate; try tauto; intros [H _]; congruence|].
  unfold type_join. set (ts := a :: ts0) in *.
  assert (~ In DSTRING ts -> ~ In DBOOL ts -> Forall (fun t => t = DINT \/ t = DDOUBLE) ts) as Hnum.
  { intros H1 H2. apply Forall_forall. intros x Hx. rewrite Forall_forall in Hf. specialize (Hf x Hx). destruct x; auto; try contradiction. }
  assert (forall k P, In k ts -> Forall P ts -> P k) as Hin by (intros k P H1 H2; rewrite Forall_forall in H2; auto).
  assert (ts <> []) as Hne by discriminate.
  destruct (existsb is_string ts) eqn:Es.
  { assert (In DSTRING ts) as Hi by (apply Hs; auto). repeat split; try discriminate; auto.
    - intros [_ H]. apply (Hin _ _ Hi) in H. discriminate.
    - intros [_ H]. apply (Hin _ _ Hi) in H. destruct H; discriminate.
    - intros [_ H]. apply (Hin _ _ Hi) in H. discriminate. }
  assert (~ In DSTRING ts) as Hns by (intros H; apply Hs in H; congruence).
  destruct (existsb is_bool ts) eqn:Eb.
  { assert (In DBOOL ts) as Hi by (apply Hb; auto). destruct (forallb is_bool ts) eqn:Ea.
    - assert (Forall (eq DBOOL) ts) as Ha by (apply Hall; auto). repeat split; try discriminate; auto.
      + intros [_ H]. apply (Hin _ _ Hi) in H. discriminate.
      + intros [_ H]. apply (Hin _ _ Hi) in H. destruct H; discriminate.
      + intros [H|[H|[_ [H|H]]]]; [contradiction|contradiction| |]; apply (Hin _ _ H) in Ha; discriminate.
    - repeat split; try discriminate.
      + intros [_ H]. apply (Hin _ _ Hi) in H. discriminate.
      + intros [_ H]. apply (Hin _ _ Hi) in H. destruct H; discriminate.
      + intros [_ H]. apply Hall in H. congruence.
      + intros _. right. right. split; auto. destruct (in_dec (fun x y : dctype => ltac:(decide equality) : {x = y} + {x <> y}) DINT ts) as [H|H]; [auto|].
        destruct (in_dec (fun x y : dctype => ltac:(decide equality) : {x = y} + {x <> y}) DDOUBLE ts) as [H'|H']; [auto|].
        exfalso. assert (false = true); [|congruence]. apply Hall. apply Forall_forall. intros x Hx. rewrite Forall_forall in Hf. specialize (Hf x Hx).
        destruct x; auto; try contradiction. }
  assert (~ In DBOOL ts) as Hnb by (intros H; apply Hb in H; congruence). specialize (Hnum Hns Hnb).
  destruct (existsb is_double ts) eqn:Ed.
  { assert (In DDOUBLE ts) as Hi by (apply Hd; auto). repeat split; try discriminate; auto.
    - intros [_ H]. apply (Hin _ _ Hi) in H. discriminate.
    - intros [_ H]. apply (Hin _ _ Hi) in H. discriminate.
    - intros [H|[H|[H _]]]; contradiction. }
  assert (~ In DDOUBLE ts) as Hnd by (intros H; apply Hd in H; congruence).
  assert (Forall (eq DINT) ts) as Hi. { apply Forall_forall. intros x Hx. rewrite Forall_forall in Hnum. destruct (Hnum x Hx) as [->| ->]; [auto|contradiction]. }
  repeat split; try discriminate; auto.
  - intros [H _]. contradiction.
  - intros [_ H]. exfalso. apply (Hnb). assert (In a ts) as H0 by (left; auto). pose proof (Hin _ _ H0 H) as <-. exact H0.
  - intros [H|[H|[H _]]]; contradiction.
Qed.

(** *** Integers *)
Local Open Scope Z_scope.
Definition dval (base : Z) (ds : list N) : Z := fold_left (fun v d => v * base + digit_value d) ds 0.
Definition digs (base : Z) (ds : list N) : Prop := Forall (fun d => digit_value d < base) ds.
Definition no_dig (base : Z) (r : list N) : Prop := match r with [] => True | c :: _ => base <= digit_value c end.

Lemma read_digits_app base ds r : digs base ds -> no_dig base r -> forall v n,
  read_digits base (ds ++ r) v n = (fold_left (fun v d => v * base + digit_value d) ds v, (n + length ds)%nat, r).
Proof.
  intros Hd Hr. induction Hd as [|d ds Hd Hds IH]; intros v n; cbn [app read_digits fold_left length].
  - rewrite Nat.add_0_r. destruct r as [|c r]; [reflexivity|]. cbn [read_digits]. cbn in Hr. replace (digit_value c <? base) with false by lia. reflexivity.
  - replace (digit_value d <? base) with true by lia. rewrite IH. do 2 f_equal. lia.
Qed.
Lemma digs_split base s : exists ds r, s = ds ++ r /\ digs base ds /\ no_dig base r.
Proof.
  induction s as [|c s (ds & r & -> & H1 & H2)]; [exists [], []; repeat split; constructor|].
  destruct (Z.ltb_spec (digit_value c) base).
  - exists (c :: ds), r. repeat split; auto. constructor; auto.
  - exists [], (c :: ds ++ r). repeat split; [constructor|cbn; auto].
Qed.
Lemma isspace_iff c : isspace c = true <-> (c = 32 \/ 9 <= c <= 13)%N.
Proof. unfold isspace. lia. Qed.
Lemma skip_space_app ws r : spaces ws -> match r with c :: _ => isspace c = false | [] => True end -> skip_space (ws ++ r) = r.
Proof.
  intros H Hr. induction H as [|c ws Hc Hws IH]; cbn [app skip_space].
  - destruct r as [|c r]; [reflexivity|]. cbn [skip_space]. rewrite Hr. reflexivity.
  - rewrite (proj2 (isspace_iff c) Hc). exact IH.
Qed.
Lemma space_split s : exists ws r, s = ws ++ r /\ spaces ws /\ match r with c :: _ => isspace c = false | [] => True end.
Proof.
  induction s as [|c s (ws & r & -> & H1 & H2)]; [exists [], []; repeat split; constructor|]. destruct (isspace c) eqn:E.
  - exists (c :: ws), r. repeat split; auto. constructor; auto. apply isspace_iff. auto.
  - exists [], (c :: ws ++ r). repeat split; auto. constructor.
Qed.

(** strtol after white space and sign. *)
Definition strtol_body (base : Z) (s2 : list N) : Z * list N :=
  if base =? 0 then
      match s2 with
      | z :: x :: h :: s' =>
        if ((z =? 48) && ((x =? 120) || (x =? 88)))%N && (digit_value h <? 16) then (16, h :: s')
        else if (z =? 48)%N then (8, s2) else (10, s2)
      | z :: _ => if (z =? 48)%N then (8, s2) else (10, s2)
      | [] => (10, s2)
      end
  else (base, s2).
Lemma strtol_eq base ws sg body : spaces ws -> sign_ok sg ->
  (sg = [] -> match body with c :: _ => isspace c = false /\ c <> 45%N /\ c <> 43%N | [] => True end) ->
  strtol base (ws ++ sg ++ body) =
  let '(b, s3) := strtol_body base body in
  let '(v, n, rest) := read_digits b s3 0 0 in
  if (n =? 0)%nat then (0, ws ++ sg ++ body) else (clamp_long (sign_of sg v), rest).
Proof.
  intros Hws Hsg Hb. unfold strtol. rewrite skip_space_app.
  - destruct Hsg as [->|[->| ->]].
    + cbn [app]. specialize (Hb eq_refl). destruct body as [|c body].
      * fold (strtol_body base []). destruct (strtol_body base []) as [b s3]. destruct (read_digits b s3 0 0) as [[v n] rest]. reflexivity.
      * destruct Hb as (_ & H1 & H2). replace (c =? 45)%N with false by lia. replace (c =? 43)%N with false by lia.
        fold (strtol_body base (c :: body)). destruct (strtol_body base (c :: body)) as [b s3]. destruct (read_digits b s3 0 0) as [[v n] rest]. reflexivity.
    + cbn [app N.eqb Pos.eqb]. fold (strtol_body base body). destruct (strtol_body base body) as [b s3]. destruct (read_digits b s3 0 0) as [[v n] rest]. reflexivity.
    + cbn [app N.eqb Pos.eqb]. fold (strtol_body base body). destruct (strtol_body base body) as [b s3]. destruct (read_digits b s3 0 0) as [[v n] rest]. reflexivity.
  - auto.
  - destruct Hsg as [->|[->| ->]]; [|reflexivity|reflexivity]. cbn [app]. specialize (Hb eq_refl). destruct body; [exact I|tauto].
Qed.

Lemma digit_value_dec d : (48 <= d <= 57)%N -> digit_value d = Z.of_N d - 48.
Proof. intros H. unfold digit_value. replace ((48 <=? d) && (d <=? 57))%N with true by lia. reflexivity. Qed.
Lemma digit_lt10 d : digit_value d < 10 -> (48 <= d <= 57)%N.
Proof. unfold digit_value. destruct ((48 <=? d) && (d <=? 57))%N eqn:E; [lia|]. destruct ((97 <=? d) && (d <=? 122))%N eqn:E1; [lia|]. destruct ((65 <=? d) && (d <=? 90))%N eqn:E2; lia. Qed.
Lemma digit_lt8 d : digit_value d < 8 <-> (48 <= d <= 55)%N.
Proof. unfold digit_value. destruct ((48 <=? d) && (d <=? 57))%N eqn:E; [lia|]. destruct ((97 <=? d) && (d <=? 122))%N eqn:E1; [lia|]. destruct ((65 <=? d) && (d <=? 90))%N eqn:E2; lia. Qed.
Lemma digit_lt16 d : digit_value d < 16 <-> hex_digit d.
Proof. unfold digit_value, hex_digit. destruct ((48 <=? d) && (d <=? 57))%N eqn:E; [lia|]. destruct ((97 <=? d) && (d <=? 122))%N eqn:E1; [lia|]. destruct ((65 <=? d) && (d <=? 90))%N eqn:E2; lia. Qed.

Lemma fold_ext {A B} (f g : A -> B -> A) (P : B -> Prop) l : (forall a b, P b -> f a b = g a b) -> Forall P l -> forall a, fold_left f l a = fold_left g l a.
Proof. intros H Hl. induction Hl as [|b l Hb Hl IH]; intros a; cbn; [auto|]. rewrite H by auto. apply IH. Qed.

Lemma dec_is_dval ds : Forall (fun b => 48 <= b <= 57)%N ds -> dval 10 ds = dec_value ds.
Proof. intros H. unfold dval, dec_value. apply fold_ext with (P := fun b => (48 <= b <= 57)%N); [|exact H]. intros a b Hb. rewrite (digit_value_dec b Hb). reflexivity. Qed.
Lemma oct_is_dval ds : Forall (fun b => 48 <= b <= 55)%N ds -> dval 8 ds = oct_value ds.
Proof. intros H. unfold dval, oct_value. apply fold_ext with (P := fun b => (48 <= b <= 55)%N); [|exact H]. intros a b Hb. rewrite (digit_value_dec b) by lia. reflexivity. Qed.
Lemma hex_is_dval ds : Forall hex_digit ds -> dval 16 ds = hex_value (48 :: 120 :: ds)%N.
Proof.
  intros H. unfold dval, hex_value. cbn [skipn]. apply fold_ext with (P := hex_digit); [|exact H]. intros a b. unfold hex_digit, digit_value. intros Hb. f_equal.
  destruct ((48 <=? b) && (b <=? 57))%N eqn:E; destruct (N.leb_spec b 57); destruct (N.leb_spec b 70); destruct ((97 <=? b) && (b <=? 122))%N eqn:E1; destruct ((65 <=? b) && (b <=? 90))%N eqn:E2; lia.
Qed.

Lemma decimal_all ds : decimal_digits ds -> Forall (fun b => 48 <= b <= 57)%N ds /\ ds <> [].
Proof. intros [->|(d & ds' & -> & H1 & H2)]; split; try discriminate; constructor; auto; lia. Qed.
Lemma dec_digs ds : Forall (fun b => 48 <= b <= 57)%N ds -> digs 10 ds.
Proof. apply Forall_impl. intros b Hb. rewrite digit_value_dec; lia. Qed.

Lemma read_all b ds : digs b ds -> ds <> [] -> read_digits b ds 0 0 = (dval b ds, length ds, []) /\ (length ds =? 0)%nat = false.
Proof.
  intros H Hn. split.
  - pose proof (read_digits_app b ds [] H I 0 0%nat) as E. rewrite app_nil_r in E. exact E.
  - destruct ds; [congruence|reflexivity].
Qed.
Lemma dec_first ds : Forall (fun b => 48 <= b <= 57)%N ds -> match ds with c :: _ => isspace c = false /\ c <> 45%N /\ c <> 43%N | [] => True end.
Proof. destruct ds as [|c ds]; [auto|]. intros H. inversion H; subst. unfold isspace. lia. Qed.

(** All-digit texts in base 10. *)
Lemma strtol10_digits ws sg ds : spaces ws -> sign_ok sg -> Forall (fun b => 48 <= b <= 57)%N ds -> ds <> [] ->
  strtol 10 (ws ++ sg ++ ds) = (clamp_long (sign_of sg (dec_value ds)), []).
Proof.
  intros Hws Hsg Hd Hn. rewrite strtol_eq; auto; [|intros _; apply dec_first; auto]. cbn [strtol_body Z.eqb].
  destruct (read_all 10 ds (dec_digs _ Hd) Hn) as [-> ->]. rewrite dec_is_dval by auto. reflexivity.
Qed.
Lemma strtol0_decimal ws sg ds : spaces ws -> sign_ok sg -> decimal_digits ds ->
  strtol 0 (ws ++ sg ++ ds) = (clamp_long (sign_of sg (dec_value ds)), []).
Proof.
  intros Hws Hsg Hd. destruct (decimal_all _ Hd) as [Ha Hn]. rewrite strtol_eq; auto; [|intros _; apply dec_first; auto].
  destruct Hd as [->|(d & ds' & -> & H1 & H2)].
  - cbn. reflexivity.
  - assert (strtol_body 0 (d :: ds') = (10, d :: ds')) as ->.
    { cbn [strtol_body Z.eqb]. replace (d =? 48)%N with false by lia. destruct ds' as [|x [|h s']]; reflexivity. }
    destruct (read_all 10 (d :: ds') (dec_digs _ Ha) Hn) as [-> ->]. rewrite dec_is_dval by auto. reflexivity.
Qed.
Lemma strtol0_octal ws sg ds : spaces ws -> sign_ok sg -> oct_digits ds ->
  strtol 0 (ws ++ sg ++ ds) = (clamp_long (sign_of sg (oct_value ds)), []).
Proof.
  intros Hws Hsg (os & -> & Hn & Ho). rewrite strtol_eq; auto; [|intros _; cbn; repeat split; discriminate].
  assert (Forall (fun b => 48 <= b <= 55)%N (48%N :: os)) as Ho' by (constructor; auto; lia).
  assert (strtol_body 0 (48%N :: os) = (8, 48%N :: os)) as ->.
  { cbn [strtol_body Z.eqb N.eqb Pos.eqb]. destruct os as [|x [|h s']]; try reflexivity. inversion Ho; subst.
    replace (x =? 120)%N with false by lia. replace (x =? 88)%N with false by lia. reflexivity. }
  destruct (read_all 8 (48%N :: os)) as [-> ->]; [|discriminate|rewrite oct_is_dval by auto; reflexivity].
  eapply Forall_impl; [|exact Ho']. intros b Hb. apply digit_lt8. exact Hb.
Qed.
Lemma hex_value_x x hs : hex_value (48 :: x :: hs)%N = hex_value (48 :: 120 :: hs)%N.
Proof. reflexivity. Qed.
Lemma strtol0_hex ws sg ds : spaces ws -> sign_ok sg -> hex_digits ds ->
  strtol 0 (ws ++ sg ++ ds) = (clamp_long (sign_of sg (hex_value ds)), []) /\ strtol 10 (ws ++ sg ++ ds) = (0, skipn 1 ds).
Proof.
  intros Hws Hsg (x & hs & -> & Hx & Hn & Hh). rewrite !strtol_eq; auto; try (intros _; cbn; repeat split; discriminate). split.
  - assert (strtol_body 0 (48%N :: x :: hs) = (16, hs)) as ->.
    { cbn [strtol_body Z.eqb N.eqb Pos.eqb]. destruct hs as [|h s']; [congruence|]. inversion Hh; subst.
      replace ((x =? 120) || (x =? 88))%N with true by lia. replace (digit_value h <? 16) with true by (symmetry; apply Z.ltb_lt, digit_lt16; auto). reflexivity. }
    destruct (read_all 16 hs) as [-> ->]; [|auto|rewrite hex_is_dval by auto; reflexivity].
    eapply Forall_impl; [|exact Hh]. intros b Hb. apply digit_lt16. exact Hb.
  - cbn [strtol_body Z.eqb]. change (48%N :: x :: hs) with ([48%N] ++ (x :: hs)).
    rewrite read_digits_app; [|constructor; [reflexivity|constructor]|destruct Hx as [->| ->]; cbv; discriminate].
    destruct Hsg as [->|[->| ->]]; reflexivity.
Qed.

Lemma clamp_in z : in_int z = true -> clamp_long z = z.
Proof. unfold in_int, clamp_long, LONG_MIN, LONG_MAX, INT_MIN, INT_MAX. lia. Qed.
Lemma clamp_out z : in_int z = false -> in_int (clamp_long z) = false.
Proof. unfold in_int, clamp_long, LONG_MIN, LONG_MAX, INT_MIN, INT_MAX. lia. Qed.
Lemma wrap_in z : in_int z = true -> wrap_int z = z.
Proof. unfold in_int, wrap_int, INT_MIN, INT_MAX. intros. rewrite Z.mod_small; lia. Qed.

Definition numeral_head (s : list N) : Prop := match s with c :: _ => c <> 116%N /\ c <> 102%N | [] => True end.
Lemma type_of_numeral sd s v : numeral_head s -> strtol 0 s = (clamp_long v, []) -> (field_type_from_text sd s = DINT <-> in_int v = true).
Proof.
  intros Hh E. unfold field_type_from_text. unfold str_eqb. destruct (list_eq_dec N.eq_dec s_true s) as [<-|_]; [cbn in Hh; exfalso; destruct Hh; congruence|].
  destruct (list_eq_dec N.eq_dec s_false s) as [<-|_]; [cbn in Hh; exfalso; destruct Hh; congruence|]. cbn [orb]. rewrite E. cbn [andb].
  destruct (in_int v) eqn:Ei.
  - rewrite clamp_in by auto. unfold in_int in Ei. replace (v <=? INT_MAX) with true by lia. replace (INT_MIN <=? v) with true by lia. tauto.
  - pose proof (clamp_out v Ei) as Hc. unfold in_int in Hc. destruct ((clamp_long v <=? INT_MAX) && (INT_MIN <=? clamp_long v)) eqn:E2; [lia|].
    destruct (sd s); split; discriminate.
Qed.
Lemma numeral_head_ok ws sg ds : spaces ws -> sign_ok sg -> (exists d ds', ds = d :: ds' /\ (48 <= d <= 57)%N) -> numeral_head (ws ++ sg ++ ds).
Proof.
  intros Hws Hsg (d & ds' & -> & Hd). destruct Hws as [|c ws Hc]; cbn [app].
  - destruct Hsg as [->|[->| ->]]; cbn; lia.
  - cbn. lia.
Qed.

Lemma dec_oct_le ds : Forall (fun b => 48 <= b <= 55)%N ds -> forall a b, 0 <= a <= b -> (fold_left (fun v d => v * 8 + (Z.of_N d - 48)) ds a <= fold_left (fun v d => v * 10 + (Z.of_N d - 48)) ds b /\ (ds <> [] -> 1 <= a -> fold_left (fun v d => v * 8 + (Z.of_N d - 48)) ds a < fold_left (fun v d => v * 10 + (Z.of_N d - 48)) ds b) /\ 0 <= fold_left (fun v d => v * 8 + (Z.of_N d - 48)) ds a)
  /\ (a < b -> fold_left (fun v d => v * 8 + (Z.of_N d - 48)) ds a < fold_left (fun v d => v * 10 + (Z.of_N d - 48)) ds b).
Proof.
  induction 1 as [|d ds Hd Hds IH]; intros a b Hab; cbn [fold_left]; [repeat split; try lia; congruence|].
  destruct (IH (a * 8 + (Z.of_N d - 48)) (b * 10 + (Z.of_N d - 48))) as [(I1 & I2 & I3) I4]; [lia|].
  repeat split; auto; [|intros; apply I4; lia]. intros _ Ha. apply I4. lia.
Qed.
Lemma oct_lt_dec ds : oct_digits ds -> 8 <= oct_value ds -> oct_value ds < dec_value ds.
Proof.
  intros (os & -> & Hn & Ho) H. unfold oct_value, dec_value in *. cbn [fold_left] in *. change (0 * 8 + (Z.of_N 48 - 48)) with 0 in *. change (0 * 10 + (Z.of_N 48 - 48)) with 0.
  clear Hn. induction Ho as [|d ds Hd Hds IH]; cbn [fold_left] in *; [lia|]. destruct (N.eq_dec d 48) as [->|Hne].
  - apply IH. exact H.
  - destruct ds as [|e ds]; [cbn in *; lia|]. destruct (dec_oct_le (e :: ds) Hds (0 * 8 + (Z.of_N d - 48)) (0 * 10 + (Z.of_N d - 48))) as [(_ & I & _) _]; [lia|]. apply I; [discriminate|lia].
Qed.
Lemma oct_nonneg ds : oct_digits ds -> 0 <= oct_value ds /\ (oct_value ds < 8 -> dec_value ds = oct_value ds).
Proof.
  intros (os & -> & Hn & Ho). unfold oct_value, dec_value in *. cbn [fold_left] in *. change (0 * 8 + (Z.of_N 48 - 48)) with 0 in *. change (0 * 10 + (Z.of_N 48 - 48)) with 0.
  clear Hn. induction Ho as [|d ds Hd Hds IH]; cbn [fold_left] in *; [lia|]. destruct (N.eq_dec d 48) as [->|Hne].
  - apply IH.
  - destruct (dec_oct_le ds Hds (0 * 8 + (Z.of_N d - 48)) (0 * 8 + (Z.of_N d - 48))) as [(_ & _ & I) _]; [lia|]. split; [exact I|].
    destruct ds as [|e ds]; [cbn; lia|]. intros H. exfalso. clear IH I. inversion Hds as [|? ? He Hds']; subst. cbn [fold_left] in H.
    assert (forall l, Forall (fun b => 48 <= b <= 55)%N l -> forall a, 0 <= a -> a <= fold_left (fun v d => v * 8 + (Z.of_N d - 48)) l a) as Hm.
    { induction 1 as [|x l Hx Hl IHl]; intros a Ha; cbn [fold_left]; [lia|]. specialize (IHl (a * 8 + (Z.of_N x - 48))). lia. }
    specialize (Hm ds Hds' ((0 * 8 + (Z.of_N d - 48)) * 8 + (Z.of_N e - 48))). lia.
Qed.

(** The classifier's integer texts are exactly these. *)
Lemma int_shape sd s : field_type_from_text sd s = DINT -> s = [] \/ exists ws sg body, s = ws ++ sg ++ body /\ spaces ws /\ sign_ok sg /\ (decimal_digits body \/ oct_digits body \/ hex_digits body).
Proof.
  unfold field_type_from_text. destruct (_ || _); [discriminate|]. destruct (strtol 0 s) as [lv rest] eqn:E.
  destruct rest as [|? ?]; [|destruct (sd s); discriminate]. intros _.
  destruct (space_split s) as (ws & r & -> & Hws & Hr).
  assert (exists sg body, r = sg ++ body /\ sign_ok sg /\ (sg = [] -> match body with c :: _ => isspace c = false /\ c <> 45%N /\ c <> 43%N | [] => True end)) as (sg & body & -> & Hsg & Hb).
  { unfold sign_ok. destruct r as [|c r]; [exists [], []; auto|]. destruct (N.eq_dec c 45) as [->|H45]; [exists [45%N], r; cbn; repeat split; auto; discriminate|].
    destruct (N.eq_dec c 43) as [->|H43]; [exists [43%N], r; cbn; repeat split; auto; discriminate|]. exists [], (c :: r). auto 10. }
  rewrite strtol_eq in E by auto. destruct (strtol_body 0 body) as [b s3] eqn:Eb. destruct (digs_split b s3) as (ds & r & -> & Hd & Hnd).
  rewrite (read_digits_app b ds r Hd Hnd) in E. cbn [Nat.add] in E. destruct (length ds =? 0)%nat eqn:El.
  - injection E as _ E. left. exact E.
  - injection E as _ ->. rewrite app_nil_r in *. right. exists ws, sg, body. repeat split; auto. cbn [strtol_body Z.eqb] in Eb.
    assert ((b = 16 /\ exists x h s', body = 48%N :: x :: h :: s' /\ (x = 120 \/ x = 88)%N /\ ds = h :: s') \/ (b = 8 /\ ds = body /\ exists s', body = 48%N :: s') \/ (b = 10 /\ ds = body /\ hd 0%N body <> 48%N)) as Hc.
    { destruct body as [|z [|x [|h s']]].
      - injection Eb as <- <-. right; right. repeat split; auto. cbn. lia.
      - destruct (N.eqb_spec z 48); injection Eb as <- <-; [right; left; subst; repeat split; eauto|right; right; repeat split; auto].
      - destruct (N.eqb_spec z 48); injection Eb as <- <-; [right; left; subst; repeat split; eauto|right; right; repeat split; auto].
      - destruct (((z =? 48) && ((x =? 120) || (x =? 88)))%N && (digit_value h <? 16)) eqn:Ex.
        + injection Eb as <- <-. left. split; auto. assert (z = 48%N) as -> by lia. exists x, h, s'. repeat split; auto. lia.
        + destruct (N.eqb_spec z 48); injection Eb as <- <-; [right; left; subst; repeat split; eauto|right; right; repeat split; auto]. }
    destruct Hc as [(-> & x & h & s' & -> & Hx & ->)|[(-> & -> & s' & ->)|(-> & -> & Hz)]].
    + right; right. exists x, (h :: s'). repeat split; auto; [discriminate|]. eapply Forall_impl; [|exact Hd]. intros d. apply digit_lt16.
    + destruct s' as [|o os]; [left; left; reflexivity|]. right; left. exists (o :: os). repeat split; auto; [discriminate|]. inversion Hd; subst. eapply Forall_impl; [|eassumption]. intros d. apply digit_lt8.
    + left. destruct body as [|d ds']; [discriminate|]. cbn in Hz. right. exists d, ds'. split; [reflexivity|]. inversion Hd as [|? ? H1 H2]; subst. split; [pose proof (digit_lt10 d H1); lia|].
      eapply Forall_impl; [|exact H2]. intros c. apply digit_lt10.
Qed.
