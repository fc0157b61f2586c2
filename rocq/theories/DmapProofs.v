From Verif Require Import Base BaseLemmas Gray Flt BriefModel BriefSpec BriefProofs DmapModel DmapSpec.
Local Open Scope Z_scope.

(** The layout of a map with the entries [t]. *)
Record laid (m : dmap) (n : Z) (t : table) : Prop := {
  la_oct : d_oct m = n;
  la_pos : 1 <= n;
  la_max : 8 * n <= INT_MAX;
  la_ids : d_ids m = map fst t;
  la_data : d_data m = concat (map snd t);
  la_each : Forall (fun e => Z.of_nat (length (snd e)) = n /\ bytes_ok (snd e)) t;
  la_int : Z.of_nat (length t) * n <= INT_MAX }.

Lemma concat_len n (t : table) : Forall (fun e => Z.of_nat (length (snd e)) = n /\ bytes_ok (snd e)) t -> Z.of_nat (length (concat (map snd t))) = Z.of_nat (length t) * n.
Proof. induction 1 as [|e t [E _] _ IH]; [reflexivity|]. cbn [map concat length]. rewrite app_length. lia. Qed.
Lemma octets_mid n (a : table) e b : Forall (fun e => Z.of_nat (length (snd e)) = n /\ bytes_ok (snd e)) (a ++ e :: b) ->
  octets (concat (map snd (a ++ e :: b))) (Z.of_nat (length a) * n) n = Ok (snd e).
Proof.
  intro F. apply Forall_app in F as [FA FE]. apply Forall_cons_iff in FE as [[LE BE] FB]. pose proof (concat_len n a FA) as LA. rewrite map_app, concat_app. cbn [map concat].
  unfold octets. rewrite !app_length. assert (0 <= Z.of_nat (length a) * n) by (apply Z.mul_nonneg_nonneg; lia). destruct (Z.leb_spec 0 (Z.of_nat (length a) * n)); [|lia]. destruct (Z.leb_spec 0 n); [|lia].
  destruct (Z.leb_spec (Z.of_nat (length a) * n + n) (Z.of_nat (length (concat (map snd a)) + (length (snd e) + length (concat (map snd b)))))); [|lia]. cbn [andb].
  replace (Z.to_nat (Z.of_nat (length a) * n)) with (length (concat (map snd a))) by lia. rewrite skipn_app, skipn_all, Nat.sub_diag. cbn [app skipn]. replace (Z.to_nat n) with (length (snd e)) by lia.
  rewrite firstn_app, Nat.sub_diag, firstn_all. cbn [firstn]. now rewrite app_nil_r.
Qed.
Lemma laid_small m n t i : laid m n t -> (i < length t)%nat -> 0 <= Z.of_nat i * n <= INT_MAX.
Proof. intros [] I. split; [apply Z.mul_nonneg_nonneg; lia|]. apply Z.le_trans with (2 := la_int0). apply Z.mul_le_mono_nonneg_r; lia. Qed.
Lemma laid_octets m n t i e : laid m n t -> nth_error t i = Some e -> chk_int (Z.of_nat i * n) = Ok (Z.of_nat i * n) /\ octets (d_data m) (Z.of_nat i * n) n = Ok (snd e).
Proof.
  intros L E. assert (I : (i < length t)%nat) by (apply nth_error_Some; congruence). pose proof (laid_small _ _ _ _ L I). destruct L. split; [apply chk_int_in; unfold INT_MIN, INT_MAX in *; lia|].
  apply nth_error_split in E as (a & b & -> & <-). rewrite la_data0. now apply octets_mid.
Qed.
Lemma laid_shows m n t : laid m n t -> shows m n t.
Proof.
  intro L. split.
  - apply L.
  - unfold size. rewrite (la_ids _ _ _ L), map_length. reflexivity.
  - intros i e E. unfold get_id. rewrite (la_ids _ _ _ L). assert (I : (i < length t)%nat) by (apply nth_error_Some; congruence). rewrite (zget_lt _ _ (fst e)) by (rewrite map_length; lia). rewrite Nat2Z.id.
    f_equal. apply nth_error_nth. now rewrite nth_error_map, E.
  - intros i e E. destruct (laid_octets m n t i e L E) as [C O]. exists (Z.of_nat i * n). split; [unfold get_descriptor; rewrite (la_oct _ _ _ L); exact C|exact O].
Qed.

Section Grow.
Variable grow : Z -> Z -> Z.
Lemma add_ok m n t id desc l : laid m n t -> (Z.of_nat (length t) + 1) * n <= INT_MAX -> Z.of_nat (length l) = n -> bytes_ok l ->
  match desc with
  | Caller s => octets s 0 n = Ok l
  | Own o => Z.of_nat (length (d_data m)) + n <= d_cap m /\ octets (d_data m) o n = Ok l
  end -> exists m', add grow m id desc = Ok (m', Z.of_nat (length t) + 1) /\ laid m' n (t ++ [(id, l)]).
Proof.
  intros L MX LL BL SRC. pose proof L as [LO LP LM LI LD LE LN]. pose proof (concat_len n t LE) as CL. rewrite <- LD in CL. unfold add.
  assert (NN : 0 <= Z.of_nat (length t) * n) by (apply Z.mul_nonneg_nonneg; lia). assert (T1 : Z.of_nat (length t) + 1 <= INT_MAX) by nia.
  assert (SZ : size m = Z.of_nat (length t)) by (unfold size; rewrite LI, map_length; reflexivity). rewrite SZ, LO. rewrite chk_int_in by (unfold INT_MIN; lia). cbn [bind]. destruct (Z.ltb_spec n 0); [lia|].
  rewrite chk_int_in by (unfold INT_MIN; lia). cbn [bind].
  set (data := d_data m ++ repeat 0%N (Z.to_nat n)).
  assert (S : match desc with Caller l0 => octets l0 0 n | Own o => if d_cap m <? Z.of_nat (length (d_data m)) + n then UB else octets data o n end = Ok l).
  { destruct desc as [s|o]; [exact SRC|]. destruct SRC as [CAP E]. destruct (Z.ltb_spec (d_cap m) (Z.of_nat (length (d_data m)) + n)); [lia|]. revert E. unfold octets, data. rewrite app_length, repeat_length.
    destruct (Z.leb_spec 0 o); cbn [andb]; [|discriminate]. destruct (Z.leb_spec 0 n); cbn [andb]; [|discriminate]. destruct (Z.leb_spec (o + n) (Z.of_nat (length (d_data m)))); [|discriminate].
    destruct (Z.leb_spec (o + n) (Z.of_nat (length (d_data m) + Z.to_nat n))); [|lia]. intro E. rewrite <- E. f_equal. rewrite skipn_app, firstn_app. replace (Z.to_nat n - length (skipn (Z.to_nat o) (d_data m)))%nat with O by (rewrite skipn_length; lia).
    cbn [firstn]. apply app_nil_r. }
  rewrite S. cbn [bind]. assert (LDT : length data = (length (d_data m) + Z.to_nat n)%nat) by (unfold data; rewrite app_length, repeat_length; reflexivity).
  destruct (Z.ltb_spec (Z.of_nat (length data)) (Z.of_nat (length t) * n + n)); [lia|].
  assert (ID : Z.of_nat (length (d_ids m ++ [id])) = Z.of_nat (length t) + 1) by (rewrite app_length, LI, map_length; cbn [length]; lia). rewrite ID. rewrite chk_int_in by (unfold INT_MIN; lia). cbn [bind].
  assert (DD : firstn (Z.to_nat (Z.of_nat (length t) * n)) data ++ l ++ skipn (Z.to_nat (Z.of_nat (length t) * n + n)) data = d_data m ++ l).
  { rewrite (skipn_all2 data) by lia. rewrite app_nil_r. f_equal. unfold data. replace (Z.to_nat (Z.of_nat (length t) * n)) with (length (d_data m)) by lia. rewrite firstn_app, Nat.sub_diag, firstn_all. cbn [firstn]. apply app_nil_r. }
  rewrite DD. eexists. split; [reflexivity|]. split; cbn [d_oct d_ids d_data]; auto.
  - rewrite LI, map_app. reflexivity.
  - rewrite LD, map_app, concat_app. cbn [map concat]. now rewrite app_nil_r.
  - apply Forall_app. split; [exact LE|]. constructor; [split; assumption|constructor].
  - rewrite app_length. cbn [length]. lia.
Qed.
Lemma caller_octets s n : bytes_ok s -> 0 <= n <= Z.of_nat (length s) -> octets s 0 n = Ok (firstn (Z.to_nat n) s) /\ Z.of_nat (length (firstn (Z.to_nat n) s)) = n /\ bytes_ok (firstn (Z.to_nat n) s).
Proof.
  intros B N. unfold octets. cbn [Z.leb Z.add]. destruct (Z.leb_spec 0 n); [|lia]. destruct (Z.leb_spec n (Z.of_nat (length s))); [|lia]. cbn [andb]. change (0 <=? 0) with true. cbn [andb Z.to_nat skipn].
  split; [reflexivity|]. split; [rewrite firstn_length; lia|]. unfold bytes_ok in *. rewrite Forall_forall in *. intros v V. apply B. rewrite <- (firstn_skipn (Z.to_nat n) s). apply in_or_app. auto.
Qed.
Lemma step_ok m s o : laid m (fst s) (snd s) -> sane s o -> external o -> exists m', step grow m o = Ok m' /\ laid m' (fst (effect s o)) (snd (effect s o)).
Proof.
  intros L SA EX. destruct s as [n t]. cbn [fst snd] in *. destruct o as [|k|k|id [s|off]]; cbn [step effect sane fst snd] in *; [| | | |contradiction].
  - eexists. split; [reflexivity|]. destruct L. split; cbn [clear d_oct d_ids d_data map concat length]; auto. unfold INT_MAX. lia.
  - destruct SA as [K M]. pose proof L as []. unfold reserve. destruct (Z.ltb_spec k 0); [lia|]. rewrite la_oct0. assert (0 <= k * n) by (apply Z.mul_nonneg_nonneg; lia). rewrite chk_int_in by (unfold INT_MIN; lia). cbn [bind].
    destruct (Z.ltb_spec (k * n) 0); [lia|]. eexists. split; [reflexivity|]. split; cbn; auto.
  - eexists. split; [reflexivity|]. destruct L. split; cbn [set_n_octets d_oct d_ids d_data map concat length]; try lia; auto.
  - destruct SA as (B & LS & M). destruct (caller_octets s n B) as (E & LL & BL); [destruct L; lia|]. destruct (add_ok m n t id (Caller s) _ L M LL BL E) as (m' & -> & L'). cbn [bind]. exists m'. split; [reflexivity|exact L'].
Qed.
Lemma run_ok ops : forall m s, laid m (fst s) (snd s) -> sane_all s ops -> Forall external ops -> exists m', run grow m ops = Ok m' /\ laid m' (fst (fold_left effect ops s)) (snd (fold_left effect ops s)).
Proof.
  induction ops as [|o ops IH]; intros m s L SA EX; cbn [run fold_left]; [exists m; auto|]. destruct SA as [S1 S2]. apply Forall_cons_iff in EX as [E1 E2].
  destruct (step_ok m s o L S1 E1) as (m' & -> & L'). cbn [bind]. apply IH; auto.
Qed.
End Grow.

(** ** Searching *)
Lemma dist_ok fuel m n t desc i e : laid m n t -> bytes_ok desc -> n <= Z.of_nat (length desc) -> n < Z.of_nat fuel -> nth_error t i = Some e ->
  (let* o := chk_int (Z.of_nat i * d_oct m) in let* d := octets (d_data m) o (d_oct m) in distance fuel (d_oct m) desc d) = Ok (hamming (firstn (Z.to_nat n) desc) (snd e)).
Proof.
  intros L B N F E. destruct (laid_octets m n t i e L E) as [C O]. rewrite (la_oct _ _ _ L). rewrite C. cbn [bind]. rewrite O. cbn [bind]. pose proof L as [LO LP LM LI LD LE LN]. rewrite Forall_forall in LE. destruct (LE e (nth_error_In _ _ E)) as [LL BL].
  rewrite distance_ok by (auto; lia). do 2 f_equal. apply firstn_all2. lia.
Qed.
Definition nearest_upto (t : table) (desc : list N) (k : nat) (j : Z * Z) : Prop :=
  exists i e, nth_error t i = Some e /\ (i < k)%nat /\ fst j = Z.of_nat i /\ snd j = hamming desc (snd e) /\
    (forall i' e', (i' < k)%nat -> nth_error t i' = Some e' -> snd j <= hamming desc (snd e')) /\ (forall i' e', (i' < i)%nat -> nth_error t i' = Some e' -> snd j < hamming desc (snd e')).
Lemma search_nn_ok fuel m n t desc : laid m n t -> t <> [] -> bytes_ok desc -> n <= Z.of_nat (length desc) -> n < Z.of_nat fuel ->
  exists k id d, search_nn fuel m desc = Ok (id, of_int d) /\ first_nearest t (firstn (Z.to_nat n) desc) k id d.
Proof.
  intros L NE B N F. unfold search_nn. cbv zeta. set (dt := fun i : Z => let* o := chk_int (i * d_oct m) in let* d := octets (d_data m) o (d_oct m) in distance fuel (d_oct m) desc d).
  change (exists k id d, match d_data m with [] => UB | _ => let* d0 := dt 0 in
    let* (idx, dist) := for_each (fun i '(idx, dist) => let* d := dt i in if d <? dist then Ok (i, d) else Ok (idx, dist)) (zrange 1 (size m)) (0, d0) in
    let* id := zget (d_ids m) idx in Ok (id, of_int dist) end = Ok (id, of_int d) /\ first_nearest t (firstn (Z.to_nat n) desc) k id d).
  assert (DT : forall i e, nth_error t i = Some e -> dt (Z.of_nat i) = Ok (hamming (firstn (Z.to_nat n) desc) (snd e))) by (intros i e E; apply (dist_ok fuel m n t desc i e); auto). clearbody dt.
  assert (SZ : size m = Z.of_nat (length t)) by (unfold size; rewrite (la_ids _ _ _ L), map_length; reflexivity).
  assert (DN : d_data m <> []). { intro C. pose proof (concat_len n t (la_each _ _ _ L)) as CL. rewrite <- (la_data _ _ _ L), C in CL. destruct t; [contradiction|]. cbn [length] in CL. pose proof (la_pos _ _ _ L). lia. }
  destruct (d_data m) as [|b0 bs] eqn:ED; [contradiction|]. change (dt 0) with (dt (Z.of_nat 0)). destruct (nth_error t 0) as [e0|] eqn:E0; [|destruct t; [contradiction|discriminate E0]]. rewrite (DT 0%nat e0 E0). cbn [bind].
  set (q := firstn (Z.to_nat n) desc) in *. clearbody q.
  assert (LP : forall k, (1 <= k)%nat -> (k <= length t)%nat -> exists j, for_each (fun i '(idx, dist) => let* d := dt i in if d <? dist then Ok (i, d) else Ok (idx, dist)) (zrange 1 (Z.of_nat k)) (0, hamming q (snd e0)) = Ok j /\ nearest_upto t q k j).
  { induction k as [|k IH]; intros K1 K2; [lia|]. destruct (Nat.eq_dec k 0) as [->|K0].
    - eexists. split; [reflexivity|]. exists 0%nat, e0. cbn [fst snd]. split; [exact E0|]. split; [lia|]. split; [reflexivity|]. split; [reflexivity|]. split; [|lia].
      intros i' e' I' E'. assert (i' = 0%nat) by lia. subst. rewrite E0 in E'. injection E' as <-. lia.
    - destruct IH as ([idx dist] & E & i & e & EI & IK & F1 & F2 & MIN & FST); [lia|lia|]. cbn [fst snd] in *. destruct (nth_error t k) as [ek|] eqn:EK; [|apply nth_error_None in EK; lia].
      replace (Z.of_nat (S k)) with (Z.of_nat k + 1) by lia. rewrite zrange_snoc, for_each_app, E by lia. cbn [bind for_each]. rewrite (DT k ek EK). cbn [bind]. destruct (Z.ltb_spec (hamming q (snd ek)) dist) as [LT|GE].
      + eexists. split; [reflexivity|]. exists k, ek. cbn [fst snd]. split; [exact EK|]. split; [lia|]. split; [reflexivity|]. split; [reflexivity|]. split.
        * intros i' e' I' E'. destruct (Nat.eq_dec i' k) as [->|]; [rewrite EK in E'; injection E' as <-; lia|]. specialize (MIN i' e' ltac:(lia) E'). lia.
        * intros i' e' I' E'. specialize (MIN i' e' ltac:(lia) E'). lia.
      + eexists. split; [reflexivity|]. exists i, e. cbn [fst snd]. split; [exact EI|]. split; [lia|]. split; [exact F1|]. split; [exact F2|]. split; [|exact FST].
        intros i' e' I' E'. destruct (Nat.eq_dec i' k) as [->|]; [rewrite EK in E'; injection E' as <-; lia|]. apply (MIN i' e'); [lia|exact E']. }
  destruct (LP (length t)) as ([idx dist] & E & i & e & EI & IK & F1 & F2 & MIN & FST); [destruct t; [contradiction|cbn; lia]|lia|]. rewrite SZ, E. cbn [bind fst snd] in *. subst idx.
  rewrite (la_ids _ _ _ L). rewrite (zget_lt _ _ 0) by (rewrite map_length; lia). cbn [bind]. exists i, (nth (Z.to_nat (Z.of_nat i)) (map fst t) 0), dist. split; [reflexivity|]. exists e. split; [exact EI|].
  split; [rewrite Nat2Z.id; apply nth_error_nth; now rewrite nth_error_map, EI|]. split; [exact F2|]. split; [|exact FST]. intros i' e' E'. apply (MIN i' e'); [apply nth_error_Some; congruence|exact E'].
Qed.
Lemma by_id_ok (t : table) id : forall i0, match by_id (map fst t) i0 id with
  | None => ~ In id (map fst t)
  | Some i => exists k e, i = i0 + Z.of_nat k /\ nth_error t k = Some e /\ fst e = id /\ forall k' e', (k' < k)%nat -> nth_error t k' = Some e' -> fst e' <> id
  end.
Proof.
  induction t as [|e t IH]; intro i0; cbn [map by_id]; [auto|]. destruct (Z.eqb_spec id (fst e)) as [->|NI].
  - exists 0%nat, e. split; [lia|]. split; [reflexivity|]. split; [reflexivity|]. lia.
  - specialize (IH (i0 + 1)). destruct (by_id (map fst t) (i0 + 1) id) as [i|]; [|intros [C|C]; [congruence|contradiction]].
    destruct IH as (k & e' & -> & E & EI & FST). exists (S k), e'. split; [lia|]. split; [exact E|]. split; [exact EI|]. intros [|k'] x K X; [injection X as <-; congruence|]. apply (FST k'); [lia|exact X].
Qed.
