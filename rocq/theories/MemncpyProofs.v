(** nx_memncpy_multi delivers consecutive slices of the concatenation. *)
From Verif Require Import Base BaseLemmas BitsModel ShaModel ShaSpec.

(** What is left to deliver at a cursor. *)
Definition cursor_rest (segs : list (list N)) (so off : nat) : list N :=
  skipn off (nth so segs []) ++ concat (skipn (S so) segs).

(** Cursors the caller can hold: inside (or at the end of) a source, or one
    past the last source. *)
Definition cursor_ok (segs : list (list N)) (so off : nat) : Prop :=
  (so < length segs /\ off <= length (nth so segs [])) \/ (so = length segs /\ off = 0).

Lemma cursor_rest_end segs : cursor_rest segs (length segs) 0 = [].
Proof.
  unfold cursor_rest. rewrite nth_overflow by lia. rewrite (skipn_all2 segs) by lia. reflexivity.
Qed.

Lemma skipn_nth {A} (l : list A) i d : i < length l -> skipn i l = nth i l d :: skipn (S i) l.
Proof.
  revert i; induction l as [|h t IH]; intros [|i] H; simpl in *; try lia; auto.
  rewrite (IH i) by lia. reflexivity.
Qed.

Lemma cursor_rest_next segs so : so < length segs -> cursor_rest segs (S so) 0 = concat (skipn (S so) segs).
Proof.
  intros H. unfold cursor_rest. destruct (Nat.eq_dec (S so) (length segs)) as [E|E].
  - rewrite E, nth_overflow by lia. rewrite !(skipn_all2 segs) by lia. reflexivity.
  - rewrite (skipn_nth segs (S so) []) by lia. cbn [concat skipn]. destruct (nth (S so) segs []); reflexivity.
Qed.

Lemma last_nth {A} (l : list A) d : last l d = nth (length l - 1) l d.
Proof.
  induction l as [|a [|b t] IH]; try reflexivity.
  change (last (a :: b :: t) d) with (last (b :: t) d). rewrite IH.
  cbn [length]. replace (S (S (length t)) - 1) with (S (length t)) by lia.
  replace (S (length t) - 1) with (length t) by lia. reflexivity.
Qed.

Lemma memncpy_loop_spec segs : forall fuel n so off acc,
  cursor_ok segs so off -> length segs - so < fuel ->
  exists so' off', memncpy_loop fuel segs n so off acc = Ok (acc ++ firstn n (cursor_rest segs so off), so', off')
    /\ cursor_ok segs so' off'
    /\ cursor_rest segs so' off' = skipn n (cursor_rest segs so off)
    /\ (n = 0 -> so' = so /\ off' = off)
    /\ (0 < n -> n <= length (cursor_rest segs so off) ->
        last segs [] <> [] -> so' = length segs -> n = length (cursor_rest segs so off))
    /\ (n = length (cursor_rest segs so off) -> 0 < n -> last segs [] <> [] -> so' = length segs)
    /\ (n = length (cursor_rest segs so off) -> 0 < n -> last segs [] = [] -> so' < length segs).
Proof.
  induction fuel as [|fuel IH]; intros n so off acc Hc Hf; [lia|].
  cbn [memncpy_loop].
  destruct (Nat.ltb_spec 0 n) as [Hn|Hn]; cbn [andb].
  2:{ exists so, off. assert (n = 0) by lia; subst. cbn [firstn skipn]. rewrite app_nil_r.
      repeat split; auto; lia. }
  destruct (Nat.ltb_spec so (length segs)) as [Hs|Hs].
  2:{ destruct Hc as [[H _]|[-> ->]]; [lia|]. exists (length segs), 0.
      rewrite cursor_rest_end. rewrite firstn_nil, skipn_nil, app_nil_r. cbn [length].
      split; [reflexivity|]. split; [right; auto|].
      repeat split; auto; lia. }
  destruct Hc as [[_ Hoff]|[H _]]; [|lia].
  rewrite (aget_lt segs so []) by auto. cbn [bind].
  set (s := nth so segs []) in *.
  assert (cursor_rest segs so off = skipn off s ++ concat (skipn (S so) segs)) as Hr by reflexivity.
  assert (length (skipn off s) = length s - off) as Hls by apply skipn_length.
  destruct (Nat.ltb_spec n (length s - off)) as [Hlt|Hge].
  - (* the request ends inside this source *)
    assert (cursor_ok segs so (off + n)) as Hc' by (left; split; auto; fold s; lia).
    assert (memncpy_loop fuel segs 0 so (off + n) (acc ++ firstn n (skipn off s))
            = Ok (acc ++ firstn n (skipn off s), so, off + n)) as E by (destruct fuel; reflexivity).
    exists so, (off + n).
    rewrite E, Hr, firstn_app, Hls.
    replace (n - (length s - off)) with 0 by lia. cbn [firstn]. rewrite app_nil_r.
    split; [reflexivity|]. split; [auto|].
    split.
    { rewrite skipn_app, Hls. replace (n - (length s - off)) with 0 by lia. cbn [skipn].
      unfold cursor_rest. fold s. rewrite skipn_skipn. reflexivity. }
    rewrite app_length, Hls. repeat split; intros; lia.
  - (* this source is exhausted *)
    assert (cursor_ok segs (S so) 0) as Hc'.
    { destruct (Nat.eq_dec (S so) (length segs)); [right; auto|left; split; lia]. }
    destruct (IH (n - (length s - off)) (S so) 0 (acc ++ firstn (length s - off) (skipn off s)) Hc')
      as (so' & off' & E & Hok & Hrest & H0 & Hend & Hend2 & Hend3); [lia|].
    exists so', off'. rewrite E. rewrite cursor_rest_next in * by auto.
    rewrite Hr, firstn_app, Hls.
    rewrite (firstn_all2 (n := n)) by lia.
    rewrite (firstn_all2 (n := length s - off)) by lia. rewrite <- app_assoc.
    split; [reflexivity|]. split; [auto|]. split.
    { rewrite Hrest, skipn_app, Hls. rewrite (skipn_all2 (n := n)) by lia. reflexivity. }
    rewrite app_length, Hls.
    set (C := concat (skipn (S so) segs)) in *.
    split; [lia|].
    assert (last segs [] <> [] -> C = [] -> S so = length segs) as HC.
    { intros Hl HCn. destruct (Nat.eq_dec (S so) (length segs)); auto. exfalso. apply Hl.
      assert (skipn (S so) segs <> []) as Hne.
      { intros Hk. apply (f_equal (@length _)) in Hk. rewrite skipn_length in Hk. simpl in Hk. lia. }
      assert (In (last segs []) (skipn (S so) segs)) as Hin.
      { rewrite <- (firstn_skipn (S so) segs) at 1.
        rewrite (app_removelast_last [] Hne). rewrite app_assoc, last_last.
        apply in_or_app; right; left; reflexivity. }
      destruct (last segs []) as [|x t] eqn:El; auto. exfalso.
      apply in_split in Hin. destruct Hin as (l1 & l2 & Hin).
      unfold C in HCn. rewrite Hin, concat_app in HCn. apply app_eq_nil in HCn. destruct HCn as [_ HCn]. discriminate. }
    split; [|split].
    + intros _ Hle Hl Hso.
      destruct (Nat.eq_dec n (length s - off)) as [En|En].
      * destruct H0 as [-> _]; [lia|]. assert (C = []) as HCn.
        { unfold C. rewrite (skipn_all2 segs) by lia. reflexivity. }
        rewrite HCn. simpl. lia.
      * assert (n - (length s - off) = length C); [|lia]. apply Hend; auto; lia.
    + intros En Hp Hl. destruct (Nat.eq_dec (length C) 0) as [EC|EC].
      * apply length_zero_iff_nil in EC. destruct H0 as [-> _]; [rewrite EC in En; simpl in En; lia|]. auto.
      * apply Hend2; auto; lia.
    + intros En Hp Hl. destruct (Nat.eq_dec (length C) 0) as [EC|EC].
      * destruct H0 as [-> _]; [lia|].
        (* s is non-empty (something was copied), so it is not the last *)
        destruct (Nat.eq_dec (S so) (length segs)) as [E2|E2]; [|lia].
        exfalso. assert (last segs [] = s) as Hls2.
        { unfold s. replace so with (length segs - 1) by lia.
          apply last_nth. }
        rewrite Hls2 in Hl. rewrite Hl in Hge, Hls, En. cbn [length] in *. lia.
      * apply Hend3; auto; lia.
Qed.

(** One call from a cursor inside the sources. *)
Lemma memncpy_inside oob segs n so off :
  so < length segs -> off <= length (nth so segs []) ->
  exists so' off', nx_memncpy_multi oob segs n so off = Ok (firstn n (cursor_rest segs so off), so', off')
    /\ cursor_ok segs so' off'
    /\ cursor_rest segs so' off' = skipn n (cursor_rest segs so off)
    /\ (n = 0 -> so' = so /\ off' = off)
    /\ (0 < n -> n <= length (cursor_rest segs so off) ->
        last segs [] <> [] -> so' = length segs -> n = length (cursor_rest segs so off))
    /\ (n = length (cursor_rest segs so off) -> 0 < n -> last segs [] <> [] -> so' = length segs)
    /\ (n = length (cursor_rest segs so off) -> 0 < n -> last segs [] = [] -> so' < length segs).
Proof.
  intros Hs Hoff. unfold nx_memncpy_multi. destruct segs as [|s0 segs0] eqn:Esegs; [simpl in Hs; lia|].
  rewrite <- Esegs in *. rewrite (nth_error_nth' segs [] Hs). cbn [bind].
  replace (N.of_nat (length (nth so segs [])) <? N.of_nat off)%N with false by lia.
  apply (memncpy_loop_spec segs (S (length segs)) n so off []); [left; auto|lia].
Qed.

(** One call from the cursor one past the last source. *)
Lemma memncpy_past oob segs n : segs <> [] ->
  nx_memncpy_multi oob segs n (length segs) 0 =
  match oob with Some _ => Ok ([], length segs, 0) | None => UB end.
Proof.
  intros Hne. unfold nx_memncpy_multi. destruct segs as [|s0 segs0] eqn:Esegs; [congruence|].
  rewrite <- Esegs in *. replace (nth_error segs (length segs)) with (@None (list N)).
  2:{ symmetry. apply nth_error_None. lia. }
  rewrite Nat.eqb_refl. destruct oob as [v|]; [|reflexivity]. cbn [bind].
  replace (v <? N.of_nat 0)%N with false by lia.
  cbn [memncpy_loop]. rewrite Nat.ltb_irrefl, andb_false_r. reflexivity.
Qed.

Lemma memncpy_any v segs n so off : segs <> [] -> cursor_ok segs so off ->
  exists so' off', nx_memncpy_multi (Some v) segs n so off = Ok (firstn n (cursor_rest segs so off), so', off')
    /\ cursor_ok segs so' off' /\ cursor_rest segs so' off' = skipn n (cursor_rest segs so off).
Proof.
  intros Hne [[Hs Ho]|[-> ->]].
  - destruct (memncpy_inside (Some v) segs n so off Hs Ho) as (so' & off' & E & Hok & Hr & _).
    exists so', off'. auto.
  - exists (length segs), 0. rewrite memncpy_past by auto. rewrite cursor_rest_end, firstn_nil, skipn_nil.
    repeat split; auto. right; auto.
Qed.

Lemma cursor_start segs : segs <> [] -> cursor_ok segs 0 0 /\ cursor_rest segs 0 0 = concat segs.
Proof.
  intros H. destruct segs as [|s t]; [congruence|]. split; [left; simpl; lia|reflexivity].
Qed.

Lemma run_requests_any v segs reqs : segs <> [] -> forall so off, cursor_ok segs so off ->
  run_requests (Some v) segs so off reqs = Ok (slices (cursor_rest segs so off) reqs).
Proof.
  intros Hne. induction reqs as [|n t IH]; intros so off Hc; [reflexivity|].
  cbn [run_requests slices].
  destruct (memncpy_any v segs n so off Hne Hc) as (so' & off' & E & Hc' & Hr). rewrite E. cbn [bind].
  rewrite IH by auto. rewrite Hr. reflexivity.
Qed.

(** Under the C standard's view every request made while data remains is
    served. *)
Lemma run_requests_std segs reqs : segs <> [] -> forall so off, cursor_ok segs so off ->
  list_sum reqs < length (cursor_rest segs so off) ->
  run_requests None segs so off reqs = Ok (slices (cursor_rest segs so off) reqs).
Proof.
  intros Hne. induction reqs as [|n t IH]; intros so off Hc Hl; [reflexivity|].
  change (list_sum (n :: t)) with (n + list_sum t) in Hl. cbn [run_requests slices] in *.
  destruct Hc as [[Hs Ho]|[-> ->]]; [|rewrite cursor_rest_end in Hl; simpl in Hl; lia].
  destruct (memncpy_inside None segs n so off Hs Ho) as (so' & off' & E & Hc' & Hr & _). rewrite E. cbn [bind].
  rewrite IH; [rewrite Hr; reflexivity|auto|]. rewrite Hr, skipn_length. lia.
Qed.
