(** Filling arrays. *)
From Verif Require Import Base BaseLemmas Flt BitsProofs SfmtModel SfmtSpec SfmtProofs.
Local Open Scope nat_scope.

Section Arr.
Variable V : nat -> w128.
Hypothesis F : follows V.
Variable st : list w128.
Hypothesis HS : holds V 0 st.
Variable size : nat.

Definition arr_inv (i : nat) (s : list w128 * ptr * ptr) : Prop :=
  let '(ar, r1, r2) := s in
  length ar = size /\
  (forall j, j < i -> nth_error ar j = Some (V (156 + j))) /\
  r1 = (if i <? 2 then PSt (154 + i) else PAr (i - 2)) /\ r2 = (if i <? 1 then PSt 155 else PAr (i - 1)).
(** [pa] and [pb] point at blocks i and i + 122. *)
Definition points (ar : list w128) (p : ptr) (n : nat) : Prop := pget st ar p = Ok (V n).
Lemma points_st ar i : i < 156 -> points ar (PSt i) i.
Proof. intro I. destruct HS as [_ H]. unfold points. cbn [pget]. apply aget_at. apply H. exact I. Qed.
Lemma arr_step_ok st' pa pb i s : i < size -> arr_inv i s ->
  (forall ar p n, points ar p n -> (exists j, p = PAr j) -> pget st' ar p = Ok (V n)) ->
  (st' = st \/ 2 <= i) ->
  (pa i = PSt i /\ i < 156 /\ st' = st \/ pa i = PAr (i - 156) /\ 156 <= i) ->
  (pb i = PSt (i + 122) /\ i < 34 /\ st' = st \/ pb i = PAr (i + 122 - 156) /\ 34 <= i) ->
  exists s', arr_step st' pa pb i s = Ok s' /\ arr_inv (i + 1) s'.
Proof.
  intros I H ST ST2 PA PB. destruct s as [[ar r1] r2]. destruct H as (L & DN & E1 & E2). unfold arr_step.
  assert (AR : forall j, j < i -> points ar (PAr j) (156 + j)) by (intros j J; unfold points; cbn [pget]; apply aget_at, DN; exact J).
  assert (GA : pget st' ar (pa i) = Ok (V i)).
  { destruct PA as [(-> & P & ->)|(-> & P)]; [apply points_st; exact P|]. apply ST; [|eauto]. replace i with (156 + (i - 156)) at 2 by lia. apply AR. lia. }
  assert (GB : pget st' ar (pb i) = Ok (V (i + 122))).
  { destruct PB as [(-> & P & ->)|(-> & P)]; [apply points_st; lia|]. apply ST; [|eauto]. replace (i + 122) with (156 + (i + 122 - 156)) at 2 by lia. apply AR. lia. }
  assert (GC : pget st' ar r1 = Ok (V (i + 154))).
  { subst r1. destruct (Nat.ltb_spec i 2).
    - destruct ST2 as [->|]; [|lia]. rewrite (Nat.add_comm i). apply points_st. lia.
    - apply ST; [|eauto]. replace (i + 154) with (156 + (i - 2)) by lia. apply AR. lia. }
  assert (GD : pget st' ar r2 = Ok (V (i + 155))).
  { subst r2. destruct (Nat.ltb_spec i 1).
    - destruct ST2 as [->|]; [|lia]. replace i with 0 by lia. apply points_st. lia.
    - apply ST; [|eauto]. replace (i + 155) with (156 + (i - 1)) by lia. apply AR. lia. }
  rewrite GA. cbn [bind]. rewrite GB. cbn [bind]. rewrite GC. cbn [bind]. rewrite GD. cbn [bind].
  rewrite aset_lt by lia. cbn [bind]. eexists. split; [reflexivity|]. rewrite <- F. unfold arr_inv. repeat split.
  - rewrite lset_length. exact L.
  - intros j J. destruct (Nat.eq_dec j i) as [->|NE].
    + rewrite nth_error_lset_eq by lia. do 2 f_equal. lia.
    + rewrite nth_error_lset_neq by lia. apply DN. lia.
  - subst r2. destruct (Nat.ltb_spec i 1), (Nat.ltb_spec (i + 1) 2); try lia; [f_equal; lia|f_equal; lia].
  - destruct (Nat.ltb_spec (i + 1) 1); [lia|f_equal; lia].
Qed.
Lemma gen_rand_array_ok ar : 156 <= size -> length ar = size ->
  exists ar' st', gen_rand_array st ar size = Ok (ar', st') /\ length ar' = size /\
    (forall j, j < size -> nth_error ar' j = Some (V (156 + j))) /\ holds V size st'.
Proof.
  intros SZ L. unfold gen_rand_array, SFMT_N, SFMT_POS1.
  assert (IDL : forall ar p n, points ar p n -> (exists j, p = PAr j) -> pget st ar p = Ok (V n)) by (intros; assumption).
  destruct (for_seq (arr_step st PSt (fun i => PSt (i + 122))) arr_inv 0 (156 - 122) (ar, PSt (156 - 2), PSt (156 - 1))) as (s1 & E1 & I1).
  { repeat split; [exact L|lia]. }
  { intros i s I P. apply arr_step_ok; auto; [lia|left|left]; (split; [reflexivity|]; lia || (split; [lia|reflexivity])). }
  rewrite E1. cbn [bind].
  destruct (for_seq (arr_step st PSt (fun i => PAr (i + 122 - 156))) arr_inv (156 - 122) 122 s1) as (s2 & E2 & I2).
  { exact I1. }
  { intros i s I P. apply arr_step_ok; auto; [lia|left|right]; (split; [reflexivity|]; lia || (split; [lia|reflexivity])). }
  rewrite E2. cbn [bind].
  destruct (for_seq (arr_step st (fun i => PAr (i - 156)) (fun i => PAr (i + 122 - 156))) arr_inv 156 (size - 156 - 156) s2) as (s3 & E3 & I3).
  { exact I2. }
  { intros i s I P. apply arr_step_ok; auto; [lia|right|right]; (split; [reflexivity|]; lia). }
  rewrite E3. cbn [bind]. destruct s3 as [[ar3 r1] r2].
  replace (156 + (size - 156 - 156)) with (Nat.max 156 (size - 156)) in I3 by lia. set (i0 := Nat.max 156 (size - 156)) in *.
  destruct I3 as (L3 & DN & R1 & R2).
  destruct (for_seq (fun j st => let* v := aget ar3 (j + size - 156) in aset st j v)
              (fun j s => length s = 156 /\ forall k, k < j -> nth_error s k = Some (V (size + k))) 0 (2 * 156 - size) st) as (st4 & E4 & L4 & D4).
  { split; [apply HS|lia]. }
  { intros j s J (LS & DS). rewrite (aget_at ar3 _ (V (size + j))).
    2:{ replace (size + j) with (156 + (j + size - 156)) by lia. apply DN. lia. }
    cbn [bind]. rewrite aset_lt by lia. eexists. split; [reflexivity|]. split; [rewrite lset_length; exact LS|].
    intros k K. destruct (Nat.eq_dec k j) as [->|NE]; [apply nth_error_lset_eq; lia|]. rewrite nth_error_lset_neq by lia. apply DS. lia. }
  rewrite E4. cbn [bind]. rewrite Nat.add_0_l in D4.
  set (P := fun (i : nat) (s : list w128 * ptr * ptr * list w128 * nat) =>
      let '(ar, r1, r2, s4, j) := s in arr_inv i (ar, r1, r2) /\ length s4 = 156 /\ j = i + 156 - size /\ forall k, k < j -> nth_error s4 k = Some (V (size + k))).
  destruct (for_seq (last_step size) P i0 (size - i0) (ar3, r1, r2, st4, 2 * 156 - size)) as (s5 & E5 & I5).
  { repeat split; try assumption. unfold i0. lia. }
  { intros i s I H. destruct s as [[[[ar4 q1] q2] s4] j]. destruct H as (AI & LS & EJ & DS). unfold last_step.
    destruct (arr_step_ok s4 (fun i => PAr (i - SFMT_N)) (fun i => PAr (i + SFMT_POS1 - SFMT_N)) i (ar4, q1, q2)) as (s' & ES & IS).
    - unfold i0 in I. lia.
    - exact AI.
    - intros a p n PT [k ->]. exact PT.
    - right. unfold i0 in I. lia.
    - right. split; [reflexivity|]. unfold i0 in I. lia.
    - right. split; [reflexivity|]. unfold i0 in I. lia.
    - rewrite ES. cbn [bind]. destruct s' as [[ar5 p1] p2]. pose proof IS as (L5 & D5 & _).
      rewrite (aget_at ar5 i (V (156 + i))) by (apply D5; lia). cbn [bind].
      rewrite aset_lt by (unfold i0 in I; lia). cbn [bind]. eexists. split; [reflexivity|]. split; [exact IS|]. split; [rewrite lset_length; exact LS|].
      split; [unfold i0 in I; lia|]. intros k K. destruct (Nat.eq_dec k j) as [->|NE].
      + rewrite nth_error_lset_eq by (unfold i0 in I; lia). do 2 f_equal. unfold i0 in I. lia.
      + rewrite nth_error_lset_neq by lia. apply DS. lia. }
  rewrite E5. cbn [bind]. destruct s5 as [[[[ar5 p1] p2] st5] j5]. replace (i0 + (size - i0)) with size in I5 by (unfold i0; lia).
  destruct I5 as ((L5 & D5 & _) & LS & EJ & DS). exists ar5, st5. repeat split; try assumption. intros i I. apply DS. lia.
Qed.
End Arr.

(** * The sequence of a state *)
Definition W0 : w128 := W 0 0 0 0.
Definition rstep (l : list w128) : list w128 := tl l ++ [do_recursion (nth 0 l W0) (nth 122 l W0) (nth 154 l W0) (nth 155 l W0)].
Definition reg (st : list w128) (n : nat) : list w128 := Nat.iter n rstep st.
Definition seq_of (st : list w128) (n : nat) : w128 := nth 0 (reg st n) W0.
Lemma reg_length st n : length st = 156 -> length (reg st n) = 156.
Proof. intro L. induction n as [|n IH]; [exact L|]. change (reg st (S n)) with (rstep (reg st n)). unfold rstep. rewrite app_length. destruct (reg st n); [discriminate|]. cbn [tl length] in *. lia. Qed.
Lemma reg_nth st n i : length st = 156 -> i < 156 -> nth i (reg st n) W0 = seq_of st (n + i).
Proof.
  intro L. revert n. induction i as [|i IH]; intros n I; [rewrite Nat.add_0_r; reflexivity|].
  replace (n + S i) with (S n + i) by lia. rewrite <- IH by lia. pose proof (reg_length st n L) as LR.
  change (reg st (S n)) with (rstep (reg st n)). unfold rstep. destruct (reg st n) as [|x l]; [discriminate|]. cbn [tl]. cbn [length] in LR.
  rewrite app_nth1 by lia. reflexivity.
Qed.
Lemma seq_follows st : length st = 156 -> follows (seq_of st).
Proof.
  intros L n. replace (n + 156) with (S n + 155) by lia. rewrite <- reg_nth by lia. pose proof (reg_length st n L) as LR.
  change (reg st (S n)) with (rstep (reg st n)). unfold rstep. rewrite app_nth2; [|destruct (reg st n); [discriminate|]; cbn [tl length] in *; lia].
  replace (155 - length (tl (reg st n))) with 0 by (destruct (reg st n); [discriminate|]; cbn [tl length] in *; lia). cbn [nth].
  rewrite !reg_nth by lia. rewrite Nat.add_0_r. reflexivity.
Qed.
Lemma seq_holds st : length st = 156 -> holds (seq_of st) 0 st.
Proof. intro L. split; [exact L|]. intros i I. change (0 + i) with i. rewrite <- (reg_nth st 0 i L I : _ = seq_of st i). change (reg st 0) with st. apply nth_error_nth'. rewrite L. exact I. Qed.
Lemma seq_wf st : length st = 156 -> Forall wf st -> forall n, wf (seq_of st n).
Proof.
  intros L H. assert (R : forall n, Forall wf (reg st n)).
  { induction n as [|n IH]; [exact H|]. pose proof (reg_length st n L) as LR. change (reg st (S n)) with (rstep (reg st n)). unfold rstep. apply Forall_app. split.
    - destruct (reg st n); [constructor|]. inversion IH. assumption.
    - constructor; [|constructor]. apply recursion_wf. rewrite Forall_forall in IH. apply IH. apply nth_In. lia. }
  intro n. specialize (R n). rewrite Forall_forall in R. apply R. apply nth_In. rewrite reg_length by exact L. lia.
Qed.
Lemma holds_seq V b st : holds V b st -> follows V -> forall n, seq_of st n = V (b + n).
Proof.
  intros (L & H) F n. induction n as [n IH] using lt_wf_ind. destruct (Nat.lt_ge_cases n 156) as [N|N].
  - rewrite <- (reg_nth st 0 n L N : _ = seq_of st n). change (reg st 0) with st. apply nth_error_nth. apply H. exact N.
  - replace n with (n - 156 + 156) at 1 by lia. rewrite (seq_follows st L), !IH by lia.
    replace (b + n) with (b + (n - 156) + 156) by lia. rewrite F. f_equal; f_equal; lia.
Qed.
