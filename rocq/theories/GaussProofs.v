(** Proofs about the polar method. *)
From Verif Require Import Base BaseLemmas MatIo SiftProofs Flt SfmtModel SfmtSpec SfmtProofs SfmtArray SfmtServe SfmtCalls GaussModel GaussSpec.
Local Open Scope nat_scope.

Section G.
Context {D : Type}.
Variable A : arith D.
Variable V : nat -> w128.
Hypothesis F : follows V.
Hypothesis WF : forall n, wf (V n).
Variable x : nat -> N.
Hypothesis X : forall n, x n = num (V n).
Notation w := (word x).
Notation inside := (GaussSpec.inside A w).

Definition pos (s : sfmt) (t : nat) : Prop := exists j, at_pos V s (2 * t) j.
Definition cnt (t : nat) : nat := length (filter inside (seq 0 t)).
Lemma cnt_S t : cnt (S t) = cnt t + (if inside t then 1 else 0).
Proof. unfold cnt. rewrite seq_S, filter_app, app_length. cbn [filter plus]. destruct (inside t); reflexivity. Qed.
Lemma cnt_add t d : (forall u, t <= u < t + d -> inside u = false) -> cnt (t + d) = cnt t.
Proof.
  induction d as [|d IH]; intro H; [f_equal; lia|]. replace (t + S d) with (S (t + d)) by lia. rewrite cnt_S, H by lia. rewrite IH by (intros; apply H; lia). lia.
Qed.
Lemma cnt_find t T : cnt t < cnt T -> exists u, t <= u < T /\ inside u = true.
Proof.
  induction T as [|T IH]; intro H; [cbn in H; lia|]. rewrite cnt_S in H. destruct (inside T) eqn:E; cbv iota in H.
  - destruct (Nat.le_gt_cases t T) as [G|G]; [exists T; split; [lia|exact E]|]. exfalso.
    assert (M : forall d, cnt (S T) <= cnt (S T + d)) by (induction d; [rewrite Nat.add_0_r; lia|rewrite Nat.add_succ_r, (cnt_S (S T + d)); destruct (inside (S T + d)); lia]).
    specialize (M (t - S T)). replace (S T + (t - S T)) with t in M by lia. rewrite cnt_S, E in M. lia.
  - destruct IH as (u & U & I); [lia|]. exists u. split; [lia|exact I].
Qed.
Lemma draw_ok fuel s t : pos s t ->
  (draw A fuel s = NoFuel /\ forall u, t <= u < t + fuel -> inside u = false) \/
  exists t' s', draw A fuel s = Ok (coord A w (2 * t'), coord A w (2 * t' + 1), dist2 A w t', s') /\ pos s' (t' + 1) /\
    nth_inside A w (cnt t) t' /\ cnt (t' + 1) = cnt t + 1.
Proof.
  revert s t. induction fuel as [|fuel IH]; intros s t (j & P); [left; split; [reflexivity|intros; lia]|].
  destruct (genrand32_ok V F WF x X s _ j P) as (s1 & E1 & P1). destruct (genrand32_ok V F WF x X s1 _ _ P1) as (s2 & E2 & P2).
  assert (PT : pos s2 (t + 1)) by (exists (j + 1 + 1); replace (2 * (t + 1)) with (2 * t + 1 + 1) by lia; exact P2).
  cbn [draw]. unfold sample_s. rewrite E1. cbn [bind]. rewrite E2. cbn [bind]. fold (coord A w (2 * t)) (coord A w (2 * t + 1)). fold (dist2 A w t).
  destruct (ge A (dist2 A w t) (c1 A)) eqn:G.
  - assert (NI : inside t = false) by (unfold GaussSpec.inside; rewrite G; reflexivity).
    assert (C : cnt (t + 1) = cnt t) by (apply cnt_add; intros u U; replace u with t by lia; exact NI).
    destruct (IH s2 (t + 1) PT) as [(E & H)|(t' & s' & E & P' & N' & C')].
    + left. split; [exact E|]. intros u U. destruct (Nat.eq_dec u t) as [->|]; [exact NI|apply H; lia].
    + right. exists t', s'. rewrite C in N', C'. auto.
  - assert (I : inside t = true) by (unfold GaussSpec.inside; rewrite G; reflexivity).
    right. exists t, s2. split; [reflexivity|]. split; [exact PT|]. split; [split; [exact I|reflexivity]|].
    replace (t + 1) with (S t) by lia. rewrite cnt_S, I. reflexivity.
Qed.
Variable r : request D.
Notation n := (r_n r).
Hypothesis SND : sound r.
Variable p : nat.
(** After [q] pairs of the request. *)
Definition filled (i : nat) (o : list D) : Prop :=
  length o = length (r_buf r) /\
  forall j, j < i -> exists t, nth_inside A w (p + j / 2) t /\ nth_error o j = Some (polar A w (r_mean r) (r_sigma r) t (j mod 2)).
Lemma div2 q : 2 * q / 2 = q /\ (2 * q) mod 2 = 0 /\ (2 * q + 1) / 2 = q /\ (2 * q + 1) mod 2 = 1.
Proof. rewrite Nat.mul_comm, Nat.div_mul, Nat.mod_mul, Nat.div_add_l, (Nat.add_comm (q * 2)), Nat.mod_add by lia. cbn. lia. Qed.
Lemma filled_S i o t a : filled i o -> nth_inside A w (p + i / 2) t -> a = polar A w (r_mean r) (r_sigma r) t (i mod 2) -> i < length (r_buf r) ->
  exists o', zset o (Z.of_nat i) a = Ok o' /\ filled (S i) o'.
Proof.
  intros (L & H) NI E LT. rewrite zset_nat by lia. exists (lset o i a). split; [reflexivity|]. split; [rewrite lset_length; exact L|].
  intros j J. destruct (Nat.eq_dec j i) as [->|]; [exists t; split; [exact NI|rewrite nth_error_lset_eq by lia; rewrite E; reflexivity]|]. destruct (H j ltac:(lia)) as (t' & N' & E'). exists t'. rewrite nth_error_lset_neq by lia. auto.
Qed.
Variables turns fuel : nat.
(** A point of the stream before which there are enough accepted pairs. *)
Lemma draw_live s t T c : pos s t -> cnt t = c -> c < cnt T -> T <= fuel -> draw A fuel s <> NoFuel.
Proof.
  intros P C LT TF E. destruct (draw_ok fuel s t P) as [(_ & H)|(t' & s' & E' & _)]; [|rewrite E in E'; discriminate].
  subst c. destruct (cnt_find t T LT) as (u & U & I). rewrite H in I by lia. discriminate.
Qed.

Lemma pairs_ok k : forall s t o q,
  pos s t -> cnt t = p + q -> filled (2 * q) o -> (Z.of_nat (2 * q) <= n)%Z ->
  (pairs_loop A (r_mean r) (r_sigma r) k fuel n (Z.of_nat (2 * q)) o s = NoFuel /\ forall T, p + pairs_used r <= cnt T -> T <= fuel -> k + q <= Z.to_nat n) \/
  exists q' t' o' s', pairs_loop A (r_mean r) (r_sigma r) k fuel n (Z.of_nat (2 * q)) o s = Ok (Z.of_nat (2 * q'), o', s') /\
    pos s' t' /\ cnt t' = p + q' /\ filled (2 * q') o' /\ (n - 1 <= Z.of_nat (2 * q') <= n)%Z.
Proof.
  destruct SND as [RN LB]. unfold INT_MAX in RN.
  induction k as [|k IH]; intros s t o q P C FL LE; cbn [pairs_loop]; [left; split; [reflexivity|lia]|].
  rewrite chk_small by lia. cbn [bind]. destruct (Z.ltb_spec (Z.of_nat (2 * q)) (n - 1)) as [LT|GE].
  - assert (PU : q + 1 <= pairs_used r).
    { unfold pairs_used. apply Nat.div_le_lower_bound; lia. }
    destruct (draw_ok fuel s t P) as [(E & H)|(t' & s' & E & P' & NI & C')].
    + rewrite E. left. split; [reflexivity|]. intros T CT TF. exfalso. apply (draw_live s t T _ P C ltac:(lia) TF E).
    + rewrite E. cbn [bind]. rewrite C in NI. destruct (div2 q) as (D1 & D2 & D3 & D4).
      destruct (filled_S (2 * q) o t' (add A (mul A (common A (r_sigma r) (dist2 A w t')) (coord A w (2 * t'))) (r_mean r)) FL) as (o1 & E1 & FL1).
      { rewrite D1. exact NI. }
      { rewrite D2. unfold polar, common. rewrite Nat.add_0_r. reflexivity. }
      { lia. }
      rewrite E1. cbn [bind].
      destruct (filled_S (S (2 * q)) o1 t' (add A (mul A (common A (r_sigma r) (dist2 A w t')) (coord A w (2 * t' + 1))) (r_mean r)) FL1) as (o2 & E2 & FL2).
      { replace (S (2 * q)) with (2 * q + 1) by lia. rewrite D3. exact NI. }
      { replace (S (2 * q)) with (2 * q + 1) by lia. rewrite D4. reflexivity. }
      { lia. }
      replace (Z.of_nat (2 * q) + 1)%Z with (Z.of_nat (S (2 * q))) by lia. rewrite E2. cbn [bind].
      rewrite chk_small by lia. cbn [bind]. replace (Z.of_nat (2 * q) + 2)%Z with (Z.of_nat (2 * (q + 1))) by lia.
      destruct (IH s' (t' + 1) o2 (q + 1) P' ltac:(lia)) as [(EN & H)|R].
      { replace (2 * (q + 1)) with (S (S (2 * q))) by lia. exact FL2. }
      { lia. }
      * left. split; [exact EN|]. intros T CT TF. specialize (H T CT TF). lia.
      * right. exact R.
  - right. exists q, t, o, s. split; [reflexivity|]. split; [exact P|]. split; [exact C|]. split; [exact FL|]. lia.
Qed.
Lemma sample_ok s t : pos s t -> cnt t = p ->
  (gaussian_sample A (r_mean r) (r_sigma r) turns fuel n (r_buf r) s = NoFuel /\
     forall T, p + pairs_used r <= cnt T -> T <= fuel -> turns <= Z.to_nat n) \/
  exists t' o' s', gaussian_sample A (r_mean r) (r_sigma r) turns fuel n (r_buf r) s = Ok (o', s') /\
    pos s' t' /\ cnt t' = p + pairs_used r /\ answered A w r p o'.
Proof.
  destruct SND as [RN LB]. intros P C. unfold gaussian_sample.
  destruct (pairs_ok turns s t (r_buf r) 0 P ltac:(lia)) as [(E & H)|(q & t1 & o1 & s1 & E & P1 & C1 & FL & BD)].
  { split; [reflexivity|lia]. }
  { lia. }
  - left. change 0%Z with (Z.of_nat (2 * 0)). rewrite E. split; [reflexivity|]. intros T CT TF. specialize (H T CT TF). lia.
  - change 0%Z with (Z.of_nat (2 * 0)). rewrite E. cbn [bind]. destruct (Z.ltb_spec (Z.of_nat (2 * q)) n) as [LT|GE].
    + destruct (div2 (q + 1)) as (D1 & _). assert (PU : pairs_used r = q + 1) by (unfold pairs_used; replace (Z.to_nat n + 1) with (2 * (q + 1)) by lia; exact D1).
      destruct (draw_ok fuel s1 t1 P1) as [(E2 & H)|(t' & s' & E2 & P' & NI & C')].
      * rewrite E2. left. split; [reflexivity|]. intros T CT TF. exfalso. apply (draw_live s1 t1 T _ P1 C1 ltac:(lia) TF E2).
      * rewrite E2. cbn [bind]. rewrite C1 in NI. destruct (div2 q) as (Q1 & Q2 & _).
        destruct (filled_S (2 * q) o1 t' (add A (mul A (common A (r_sigma r) (dist2 A w t')) (coord A w (2 * t'))) (r_mean r)) FL) as (o2 & E3 & FL2).
        { rewrite Q1. exact NI. }
        { rewrite Q2. unfold polar, common. rewrite Nat.add_0_r. reflexivity. }
        { lia. }
        rewrite E3. cbn [bind]. right. exists (t' + 1), o2, s'. split; [reflexivity|]. split; [exact P'|]. split; [lia|].
        destruct FL2 as [L2 H2]. split; [exact L2|]. intros j J. apply H2. lia.
    + right. exists t1, o1, s1. split; [reflexivity|]. split; [exact P1|]. destruct (div2 q) as (_ & _ & Q3 & _). split; [unfold pairs_used; replace (Z.to_nat n + 1) with (2 * q + 1) by lia; lia|].
      destruct FL as [L2 H2]. split; [exact L2|]. intros j J. apply H2. lia.
Qed.
End G.

Lemma requests_ok {D} (A : arith D) V x turns fuel rs : follows V -> (forall n, wf (V n)) -> (forall n, x n = num (V n)) -> Forall sound rs ->
  forall p s t, pos V s t -> cnt A x t = p ->
  (requests A turns fuel rs s = NoFuel /\
     forall T, p + total_pairs rs <= cnt A x T -> T <= fuel -> Exists (fun r => turns <= Z.to_nat (r_n r)) rs) \/
  exists os s', requests A turns fuel rs s = Ok (os, s') /\ all_answered A (word x) rs p os.
Proof.
  intros F WF X SD. induction SD as [|r rs S0 SD IH]; intros p s t P C; cbn [requests].
  - right. exists [], s. split; [reflexivity|exact I].
  - change (total_pairs (r :: rs)) with (pairs_used r + total_pairs rs).
    destruct (sample_ok A V F WF x X r S0 p turns fuel s t P C) as [(E & H)|(t' & o & s' & E & P' & C' & AN)]; rewrite E; cbn [bind].
    + left. split; [reflexivity|]. intros T CT TF. left. apply (H T); lia.
    + destruct (IH _ s' t' P' C') as [(EN & H)|(os & s2 & E2 & AA)].
      * rewrite EN. left. split; [reflexivity|]. intros T CT TF. right. apply (H T); lia.
      * rewrite E2. cbn [bind]. right. exists (o :: os), s2. split; [reflexivity|]. split; assumption.
Qed.
