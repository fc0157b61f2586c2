From Verif Require Import Base BaseLemmas Gray Flt MatModel MatIo KeyProofs ShaModel SiftProofs SiftDogModel SiftDogSpec.

Local Open Scope Z_scope.

(** * Scan *)
Lemma zget_pixel im w h stride y x : dimg_ok im w h stride -> 0 < stride -> 0 <= h -> stride * h <= 2147483647 -> 0 <= y <= h ->
  0 <= y * stride + x < stride * h -> dget im y x = Ok (pixel im y x).
Proof.
  intros (E1 & E2 & E3 & E4) S0 H0 M Y R. unfold dget, pixel. rewrite E3. rewrite chk_small by nia. cbn [bind].
  rewrite <- (Z2Nat.id (y * stride + x)) at 1 by lia. apply zget_nat. apply nth_error_nth'. lia.
Qed.

Section Scan.
Variables (above : flt -> bool) (edge : list flt -> bool) (dogm dog dogp : dimg) (w h stride B : Z).
Hypotheses (Im : dimg_ok dogm w h stride) (I0 : dimg_ok dog w h stride) (Ip : dimg_ok dogp w h stride)
  (W0 : 2 < w) (WS : w <= stride) (H0 : 0 <= h) (MX : stride * h <= 2147483647) (B2 : 2 <= B).

Lemma in_data y x dy dx : B <= y < h - B -> B <= x < w + B -> -1 <= dy <= 1 -> -1 <= dx <= 1 -> 0 <= y + dy <= h /\ 0 <= (y + dy) * stride + (x + dx) < stride * h.
Proof using W0 WS B2. clear Im I0 Ip H0 MX. intros. split; [lia|]. split; [nia|]. assert ((y + dy + B) * stride <= h * stride) by (apply Z.mul_le_mono_nonneg_r; lia). nia. Qed.

Lemma get_m y x dy dx : B <= y < h - B -> B <= x < w + B -> -1 <= dy <= 1 -> -1 <= dx <= 1 -> dget dogm (y + dy) (x + dx) = Ok (pixel dogm (y + dy) (x + dx)).
Proof. intros Y X D1 D2. destruct (in_data y x dy dx Y X D1 D2). eapply zget_pixel; eauto; lia. Qed.
Lemma get_0 y x dy dx : B <= y < h - B -> B <= x < w + B -> -1 <= dy <= 1 -> -1 <= dx <= 1 -> dget dog (y + dy) (x + dx) = Ok (pixel dog (y + dy) (x + dx)).
Proof. intros Y X D1 D2. destruct (in_data y x dy dx Y X D1 D2). eapply zget_pixel; eauto; lia. Qed.
Lemma get_p y x dy dx : B <= y < h - B -> B <= x < w + B -> -1 <= dy <= 1 -> -1 <= dx <= 1 -> dget dogp (y + dy) (x + dx) = Ok (pixel dogp (y + dy) (x + dx)).
Proof. intros Y X D1 D2. destruct (in_data y x dy dx Y X D1 D2). eapply zget_pixel; eauto; lia. Qed.

Lemma beats_spec cmp v cells : Forall (fun c => exists a, dget (fst (fst c)) (snd (fst c)) (snd c) = Ok a) cells ->
  exists b, beats cmp v cells = Ok b /\ (b = true <-> Forall (fun c => forall a, dget (fst (fst c)) (snd (fst c)) (snd c) = Ok a -> cmp v a = true) cells).
Proof using. clear.
  induction cells as [|[[im y] x] cells IH]; intros F; cbn [beats].
  - exists true. split; [reflexivity|]. split; auto.
  - inversion F as [|? ? (a & E) F']; subst. cbn [fst snd] in E. rewrite E. cbn [bind]. destruct (cmp v a) eqn:C.
    + destruct (IH F') as (b & -> & Q). exists b. split; [reflexivity|]. rewrite Q. split; intro G.
      * constructor; auto. cbn [fst snd]. intros a' E'. congruence.
      * now inversion G.
    + exists false. split; [reflexivity|]. split; [discriminate|]. intro G. inversion G as [|? ? G1 _]; subst. cbn [fst snd] in G1. rewrite (G1 a E) in C. discriminate.
Qed.

Definition dirs : list (Z * Z) := [(0, -1); (0, 1); (-1, -1); (-1, 0); (-1, 1); (1, -1); (1, 0); (1, 1)].
Definition dirs9 : list (Z * Z) := [(0, -1); (0, 0); (0, 1); (-1, -1); (-1, 0); (-1, 1); (1, -1); (1, 0); (1, 1)].
Lemma around_eq y x : around dogm dog dogp y x =
  map (fun d => (dog, y + fst d, x + snd d)) dirs ++ map (fun d => (dogm, y + fst d, x + snd d)) dirs9 ++ map (fun d => (dogp, y + fst d, x + snd d)) dirs9.
Proof using. clear. unfold around, dirs, dirs9. cbn [map app fst snd]. rewrite !Z.add_0_r. reflexivity. Qed.
Lemma dirs9_in d : In d dirs9 <-> -1 <= fst d <= 1 /\ -1 <= snd d <= 1.
Proof using. clear.
  split.
  - intros H. cbn in H. repeat (destruct H as [<-|H]; [cbn; lia|]). destruct H.
  - destruct d as [a b]. cbn [fst snd]. intros [H1 H2]. assert (a = -1 \/ a = 0 \/ a = 1) as [->|[->| ->]] by lia; assert (b = -1 \/ b = 0 \/ b = 1) as [->|[->| ->]] by lia; cbn; tauto.
Qed.
Lemma dirs_in d : In d dirs <-> (-1 <= fst d <= 1 /\ -1 <= snd d <= 1) /\ (fst d <> 0 \/ snd d <> 0).
Proof using. clear.
  split.
  - intros H. cbn in H. repeat (destruct H as [<-|H]; [cbn; lia|]). destruct H.
  - destruct d as [a b]. cbn [fst snd]. intros [[H1 H2] H3]. assert (a = -1 \/ a = 0 \/ a = 1) as [->|[->| ->]] by lia; assert (b = -1 \/ b = 0 \/ b = 1) as [->|[->| ->]] by lia; cbn; try tauto; lia.
Qed.

Lemma beats_around cmp y x : B <= y < h - B -> B <= x < w + B ->
  exists b, beats cmp (pixel dog y x) (around dogm dog dogp y x) = Ok b /\ (b = true <-> beats_all cmp dogm dog dogp y x).
Proof.
  intros Y X. rewrite around_eq.
  destruct (beats_spec cmp (pixel dog y x) (map (fun d => (dog, y + fst d, x + snd d)) dirs ++ map (fun d => (dogm, y + fst d, x + snd d)) dirs9 ++ map (fun d => (dogp, y + fst d, x + snd d)) dirs9)) as (b & E & Q).
  - rewrite !Forall_app, !Forall_map. cbn [fst snd]. repeat split; apply Forall_forall; intros d I.
    + apply dirs_in in I. eexists. apply get_0; tauto.
    + apply dirs9_in in I. eexists. apply get_m; tauto.
    + apply dirs9_in in I. eexists. apply get_p; tauto.
  - exists b. split; [exact E|]. rewrite Q. rewrite !Forall_app, !Forall_map, !Forall_forall. cbn [fst snd]. unfold beats_all. split.
    + intros (A1 & A2 & A3) dy dx D1 D2. split; [|split].
      * apply (A2 (dy, dx)); [apply dirs9_in; auto|]. apply get_m; auto.
      * apply (A3 (dy, dx)); [apply dirs9_in; auto|]. apply get_p; auto.
      * intro Ne. apply (A1 (dy, dx)); [apply dirs_in; auto|]. apply get_0; auto.
    + intros A. split; [|split]; intros [dy dx] I a; cbn [fst snd].
      * apply dirs_in in I. cbn [fst snd] in I. destruct I as [[D1 D2] Ne]. rewrite get_0 by auto. intros [= <-]. now apply A.
      * apply dirs9_in in I. cbn [fst snd] in I. destruct I as [D1 D2]. rewrite get_m by auto. intros [= <-]. now apply A.
      * apply dirs9_in in I. cbn [fst snd] in I. destruct I as [D1 D2]. rewrite get_p by auto. intros [= <-]. now apply A.
Qed.

Definition selected y x : Prop := above (pixel dog y x) = true /\ extremum dogm dog dogp y x /\ edge (patch dog y x) = true.
Lemma candidate_ok y x : B <= y < h - B -> B <= x < w + B ->
  exists b, is_candidate above edge dogm dog dogp y x = Ok b /\ (b = true <-> selected y x).
Proof.
  intros Y X. unfold is_candidate, selected. pose proof (get_0 y x 0 0 Y X ltac:(lia) ltac:(lia)) as G. rewrite !Z.add_0_r in G. rewrite G. cbn [bind].
  destruct (above (pixel dog y x)) eqn:A; [|exists false; split; [reflexivity|]; split; [discriminate|intros [? _]; discriminate]].
  destruct (beats_around f_gt y x Y X) as (b1 & E1 & Q1). destruct (beats_around f_lt y x Y X) as (b2 & E2 & Q2). rewrite E1, E2.
  assert (X1 : exists e, (let* hi := if f_gt (pixel dog y x) F0 then Ok b1 else Ok false in
    if hi then Ok true else if f_lt (pixel dog y x) F0 then Ok b2 else Ok false) = Ok e /\ (e = true <-> extremum dogm dog dogp y x)).
  { unfold extremum. destruct (f_gt (pixel dog y x) F0) eqn:F1'; cbn [bind].
    - destruct b1.
      + exists true. split; [reflexivity|]. split; auto. intros _. left. split; auto. now apply Q1.
      + destruct (f_lt (pixel dog y x) F0) eqn:F2; eexists; (split; [reflexivity|]).
        * rewrite Q2. split; [right; auto|]. intros [[_ C]|[_ C]]; auto. apply Q1 in C. discriminate.
        * split; [discriminate|]. intros [[_ C]|[C _]]; [apply Q1 in C|]; discriminate.
    - destruct (f_lt (pixel dog y x) F0) eqn:F2; eexists; (split; [reflexivity|]).
      + rewrite Q2. split; [right; auto|]. intros [[C _]|[_ C]]; [discriminate|auto].
      + split; [discriminate|]. intros [[C _]|[C _]]; discriminate. }
  destruct X1 as (e & E & Q). 
  destruct (if f_gt (pixel dog y x) F0 then Ok b1 else Ok false) as [hi| | |]; cbn [bind] in E |- *; try discriminate. rewrite E. cbn [bind]. destruct e.
  - unfold check_edge. replace (y - 1) with (y + -1) by lia. replace (x - 1) with (x + -1) by lia.
    pose proof (get_0 y x 0 (-1) Y X ltac:(lia) ltac:(lia)) as G1. pose proof (get_0 y x 0 1 Y X ltac:(lia) ltac:(lia)) as G2.
    pose proof (get_0 y x (-1) 0 Y X ltac:(lia) ltac:(lia)) as G3. pose proof (get_0 y x 1 0 Y X ltac:(lia) ltac:(lia)) as G4. rewrite Z.add_0_r in G1, G2, G3, G4.
    rewrite G, G1, G2, G3, G4. rewrite !get_0 by lia. cbn [bind]. eexists. split; [reflexivity|].
    unfold patch. cbn [map fst snd]. rewrite !Z.add_0_r. tauto.
  - exists false. split; [reflexivity|]. split; [discriminate|]. intros (_ & C & _). apply Q in C. discriminate.
Qed.

Lemma row_ok y : B <= y < h - B -> forall xs out, Forall (fun x => B <= x < w + B) xs ->
  exists new, for_each (fun x out => let* c := is_candidate above edge dogm dog dogp y x in Ok (if c then out ++ [(x, y)] else out)) xs out = Ok (out ++ new) /\
    (forall x y', In (x, y') new <-> y' = y /\ In x xs /\ selected y x).
Proof.
  intros Y. induction xs as [|x xs IH]; intros out F; cbn [for_each].
  - exists []. rewrite app_nil_r. split; [reflexivity|]. cbn. tauto.
  - inversion F as [|? ? F1' F2]; subst. destruct (candidate_ok y x Y F1') as (b & E & Q). rewrite E. cbn [bind].
    destruct (IH (if b then out ++ [(x, y)] else out) F2) as (new & En & Qn). rewrite En.
    exists ((if b then [(x, y)] else []) ++ new). split.
    + destruct b; cbn [app]; rewrite <- ?app_assoc; reflexivity.
    + intros x' y'. rewrite in_app_iff, Qn. destruct b; cbn [In]; split.
      * intros [[[= <- <-]|[]]|(A1 & A2 & A3)]; [|tauto]. split; [reflexivity|]. split; [now left|]. now apply Q.
      * intros (-> & [<-|I] & C); [left; now left|right; tauto].
      * intros [[]|]; tauto.
      * intros (-> & [<-|I] & C); [apply Q in C; discriminate|right; tauto].
Qed.
Lemma scan_ok : exists out, nx_sift_process_dog above edge dogm dog dogp B = Ok out /\
  forall x y, In (x, y) out <-> (B <= x < w + B /\ B <= y < h - B) /\ selected y x.
Proof.
  unfold nx_sift_process_dog. destruct I0 as (D1 & D2 & _). rewrite D1, D2.
  assert (G : forall ys out, Forall (fun y => B <= y < h - B) ys -> exists new,
    for_each (fun y out => for_each (fun x out => let* c := is_candidate above edge dogm dog dogp y x in Ok (if c then out ++ [(x, y)] else out)) (zrange B (w + B)) out) ys out = Ok (out ++ new) /\
    forall x y, In (x, y) new <-> (B <= x < w + B /\ In y ys) /\ selected y x).
  { induction ys as [|y ys IH]; intros out F; cbn [for_each].
    - exists []. rewrite app_nil_r. split; [reflexivity|]. cbn. tauto.
    - inversion F as [|yy ys0 F1' F2 Ey]; clear Ey. destruct (row_ok y F1' (zrange B (w + B)) out) as (n1 & E1 & Q1); [apply Forall_forall; intros x I; now apply zrange_in|].
      rewrite E1. cbn [bind]. destruct (IH (out ++ n1) F2) as (n2 & E2 & Q2). rewrite E2. exists (n1 ++ n2). rewrite app_assoc. split; [reflexivity|].
      intros x y'. rewrite in_app_iff, Q1, Q2, zrange_in. cbn [In]. split; [intros [(-> & A1 & A2)|A]; tauto|]. intros ((A1 & [<-|A2]) & A3); tauto. }
  destruct (G (zrange B (h - B)) []) as (out & E & Q); [apply Forall_forall; intros y I; now apply zrange_in|]. exists out. split; [exact E|].
  intros x y. rewrite Q, zrange_in. tauto.
Qed.
End Scan.
