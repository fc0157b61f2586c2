(** Properties C27 and C30. *)
From Verif Require Import Base BaseLemmas Heap StrArrModel StrArrProofs CsvModel DfModel DfSpec DfProofs DfProofs2.
Local Open Scope Z_scope.

(** C27: every history of frame operations behaves as the table of DfSpec says:
    it succeeds, ends in NX_FATAL or is undefined exactly when the table says
    so, the client sees exactly the table, and freeing the frame releases every
    block once. *)
Theorem C27_table_history : forall print_d os,
  (forall d, (length (print_d d) <= 255)%nat) -> Forall dfop_ok os -> Z.of_nat (length os) <= 700000000 ->
  match df_run print_d [] frame_alloc os, t_run print_d empty_table os with
  | Ok (h, df), Ok T => shows h df T /\ exists h', frame_free h df = Ok h' /\ forall p, cell h' p = None
  | Fatal, Fatal | UB, UB => True
  | _, _ => False
  end.
Proof.
  intros print_d os Hp Ho Hn.
  pose proof (run_sim print_d Hp os [] frame_alloc empty_table rep_init Ho) as H.
  unfold small in H. cbn [trows tcols empty_table length] in H. specialize (H ltac:(lia) ltac:(lia)).
  destruct (df_run _ _ _ _) as [[h df]| | |], (t_run _ _ _); try exact H. cbn [sim] in H.
  split; [apply rep_shows; auto|eapply frame_free_ok; eauto].
Qed.
Print Assumptions C27_table_history.

(** C27: a setter that returns leaves its value in its cell and every other cell
    as it was. *)
Theorem C27_set_get : forall print_d os h df T o r c v h' df',
  (forall d, (length (print_d d) <= 255)%nat) ->
  history print_d os h df T -> stores o r c v -> dfop_ok o -> df_step print_d h df o = Ok (h', df') ->
  cell_value h' df' r c = Ok v /\
  (forall r' c', (r', c') <> (r, c) -> cell_value h' df' r' c' = cell_value h df r' c') /\
  n_rows df' = n_rows df /\ n_columns df' = n_columns df.
Proof.
  intros print_d os h df T o r c v h' df' Hp Hh Hst Ho E.
  destruct (history_rep print_d os h df T Hp Hh) as (HR & Hs1 & Hs2).
  pose proof (step_sim print_d Hp h df T o HR Ho ltac:(unfold small; lia) ltac:(unfold small; lia)) as Hs. rewrite E in Hs.
  destruct (t_step print_d T o) as [T'| | |] eqn:ET; try contradiction. cbn [sim] in Hs.
  apply rep_shows in HR, Hs.
  destruct (t_store print_d T o r c v T' Hst ET) as (Hc & Hr & Hl).
  { intros c0 ac Eac. destruct HR as (_ & _ & Hcols & _). specialize (Hcols c0). rewrite Eac in Hcols. apply Hcols. }
  split; [|split; [|split]].
  - rewrite (shows_cell h' df' T') by auto. rewrite Hc, !Z.eqb_refl. reflexivity.
  - intros r' c' Hne. rewrite (shows_cell h' df' T'), (shows_cell h df T) by auto. rewrite Hc.
    destruct (Z.eqb_spec r' r), (Z.eqb_spec c' c); cbn [andb]; auto. congruence.
  - destruct HR as (-> & _), Hs as (-> & _). rewrite Hr. reflexivity.
  - destruct HR as (_ & -> & _), Hs as (_ & -> & _). rewrite Hl. reflexivity.
Qed.
Print Assumptions C27_set_get.

(** Storing a cell's own string into it reads the string after freeing it. *)
Theorem C27_self_assign_refuted : forall print_d os h df T r c s,
  (forall d, (length (print_d d) <= 255)%nat) ->
  history print_d os h df T -> get_string h df r c = Ok s ->
  df_step print_d h df (DfSetStringFrom r c r c) = UB.
Proof.
  intros print_d os h df T r c s Hp Hh E.
  destruct (history_rep print_d os h df T Hp Hh) as (HR & Hs1 & Hs2).
  pose proof (step_sim print_d Hp h df T (DfSetStringFrom r c r c) HR I ltac:(unfold small; lia) ltac:(unfold small; lia)) as Hs.
  cbn [t_step] in Hs. pose proof (rep_shows _ _ _ HR) as (_ & _ & _ & _ & Hg & _). specialize (Hg r c). rewrite E in Hg.
  cbn [bind] in Hg. rewrite <- Hg in Hs. cbn [bind] in Hs. rewrite !Z.eqb_refl in Hs. cbn [andb] in Hs.
  destruct (df_step _ _ _ _) as [[? ?]| | |]; cbn [sim] in Hs; try contradiction. reflexivity.
Qed.
Print Assumptions C27_self_assign_refuted.

Definition demo_ops : list dfop :=
  [DfAddRow; DfAddColumn DSTRING [110%N]; DfAddColumn DINT [105%N]; DfAddColumn DFACTOR [102%N];
   DfAppendRow [VStr [97%N; 98%N]; VInt (-7); VStr [120%N]]; DfAddRow; DfSetString 0 0 [99%N];
   DfSetStringFrom 2 0 1 0; DfSetFactor 0 2 [121%N]; DfSetFactor 2 2 [120%N]; DfSetString 1 0 []; DfSetNa 1 1; DfSetInt 0 1 5].
Example C27_example :
  Forall dfop_ok demo_ops /\
  exists h df T, history (fun _ => []) demo_ops h df T /\
    trows T = 3%nat /\ map acells (tcols T) =
      [[Some (AStr [99%N]); Some (AStr []); Some (AStr [97%N; 98%N])];
       [Some (AInt 5); None; None];
       [Some (AStr [121%N]); Some (AStr [120%N]); Some (AStr [120%N])]] /\
    map alevels (tcols T) = [[]; []; [[120%N]; [121%N]]] /\
    get_int h df 1 1 = Fatal /\ get_int h df 0 0 = Fatal /\ get_string h df 2 0 = Ok [97%N; 98%N].
Proof.
  assert (Forall dfop_ok demo_ops) as Ho by (repeat constructor).
  split; [exact Ho|].
  eexists _, _, _. split.
  - split; [auto|]. split; [reflexivity|]. split; vm_compute; reflexivity.
  - vm_compute. repeat split.
Qed.

(** C30: turning any column into a factor keeps each cell's text and each NA;
    the levels are the distinct texts, in order of first occurrence; nothing
    else changes. *)
Theorem C30_make_factor : forall print_d os h df T c dc,
  (forall d, (length (print_d d) <= 255)%nat) ->
  history print_d os h df T -> column df c = Ok dc -> ctype dc <> DFACTOR ->
  exists h' df' dc' levels,
    df_step print_d h df (DfMakeFactor c) = Ok (h', df') /\
    column df' c = Ok dc' /\ ctype dc' = DFACTOR /\ clabel dc' = clabel dc /\
    n_rows df' = n_rows df /\ n_columns df' = n_columns df /\
    (forall r, cell_value h' df' r c =
       let* o := cell_value h df r c in Ok (option_map (fun v => AStr (value_text print_d v)) o)) /\
    (forall r c', c' <> c -> cell_value h' df' r c' = cell_value h df r c') /\
    n_factor_levels dc' = Z.of_nat (length levels) /\ NoDup levels /\
    (forall i s, nth_error levels i = Some s -> factor_level dc' (Z.of_nat i) = Ok s) /\
    (forall s, In s levels <-> exists r, get_factor h' df' r c = Ok s) /\
    (forall i j x y, (i < j)%nat -> nth_error levels i = Some x -> nth_error levels j = Some y ->
       exists r, get_factor h' df' r c = Ok x /\ forall r', r' < r -> get_factor h' df' r' c <> Ok y).
Proof.
  intros print_d os h df T c dc Hp Hh Edc Hty.
  destruct (history_rep print_d os h df T Hp Hh) as (HR & Hs1 & Hs2).
  pose proof (step_sim print_d Hp h df T (DfMakeFactor c) HR I ltac:(unfold small; lia) ltac:(unfold small; lia)) as Hs.
  pose proof (rep_shows _ _ _ HR) as HS. pose proof HS as (Hn & Hc & Hcols & _).
  unfold column in Edc. destruct (_ || _) eqn:Er; [discriminate|]. assert (0 <= c) as Hc0 by lia.
  destruct (nth_error (tcols T) (Z.to_nat c)) as [ac|] eqn:Eac.
  2:{ apply nth_error_None in Eac. lia. }
  pose proof (Hcols (Z.to_nat c)) as Hcc. rewrite Eac in Hcc. destruct Hcc as (Hlen & dc2 & Edc2 & Ety & Elab & _).
  rewrite Z2Nat.id in Edc2 by auto. unfold column in Edc2. rewrite Er in Edc2. rewrite Edc in Edc2. injection Edc2 as <-.
  assert (dctype_eqb (atype ac) DFACTOR = false) as Ef.
  { destruct (dctype_eqb _ _) eqn:E; auto. apply dctype_eqb_eq in E. congruence. }
  cbn [t_step] in Hs. unfold t_make_factor in Hs. replace (0 <=? c) with true in Hs by lia. rewrite Eac in Hs.
  set (T' := put_col T c (factor_column print_d ac)) in *.
  destruct (df_step print_d h df (DfMakeFactor c)) as [[h' df']| | |]; try contradiction. cbn [sim] in Hs.
  pose proof (rep_shows _ _ _ Hs) as HS'. pose proof HS' as (Hn' & Hc' & Hcols' & _ & _ & _ & _ & _ & Hget).
  assert (nth_error (tcols T') (Z.to_nat c) = Some (factor_column print_d ac)) as Eac' by (eapply nth_put_T; eauto).
  pose proof (Hcols' (Z.to_nat c)) as Hcc. rewrite Eac' in Hcc. destruct Hcc as (Hlen' & dc' & Edc' & Ety' & Elab' & Hlev).
  rewrite Z2Nat.id in Edc' by auto. unfold factor_column in *. rewrite Ef in *. cbn [atype alabel alevels acells] in *.
  destruct (Hlev eq_refl) as [Hnl Hli].
  exists h', df', dc', (distinct (texts print_d (acells ac))).
  split; [reflexivity|]. split; [auto|]. split; [auto|]. split; [congruence|].
  split; [rewrite Hn, Hn'; reflexivity|].
  split; [rewrite Hc, Hc'; unfold T'; cbn; rewrite lset_length; reflexivity|].
  assert (forall r c', t_col T' r c' = if c' =? c then let* _ := t_col T r c' in Ok (mkACol DFACTOR (alabel ac) (distinct (texts print_d (acells ac))) (fcells print_d (acells ac))) else t_col T r c') as Htc.
  { intros r c'. unfold T'. rewrite t_col_put by auto. unfold factor_column. rewrite ?Ef. reflexivity. }
  assert (forall r s, get_factor h' df' r c = Ok s <-> exists k v, r = Z.of_nat k /\ nth_error (acells ac) k = Some (Some v) /\ s = value_text print_d v) as Hgf.
  { intros r s. specialize (Hget r c). unfold t_get in Hget. rewrite Htc, Z.eqb_refl in Hget.
    destruct (t_col T r c) as [ac2| | |] eqn:Etc.
    - destruct (t_col_range _ _ _ _ Etc) as (Hr & _ & Eac2). rewrite Eac in Eac2. injection Eac2 as <-. cbn [bind atype dctype_eqb acells] in Hget.
      unfold fcells in Hget. rewrite nth_error_map in Hget.
      destruct (nth_error (acells ac) (Z.to_nat r)) as [[v|]|] eqn:Ev; cbn [option_map] in Hget.
      + destruct (get_factor h' df' r c) as [s'| | |]; cbn [bind] in Hget; try discriminate. injection Hget as ->.
        split.
        * intros [= <-]. exists (Z.to_nat r), v. split; [lia|auto].
        * intros (k & v' & -> & Ek & ->). rewrite Nat2Z.id in Ev. congruence.
      + destruct (get_factor h' df' r c) as [s'| | |]; cbn [bind] in Hget; try discriminate. split; [discriminate|].
        intros (k & v' & -> & Ek & ->). rewrite Nat2Z.id in Ev. congruence.
      + destruct (get_factor h' df' r c) as [s'| | |]; cbn [bind] in Hget; try discriminate. split; [discriminate|].
        intros (k & v' & -> & Ek & ->). rewrite Nat2Z.id in Ev. congruence.
    - cbn [bind] in Hget. destruct (get_factor h' df' r c) as [s'| | |]; cbn [bind] in Hget; try discriminate. split; [discriminate|].
      intros (k & v' & -> & Ek & ->). exfalso. assert (k < length (acells ac))%nat by (apply nth_error_Some; congruence).
      unfold t_col in Etc. replace (_ && _) with true in Etc by lia. rewrite Eac in Etc. discriminate.
    - unfold t_col in Etc. destruct (_ && _); [destruct (nth_error _ _)|]; discriminate.
    - unfold t_col in Etc. destruct (_ && _); [destruct (nth_error _ _)|]; discriminate. }
  split.
  { intros r. rewrite (shows_cell h' df' T'), (shows_cell h df T) by auto. unfold t_cell. rewrite Htc, Z.eqb_refl.
    destruct (t_col T r c) as [ac2| | |] eqn:Etc; auto. destruct (t_col_range _ _ _ _ Etc) as (Hr & _ & Eac2).
    rewrite Eac in Eac2. injection Eac2 as <-. cbn [bind acells]. unfold fcells. rewrite nth_error_map.
    destruct (nth_error (acells ac) _) as [[v|]|]; reflexivity. }
  split.
  { intros r c' Hne. rewrite (shows_cell h' df' T'), (shows_cell h df T) by auto. unfold t_cell. rewrite Htc.
    destruct (Z.eqb_spec c' c); [congruence|]. reflexivity. }
  split; [exact Hnl|]. split; [apply distinct_nodup|]. split; [exact Hli|].
  split.
  - intros s. rewrite distinct_in. unfold texts. rewrite in_map_iff. split.
    + intros (v & <- & Hv). apply present_in in Hv as (k & Hk). exists (Z.of_nat k). apply Hgf. eauto.
    + intros (r & Hr). apply Hgf in Hr as (k & v & _ & Hk & ->). exists v. split; auto. apply present_in. eauto.
  - intros i j x y Hij Ei Ej. destruct (distinct_order _ i j x y Hij Ei Ej) as (a & b & E & Hni).
    unfold texts in E. apply map_eq_app in E as (p1 & p2 & Ep & <- & E2). destruct p2 as [|v p2]; [discriminate|].
    cbn [map] in E2. injection E2 as <- <-. destruct (present_nth _ _ _ _ Ep) as (r & Hr & Hw).
    exists (Z.of_nat r). split; [apply Hgf; eauto|]. intros r' Hlt Hy. apply Hgf in Hy as (k & w & -> & Hk & ->).
    apply Hni. apply in_map. eapply Hw; eauto. lia.
Qed.
Print Assumptions C30_make_factor.

Example C30_example :
  let ops := [DfAddColumn DSTRING [110%N]; DfAppendRow [VStr [98%N]]; DfAddRow; DfAppendRow [VStr [97%N]]; DfAppendRow [VStr [98%N]]] in
  exists h df T dc, history (fun _ => []) ops h df T /\ column df 0 = Ok dc /\ ctype dc = DSTRING /\
    match df_step (fun _ => []) h df (DfMakeFactor 0) with
    | Ok (h', df') => map (fun r => cell_value h' df' r 0) [0; 1; 2; 3] =
        [Ok (Some (AStr [98%N])); Ok None; Ok (Some (AStr [97%N])); Ok (Some (AStr [98%N]))] /\
        match column df' 0 with Ok dc' => clevels dc' = [[98%N]; [97%N]] | _ => False end
    | _ => False
    end.
Proof.
  intros ops.
  eexists _, _, _, _. split; [|split].
  - split; [repeat constructor|]. split; [reflexivity|]. split; vm_compute; reflexivity.
  - vm_compute. reflexivity.
  - vm_compute. repeat split.
Qed.
