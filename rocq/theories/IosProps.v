(** C149: what has reached a file; C150: directories. *)
From Coq Require Import Lia.
From Verif Require Import Base IosModel IosProofs.
Local Open Scope nat_scope.

(** Whenever the program stops (after any of its writes, with or without a failure, or
    after closing), the file holds a prefix of what was written so far. *)
Theorem C149_prefix : forall cap room ps s e, xwrites cap (opened room) ps = (s, e) ->
  (exists more, concat ps = ofile s ++ more) /\ (exists more, concat ps = ofile (fst (xfclose s)) ++ more).
Proof.
  intros cap room ps s e E. assert (stream_inv (opened room) []) as H0 by reflexivity.
  pose proof (xwrites_inv cap ps (opened room) [] s e H0 E) as H. cbn [app] in H.
  assert (exists data, prefix_of data (concat ps) /\ stream_inv s data) as (data & Hp & Hs).
  { destruct e.
    - destruct H as [H _]. exists (concat ps). split; [apply prefix_refl|auto].
    - destruct H as (qs & rs & -> & H). exists (concat qs). split; auto. exists (concat rs). apply concat_app. }
  assert (forall s', stream_inv s' data -> exists more, concat ps = ofile s' ++ more) as Hf.
  { intros s' Hs'. destruct Hp as (r & Er). unfold stream_inv in Hs'. destruct (oerr s').
    - destruct Hs' as [(r' & Ed) _]. exists (r' ++ r). rewrite Er, Ed, app_assoc. reflexivity.
    - exists (obuf s' ++ r). rewrite Er, Hs', app_assoc. reflexivity. }
  split; [apply Hf; auto|]. apply Hf. unfold xfclose. pose proof (flush_inv s data Hs) as H1. destruct (stdio_flush s) as [s1 ok]. destruct (oerr s); exact H1.
Qed.
Print Assumptions C149_prefix.

(** If all writes and the closing return, and the device takes what is still in the
    buffer when the stream is closed, then all data are in the file, in order. *)
Theorem C149_complete_partial : forall cap room ps s s', xwrites cap (opened room) ps = (s, Returned) -> xfclose s = (s', Returned) ->
  length (obuf s) <= oroom s -> ofile s' = concat ps.
Proof.
  intros cap room ps s s' E Ec Hl. destruct (xwrites_inv cap ps (opened room) [] s Returned eq_refl E) as [H He]. cbn [app] in H.
  unfold stream_inv in H. rewrite He in H. cbn in H. unfold xfclose, stdio_flush in Ec. rewrite He in Ec. cbn in Ec. injection Ec as <-. cbn [ofile].
  rewrite Nat.min_l by auto. rewrite firstn_all. auto.
Qed.
Print Assumptions C149_complete_partial.

(** Without that condition data are lost unnoticed: on a full device every write that
    fits the buffer returns, so does closing, and the file is empty. *)
Theorem C149_complete_refuted : forall cap data, length data <= cap -> exists s s',
  xwrites cap (opened 0) [data] = (s, Returned) /\ xfclose s = (s', Returned) /\ snd (nx_fclose s) = true /\ ofile s' = [].
Proof.
  intros cap data H. cbn. unfold xfwrite, stdio_fwrite. cbn. apply Nat.leb_le in H. rewrite H. cbn.
  eexists. eexists. split; [reflexivity|]. unfold xfclose, nx_fclose, stdio_flush. cbn. rewrite Nat.min_0_r. auto.
Qed.
Print Assumptions C149_complete_refuted.

(** Errors of earlier writes are not forgotten: also if no write was checked, closing
    reports them, and otherwise all but what was in the buffer had reached the file. *)
Theorem C149_closing : forall cap room ps, let s := fwrites cap (opened room) ps in
  (snd (xfclose s) = Returned <-> snd (nx_fclose s) = true) /\
  (snd (xfclose s) = Returned -> concat ps = ofile s ++ obuf s) /\
  (snd (xfclose s) = Died -> oroom s = 0).
Proof.
  intros cap room ps s. pose proof (fwrites_inv cap ps (opened room) [] eq_refl) as H. fold s in H. cbn [app] in H.
  unfold stream_inv in H. unfold xfclose, nx_fclose. destruct (stdio_flush s) as [s1 ok]. destruct (oerr s); cbn [snd].
  - split; [split; discriminate|]. split; [discriminate|]. intros _. apply H.
  - split; [split; reflexivity|]. split; [auto|discriminate].
Qed.
Print Assumptions C149_closing.

Example C149_example : exists s s',
  xwrites 4 (opened 9) [[1; 2]%N; [3; 4; 5]%N; [6; 7]%N] = (s, Returned) /\ obuf s = [6; 7]%N /\ xfclose s = (s', Returned) /\
  ofile s' = [1; 2; 3; 4; 5; 6; 7]%N /\ snd (xwrites 4 (opened 3) [[1; 2]%N; [3; 4; 5]%N]) = Died.
Proof. eexists. eexists. repeat split. Qed.

(** Ensuring a directory: whatever other programs do meanwhile, if it returns there is
    a directory at that path, and nothing else has been changed.  It is made only if
    there was nothing. *)
Theorem C150_ensure : forall can env f p f', ensure_dir can env f p = (f', Returned) ->
  (exists r, f' p = Some (NDir r)) /\
  ((exists r, f p = Some (NDir r)) /\ f' = f \/ env f p = None /\ forall q, q <> p -> f' q = env f q).
Proof.
  intros can env f p f' E. unfold ensure_dir, check_dir, opendir_ok in E.
  assert (match mkdir can (env f) p with None => (env f, Died) | Some f1 => (f1, Returned) end = (f', Returned) ->
          (exists r, f' p = Some (NDir r)) /\ (env f p = None /\ forall q, q <> p -> f' q = env f q)) as Hm.
  { unfold mkdir. destruct (env f p) eqn:Ep; [discriminate|]. destruct (can p); [|discriminate]. intros H. injection H as <-.
    destruct (list_eq_dec N.eq_dec p p); [|contradiction]. split; [eauto|]. split; auto. intros q Hq. destruct (list_eq_dec N.eq_dec q p); [contradiction|reflexivity]. }
  destruct (f p) as [[[]|r]|] eqn:Ep.
  - injection E as <-. split; [eauto|]. left. eauto.
  - destruct (Hm E). split; auto.
  - destruct (Hm E). split; auto.
  - destruct (Hm E). split; auto.
Qed.
Print Assumptions C150_ensure.

(** If nobody interferes it returns when the directory exists and can be listed, or
    when there is nothing and it can be made. *)
Theorem C150_returns_partial : forall can f p,
  (f p = Some (NDir true) \/ f p = None /\ can p = true) -> snd (ensure_dir can (fun g => g) f p) = Returned.
Proof.
  intros can f p H. unfold ensure_dir, check_dir, opendir_ok, mkdir. destruct H as [->|[-> Hc]]; [reflexivity|]. rewrite Hc. reflexivity.
Qed.
Print Assumptions C150_returns_partial.

(** It can die although the directory is there: two programs ensure it at the same
    time, or it cannot be listed. *)
Theorem C150_returns_refuted : forall can p,
  (exists f env, (forall g q, q <> p -> env g q = g q) /\ fst (ensure_dir can env f p) p = Some (NDir true) /\ snd (ensure_dir can env f p) = Died) /\
  (exists f, f p = Some (NDir false) /\ snd (ensure_dir can (fun g => g) f p) = Died).
Proof.
  intros can p. split.
  - exists (fun _ => None), (fun g q => if list_eq_dec N.eq_dec q p then Some (NDir true) else g q).
    split; [intros g q Hq; destruct (list_eq_dec N.eq_dec q p); [contradiction|reflexivity]|].
    unfold ensure_dir, check_dir, opendir_ok, mkdir. destruct (list_eq_dec N.eq_dec p p); [|contradiction]. cbn.
    destruct (list_eq_dec N.eq_dec p p); [|contradiction]. auto.
  - exists (fun _ => Some (NDir false)). auto.
Qed.
Print Assumptions C150_returns_refuted.

(** The check of a directory: true exactly for directories that can be listed.  The
    check of a file is true for readable files, but for directories too. *)
Theorem C150_checks : forall f p,
  (check_dir f p = true <-> f p = Some (NDir true)) /\
  (f p = Some (NFile true) -> check_file f p = true) /\ (f p = None -> check_file f p = false).
Proof.
  intros f p. unfold check_dir, check_file, opendir_ok, fopen_rb_ok. split; [|split; intros ->; reflexivity].
  destruct (f p) as [[[]|[]]|]; split; congruence.
Qed.
Print Assumptions C150_checks.
Theorem C150_file_refuted : exists f p, f p = Some (NDir true) /\ check_file f p = true.
Proof. exists (fun _ => Some (NDir true)), []. auto. Qed.
Print Assumptions C150_file_refuted.

Example C150_example : ensure_dir (fun _ => true) (fun g => g) (fun _ => None) [97%N] = (fst (ensure_dir (fun _ => true) (fun g => g) (fun _ => None) [97%N]), Returned) /\
  check_dir (fst (ensure_dir (fun _ => true) (fun g => g) (fun _ => None) [97%N])) [97%N] = true.
Proof. split; reflexivity. Qed.
