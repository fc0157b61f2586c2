(** C147: which messages are logged, and what a fatal error does. *)
From Coq Require Import Lia String Ascii.
From Verif Require Import Base BaseLemmas DfModel DsModel DsSpec LogModel LogSpec LogProofs.
Local Open Scope Z_scope.
Local Open Scope list_scope.

(** A message appears if and only if the verbosity set last allows its level; then it
    is one line.  On a terminal it is between a colour code, one per level, and a reset. *)
Theorem C147_messages : exists code : severity -> list N,
  (forall s, color_code (code s)) /\ (forall s s', code s = code s' -> s = s') /\
  forall tty stack us, ~ ended us -> forall s fn line tag msg,
  effects tty stack (us ++ [Message s fn line tag msg]) =
  effects tty stack us ++
  (if visible (verbosity_after us) s then [Wrote (painted tty (code s) (message_line (letter s) fn line tag msg) ++ [10%N])] else []).
Proof.
  exists (fun s => match s with Info => info_code | Normal => log_code | Warning => warning_code | Error => error_code end).
  split; [|split].
  - intros s. unfold color_code. destruct s;
      [exists (text "34;1")|exists (text "36")|exists (text "33")|exists (text "31;1")];
      (split; [reflexivity|]); cbn; repeat constructor; lia.
  - intros s s' E. destruct s, s'; try reflexivity; discriminate.
  - intros tty stack us Hn s fn line tag msg. rewrite effects_app_one by auto. f_equal. cbn [call_of log_step fst].
    unfold log_formatted. cbn [verb]. rewrite visible_code. destruct (visible _ s); [|reflexivity].
    unfold painted, message_line, header. do 2 f_equal.
    destruct s, tty; cbn [severity_code letter]; rewrite ?app_nil_l, <- ?app_assoc; reflexivity.
Qed.
Print Assumptions C147_messages.

(** Settings write nothing and hold until the next setting: whatever messages come
    between, the settings in force are those made last, at the start the default
    verbosity and no handler. *)
Theorem C147_settings : forall tty stack us, ~ ended us ->
  (forall v, effects tty stack (us ++ [SetVerbosity v]) = effects tty stack us /\ verbosity_after (us ++ [SetVerbosity v]) = v /\
     handler_after (us ++ [SetVerbosity v]) = handler_after us) /\
  (forall h, effects tty stack (us ++ [SetHandler h]) = effects tty stack us /\ handler_after (us ++ [SetHandler h]) = h /\
     verbosity_after (us ++ [SetHandler h]) = verbosity_after us) /\
  effects tty stack [] = [] /\ verbosity_after [] = Default /\ handler_after [] = None.
Proof.
  intros tty stack us Hn. split; [|split; [|auto]].
  - intros v. rewrite effects_app_one by auto. cbn [call_of log_step fst]. rewrite app_nil_r. unfold verbosity_after, handler_after.
    rewrite !flat_map_app. cbn [flat_map]. rewrite !app_nil_r, last_snoc. auto.
  - intros h. rewrite effects_app_one by auto. cbn [call_of log_step fst]. rewrite app_nil_r. unfold verbosity_after, handler_after.
    rewrite !flat_map_app. cbn [flat_map]. rewrite !app_nil_r, last_snoc. auto.
Qed.
Print Assumptions C147_settings.

(** A fatal error is never suppressed.  It goes to the handler set last, with its
    message.  Without a handler its line and the call stack are written and the
    program exits with a code other than 0; nothing happens after that. *)
Theorem C147_fatal : exists (code : list N) (exit_code : Z), color_code code /\ exit_code mod 256 <> 0 /\
  forall tty stack us, ~ ended us -> forall fn line tag msg,
  match handler_after us with
  | Some h => effects tty stack (us ++ [FatalMessage fn line tag msg]) = effects tty stack us ++ [Handled h fn line tag msg]
  | None => exists calls, forall us',
    effects tty stack (us ++ FatalMessage fn line tag msg :: us') =
    effects tty stack us ++ [Wrote (painted tty code (message_line (text "F") fn line tag msg) ++ [10%N] ++ calls); Exited exit_code]
  end.
Proof.
  exists fatal_code, (-99). split; [|split].
  - exists (text "35;1"). split; [reflexivity|]. cbn. repeat constructor; lia.
  - intros H. vm_compute in H. discriminate.
  - intros tty stack us Hn fn line tag msg. destruct (handler_after us) as [h|] eqn:Eh.
    + rewrite effects_app_one by auto. rewrite Eh. reflexivity.
    + exists (print_stack stack). intros us'.
      assert (forall vs, effects tty stack ((us ++ [FatalMessage fn line tag msg]) ++ vs) = effects tty stack (us ++ [FatalMessage fn line tag msg])) as Hend.
      { intros vs. unfold effects. rewrite (map_app _ (us ++ _)), log_run_app.
        destruct (run_state tty stack (us ++ [FatalMessage fn line tag msg])) as [[Hc _]|[_ E]].
        - exfalso. apply Hc. exists us, fn, line, tag, msg, []. auto.
        - rewrite E. reflexivity. }
      specialize (Hend us'). rewrite <- app_assoc in Hend. cbn [app] in Hend. rewrite Hend, effects_app_one by auto. rewrite Eh.
      cbn [call_of log_step fst fatal]. unfold default_fatal, painted, message_line, header. do 3 f_equal.
      destruct tty; rewrite ?app_nil_l, <- ?app_assoc; reflexivity.
Qed.
Print Assumptions C147_fatal.

(** Errors appear under every verbosity, also under Silent. *)
Theorem C147_errors : forall stack us, ~ ended us -> forall fn line tag msg,
  effects false stack (us ++ [Message Error fn line tag msg]) =
  effects false stack us ++ [Wrote (message_line (text "E") fn line tag msg ++ [10%N])].
Proof.
  intros stack us Hn fn line tag msg. destruct C147_messages as (code & _ & _ & H). rewrite H by auto.
  replace (visible (verbosity_after us) Error) with true by (destruct (verbosity_after us); reflexivity). reflexivity.
Qed.
Print Assumptions C147_errors.

Example C147_example :
  let us := [Message Info (text "f") 3 (text "NX") (text "a"); SetVerbosity Informative; Message Info (text "f") 4 (text "NX") (text "b");
             SetVerbosity Silent; Message Warning (text "f") 5 (text "NX") (text "c"); SetHandler (Some 7%nat);
             FatalMessage (text "f") 6 (text "NX") (text "d"); Message Error (text "f") 12 (text "NX") (text "e")] in
  ~ ended us /\
  effects false [] us =
  [Wrote (text "[I][NX][f:4] b" ++ [10%N]); Handled 7 (text "f") 6 (text "NX") (text "d"); Wrote (text "[E][NX][f:12] e" ++ [10%N])].
Proof.
  intros us. split; [|vm_compute; reflexivity].
  destruct (run_state false [] us) as [[H _]|[_ E]]; [exact H|]. vm_compute in E. discriminate.
Qed.
