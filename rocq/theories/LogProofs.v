(** Proofs about log messages. *)
From Coq Require Import Lia String Ascii.
From Verif Require Import Base BaseLemmas DfModel DsModel DsSpec LogModel LogSpec.
Local Open Scope Z_scope.
Local Open Scope list_scope.

Lemma log_run_app tty stack cs1 : forall s cs2,
  log_run tty stack s (cs1 ++ cs2) =
  match snd (log_run tty stack s cs1) with
  | None => log_run tty stack s cs1
  | Some s' => (fst (log_run tty stack s cs1) ++ fst (log_run tty stack s' cs2), snd (log_run tty stack s' cs2))
  end.
Proof.
  induction cs1 as [|c cs1 IH]; intros s cs2; cbn [log_run app].
  - cbn [fst snd]. rewrite app_nil_l. apply surjective_pairing.
  - destruct (log_step tty stack s c) as [e o]. destruct o as [s'|]; [|reflexivity].
    rewrite IH. destruct (log_run tty stack s' cs1) as [e1 o1]. cbn [fst snd]. destruct o1 as [s1|]; [|reflexivity].
    cbn [fst snd]. rewrite app_assoc. reflexivity.
Qed.

Lemma last_snoc {A} (l : list A) x d : last (l ++ [x]) d = x.
Proof. induction l as [|a l IH]; [reflexivity|]. cbn [app last]. destruct (l ++ [x]) eqn:E; [destruct l; discriminate|]. exact IH. Qed.

(** The state after a history that goes on. *)
Lemma run_state tty stack us :
  (~ ended us /\ snd (log_run tty stack log_start (map call_of us)) = Some (mkL (verbosity_code (verbosity_after us)) (handler_after us))) \/
  (ended us /\ snd (log_run tty stack log_start (map call_of us)) = None).
Proof.
  induction us as [|u us IH] using rev_ind.
  - left. split; [|reflexivity]. intros (b & fn & line & tag & msg & a & E & _). destruct b; discriminate.
  - rewrite map_app, log_run_app. cbn [map].
    destruct IH as [[Hn E]|[He E]]; rewrite E; cbn [snd].
    + assert (ended (us ++ [u]) -> exists fn line tag msg, u = FatalMessage fn line tag msg /\ handler_after us = None) as Hlast.
      { intros (b & fn & line & tag & msg & a & Eq & Hh). destruct a as [|x a] using rev_ind.
        - apply app_inj_tail in Eq. destruct Eq as [-> ->]. eauto 6.
        - exfalso. apply Hn. clear IHa. change (b ++ FatalMessage fn line tag msg :: a ++ [x]) with (b ++ (FatalMessage fn line tag msg :: a) ++ [x]) in Eq.
          rewrite app_assoc in Eq. apply app_inj_tail in Eq. destruct Eq as [-> _]. exists b, fn, line, tag, msg, a. auto. }
      unfold verbosity_after, handler_after. rewrite !flat_map_app. cbn [flat_map log_run]. rewrite ?app_nil_r.
      destruct u as [v|h|sv fn line tag msg|fn line tag msg]; cbn [call_of log_step fst snd]; rewrite ?app_nil_r, ?last_snoc.
      * left. split; [|reflexivity]. intros H. destruct (Hlast H) as (? & ? & ? & ? & D & _). discriminate.
      * left. split; [|destruct h; reflexivity]. intros H. destruct (Hlast H) as (? & ? & ? & ? & D & _). discriminate.
      * left. split; [|reflexivity]. intros H. destruct (Hlast H) as (? & ? & ? & ? & D & _). discriminate.
      * cbn [fatal]. destruct (handler_after us) as [h|] eqn:Eh.
        -- left. unfold handler_after in Eh. rewrite Eh. cbn [snd]. split; [|reflexivity]. intros H. destruct (Hlast H) as (? & ? & ? & ? & _ & D). discriminate.
        -- right. split; [exists us, fn, line, tag, msg, []; auto|]. unfold handler_after in Eh. rewrite Eh. reflexivity.
    + right. split.
      * destruct He as (b & fn & line & tag & msg & a & -> & Hh). exists b, fn, line, tag, msg, (a ++ [u]). split; auto. rewrite <- app_assoc. reflexivity.
      * exact E.
Qed.

Lemma effects_app_one tty stack us u : ~ ended us ->
  effects tty stack (us ++ [u]) =
  effects tty stack us ++ fst (log_step tty stack (mkL (verbosity_code (verbosity_after us)) (handler_after us)) (call_of u)).
Proof.
  intros Hn. unfold effects. rewrite map_app, log_run_app. destruct (run_state tty stack us) as [[_ E]|[He _]]; [|tauto].
  rewrite E. cbn [fst map log_run]. f_equal. destruct (log_step _ _ _ _) as [e [s'|]]; cbn [fst]; rewrite ?app_nil_r; reflexivity.
Qed.

Lemma visible_code v s : (verbosity_code v <=? severity_code s) = visible v s.
Proof. destruct v, s; reflexivity. Qed.
