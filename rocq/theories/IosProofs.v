(** Proofs about streams. *)
From Coq Require Import Lia.
From Verif Require Import Base IosModel.
Local Open Scope nat_scope.

Definition prefix_of (a b : list N) : Prop := exists r, b = a ++ r.
Lemma prefix_refl a : prefix_of a a.
Proof. exists []. rewrite app_nil_r. reflexivity. Qed.
Lemma prefix_app a b c : prefix_of a b -> prefix_of a (b ++ c).
Proof. intros (r & ->). exists (r ++ c). rewrite app_assoc. reflexivity. Qed.

(** While there is no error the file and the buffer are the data; after an error the
    file is still a prefix of them, and the device is full. *)
Definition stream_inv (s : ostr) (data : list N) : Prop :=
  if oerr s then prefix_of (ofile s) data /\ oroom s = 0 else data = ofile s ++ obuf s.

Lemma flush_inv s data : stream_inv s data -> stream_inv (fst (stdio_flush s)) data.
Proof.
  unfold stream_inv, stdio_flush. cbn [fst ofile obuf oroom oerr].
  destruct (oerr s) eqn:Ee; cbn [orb].
  - intros [Hp ->]. rewrite Nat.min_0_r. cbn [firstn]. rewrite app_nil_r. split; auto.
  - intros ->. destruct (Nat.eqb_spec (Nat.min (length (obuf s)) (oroom s)) (length (obuf s))) as [E|E]; cbn [negb].
    + rewrite E, firstn_all, app_nil_r. reflexivity.
    + split; [|lia]. exists (skipn (Nat.min (length (obuf s)) (oroom s)) (obuf s)). rewrite <- app_assoc, firstn_skipn. reflexivity.
Qed.
Lemma fwrite_inv cap s data p : stream_inv s data -> stream_inv (fst (stdio_fwrite cap s p)) (data ++ p).
Proof.
  intros H. unfold stdio_fwrite. set (s' := mkO _ _ _ _).
  assert (stream_inv s' (data ++ p)) as H'.
  { unfold stream_inv, s' in *. cbn [ofile obuf oroom oerr]. destruct (oerr s); [destruct H; split; auto; apply prefix_app; auto|].
    rewrite H, app_assoc. reflexivity. }
  destruct (_ <=? cap); [exact H'|]. apply flush_inv. exact H'.
Qed.
Lemma fwrites_inv cap ps : forall s data, stream_inv s data -> stream_inv (fwrites cap s ps) (data ++ concat ps).
Proof.
  induction ps as [|p ps IH]; intros s data H; cbn [fwrites concat]; [rewrite app_nil_r; auto|].
  rewrite app_assoc. apply IH. apply fwrite_inv; auto.
Qed.
(** A checked write that returns has caused no error. *)
Lemma fwrite_ok cap s p s' : stdio_fwrite cap s p = (s', true) -> oerr s' = oerr s.
Proof.
  unfold stdio_fwrite. cbn [obuf]. destruct (_ <=? cap); [intros E; injection E as <-; reflexivity|].
  unfold stdio_flush. cbn [ofile obuf oroom oerr]. intros E. injection E as <- E. rewrite E. cbn. destruct (oerr s); reflexivity.
Qed.
Lemma xwrites_inv cap ps : forall s data s' e, stream_inv s data -> xwrites cap s ps = (s', e) ->
  match e with
  | Returned => stream_inv s' (data ++ concat ps) /\ oerr s' = oerr s
  | Died => exists qs rs, ps = qs ++ rs /\ stream_inv s' (data ++ concat qs)
  end.
Proof.
  induction ps as [|p ps IH]; intros s data s' e H E; cbn [xwrites] in E.
  - injection E as <- <-. cbn. rewrite app_nil_r. auto.
  - unfold xfwrite in E. pose proof (fwrite_inv cap s data p H) as Hw. destruct (stdio_fwrite cap s p) as [s1 ok] eqn:E1. cbn [fst] in Hw.
    destruct ok; cbn [negb] in E.
    + specialize (IH s1 (data ++ p) s' e Hw E). apply fwrite_ok in E1. destruct e.
      * cbn [concat]. rewrite app_assoc. destruct IH as [IH1 IH2]. split; auto. congruence.
      * destruct IH as (qs & rs & -> & IH). exists (p :: qs), rs. split; auto. cbn [concat]. rewrite app_assoc. exact IH.
    + injection E as <- <-. exists [p], ps. split; auto. cbn [concat]. rewrite app_nil_r. exact Hw.
Qed.
