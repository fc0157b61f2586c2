(** Properties C12, C16, C17 and C18. *)
From Verif Require Import Base BaseLemmas Bytes Heap StrModel StrSpec StrArrModel StrArrSpec StrArrProofs.
Local Open Scope Z_scope.

(** C12: NX_ENSURE_CAPACITY. *)
Theorem C12_ensure_capacity : forall cap req,
  0 <= cap <= INT_MAX -> req <= INT_MAX -> (cap + 8) * 3 <= INT_MAX \/ req <= cap ->
  exists c, ensure_capacity cap req = Ok c /\ req <= c /\ cap <= c <= INT_MAX /\
            (req <= cap -> c = cap) /\ (cap < req -> cap * 3 <= c * 2).
Proof. exact ensure_capacity_spec. Qed.
Print Assumptions C12_ensure_capacity.

(** Beyond that range the growth computation overflows int. *)
Theorem C12_ensure_capacity_large_refuted : forall cap req,
  0 <= cap -> cap < req -> INT_MAX < (cap + 8) * 3 -> ensure_capacity cap req = UB.
Proof.
  intros cap req H0 H1 H2. unfold ensure_capacity. replace (cap <? req) with true by lia.
  unfold chk_int, in_int, INT_MIN, INT_MAX in *.
  destruct (_ && _) eqn:E1; cbn [bind]; [|reflexivity].
  clear E1. destruct (_ && _) eqn:E2; cbn [bind]; [exfalso; lia|reflexivity].
Qed.
Print Assumptions C12_ensure_capacity_large_refuted.

Example C12_example : ensure_capacity 2 3 = Ok 15 /\ ensure_capacity 2 100 = Ok 100 /\
  ensure_capacity 800000000 800000001 = UB.
Proof. vm_compute. auto. Qed.

(** C16: any history of operations within the contract agrees with the list of
    optional strings, returns what the list model returns, and leaves only the
    strings of the array allocated: freeing it leaves no live block. *)
Theorem C16_string_array_history : forall junk ops l outs,
  Forall op_ok ops -> Z.of_nat (length ops) <= 2 ^ 28 ->
  sa_spec_run [] ops = Some (l, outs) ->
  exists h sa,
    sa_run junk [] nx_string_array_alloc ops = Ok (h, sa, outs) /\
    size sa = length l /\ (size sa <= length (elems sa))%nat /\
    sa_run junk h sa (map SaGet (seq 0 (length l))) = Ok (h, sa, map OutStr l) /\
    exists h', nx_string_array_free h sa = Ok h' /\ forall p, cell h' p = None.
Proof.
  intros junk ops l outs HF Hlen Hsp.
  destruct (run_spec junk ops [] nx_string_array_alloc [] l outs 0) as (h & sa & E & Hi & Hc); auto; try lia.
  - apply inv_init. intros [|p]; reflexivity.
  - unfold cap_ok. cbn. unfold INT_MAX. lia.
  - cbn. lia.
  - exists h, sa. split; [exact E|]. split; [apply (inv_size _ _ _ Hi)|]. split.
    + destruct Hi as (act & spare & -> & -> & _). rewrite app_length. lia.
    + split; [apply (gets_spec junk h sa l Hi 0); reflexivity|]. apply (free_spec h sa l Hi).
Qed.
Print Assumptions C16_string_array_history.

Example C16_example :
  let ops := [SaAppend (Some [97%N]); SaAppendf [98%N; 99%N]; SaResize 5; SaSetElem 3 1; SaAppendElem 0;
              SaResize 2; SaSet 1 (Some [100%N]); SaAppend None; SaResize 2; SaFind [100%N]; SaFind [101%N]; SaGet 0] in
  Forall op_ok ops /\
  sa_spec_run [] ops = Some ([Some [97%N]; Some [100%N]],
     [OutInt 0; OutInt 1; OutNone; OutNone; OutInt 5; OutNone; OutNone; OutInt 2; OutNone; OutInt 1; OutInt (-1); OutStr (Some [97%N])]).
Proof.
  split; [|vm_compute; reflexivity].
  repeat constructor; cbn; unfold INT_MAX; try lia; try discriminate.
Qed.

(** C17: writing an array of non-NULL strings and reading it back, into any
    array with any history of its own. *)
Theorem C17_string_array_round_trip : forall junk ops1 h1 sa1 outs1 ls ops2 h2 sa2 outs2 l2 rest,
  Forall op_ok ops1 -> Z.of_nat (length ops1) <= 2 ^ 28 ->
  sa_spec_run [] ops1 = Some (map Some ls, outs1) -> sa_run junk [] nx_string_array_alloc ops1 = Ok (h1, sa1, outs1) ->
  Forall op_ok ops2 -> Z.of_nat (length ops2) <= 2 ^ 28 ->
  sa_spec_run [] ops2 = Some (l2, outs2) -> sa_run junk [] nx_string_array_alloc ops2 = Ok (h2, sa2, outs2) ->
  Z.of_nat (length ls) <= 2 ^ 29 -> Z.of_nat (length l2) <= 2 ^ 29 ->
  Forall (fun s => (N.of_nat (length s) + 1 < 2 ^ 64)%N) ls ->
  exists img, nx_string_array_write h1 sa1 = Ok img /\
    (exists h sa, nx_string_array_read junk h2 sa2 (img ++ rest) = Ok (0, h, sa, rest) /\
       size sa = length ls /\
       sa_run junk h sa (map SaGet (seq 0 (length ls))) = Ok (h, sa, map (fun s => OutStr (Some s)) ls)) /\
    (forall k, (k < length img)%nat ->
       exists h sa st, nx_string_array_read junk h2 sa2 (firstn k img) = Ok (-1, h, sa, st)).
Proof.
  intros junk ops1 h1 sa1 outs1 ls ops2 h2 sa2 outs2 l2 rest HF1 Hn1 Hs1 Hr1 HF2 Hn2 Hs2 Hr2 Hl1 Hl2 Hbig.
  assert (forall ops l outs h sa, Forall op_ok ops -> Z.of_nat (length ops) <= 2 ^ 28 ->
    sa_spec_run [] ops = Some (l, outs) -> sa_run junk [] nx_string_array_alloc ops = Ok (h, sa, outs) ->
    inv h sa l /\ cap_ok sa) as Hreach.
  { intros ops l outs h sa HF Hn Hs Hr.
    destruct (run_spec junk ops [] nx_string_array_alloc [] l outs 0) as (h' & sa' & E & Hi & Hc); auto; try lia.
    - apply inv_init. intros [|p]; reflexivity.
    - unfold cap_ok. cbn. unfold INT_MAX. lia.
    - cbn. lia.
    - rewrite Hr in E. injection E as <- <-. auto. }
  destruct (Hreach ops1 _ _ _ _ HF1 Hn1 Hs1 Hr1) as [Hi1 Hc1].
  destruct (Hreach ops2 _ _ _ _ HF2 Hn2 Hs2 Hr2) as [Hi2 Hc2].
  assert (Forall big_ok ls) as Hb.
  { destruct Hi1 as (act & spare & _ & _ & HR & _). clear -HR Hbig. revert act HR.
    induction Hbig as [|s ls Hs Hbig IH]; intros act HR; constructor.
    - cbn [map] in HR. inversion HR as [|sl e act' l' Hsl HR']; subst. split; [|exact Hs].
      destruct sl as [[p|]|]; try contradiction Hsl. destruct Hsl as (t & _ & Hok). exact Hok.
    - cbn [map] in HR. inversion HR; subst. eapply IH; eauto. }
  exists (sa_image ls). split; [apply write_spec; auto|]. split.
  - destruct (read_spec junk h2 sa2 l2 ls rest Hi2 Hc2 Hl2 Hl1 Hb) as (h & sa & E & Hi & Hc).
    exists h, sa. split; [exact E|]. pose proof (inv_size _ _ _ Hi) as Hsz. rewrite map_length in Hsz. split; [auto|].
    pose proof (gets_spec junk h sa _ Hi 0%nat (length ls)) as Hg. rewrite map_length in Hg. rewrite Hg by reflexivity.
    cbn [skipn]. rewrite map_map. reflexivity.
  - intros k Hk. apply (read_truncated junk h2 sa2 l2 ls k); auto.
Qed.
Print Assumptions C17_string_array_round_trip.

Example C17_example :
  let j := fun _ : nat => 7%N in
  (let* r := sa_run j [] nx_string_array_alloc [SaAppend (Some [97%N]); SaAppend (Some [])] in
   let '(h, sa, _) := r in
   let* img := nx_string_array_write h sa in
   let* r := nx_string_array_read j [] nx_string_array_alloc (img ++ [5%N]) in
   let '(ret, h', sa', st) := r in
   let* r := sa_run j h' sa' [SaFind []; SaGet 0; SaGet 1] in
   let '(_, _, outs) := r in
   Ok (ret, st, outs)) = Ok (0, [5%N], [OutInt 1; OutStr (Some [97%N]); OutStr (Some [])]).
Proof. vm_compute. reflexivity. Qed.

(** C18: assigning one element to another works for different elements
    (C16_string_array_history, operation SaSetElem with i <> j); what is
    missing is i = j, which reads the string after freeing it. *)
Theorem C18_set_other_element_partial : forall junk ops l outs i j e,
  Forall op_ok ops -> Z.of_nat (length ops) < 2 ^ 28 ->
  sa_spec_run [] ops = Some (l, outs) ->
  (i < length l)%nat -> nth_error l j = Some e -> i <> j ->
  exists h sa,
    sa_run junk [] nx_string_array_alloc (ops ++ [SaSetElem i j]) = Ok (h, sa, outs ++ [OutNone]) /\
    sa_run junk h sa (map SaGet (seq 0 (length l))) = Ok (h, sa, map OutStr (firstn i l ++ e :: skipn (S i) l)).
Proof.
  intros junk ops l outs i j e HF Hn Hs Hi Hj Hne.
  destruct (C16_string_array_history junk (ops ++ [SaSetElem i j]) (put l i e) (outs ++ [OutNone])) as (h & sa & E & _ & _ & Hg & _).
  - apply Forall_app. split; [auto|]. repeat constructor.
  - rewrite app_length. cbn [length]. lia.
  - revert Hs. generalize (@nil (option (list N))). intros l0 Hs. revert l0 outs Hs. clear HF Hn.
    induction ops as [|o ops IH]; intros l0 outs Hs; cbn [app sa_spec_run] in *.
    + injection Hs as -> <-. cbn [sa_spec]. rewrite Hj.
      replace ((i <? length l)%nat && negb (i =? j)%nat) with true by lia. reflexivity.
    + destruct (sa_spec l0 o) as [[l1 x]|]; [|discriminate].
      destruct (sa_spec_run l1 ops) as [[l2 xs]|] eqn:E; [|discriminate]. injection Hs as -> <-.
      rewrite (IH _ _ E). reflexivity.
  - exists h, sa. split; [exact E|]. rewrite put_length in Hg by auto. exact Hg.
Qed.
Print Assumptions C18_set_other_element_partial.

Theorem C18_set_same_element_refuted : forall junk ops l outs h sa i s,
  Forall op_ok ops -> Z.of_nat (length ops) <= 2 ^ 28 -> sa_spec_run [] ops = Some (l, outs) ->
  sa_run junk [] nx_string_array_alloc ops = Ok (h, sa, outs) ->
  nth_error l i = Some (Some s) ->
  (let* p := nx_string_array_get sa (Z.of_nat i) in nx_string_array_set h sa (Z.of_nat i) (ptr p)) = UB.
Proof.
  intros junk ops l outs h sa i s HF Hn Hs Hr Hi.
  destruct (run_spec junk ops [] nx_string_array_alloc [] l outs 0) as (h' & sa' & E & Hinv & Hc); auto; try lia.
  - apply inv_init. intros [|p]; reflexivity.
  - unfold cap_ok. cbn. unfold INT_MAX. lia.
  - cbn. lia.
  - rewrite Hr in E. injection E as <- <-. eapply self_set_ub; eauto.
Qed.
Print Assumptions C18_set_same_element_refuted.

Example C18_example :
  match sa_run (fun _ => 7%N) [] nx_string_array_alloc [SaAppend (Some [97%N]); SaSetElem 0 0] with UB => True | _ => False end.
Proof. vm_compute. exact I. Qed.
