(** C124: descriptor maps. *)
From Verif Require Import Base BaseLemmas Gray Flt BriefModel BriefSpec BriefProofs DmapModel DmapSpec DmapProofs.
Local Open Scope Z_scope.

(** After any history of sane operations with descriptors in memory of the caller, the
    map shows exactly what the operations say, and the searches find it. *)
Theorem C124_history_partial : forall grow n ops, 1 <= n -> 8 * n <= INT_MAX -> sane_all (n, []) ops -> Forall external ops ->
  exists m, run grow (new_map n) ops = Ok m /\
    let s := fold_left effect ops (n, []) in shows m (fst s) (snd s) /\
    (forall fuel desc, snd s <> [] -> bytes_ok desc -> fst s <= Z.of_nat (length desc) -> fst s < Z.of_nat fuel ->
       exists k id d, search_nn fuel m desc = Ok (id, of_int d) /\ first_nearest (snd s) (firstn (Z.to_nat (fst s)) desc) k id d) /\
    (forall id, ~ In id (map fst (snd s)) -> search_by_id m id = Ok None) /\
    (forall id, In id (map fst (snd s)) -> exists o k desc, search_by_id m id = Ok (Some o) /\ octets (d_data m) o (fst s) = Ok desc /\
       nth_error (snd s) k = Some (id, desc) /\ forall k' e, (k' < k)%nat -> nth_error (snd s) k' = Some e -> fst e <> id).
Proof.
  intros grow n ops N NM SA EX. assert (L0 : laid (new_map n) n []) by (split; cbn [new_map d_oct d_ids d_data map concat length]; auto; unfold INT_MAX; lia).
  destruct (run_ok grow ops (new_map n) (n, []) L0 SA EX) as (m & E & L). exists m. split; [exact E|]. cbv zeta. set (s := fold_left effect ops (n, [])) in *. clearbody s. split; [now apply laid_shows|].
  split; [intros fuel desc NE B LN F; eapply search_nn_ok; eauto|]. unfold search_by_id. rewrite (la_ids _ _ _ L). split; intros id IN; pose proof (by_id_ok (snd s) id 0) as BI; destruct (by_id (map fst (snd s)) 0 id) as [i|]; try reflexivity; try contradiction.
  - destruct BI as (k & e & _ & EK & EI & _). exfalso. apply IN. subst id. apply in_map. eapply nth_error_In, EK.
  - destruct BI as (k & e & -> & EK & EI & FST). destruct (laid_octets m _ _ k e L EK) as [C O]. rewrite (la_oct _ _ _ L). cbn [Z.add]. rewrite C. cbn [bind]. exists (Z.of_nat k * fst s), k, (snd e). split; [reflexivity|]. split; [exact O|].
    split; [rewrite EK; destruct e; cbn [fst snd] in *; congruence|exact FST].
Qed.
Print Assumptions C124_history_partial.
(** A descriptor of the map itself can be added while there is reserved room. *)
Theorem C124_own_partial : forall grow n ops m id i, 1 <= n -> 8 * n <= INT_MAX -> sane_all (n, []) ops -> Forall external ops -> run grow (new_map n) ops = Ok m ->
  let s := fold_left effect ops (n, []) in sane s (OAdd id (Own (i * fst s))) -> (size m + 1) * fst s <= d_cap m ->
  exists m', add grow m id (Own (i * fst s)) = Ok (m', size m + 1) /\ shows m' (fst s) (snd (effect s (OAdd id (Own (i * fst s))))).
Proof.
  intros grow n ops m id i N NM SA EX E. assert (L0 : laid (new_map n) n []) by (split; cbn [new_map d_oct d_ids d_data map concat length]; auto; unfold INT_MAX; lia).
  destruct (run_ok grow ops (new_map n) (n, []) L0 SA EX) as (m1 & E1 & L). assert (m1 = m) by congruence. subst m1. cbv zeta. set (s := fold_left effect ops (n, [])) in *. clearbody s. destruct s as [k t]. cbn [fst snd sane effect] in *.
  intros (j & J & EJ & M) CAP. pose proof (la_pos _ _ _ L) as KP. assert (i = j) by (apply (Z.mul_reg_r i j k); lia). subst j. clear EJ. rewrite Z.div_mul by lia.
  destruct (nth_error t (Z.to_nat i)) as [e|] eqn:EI; [|apply nth_error_None in EI; lia]. rewrite (nth_error_nth _ _ (0, []) EI). destruct (laid_octets m k t _ e L EI) as [C O]. rewrite Z2Nat.id in O by lia.
  assert (SZ : size m = Z.of_nat (length t)) by (unfold size; rewrite (la_ids _ _ _ L), map_length; reflexivity). rewrite SZ in *.
  pose proof (la_each _ _ _ L) as LE. rewrite Forall_forall in LE. destruct (LE e (nth_error_In _ _ EI)) as [LL BL]. pose proof (concat_len k t (la_each _ _ _ L)) as CL. rewrite <- (la_data _ _ _ L) in CL.
  destruct (add_ok grow m k t id (Own (i * k)) (snd e) L M LL BL) as (m' & E' & L'); [split; [lia|exact O]|]. exists m'. split; [exact E'|]. apply laid_shows, L'.
Qed.
Print Assumptions C124_own_partial.
(** Finding: otherwise the descriptor is read from freed memory; here the capacity of
    vectors doubles. *)
Theorem C124_own_refuted : exists m, run (fun c n => Z.max (2 * c) n) (new_map 1) [OAdd 7 (Caller [5%N])] = Ok m /\
  search_by_id m 7 = Ok (Some 0) /\ sane (fold_left effect [OAdd 7 (Caller [5%N])] (1, [])) (OAdd 8 (Own 0)) /\ add (fun c n => Z.max (2 * c) n) m 8 (Own 0) = UB.
Proof. eexists. split; [vm_compute; reflexivity|]. split; [reflexivity|]. split; [exists 0; cbn; unfold INT_MAX; lia|]. vm_compute. reflexivity. Qed.
Print Assumptions C124_own_refuted.
(** Finding: searching an empty map is undefined. *)
Theorem C124_empty_refuted : forall fuel n desc, search_nn fuel (new_map n) desc = UB.
Proof. reflexivity. Qed.
Print Assumptions C124_empty_refuted.
Example C124_example : let ops := [OAdd 7 (Caller [1; 2]%N); OSetOctets 2; OReserve 3; OAdd 5 (Caller [255; 0; 9]%N); OAdd 9 (Caller [15; 1]%N); OAdd 5 (Caller [15; 1]%N)] in
  sane_all (1, []) ops /\ Forall external ops /\
  exists m, run (fun c n => Z.max (2 * c) n) (new_map 1) ops = Ok m /\ search_nn 9 m [14; 1]%N = Ok (9, of_int 1) /\ search_by_id m 5 = Ok (Some 0) /\ search_by_id m 7 = Ok None.
Proof.
  cbv zeta. split; [|split; [repeat constructor|eexists; split; [vm_compute; reflexivity|split; [vm_compute; reflexivity|split; reflexivity]]]].
  cbn [sane_all sane effect fst snd length app Z.to_nat firstn]. unfold INT_MAX. repeat (split; [first [exact Logic.I | repeat constructor; lia | lia | (repeat split; [repeat constructor; lia|cbn; lia..])]|]). exact Logic.I.
Qed.
