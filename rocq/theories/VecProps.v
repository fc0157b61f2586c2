(** Property C11: growable vectors. *)
From Verif Require Import Base BaseLemmas Heap MemModel VecModel VecSpec VecProofs.
Local Open Scope nat_scope.

(** Any history of vector operations within the contract runs without undefined
    behaviour, every size and every item read is the one of the list
    specification (items are compared where the client wrote them), sizes stay
    within capacities, and once every vector is freed no memory is left. *)
Theorem C11_vector_history : forall isz junk os T xs,
  0 < isz -> v_spec_run isz [] os = Some (T, xs) ->
  exists V ys,
    v_run isz junk v_init os = Ok (V, ys) /\ Forall2 out_agrees xs ys /\
    length (vecs V) = length T /\
    (forall i l, nth_error T i = Some (Some l) ->
       exists v, nth_error (vecs V) i = Some (Some v) /\ vsize v = length l /\ vsize v <= vcap v) /\
    (Forall (fun x => x = None) T -> forall p, cell (vhp V) p = None).
Proof.
  intros isz junk os T xs Hi H.
  destruct (vrun_spec isz Hi junk os _ _ _ _ (vrel_init isz) H) as (V & ys & E & R & A).
  destruct (vrel_final isz Hi _ _ R) as (H1 & H2 & H3). exists V, ys. auto 10.
Qed.
Print Assumptions C11_vector_history.

(** Reading back: after any such history every item the client wrote is still
    there. *)
Theorem C11_vector_items : forall isz junk os T xs i l k it,
  0 < isz -> v_spec_run isz [] os = Some (T, xs) ->
  nth_error T i = Some (Some l) -> nth_error l k = Some (Some it) ->
  exists V ys,
    v_run isz junk v_init os = Ok (V, ys) /\ v_step isz junk V (VGet i k) = Ok (V, VItem it).
Proof.
  intros isz junk os T xs i l k it Hi H Hl Hk.
  destruct (vrun_spec isz Hi junk os _ _ _ _ (vrel_init isz) H) as (V & ys & E & R & A).
  exists V, ys. split; [auto|].
  assert (v_spec isz T (VGet i k) = Some (T, SItem (Some it))) as Hs.
  { cbn. unfold vec_at. rewrite Hl, Hk. reflexivity. }
  destruct (vstep_spec isz Hi junk _ _ _ _ _ R Hs) as (V' & y & E' & _ & A'). cbn in A'. subst y.
  unfold v_step in E' |- *. destruct (get_vec V i) as [v| | |]; try discriminate. cbn [bind] in *.
  destruct (item_load isz (vhp V) (vdata v) k); try discriminate. cbn [bind] in *. congruence.
Qed.
Print Assumptions C11_vector_items.

(** Byte sizes are computed in size_t without a check: with 48-byte items,
    resizing to 2^60 items yields an empty vector. *)
Theorem C11_size_overflow_refuted : forall junk,
  v_run 48 junk v_init [VAlloc; VResize 0 (N.to_nat (2 ^ 60)); VSize 0] =
  Ok (mkV [] [Some (update_vector_fields 48 (mkBlk None 0 0 false))] [], [VNone; VNone; VNum 0]).
Proof.
  intros junk. cbn [v_run v_step v_init vecs app bind get_vec nth_error vhp vexts].
  unfold vec_resize. replace (szmul (N.to_nat (2 ^ 60)) 48) with 0; [reflexivity|].
  unfold szmul. rewrite N2Nat.id. vm_compute. reflexivity.
Qed.
Print Assumptions C11_size_overflow_refuted.

Example C11_example :
  let os := [VNew 1; VPush 0 [1; 2]%N; VPush 0 [3; 4]%N; VPush 0 [5; 6]%N; VCopy0 0; VResize 0 5; VSet 0 4 [7; 8]%N;
             VResize 1 1; VClear 0; VWrapOwn 0 [[9; 9]%N; [8; 8]%N] 1; VPush 0 [6; 6]%N; VCopy 1 0; VGet 1 1; VSize 1] in
  v_spec_run 2 [] os = Some ([Some [Some [9; 9]%N; Some [6; 6]%N]; Some [Some [9; 9]%N; Some [6; 6]%N]],
    [SNone; SNone; SNone; SNone; SNone; SNone; SNone; SNone; SNone; SNone; SNone; SNone; SItem (Some [6; 6]%N); SNum 2]).
Proof. vm_compute. reflexivity. Qed.
