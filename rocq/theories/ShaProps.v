(** Property theorems C05-C08 (SHA-256, segmented copy, hex rendering). *)
From Verif Require Import Base BitsModel ShaModel ShaSpec MemncpyProofs ShaProofs.
Local Open Scope N_scope.

(** C05.  [block0] and [W0] are the uninitialised local arrays.  The second
    conjunct is the C standard's view: for messages whose length is a positive
    multiple of 64 the code reads one element past the length array. *)
Theorem C05_sha256_is_fips : forall v block0 W0 msg,
  length block0 = 64%nat -> length W0 = 64%nat ->
  bytes_ok msg -> N.of_nat (length msg) < 2 ^ 61 ->
  nx_sha256 (Some v) block0 W0 msg = Ok (sha256 msg) /\
  ((length msg mod 64 <> 0)%nat \/ msg = [] -> nx_sha256 None block0 W0 msg = Ok (sha256 msg)).
Proof.
  intros v block0 W0 msg Hb HW Hm Hl. unfold nx_sha256.
  assert (concat [msg] = msg) as E by (cbn [concat]; apply app_nil_r).
  split.
  - rewrite <- E at 2. apply sha256_multi_any; rewrite ?E; auto; discriminate.
  - intros H. rewrite sha256_multi_std by (rewrite ?E; auto; discriminate). rewrite E. cbn [last].
    destruct H as [H| ->]; [|reflexivity].
    destruct (Nat.eqb_spec (length msg mod 64) 0); [contradiction|reflexivity].
Qed.
Print Assumptions C05_sha256_is_fips.

Theorem C05_sha256_defined_refuted : exists msg, bytes_ok msg /\
  forall block0 W0, length block0 = 64%nat -> length W0 = 64%nat -> nx_sha256 None block0 W0 msg = UB.
Proof.
  exists (repeat 97 64). split.
  - apply bytes_ok_repeat. reflexivity.
  - intros block0 W0 Hb HW. unfold nx_sha256. rewrite sha256_multi_std; auto; try discriminate.
    + cbn [concat]. rewrite app_nil_r. apply bytes_ok_repeat. reflexivity.
    + vm_compute. reflexivity.
Qed.
Print Assumptions C05_sha256_defined_refuted.

Example C05_example : (* "abc" *)
  nx_sha256 None (repeat 7 64) (repeat 9 64) [97; 98; 99] =
  Ok [186; 120; 22; 191; 143; 1; 207; 234; 65; 65; 64; 222; 93; 174; 34; 35;
      176; 3; 97; 163; 150; 23; 122; 156; 180; 16; 255; 97; 242; 0; 21; 173].
Proof. vm_compute. reflexivity. Qed.

(** C06 *)
Theorem C06_sha256_multi_concat : forall v block0 W0 segs,
  segs <> [] -> length block0 = 64%nat -> length W0 = 64%nat ->
  bytes_ok (concat segs) -> N.of_nat (length (concat segs)) < 2 ^ 61 ->
  nx_sha256_multi (Some v) block0 W0 segs = Ok (sha256 (concat segs)) /\
  nx_sha256_multi (Some v) block0 W0 segs = nx_sha256 (Some v) block0 W0 (concat segs).
Proof.
  intros v block0 W0 segs Hne Hb HW Hm Hl. rewrite sha256_multi_any by auto. split; [reflexivity|].
  symmetry. apply (C05_sha256_is_fips v block0 W0 (concat segs)); auto.
Qed.
Print Assumptions C06_sha256_multi_concat.

(** Exactly when the standard's view leaves the call undefined. *)
Theorem C06_sha256_multi_defined : forall block0 W0 segs,
  segs <> [] -> length block0 = 64%nat -> length W0 = 64%nat ->
  bytes_ok (concat segs) -> N.of_nat (length (concat segs)) < 2 ^ 61 ->
  nx_sha256_multi None block0 W0 segs =
  if (length (concat segs) mod 64 =? 0)%nat && (0 <? length (concat segs))%nat
     && negb (match last segs [] with [] => true | _ => false end)
  then UB else Ok (sha256 (concat segs)).
Proof. exact sha256_multi_std. Qed.
Print Assumptions C06_sha256_multi_defined.

Example C06_example :
  nx_sha256_multi None (repeat 7 64) (repeat 9 64) [[97]; []; [98; 99]] =
  nx_sha256 None (repeat 1 64) (repeat 2 64) [97; 98; 99].
Proof. vm_compute. reflexivity. Qed.

(** C07 *)
Theorem C07_memncpy_multi_slices : forall v segs reqs, segs <> [] ->
  run_requests (Some v) segs 0 0 reqs = Ok (slices (concat segs) reqs).
Proof.
  intros v segs reqs Hne. destruct (cursor_start segs Hne) as [Hc Hr]. rewrite <- Hr.
  apply run_requests_any; auto.
Qed.
Print Assumptions C07_memncpy_multi_slices.
Theorem C07_memncpy_multi_in_bounds : forall segs reqs, segs <> [] ->
  (list_sum reqs < length (concat segs))%nat ->
  run_requests None segs 0 0 reqs = Ok (slices (concat segs) reqs).
Proof.
  intros segs reqs Hne Hl. destruct (cursor_start segs Hne) as [Hc Hr]. rewrite <- Hr in *.
  apply run_requests_std; auto.
Qed.
Print Assumptions C07_memncpy_multi_in_bounds.
(** "reads nothing outside the sources' description" fails once all sources
    are consumed. *)
Theorem C07_memncpy_multi_in_bounds_refuted : exists segs reqs, segs <> [] /\
  run_requests None segs 0 0 reqs = UB.
Proof. exists [[1; 2]], [2; 0]%nat. split; [discriminate|vm_compute; reflexivity]. Qed.
Print Assumptions C07_memncpy_multi_in_bounds_refuted.
Example C07_example : run_requests None [[1; 2]; []; [3]; [4; 5]] 0 0 [1; 3]%nat = Ok [[1]; [2; 3; 4]].
Proof. vm_compute. reflexivity. Qed.

(** C08 *)
Theorem C08_hash_to_str_digits : forall h i, bytes_ok h -> (i < length h)%nat ->
  nth (2 * i) (nx_hash_to_str h) 0 = nth (N.to_nat (nth i h 0 / 16)) (map N.of_nat (seq 48 10 ++ seq 97 6)) 0 /\
  nth (2 * i + 1) (nx_hash_to_str h) 0 = nth (N.to_nat (nth i h 0 mod 16)) (map N.of_nat (seq 48 10 ++ seq 97 6)) 0.
Proof. exact hash_to_str_digits. Qed.
Print Assumptions C08_hash_to_str_digits.
Theorem C08_hash_to_str_injective : forall h1 h2, bytes_ok h1 -> bytes_ok h2 ->
  nx_hash_to_str h1 = nx_hash_to_str h2 -> h1 = h2.
Proof. exact hash_to_str_inj. Qed.
Print Assumptions C08_hash_to_str_injective.
Theorem C08_hash_to_str_length : forall h, length (nx_hash_to_str h) = (2 * length h)%nat.
Proof. exact hash_to_str_length. Qed.
Example C08_example : nx_hash_to_str [0; 171; 15] = [48; 48; 97; 98; 48; 102].
Proof. vm_compute. reflexivity. Qed.
