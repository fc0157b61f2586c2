(** The command line options of the SIFT detector. *)
From Coq Require Import Ascii String.
From Verif Require Import Base BaseLemmas OptModel OptSpec OptProofs OptProps.
Local Open Scope Z_scope.

Definition str (s : string) : list N := map N_of_ascii (list_ascii_of_string s).

(** struct NXSIFTDetectorParams, include/virg/nexus/nx_sift_detector.h:42-51;
    the float fields are kept as the bits of the double of the same value. *)
Record sparams := SParams { sp_double : Z; sp_scales : Z; sp_sigma0 : N; sp_trunc : N; sp_border : Z; sp_peak : N; sp_edge : N; sp_magn : Z }.
(** nx_sift_default_parameters, nx_sift_detector.h:53-66: NX_TRUE, 3, 1.6f,
    4.0f, 5, 0.04f, 10.0f, 3. *)
Definition nx_sift_default_parameters : sparams :=
  SParams 1 3 0x3FF99999A0000000 0x4010000000000000 5 0x3FA47AE140000000 0x4024000000000000 3.
Local Open Scope string_scope.
Definition N_double := str "--sift-double-image".
Definition N_scales := str "--sift-n-scales-per-octave".
Definition N_sigma0 := str "--sift-sigma0".
Definition N_trunc := str "--sift-kernel-truncation-factor".
Definition N_border := str "--sift-border-distance".
Definition N_peak := str "--sift-peak-threshold".
Definition N_edge := str "--sift-edge-threshold".
Definition N_magn := str "--sift-magnification-factor".
Local Close Scope string_scope.
(** The arguments of nx_options_add in nx_sift_parameters_add_to_options,
    src/nx_sift_detector.c:55-67: format "biddiddi". *)
Definition sift_format : list (N * vargs) :=
  let d := nx_sift_default_parameters in
  [(98%N, AB N_double 0); (105%N, AI N_scales (sp_scales d)); (100%N, AD N_sigma0 (sp_sigma0 d)); (100%N, AD N_trunc (sp_trunc d));
   (105%N, AI N_border (sp_border d)); (100%N, AD N_peak (sp_peak d)); (100%N, AD N_edge (sp_edge d)); (105%N, AI N_magn (sp_magn d))].
(** nx_sift_parameters_from_options, src/nx_sift_detector.c:69-83 (without
    the conversion of double to float). *)
Definition nx_sift_parameters_from_options (ovf : Z -> Z) (o : options) : res sparams :=
  let* a := get_bool ovf o N_double in
  let* b := get_int ovf o N_scales in
  let* c := get_double ovf o N_sigma0 in
  let* d := get_double ovf o N_trunc in
  let* e := get_int ovf o N_border in
  let* f := get_double ovf o N_peak in
  let* g := get_double ovf o N_edge in
  let* h := get_int ovf o N_magn in
  Ok (SParams a b c d e f g h).

(** The declarations of an option added by this format. *)
Lemma sift_called ops n i k : In (n, i, k) [(N_double, 0%nat, KBool 0); (N_scales, 1%nat, KInt 3); (N_sigma0, 2%nat, KDouble 0x3FF99999A0000000); (N_trunc, 3%nat, KDouble 0x4010000000000000);
    (N_border, 4%nat, KInt 5); (N_peak, 5%nat, KDouble 0x3FA47AE140000000); (N_edge, 6%nat, KDouble 0x4024000000000000); (N_magn, 7%nat, KInt 3)] ->
  called (decls_of (ops ++ [OAdd sift_format])) n (length (decls_of ops) + i) k.
Proof.
  intros H. assert (E : decls_of (ops ++ [OAdd sift_format]) = decls_of ops ++ decls_of_op (OAdd sift_format)).
  { unfold decls_of. rewrite flat_map_app. cbn [flat_map]. now rewrite app_nil_r. }
  unfold called. rewrite E. rewrite nth_error_app2 by lia. replace (length (decls_of ops) + i - length (decls_of ops))%nat with i by lia.
  cbn [In] in H. repeat (destruct H as [[= <- <- <-]|H]; [eexists; split; [reflexivity|]; split; [reflexivity|]; apply at_single, parts_one; vm_compute; intuition discriminate|]).
  destruct H.
Qed.

Lemma get_b ovf o n k a : get_value ovf (KBool k) o n = Ok (ValB a) -> get_bool ovf o n = Ok a.
Proof. cbn [get_value]. destruct (get_bool ovf o n); cbn [bind]; congruence. Qed.
Lemma get_i ovf o n k a : get_value ovf (KInt k) o n = Ok (ValI a) -> get_int ovf o n = Ok a.
Proof. cbn [get_value]. destruct (get_int ovf o n); cbn [bind]; congruence. Qed.
Lemma get_d ovf o n k a : get_value ovf (KDouble k) o n = Ok (ValD a) -> get_double ovf o n = Ok a.
Proof. cbn [get_value]. destruct (get_double ovf o n); cbn [bind]; congruence. Qed.
Lemma from_values ovf o a b c d e f g h :
  get_value ovf (KBool 0) o N_double = Ok (ValB a) -> get_value ovf (KInt 3) o N_scales = Ok (ValI b) -> get_value ovf (KDouble 0x3FF99999A0000000) o N_sigma0 = Ok (ValD c) ->
  get_value ovf (KDouble 0x4010000000000000) o N_trunc = Ok (ValD d) -> get_value ovf (KInt 5) o N_border = Ok (ValI e) -> get_value ovf (KDouble 0x3FA47AE140000000) o N_peak = Ok (ValD f) ->
  get_value ovf (KDouble 0x4024000000000000) o N_edge = Ok (ValD g) -> get_value ovf (KInt 3) o N_magn = Ok (ValI h) ->
  nx_sift_parameters_from_options ovf o = Ok (SParams a b c d e f g h).
Proof.
  unfold nx_sift_parameters_from_options. intros A B C D E F G H.
  rewrite (get_b _ _ _ _ _ A), (get_i _ _ _ _ _ B), (get_d _ _ _ _ _ C), (get_d _ _ _ _ _ D), (get_i _ _ _ _ _ E), (get_d _ _ _ _ _ F), (get_d _ _ _ _ _ G), (get_i _ _ _ _ _ H). reflexivity.
Qed.

Lemma sift_format_ok : Forall well_typed sift_format.
Proof. repeat (apply Forall_cons; [left; discriminate|]). apply Forall_nil. Qed.

(** Right after the options were added, to a table of any others. *)
Lemma sift_before_parse ovf atof ops o : Forall op_well_typed ops -> adds_only ops -> opt_run ovf atof (ops ++ [OAdd sift_format]) = Ok o ->
  nx_sift_parameters_from_options ovf o = Ok (SParams 0 3 0x3FF99999A0000000 0x4010000000000000 5 0x3FA47AE140000000 0x4024000000000000 3).
Proof.
  intros W A E. assert (W' : Forall op_well_typed (ops ++ [OAdd sift_format])).
  { apply Forall_app. split; [exact W|]. constructor; [|constructor]. exact sift_format_ok. }
  assert (A' : adds_only (ops ++ [OAdd sift_format])) by (apply Forall_app; split; [exact A|]; repeat constructor).
  pose proof (C37_before_parse ovf atof (ops ++ [OAdd sift_format]) o) as P.
  apply from_values; (eapply P; [exact W'|exact A'|exact E|apply sift_called; cbn [In]; tauto|reflexivity]).
Qed.
(** After a command line that names none of them. *)
Lemma sift_after_parse ovf atof ops o p args o' : Forall op_well_typed ops -> opt_run ovf atof (ops ++ [OAdd sift_format]) = Ok o ->
  set_from_args ovf atof o (p :: args) = Ok o' ->
  (forall n, In n [N_double; N_scales; N_sigma0; N_trunc; N_border; N_peak; N_edge; N_magn] -> is_set ovf o' n = Ok false) ->
  nx_sift_parameters_from_options ovf o' = Ok (SParams 0 3 0x3FF99999A0000000 0x4010000000000000 5 0x3FA47AE140000000 0x4024000000000000 3).
Proof.
  intros W E S N. assert (W' : Forall op_well_typed (ops ++ [OAdd sift_format])).
  { apply Forall_app. split; [exact W|]. constructor; [|constructor]. exact sift_format_ok. }
  destruct (C37_required_defaults ovf atof _ o p args o' W' E S) as (l & r & R & _ & _ & D).
  destruct (C35_parse ovf atof _ o p args W' E) as [[Q _]|(o2 & l2 & r2 & Q & R2 & V & _)]; [congruence|]. rewrite S in Q. injection Q as <-.
  destruct (C35_deterministic ovf atof _ o args _ _ _ _ W' E R R2) as [<- <-].
  assert (G : forall n i k v, called (decls_of (ops ++ [OAdd sift_format])) n i k -> In n [N_double; N_scales; N_sigma0; N_trunc; N_border; N_peak; N_edge; N_magn] -> default_of k = Some v -> get_value ovf k o' n = Ok v).
  { intros n i k v C I Dv. apply (D n i k v C); [|exact Dv]. destruct (last_assigned l i) as [w|] eqn:La; [|reflexivity]. destruct (V n i k w C La) as [_ X]. rewrite (N n I) in X. discriminate. }
  apply from_values; (eapply G; [apply sift_called; cbn [In]; tauto|cbn [In]; tauto|reflexivity]).
Qed.
