(** Theorems about the dataset readers: C135-C139.  [dir] and [file] are the file
    system, [scan] is the conversion %lf or %f. *)
From Verif Require Import Base BaseLemmas Gray CsvModel CsvSpec CsvProofs CsvProofs2 DfModel DfCsvProofs PnmModel PnmSpec PnmProofs PnmSave DsModel DsSpec DsProofs DsProofs2.
From Coq Require Import String Ascii.
Local Open Scope list_scope.
Local Open Scope nat_scope.

(** * C135: KITTI *)
Definition open_kitti {num} dir file (scan : list N -> option (num * list N)) (base : list N) (id : Z) :=
  let* d := kitti_new dir base in kitti_sequence_new dir file scan d id.
Lemma kitti_open {num} dir file (scan : list N -> option (num * list N)) base id : id < 22 -> dir base = true ->
  open_kitti dir file scan base (Z.of_nat id) =
  (if dir (kitti_dir base id) then
     let* pn := match file (base ++ text "/poses/" ++ two_digits id ++ text ".txt") with None => UB | Some s => read_poses scan s end in
     match file (kitti_dir base id ++ text "/times.txt") with
     | None => Fatal
     | Some ts =>
       let* tn := read_times scan ts in
       if negb (snd tn =? snd pn) then Fatal else
       match file (kitti_dir base id ++ text "/calib.txt") with
       | None => Fatal
       | Some cs =>
         let* c := for_each (calib_row scan) (seq 0 4) (repeat (repeat None 12) 4, cs) in
         Ok {| k_base := base; k_id := Z.of_nat id; k_length := snd tn; k_gt := true; k_poses := fst pn; k_times := fst tn; k_calib := fst c;
               k_cams := map (fun i => dir (kitti_dir base id ++ text "/image_" ++ [one_digit i])) [0; 1; 2; 3]; k_lidar := dir (kitti_dir base id ++ text "/velodyne") |}
       end
     end
   else Fatal).
Proof.
  intros L D. unfold open_kitti, kitti_new. rewrite D. cbn [bind]. unfold kitti_sequence_new.
  destruct (Z.ltb_spec (Z.of_nat id) 0); [lia|]. change (Z.of_nat KITTI_MAX_SEQ_ID) with 22%Z. destruct (Z.ltb_spec (22 - 1) (Z.of_nat id)); [lia|]. cbn [orb kd_available kd_base].
  unfold zget. destruct (Z.ltb_spec (Z.of_nat id) 0); [lia|]. rewrite Nat2Z.id. unfold aget. rewrite nth_error_map.
  assert (NS : nth_error (seq 0 KITTI_MAX_SEQ_ID) id = Some id) by (unfold KITTI_MAX_SEQ_ID; rewrite (nth_error_nth' _ 0) by (rewrite seq_length; lia); now rewrite seq_nth by lia).
  rewrite NS. cbn [option_map bind]. unfold kitti_sequence_dir, kitti_pose_file, kitti_seq_file, kitti_cam_dir, kitti_lidar_dir, kitti_dir. rewrite (pad_two id L).
  change (base ++ bs "/sequences/" ++ two_digits id) with (base ++ text "/sequences/" ++ two_digits id).
  destruct (dir (base ++ text "/sequences/" ++ two_digits id)); [|reflexivity]. cbn [negb andb].
  assert (AS : forall t, (base ++ text "/sequences/" ++ two_digits id) ++ t = base ++ text "/sequences/" ++ two_digits id ++ t) by (intro t; now rewrite <- !app_assoc).
  rewrite !AS.
  change (bs "/poses/") with (text "/poses/"). change (bs ".txt") with (text ".txt"). change (bs "/" ++ bs "times.txt") with (text "/times.txt"). change (bs "/" ++ bs "calib.txt") with (text "/calib.txt").
  match goal with |- bind ?m _ = _ => destruct m as [[poses pn]| | |] end; [|reflexivity..]. cbn [bind fst snd].
  change (bs "/sequences/") with (text "/sequences/").
  match goal with |- match ?m with _ => _ end = _ => destruct m as [ts|] end; [|reflexivity].
  match goal with |- bind ?m _ = _ => destruct m as [[times tn]| | |] end; [|reflexivity..]. cbn [bind fst snd]. destruct (negb (tn =? pn)); [reflexivity|].
  match goal with |- match ?m with _ => _ end = _ => destruct m as [cs|] end; [|reflexivity].
  change (seq 0 4) with [0; 1; 2; 3]. match goal with |- bind ?m _ = _ => destruct m as [c| | |] end; [|reflexivity..]. cbn [bind]. cbn [map]. rewrite !AS. reflexivity.
Qed.

(** Only a sequence directory with all its files can be opened; from such a
    directory the poses come back column by column, with the times, the
    calibration of the four cameras and what is available.  Partial: sequences
    without ground truth. *)
Theorem C135_sequence_partial : forall num dir file (scan : list N -> option (num * list N)) base, scan_ok scan ->
  (forall id q, open_kitti dir file scan base id = Ok q -> (0 <= id)%Z /\ exists poses times calib, kitti_says dir file scan base (Z.to_nat id) poses times calib) /\
  (forall id poses times calib, kitti_says dir file scan base id poses times calib ->
     exists q, open_kitti dir file scan base (Z.of_nat id) = Ok q /\ k_gt q = true /\ k_length q = List.length times /\
       (forall k, k < List.length times -> exists p, nth_error (k_poses q) k = Some (Some p) /\ matrix_3x4 poses (12 * k) p) /\
       (forall k t, nth_error times k = Some t -> nth_error (k_times q) k = Some (Some t)) /\
       (forall c row, nth_error calib c = Some row -> exists p, nth_error (k_calib q) c = Some p /\ matrix_3x4 row 0 p) /\
       (forall c, c < 4 -> nth_error (k_cams q) c = Some (dir (kitti_dir base id ++ text "/image_" ++ [one_digit c]))) /\
       k_lidar q = dir (kitti_dir base id ++ text "/velodyne")).
Proof.
  intros num dir file scan base SC. split.
  - intros id q E. assert (B : dir base = true) by (unfold open_kitti, kitti_new in E; destruct (dir base); [reflexivity|discriminate]).
    assert (R : (0 <= id < 22)%Z).
    { unfold open_kitti, kitti_new in E. rewrite B in E. cbn [bind] in E. unfold kitti_sequence_new in E. change (Z.of_nat KITTI_MAX_SEQ_ID) with 22%Z in E. destruct (Z.ltb_spec id 0); [discriminate|]. destruct (Z.ltb_spec (22 - 1) id); [discriminate|]. lia. }
    split; [lia|]. rewrite <- (Z2Nat.id id) in E by lia. set (n := Z.to_nat id) in *. assert (L : n < 22) by lia. clearbody n. rewrite (kitti_open _ _ _ _ _ L B) in E.
    destruct (dir (kitti_dir base n)) eqn:D; [|discriminate]. apply bind_ok in E. destruct E as ([parr pn] & E1 & E). destruct (file (base ++ _)) as [ps|] eqn:F1; [|discriminate].
    destruct (file (kitti_dir base n ++ text "/times.txt")) as [ts|] eqn:F2; [|discriminate]. apply bind_ok in E. destruct E as ([tarr tn] & E2 & E). cbn [snd fst] in E.
    destruct (Nat.eqb_spec tn pn) as [EN|]; [|discriminate]. cbn [negb] in E. destruct (file (kitti_dir base n ++ text "/calib.txt")) as [cs|] eqn:F3; [|discriminate].
    apply bind_ok in E. destruct E as (c & E3 & _). destruct (all_exist scan SC ps) as (pv & PV). destruct (all_exist scan SC ts) as (tv & TV). destruct (calib_rows_sound scan SC _ _ _ _ _ E3) as (rows & CR & LR).
    exists pv, tv, rows. destruct (read_poses_ok scan SC ps pv PV) as (a1 & A1 & _). destruct (read_times_ok scan SC ts tv TV) as (a2 & A2 & _). assert (X1 : pn = List.length pv / 12) by congruence. assert (X2 : tn = List.length tv) by congruence.
    split; [exact L|]. split; [exact B|]. split; [exact D|]. split; [exists ps; auto|]. split; [exists ts; auto|]. split; [exists cs; auto|]. split; [exact LR|]. congruence.
  - intros id poses times calib (L & B & D & (ps & F1 & PV) & (ts & F2 & TV) & (cs & F3 & CR) & LC & EN). rewrite (kitti_open _ _ _ _ _ L B). rewrite D, F1, F2, F3.
    destruct (read_poses_ok scan SC ps poses PV) as (a1 & A1 & V1). destruct (read_times_ok scan SC ts times TV) as (a2 & A2 & V2). rewrite A1, A2. cbn [bind fst snd].
    rewrite EN. rewrite Nat.eqb_refl. cbn [negb]. destruct (calib_rows_complete scan SC calib 0 (repeat (repeat None 12) 4) cs CR) as (cal & s' & E3 & L3 & _ & V3); [now rewrite LC|repeat constructor|].
    rewrite LC in E3. rewrite E3. cbn [bind fst]. eexists. split; [reflexivity|]. cbn [k_gt k_length k_poses k_times k_calib k_cams k_lidar]. split; [reflexivity|]. split; [reflexivity|].
    split; [intros k K; apply V1; lia|]. split; [exact V2|]. split; [intros c row R; exact (V3 c row R)|]. split; [|reflexivity].
    intros c C. do 4 (destruct c as [|c]; [reflexivity|]). lia.
Qed.
Print Assumptions C135_sequence_partial.
(** Without a pose file (sequences 11 to 21 have none) the reader passes a NULL
    stream to fscanf. *)
Theorem C135_no_ground_truth_refuted : forall num dir file (scan : list N -> option (num * list N)) base id, id < 22 -> dir base = true -> dir (kitti_dir base id) = true ->
  file (base ++ text "/poses/" ++ two_digits id ++ text ".txt") = None -> open_kitti dir file scan base (Z.of_nat id) = UB.
Proof. intros num dir file scan base id L B D F. rewrite (kitti_open _ _ _ _ _ L B). now rewrite D, F. Qed.
Print Assumptions C135_no_ground_truth_refuted.
(** A small dataset; digits are the numbers. *)
Definition demo_scan (s : list N) : option (N * list N) :=
  match skip_space s with c :: r => if (48 <=? c)%N && (c <=? 57)%N then Some ((c - 48)%N, r) else None | [] => None end.
Lemma skip_le s : List.length (skip_space s) <= List.length s.
Proof. induction s as [|c s IH]; [cbn; lia|]. cbn [skip_space]. destruct (isspace c); cbn [List.length] in *; lia. Qed.
Lemma demo_scan_ok : scan_ok demo_scan.
Proof.
  split.
  - intros ws s S. unfold demo_scan. replace (skip_space (ws ++ s)) with (skip_space s); [reflexivity|]. induction S as [|c ws P S IH]; [reflexivity|]. cbn [app skip_space]. apply isspace_iff in P. now rewrite P.
  - intros s v r. unfold demo_scan. pose proof (skip_le s) as L. destruct (skip_space s) as [|c q]; [discriminate|]. destruct (_ && _); [|discriminate]. intro E. injection E as <- <-. cbn [List.length] in L. lia.
Qed.
Definition demo_row : list N := text "1 2 3 4 5 6 7 8 9 0 1 2".
Definition demo_dirs : list (list N) := map text ["d"; "d/sequences/07"; "d/sequences/07/image_2"; "d/graf"; "d/Boy"; "d/graffiti"]%string.
Definition demo_dir (p : list N) : bool := existsb (str_eqb p) demo_dirs.
Definition demo_files : list (list N * list N) :=
  [(text "d/poses/07.txt", demo_row ++ [10%N] ++ rev demo_row); (text "d/sequences/07/times.txt", text "0 3");
   (text "d/sequences/07/calib.txt", text "P0: " ++ demo_row ++ [10%N] ++ text "P1: " ++ demo_row ++ [10%N] ++ text "P2: " ++ rev demo_row ++ [10%N] ++ text "P3: " ++ demo_row ++ [10%N])].
Definition demo_file (p : list N) : option (list N) := match find (fun f => str_eqb p (fst f)) demo_files with Some f => Some (snd f) | None => None end.
Example C135_example : scan_ok demo_scan /\
  match open_kitti demo_dir demo_file demo_scan (text "d") 7 with
  | Ok q => k_length q = 2 /\ nth_error (k_poses q) 0 = Some (Some (map Some [1; 5; 9; 2; 6; 0; 3; 7; 1; 4; 8; 2]%N)) /\ k_cams q = [false; false; true; false]
  | _ => False
  end /\ demo_dir (kitti_dir (text "d") 7) = true.
Proof. split; [apply demo_scan_ok|]. vm_compute. repeat split; reflexivity. Qed.

(** * C136: VGG Affine *)
Lemma bs_text s : bs s = text s. Proof. reflexivity. Qed.
Lemma vgg_path base name i : i <= 5 -> vgg_h_file base name (Z.of_nat i + 1) = base ++ text "/" ++ name ++ text "/H1to" ++ [one_digit (i + 1)] ++ text "p".
Proof. intro L. unfold vgg_h_file. change bs with text. do 4 f_equal. do 6 (destruct i as [|i]; [reflexivity|]). lia. Qed.
Lemma vgg_dir_text base name : vgg_dir base name = base ++ text "/" ++ name. Proof. reflexivity. Qed.
(** A sequence can be opened exactly if its name starts with a standard name and
    its five homographies can be read; the first homography is the identity, the
    others are stored column by column.  Partial: the name may go on. *)
Theorem C136_sequence_partial : forall num dir file (scan : list N -> option (num * list N)) zero one base name,
  (forall q, vgg_sequence_new dir file scan zero one base name = Ok q -> exists hs, vgg_says dir file scan base name hs) /\
  (forall hs, vgg_says dir file scan base name hs ->
     exists q, vgg_sequence_new dir file scan zero one base name = Ok q /\ v_base q = base /\ v_name q = name /\ v_length q = 6 /\ List.length (v_h q) = 6 /\
       nth_error (v_h q) 0 = Some (Some (map Some [one; zero; zero; zero; one; zero; zero; zero; one])) /\
       forall i, 1 <= i <= 5 -> exists m, nth_error (v_h q) i = Some (Some m) /\ matrix_3x3 (hs i) m).
Proof.
  intros num dir file scan zero one base name. unfold vgg_sequence_new, vgg_says. rewrite vgg_dir_text. change vgg_standard with vgg_names.
  pose proof (name_found_iff vgg_names name) as NF. split.
  - intros q E. destruct (dir base); [|discriminate]. destruct (name_found vgg_names name); [|discriminate]. destruct (dir (base ++ text "/" ++ name)); [|discriminate]. cbn [negb] in E.
    apply bind_ok in E. destruct E as (h & E & _). unfold vgg_read_ground_truth in E. apply bind_ok in E. destruct E as (h0 & _ & E).
    assert (G : forall i, 1 <= i <= 5 -> exists vs, exists s r, file (base ++ text "/" ++ name ++ text "/H1to" ++ [one_digit (i + 1)] ++ text "p") = Some s /\ reads scan s vs r /\ List.length vs = 9).
    { intros i I. assert (IN : In i (seq 1 5)) by (apply in_seq; lia). revert E IN. change (6 - 1) with 5. generalize (seq 1 5) h0. intro l. induction l as [|j l IH]; intros g E IN; [destruct IN|]. cbn [for_each] in E.
      apply bind_ok in E. destruct E as (g1 & E1 & E2). destruct IN as [->|IN]; [|now apply (IH g1)]. rewrite (vgg_path base name i) in E1 by lia. destruct (file _) as [s|] eqn:F; [|discriminate].
      apply bind_ok in E1. destruct E1 as (m & M & _). destruct (vgg_h_sound scan s m M) as (vs & r & R & LV). exists vs, s, r. auto. }
    destruct (G 1 ltac:(lia)) as (h1 & H1). destruct (G 2 ltac:(lia)) as (h2 & H2). destruct (G 3 ltac:(lia)) as (h3 & H3). destruct (G 4 ltac:(lia)) as (h4 & H4). destruct (G 5 ltac:(lia)) as (h5 & H5).
    exists (fun i => match i with 1 => h1 | 2 => h2 | 3 => h3 | 4 => h4 | _ => h5 end). split; [reflexivity|]. split; [now apply NF|]. split; [reflexivity|].
    intros i I. do 6 (destruct i as [|i]; [try lia; assumption|]). lia.
  - intros hs (B & N & D & H). apply NF in N. rewrite B, N, D. cbn [negb].
    assert (G : forall i, 1 <= i <= 5 -> exists m s, file (vgg_h_file base name (Z.of_nat i + 1)) = Some s /\ vgg_h scan s = Ok m /\ matrix_3x3 (hs i) m).
    { intros i I. destruct (H i I) as (s & r & F & R & L). destruct (vgg_h_complete scan s (hs i) r R L) as (m & E & M). exists m, s. rewrite vgg_path by lia. auto. }
    clear H. destruct (G 1 ltac:(lia)) as (m1 & s1 & F1 & E1 & M1). destruct (G 2 ltac:(lia)) as (m2 & s2 & F2 & E2 & M2). destruct (G 3 ltac:(lia)) as (m3 & s3 & F3 & E3 & M3). destruct (G 4 ltac:(lia)) as (m4 & s4 & F4 & E4 & M4). destruct (G 5 ltac:(lia)) as (m5 & s5 & F5 & E5 & M5). clear G.
    unfold vgg_read_ground_truth. unfold aset at 1. cbn [repeat List.length Nat.ltb Nat.leb lset bind seq Nat.sub for_each].
    rewrite F1, E1. cbn [bind aset List.length Nat.ltb Nat.leb lset]. rewrite F2, E2. cbn [bind aset List.length Nat.ltb Nat.leb lset]. rewrite F3, E3. cbn [bind aset List.length Nat.ltb Nat.leb lset].
    rewrite F4, E4. cbn [bind aset List.length Nat.ltb Nat.leb lset]. rewrite F5, E5. cbn [bind aset List.length Nat.ltb Nat.leb lset].
    eexists. split; [reflexivity|]. cbn [v_base v_name v_length v_h]. do 5 (split; [reflexivity|]).
    intros i I. do 6 (destruct i as [|i]; [first [lia|eexists; split; [reflexivity|assumption]]|]). lia.
Qed.
Print Assumptions C136_sequence_partial.
(** The name check compares only the length of the standard name. *)
Theorem C136_name_refuted : exists (dir : list N -> bool) (file : list N -> option (list N)) (scan : list N -> option (N * list N)) base name q,
  scan_ok scan /\ ~ In name vgg_standard /\ vgg_sequence_new dir file scan 0%N 1%N base name = Ok q.
Proof.
  exists demo_dir, (fun _ => Some (text "1 2 3 4 5 6 7 8 9")), demo_scan, (text "d"), (text "graffiti"). eexists. split; [apply demo_scan_ok|]. split; [|vm_compute; reflexivity].
  intro X. repeat (destruct X as [X|X]; [discriminate|]). destruct X.
Qed.
Print Assumptions C136_name_refuted.
Example C136_example : vgg_says demo_dir (fun p => if existsb (str_eqb p) (map text ["d/graf/H1to2p"; "d/graf/H1to3p"; "d/graf/H1to4p"; "d/graf/H1to5p"; "d/graf/H1to6p"]%string) then Some (text "1 2 3 4 5 6 7 8 9") else None) demo_scan (text "d") (text "graf") (fun _ => [1; 2; 3; 4; 5; 6; 7; 8; 9]%N).
Proof.
  split; [reflexivity|]. split; [exists (text "graf"); split; [cbn; tauto|exists []; reflexivity]|]. split; [reflexivity|]. intros i I.
  exists (text "1 2 3 4 5 6 7 8 9"), []. split; [do 6 (destruct i as [|i]; [try lia; reflexivity|]); lia|]. split; [|reflexivity]. repeat (econstructor; [reflexivity|]). constructor.
Qed.

(** * C137: Temple Color 128 *)
Lemma attr_ok s : exists m, read_attributes s = Ok m.
Proof.
  unfold read_attributes. assert (G : forall fuel s acc, List.length s < fuel -> exists m, attr_loop fuel s acc = Ok m); [|apply G; lia].
  clear s. induction fuel as [|fuel IH]; intros s acc L; [lia|]. cbn [attr_loop]. destruct (get_attr s) as [f r] eqn:E. destruct (Z.eqb_spec f 0); [eauto|]. apply IH.
  destruct s as [|c s]; [cbn in E; injection E as <- <-; congruence|]. unfold get_attr in E. assert (C : forall n s, List.length (snd (get_chunk n s)) <= List.length s).
  { clear. induction n as [|n IH]; intros [|c s]; cbn [get_chunk]; try (cbn; lia). destruct (c =? 10)%N; [cbn; lia|]. specialize (IH s). destruct (get_chunk n s). cbn in *. lia. }
  cbn [get_chunk] in E. destruct (c =? 10)%N; [injection E as <- <-; cbn in L; lia|]. pose proof (C 6 s) as C6. change (match s with [] => _ | _ :: _ => _ end) with (get_chunk 6 s) in E. destruct (get_chunk 6 s) as [l q]. injection E as <- <-. cbn in *. lia.
Qed.
Lemma range_iff s a b : tc_frame_range s = Ok (a, b) <-> range_file s a b.
Proof.
  split.
  - intro E. unfold tc_frame_range in E. apply bind_ok in E. destruct E as ([[x s1]|] & E1 & E); [|discriminate]. destruct s1 as [|c s1]; [discriminate|]. destruct (N.eqb_spec c 44) as [->|]; [|discriminate].
    apply bind_ok in E. destruct E as ([[y s2]|] & E2 & E); [|discriminate]. injection E as -> ->. destruct (scan_int_sound _ _ _ E1) as (ws1 & t1 & -> & S1 & T1). destruct (scan_int_sound _ _ _ E2) as (ws2 & t2 & -> & S2 & T2).
    destruct (scan_int_stop _ _ _ E1) as (I1 & _). destruct (scan_int_stop _ _ _ E2) as (I2 & ST). exists ws1, t1, ws2, t2, s2. unfold in_int in I1, I2. cbn [app]. repeat (split; [assumption || reflexivity|]). split; lia.
  - intros (ws1 & t1 & ws2 & t2 & r & -> & S1 & T1 & S2 & T2 & ST & I1 & I2). unfold tc_frame_range. rewrite (scan_int_complete ws1 t1 a); [|exact S1|exact T1|intros c r' X; cbn in X; injection X as <- _; lia|unfold in_int; lia]. cbn [bind app]. rewrite N.eqb_refl.
    rewrite (scan_int_complete ws2 t2 b); [|exact S2|exact T2|exact ST|unfold in_int; lia]. reflexivity.
Qed.
(** A sequence can be opened exactly if its files give a frame range and a box
    for every frame; box i belongs to frame first + i.  Partial: the name may go
    on, and the range must not be so large that its length overflows. *)
Theorem C137_sequence_partial : forall num dir file (scan : list N -> option (num * list N)) base name,
  (forall q, tc_sequence_new dir file scan base name = Ok q -> exists rows, temple_says tc_names dir file scan base name (t_start q) (t_end q) rows) /\
  (forall first last rows, temple_says tc_names dir file scan base name first last rows ->
     exists q, tc_sequence_new dir file scan base name = Ok q /\ t_base q = base /\ t_name q = name /\ t_start q = first /\ t_end q = last /\ t_length q = (last - first + 1)%Z /\
       List.length (t_gt q) = List.length rows /\ forall i row, nth_error rows i = Some row -> nth_error (t_gt q) i = Some (map Some row)).
Proof.
  intros num dir file scan base name. unfold tc_sequence_new, temple_says. pose proof (name_found_iff tc_names name) as NF. generalize dependent tc_names. intros names NF.
  unfold tc_dir, tc_file. change bs with text. set (pf := base ++ text "/" ++ name ++ text "/" ++ name ++ text "_frames.txt"). set (pa := base ++ text "/" ++ name ++ text "/" ++ name ++ text "_att.txt"). set (pg := base ++ text "/" ++ name ++ text "/" ++ name ++ text "_gt.txt"). clearbody pf pa pg.
  split.
  - intros q E. destruct (dir base); [|discriminate]. destruct (name_found names name); [|discriminate]. destruct (dir (base ++ text "/" ++ name)); [|discriminate]. cbn [negb] in E.
    destruct (file pf) as [fs|]; [|discriminate]. apply bind_ok in E. destruct E as ([a b] & R & E). apply bind_ok in E. destruct E as (d & D & E). apply bind_ok in E. destruct E as (len & LEN & E).
    unfold chk_int, in_int in D, LEN. destruct (_ && _) eqn:DI in D; [|discriminate]. injection D as <-. destruct (_ && _) eqn:LI in LEN; [|discriminate]. injection LEN as <-.
    destruct (file pa) as [att|]; [|discriminate]. apply bind_ok in E. destruct E as (m & _ & E). apply bind_ok in E. destruct E as (gt & G & E). injection E as <-. cbn [t_start t_end].
    unfold tc_ground_truth in G. destruct (Z.ltb_spec (b - a + 1) 0); [discriminate|]. destruct (file pg) as [gs|]; [|discriminate]. apply bind_ok in G. destruct G as (st & G & _).
    destruct (gt_sound scan _ _ _ _ _ G) as (rows & BX & LR). exists rows. split; [reflexivity|]. split; [now apply NF|]. split; [reflexivity|]. split; [exists fs; split; [reflexivity|now apply range_iff]|]. split; [discriminate|].
    split; [exists gs; auto|]. split; [lia|]. rewrite LR. rewrite Z2Nat.id by lia. split; [reflexivity|lia].
  - intros first last rows (B & N & D & (fs & F & R) & A & (gs & G & BX) & I & L & M). apply NF in N. rewrite B, N, D, F. cbn [negb]. apply range_iff in R. rewrite R. cbn [bind].
    rewrite chk_int_in by exact I. cbn [bind]. rewrite chk_int_in by (unfold INT_MIN; lia). cbn [bind]. destruct (file pa) as [att|]; [|congruence]. destruct (attr_ok att) as (m & ->). cbn [bind]. rewrite G.
    unfold tc_ground_truth. destruct (Z.ltb_spec (last - first + 1) 0); [lia|]. rewrite <- L. rewrite Nat2Z.id.
    destruct (gt_complete scan rows 0 (repeat (repeat None 4) (List.length rows)) gs BX) as (gt & s' & E & LG & _ & V).
    + now rewrite repeat_length.
    + apply Forall_forall. intros x X. apply repeat_spec in X. now subst.
    + rewrite E. cbn [bind fst]. eexists. split; [reflexivity|]. cbn [t_base t_name t_start t_end t_length t_gt]. do 5 (split; [reflexivity|]). split; [now rewrite LG, repeat_length|exact V].
Qed.
Print Assumptions C137_sequence_partial.
Theorem C137_refuted :
  (exists (dir : list N -> bool) (file : list N -> option (list N)) (scan : list N -> option (N * list N)) base name q,
     scan_ok scan /\ ~ In name tc_names /\ tc_sequence_new dir file scan base name = Ok q) /\
  (exists (dir : list N -> bool) (file : list N -> option (list N)) (scan : list N -> option (N * list N)) base name,
     In name tc_names /\ (exists s, file (base ++ text "/" ++ name ++ text "/" ++ name ++ text "_frames.txt") = Some s /\ range_file s 0 INT_MAX) /\ tc_sequence_new dir file scan base name = UB).
Proof.
  split.
  - exists (fun _ => true), (fun _ => Some (text "3,2")), demo_scan, (text "d"), (text "Boyish"). eexists. split; [apply demo_scan_ok|]. split; [|vm_compute; reflexivity].
    intro X. assert (Y : existsb (str_eqb (text "Boyish")) tc_names = true); [|discriminate Y]. apply existsb_exists. exists (text "Boyish"). split; [exact X|reflexivity].
  - exists (fun _ => true), (fun _ => Some (text "0,2147483647")), demo_scan, (text "d"), (text "Boy"). split; [|split; [|vm_compute; reflexivity]].
    + assert (Y : existsb (str_eqb (text "Boy")) tc_names = true) by reflexivity. apply existsb_exists in Y. destruct Y as (x & IX & EX). unfold str_eqb in EX. destruct (list_eq_dec N.eq_dec (text "Boy") x) as [->|]; [exact IX|discriminate].
    + eexists. split; [reflexivity|]. apply range_iff. vm_compute. reflexivity.
Qed.
Print Assumptions C137_refuted.
Example C137_example : temple_says tc_names demo_dir
  (fun p => if str_eqb p (text "d/Boy/Boy_frames.txt") then Some (text "5, 6") else if str_eqb p (text "d/Boy/Boy_att.txt") then Some [] else if str_eqb p (text "d/Boy/Boy_gt.txt") then Some (text "1,2,3,4" ++ [10%N] ++ text "5,6,7,8") else None)
  demo_scan (text "d") (text "Boy") 5 6 [[1; 2; 3; 4]; [5; 6; 7; 8]]%N.
Proof.
  split; [reflexivity|]. split. { exists (text "Boy"). split; [|exists []; reflexivity]. assert (Y : existsb (str_eqb (text "Boy")) tc_names = true) by reflexivity. apply existsb_exists in Y. destruct Y as (x & IX & EX). unfold str_eqb in EX. destruct (list_eq_dec N.eq_dec (text "Boy") x) as [->|]; [exact IX|discriminate]. }
  split; [reflexivity|]. split; [exists (text "5, 6"); split; [reflexivity|apply range_iff; vm_compute; reflexivity]|]. split; [vm_compute; discriminate|].
  split; [eexists; split; [reflexivity|]|unfold INT_MIN, INT_MAX; cbn; lia].
  eapply boxes_cons with (r := 10%N :: text "5,6,7,8") (s' := text "5,6,7,8"); [reflexivity..|apply next_line_skip; reflexivity|].
  eapply boxes_cons with (r := []) (s' := []); [reflexivity..|apply next_line_skip; reflexivity|constructor].
Qed.

(** * C138: the attributes of a sequence *)
(** A file with one attribute on every line: the bits of the mask are those of
    the attributes listed.  Partial: other layouts. *)
Theorem C138_lines_partial : forall ls, Forall (fun l => In l attribute_names) ls ->
  exists m, read_attributes (attribute_lines ls) = Ok m /\ forall i a, nth_error attribute_names i = Some a -> (Z.testbit m (Z.of_nat i) = true <-> In a ls).
Proof.
  intros ls F. destruct (attr_lines_loop ls (S (List.length (attribute_lines ls))) 0%Z F ltac:(lia)) as (m & E & H). exists m. split; [exact E|]. intros i a IA. rewrite (H i a IA). rewrite Z.bits_0. cbn [orb].
  destruct (in_dec (list_eq_dec N.eq_dec) a ls); split; intro X; auto; discriminate.
Qed.
Print Assumptions C138_lines_partial.
(** Attributes separated by commas, or after an empty line, are lost; a line of
    more than six characters is cut into pieces. *)
Theorem C138_refuted : read_attributes (text "SV, OCC" ++ [10%N]) = Ok 2%Z /\ read_attributes (text "SV" ++ [10; 10]%N ++ text "OCC") = Ok 2%Z /\ read_attributes (text "SV     OCC") = Ok 6%Z /\
  forall s, read_attributes (10%N :: s) = Ok 0%Z.
Proof. split; [reflexivity|]. split; [reflexivity|]. split; [reflexivity|]. reflexivity. Qed.
Print Assumptions C138_refuted.
Example C138_example : Forall (fun l => In l attribute_names) (map text ["OCC"; "LR"; "OCC"]%string) /\ read_attributes (attribute_lines (map text ["OCC"; "LR"; "OCC"]%string)) = Ok 1028%Z.
Proof. split; [repeat constructor; cbn; tauto|reflexivity]. Qed.

(** * C139: the file of a frame *)
Lemma pad_unique w z t : (0 <= z)%Z -> padded w z t -> t = print_pad w z.
Proof.
  intros P (k & ds & -> & D & V & LW & K). destruct (pad_spec w z P) as (k' & ds' & -> & D' & V' & LW' & K'). assert (X : ds = ds') by (apply dec_digits_unique; congruence). subst ds'.
  rewrite app_length, repeat_length in K, LW. rewrite app_length, repeat_length in K', LW'. f_equal. f_equal. lia.
Qed.
(** Frames are loaded from their own numbered file: KITTI frames from 0 with six
    digits, VGG frames from 1, as .ppm or else as .pgm, Temple frames with the
    numbers of the range and four digits.  Everything else is refused. *)
Theorem C139_kitti : forall num img (load : list N -> option img) (q : @kitti_sequence num) cam frame i, List.length (k_cams q) = 4 -> (0 <= k_id q)%Z ->
  kitti_load_frame load q cam frame = Ok i <->
  (0 <= cam < 4)%Z /\ (0 <= frame < Z.of_nat (k_length q))%Z /\ nth_error (k_cams q) (Z.to_nat cam) = Some true /\
  exists d n, padded 2 (k_id q) d /\ padded 6 frame n /\ load (k_base q ++ text "/sequences/" ++ d ++ text "/image_" ++ [one_digit (Z.to_nat cam)] ++ text "/" ++ n ++ text ".png") = Some i.
Proof.
  intros num img load q cam frame i LC ID. unfold kitti_load_frame, kitti_frame. change bs with text.
  destruct (Z.ltb_spec cam 0); [split; [discriminate|lia]|]. destruct (Z.ltb_spec 3 cam); [split; [discriminate|lia]|]. cbn [orb].
  destruct (Z.ltb_spec frame 0); [split; [discriminate|lia]|]. destruct (Z.ltb_spec (Z.of_nat (k_length q) - 1) frame); [split; [discriminate|lia]|]. cbn [orb].
  unfold zget, aget. destruct (Z.ltb_spec cam 0); [lia|]. destruct (nth_error (k_cams q) (Z.to_nat cam)) as [b|] eqn:EC; [|apply nth_error_None in EC; lia]. cbn [bind].
  assert (PC : print_int cam = [one_digit (Z.to_nat cam)]) by (assert (C : cam = 0%Z \/ cam = 1%Z \/ cam = 2%Z \/ cam = 3%Z) by lia; destruct C as [->|[->|[->| ->]]]; reflexivity).
  destruct b; cbn [negb]; [|split; [discriminate|intros (_ & _ & X & _); discriminate]]. rewrite PC.
  pose proof pad_unique as UN.
  split.
  - intro E. destruct (load _) as [j|] eqn:LD in E; [|discriminate]. injection E as ->. split; [lia|]. split; [lia|]. split; [reflexivity|]. eexists _, _. split; [now apply pad_spec|]. split; [now apply pad_spec|exact LD].
  - intros (_ & _ & _ & d & n & PD & PN & LD). apply UN in PD; [|exact ID]. apply UN in PN; [|lia]. subst. now rewrite LD.
Qed.
Print Assumptions C139_kitti.
Theorem C139_vgg : forall num img (load : list N -> option img) (q : @vgg_sequence num) frame i, v_length q = 6 ->
  vgg_load_frame load q frame = Ok i <->
  (0 <= frame < 6)%Z /\ let path ext := v_base q ++ text "/" ++ v_name q ++ text "/img" ++ [one_digit (Z.to_nat (frame + 1))] ++ text ext in
  (load (path ".ppm"%string) = Some i \/ load (path ".ppm"%string) = None /\ load (path ".pgm"%string) = Some i).
Proof.
  intros num img load q frame i L. unfold vgg_load_frame, vgg_frame, vgg_frame_alt. change bs with text. rewrite L. change (Z.of_nat 6) with 6%Z.
  destruct (Z.ltb_spec frame 0); [split; [discriminate|lia]|]. destruct (Z.ltb_spec (6 - 1) frame); [split; [discriminate|lia]|]. cbn [orb].
  assert (PC : print_int (frame + 1) = [one_digit (Z.to_nat (frame + 1))]).
  { assert (C : frame = 0%Z \/ frame = 1%Z \/ frame = 2%Z \/ frame = 3%Z \/ frame = 4%Z \/ frame = 5%Z) by lia. destruct C as [->|[->|[->|[->|[->| ->]]]]]; reflexivity. }
  rewrite PC. cbv zeta. destruct (load (_ ++ _ ++ _ ++ _ ++ _ ++ text ".ppm")) as [j|].
  - split; [intro E; injection E as ->; split; [lia|now left]|]. intros (_ & [E|(E & _)]); [congruence|discriminate].
  - destruct (load _) as [j|].
    + split; [intro E; injection E as ->; split; [lia|now right]|]. intros (_ & [E|(_ & E)]); [discriminate|congruence].
    + split; [discriminate|]. intros (_ & [E|(_ & E)]); discriminate.
Qed.
Print Assumptions C139_vgg.
Theorem C139_temple : forall num img (load : list N -> option img) (q : @tc_sequence num) frame i, (0 <= t_start q)%Z ->
  tc_load_frame load q frame = Ok i <->
  (t_start q <= frame <= t_end q)%Z /\ exists n, padded 4 frame n /\ load (t_base q ++ text "/" ++ t_name q ++ text "/img/" ++ n ++ text ".jpg") = Some i.
Proof.
  intros num img load q frame i P. unfold tc_load_frame, tc_frame. change bs with text.
  destruct (Z.ltb_spec frame (t_start q)); [split; [discriminate|lia]|]. destruct (Z.ltb_spec (t_end q) frame); [split; [discriminate|lia]|]. cbn [orb]. split.
  - intro E. destruct (load _) as [j|] eqn:LD in E; [|discriminate]. injection E as ->. split; [lia|]. eexists. split; [apply pad_spec; lia|exact LD].
  - intros (_ & n & PN & LD). apply pad_unique in PN; [|lia]. subst. now rewrite LD.
Qed.
Print Assumptions C139_temple.
Definition ex139k : @kitti_sequence N := {| k_base := text "d"; k_id := 7; k_length := 3; k_gt := true; k_poses := []; k_times := []; k_calib := []; k_cams := [true; false; true; false]; k_lidar := false |}.
Definition ex139v : @vgg_sequence N := {| v_base := text "d"; v_name := text "graf"; v_length := 6; v_h := [] |}.
Definition ex139t : @tc_sequence N := {| t_base := text "d"; t_name := text "Boy"; t_start := 5; t_end := 12; t_length := 8; t_attr := 0; t_gt := [] |}.
Example C139_example : kitti_load_frame Some ex139k 2 1 = Ok (text "d/sequences/07/image_2/000001.png") /\ kitti_load_frame Some ex139k 1 1 = Fatal /\
  vgg_load_frame Some ex139v 5 = Ok (text "d/graf/img6.ppm") /\ vgg_load_frame (fun p => if str_eqb p (text "d/graf/img1.pgm") then Some p else None) ex139v 0 = Ok (text "d/graf/img1.pgm") /\
  tc_load_frame Some ex139t 12 = Ok (text "d/Boy/img/0012.jpg") /\ tc_load_frame Some ex139t 13 = Fatal.
Proof. repeat split; vm_compute; reflexivity. Qed.
