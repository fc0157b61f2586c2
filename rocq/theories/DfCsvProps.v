(** Properties C28 and C29. *)
From Verif Require Import Base BaseLemmas Heap StrModel CsvModel CsvSpec CsvProofs DfModel DfSpec DfProofs DfProofs2
  DfCsvSpec DfCsvProofs DfCsvProofs2.
Local Open Scope Z_scope.

(** C28: saving any frame a client can build gives the CSV text of its labels
    and rows, and loading that text gives the frame [reload] describes.  [atof],
    [strtod_all] and [print_d] are the C library's number conversions. *)
Theorem C28_reload : forall print_d atof strtod_all os h df T fuel,
  (forall d, (length (print_d d) <= 255)%nat) ->
  history print_d os h df T -> frame_ok print_d atof strtod_all T ->
  let text := csv_text (label_record T :: row_records print_d T) in
  save_csv print_d h df = Ok text /\
  (Z.of_nat (length text) <= 536870912 ->
   exists h' df', load_csv_stream atof strtod_all print_d fuel [] text false = Ok (h', df') /\
     shows h' df' (reload print_d strtod_all T)).
Proof.
  intros print_d atof strtod_all os h df T fuel Hp Hh Hok text.
  destruct (history_rep print_d os h df T Hp Hh) as (HR & _ & _).
  destruct (records_table print_d atof strtod_all h df T HR Hok) as (Ht & Hl). pose proof Hok as (Hne & Hv & _). split.
  - rewrite (save_sim print_d h df T HR Hne). rewrite label_line_csv by apply Hv. unfold text, csv_text. cbn [flat_map].
    rewrite app_nil_r. reflexivity.
  - intros Hlen. assert (Forall text_char text) as Htc.
    { apply csv_text_chars. destruct Ht as (r0 & rest & _ & _ & H). eapply Forall_impl; [|exact H]. cbn. tauto. }
    assert (parse_csv text = Ok (length (tcols T), label_record T :: row_records print_d T)) as Ep.
    { apply parse_iff; [apply text_bytes; auto|]. split; auto. split; auto. rewrite visible_id by auto. left. reflexivity. }
    pose proof (load_false atof strtod_all print_d fuel text ltac:(apply text_bytes; auto) Hlen) as Hload. rewrite Ep in Hload.
    destruct Hload as (h' & df' & E & HR' & _). exists h', df'. split; auto.
    rewrite (loaded_reload print_d strtod_all atof h df T HR Hok) in HR'. apply rep_shows. exact HR'.
Qed.
Print Assumptions C28_reload.

(** C28, for the frames that do come back: every label and value can be written,
    and every column is a string column or has a value that shows its type. *)
Theorem C28_round_trip_partial : forall print_d atof strtod_all os h df T fuel text,
  (forall d, (length (print_d d) <= 255)%nat) ->
  history print_d os h df T -> frame_ok print_d atof strtod_all T -> Forall (column_stable print_d strtod_all) (tcols T) ->
  save_csv print_d h df = Ok text -> Z.of_nat (length text) <= 536870912 ->
  exists h' df', load_csv_stream atof strtod_all print_d fuel [] text false = Ok (h', df') /\ shows h' df' T.
Proof.
  intros print_d atof strtod_all os h df T fuel text Hp Hh Hok Hst Es Hlen.
  destruct (C28_reload print_d atof strtod_all os h df T fuel Hp Hh Hok) as [E Hl]. rewrite E in Es. injection Es as <-.
  destruct (Hl Hlen) as (h' & df' & El & Hs). exists h', df'. split; auto.
  destruct (history_rep print_d os h df T Hp Hh) as (HR & _ & _).
  assert (forall ac, In ac (tcols T) -> reload_column print_d strtod_all ac = strip ac /\ atype ac <> DFACTOR) as Hrc.
  { intros ac Hac. rewrite Forall_forall in Hst. apply reload_stable; auto. apply (rep_typed _ _ _ _ HR ac Hac). }
  apply shows_strip; [intros; apply Hrc; auto|]. unfold reload in Hs. rewrite (map_ext_in _ strip) in Hs; auto. intros; apply Hrc; auto.
Qed.
Print Assumptions C28_round_trip_partial.

(** Number conversions for the examples: a double is printed as "n.5", or as
    "n" when even. *)
Definition demo_print (d : N) : list N := (if N.even d then print_int (Z.of_N d mod 1000) else print_int (Z.of_N d mod 1000) ++ [46%N; 53%N]).
Definition demo_atof (s : list N) : N := Z.to_N (atoi s).
Definition save_load print_d os : res (list N * res (list dctype * list (list N) * list (list (res (option aval))))) :=
  let* (h, df) := df_run print_d [] frame_alloc os in
  let* text := save_csv print_d h df in
  Ok (text,
   let* (h', df') := load_csv_stream demo_atof (fun _ => true) print_d 0 [] text false in
   Ok (map ctype (cols df'), map clabel (cols df'),
       map (fun c => map (fun r => cell_value h' df' (Z.of_nat r) (Z.of_nat c)) (seq 0 (Z.to_nat (n_rows df')))) (seq 0 (length (cols df'))))).

Definition demo_frame : list dfop :=
  [DfAddColumn DSTRING [110%N; 44%N]; DfAddColumn DINT [105%N]; DfAddColumn DDOUBLE [100%N]; DfAddColumn DBOOL [98%N];
   DfAppendRow [VStr [97%N; 34%N; 10%N]; VInt (-7); VDbl 3%N; VInt 1]; DfAddRow; DfAppendRow [VStr []; VInt 12; VDbl 4%N; VInt 0]].
Example C28_example :
  exists h df T text, history demo_print demo_frame h df T /\ frame_ok demo_print demo_atof (fun _ => true) T /\
    Forall (column_stable demo_print (fun _ => true)) (tcols T) /\ save_csv demo_print h df = Ok text /\
    (* "n,","i","d","b" / "a""\n",-7,3.5,true / ,,, / "",12,4,false *)
    text = [34; 110; 44; 34; 44; 34; 105; 34; 44; 34; 100; 34; 44; 34; 98; 34; 10;
            34; 97; 34; 34; 10; 34; 44; 45; 55; 44; 51; 46; 53; 44; 116; 114; 117; 101; 10;
            44; 44; 44; 10;
            34; 34; 44; 49; 50; 44; 52; 44; 102; 97; 108; 115; 101; 10]%N.
Proof.
  eexists _, _, _, _. split; [|split; [|split; [|split]]].
  - split; [repeat constructor|]. split; [reflexivity|]. split; vm_compute; reflexivity.
  - split; [discriminate|]. split; [|intros ac; discriminate].
    intros ac H. cbn [In tcols] in H.
    repeat (destruct H as [<-|H]; [split; [repeat constructor; cbn; intuition discriminate|
      cbn [acells In]; intros v Hv; repeat (destruct Hv as [Hv|Hv]; [try discriminate; injection Hv as <-; cbn;
        repeat (split || constructor || discriminate); vm_compute; auto|]); contradiction]|]). contradiction.
  - cbn [tcols]. apply Forall_cons; [exact I|]. apply Forall_cons; [eexists; left; reflexivity|].
    apply Forall_cons; [exists 3%N; split; [left; reflexivity|reflexivity]|]. apply Forall_cons; [|constructor].
    split; [eexists; left; reflexivity|]. intros z [H|[H|[H|[]]]]; try discriminate; injection H as <-; auto.
  - vm_compute. reflexivity.
  - reflexivity.
Qed.

(** Frames outside that class do not come back: a label with a quote; an int
    column without values; a double column of integers; a factor; a row of one
    NA; no columns. *)
Theorem C28_round_trip_refuted :
  (* a label with a quote: it is written with a backslash, which CSV rejects *)
  save_load demo_print [DfAddColumn DSTRING [97; 34; 98]%N] = Ok ([34; 97; 92; 34; 98; 34; 10]%N, Fatal) /\
  (* a label with a newline comes back as backslash n *)
  save_load demo_print [DfAddColumn DSTRING [97; 10]%N] =
    Ok ([34; 97; 92; 110; 34; 10]%N, Ok ([DSTRING], [[97; 92; 110]%N], [[]])) /\
  (* an int column without values comes back as strings *)
  save_load demo_print [DfAddColumn DINT [105%N]; DfAddColumn DINT [106%N]; DfAddRow; DfSetInt 0 1 5] =
    Ok ([34; 105; 34; 44; 34; 106; 34; 10; 44; 53; 10]%N,
        Ok ([DSTRING; DINT], [[105%N]; [106%N]], [[Ok None]; [Ok (Some (AInt 5))]])) /\
  (* a double column of integers comes back as ints *)
  save_load demo_print [DfAddColumn DDOUBLE [100%N]; DfAddRow; DfSetDouble 0 0 4%N] =
    Ok ([34; 100; 34; 10; 52; 10]%N, Ok ([DINT], [[100%N]], [[Ok (Some (AInt 4))]])) /\
  (* a factor comes back as strings *)
  save_load demo_print [DfAddColumn DFACTOR [102%N]; DfAddRow; DfSetFactor 0 0 [97%N]] =
    Ok ([34; 102; 34; 10; 34; 97; 34; 10]%N, Ok ([DSTRING], [[102%N]], [[Ok (Some (AStr [97%N]))]])) /\
  (* one column with an NA row, and no columns: rejected *)
  save_load demo_print [DfAddColumn DINT [105%N]; DfAddRow] = Ok ([34; 105; 34; 10; 10]%N, Fatal) /\
  save_load demo_print [DfAddRow] = Ok ([], Fatal).
Proof. vm_compute. repeat split. Qed.
Print Assumptions C28_round_trip_refuted.

(** C29, without strings_as_factors: loading any text of up to 2^29 bytes either
    returns the table of its records or rejects the text as not being CSV. *)
Theorem C29_load_returns_partial : forall atof strtod_all print_d fuel file,
  bytes_ok file -> Z.of_nat (length file) <= 536870912 ->
  (exists h df nc hdr rows, load_csv_stream atof strtod_all print_d fuel [] file false = Ok (h, df) /\
     parse_csv file = Ok (nc, hdr :: rows) /\ shows h df (loaded atof strtod_all nc hdr rows)) \/
  (load_csv_stream atof strtod_all print_d fuel [] file false = Fatal /\ parse_csv file = Fatal).
Proof.
  intros atof strtod_all print_d fuel file Hb Hl. pose proof (load_false atof strtod_all print_d fuel file Hb Hl) as H.
  destruct (parse_csv file) as [[nc [|hdr rows]]| | |]; try contradiction; auto.
  destruct H as (h & df & E & HR & _). left. exists h, df, nc, hdr, rows. split; auto. split; auto. apply rep_shows. exact HR.
Qed.
Print Assumptions C29_load_returns_partial.

(** With strings_as_factors no text that loads otherwise ever loads: the loop
    runs on until its counter overflows. *)
Theorem C29_strings_as_factors_refuted : forall atof strtod_all print_d file h df,
  (forall d, (length (print_d d) <= 255)%nat) ->
  bytes_ok file -> Z.of_nat (length file) <= 536870912 ->
  load_csv_stream atof strtod_all print_d 0 [] file false = Ok (h, df) ->
  forall fuel, load_csv_stream atof strtod_all print_d fuel [] file true = NoFuel \/
               load_csv_stream atof strtod_all print_d fuel [] file true = UB.
Proof.
  intros atof strtod_all print_d file h df Hp Hb Hl E fuel.
  pose proof (load_false atof strtod_all print_d 0 file Hb Hl) as H.
  destruct (parse_csv file) as [[nc [|hdr rows]]| | |] eqn:Ep; try contradiction; [|congruence].
  destruct H as (h1 & df1 & E1 & HR & Hnc & Hs). rewrite E in E1. injection E1 as <- <-.
  unfold load_csv_stream in *. rewrite (read_stream_ok file 1024 0 []) in * by lia. cbn [app bind] in *.
  destruct (csv_parse atof strtod_all [] file) as [[h1 df1]| | |]; cbn [bind] in *; try discriminate. injection E as -> ->.
  apply (factors_loop_never print_d fuel Hp h df _ _ HR).
  - cbn. destruct nc; [congruence|]. discriminate.
  - unfold small. cbn [loaded trows]. lia.
Qed.
Print Assumptions C29_strings_as_factors_refuted.

Example C29_example :
  (* n,i / ab,-7 / ,12 *)
  let file := [110; 44; 105; 10; 97; 98; 44; 45; 55; 10; 44; 49; 50]%N in
  bytes_ok file /\
  match load_csv_stream demo_atof (fun _ => false) demo_print 0 [] file false with
  | Ok (h, df) => map ctype (cols df) = [DSTRING; DINT] /\ n_rows df = 2 /\
      map (fun c => map (fun r => cell_value h df r c) [0; 1]) [0; 1] =
        [[Ok (Some (AStr [97; 98]%N)); Ok None]; [Ok (Some (AInt (-7))); Ok (Some (AInt 12))]]
  | _ => False
  end /\
  load_csv_stream demo_atof (fun _ => false) demo_print 100 [] file true = NoFuel.
Proof.
  intros file. split; [unfold file, bytes_ok; repeat constructor; unfold byte_ok; lia|].
  vm_compute. repeat split.
Qed.
