(** C148: what is sent to gnuplot. *)
From Coq Require Import Lia String Ascii.
From Verif Require Import Base BaseLemmas Heap CsvModel CsvSpec DfModel DfSpec DfProofs2 DsModel DsSpec GplModel GplSpec GplProofs.
Local Open Scope Z_scope.
Local Open Scope list_scope.

Lemma says_line l ts : one_line l -> tokens l = ts -> says (l ++ [10%N]) [ts].
Proof. intros Hl <- t. unfold statements. rewrite <- app_assoc. cbn [app]. rewrite lines_line by auto. reflexivity. Qed.
Lemma says_app a b x y : says a x -> says b y -> says (a ++ b) (x ++ y).
Proof. intros Ha Hb t. rewrite <- !app_assoc, Ha, Hb. reflexivity. Qed.
Ltac ol := unfold bs; cbn [list_ascii_of_string map]; repeat (first [apply Forall_app; split | apply Forall_cons; [discriminate|] | apply Forall_nil]);
  try (apply plain_line; assumption); try (apply word_line; apply print_int_word); try (apply word_line; auto; fail).
(** Splits a text at its newlines. *)
Ltac two l1 l2 := match goal with |- says ?o (?a :: ?b) => replace o with ((l1 ++ [10%N]) ++ (l2 ++ [10%N])) by (repeat rewrite <- app_assoc; reflexivity);
  change (a :: b) with ([a] ++ b); apply says_app; apply says_line end.
Ltac nw := first [rewrite in_str by (apply plain_no_quote; assumption); cbn | rewrite start_word by (first [apply print_int_word | auto]); cbn |
                  rewrite in_word by (apply word_blank; first [apply print_int_word | auto]); cbn].

(** The title, and the title with both labels: the statements set them to the texts. *)
Theorem C148_titles_partial : forall g title xlabel ylabel, plain title -> plain xlabel -> plain ylabel ->
  (exists out, sent (set_title g title) = sent g ++ out /\ says out [[w "set"; w "title"; Str title; w ";"]]) /\
  (exists out, sent (set_title_and_labels g title xlabel ylabel) = sent g ++ out /\
     says out [[w "set"; w "title"; Str title; w ";"]; [w "set"; w "xlabel"; Str xlabel; w ";"]; [w "set"; w "ylabel"; Str ylabel; w ";"]]) /\
  is_pipe (set_title g title) = is_pipe g /\ is_pipe (set_title_and_labels g title xlabel ylabel) = is_pipe g.
Proof.
  intros g title xlabel ylabel Ht Hx Hy.
  assert (forall s, plain s -> forall a, In a ["title"; "xlabel"; "ylabel"]%string ->
    says (bs ("set " ++ a ++ " ") ++ [34%N] ++ s ++ [34%N] ++ bs ";" ++ [10%N]) [[w "set"; w a; Str s; w ";"]]) as H.
  { intros s Hs a Ha. replace (bs ("set " ++ a ++ " ") ++ [34%N] ++ s ++ [34%N] ++ bs ";" ++ [10%N])
      with ((bs ("set " ++ a ++ " ") ++ [34%N] ++ s ++ [34%N] ++ bs ";") ++ [10%N]) by (repeat rewrite <- app_assoc; reflexivity).
    apply says_line; destruct Ha as [<-|[<-|[<-|[]]]]; [ol; discriminate|ol; discriminate|ol; discriminate| | |]; cbn; nw; reflexivity. }
  split; [|split; [|split; reflexivity]].
  - eexists. split; [reflexivity|]. apply (H title Ht "title"%string). left; auto.
  - eexists. split; [reflexivity|].
    change [[w "set"; w "title"; Str title; w ";"]; [w "set"; w "xlabel"; Str xlabel; w ";"]; [w "set"; w "ylabel"; Str ylabel; w ";"]]
      with ([[w "set"; w "title"; Str title; w ";"]] ++ [[w "set"; w "xlabel"; Str xlabel; w ";"]] ++ [[w "set"; w "ylabel"; Str ylabel; w ";"]]).
    replace (bs "set title " ++ [34%N] ++ title ++ [34%N] ++ bs ";" ++ [10%N] ++ bs "set xlabel " ++ [34%N] ++ xlabel ++ [34%N] ++ bs ";" ++ [10%N] ++
             bs "set ylabel " ++ [34%N] ++ ylabel ++ [34%N] ++ bs ";" ++ [10%N])
      with ((bs ("set " ++ "title" ++ " ") ++ [34%N] ++ title ++ [34%N] ++ bs ";" ++ [10%N]) ++
            (bs ("set " ++ "xlabel" ++ " ") ++ [34%N] ++ xlabel ++ [34%N] ++ bs ";" ++ [10%N]) ++
            (bs ("set " ++ "ylabel" ++ " ") ++ [34%N] ++ ylabel ++ [34%N] ++ bs ";" ++ [10%N])) by (repeat rewrite <- app_assoc; reflexivity).
    apply says_app; [apply H; cbn; auto|]. apply says_app; apply H; cbn; auto.
Qed.
Print Assumptions C148_titles_partial.

(** The functions for one label do not set it, whatever the label: the statement they
    send is about the title. *)
Theorem C148_labels_refuted : forall g label, plain label ->
  (exists out, sent (set_xlabel g label) = sent g ++ out /\ ~ says out [[w "set"; w "xlabel"; Str label; w ";"]] /\
     says out [[w "set"; w "title"; w "xlabel"; Str label; w ";"]]) /\
  (exists out, sent (set_ylabel g label) = sent g ++ out /\ ~ says out [[w "set"; w "ylabel"; Str label; w ";"]] /\
     says out [[w "set"; w "title"; w "ylabel"; Str label; w ";"]]).
Proof.
  intros g label Hl.
  assert (forall out s1 s2, s1 <> s2 -> says out [s1] -> ~ says out [s2]) as Hn.
  { intros out s1 s2 Hd H1 H2. specialize (H1 []). specialize (H2 []). rewrite H1 in H2. injection H2 as H2. auto. }
  assert (forall a, In a ["xlabel"; "ylabel"]%string ->
    says (bs ("set title " ++ a ++ " ") ++ [34%N] ++ label ++ [34%N] ++ bs ";" ++ [10%N]) [[w "set"; w "title"; w a; Str label; w ";"]]) as H.
  { intros a Ha. replace (bs ("set title " ++ a ++ " ") ++ [34%N] ++ label ++ [34%N] ++ bs ";" ++ [10%N])
      with ((bs ("set title " ++ a ++ " ") ++ [34%N] ++ label ++ [34%N] ++ bs ";") ++ [10%N]) by (repeat rewrite <- app_assoc; reflexivity).
    apply says_line; destruct Ha as [<-|[<-|[]]]; [ol; discriminate|ol; discriminate| |]; cbn; nw; reflexivity. }
  split.
  - pose proof (H "xlabel"%string ltac:(cbn; auto)) as H1. eexists. split; [reflexivity|]. split; [|exact H1]. refine (Hn _ _ _ _ H1). discriminate.
  - pose proof (H "ylabel"%string ltac:(cbn; auto)) as H1. eexists. split; [reflexivity|]. split; [|exact H1]. refine (Hn _ _ _ _ H1). discriminate.
Qed.
Print Assumptions C148_labels_refuted.

(** A title with a quote: the statement ends at the quote.  One with a newline can
    carry further commands. *)
Theorem C148_quotes_refuted : forall g,
  (exists out, sent (set_title g (text "5" ++ [34%N] ++ text " lens")) = sent g ++ out /\
     says out [[w "set"; w "title"; Str (text "5"); w "lens"";"]]) /\
  (exists title out, sent (set_title g title) = sent g ++ out /\
     says out [[w "set"; w "title"; Str (text "a"); w ";"]; [w "set"; w "output"; Str (text "b"); w ";"]]).
Proof.
  intros g. split.
  - eexists. split; [reflexivity|]. intros t. reflexivity.
  - exists (text "a"";" ++ [10%N] ++ text "set output ""b"). eexists. split; [reflexivity|]. intros t. reflexivity.
Qed.
Print Assumptions C148_quotes_refuted.

(** The terminals: type, size and file name as asked for. *)
Theorem C148_terminals_partial : forall print_lf, (forall d, word_like (print_lf d)) ->
  forall g, (forall width height title filename id, plain title -> plain filename ->
  (exists out, sent (set_terminal_window g width height title id) = sent g ++ out /\
     says out [[w "set"; w "terminal"; w "qt"; Word (print_int id); w "size"; Word (print_int width ++ text "," ++ print_int height);
                w "enhanced"; w "title"; Str title; w ";"]; [w "unset"; w "output;"]]) /\
  (exists out, sent (set_terminal_svg g width height title filename) = sent g ++ out /\
     says out [[w "set"; w "terminal"; w "svg"; w "size"; Word (print_int width ++ text "," ++ print_int height);
                w "enhanced"; w "name"; Str title; w ";"]; [w "set"; w "output"; Str filename; w ";"]])) /\
  (forall width height filename, plain filename ->
  (exists out, sent (set_terminal_pdf print_lf g width height filename) = sent g ++ out /\
     says out [[w "set"; w "terminal"; w "pdfcairo"; w "enhanced"; w "color"; w "size";
                Word (print_lf width ++ text "cm," ++ print_lf height ++ text "cm")]; [w "set"; w "output"; Str filename]]) /\
  (exists out, sent (set_terminal_eps print_lf g width height filename) = sent g ++ out /\
     says out [[w "set"; w "terminal"; w "epscairo"; w "enhanced"; w "color"; w "size";
                Word (print_lf width ++ text "cm," ++ print_lf height ++ text "cm;")]; [w "set"; w "output"; Str filename]])) /\
  (forall width height linefeed, exists out, sent (set_terminal_ascii g width height linefeed) = sent g ++ out /\
     says out [[w "set"; w "terminal"; w "dumb"; w "size"; Word (print_int width ++ text "," ++ print_int height);
                w "enhanced"; if linefeed then w "feed;" else w "nofeed;"]]).
Proof.
  intros print_lf Hlf g. split; [|split].
  - intros width height title filename id Ht Hf. split; (eexists; split; [reflexivity|]).
    + two (bs "set terminal qt " ++ print_int id ++ bs " size " ++ print_int width ++ bs "," ++ print_int height ++
        bs " enhanced title " ++ [34%N] ++ title ++ [34%N] ++ bs ";") (bs "unset output;"); [ol; discriminate| |ol; discriminate|reflexivity].
      cbn -[print_int]. repeat nw. rewrite <- ?app_assoc. reflexivity.
    + two (bs "set terminal svg size " ++ print_int width ++ bs "," ++ print_int height ++
        bs " enhanced name " ++ [34%N] ++ title ++ [34%N] ++ bs ";") (bs "set output " ++ [34%N] ++ filename ++ [34%N] ++ bs ";"); [ol; discriminate| |ol; discriminate|].
      * cbn -[print_int]. repeat nw. rewrite <- ?app_assoc. reflexivity.
      * cbn. repeat nw. reflexivity.
  - intros width height filename Hf. split; (eexists; split; [reflexivity|]).
    + two (bs "set terminal pdfcairo enhanced color size " ++ print_lf width ++ bs "cm," ++ print_lf height ++ bs "cm") (bs "set output " ++ [34%N] ++ filename ++ [34%N]);
        [ol; discriminate| |ol; discriminate|].
      * cbn. repeat nw. rewrite <- ?app_assoc. reflexivity.
      * cbn. repeat nw. reflexivity.
    + two (bs "set terminal epscairo enhanced color size " ++ print_lf width ++ bs "cm," ++ print_lf height ++ bs "cm;") (bs "set output " ++ [34%N] ++ filename ++ [34%N]);
        [ol; discriminate| |ol; discriminate|].
      * cbn. repeat nw. rewrite <- ?app_assoc. reflexivity.
      * cbn. repeat nw. reflexivity.
  - intros width height linefeed. eexists. split; [reflexivity|].
    match goal with |- says ?o _ => replace o with ((bs "set terminal dumb size " ++ print_int width ++ bs "," ++ print_int height ++ bs " enhanced " ++
      (if linefeed then [] else bs "no") ++ bs "feed;") ++ [10%N]) by (repeat rewrite <- app_assoc; reflexivity) end.
    apply says_line; [destruct linefeed; ol; discriminate|]. destruct linefeed; cbn -[print_int]; repeat nw; rewrite <- ?app_assoc; reflexivity.
Qed.
Print Assumptions C148_terminals_partial.

(** A data frame, sent as a named block or inline: after the introduction the reader
    finds the labels, then the rows in order, each with all its values, then the end
    mark; what is sent next is read as usual. *)
Theorem C148_frame_partial : forall print_d, (forall d, (List.length (print_d d) <= 255)%nat /\ word_like (print_d d)) ->
  forall os h df T, history print_d os h df T -> sendable T ->
  let rows := label_row T :: map (value_row print_d T) (seq 0 (trows T)) in
  forall g, (forall name, plain name -> exists g' out, send_data_frame print_d g h df (Some name) = Ok g' /\ sent g' = sent g ++ out /\
    forall t, exists body block, lines (out ++ t) = (text "$" ++ name ++ text " << EOD") :: body /\
      until (text "EOD") body = Some (block, lines t) /\ map tokens block = rows) /\
  (exists g' out, send_data_frame print_d g h df None = Ok g' /\ sent g' = sent g ++ out /\
    forall t, exists block, until (text "e") (lines (out ++ t)) = Some (block, lines t) /\ map tokens block = rows).
Proof.
  intros print_d Hd os h df T Hh Hs rows g.
  destruct (history_rep print_d os h df T (fun d => proj1 (Hd d)) Hh) as (HR & _ & _).
  destruct (rows_sendable print_d h df T (fun d => proj2 (Hd d)) HR Hs) as [E Hrows]. fold rows in E, Hrows.
  destruct (send_lines rows Hrows) as (H1 & H2 & H3 & H4). set (ls := map (fun ts => join 32%N (map token_text ts)) rows) in *.
  split.
  - intros name Hname. unfold send_data_frame. rewrite E. cbn [bind]. eexists. eexists. split; [reflexivity|]. split; [reflexivity|].
    intros t. exists (ls ++ text "EOD" :: lines t), ls. split; [|split; [apply until_lines; auto|exact H4]].
    replace (((bs "$" ++ name ++ bs " << EOD" ++ [10%N]) ++ flat_map (fun l => l ++ [10%N]) ls ++ bs "EOD" ++ [10%N]) ++ t)
      with ((text "$" ++ name ++ text " << EOD") ++ 10%N :: flat_map (fun l => l ++ [10%N]) ls ++ text "EOD" ++ 10%N :: t)
      by (repeat rewrite <- app_assoc; reflexivity).
    rewrite lines_line by (unfold text; cbn [list_ascii_of_string map]; ol; discriminate). rewrite lines_lines by auto. rewrite lines_line by (unfold text; ol; discriminate). reflexivity.
  - unfold send_data_frame. rewrite E. cbn [bind]. eexists. eexists. split; [reflexivity|]. split; [reflexivity|].
    intros t. exists ls. split; [|exact H4].
    replace ((flat_map (fun l => l ++ [10%N]) ls ++ bs "e" ++ [10%N]) ++ t)
      with (flat_map (fun l => l ++ [10%N]) ls ++ text "e" ++ 10%N :: t) by (repeat rewrite <- app_assoc; reflexivity).
    rewrite lines_lines by auto. rewrite lines_line by (unfold text; ol; discriminate). apply until_lines; auto.
Qed.
Print Assumptions C148_frame_partial.

(** A missing value leaves no trace in its row, so that the values after it are read
    as those of the columns before; and a string with a newline can end the block. *)
Theorem C148_missing_refuted : forall print_d g, (forall d, (List.length (print_d d) <= 255)%nat) ->
  (exists os h df T g' out body, history print_d os h df T /\
     map (fun c => nth 0 (acells c) None) (tcols T) = [None; Some (AInt 7)] /\
     send_data_frame print_d g h df None = Ok g' /\ sent g' = sent g ++ out /\
     until (text "e") (lines out) = Some (body, []) /\ map tokens body = [[Str (text "x"); Str (text "y")]; [w "7"]]) /\
  (exists os h df T g' out body rest, history print_d os h df T /\
     send_data_frame print_d g h df None = Ok g' /\ sent g' = sent g ++ out /\
     until (text "e") (lines out) = Some (body, rest) /\ map tokens rest = [[w "set"; w "output"; Str []]; [w "e"]]).
Proof.
  intros print_d g Hp. split.
  - exists [DfAddColumn DINT (text "x"); DfAddColumn DINT (text "y"); DfAddRow; DfSetInt 0 1 7].
    do 6 eexists. split; [|split; [|split; [|split; [|split]]]].
    + unfold history. split; [|split; [|split]]; [repeat constructor; vm_compute; auto; try discriminate; try reflexivity|cbn; lia|cbv; reflexivity|cbv; reflexivity].
    + reflexivity.
    + reflexivity.
    + reflexivity.
    + reflexivity.
    + reflexivity.
  - exists [DfAddColumn DSTRING (text "x"); DfAddRow; DfSetString 0 0 ([10%N] ++ text "e" ++ [10%N] ++ text "set output ")].
    do 7 eexists. split; [|split; [|split; [|split]]].
    + unfold history. split; [|split; [|split]]; [repeat constructor; vm_compute; auto; try discriminate; try reflexivity|cbn; lia|cbv; reflexivity|cbv; reflexivity].
    + reflexivity.
    + reflexivity.
    + reflexivity.
    + reflexivity.
Qed.
Print Assumptions C148_missing_refuted.

(** The terminal chosen by its type; sizes given as doubles are converted. *)
Theorem C148_choice_partial : forall print_lf d2i g width height wi hi name id, (forall d, word_like (print_lf d)) -> plain name ->
  d2i width = Ok wi -> d2i height = Ok hi -> forall ty, exists g' out,
  set_terminal print_lf d2i g ty width height name id = Ok g' /\ sent g' = sent g ++ out /\
  let ints := Word (print_int wi ++ text "," ++ print_int hi) in
  let lfs e := Word (print_lf width ++ text "cm," ++ print_lf height ++ text e) in
  says out
    match ty with
    | GWindow => [[w "set"; w "terminal"; w "qt"; Word (print_int id); w "size"; ints; w "enhanced"; w "title"; Str name; w ";"]; [w "unset"; w "output;"]]
    | GSvg => [[w "set"; w "terminal"; w "svg"; w "size"; ints; w "enhanced"; w "name"; Str (text "VIRG"); w ";"]; [w "set"; w "output"; Str name; w ";"]]
    | GPdf => [[w "set"; w "terminal"; w "pdfcairo"; w "enhanced"; w "color"; w "size"; lfs "cm"%string]; [w "set"; w "output"; Str name]]
    | GEps => [[w "set"; w "terminal"; w "epscairo"; w "enhanced"; w "color"; w "size"; lfs "cm;"%string]; [w "set"; w "output"; Str name]]
    | GAscii => [[w "set"; w "terminal"; w "dumb"; w "size"; ints; w "enhanced"; w "feed;"]]
    end.
Proof.
  intros print_lf d2i g width height wi hi name id Hlf Hn Ew Eh ty. destruct (C148_terminals_partial print_lf Hlf g) as (H1 & H2 & H3).
  assert (plain (text "VIRG")) as Hv by (cbn; repeat constructor; lia).
  destruct ty; cbn [set_terminal]; rewrite ?Ew; cbn [bind]; rewrite ?Eh; cbn [bind]; eexists.
  - destruct (H1 wi hi name name id Hn Hn) as [(out & E & S1) _]. exists out. auto.
  - destruct (H1 wi hi (text "VIRG") name id Hv Hn) as [_ (out & E & S1)]. exists out. auto.
  - destruct (H2 width height name Hn) as [(out & E & S1) _]. exists out. auto.
  - destruct (H2 width height name Hn) as [_ (out & E & S1)]. exists out. auto.
  - destruct (H3 wi hi true) as (out & E & S1). exists out. auto.
Qed.
Print Assumptions C148_choice_partial.

(** A given stream is continued and stays open; a pipe is closed at the end; if no pipe
    can be opened the program ends. *)
Theorem C148_stream : 
  (forall s popen, exists g out, gplot_new (Some s) popen = Ok g /\ sent g = s ++ out /\ gplot_free g = false /\
     says out [[w "set"; w "border"; w "3"; w "lw"; w "3;"]; [w "set"; w "xtics"; w "out"; w "nomirror;"]; [w "set"; w "ytics"; w "out"; w "nomirror;"]]) /\
  (exists g, gplot_new None true = Ok g /\ gplot_free g = true /\
     says (sent g) [[w "set"; w "border"; w "3"; w "lw"; w "3;"]; [w "set"; w "xtics"; w "out"; w "nomirror;"]; [w "set"; w "ytics"; w "out"; w "nomirror;"]]) /\
  gplot_new None false = Fatal /\
  (forall print_lf d2i g ty width height name id g', set_terminal print_lf d2i g ty width height name id = Ok g' -> gplot_free g' = gplot_free g) /\
  (forall print_d g h df label g', send_data_frame print_d g h df label = Ok g' -> gplot_free g' = gplot_free g).
Proof.
  split; [|split; [|split; [|split]]].
  - intros s popen. eexists. eexists. split; [reflexivity|]. split; [reflexivity|]. split; [reflexivity|]. intros t. reflexivity.
  - eexists. split; [reflexivity|]. split; [reflexivity|]. intros t. reflexivity.
  - reflexivity.
  - intros print_lf d2i g ty width height name id g' E. destruct ty; cbn [set_terminal] in E;
      repeat match type of E with bind ?m _ = Ok _ => destruct m; cbn [bind] in E; try discriminate end; injection E as <-; reflexivity.
  - intros print_d g h df label g' E. destruct label; cbn [send_data_frame] in E; destruct (frame_fprintf _ _ _ _); cbn [bind] in E; try discriminate; injection E as <-; reflexivity.
Qed.
Print Assumptions C148_stream.

Example C148_example : exists h df T,
  history (fun _ => text "0.5") [DfAddColumn DINT (text "t"); DfAddColumn DDOUBLE (text "err"); DfAddRow; DfSetInt 0 0 (-3); DfSetDouble 0 1 0%N] h df T /\
  sendable T /\ (forall d : N, (List.length (text "0.5") <= 255)%nat /\ word_like (text "0.5")) /\
  (let* g := send_data_frame (fun _ => text "0.5") (mkG [] false) h df (Some (text "run")) in Ok (statements (sent g))) =
  Ok [[w "$run"; w "<<"; w "EOD"]; [Str (text "t"); Str (text "err")]; [w "-3"; w "0.5"]; [w "EOD"]].
Proof.
  do 3 eexists. split; [|split; [|split]].
  - unfold history. split; [|split; [|split]]; [repeat constructor; vm_compute; auto; try discriminate; try reflexivity|cbn; lia|cbv; reflexivity|cbv; reflexivity].
  - split; [discriminate|]. split.
    + intros c [<-|[<-|[]]]; cbn; (split; [repeat constructor; lia|]); repeat constructor; cbn; intuition lia.
    + intros c v [<-|[<-|[]]] [<-|[]]; exact I.
  - intros d. split; [cbn; lia|]. split; [cbn; repeat constructor; lia|]. eexists. eexists. split; [reflexivity|]. split; discriminate.
  - vm_compute. reflexivity.
Qed.
