(** Plotting: src/nx_gnuplot.c.

    Simplifications.  A stream is the text written to it; writing does not fail.  Texts
    are byte lists without NUL and pointers are not NULL unless the code asks.  [print_d]
    is what nx_data_frame_fprintf writes for a double, [print_lf] what printf writes
    for %lf, [d2i] the conversion of a double to an int. *)
From Coq Require Import String Ascii.
From Verif Require Import Base Heap DfModel DsModel.
Local Open Scope Z_scope.
Local Open Scope list_scope.

Section Gnuplot.
Variable print_d : N -> list N.
Variable print_lf : N -> list N.
Variable d2i : N -> res Z.

Notation nl := [10%N].
Notation quote := [34%N].

(** src/nx_gnuplot.c:38-42, with the text sent so far. *)
Record gplot := mkG { sent : list N; is_pipe : bool }.

(** src/nx_gnuplot.c:84-93: the formatted command. *)
Definition send_command (g : gplot) (cmd : list N) : gplot := mkG (sent g ++ cmd) (is_pipe g).
(** src/nx_gnuplot.c:44-50. *)
Definition gplot_init (g : gplot) : gplot :=
  send_command g (bs "set border 3 lw 3;" ++ nl ++ bs "set xtics out nomirror;" ++ nl ++ bs "set ytics out nomirror;" ++ nl).
(** src/nx_gnuplot.c:52-73.  [stream]: the text already on the given stream;
    [popen]: whether the pipe can be opened. *)
Definition gplot_new (stream : option (list N)) (popen : bool) : res gplot :=
  match stream with
  | Some s => Ok (gplot_init (mkG s false))
  | None => if popen then Ok (gplot_init (mkG [] true)) else Fatal
  end.
(** src/nx_gnuplot.c:75-82: whether the stream is closed. *)
Definition gplot_free (g : gplot) : bool := is_pipe g.

(** src/nx_gnuplot.c:95-114. *)
Definition send_data_frame (g : gplot) (h : dheap) (df : frame) (label : option (list N)) : res gplot :=
  match label with
  | Some l =>
    let* t := frame_fprintf print_d h df [32%N] in
    Ok (mkG (sent g ++ (bs "$" ++ l ++ bs " << EOD" ++ nl) ++ t ++ (bs "EOD" ++ nl)) (is_pipe g))
  | None =>
    let* t := frame_fprintf print_d h df [32%N] in
    Ok (mkG (sent g ++ t ++ (bs "e" ++ nl)) (is_pipe g))
  end.

(** src/nx_gnuplot.c:122-132. *)
Definition set_terminal_window (g : gplot) (width height : Z) (title : list N) (id : Z) : gplot :=
  send_command g (bs "set terminal qt " ++ print_int id ++ bs " size " ++ print_int width ++ bs "," ++ print_int height ++
    bs " enhanced title " ++ quote ++ title ++ quote ++ bs ";" ++ nl ++ bs "unset output;" ++ nl).
(** src/nx_gnuplot.c:134-144. *)
Definition set_terminal_svg (g : gplot) (width height : Z) (title filename : list N) : gplot :=
  send_command g (bs "set terminal svg size " ++ print_int width ++ bs "," ++ print_int height ++
    bs " enhanced name " ++ quote ++ title ++ quote ++ bs ";" ++ nl ++ bs "set output " ++ quote ++ filename ++ quote ++ bs ";" ++ nl).
(** src/nx_gnuplot.c:146-155. *)
Definition set_terminal_pdf (g : gplot) (width height : N) (filename : list N) : gplot :=
  send_command g (bs "set terminal pdfcairo enhanced color size " ++ print_lf width ++ bs "cm," ++ print_lf height ++ bs "cm" ++ nl ++
    bs "set output " ++ quote ++ filename ++ quote ++ nl).
(** src/nx_gnuplot.c:157-166. *)
Definition set_terminal_eps (g : gplot) (width height : N) (filename : list N) : gplot :=
  send_command g (bs "set terminal epscairo enhanced color size " ++ print_lf width ++ bs "cm," ++ print_lf height ++ bs "cm;" ++ nl ++
    bs "set output " ++ quote ++ filename ++ quote ++ nl).
(** src/nx_gnuplot.c:168-173. *)
Definition set_terminal_ascii (g : gplot) (width height : Z) (linefeed : bool) : gplot :=
  send_command g (bs "set terminal dumb size " ++ print_int width ++ bs "," ++ print_int height ++ bs " enhanced " ++
    (if linefeed then [] else bs "no") ++ bs "feed;" ++ nl).

(** include/virg/nexus/nx_gnuplot.h: enum NXTerminalType. *)
Inductive gterm := GWindow | GSvg | GPdf | GEps | GAscii.
(** src/nx_gnuplot.c:175-189. *)
Definition set_terminal (g : gplot) (ty : gterm) (width height : N) (name : list N) (id : Z) : res gplot :=
  match ty with
  | GWindow => let* w := d2i width in let* h := d2i height in Ok (set_terminal_window g w h name id)
  | GSvg => let* w := d2i width in let* h := d2i height in Ok (set_terminal_svg g w h (bs "VIRG") name)
  | GPdf => Ok (set_terminal_pdf g width height name)
  | GEps => Ok (set_terminal_eps g width height name)
  | GAscii => let* w := d2i width in let* h := d2i height in Ok (set_terminal_ascii g w h true)
  end.

(** src/nx_gnuplot.c:191-197. *)
Definition set_title (g : gplot) (title : list N) : gplot :=
  send_command g (bs "set title " ++ quote ++ title ++ quote ++ bs ";" ++ nl).
(** src/nx_gnuplot.c:199-206. *)
Definition set_xlabel (g : gplot) (label : list N) : gplot :=
  send_command g (bs "set title xlabel " ++ quote ++ label ++ quote ++ bs ";" ++ nl).
(** src/nx_gnuplot.c:208-215. *)
Definition set_ylabel (g : gplot) (label : list N) : gplot :=
  send_command g (bs "set title ylabel " ++ quote ++ label ++ quote ++ bs ";" ++ nl).
(** src/nx_gnuplot.c:217-229. *)
Definition set_title_and_labels (g : gplot) (title xlabel ylabel : list N) : gplot :=
  send_command g (bs "set title " ++ quote ++ title ++ quote ++ bs ";" ++ nl ++
    bs "set xlabel " ++ quote ++ xlabel ++ quote ++ bs ";" ++ nl ++
    bs "set ylabel " ++ quote ++ ylabel ++ quote ++ bs ";" ++ nl).
End Gnuplot.
