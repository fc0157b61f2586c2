From Verif Require Import Base BaseLemmas Gray Img Flt CsvModel CsvSpec CsvProofs CsvProofs2 DfModel DfCsvProofs FilterModel FilterSpec FilterProofs ImgModel ImgSpec ImgProofs ImgScale PnmModel PnmSpec PnmProofs PnmRead.
Local Open Scope Z_scope.

Lemma scan_int_print ws z rest : spaces ws -> 0 <= z <= INT_MAX -> no_dig 10 rest -> scan_int (ws ++ print_int z ++ rest) = Ok (Some (z, rest)).
Proof.
  intros S Z R. unfold print_int. destruct (Z.ltb_spec z 0); [lia|]. destruct (print_pos (Z.to_N z)) as (ds & -> & D & V).
  destruct (decimal_all ds D) as [A NE]. unfold scan_int. destruct ds as [|d ds]; [congruence|].
  assert (D1 : (48 <= d <= 57)%N) by (inversion A; auto).
  rewrite skip_space_app; [|exact S|]. 2:{ cbn [app]. destruct (isspace d) eqn:E; [apply isspace_iff in E; lia|reflexivity]. }
  cbn [app]. destruct (N.eqb_spec d 45); [lia|]. destruct (N.eqb_spec d 43); [lia|].
  change (d :: ds ++ rest) with ((d :: ds) ++ rest). rewrite read_digits_app by (auto using dec_digs).
  cbn [length Nat.add Nat.eqb].
  replace (fold_left (fun v d => v * 10 + digit_value d) (d :: ds) 0) with z.
  - rewrite chk_int_in by (pose proof int_rng as [-> _]; lia). reflexivity.
  - transitivity (dec_value (d :: ds)); [lia|]. unfold dec_value. generalize 0. clear -A. induction A as [|c l C A IH]; intro v; cbn [fold_left]; [reflexivity|]. rewrite IH. f_equal. rewrite digit_value_dec by lia. lia.
Qed.

Definition header (u : uimg) : list N :=
  match u_type u with
  | GRAY => [80; 53; 10]%N ++ print_int (u_w u) ++ [32%N] ++ print_int (u_h u) ++ [32%N] ++ print_int 255 ++ [10%N]
  | RGBA => [80; 54; 10]%N ++ print_int (u_w u) ++ [32%N] ++ print_int (u_h u) ++ [10%N] ++ print_int 255 ++ [10%N]
  end.
Definition pixel_bytes (u : uimg) (p : Z * Z) : list N :=
  let '(x, y) := p in match u_type u with GRAY => [sample u x y 0] | RGBA => [sample u x y 0; sample u x y 1; sample u x y 2] end.
Definition pixels (u : uimg) : list N := flat_map (pixel_bytes u) (raster 0 (u_w u) 0 (u_h u)).

Lemma for_each_out {A B} (f : A -> list B -> res (list B)) (h : A -> list B) l : forall acc, (forall a acc, In a l -> f a acc = Ok (acc ++ h a)) -> for_each f l acc = Ok (acc ++ flat_map h l).
Proof.
  induction l as [|a l IH]; intros acc H; cbn [for_each flat_map]; [now rewrite app_nil_r|]. rewrite H by now left. cbn [bind]. rewrite IH by (intros; apply H; now right). now rewrite <- app_assoc.
Qed.
Lemma sample_get u x y c : u_ok u -> in_uimg u x y -> 0 <= c < n_ch (u_type u) -> iget (u_px u) (n_ch (u_type u) * x + c) y = Ok (sample u x y c).
Proof.
  intros G [X Y] C. unfold sample. apply iget_ok; [apply (uo_px u G)|]. split; [|exact Y]. rewrite (uo_cols u G). destruct (u_type u); cbn [n_ch] in *; lia.
Qed.
Lemma save_ok u : u_ok u -> save_pnm u = Ok (header u ++ pixels u).
Proof.
  intro G. unfold save_pnm, header, pixels. pose proof (sample_get u) as SG. destruct (u_type u) eqn:T; cbn [n_ch] in SG; rewrite scan_raster; apply for_each_out; intros [x y] acc I; apply raster_in in I; destruct I as [X Y]; cbn [fst snd]; unfold pixel_bytes; rewrite T.
  - pose proof (SG x y 0 G ltac:(split; auto) ltac:(lia)) as E. replace (1 * x + 0) with x in E by lia. rewrite E. reflexivity.
  - pose proof (SG x y 0 G ltac:(split; auto) ltac:(lia)) as E0. pose proof (SG x y 1 G ltac:(split; auto) ltac:(lia)) as E1. pose proof (SG x y 2 G ltac:(split; auto) ltac:(lia)) as E2.
    rewrite Z.add_0_r in E0. rewrite E0. cbn [bind]. rewrite E1. cbn [bind]. rewrite E2. reflexivity.
Qed.
Lemma pixel_len u p : length (pixel_bytes u p) = Z.to_nat (bpp (u_type u)).
Proof. destruct p as [x y]. unfold pixel_bytes. destruct (u_type u); reflexivity. Qed.
Lemma pixels_len u : u_ok u -> Z.of_nat (length (pixels u)) = bpp (u_type u) * (u_w u * u_h u).
Proof.
  intro G. pose proof (uo_w u G). pose proof (io_h _ (uo_px u G)). unfold pixels. destruct (flat_chunks (pixel_bytes u) _ (raster 0 (u_w u) 0 (u_h u)) (0, 0) 0%N (fun p _ => pixel_len u p)) as [-> _].
  rewrite Nat2Z.inj_mul, raster_len by lia. destruct (u_type u); reflexivity.
Qed.
Lemma raster_nth w h x y : 0 <= x < w -> 0 <= y < h -> nth (Z.to_nat (y * w + x)) (raster 0 w 0 h) (0, 0) = (x, y).
Proof.
  intros X Y. assert (I : In (x, y) (raster 0 w 0 h)) by (apply raster_in; lia). apply in_split in I. destruct I as (pre & post & E). rewrite E.
  pose proof (raster_pos w h pre x y post ltac:(lia) ltac:(lia) E) as L. rewrite app_nth2 by lia. replace (Z.to_nat (y * w + x) - length pre)%nat with 0%nat by lia. reflexivity.
Qed.
Lemma pixels_at u x y c : u_ok u -> in_uimg u x y -> 0 <= c < bpp (u_type u) -> byte_at (pixels u) (bpp (u_type u) * (y * u_w u + x) + c) = sample u x y c.
Proof.
  intros G [X Y] C. unfold byte_at, pixels. destruct (flat_chunks (pixel_bytes u) _ (raster 0 (u_w u) 0 (u_h u)) (0, 0) 0%N (fun p _ => pixel_len u p)) as [_ N].
  assert (K : 0 <= y * u_w u + x < u_w u * u_h u) by nia. pose proof (raster_len (u_w u) (u_h u) ltac:(lia) ltac:(lia)) as L.
  specialize (N (Z.to_nat (y * u_w u + x)) (Z.to_nat c) ltac:(lia) ltac:(lia)). rewrite raster_nth in N by auto.
  replace (Z.to_nat (bpp (u_type u) * (y * u_w u + x) + c)) with (Z.to_nat (bpp (u_type u)) * Z.to_nat (y * u_w u + x) + Z.to_nat c)%nat by (destruct (u_type u); cbn [bpp] in *; lia).
  rewrite N. unfold pixel_bytes. destruct (u_type u); cbn [bpp] in C.
  - replace c with 0 by lia. reflexivity.
  - assert (c = 0 \/ c = 1 \/ c = 2) as [-> | [-> | ->]] by lia; reflexivity.
Qed.
Lemma pixels_bytes u : u_ok u -> byte_samples u -> bytes_ok (pixels u).
Proof.
  intros G B. unfold bytes_ok. apply Forall_forall. intros b I. unfold pixels in I. apply in_flat_map in I. destruct I as ([x y] & I & J). apply raster_in in I. assert (IN : in_uimg u x y) by (split; apply I).
  unfold pixel_bytes in J. pose proof (fun c => B x y c IN) as Bc. destruct (u_type u) eqn:T; cbn [n_ch] in Bc; repeat (destruct J as [<-|J]; [apply Bc; lia|]); destruct J.
Qed.
Lemma head_scan u s k : u_ok u -> exists t b, header u ++ s = 80%N :: t :: b /\ magic (header u ++ s) = Some (u_type u, b) /\ scan_3 b = Ok (Some (u_w u, u_h u, 255, 10%N :: s)) /\
   scan_3 (skip_blank b) = Ok (Some (u_w u, u_h u, 255, 10%N :: s)) /\ skip_comments (S k) (skip_blank b) = Ok (skip_blank b).
Proof.
  intro G. pose proof (uo_w u G) as W. pose proof (uo_h u G) as H. pose proof (io_h _ (uo_px u G)) as H0. unfold header.
  assert (KEY : forall ws c, spaces ws -> spaces [c] -> no_dig 10 [c] -> scan_3 (ws ++ print_int (u_w u) ++ [32%N] ++ print_int (u_h u) ++ [c] ++ print_int 255 ++ 10%N :: s) = Ok (Some (u_w u, u_h u, 255, 10%N :: s))).
  { intros ws c S1 S2 S3. unfold scan_3. rewrite scan_int_print; [|exact S1|exact W|cbn; lia]. cbn [bind]. rewrite (scan_int_print [32%N]); [|repeat constructor|lia|exact S3]. cbn [bind].
    rewrite (scan_int_print [c] 255); [|exact S2|cbv delta [INT_MAX]; lia|cbn; lia]. reflexivity. }
  assert (BL : forall q, skip_blank (10%N :: print_int (u_w u) ++ q) = print_int (u_w u) ++ q /\ skip_comments (S k) (print_int (u_w u) ++ q) = Ok (print_int (u_w u) ++ q)).
  { intro q. unfold print_int. destruct (Z.ltb_spec (u_w u) 0); [lia|]. destruct (print_pos (Z.to_N (u_w u))) as (ds & -> & D & _). destruct (decimal_all ds D) as [A NE]. destruct ds as [|d ds]; [congruence|].
    assert (D1 : (48 <= d <= 57)%N) by (inversion A; auto). cbn [app skip_blank skip_comments]. change (10 =? 32)%N with false. change (10 =? 10)%N with true. cbn [orb].
    destruct (N.eqb_spec d 32); [lia|]. destruct (N.eqb_spec d 10); [lia|]. destruct (N.eqb_spec d 9); [lia|]. destruct (N.eqb_spec d 35); [lia|]. auto. }
  destruct (u_type u); rewrite <- !app_assoc; cbn [app]; eexists _, _; (split; [reflexivity|]); (split; [reflexivity|]).
  - split; [apply (KEY [10%N] 32%N); [repeat constructor; lia|repeat constructor|cbn; lia]|]. destruct (BL ([32%N] ++ print_int (u_h u) ++ [32%N] ++ print_int 255 ++ 10%N :: s)) as [B1 B2].
    cbn [app] in B1, B2. rewrite B1. split; [apply (KEY [] 32%N); [constructor|repeat constructor|cbn; lia]|exact B2].
  - split; [apply (KEY [10%N] 10%N); [repeat constructor; lia|repeat constructor; lia|cbn; lia]|]. destruct (BL ([32%N] ++ print_int (u_h u) ++ [10%N] ++ print_int 255 ++ 10%N :: s)) as [B1 B2].
    cbn [app] in B1, B2. rewrite B1. split; [apply (KEY [] 10%N); [constructor|repeat constructor; lia|cbn; lia]|exact B2].
Qed.
Lemma read_saved junk t u : u_ok u -> byte_samples u -> n_ch t * u_w u <= INT_MAX -> n_ch t * u_w u * u_h u <= INT_MAX ->
  exists v, read_pnm_data junk t (pixels u) (u_w u) (u_h u) (u_type u) = Ok (Some v) /\ sized v t (u_w u) (u_h u) /\ forall x y, in_uimg u x y -> same_colour u v x y.
Proof.
  intros G B M1 M2. pose proof (uo_w u G) as W. pose proof (uo_h u G) as H. pose proof (io_h _ (uo_px u G)) as H0.
  destruct (read_ok junk t (pixels u) (u_w u) (u_h u) (u_type u) W ltac:(lia) M1 M2 (pixels_bytes u G B)) as (r & E & Q). rewrite pixels_len, Z.leb_refl in Q by auto.
  destruct Q as (v & -> & S & P). exists v. split; [exact E|]. split; [exact S|]. intros x y [X Y]. specialize (P x y X Y).
  pose proof (fun c => pixels_at u x y c G (conj X Y)) as A. destruct S as (_ & T & _). unfold same_colour, pixel_ok in *. rewrite T. destruct (u_type u), t; cbn [bpp] in A; cbv zeta in P.
  - rewrite P, <- A by lia. f_equal. lia.
  - destruct P as [P1 P2]. split; [|exact P2]. intros c C. rewrite P1, <- A by lia. f_equal. lia.
  - rewrite <- !A by lia. rewrite Z.add_0_r. exact P.
  - destruct P as [P1 P2]. split; [|exact P2]. intros c C. rewrite P1, <- A by lia. reflexivity.
Qed.
Lemma load_saved junk mode u : u_ok u -> byte_samples u -> let t := mode_type mode (u_type u) in n_ch t * u_w u <= INT_MAX -> n_ch t * u_w u * u_h u <= INT_MAX ->
  exists v, load_pnm junk mode (header u ++ pixels u) = Ok (Some v) /\ xload_pnm junk mode (header u ++ pixels u) = Ok v /\ sized v t (u_w u) (u_h u) /\ forall x y, in_uimg u x y -> same_colour u v x y.
Proof.
  intros G B t M1 M2. destruct (read_saved junk t u G B M1 M2) as (v & E & S & P). exists v.
  unfold load_pnm, xload_pnm. 
  destruct (head_scan u (pixels u) 0 G) as (c & b & _ & MG & S1 & S2 & _). rewrite MG. rewrite S1. cbn [bind fgets fgets_go]. change (10 =? 10)%N with true. cbv iota. fold t. rewrite E. split; [reflexivity|].
  destruct (head_scan u (pixels u) (length (skip_blank b)) G) as (c' & b' & _ & MG' & _ & _ & SC). assert (b' = b) by congruence. subst b'. rewrite SC. cbn [bind]. rewrite S2. cbn [bind tl]. fold t. rewrite E. cbn [bind]. auto.
Qed.

(** * Any file *)

Lemma scan_int_numeral ws ds z rest : spaces ws -> numeral ds z -> 0 <= z <= INT_MAX -> no_dig 10 rest -> scan_int (ws ++ ds ++ rest) = Ok (Some (z, rest)).
Proof.
  intros S (NE & A & V) Z R. unfold scan_int. destruct ds as [|d ds]; [congruence|].
  assert (D1 : (48 <= d <= 57)%N) by (inversion A; auto).
  rewrite skip_space_app; [|exact S|]. 2:{ cbn [app]. destruct (isspace d) eqn:E; [apply isspace_iff in E; lia|reflexivity]. }
  cbn [app]. destruct (N.eqb_spec d 45); [lia|]. destruct (N.eqb_spec d 43); [lia|].
  change (d :: ds ++ rest) with ((d :: ds) ++ rest). rewrite read_digits_app by (auto using dec_digs).
  cbn [length Nat.add Nat.eqb]. pose proof (dec_is_dval _ A) as DV. unfold dval in DV. rewrite DV, V. rewrite chk_int_in by (pose proof int_rng as [-> _]; lia). reflexivity.
Qed.
Lemma space_no_dig ws r : spaces ws -> ws <> [] -> no_dig 10 (ws ++ r).
Proof. intros S NE. destruct S as [|c ws C S]; [congruence|]. cbn [app no_dig]. unfold digit_value. destruct (N.leb_spec 48 c), (N.leb_spec c 57), (N.leb_spec 97 c), (N.leb_spec c 122), (N.leb_spec 65 c), (N.leb_spec c 90); cbn [andb]; lia. Qed.
Lemma scan_numbers w h m s rest : numbers w h m s -> 0 <= w <= INT_MAX -> 0 <= h <= INT_MAX -> 0 <= m <= INT_MAX -> no_dig 10 rest -> scan_3 (s ++ rest) = Ok (Some (w, h, m, rest)).
Proof.
  intros (ws1 & dw & ws2 & dh & ws3 & dm & -> & S1 & S2 & N2 & S3 & N3 & Dw & Dh & Dm) W H M R. rewrite <- !app_assoc. unfold scan_3.
  rewrite (scan_int_numeral ws1 dw w); [|auto..|now apply space_no_dig]. cbn [bind]. rewrite (scan_int_numeral ws2 dh h); [|auto..|now apply space_no_dig]. cbn [bind].
  rewrite (scan_int_numeral ws3 dm m) by auto. reflexivity.
Qed.
Lemma fgets_line line data : ~ In 10%N line -> forall n, (length line < n)%nat -> fgets_go n (line ++ 10%N :: data) = data.
Proof.
  induction line as [|c l IH]; intros NI n L; (destruct n as [|n]; [cbn in L; lia|]); cbn [app fgets_go]; [reflexivity|]. destruct (N.eqb_spec c 10); [subst; exfalso; apply NI; now left|].
  apply IH; [intro; apply NI; now right|cbn in L; lia].
Qed.
Lemma read_reads junk t s w h pt : 0 <= w <= INT_MAX -> 0 <= h <= INT_MAX -> n_ch t * w <= INT_MAX -> n_ch t * w * h <= INT_MAX -> bytes_ok s ->
  exists r, read_pnm_data junk t s w h pt = Ok r /\ reads r pt t s w h.
Proof.
  intros W H M1 M2 B. destruct (read_ok junk t s w h pt W H M1 M2 B) as (r & E & Q). exists r. split; [exact E|]. unfold reads. destruct (Z.leb_spec (bpp pt * (w * h)) (Z.of_nat (length s))); auto.
Qed.
Lemma magic_of_ok t s : magic (magic_of t ++ s) = Some (t, s).
Proof. destruct t; reflexivity. Qed.
Lemma load_any junk mode pt w h m hdr line data : let t := mode_type mode pt in
  numbers w h m hdr -> no_dig 10 (line ++ [10%N]) -> ~ In 10%N line -> (length line < 255)%nat -> bytes_ok data ->
  0 <= w <= INT_MAX -> 0 <= h <= INT_MAX -> 0 <= m <= INT_MAX -> n_ch t * w <= INT_MAX -> n_ch t * w * h <= INT_MAX ->
  exists r, load_pnm junk mode (magic_of pt ++ hdr ++ line ++ 10%N :: data) = Ok r /\ reads r pt t data w h.
Proof.
  intros t N D NI L B W H M M1 M2. unfold load_pnm. rewrite magic_of_ok. rewrite (scan_numbers w h m) by (auto; destruct line; exact D). cbn [bind].
  replace (fgets 255 (line ++ 10%N :: data)) with (Some data).
  - apply read_reads; auto.
  - unfold fgets. rewrite (fgets_line line data NI 255 L). destruct line; reflexivity.
Qed.
Lemma skip_line_ok text s : ~ In 10%N text -> skip_line (text ++ 10%N :: s) = Some s.
Proof.
  induction text as [|c l IH]; intro NI; cbn [app skip_line]; [reflexivity|]. destruct (N.eqb_spec c 10); [subst; exfalso; apply NI; now left|]. apply IH. intro; apply NI; now right.
Qed.
Lemma skip_comments_ok cs s : Forall comment cs -> match s with c :: _ => c <> 35%N | [] => True end -> forall k, (length (concat cs) < k)%nat -> skip_comments k (concat cs ++ s) = Ok s.
Proof.
  intros C S. induction C as [|c cs (text & -> & NI) C IH]; intros k K; cbn [concat].
  - destruct k; [cbn in K; lia|]. cbn [app skip_comments]. destruct s as [|b s]; [reflexivity|]. destruct (N.eqb_spec b 35); [congruence|reflexivity].
  - destruct k as [|k]; [lia|]. rewrite <- app_assoc. cbn [app skip_comments]. change (35 =? 35)%N with true. cbv iota. rewrite <- app_assoc. cbn [app]. rewrite skip_line_ok by auto. apply IH.
    cbn [concat app length] in K. rewrite !app_length in K. lia.
Qed.
Definition blanks (s : list N) : Prop := Forall (fun c => c = 32 \/ c = 10 \/ c = 9)%N s.
Lemma skip_blank_ok bl s : blanks bl -> skip_blank (bl ++ s) = skip_blank s.
Proof. induction 1 as [|c l C B IH]; [reflexivity|]. cbn [app skip_blank]. destruct C as [-> | [-> | ->]]; exact IH. Qed.
Lemma skip_blank_numbers w h m s rest : numbers w h m s -> exists s', skip_blank (s ++ rest) = s' ++ rest /\ numbers w h m s' /\ match s' with c :: _ => c <> 35%N | [] => False end.
Proof.
  intros (ws1 & dw & ws2 & dh & ws3 & dm & -> & S1 & S2 & N2 & S3 & N3 & Dw & Dh & Dm). revert S1. induction ws1 as [|c ws IH]; intro S1.
  - destruct Dw as (NE & A & V). destruct dw as [|d dw]; [congruence|]. assert (D1 : (48 <= d <= 57)%N) by (inversion A; auto). exists ([] ++ (d :: dw) ++ ws2 ++ dh ++ ws3 ++ dm). cbn [app skip_blank].
    destruct (N.eqb_spec d 32); [lia|]. destruct (N.eqb_spec d 10); [lia|]. destruct (N.eqb_spec d 9); [lia|]. split; [reflexivity|]. split; [|lia]. exists [], (d :: dw), ws2, dh, ws3, dm. repeat (split; auto).
  - inversion S1 as [|? ? C S']. subst. cbn [app skip_blank]. destruct (N.eqb_spec c 32); [apply IH, S'|]. destruct (N.eqb_spec c 10); [apply IH, S'|]. destruct (N.eqb_spec c 9); [apply IH, S'|]. cbn [orb].
    exists ((c :: ws) ++ dw ++ ws2 ++ dh ++ ws3 ++ dm). split; [reflexivity|]. split; [|cbn; lia]. exists (c :: ws), dw, ws2, dh, ws3, dm. repeat (split; auto).
Qed.
Lemma numbers_first w h m s : numbers w h m s -> match s with c :: _ => c <> 35%N | [] => False end.
Proof.
  intros (ws1 & dw & ws2 & dh & ws3 & dm & -> & S1 & _ & _ & _ & _ & (NE & A & _) & _). destruct S1 as [|c ws C S]; [|cbn; lia]. destruct dw as [|d dw]; [congruence|]. inversion A. cbn. lia.
Qed.
Lemma xload_any junk mode pt w h m bl cs hdr sep data : let t := mode_type mode pt in
  blanks bl -> Forall comment cs -> numbers w h m hdr -> no_dig 10 [sep] -> bytes_ok data ->
  0 <= w <= INT_MAX -> 0 <= h <= INT_MAX -> 0 <= m <= INT_MAX -> n_ch t * w <= INT_MAX -> n_ch t * w * h <= INT_MAX ->
  exists r, xload_pnm junk mode (magic_of pt ++ bl ++ concat cs ++ hdr ++ sep :: data) = (match r with Some u => Ok u | None => Fatal end) /\ reads r pt t data w h.
Proof.
  intros t BL C N D B W H M M1 M2. unfold xload_pnm. rewrite magic_of_ok, skip_blank_ok by auto.
  assert (K : exists cs' hdr', skip_blank (concat cs ++ hdr ++ sep :: data) = concat cs' ++ hdr' ++ sep :: data /\ Forall comment cs' /\ numbers w h m hdr').
  { destruct C as [|c cs (text & -> & NI) C].
    - cbn [concat app]. destruct (skip_blank_numbers w h m hdr (sep :: data) N) as (s' & E & N' & _). exists [], s'. auto.
    - exists ((35%N :: text ++ [10%N]) :: cs), hdr. split; [reflexivity|]. split; [|exact N]. constructor; [|exact C]. exists text. auto. }
  destruct K as (cs' & hdr' & -> & C' & N'). rewrite skip_comments_ok; [|exact C'|pose proof (numbers_first _ _ _ _ N'); destruct hdr'; [tauto|assumption]|rewrite app_length; lia]. cbn [bind].
  rewrite (scan_numbers w h m) by auto. cbn [bind tl]. fold t. destruct (read_reads junk t data w h pt W H M1 M2 B) as (r & E & R). exists r. rewrite E. cbn [bind]. split; [destruct r; reflexivity|exact R].
Qed.
