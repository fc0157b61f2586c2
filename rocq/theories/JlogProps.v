(** C141: the JSON log streams. *)
From Verif Require Import Base BaseLemmas Heap LexModel JsonModel JsonSpec JsonProofs JsonParseProofs JsonApiProofs JlogModel JlogSpec JlogProofs JlogMain.
Local Open Scope Z_scope.

(** After any history of calls with ids in range, every stream is the object
    with the entries logged to it since it was last cleared, in order. *)
Theorem C141_streams : forall cs, Forall valid cs ->
  exists s, run start cs = Ok s /\
    forall id, 0 <= id < 32 -> exists s' p, get_stream s id = Ok (s', p) /\ shows (j_heap s') p (JObj (entries cs id)).
Proof.
  intros cs Hv. destruct (start_run cs Hv) as (s & F & E & Hi). exists s. split; [exact E|]. intros id Hid.
  destruct (get_ok s F _ id Hi Hid) as (s' & F' & t & E' & (_ & _ & H3 & _) & Et & _). exists s', (iid t). split; [exact E'|].
  specialize (H3 id). rewrite Et in H3. destruct H3 as (G1 & G2 & G3). exists None, (ids t), t. auto.
Qed.
Print Assumptions C141_streams.

(** A call with another id stops the program, after any history. *)
Theorem C141_range : forall cs c, Forall valid cs -> ~ valid c -> run start (cs ++ [c]) = Fatal.
Proof.
  intros cs c Hv Hc. destruct (start_run cs Hv) as (s & F & E & Hi). rewrite run_app, E. cbn [bind run].
  assert (forall id, ~ 0 <= id < 32 -> get_stream s id = Fatal) as G by (intros id H; unfold get_stream, N_STREAMS; cbv zeta; replace ((id <? 0) || (id >=? 32)) with true by lia; reflexivity).
  destruct c as [id key v|id key v|id|id|]; unfold valid in Hc; cbn in Hc; cbn [perform]; unfold log_value, log_add, clear_stream, N_STREAMS; try (rewrite G by auto; reflexivity); [|tauto].
  replace ((id <? 0) || (id >=? 32)) with true by lia. reflexivity.
Qed.
Print Assumptions C141_range.

(** The node of a stream stays the same until the stream is cleared. *)
Theorem C141_stable : forall cs1 cs2 id s1 s1' p, Forall valid cs1 -> Forall valid cs2 -> 0 <= id < 32 ->
  run start cs1 = Ok s1 -> get_stream s1 id = Ok (s1', p) -> Forall (fun c => ~ clears c id) cs2 ->
  exists s2 s2', run s1' cs2 = Ok s2 /\ get_stream s2 id = Ok (s2', p).
Proof.
  intros cs1 cs2 id s1 s1' p H1 H2 Hid R1 G1 Hc. destruct (start_run cs1 H1) as (s & F & E & Hi). rewrite R1 in E. injection E as <-.
  destruct (get_ok s1 F _ id Hi Hid) as (s' & F' & t & E' & Hi' & Et & _). rewrite G1 in E'. injection E' as <- ->.
  destruct (run_ok cs2 _ _ _ Hi' H2) as (s2 & F2 & R2 & Hi2 & Hst). destruct (Hst id t Hc Et) as (u & Eu & Ei).
  destruct (get_ok s2 F2 _ id Hi2 Hid) as (s2' & F2' & t2 & E2 & _ & _ & _ & _ & Hs). exists s2, s2'. split; [exact R2|]. rewrite E2. rewrite <- (Hs u Eu), Ei. reflexivity.
Qed.
Print Assumptions C141_stable.

(** Clearing one stream releases exactly its nodes. *)
Theorem C141_clear : forall cs id s, Forall valid cs -> 0 <= id < 32 -> run start cs = Ok s ->
  exists s' L, clear_stream s id = Ok s' /\
    (L = [] /\ entries cs id = [] \/ exists p, tree_for (j_heap s) None p (JObj (entries cs id)) L) /\
    (forall q, In q L -> cell (j_heap s') q = None) /\ (forall q, ~ In q L -> cell (j_heap s') q = cell (j_heap s) q).
Proof.
  intros cs id s Hv Hid R. destruct (start_run cs Hv) as (s0 & F & E & Hi). rewrite R in E. injection E as <-.
  destruct (clear_ok s F _ id Hi Hid) as (s' & E & _ & Hq). exists s', (match F id with Some t => ids t | None => [] end). split; [exact E|].
  destruct Hi as (_ & _ & H3 & _). specialize (H3 id). destruct (F id) as [t|].
  - split; [right; exists (iid t), t; destruct H3 as (G1 & G2 & G3); auto|]. split; intros q; apply Hq.
  - split; [left; auto|]. split; [intros q []|]. intros q _. apply Hq. auto.
Qed.
Print Assumptions C141_clear.

(** No leak: every live node belongs to the tree of a stream, and clearing all
    streams leaves no live node, whatever was logged before. *)
Theorem C141_no_leak : forall cs s, Forall valid cs -> run start cs = Ok s ->
  (forall q x, cell (j_heap s) q = Some x -> exists id p L, 0 <= id < 32 /\ tree_for (j_heap s) None p (JObj (entries cs id)) L /\ In q L) /\
  exists s', log_free s = Ok s' /\ j_tab s' = None /\ forall q, cell (j_heap s') q = None.
Proof.
  intros cs s Hv R. destruct (start_run cs Hv) as (s0 & F & E & Hi). rewrite R in E. injection E as <-. split.
  - destruct Hi as (_ & H2 & H3 & _ & H5). intros q x Hx. destruct (H5 q x Hx) as (i & t & Et & Hq). exists i, (iid t), (ids t).
    split; [destruct (Z_le_gt_dec 0 i); destruct (Z_lt_ge_dec i 32); try lia; rewrite H2 in Et by lia; discriminate|]. split; [|auto]. specialize (H3 i). rewrite Et in H3. destruct H3 as (G1 & G2 & G3). exists t. auto.
  - destruct (free_ok s F _ Hi) as (s' & E & _ & G). exists s'. auto.
Qed.
Print Assumptions C141_no_leak.

(** A key that first got a value which is not an array never becomes one: each
    further addition makes another entry of that name. *)
Theorem C141_add_refuted : exists cs id key, Forall valid cs /\
  cs = [CLog id key (JInt [49%N]); CAdd id key (JInt [50%N]); CAdd id key (JInt [51%N])] /\
  entries cs id = [(key, JInt [49%N]); (key, JArr [JInt [50%N]]); (key, JArr [JInt [51%N]])].
Proof. exists [CLog 3 [97%N] (JInt [49%N]); CAdd 3 [97%N] (JInt [50%N]); CAdd 3 [97%N] (JInt [51%N])], 3, [97%N]. split; [repeat constructor; cbn; lia|]. split; reflexivity. Qed.
Print Assumptions C141_add_refuted.

Example C141_example : let cs := [CAdd 0 [97%N] (JInt [49%N]); CLog 31 [98%N] (JStr [99%N]); CAdd 0 [97%N] (JInt [50%N]); CClear 31; CLog 0 [98%N] (JArr [JTrue])] in
  Forall valid cs /\ entries cs 0 = [([97%N], JArr [JInt [49%N]; JInt [50%N]]); ([98%N], JArr [JTrue])] /\ entries cs 31 = [] /\
  exists s s' p txt, run start cs = Ok s /\ get_stream s 0 = Ok (s', p) /\ tree_fprint (j_heap s') (Some p) 0 = Ok txt /\ (0 < length txt)%nat.
Proof. split; [repeat constructor; cbn; lia|]. split; [reflexivity|]. split; [reflexivity|]. eexists _, _, _, _. split; [vm_compute; reflexivity|]. split; [vm_compute; reflexivity|]. split; [vm_compute; reflexivity|]. cbn. lia. Qed.
