(** Model of the JSON log streams: src/nx_json_log.c and the macros of
    include/virg/nexus/nx_json_log.h (as compiled with NX_ENABLE_JLOG). *)
From Verif Require Import Base Heap LexModel JsonModel.
Local Open Scope Z_scope.

(** NX_JLOG_N_STREAMS, nx_json_log.h:37. *)
Definition N_STREAMS : Z := 32.

(** The static table nx_s_json_log, src/nx_json_log.c:32 ([None] is NULL, as
    are the [None] entries), with the heap of JSON nodes.  The memory of the
    table itself is not a cell of that heap. *)
Record jlog := JL { j_tab : option (list (option nat)); j_heap : heap node }.

(** nx_json_log_get_stream, src/nx_json_log.c:34-49. *)
Definition get_stream (s : jlog) (id : Z) : res (jlog * nat) :=
  let tab := match j_tab s with
             | None => repeat None (Z.to_nat N_STREAMS)
             | Some t => t
             end in
  if (id <? 0) || (id >=? N_STREAMS) then Fatal
  else
    let* p := zget tab id in
    match p with
    | None => let '(h, o) := new_object (j_heap s) in
              let* tab := zset tab id (Some o) in
              Ok (JL (Some tab) h, o)
    | Some o => Ok (JL (Some tab) (j_heap s), o)
    end.

(** nx_json_log_free, src/nx_json_log.c:51-59: the loop over the entries. *)
Fixpoint free_all (h : heap node) (tab : list (option nat)) : res (heap node) :=
  match tab with
  | [] => Ok h
  | p :: tab' => let* h := tree_free (S (length h)) h p in free_all h tab'
  end.
Definition log_free (s : jlog) : res jlog :=
  match j_tab s with
  | None => Ok s
  | Some tab => let* h := free_all (j_heap s) tab in Ok (JL None h)
  end.

(** nx_json_log_clear_stream, src/nx_json_log.c:61-71. *)
Definition clear_stream (s : jlog) (id : Z) : res jlog :=
  if (id <? 0) || (id >=? N_STREAMS) then Fatal
  else
    match j_tab s with
    | None => Ok s
    | Some tab =>
      let* p := zget tab id in
      match p with
      | None => Ok s
      | Some o => let* h := tree_free (S (length (j_heap s))) (j_heap s) (Some o) in
                  let* tab := zset tab id None in
                  Ok (JL (Some tab) h)
      end
    end.

(** NX_JLOG and NX_JLOG_TEMPLATE, nx_json_log.h:47-49: [bundle] makes the node
    of the value.  The order in which C evaluates the two arguments is not
    fixed; the stream is looked up first here. *)
Definition log_value (s : jlog) (id : Z) (key : list N) (bundle : heap node -> res (heap node * nat)) : res jlog :=
  let* (s, o) := get_stream s id in
  let* (h, n) := bundle (j_heap s) in
  let* h := object_add h o key n in
  Ok (JL (j_tab s) h).

(** NX_JLOG_ADD_TEMPLATE, nx_json_log.h:50-58. *)
Definition log_add (s : jlog) (id : Z) (key : list N) (bundle : heap node -> res (heap node * nat)) : res jlog :=
  let* (s, o) := get_stream s id in
  let* arr := object_get (j_heap s) (Some o) key JNT_ARRAY in
  let* (s, a) := match arr with
                 | Some a => Ok (s, a)
                 | None => let '(h, a) := new_array (j_heap s) in
                           let* s := log_value (JL (j_tab s) h) id key (fun h => Ok (h, a)) in
                           Ok (s, a)
                 end in
  let* (h, n) := bundle (j_heap s) in
  let* h := array_add h a n in
  Ok (JL (j_tab s) h).
