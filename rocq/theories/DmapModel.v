(** Model of src/vg_descriptor_map.cc and include/virg/nexus/vg_descriptor_map.hpp. *)
From Verif Require Import Base BaseLemmas Gray Flt BriefModel.
Local Open Scope Z_scope.

(** class VGDescriptorMap, hpp:36-70: m_n_octets, m_ids, m_descriptor_data and the
    capacity of the last vector, beyond which its memory moves. *)
Record dmap := mkD { d_oct : Z; d_ids : list Z; d_data : list N; d_cap : Z }.
(** The descriptor given to [add]: memory of the caller, or the memory of the map
    itself from an offset, as returned by get_descriptor and search_by_id. *)
Inductive from := Caller (l : list N) | Own (off : Z).

Section Map.
(** The capacity a vector of some capacity takes to hold some number of elements. *)
Variable grow : Z -> Z -> Z.

(** The constructor, .cc:39-41. *)
Definition new_map (n_octets : Z) : dmap := mkD n_octets [] [] 0.
(** clear, 43-47; the capacity stays. *)
Definition clear (m : dmap) : dmap := mkD (d_oct m) [] [] (d_cap m).
(** reserve, 49-53; a negative number is a huge size_t. *)
Definition reserve (m : dmap) (n : Z) : res dmap :=
  if n <? 0 then Fatal
  else let* b := chk_int (n * d_oct m) in
    if b <? 0 then Fatal else Ok (mkD (d_oct m) (d_ids m) (d_data m) (Z.max (d_cap m) b)).
(** set_n_octets, hpp:57. *)
Definition set_n_octets (m : dmap) (n : Z) : dmap := mkD n [] [] (d_cap m).
(** get_id and get_descriptor, hpp:51-54; an offset for a pointer. *)
Definition size (m : dmap) : Z := Z.of_nat (length (d_ids m)).
Definition get_id (m : dmap) (i : Z) : res Z := zget (d_ids m) i.
Definition get_descriptor (m : dmap) (i : Z) : res Z := chk_int (i * d_oct m).
(** The [n] octets from [off] on. *)
Definition octets (data : list N) (off n : Z) : res (list N) :=
  if (0 <=? off) && (0 <=? n) && (off + n <=? Z.of_nat (length data)) then Ok (firstn (Z.to_nat n) (skipn (Z.to_nat off) data)) else UB.
(** add, .cc:55-65: the memory of the map moves when its capacity is exceeded, and
    a source in the old memory is gone. *)
Definition add (m : dmap) (id : Z) (desc : from) : res (dmap * Z) :=
  let* i := chk_int (size m) in
  let ids := d_ids m ++ [id] in
  let len := Z.of_nat (length (d_data m)) in
  let n := len + d_oct m in
  if (d_oct m <? 0) then Fatal
  else
    let moved := d_cap m <? n in
    let data := d_data m ++ repeat 0%N (Z.to_nat (d_oct m)) in
    let* off := chk_int (i * d_oct m) in
    let* src := match desc with
                | Caller l => octets l 0 (d_oct m)
                | Own o => if moved then UB else octets data o (d_oct m)
                end in
    if Z.of_nat (length data) <? off + d_oct m then UB
    else
      let data := firstn (Z.to_nat off) data ++ src ++ skipn (Z.to_nat (off + d_oct m)) data in
      let* c := chk_int (Z.of_nat (length ids)) in
      Ok (mkD (d_oct m) ids data (if moved then grow (d_cap m) n else d_cap m), c).

(** search_nn, 67-84. *)
Definition search_nn (fuel : nat) (m : dmap) (desc : list N) : res (Z * flt) :=
  let n := d_oct m in
  let dist_to := fun i => let* o := chk_int (i * n) in
                          let* d := octets (d_data m) o n in distance fuel n desc d in
  match d_data m with
  | [] => UB
  | _ =>
    let* d0 := dist_to 0 in
    let* (idx, dist) := for_each (fun i '(idx, dist) =>
      let* d := dist_to i in
      if d <? dist then Ok (i, d) else Ok (idx, dist)) (zrange 1 (size m)) (0, d0) in
    let* id := zget (d_ids m) idx in
    Ok (id, of_int dist)
  end.
(** search_by_id, 86-95: an offset, or NULL. *)
Fixpoint by_id (ids : list Z) (i id : Z) : option Z :=
  match ids with [] => None | x :: ids' => if id =? x then Some i else by_id ids' (i + 1) id end.
Definition search_by_id (m : dmap) (id : Z) : res (option Z) :=
  match by_id (d_ids m) 0 id with
  | None => Ok None
  | Some i => let* o := chk_int (i * d_oct m) in Ok (Some o)
  end.

(** Histories. *)
Inductive op := OClear | OReserve (n : Z) | OSetOctets (n : Z) | OAdd (id : Z) (desc : from).
Definition step (m : dmap) (o : op) : res dmap :=
  match o with
  | OClear => Ok (clear m)
  | OReserve n => reserve m n
  | OSetOctets n => Ok (set_n_octets m n)
  | OAdd id desc => let* (m, _) := add m id desc in Ok m
  end.
Fixpoint run (m : dmap) (ops : list op) : res dmap :=
  match ops with [] => Ok m | o :: ops' => let* m := step m o in run m ops' end.
End Map.
