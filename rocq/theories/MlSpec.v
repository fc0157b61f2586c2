(** What a history of calls on match lists should do: every list is a value of
    its own, a pair of matches and statistics. *)
From Verif Require Import Base ProjModel GeoSpec ProjSpec MlModel.
From Coq Require Import Permutation Sorted.
Local Open Scope R_scope.

Inductive ml_call :=
| MNew
| MCopy (i : nat)
| MClone (i : nat)
| MClear (i : nat)
| MAdd (i : nat) (c : pmatch)
| MInlier (i : nat) (idx : Z) (b : bool)
| MNormalize (i : nat)
| MDenormalize (i : nat)
| MSort (i : nat).

(** The calls, run on the model. *)
Definition ml_do (sort : list pmatch -> list pmatch) (w : world) (c : ml_call) : res world :=
  match c with
  | MNew => Ok (ml_new w)
  | MCopy i => ml_copy w i
  | MClone i => ml_clone w i
  | MClear i => ml_clear w i
  | MAdd i c => let* (w, _) := ml_add w i c in Ok w
  | MInlier i idx b => ml_set_inlier w i idx b
  | MNormalize i => ml_normalize w i
  | MDenormalize i => ml_denormalize w i
  | MSort i => ml_sort sort w i
  end.
Fixpoint ml_run (sort : list pmatch -> list pmatch) (w : world) (cs : list ml_call) : res world :=
  match cs with [] => Ok w | c :: cs' => let* w := ml_do sort w c in ml_run sort w cs' end.

(** std::sort with the comparison of costs. *)
Definition sorts (sort : list pmatch -> list pmatch) : Prop :=
  forall l, Permutation l (sort l) /\ StronglySorted (fun a b => cost a <= cost b) (sort l).

(** ** The intended effect: [lists] are independent values. *)
Notation mlist := (list pmatch * stats)%type.
Notation neutral := (St (V2 0 0) (V2 0 0) 1 1).
(** The matches after moving both point sets to mean [m] = 0 and scale 1. *)
Definition normalized (l : list pmatch) (s : stats) (l' : list pmatch) : Prop :=
  sm s = V2 (mean (fun c => px (mx c)) l) (mean (fun c => py (mx c)) l) /\
  smp s = V2 (mean (fun c => px (mxp c)) l) (mean (fun c => py (mxp c)) l) /\
  sd s = mean (fun c => distance (mx c) (sm s)) l /\ sdp s = mean (fun c => distance (mxp c) (smp s)) l /\
  l' = map (fun c => PM (to_norm (sm s) (sd s) (mx c)) (to_norm (smp s) (sdp s) (mxp c)) (cost c) (sigma c / sd s) (sigmap c / sdp s) (mid c) (midp c) (inlier c)) l.
Definition denormalized (l : list pmatch) (s : stats) (l' : list pmatch) : Prop :=
  l' = map (fun c => PM (from_norm (sm s) (sd s) (mx c)) (from_norm (smp s) (sdp s) (mxp c)) (cost c) (sigma c * sd s) (sigmap c * sdp s) (mid c) (midp c) (inlier c)) l.

(** One call changes one list, and only as its name says. *)
Inductive effect (sort : list pmatch -> list pmatch) : list mlist -> ml_call -> list mlist -> Prop :=
| e_new A : effect sort A MNew (A ++ [([], neutral)])
| e_clone A B l s : effect sort (A ++ (l, s) :: B) (MClone (length A)) (A ++ (l, s) :: B ++ [(l, s)])
| e_clear A B l s : effect sort (A ++ (l, s) :: B) (MClear (length A)) (A ++ ([], neutral) :: B)
| e_add A B l s c : effect sort (A ++ (l, s) :: B) (MAdd (length A) c) (A ++ (l ++ [c], s) :: B)
| e_inlier A B l1 c l2 s b : effect sort (A ++ (l1 ++ c :: l2, s) :: B) (MInlier (length A) (Z.of_nat (length l1)) b)
                                        (A ++ (l1 ++ PM (mx c) (mxp c) (cost c) (sigma c) (sigmap c) (mid c) (midp c) b :: l2, s) :: B)
| e_norm A B l s l' s' : spread mx l -> spread mxp l -> normalized l s' l' ->
    effect sort (A ++ (l, s) :: B) (MNormalize (length A)) (A ++ (l', s') :: B)
| e_denorm A B l s l' : denormalized l s l' -> effect sort (A ++ (l, s) :: B) (MDenormalize (length A)) (A ++ (l', neutral) :: B)
| e_sort A B l s : effect sort (A ++ (l, s) :: B) (MSort (length A)) (A ++ (sort l, s) :: B).
Inductive history (sort : list pmatch -> list pmatch) : list mlist -> list ml_call -> list mlist -> Prop :=
| h_nil A : history sort A [] A
| h_cons A c A1 cs A2 : effect sort A c A1 -> history sort A1 cs A2 -> history sort A (c :: cs) A2.

(** The matches and the statistics of the lists of a world. *)
Definition holds (w : world) (A : list mlist) : Prop :=
  Forall2 (fun o m => snd o = fst m /\ nth_error (w_stats w) (fst o) = Some (snd m)) (w_objs w) A.

(** A call that leaves list [i] as it is, or only sorts it or sets a flag. *)
Definition harmless (i : nat) (c : ml_call) : Prop :=
  match c with
  | MNew | MCopy _ | MClone _ => True
  | MSort _ | MInlier _ _ _ => True
  | MClear j | MAdd j _ | MNormalize j | MDenormalize j => j <> i
  end.
(** A match but for its flag. *)
Definition unflagged (c : pmatch) : pmatch := PM (mx c) (mxp c) (cost c) (sigma c) (sigmap c) (mid c) (midp c) false.

(** The calls that make sense: the list exists, the index is one of a match,
    and points to be normalized do not all coincide. *)
Definition allowed (A : list mlist) (c : ml_call) : Prop :=
  match c with
  | MNew => True
  | MCopy _ => False
  | MClone i | MClear i | MAdd i _ | MDenormalize i | MSort i => (i < length A)%nat
  | MInlier i idx _ => exists l s, nth_error A i = Some (l, s) /\ (0 <= idx < Z.of_nat (length l))%Z
  | MNormalize i => exists l s, nth_error A i = Some (l, s) /\ spread mx l /\ spread mxp l
  end.
