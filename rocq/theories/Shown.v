(** What a scheduler shows of itself: /repo/rubin_scheduler/scheduler/schedulers/core_scheduler.py lines
    455-492 (get_basis_functions), 494-533 (get_healpix_maps), 623-664 (surveys_df), 158-161 (the index
    of the last choice put away when the queue is flushed), and scheduler/basis_functions/
    basis_functions.py lines 175-192 (label).  A basis function is its identity, the name of its class
    (whole, and without "BasisFunction"), its band and what it gives in some conditions (C65 and BfCall.v
    are about the values it keeps).  Tables are association lists in order of insertion. *)
From Coq Require Import List String Bool Arith ZArith QArith DecimalString DecimalNat.
From Verif Require Import Base Core.
Import ListNotations.
Open Scope string_scope.
Open Scope list_scope.
Open Scope nat_scope.

Definition table (A : Type) := list (string * A).
Fixpoint tget {A} (k : string) (t : table A) : option A :=
  match t with [] => None | (j, v) :: r => if String.eqb k j then Some v else tget k r end.
(** d[k] = v: in place, or at the end. *)
Fixpoint tset {A} (k : string) (v : A) (t : table A) : table A :=
  match t with [] => [(k, v)] | (j, w) :: r => if String.eqb k j then (j, v) :: r else (j, w) :: tset k v r end.
Definition thas {A} (k : string) (t : table A) : bool := match tget k t with Some _ => true | None => false end.

(** str of an identity: decimal digits. *)
Definition id_text (n : nat) : string := NilZero.string_of_uint (Nat.to_uint n).
Definition at_id (n : nat) : string := (" @" ++ id_text n)%string.

Section Cond.
Variable cond : Type.
(** Sky brightness of the conditions, by band. *)
Variable sky : cond -> table (list er).

Inductive sval := Num (x : er) | Arr (l : list er).
Record bf := mkBf { b_id : nat; b_class : string; b_short : string; b_band : option string; b_val : cond -> sval }.
(** basis_functions.py lines 184-191. *)
Definition label (b : bf) : string :=
  (b_short b ++ match b_band b with Some f => " " ++ f | None => "" end ++ at_id (b_id b))%string.

(** A survey: its basis functions if it has any such attribute, its name, and the reward it keeps
    ([None]: no attribute, or None). *)
Record survey := mkS { v_name : string; v_bfs : option (list bf); v_reward : option sval }.
(** The scheduler: survey_lists, survey_index, conditions if they were ever set. *)
Record sched := mkSc { c_lists : list (list survey); c_index : option nat * option nat; c_cond : option cond }.

(** A list indexed by a Python integer, or by None. *)
Definition pick {A} (l : list A) (i : option Z) : res A :=
  match i with
  | None => Raise TypeError
  | Some i => let j := if (i <? 0)%Z then (i + Z.of_nat (List.length l))%Z else i in
      if (j <? 0)%Z then Raise IndexError
      else match nth_error l (Z.to_nat j) with Some x => Ok x | None => Raise IndexError end
  end.
Definition own_index (s : sched) : option Z * option Z :=
  (option_map Z.of_nat (fst (c_index s)), option_map Z.of_nat (snd (c_index s))).
(** Lines 478-484: which survey, in which conditions. *)
Definition which (s : sched) (index : option (Z * Z)) : res survey :=
  let i := match index with Some (a, b) => (Some a, Some b) | None => own_index s end in
  bind (pick (c_lists s) (fst i)) (fun l => pick l (snd i)).
Definition conds (s : sched) (c : option cond) : res cond :=
  match c with Some c => Ok c | None => match c_cond s with Some c => Ok c | None => Raise AttributeError end end.

(** Lines 455-492. *)
Definition key (b : bf) : string := (b_class b ++ at_id (b_id b))%string.
Definition has_len (v : sval) : bool := match v with Arr _ => true | Num _ => false end.
Definition functions_of (v : survey) (c : cond) : table bf :=
  match v_bfs v with
  | Some l => fold_left (fun t b => if has_len (b_val b c) then tset (key b) b t else t) l []
  | None => []
  end.
Definition get_basis_functions (s : sched) (index : option (Z * Z)) (c : option cond) : res (table bf) :=
  bind (conds s c) (fun c => bind (which s index) (fun v => Ok (functions_of v c))).

(** Lines 517-523: the sky, with what stands for no value made a nan; deepcopy leaves the conditions alone. *)
Definition no_value : er := EFin (- inject_Z (10 ^ 30))%Q.
Definition blank (x : er) : er := if er_ltb x no_value then ENaN else x.
Definition sky_maps (c : cond) : table sval :=
  fold_left (fun t p => tset (fst p ++ "_sky")%string (Arr (map blank (snd p))) t) (sky c) [].
(** Lines 527-531. *)
Definition add_map (c : cond) (t : table sval) (b : bf) : table sval :=
  let l := label b in
  let l := if thas l t then (l ++ at_id (b_id b))%string else l in
  tset l (b_val b c) t.
Definition get_healpix_maps (s : sched) (index : option (Z * Z)) (c : option cond) : res (table sval) :=
  bind (conds s c) (fun c' =>
  bind (get_basis_functions s index (Some c')) (fun fs =>
  Ok (fold_left (add_map c') (map snd fs) (sky_maps c')))).

(** Lines 640-664, surveys_df: name, reward ([None] for None) and whether it was the last chosen. *)
Record row := mkRow { r_name : string; r_reward : option er; r_chosen : bool }.
Definition shown_reward (v : survey) : option er :=
  match v_reward v with
  | None => None
  | Some (Num x) => Some x
  | Some (Arr l) => if forallb (fun x => negb (er_ltb ENInf x)) l then Some ENInf else Some (nanmax l)
  end.
Definition row_of (s : sched) (tier : Z) (i : nat) (v : survey) : row :=
  let early := match fst (c_index s) with None => true | Some n => (Z.of_nat n <? tier)%Z end in
  mkRow (v_name v) (if early then None else shown_reward v)
    (match c_index s with (Some n, Some m) => (tier =? Z.of_nat n)%Z && (i =? m) | _ => false end).
Definition number {A} (l : list A) : list (nat * A) := combine (seq 0 (List.length l)) l.
(** A table without rows has no column to be its index. *)
Definition surveys_df (s : sched) (tier : Z) : res (list row) :=
  bind (pick (c_lists s) (Some tier)) (fun l =>
  match l with [] => Raise KeyError | _ => Ok (map (fun p => row_of s tier (fst p) (snd p)) (number l)) end).

(** flush_queue, lines 158-161, as far as shown. *)
Definition flushed (s : sched) : sched := mkSc (c_lists s) (None, None) (c_cond s).
End Cond.
