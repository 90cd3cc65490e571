(** Model of how a basis function is called, and of AreaCheckMaskBasisFunction.
    /repo/rubin_scheduler/scheduler/basis_functions/basis_functions.py: BaseBasisFunction
    (61-173: add_observation, _calc_value, __call__); mask_basis_funcs.py:
    AreaCheckMaskBasisFunction (299-328).
    A class is given by its features, its check_feasibility and its _calc_value.  A reward is
    a map over pixels; a scalar reward is a constant map.  [cl_books] says whether _calc_value
    sets mjd_last and clears recalc; BaseBasisFunction._calc_value does, and no class of the
    package that overrides it does.  The time of the conditions is compared exactly. *)
From Coq Require Import List ZArith QArith Bool.
From Verif Require Import Base.
Import ListNotations.
Open Scope nat_scope.

Definition rmap : Type := nat -> er.

Section BfCall.
Context {S C V : Type}.
Variable mjd : C -> Q.

Record cls : Type := mkCls {
  cl_add : S -> V -> S;               (* add_observation on every feature *)
  cl_feas : S -> C -> bool;           (* check_feasibility *)
  cl_calc : S -> C -> S * rmap;       (* _calc_value, which may change features *)
  cl_books : bool; cl_newobs : bool; cl_onmjd : bool }.

(** The instance: features, recalc, mjd_last and value. *)
Record bf : Type := mkBf { b_feat : S; b_recalc : bool; b_last : option Q; b_value : rmap }.
Definition bf0 (s : S) : bf := mkBf s true None (fun _ => EFin 0).

(** add_observation, lines 116-130 *)
Definition bf_add (k : cls) (b : bf) (v : V) : bf :=
  mkBf (cl_add k (b_feat b) v) (if cl_newobs k then true else b_recalc b) (b_last b) (b_value b).
(** self.value = self._calc_value(conditions) *)
Definition bf_calc (k : cls) (b : bf) (c : C) : bf :=
  let (s, r) := cl_calc k (b_feat b) c in
  if cl_books k then mkBf s false (Some (mjd c)) r else mkBf s (b_recalc b) (b_last b) r.
Definition at_last (b : bf) (c : C) : bool := match b_last b with Some t => Qeq_bool (mjd c) t | None => false end.
(** __call__, lines 155-173 *)
Definition bf_call (k : cls) (b : bf) (c : C) : bf * rmap :=
  if negb (cl_feas k (b_feat b) c) then (b, fun _ => ENInf)
  else
    let b1 := if b_recalc b then bf_calc k b c else b in
    let b2 := if cl_onmjd k then (if negb (at_last b1 c) then bf_calc k b1 c else b1) else b1 in
    (b2, b_value b2).

Inductive op : Type := Seen (v : V) | Ask (c : C).
Definition bf_step (k : cls) (b : bf) (o : op) : bf :=
  match o with Seen v => bf_add k b v | Ask c => fst (bf_call k b c) end.
Definition bf_run (k : cls) (b : bf) (l : list op) : bf := fold_left (bf_step k) l b.
End BfCall.
Arguments cls : clear implicits.
Arguments bf : clear implicits.
Arguments op : clear implicits.

(** ** AreaCheckMask *)
(** Multiplication of floats. *)
Definition er_mul (x y : er) : er :=
  match x, y with
  | ENaN, _ | _, ENaN => ENaN
  | EFin a, EFin b => EFin (a * b)
  | EFin a, EPInf | EPInf, EFin a => if Qeq_bool a 0 then ENaN else if Qltb 0 a then EPInf else ENInf
  | EFin a, ENInf | ENInf, EFin a => if Qeq_bool a 0 then ENaN else if Qltb 0 a then ENInf else EPInf
  | EPInf, EPInf | ENInf, ENInf => EPInf
  | EPInf, ENInf | ENInf, EPInf => ENInf
  end.

Section Area.
Context {S C V : Type}.
Variable mjd : C -> Q.
Variable npix : nat.
Variable pix_area min_area : Q.

(** Its features are the functions in bf_list, which survey_features does not hold, so a visit
    reaches none of them.  Each has its class beside it. *)
Definition inner : Type := list (cls S C V * bf S).
(** result *= bf(conditions) for each of them *)
Fixpoint area_map (l : inner) (c : C) (acc : rmap) : inner * rmap :=
  match l with
  | [] => ([], acc)
  | (k, b) :: r =>
      let (b1, m) := bf_call mjd k b c in
      let (r1, a) := area_map r c (fun p => er_mul (acc p) (m p)) in
      ((k, b1) :: r1, a)
  end.
Definition zeros : rmap := fun _ => EFin 0.
Definition is_zero (x : er) : bool := match x with EFin q => Qeq_bool q 0 | _ => false end.
(** check_feasibility, lines 309-322.  What it leaves in bf_list is dropped: the caches of
    classes that keep no books hold nothing. *)
Definition area_feas (l : inner) (c : C) : bool :=
  forallb (fun p => cl_feas (fst p) (b_feat (snd p)) c) l &&
  negb (Qltb (pix_area * inject_Z (Z.of_nat (List.length (filter (fun p => is_zero (snd (area_map l c zeros) p)) (seq 0 npix))))) min_area).
Definition area_cls : cls inner C V :=
  mkCls (fun l _ => l) area_feas (fun l c => area_map l c zeros) false true true.
End Area.
