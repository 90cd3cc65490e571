(** Model of VaryExptDetailer.
    /repo/rubin_scheduler/scheduler/detailers/vary_exptime.py lines 57-132.
    Magnitudes and times are real numbers; the pixel of a pointing (at the detailer's nside) and
    the neighbours of a pixel (hp.get_all_neighbours at conditions.nside, -1 for one that does not
    exist) are inputs; a masked sky value is None, infinite values are not modelled.  When several
    observations fail, which failure is reported is simplified to the first in the list. *)
From Coq Require Import List Bool String ZArith Reals.
From Verif Require Import Base.
Import ListNotations.
Local Open Scope string_scope.
Open Scope list_scope.
Open Scope R_scope.

(** np.round: to the nearest whole number, halves to even. *)
Definition rround (x : R) : Z :=
  let f := Int_part x in
  let d := x - IZR f in
  if Rlt_dec d (1 / 2) then f
  else if Rlt_dec (1 / 2) d then (f + 1)%Z
  else if Z.even f then f else (f + 1)%Z.
(** np.clip. *)
Definition clip (x lo hi : R) : R := Rmin (Rmax x lo) hi.
(** array[i], negative indices counted from the end. *)
Definition at_pix {A} (m : list A) (i : Z) : res A :=
  let n := Z.of_nat (List.length m) in
  let j := if (i <? 0)%Z then (n + i)%Z else i in
  if ((j <? 0) || (n <=? j))%Z then Raise IndexError
  else match nth_error m (Z.to_nat j) with Some x => Ok x | None => Raise IndexError end.
Fixpoint mapM {A B} (f : A -> res B) (l : list A) : res (list B) :=
  match l with [] => Ok [] | x :: r => bind (f x) (fun y => bind (mapM f r) (fun ys => Ok (y :: ys))) end.
Fixpoint finite_vals (l : list (option R)) : list R :=
  match l with [] => [] | Some x :: r => x :: finite_vals r | None :: r => finite_vals r end.
Definition rsum (l : list R) : R := fold_right Rplus 0 l.

Record sky := mkSky { s_exptime : R; s_m5 : string -> option (list (option R)); s_near : Z -> list Z }.
Record vrow := mkV { v_id : nat; v_band : string; v_pix : Z; v_exptime : R }.

(** The depth at a pixel, lines 110-124: masked ones take the mean of the neighbours. *)
Definition depth (k : sky) (m : list (option R)) (p : Z) : res R :=
  bind (at_pix m p) (fun v => match v with
    | Some x => Ok x
    | None => bind (mapM (at_pix m) (s_near k p)) (fun vals =>
        match finite_vals vals with
        | [] => Raise ValueError
        | l => Ok (rsum l / INR (List.length l))
        end)
    end).
(** Lines 106-132 for one observation. *)
Definition new_exptime (lo hi : R) (target : string -> option R) (k : sky) (r : vrow) : res R :=
  match target (v_band r), s_m5 k (v_band r) with
  | Some t, Some m => bind (depth k m (v_pix r)) (fun d =>
      Ok (IZR (rround (clip (s_exptime k * Rpower 10 ((t - d) / (5 / 4))) lo hi))))
  | _, _ => Raise KeyError
  end.
Definition vary (lo hi : R) (target : string -> option R) (k : sky) (l : list vrow) : res (list vrow) :=
  bind (mapM (new_exptime lo hi target k) l) (fun es =>
    Ok (map (fun re => mkV (v_id (fst re)) (v_band (fst re)) (v_pix (fst re)) (snd re)) (combine l es))).
