(** Model of calc_norm_factor and calc_norm_factor_array, /repo/rubin_scheduler/scheduler/utils/footprints.py lines 578-629, which run the same
    lines over the items of a dict and over the columns of a record array.
    Simplifications: values are reals, NaN is not modelled; hp.npix2nside accepts the sizes 12 n^2 with n > 0 and raises ValueError for others;
    a sum of zero, which makes the result inf with a warning, is None. *)
From Coq Require Import List Arith Reals.
From Verif Require Import Base.
Import ListNotations.
Open Scope R_scope.

(** hp.npix2nside: the n with 12 n^2 pixels. *)
Fixpoint nside_below (fuel npix : nat) : option nat :=
  match fuel with
  | O => None
  | S f => if Nat.eqb (12 * (S f * S f)) npix then Some (S f) else nside_below f npix
  end.
Definition npix2nside (npix : nat) : res nat := match nside_below npix npix with Some n => Ok n | None => Raise ValueError end.
(** hp.nside2pixarea(nside, degrees=True). *)
Definition pixarea (nside : nat) : R := 4 * PI / (12 * (INR nside * INR nside)) * ((180 / PI) * (180 / PI)).
(** The positive pixels of a map, lines 597-598 and 624-625. *)
Definition pos_sum (m : list R) : R := fold_right Rplus 0 (filter (fun x => if Rlt_dec 0 x then true else false) m).
Definition all_sum (maps : list (list R)) : R := fold_right Rplus 0 (map pos_sum maps).
(** Lines 595-602 and 622-629; the name key is not bound without a map, and keeps the last. *)
Definition calc_norm_factor (maps : list (list R)) (radius : R) : res (option R) :=
  match maps with
  | [] => Raise UnboundLocalError
  | m :: rest =>
      bind (npix2nside (length (last rest m))) (fun nside =>
        Ok (if Req_EM_T (all_sum maps) 0 then None else Some (radius * radius * PI / pixarea nside / all_sum maps)))
  end.
