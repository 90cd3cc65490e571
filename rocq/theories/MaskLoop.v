(** Model of the masks that depend on a survey's past visits.
    /repo/rubin_scheduler/scheduler/basis_functions/mask_basis_funcs.py:
    MaskAfterNObsSeeingBasisFunction (86-131), NInNightMaskBasisFunction (162-186),
    MaskAfterNObsBasisFunction (219-240); basis_functions.py: AvoidFastRevisitsBasisFunction
    (639-677).  The features are those of Feat.v; NObservationsCurrentSeason gets the limit on
    the seeing Feat.v leaves out (features.py 636-646), as one number.
    Each is a class of BfCall.v, told of visits one at a time.  An add that raises leaves the
    feature as it was and is reported to the caller, which is not modelled here.
    Conditions are the time and the night. *)
From Coq Require Import List ZArith QArith Bool String.
From Verif Require Import Base IntRounded Feat BfCall.
Import ListNotations.
Open Scope nat_scope.

Definition mcond : Type := (Q * Z)%type.
Definition mc_mjd (c : mcond) : Q := fst c.
Definition mc_night (c : mcond) : Z := snd c.
Definition keep {A} (a : A) (r : res A) : A := match r with Ok b => b | Raise _ => a end.
(** result[np.where(feature >= n)] = nan, on a map of zeros *)
Definition at_least (n : Z) (f : nat -> Z) (h : nat) : er := if (n <=? f h)%Z then ENaN else EFin 0.

(** MaskAfterNObs, and MaskAfterNObsSeeing without a reset per season *)
Definition after_cls (n : Z) (bn : option string) (lim : seelim) : cls (nat -> Z) mcond fvis :=
  mkCls (fun f v => keep f (no_one None bn lim 100 f v)) (fun _ _ => true) (fun f _ => (f, at_least n f)) false true true.
(** NInNightMask *)
Definition night_cls (n : Z) (bn : option string) : cls nbst mcond fvis :=
  mkCls (nb_one bn) (fun _ _ => true) (fun s _ => (s, at_least n (nb_map s))) false true true.

(** NObservationsCurrentSeason.add_observation with seeing_fwhm_max a number *)
Section Season.
Variable pix_ra : nat -> Q.
Variable start : Q.
Variable bn : option string.
Definition see_check (lim : Q) (v : fvis) : res bool :=
  match fv_see v with
  | EFin q => bind (ir_le [q] [lim]) (fun b => Ok (any_true b))
  | _ => Raise ValueError               (* IntRounded of a value that is not finite *)
  end.
Definition cu_one (lim : Q) (s : csst) (v : fvis) : res csst :=
  bind (see_check lim v) (fun ok =>
  Ok (if ok then cs_one pix_ra (fun _ => ENaN) start bn None s v else season_update pix_ra start s (fv_mjd v))).
(** MaskAfterNObsSeeing with a reset per season.  The season is brought up to date before the
    seeing is looked at. *)
Definition season_cls (n : Z) (lim : Q) : cls csst mcond fvis :=
  mkCls (fun s v => keep (season_update pix_ra start s (fv_mjd v)) (cu_one lim s v)) (fun _ _ => true) (fun s _ => (s, at_least n (cs_map s))) false true true.
End Season.

(** AvoidFastRevisits: gap in minutes, LastObserved with fill 0 *)
Definition since (f : nat -> option Q) (t : Q) (h : nat) : Q := (t - match f h with Some q => q | None => 0 end)%Q.
Definition gap_map (npix : nat) (gap : Q) (pen : er) (f : nat -> option Q) (t : Q) : rmap :=
  fun h => if nth h (keep [] (ir_lt (map (since f t) (seq 0 npix)) [(gap / 60 / 24)%Q])) false then pen else EFin 1.
Definition gap_cls (npix : nat) (gap : Q) (pen : er) (bn : option string) : cls (nat -> option Q) mcond fvis :=
  mkCls (ld_one bn) (fun _ _ => true) (fun f c => (f, gap_map npix gap pen f (mc_mjd c))) false true true.
