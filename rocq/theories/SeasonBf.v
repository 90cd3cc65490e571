(** Model of the rewards that ask for a number of visits in a year or season.
    /repo/rubin_scheduler/scheduler/basis_functions/basis_functions.py:
    NObsPerYearBasisFunction (308-386) and NGoodSeeingBasisFunction (389-470).
    The features LastNObsTimes and NObservationsCurrentSeason are those of Feat.v and MaskLoop.v,
    told of visits one at a time; rewards are asked for the whole sky (indx None) and a number
    given as the reward is a constant map.
    Angles are in radians, with the number used for pi a parameter.
    Not modelled: SeasonCoverageBasisFunction (554-636), whose every call reads conditions.season,
    which no Conditions object has; NGoodSeeing with bandname None, whose every call subtracts
    from None; the footprint taken when none is given; rounding of floats. *)
From Coq Require Import List ZArith QArith Bool String.
From Verif Require Import Base IntRounded Feat BfCall MaskLoop Script.
Import ListNotations.
Open Scope nat_scope.

(** ** NObsPerYear *)
Record ycfg : Type := mkYc {
  y_npix : nat; y_ra : nat -> Q;        (* conditions.ra *)
  y_pi : Q; y_band : option string;
  y_foot : nat -> er; y_n : nat; y_season : Q;
  y_start : Q; y_end : Q;               (* hours *)
  y_nmax : Z
}.
Record ycond : Type := mkYd { yc_mjd : Q; yc_night : Z; yc_sun : Q }.

(** np.where((footprint == 0) | np.isnan(footprint)) *)
Definition out_foot (F : ycfg) (h : nat) : bool := er_eqb (y_foot F h) (EFin 0) || er_isnan (y_foot F h).
Definition rad (F : ycfg) (hours : Q) : Q := (hours * y_pi F / 12)%Q.
(** relative_ra, lines 367-370 *)
Definition rel_ra (F : ycfg) (sun : Q) (h : nat) : Q :=
  let turn := (2 * y_pi F)%Q in
  let mid := Qmod (sun + y_pi F) turn in
  let r := Qmod (y_ra F h - mid) turn in
  Qmod (rad F (y_end F) - r) turn.
(** a / b for a float array [a] that is not negative *)
Definition np_div (a b : Q) : er := if Qeq_bool b 0 then if Qeq_bool a 0 then ENaN else EPInf else EFin (a / b).
Definition y_map (F : ycfg) (f : nat -> list Q) (c : ycond) : rmap :=
  if (y_nmax F <? yc_night c)%Z then fun _ => EFin 0
  else
    let span := (rad F (y_end F) - rad F (y_start F))%Q in
    let late := keep [] (ir_gt (map (rel_ra F (yc_sun c)) (seq 0 (y_npix F))) [span]) in
    fun h =>
      let result := if Qltb (y_season F) (yc_mjd c - last (f h) 0%Q) then 1%Q else 0%Q in
      let rel := if nth h late false then 0%Q else rel_ra F (yc_sun c) h in
      if out_foot F h then EFin 0 else er_mul (EFin result) (np_div rel span).
Definition y_cls (F : ycfg) : cls (nat -> list Q) ycond fvis :=
  mkCls (lt_one (y_band F)) (fun _ _ => true) (fun f c => (f, y_map F f c)) false true true.

(** ** NGoodSeeing *)
Record gcfg : Type := mkGc {
  g_ra : nat -> Q; g_start : Q;         (* as NObservationsCurrentSeason has them *)
  g_sky : nat -> er;                    (* dark_sky, the map the feature has *)
  g_best : nat -> er;                   (* dark_m5, the map the function has *)
  g_band : string; g_see : Q; g_pen : Q; g_n : Z; g_foot : nat -> er
}.
Record gcond : Type := mkGd { gc_mjd : Q; gc_m5 : nat -> er; gc_fwhm : nat -> er }.
(** Subtraction of floats. *)
Definition er_sub (a b : er) : er :=
  match a, b with
  | ENaN, _ | _, ENaN => ENaN
  | EFin a, EFin b => EFin (a - b)
  | EPInf, EPInf | ENInf, ENInf => ENaN
  | EFin _, EPInf => ENInf
  | EFin _, ENInf => EPInf
  | x, _ => x
  end.
Definition er_leb (a b : er) : bool := er_ltb a b || er_eqb a b.
Definition g_one (F : gcfg) (s : csst) (v : fvis) : res csst :=
  bind (see_check (g_see F) v) (fun ok =>
  Ok (if ok then cs_one (g_ra F) (g_sky F) (g_start F) (Some (g_band F)) (Some (g_pen F)) s v
      else season_update (g_ra F) (g_start F) s (fv_mjd v))).
Definition g_map (F : gcfg) (s : csst) (c : gcond) : rmap :=
  fun h => if er_leb (er_sub (g_best F h) (gc_m5 c h)) (EFin (g_pen F)) && er_leb (gc_fwhm c h) (EFin (g_see F)) &&
              (cs_map s h <? g_n F)%Z && er_ltb (EFin 0) (g_foot F h)
           then EFin 1 else EFin 0.
(** The season is brought up to date before the seeing of a visit is looked at, and before each
    reward is calculated. *)
Definition g_cls (F : gcfg) : cls csst gcond fvis :=
  mkCls (fun s v => keep (season_update (g_ra F) (g_start F) s (fv_mjd v)) (g_one F s v)) (fun _ _ => true)
        (fun s c => let s1 := season_update (g_ra F) (g_start F) s (gc_mjd c) in (s1, g_map F s1 c)) false true true.
