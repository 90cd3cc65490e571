(** The surveys of the Roman bulge field:
    /repo/rubin_scheduler/scheduler/example/roman_surveys.py.
    The gates are those of TimeGate.v and GateLoop.v, the sequence that of Surveys.v (DeepDrillingSurvey), the masks those of
    LsstSurveys.v. Dithers, rotation and labels (lines 116-135, 227-246) are not modelled. *)
From Coq Require Import List Bool QArith ZArith String.
From Verif Require Import Base IntRounded Obs Core Feat TimeGate GateLoop Surveys LsstSurveys.
Import ListNotations.
Open Scope string_scope.
Open Scope list_scope.

(** def_roman_info, lines 13-42; the place is that of utils/ddf_locations.py lines 20-21, degrees. *)
Definition roman_ra : Q := 268708 # 1000.
Definition roman_dec : Q := - 28975 # 1000.
Definition season_mids : list Q := [619473 # 10; 623188 # 10; 626703 # 10; 630672 # 10; 633814 # 10; 637732 # 10].
Definition seasons_on : list (list Q) := map (fun v => [v - 32; v + 32]%Q) season_mids.
Fixpoint between (l : list (list Q)) : list (list Q) :=
  match l with
  | a :: r => match r with
              | b :: _ => [nth 1 a 0 + 1; nth 0 b 0 - 1]%Q :: between r
              | [] => []
              end
  | [] => []
  end.
Definition seasons_off : list (list Q) := between seasons_on.

(** What a call gives the DeepDrillingSurvey: masks, gates and sequence. *)
Record roman := Roman {
  r_masks : list bfn; r_delay : Q; r_windows : list (list Q); r_airmass : option Z (* the nside the point is looked up with *);
  r_name : string; r_sequence : string; r_nvis : list Z; r_exptime : Q; r_nexp : Z }.
(** Lines 91-153. *)
Definition gen_roman_on_season (nside : Z) (exptime : Q) (nexp : Z) (safety : option params) : roman :=
  Roman (safety_masks (at_least 12 (base_params nside safety))) (8 # 10) seasons_on None "DD: RGES_onseason" "giriz" [1; 1; 1; 1; 1]%Z exptime nexp.
(** Lines 201-265. *)
Definition gen_roman_off_season (nside : Z) (exptime : Q) (nexp : Z) (safety : option params) : roman :=
  Roman (safety_masks (at_least 11 (base_params nside safety))) 3 seasons_off (Some nside) "DD: RGES_offseason" "griz" [2; 2; 2; 2]%Z exptime nexp.

(** What the gates look at: the conditions, the current band, the last visit with the name of the survey, and the airmass of
    the pixels at the resolution 32 of the basis function (feasibility_funcs.py line 171). *)
Record world := World { w_tc : tcond; w_band : string; w_last : option fvis; w_airmass : list er }.
Definition cond_of (w : world) : scond world := mkSc (tc_mjd (w_tc w)) (tc_bands (w_tc w)) (w_band w) w.

Section Gates.
Variable pix : Z -> nat. (* ra_dec2_hpid of the field, by nside *)
(** The masks have the check_feasibility of BaseBasisFunction, basis_functions.py lines 133-139. *)
Definition mask_check (m : bfn) : bool := true.
(** AirmassPointRangeBasisFunction, feasibility_funcs.py lines 147-174, range 1.05 to 2.7. *)
Definition in_airmass (a : er) : bool := match a with EFin x => Qle_bool (105 # 100) x && Qle_bool x (27 # 10) | _ => false end.
Definition airmass_point (nside : Z) (w : world) : res bool :=
  match nth_error (w_airmass w) (pix nside) with Some a => Ok (in_airmass a) | None => Raise IndexError end.
(** _check_feasibility, base_survey.py lines 263-276: the gates in their order, the rest unseen after the first that is shut. *)
Definition and_then (a b : res bool) : res bool := bind a (fun x => if x then b else Ok false).
Definition roman_check (r : roman) (w : world) : res bool :=
  and_then (Ok (forallb mask_check (r_masks r)))
    (and_then (Ok (ha_limit roman_ra [(20, 24); (0, 4)]%Q (w_tc w)))
      (and_then (not_twilight 18 (w_tc w))
        (and_then (Ok (fd_check (r_delay r) (w_last w) (tc_mjd (w_tc w))))
          (and_then (in_time_window (r_windows r) (w_tc w))
            (match r_airmass r with Some n => airmass_point n w | None => Ok true end))))).

(** The DeepDrillingSurvey of lines 139-153 and 248-262: the defaults are those of dd_surveys.py lines 50-68 (readout 2 s, 120 s for
    a change of band, flush after 30 minutes). The gates are in roman_check, so its own list is empty. *)
Variable rad : Q -> Q.
Variable order : list obs -> list obs.
Definition roman_sequence (r : roman) : list obs :=
  dd_expand (rad roman_ra) (rad roman_dec) (r_exptime r) 30 (r_nexp r) (r_name r) (r_nvis r) (chars (r_sequence r)).
Definition roman_survey (r : roman) : res (ddf world) := dd_new order [] None 2 120 30 (roman_sequence r).
(** generate_observations_rough. *)
Definition roman_generate (r : roman) (w : world) : res genres :=
  bind (roman_survey r) (fun s => bind (roman_check r w) (fun b => Ok (if b then dd_generate s (cond_of w) else GPyList))).
End Gates.
