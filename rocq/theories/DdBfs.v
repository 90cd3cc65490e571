(** Model of dd_bfs: the gates a deep drilling field is given, in their order, and their check on a DeepDrillingSurvey.
    /repo/rubin_scheduler/scheduler/surveys/dd_surveys.py lines 182-222; basis_functions/feasibility_funcs.py: MoonDownBasisFunction
    (536-543), the length check of SoftDelayBasisFunction (481-482) and of LookAheadDdfBasisFunction (631-632).  The other gates are those
    of TimeGate.v and GateLoop.v.
    Simplifications: AvoidDirectWind is a mask without a feasibility check of its own, and a DeepDrillingSurvey never asks a mask for
    its values, so it is always open here.  The state of the gates is kept once for each feature they own. *)
From Coq Require Import List ZArith QArith Bool String.
From Verif Require Import Base Feat TimeGate GateLoop.
Import ListNotations.
Open Scope nat_scope.

(** The arguments of dd_bfs, lines 182-193. *)
Record dd : Type := mkDd {
  d_ra : Q; d_note : option string; d_ha : list (Q * Q);
  d_frac : Q; d_agg : Q; d_delays : list Q; d_needed : Q }.

(** Line 198. *)
Definition d_fractions (s : dd) : list Q := [0%Q; d_agg s; d_frac s].

(** Lines 199-222: the constructors, in their order, may refuse. *)
Definition dd_bfs (s : dd) : res dd :=
  if Qltb (d_frac s) (d_agg s) then Raise ValueError
  else if Nat.eqb (List.length (d_fractions s)) (List.length (d_delays s)) then Ok s else Raise ValueError.

(** The features of the gates: the counts of FractionOfObs, those of LookAheadDdf, and the three of SoftDelay. *)
Record ddst : Type := mkDst { ds_frac : nnst * nnst; ds_ahead : nnst * nnst; ds_soft : sdst }.
Definition ds0 : ddst := mkDst fo0 fo0 sd0.
(** add_observation of the survey, base_survey.py lines 184-200, tells every gate of every visit. *)
Definition ds_add (s : dd) (x : ddst) (v : fvis) : ddst :=
  mkDst (fo_add (d_note s) (ds_frac x) v) (fo_add (d_note s) (ds_ahead x) v) (sd_add (d_note s) (ds_soft x) v).

(** feasibility_funcs.py lines 536-543. *)
Definition moon_down (c : tcond) : bool := negb (Qltb 0 (tc_moon_alt c)).

(** One gate after another, the rest unasked after the first that is shut: base_survey.py lines 263-276. *)
Definition then_gate (a b : res bool) : res bool := bind a (fun x => if x then b else Ok false).
Definition dd_check (s : dd) (x : ddst) (c : tcond) : res bool :=
  then_gate (not_twilight 18 c)
   (then_gate (time_to_twilight (d_needed s) 18 c)
     (then_gate (Ok (ha_limit (d_ra s) (d_ha s) c))
       (then_gate (Ok (moon_down c))
         (then_gate (Ok (fo_check (d_frac s) (ds_frac x)))
           (then_gate (look_ahead (d_frac s) (d_agg s) (d_needed s) (d_ra s) 44 18 (nn_count (fst (ds_ahead x))) (nn_count (snd (ds_ahead x))) c)
             (then_gate (sd_check (d_fractions s) (d_delays s) (ds_soft x) (tc_mjd c))
               (time_to_scheduled (d_needed s) c))))))).
