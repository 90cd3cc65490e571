(** PlanAheadSurvey:
    /repo/rubin_scheduler/scheduler/surveys/plan_night_survey.py lines 14-130.
    Simplifications: exact rationals; angles in hours, so that a turn is 24; the mean
    direction of the chosen pixels (lines 84-87, arctan2 of means) is an arbitrary
    function; conditions.lmst is an array of one value, as lines 94-95 need it; the
    feasibility, the reward and the observations of BlobSurvey are arbitrary and leave
    the attributes of this class alone. *)
From Coq Require Import List ZArith QArith Qabs Bool String.
From Verif Require Import Base.
Import ListNotations.
Open Scope Q_scope.

(** What [from rubin_scheduler.scheduler import features] offers:
    features/__init__.py lines 1-2, features/features.py lines 1-15,
    features/conditions.py line 1; and the two submodules. *)
Definition feature_names : list string :=
  ["Conditions"; "BaseFeature"; "BaseSurveyFeature"; "NObsCount"; "LastObservation"; "NObservations"; "LastObserved";
   "NObsNight"; "PairInNight"; "NObservationsCurrentSeason"; "LastNObsTimes"; "NoteInNight"; "LastObservationMjd";
   "LastObservedMatching"; "conditions"; "features"]%string.
Definition getattr (names : list string) (n : string) : res unit :=
  if existsb (String.eqb n) names then Ok tt else Raise AttributeError.

Record attrs : Type := mkAttrs { pa_night : Z; pa_sched : option Q }.
(** Lines 35-62: [sup] is what BlobSurvey.__init__ does, [moon] the look-up of line 57. *)
Definition plan_init (names : list string) (sup moon : res unit) : res attrs :=
  bind sup (fun _ => bind (getattr names "Last_observed") (fun _ => bind moon (fun _ => Ok (mkAttrs (-100) None)))).

(** A pixel: days since the last visit, distance from the antisun, clear of the moon. *)
Record pixel : Type := mkPixel { px_gap : Q; px_anti : Q; px_clear : bool }.
Record cond : Type := mkCond { cd_mjd : Q; cd_night : Z; cd_lmst : Q; cd_pix : list pixel; cd_feasible : bool; cd_reward : option Q }.

Section Plan.
Variable mean : list nat -> Q.
Variables tol min_area in_season cadence pix_area : Q.

(** Lines 69-73. *)
Definition wanted (p : pixel) : bool := Qltb cadence (px_gap p) && Qltb (Qabs (px_anti p)) in_season && px_clear p.
Definition where_wanted (l : list pixel) : list nat :=
  map fst (filter (fun ip => wanted (snd ip)) (combine (seq 0 (List.length l)) l)).
(** Lines 91-95. *)
Definition hour_angle (lmst ra : Q) : Q :=
  let h := lmst - ra in
  let h := if Qltb h (- (12)) then h + 24 else h in
  if Qltb 12 h then h - 24 else h.
(** Lines 64-100. *)
Definition check_night (a : attrs) (c : cond) : attrs :=
  let idx := where_wanted (cd_pix c) in
  let area := inject_Z (Z.of_nat (List.length idx)) * pix_area in
  if Qltb min_area area then
    let ra := mean idx in
    let ra := if Qltb ra 0 then ra + 24 else ra in
    let h := hour_angle (cd_lmst c) ra in
    if Qltb h 0 then mkAttrs (pa_night a) (Some (cd_mjd c - h / 24)) else mkAttrs (pa_night a) (Some (cd_mjd c))
  else mkAttrs (pa_night a) None.
(** Lines 102-120; None for a reward of minus infinity. *)
Definition calc_reward (a : attrs) (c : cond) : attrs * option Q :=
  if cd_feasible c then
    let a1 := if Z.eqb (pa_night a) (cd_night c) then a
              else let a' := check_night a c in mkAttrs (cd_night c) (pa_sched a') in
    match pa_sched a1 with
    | None => (a1, None)
    | Some t => if Qltb (Qabs (cd_mjd c - t)) tol then (a1, cd_reward c) else (a1, None)
    end
  else (a, None).
(** Lines 122-130. *)
Definition generate (a : attrs) (c : cond) : attrs := mkAttrs (cd_night c - 1) None.

(** The scheduler asks for rewards and, of a survey it chooses, for observations. *)
Inductive call : Type := Ask (c : cond) | Take (c : cond).
Definition step (a : attrs) (k : call) : attrs := match k with Ask c => fst (calc_reward a c) | Take c => generate a c end.
Definition run (l : list call) : attrs := fold_left step l (mkAttrs (-100) None).
End Plan.
