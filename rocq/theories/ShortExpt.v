(** Short exposures added behind visits: /repo/rubin_scheduler/scheduler/detailers/short_survey.py.
    A visit is an array of one row of which the columns read or written here are kept. The lookup of pixels in the field of view (HpInLsstFov)
    is a parameter; the arithmetic is exact. conditions.night is a python int, so that a division by a night_max of zero raises. *)
From Coq Require Import List Bool QArith ZArith Qround String.
From Verif Require Import Base.
Import ListNotations.
Open Scope Q_scope.
Open Scope string_scope.
Open Scope list_scope.

Record visit := Vis { v_ra : Q; v_dec : Q; v_band : string; v_exptime : Q; v_nexp : Z; v_note : string; v_flush : Q }.
(** The arguments of the constructor that matter, lines 35-49. *)
Record short := Short {
  p_exptime : Q; p_band : string; p_foot : option (nat -> Q); p_nobs : Q; p_name : string; p_read : Q; p_night_max : option Z; p_repeat : nat; p_scale : bool }.
(** Names that "import rubin_scheduler.scheduler.features as features" gives: features/__init__.py lines 1-2, conditions.py line 1,
    features.py lines 1-15. *)
Definition feature_names : list string :=
  ["Conditions"; "BaseFeature"; "BaseSurveyFeature"; "NObsCount"; "LastObservation"; "NObservations"; "LastObserved"; "NObsNight"; "PairInNight";
   "NObservationsCurrentSeason"; "LastNObsTimes"; "NoteInNight"; "LastObservationMjd"; "LastObservedMatching"].
Definition attribute (name : string) : res string := if existsb (String.eqb name) feature_names then Ok name else Raise AttributeError.
(** The constructor, lines 50-70: the attributes are set, then the feature is looked up. *)
Definition new_short (a : short) : res short := bind (attribute "N_observations") (fun _ => Ok a).

Section Call.
Variable hpids : Q -> Q -> list nat. (* pixels in the field of view at RA, dec *)
Variable counts : nat -> Q. (* the map of the feature *)

(** Lines 81-86. *)
Definition goal (a : short) (night : Z) : res Q :=
  if p_scale a then match p_night_max a with
                    | None => Raise TypeError
                    | Some m => if Z.eqb m 0 then Raise ZeroDivisionError else Ok (p_nobs a * inject_Z (Qceiling (inject_Z night / inject_Z m)))
                    end
  else Ok (p_nobs a).
(** Lines 90-96: has the visit pixels of the footprint with too few observations? *)
Definition due (a : short) (g : Q) (v : visit) : res bool :=
  if String.eqb (v_band v) (p_band a) then
    match p_foot a with
    | None => Raise TypeError
    | Some f => let l := filter (fun p => Qltb 0 (f p)) (hpids (v_ra v) (v_dec v)) in
                let l := filter (fun p => Qltb (counts p) g) l in
                Ok (negb (Nat.eqb (List.length l) 0))
    end
  else Ok false.
(** Lines 98-102. *)
Definition shortened (a : short) (v : visit) : visit := Vis (v_ra v) (v_dec v) (v_band v) (p_exptime a) 1 (p_name a) (v_flush v).
(** Lines 87-103; true marks the visits that were in the list, which line 106 changes afterwards. *)
Fixpoint add (a : short) (g : Q) (l : list visit) (out : list (bool * visit)) (time : Q) : res (list (bool * visit) * Q) :=
  match l with
  | [] => Ok (out, time)
  | v :: l' => bind (due a g v) (fun d =>
      if d then add a g l' (out ++ [(true, v)] ++ repeat (false, shortened a v) (p_repeat a)) (time + inject_Z (Z.of_nat (p_repeat a)) * (p_exptime a + p_read a))
      else add a g l' (out ++ [(true, v)]) time)
  end.
(** Lines 105-106. *)
Definition pumped (time : Q) (v : visit) : visit :=
  Vis (v_ra v) (v_dec v) (v_band v) (v_exptime v) (v_nexp v) (v_note v) (v_flush v + time / 3600 / 24).
(** __call__, lines 72-107. *)
Definition call_short (a : short) (night : Z) (l : list visit) : res (list visit) :=
  if match p_night_max a with Some m => Z.ltb m night | None => false end then Ok l
  else bind (goal a night) (fun g => bind (add a g l [] 0) (fun r =>
         Ok (map (fun bv : bool * visit => if fst bv then pumped (snd r) (snd bv) else snd bv) (fst r)))).
End Call.
