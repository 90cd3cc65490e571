(** Model of the conversion between observation arrays and the database schema.
    /repo/rubin_scheduler/scheduler/utils/utils.py lines 439-620 (SchemaConverter,
    without the sqlite files);
    /repo/rubin_scheduler/scheduler/utils/observation_array.py lines 119-170. *)
From Coq Require Import List Bool String Reals Lra.
From Verif Require Import Base.
Import ListNotations.
Local Open Scope string_scope.
Open Scope list_scope.
Open Scope R_scope.

(** A cell: a number, NaN or a string.  A data frame or structured array is its
    columns in order; column names are distinct. *)
Inductive val : Type := VNum (x : R) | VNaN | VStr (s : string).
Notation col := (list val) (only parsing).
Notation frame := (list (string * list val)) (only parsing).

Definition mem (s : string) (l : list string) : bool := existsb (String.eqb s) l.
Fixpoint assoc_s (k : string) (l : list (string * string)) : option string :=
  match l with [] => None | (k', v) :: r => if String.eqb k' k then Some v else assoc_s k r end.

(** [df[name]], [df[name] = col] (replaces, or adds a column at the end),
    [df.drop(name)], [df.rename(columns=map)]. *)
Fixpoint df_get (n : string) (d : frame) : res col :=
  match d with [] => Raise KeyError | (m, c) :: r => if String.eqb m n then Ok c else df_get n r end.
Fixpoint df_set (n : string) (c : col) (d : frame) : frame :=
  match d with [] => [(n, c)] | (m, c') :: r => if String.eqb m n then (m, c) :: r else (m, c') :: df_set n c r end.
Definition df_drop (n : string) (d : frame) : res frame :=
  if mem n (map fst d) then Ok (filter (fun p => negb (String.eqb (fst p) n)) d) else Raise KeyError.
Definition df_rename (f : string -> option string) (d : frame) : frame :=
  map (fun p => (match f (fst p) with Some m => m | None => fst p end, snd p)) d.
Definition df_rows (d : frame) : nat := match d with [] => 0%nat | (_, c) :: _ => List.length c end.

(** Arithmetic on a column; a column with strings raises TypeError. *)
Fixpoint num_col (f : R -> R) (c : col) : res col :=
  match c with
  | [] => Ok []
  | VStr _ :: _ => Raise TypeError
  | VNaN :: r => bind (num_col f r) (fun t => Ok (VNaN :: t))
  | VNum x :: r => bind (num_col f r) (fun t => Ok (VNum (f x) :: t))
  end.
Definition degrees (x : R) : R := x * (180 / PI).
Definition radians (x : R) : R := x * (PI / 180).
Definition to_deg (x : R) : R := x * 360 / 24.
Definition to_hours (x : R) : R := x * 24 / 360.

Section Conv.
(** [convert_dict], [backwards], [angles_rad2deg], [angles_hours2deg] and the column
    names of an ObservationArray. *)
Variable conv back : list (string * string).
Variable rad hrs names : list string.

(** [inv_map], line 498: later entries win. *)
Definition inv (n : string) : option string := assoc_s n (rev (map (fun p => (snd p, fst p)) conv)).

(** The loops of lines 561-564. *)
Fixpoint fwd_loop (f : R -> R) (cs : list string) (d : frame) : res frame :=
  match cs with
  | [] => Ok d
  | c :: r => bind (df_get c d) (fun x => bind (num_col f x) (fun y => fwd_loop f r (df_set c y d)))
  end.

(** [obs2opsim], lines 527-573, without a file. *)
Definition obs2opsim (d : frame) : res frame :=
  bind (df_drop "note" d) (fun d1 =>
  bind (fwd_loop degrees rad (df_rename inv d1)) (fun d2 => fwd_loop to_deg hrs d2)).

(** The loops of lines 598-607: a missing or text column becomes NaN. *)
Fixpoint bwd_loop (f : R -> R) (cs : list string) (d : frame) : frame :=
  match cs with
  | [] => d
  | c :: r =>
      let y := match bind (df_get c d) (num_col f) with Ok y => y | Raise _ => repeat VNaN (df_rows d) end in
      bwd_loop f r (df_set c y d)
  end.

(** Lines 594-596. *)
Definition backwards (d : frame) : frame :=
  fold_left (fun d p => if mem (fst p) (map fst d) then df_rename (fun n => if String.eqb n (fst p) then Some (snd p) else None) d else d)
    back d.

(** [opsimdf2obs], lines 575-621.  A column not found keeps the uninitialised
    memory of [np.empty]: None here. *)
Definition opsim2obs (d : frame) : list (string * option (list val)) :=
  let d1 := bwd_loop radians rad (backwards d) in
  let d2 := df_rename (fun n => assoc_s n conv) (bwd_loop to_hours hrs d1) in
  map (fun n => (n, match df_get n d2 with Ok c => Some c | Raise _ => None end)) names.
End Conv.

(** The tables written in the code. *)
Definition convert_dict : list (string * string) :=
  [ ("observationId", "ID"); ("night", "night"); ("observationStartMJD", "mjd"); ("observationStartLST", "lmst");
    ("numExposures", "nexp"); ("visitTime", "visittime"); ("visitExposureTime", "exptime"); ("proposalId", "survey_id");
    ("fieldId", "field_id"); ("fieldRA", "RA"); ("fieldDec", "dec"); ("altitude", "alt"); ("azimuth", "az");
    ("band", "band"); ("filter", "filter"); ("airmass", "airmass"); ("skyBrightness", "skybrightness");
    ("cloud", "clouds"); ("seeingFwhm500", "FWHM_500"); ("seeingFwhmGeom", "FWHM_geometric");
    ("seeingFwhmEff", "FWHMeff"); ("fiveSigmaDepth", "fivesigmadepth"); ("slewTime", "slewtime");
    ("slewDistance", "slewdist"); ("paraAngle", "pa"); ("pseudoParaAngle", "pseudo_pa"); ("rotTelPos", "rotTelPos");
    ("rotTelPos_backup", "rotTelPos_backup"); ("rotSkyPos", "rotSkyPos"); ("rotSkyPos_desired", "rotSkyPos_desired");
    ("moonRA", "moonRA"); ("moonDec", "moonDec"); ("moonAlt", "moonAlt"); ("moonAz", "moonAz");
    ("moonDistance", "moonDist"); ("moonPhase", "moonPhase"); ("sunAlt", "sunAlt"); ("sunAz", "sunAz");
    ("solarElong", "solarElong"); ("note", "note"); ("scheduler_note", "scheduler_note"); ("target_name", "target_name");
    ("science_program", "science_program"); ("observation_reason", "observation_reason") ].
Definition back_dict : list (string * string) := [("target", "target_name")].
Definition rad2deg : list string :=
  ["fieldRA"; "fieldDec"; "altitude"; "azimuth"; "slewDistance"; "paraAngle"; "pseudoParaAngle"; "rotTelPos";
   "rotSkyPos"; "rotSkyPos_desired"; "rotTelPos_backup"; "moonRA"; "moonDec"; "moonAlt"; "moonAz"; "moonDistance";
   "sunAlt"; "sunAz"; "sunRA"; "sunDec"; "solarElong"; "cummTelAz"].
Definition hours2deg : list string := ["observationStartLST"].
(** Column names of an ObservationArray, observation_array.py lines 119-170. *)
Definition obs_names : list string :=
  ["ID"; "RA"; "dec"; "mjd"; "flush_by_mjd"; "exptime"; "band"; "filter"; "rotSkyPos"; "rotSkyPos_desired"; "nexp";
   "airmass"; "FWHM_500"; "FWHMeff"; "FWHM_geometric"; "skybrightness"; "night"; "slewtime"; "visittime"; "slewdist";
   "fivesigmadepth"; "alt"; "az"; "pa"; "pseudo_pa"; "clouds"; "moonAlt"; "sunAlt"; "scheduler_note"; "target_name";
   "target_id"; "lmst"; "rotTelPos"; "rotTelPos_backup"; "moonAz"; "sunAz"; "sunRA"; "sunDec"; "moonRA"; "moonDec";
   "moonDist"; "solarElong"; "moonPhase"; "cummTelAz"; "observation_reason"; "science_program"; "cloud_extinction"; "note"].
