(** Model of the survey of a place given by altitude and azimuth.
    /repo/rubin_scheduler/scheduler/surveys/field_survey.py 140-170, 247-260 and 314-402, the
    detailer scheduler/detailers/detailer.py 509-523 and base_survey.py 309-314.
    Reals; [None] is NaN.  Arrays of visits are numbered, those of the caller first: a survey
    given an array keeps that array.  Of the columns those below; the visits made from bands
    are given, and the time a sequence is held is a number (its formula is in Surveys.v). *)
From Coq Require Import List Bool String Reals.
From Verif Require Import Base Horizon.
Import ListNotations.
Open Scope R_scope.

Record visit := mkV { v_ra : option R; v_dec : option R; v_alt : R; v_az : R; v_band : string; v_exptime : R; v_note : string; v_flush : R }.
Definition world : Type := list (list visit).
Definition at_ (w : world) (i : nat) : list visit := nth i w [].
(** 391-395: the positions of the visits replaced. *)
Definition place (alt az : R) (v : visit) : visit := mkV None None alt az (v_band v) (v_exptime v) (v_note v) (v_flush v).
(** What [sequence] is: bands, of which new visits are made; an array; a list of arrays. *)
Inductive source : Type := Bands (rows : list visit) | Shared (i : nat) | Listed (is : list nat).
Fixpoint update (w : world) (i : nat) (f : list visit -> list visit) : world :=
  match w, i with [], _ => [] | l :: r, O => f l :: r | l :: r, S j => l :: update r j f end.
(** 141-174 and 391-395: the array the survey keeps. *)
Definition build (w : world) (src : source) (alt az : R) : world * nat :=
  match src with
  | Bands rows => (w ++ [map (place alt az) rows], List.length w)
  | Listed is => (w ++ [map (place alt az) (flat_map (at_ w) is)], List.length w)
  | Shared i => (update w i (map (place alt az)), i)
  end.
(** Surveys built one after the other; the array of each. *)
Fixpoint builds (w : world) (l : list (source * R * R)) : world * list nat :=
  match l with
  | [] => (w, [])
  | (src, alt, az) :: r => let '(w1, i) := build w src alt az in let '(w2, is) := builds w1 r in (w2, i :: is)
  end.

Record cond := mkC { c_mjd : R; c_lat : R; c_lon : R; c_mounted : list string }.
(** The detailer that sets RA and dec, or any other. *)
Inductive detailer : Type := ToRaDec | Other (f : cond -> list visit -> list visit).
Definition locate (c : cond) (v : visit) : visit :=
  match alt_az2_ra_dec (v_alt v) (v_az v) (c_lat c) (c_lon c) (c_mjd c) None with
  | Some (ra, dec) => mkV (Some ra) (Some dec) (v_alt v) (v_az v) (v_band v) (v_exptime v) (v_note v) (v_flush v)
  | None => mkV None None (v_alt v) (v_az v) (v_band v) (v_exptime v) (v_note v) (v_flush v)
  end.
Definition detail (c : cond) (l : list visit) (d : detailer) : list visit := match d with ToRaDec => map (locate c) l | Other f => f c l end.
Definition hold (t : R) (v : visit) : visit := mkV (v_ra v) (v_dec v) (v_alt v) (v_az v) (v_band v) (v_exptime v) (v_note v) t.
(** [generate_observations_rough] 247-260 and [generate_observations]; the array itself is
    copied. *)
Definition generate (w : world) (i : nat) (held : R) (dets : list detailer) (feasible : bool) (c : cond) : list visit :=
  if feasible
  then let l := filter (fun v => existsb (String.eqb (v_band v)) (c_mounted c)) (map (hold (c_mjd c + held)) (at_ w i)) in
       match l with [] => [] | _ => fold_left (detail c) dets l end
  else [].
