(** Model of night lookup and numbering.
    /repo/rubin_scheduler/site_models/almanac.py and the night number of
    /repo/rubin_scheduler/scheduler/model_observatory/model_observatory.py.
    Times are exact days (MJD).  Interpolated positions are not modelled. *)
From Coq Require Import List ZArith QArith Qround Bool Lia Lqa.
From Verif Require Import Base Bisect SiteData.
Import ListNotations.
Open Scope nat_scope.

(** A row of the table of sunsets (columns used). *)
Record arow := mkRow { a_night : Z; a_sunset : Q; a_sunrise : Q }.

(** [__init__] lines 24-27: night numbers counted from the start. *)
Definition renumber (l : list arow) (mjd_start : option Q) : res (list arow) :=
  match mjd_start with
  | None => Ok l
  | Some m =>
      let loc := Z.of_nat (searchsorted (fun s => Qltb s m) 0%Q (map a_sunset l)) in
      bind (py_get l (loc - 1)) (fun r =>
      Ok (map (fun x => mkRow (a_night x - a_night r) (a_sunset x) (a_sunrise x)) l))
  end.

(** [mjd_indx] lines 132-134. *)
Definition mjd_indx (l : list arow) (mjd : Q) : Z :=
  (Z.of_nat (searchsorted (fun s => Qle_bool s mjd) 0%Q (map a_sunset l)) - 1)%Z.

(** [index_for_local_evening] lines 136-175.  [date] is the MJD of the date's
    midnight, [zone] the time zone of the machine in days east: a datetime
    without zone is taken as local time by [timestamp()]. *)
Definition evening_indx (l : list arow) (zone : Q) (date : Z) (lon_turns : Q) : res Z :=
  let evening := Qfloor (inject_Z date - zone) in
  match np_where (fun r => (Qfloor (a_sunset r + lon_turns) =? evening)%Z) l with
  | [] => Raise ValueError
  | [i] => Ok (Z.of_nat i)
  | _ :: _ :: _ => Raise ValueError
  end.

(** [get_sunset_info] lines 85-130; [now] is the clock of the machine. *)
Definition get_sunset_info (l : list arow) (zone now : Q) (mjd : option Q) (evening : option Z) (lon : option Q) : res arow :=
  match mjd, evening with
  | Some _, Some _ => Raise ValueError
  | None, None => py_get l (mjd_indx l now)
  | Some m, None => py_get l (mjd_indx l m)
  | None, Some d => match lon with
                    | None => Raise ValueError
                    | Some t => bind (evening_indx l zone d t) (py_get l)
                    end
  end.

(** [ModelObservatory.mjd.setter] (model_observatory.py 508-511). *)
Definition obs_night (mjd_start mjd : Q) : Z := Qfloor (mjd - mjd_start).
