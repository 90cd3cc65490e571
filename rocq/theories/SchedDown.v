(** Scheduled downtimes read from a database: /repo/rubin_scheduler/site_models/scheduled_downtime_data.py.
    Times are exact days (modified julian dates of one time scale); the calendar is the Gregorian one. The rows come in the order in which
    the database gives them ("select * from Downtime;" asks for none); night and duration are integers. *)
From Coq Require Import List ZArith QArith Bool String.
From Verif Require Import Base Bisect.
Import ListNotations.
Open Scope nat_scope.

(** A row of the table Downtime: night, duration (days), activity. *)
Record row := Row { r_night : Z; r_days : Z; r_act : string }.
(** A row of [self.downtime], lines 114-117. *)
Record down := Down { d_start : Q; d_end : Q; d_act : string }.

(** Modified julian date of 1 January: Time("%d-01-01" % year), line 42. *)
Definition jan1 (y : Z) : Z := (365 * (y - 1) + (y - 1) / 4 - (y - 1) / 100 + (y - 1) / 400 - 678575)%Z.
(** Lines 41-44, the default offset of line 34. *)
Definition default_offset : Q := - (34 # 100).
Definition night0 (year : Z) (offset : Q) : Q := (inject_Z (jan1 year) + offset)%Q.
(** read_data, lines 78-117. *)
Definition read_row (n0 : Q) (r : row) : down :=
  let start := (n0 + inject_Z (r_night r))%Q in Down start (start + inject_Z (r_days r))%Q (r_act r).
Definition read_data (year : Z) (offset : Q) (table : list row) : list down := map (read_row (night0 year offset)) table.
(** _downtime_status, lines 67-76. *)
Definition status (l : list down) (t : Q) : res (option down * list down) :=
  let next_start := searchsorted (fun s => Qle_bool s t) 0%Q (map d_start l) in
  let next_end := searchsorted (fun e => Qle_bool e t) 0%Q (map d_end l) in
  let future := skipn next_start l in
  if next_end <? next_start then
    match nth_error l next_end with Some d => Ok (Some d, future) | None => Raise IndexError end
  else Ok (None, future).
(** total_downtime, lines 119-130. *)
Definition total_downtime (l : list down) : Q := fold_left (fun t d => (t + (d_end d - d_start d))%Q) l 0%Q.
