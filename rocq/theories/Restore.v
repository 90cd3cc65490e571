(** Restoring a scheduler and an observatory from a table of completed visits.
    [restore_scheduler], /repo/rubin_scheduler/scheduler/utils/utils.py lines
    270-346, with the scheduler of Core.v and the observatory of Observatory.v.

    The telescope is the state of the kinematic model,
    /repo/rubin_scheduler/scheduler/model_observatory/kinem_model.py, that the
    next slew reads: the place tracked (None when parked), the accumulated
    azimuth, the overhead, the bands and the time of the last slew.  The time and
    the azimuth of a slew are an arbitrary function of these, of the visit and of
    the time; the angles kept for reference only (lines 749-753 of that file) are
    not modelled.  Reading the visits from a file is C41.  Numbers are exact. *)
From Coq Require Import List ZArith QArith Qround Qminmax Bool String.
From Verif Require Import Base Obs Queue Core Downtime Observatory.
Import ListNotations.
Open Scope list_scope.
Open Scope nat_scope.

(** A row of the table: a visit and its column "cummTelAz". *)
Record row : Type := mkRow { r_obs : obs; r_cum : Q }.

Record place : Type := mkPlace { p_ra : Q; p_dec : Q; p_rot : Q }.
Definition place_of (o : obs) : place := mkPlace (o_ra o) (o_dec o) (o_rsp o).

(** The state of KinemModel, kinem_model.py lines 130-149 and 362-386. *)
Record tel : Type := mkTel {
  g_at : option place;          (* parked, current_ra_rad, current_dec_rad, current_rot_sky_pos_rad *)
  g_cum : Q;                    (* cumulative_azimuth_rad *)
  g_over : Q;                   (* overhead *)
  g_band : string;              (* current_band *)
  g_start : string;             (* start_band *)
  g_mounted : list string;      (* mounted_bands *)
  g_last : Q }.                 (* last_mjd *)

(** The time of a slew in seconds and the azimuth accumulated after it, None
    when it is not possible; [slew_times], lines 397-762. *)
Definition slewing : Type := option place -> Q -> Q -> string -> list string -> obs -> Q -> option (Q * Q).

Section Restore.
Variable slew : slewing.
Variable readtime shuttertime shutter_2motion : Q.

(** Lines 362-386 of kinem_model.py; last_mjd stays. *)
Definition g_park (g : tel) : tel :=
  mkTel None 0 0 (g_start g) (g_start g) (g_mounted g) (g_last g).

(** Lines 802-820 of kinem_model.py. *)
Definition visit_time (o : obs) : Q :=
  (o_exptime o + inject_Z (o_nexp o) * shuttertime + inject_Z (Z.max (o_nexp o - 1) 0) * readtime)%Q.
Definition shutter_stall (o : obs) : Q :=
  let dt := (o_exptime o / inject_Z (o_nexp o))%Q in
  if Qltb dt shutter_2motion then (shutter_2motion - dt)%Q else 0%Q.

(** Lines 822-887 and 742-760 of kinem_model.py. *)
Definition g_observe (g : tel) (o : obs) (mjd : Q) : tel * option (Q * Q) :=
  match slew (g_at g) (g_cum g) (g_over g) (g_band g) (g_mounted g) o mjd with
  | None => (g, None)
  | Some (t, cum) =>
      (mkTel (Some (place_of o)) cum (Qmax readtime (shutter_stall o)) (o_band o) (g_start g) (g_mounted g) mjd,
       Some (t, visit_time o))
  end.

(** The kinematic model as the observatory uses it, model_observatory.py lines
    714-795.  The rotator angle of the visit was resolved before (line 728), the
    columns not in [obs] are left out. *)
Definition telescope : kinB tel := mkKinB tel g_observe g_park g_last (fun _ o => o).

(** [observations.sort(order="mjd")] of the rows; as [o_sort] of Core.v. *)
Fixpoint r_insert (x : row) (l : list row) : list row :=
  match l with
  | [] => [x]
  | y :: r => if Qle_bool (o_mjd (r_obs x)) (o_mjd (r_obs y)) then x :: l else y :: r_insert x r
  end.
Fixpoint r_sort (l : list row) : list row :=
  match l with [] => [] | x :: r => r_insert x (r_sort r) end.

(** [observations[-1]] *)
Definition final {A} (l : list A) : option A := hd_error (rev l).

Definition backfill_row (r : row) : row := mkRow (backfill_band (r_obs r)) (r_cum r).

(** Lines 301-307: the rows taken, and the counter of target ids.  ValueError
    from [np.max] of nothing, IndexError when a row taken is the last of the table
    while another is not taken. *)
Definition taken (id : Z) (r : row) : bool := (o_id (r_obs r) <=? id)%Z.
Fixpoint all_some {A} (l : list (option A)) : option (list A) :=
  match l with
  | [] => Some []
  | None :: _ => None
  | Some x :: r => match all_some r with None => None | Some r' => Some (x :: r') end
  end.
Definition counter (id : Z) (rows : list row) : res Z :=
  let good := np_where (taken id) rows in
  if Nat.ltb (List.length good) (List.length rows) then
    match all_some (map (fun i => nth_error rows (i + 1)) good) with
    | None => Raise IndexError
    | Some [] => Raise ValueError
    | Some (x :: l) => Ok (zmax_list (o_tid (r_obs x)) (map (fun r => o_tid (r_obs r)) l))
    end
  else
    match rows with
    | [] => Raise ValueError
    | x :: l => Ok (zmax_list (o_tid (r_obs x)) (map (fun r => o_tid (r_obs r)) l) + 1)%Z
    end.

Context {W X C : Type}.
Variable B : behav W X.
Variable shape : list nat.
Variable park_after : Q.
Variable conditions : tel -> Q -> C.      (* return_conditions: what the band scheduler reads *)

Definition set_ctr (s : core W X) (z : Z) : core W X :=
  mkCore (c_w s) (c_q s) z (c_seen s) (c_sidx s) (c_cond s) (c_issued s) (c_reported s).

(** The default bands, line 331. *)
Definition default_bands : list string := ["u"; "g"; "r"; "i"; "y"]%string.

(** The earliest time of the visits of a night, line 326. *)
Definition qmin_list (x : Q) (l : list Q) : Q := fold_left Qmin l x.
Definition night_start (l : list row) (n : Z) : Q :=
  match map (fun r => o_mjd (r_obs r)) (filter (fun r => (o_night (r_obs r) =? n)%Z) l) with
  | [] => 0%Q                            (* unreachable: the visit itself is in its night *)
  | x :: r => qmin_list x r
  end.

(** Lines 309-346.  The state of the observatory is its telescope, its time and
    its counter of visits. *)
Definition restore (fast : bool) (band_sched : option (C -> list string)) (id : Z)
    (s : core W X) (y : osy tel) (rows : list row) : (core W X * osy tel) * res unit :=
  match counter id rows with
  | Raise e => ((s, y), Raise e)
  | Ok z =>
      let s1 := set_ctr s z in
      let good := filter (taken id) rows in
      let '(s2, seen) :=
        if fast then
          (fst (add_arr B shape s1 (map r_obs good)),
           match good with [_] => map backfill_row good | _ => r_sort (map backfill_row good) end)
        else (fold_left (fun s r => add_obs B shape s (r_obs r)) good s1, good) in
      match final seen with
      | None => ((s2, y), Raise IndexError)     (* unreachable *)
      | Some r =>
          let o := r_obs r in
          let '(g, bands) :=
            match band_sched with
            | Some f =>
                let m := night_start seen (o_night o) in
                let g := if Qltb park_after (m - g_last (y_k y))%Q then g_park (y_k y) else y_k y in
                (g, f (conditions g m))
            | None => (y_k y, default_bands)
            end in
          ((s2, mkOsy (mkTel (Some (place_of o)) (r_cum r) (g_over g) (o_band o) (g_start g) bands (g_last g))
                      (o_mjd o + visit_time o / 3600 / 24)%Q (o_id o + 1)%Z), Ok tt)
      end
  end.
End Restore.
