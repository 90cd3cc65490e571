(** The grid of conditions of the deep drilling fields.
    /repo/rubin_scheduler/scheduler/surveys/generate_ddf_grid.py 16-130, and the part of the
    grid that is used, scheduler/example/lsst_ddf_presched.py 573-577.
    Exact numbers.  The sky model of rubin_sim, the twilights of astroplan and the depth at an
    airmass and sky are inputs.  NaN is [None] in airmass and sky.  Progress is not printed. *)
From Coq Require Import List ZArith QArith Qround Bool String.
From Verif Require Import Base Ddf LongGap.
Import ListNotations.
Open Scope nat_scope.

(** What the sky model holds after a call; airmass and g sky by location. *)
Record sky := mkSky { k_sun : Q; k_moon : Q; k_phase : Q; k_air : nat -> option Q; k_mag : nat -> option Q }.
(** One row: the five first columns, then airmass, sky and depth by location. *)
Record row := mkRow { r_mjd : Q; r_sun : Q; r_rise : Q; r_phase : Q; r_moon : Q; r_air : nat -> option Q; r_sky : nat -> option Q; r_m5 : nat -> er }.
Section Grid.
Variable at_ : Q -> option sky.    (* set_ra_dec_mjd, line 96; None: ValueError *)
Variable left : sky -> Q -> sky.   (* what a call that raised has left *)
Variable rise : Q -> Q.            (* twilight_morning_astronomical, 106-108 *)
Variable m5 : Q -> Q -> Q.         (* m5_flat_sed in g of sky and airmass, 123-128 *)
Variable limit : Q.                (* sun_limit in radians *)

(** Lines 100-101: times by zero keeps NaN. *)
Definition zeroed (day : bool) (x : option Q) : option Q := if day then option_map (fun _ => 0%Q) x else x.
(** Lines 125-128: the seeing scales with a power of the airmass, so zero airmass is zero
    seeing and infinite depth; a power of a negative number is NaN. *)
Definition depth (s a : option Q) : er :=
  match s, a with
  | Some s, Some a => if Qeq_bool a 0 then EPInf else if Qltb a 0 then ENaN else EFin (m5 s a)
  | _, _ => ENaN
  end.
(** Lines 95-98. *)
Definition step (sm : sky) (t : Q) : sky :=
  match at_ t with
  | Some s => s
  | None => let s := left sm t in mkSky 12 (k_moon s) (k_phase s) (k_air s) (k_mag s)
  end.
Definition row_of (t : Q) (s : sky) : row :=
  let day := Qltb limit (k_sun s) in
  let air i := zeroed day (k_air s i) in
  let mag i := zeroed day (k_mag s i) in
  mkRow t (k_sun s) (rise t) (k_phase s) (k_moon s) air mag (fun i => depth (mag i) (air i)).
Fixpoint rows (sm : sky) (ts : list Q) : list row :=
  match ts with [] => [] | t :: r => row_of t (step sm t) :: rows (step sm t) r end.
(** [generate_ddf_grid]: minutes and years to days 48-49; a column of no rows is an
    IndexError (120); no step is a ZeroDivisionError (steps back in time with a negative length are not modelled). *)
Definition generate_grid (sm : sky) (mjd0 delta_t survey_length : Q) : res (list row) :=
  let dt := (delta_t / 60 / 24)%Q in
  if Qeq_bool dt 0 then Raise ZeroDivisionError
  else match arange mjd0 (mjd0 + survey_length * (36525 # 100)) dt with
       | [] => Raise IndexError
       | ts => Ok (rows sm ts)
       end.
End Grid.
(** The names of the columns, lines 66-70. *)
Definition columns (locations : list string) : list string :=
  (["mjd"; "sun_alt"; "sun_n18_rising_next"; "moon_phase"; "moon_alt"]%string ++ flat_map (fun l => [l ++ "_airmass"; l ++ "_sky_g"; l ++ "_m5_g"]%string) locations).
(** The columns of the location at place [i]. *)
Definition er_of (o : option Q) : er := match o with Some q => EFin q | None => ENaN end.
Definition field_of (i : nat) (r : row) : gpt := mkGpt (r_mjd r) (EFin (r_sun r)) (er_of (r_air r i)) (er_of (r_sky r i)) (r_m5 r i) (EFin (r_phase r)).
(** lsst_ddf_presched.py 573-577. *)
Definition in_range (lo hi : Q) (g : gpt) : bool := Qle_bool lo (g_mjd g) && Qle_bool (g_mjd g) hi.
Definition used (lo hi : Q) (i : nat) (l : list row) : list gpt := filter (in_range lo hi) (map (field_of i) l).
