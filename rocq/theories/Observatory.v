(** Model of the observatory clock.
    /repo/rubin_scheduler/scheduler/model_observatory/model_observatory.py.

    The kinematic model (state [K]) is arbitrary here; it is modelled separately.
    Cloud data is an arbitrary predicate on times ("clouds > cloud_limit").  The
    almanac is a list of (start, end) times of nights, the two columns selected
    by starting_time_key and ending_time_key.  Columns filled in by
    [observation_add_data] other than mjd, night and ID, and the rotator handling
    of [_update_rot_sky_pos], are left to the arbitrary function [fill]. *)
From Coq Require Import List ZArith QArith Qround Bool Lia Lqa Sorted.
From Verif Require Import Base Obs Downtime.
Import ListNotations.
Open Scope nat_scope.

(** Python indexing: negative indices count from the end; None is IndexError. *)
Definition py_nth {A} (l : list A) (i : Z) : option A :=
  if (i <? 0)%Z then
    if (i + Z.of_nat (length l) <? 0)%Z then None else nth_error l (Z.to_nat (i + Z.of_nat (length l)))
  else nth_error l (Z.to_nat i).

Section Check.
Variable cloudy : Q -> bool.
Variable nights : list (Q * Q).
Variable downs : list (Q * Q).

(** Cloud skipping, lines 623-627; 20 minutes are 1/72 day. *)
Fixpoint skip_clouds (fuel : nat) (t : Q) : res Q :=
  if cloudy t then
    match fuel with 0 => Raise OutOfFuel | S f => skip_clouds f (t + (1 # 72))%Q end
  else Ok t.

(** One evaluation of lines 616-640: (passed, new_mjd). *)
Definition check_once (fuel : nat) (mjd : Q) : res (bool * Q) :=
  let i := (Z.of_nat (ss_right (map fst nights) mjd) - 1)%Z in
  bind (if cloudy mjd then bind (skip_clouds fuel mjd) (fun t => Ok (false, t)) else Ok (true, mjd)) (fun r0 =>
  match py_nth nights i with
  | None => Raise IndexError
  | Some (a, b) =>
      bind (if Qltb b mjd then
              match py_nth nights (i + 1) with None => Raise IndexError | Some (a', _) => Ok (false, a') end
            else Ok r0) (fun r1 =>
      bind (if Qltb mjd a then
              match py_nth nights (i + 1) with None => Raise IndexError | Some (a', _) => Ok (false, a') end
            else Ok r1) (fun r2 =>
      let '(up, t) := check_up downs mjd in
      Ok (if up then r2 else (false, t))))
  end).

(** [check_mjd] lines 600-646 with fuel for the recursion and the while loop. *)
Fixpoint check_mjd (fuel : nat) (mjd : Q) : res (bool * Q) :=
  match fuel with
  | 0 => Raise OutOfFuel
  | S f =>
      bind (check_once f mjd) (fun r =>
        if fst r then Ok (true, mjd)
        else (fix wl (g : nat) (m : Q) : res (bool * Q) :=
                match g with
                | 0 => Raise OutOfFuel
                | S g' => bind (check_mjd f m) (fun r' => if fst r' then Ok (false, snd r') else wl g' (snd r'))
                end) f (snd r))
  end.

(** ** Specification: a good time *)
Definition good_time (m : Q) : Prop :=
  cloudy m = false /\ (exists a b, In (a, b) nights /\ (a <= m <= b)%Q) /\ ~ covered downs m.

End Check.

(** ** The observatory *)
Record kinB (K : Type) : Type := mkKinB {
  k_observe : K -> obs -> Q -> K * option (Q * Q);  (* slew and visit time in seconds; None: not finite *)
  k_park : K -> K;
  k_last : K -> Q;                                 (* last_mjd *)
  k_fill : K -> obs -> obs                         (* remaining columns *)
}.
Arguments k_observe {K}. Arguments k_park {K}. Arguments k_last {K}. Arguments k_fill {K}.

Record osy (K : Type) : Type := mkOsy { y_k : K; y_mjd : Q; y_ctr : Z }.
Arguments mkOsy {K}. Arguments y_k {K}. Arguments y_mjd {K}. Arguments y_ctr {K}.

Definition set_done (id night : Z) (mjd : Q) (o : obs) : obs :=
  mkObs id (o_tid o) mjd night (o_flush o) (o_ra o) (o_dec o) (o_rsp o)
        (o_exptime o) (o_nexp o) (o_band o) (o_filter o) (o_note o).

Section Obsy.
Context {K : Type}.
Variable B : kinB K.
Variable cloudy : Q -> bool.
Variable nights downs : list (Q * Q).
Variable mjd_start park_after : Q.
Variable fuel : nat.

(** [night], lines 507-511. *)
Definition night_of (m : Q) : Z := Qfloor (m - mjd_start).

(** A completed visit together with its duration in seconds. *)
Record visit : Type := mkVisit { v_obs : obs; v_slew : Q; v_time : Q }.

(** [observe] lines 714-795: state, completed visit, new_night. *)
Definition observe (y : osy K) (d : obs) : osy K * res (option visit * bool) :=
  let k0 := if Qltb park_after (y_mjd y - k_last B (y_k y))%Q then k_park B (y_k y) else y_k y in
  match k_observe B k0 d (y_mjd y) with
  | (k1, None) => (mkOsy k1 (y_mjd y) (y_ctr y), Ok (None, false))
  | (k1, Some (slew, vis)) =>
      match check_mjd cloudy nights downs fuel (y_mjd y + (slew + vis) / 86400)%Q with
      | Raise e => (mkOsy k1 (y_mjd y) (y_ctr y), Raise e)
      | Ok (true, _) =>
          let t := (y_mjd y + slew / 86400)%Q in
          let o := set_done (y_ctr y) (night_of t) t (k_fill B k1 d) in
          (mkOsy k1 (t + vis / 86400)%Q (y_ctr y + 1)%Z, Ok (Some (mkVisit o slew vis), false))
      | Ok (false, m) =>
          (mkOsy (k_park B k1) m (y_ctr y), Ok (None, negb (Z.eqb (night_of m) (night_of (y_mjd y)))))
      end
  end.

(** A client of the observatory: observe, or move the clock (sim_runner steps it
    forward when there is nothing to do and adds overheads). *)
Inductive oop : Type := YObserve (d : obs) | YAdvance (dt : Q).

(** Runs until an exception; completed visits in order. *)
Fixpoint orun (y : osy K) (l : list oop) : osy K * list visit :=
  match l with
  | [] => (y, [])
  | YAdvance dt :: r => orun (mkOsy (y_k y) (y_mjd y + dt)%Q (y_ctr y)) r
  | YObserve d :: r =>
      match observe y d with
      | (y', Raise _) => (y', [])
      | (y', Ok (None, _)) => orun y' r
      | (y', Ok (Some v, _)) => let '(y'', vs) := orun y' r in (y'', v :: vs)
      end
  end.
End Obsy.
