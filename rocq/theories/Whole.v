(** sim_runner driving the model observatory: the loop of Sim.v
    (/repo/rubin_scheduler/scheduler/sim_runner.py lines 88-245) with [observe] of
    Observatory.v (/repo/rubin_scheduler/scheduler/model_observatory/model_observatory.py
    lines 714-795) behind its calls.  The scheduler, the band scheduler, the
    conditions and the kinematic model are arbitrary.
    Simplifications: Sim.v has no exceptions from the observatory.  One is noted in
    [sk_exn], after which nothing is observed; the real run is over at that point and
    returns nothing, so claims about a run are for those with [sk_exn] empty at the end.
    [sk_seen] keeps the visits with their durations. *)
From Coq Require Import List ZArith QArith Bool String.
From Verif Require Import Base Obs Sim Observatory.
Import ListNotations.
Open Scope nat_scope.

Record sky (K : Type) : Type := mkSky { sk_y : osy K; sk_seen : list visit; sk_exn : option exn }.
Arguments mkSky {K}. Arguments sk_y {K}. Arguments sk_seen {K}. Arguments sk_exn {K}.

Section Whole.
Context {S K F C : Type}.
Variable kin : kinB K.
Variable cloudy : Q -> bool.
Variable nights downs : list (Q * Q).
Variable mjd_start park_after : Q.
Variable fuel : nat.
(** mount_bands of the kinematic model (model_observatory.py 690-712) and return_conditions. *)
Variable km : K -> list string -> K.
Variable conds : sky K -> C.
(** The scheduler and the band scheduler are taken from [B]. *)
Variable B : simB S unit F C.

Definition sky_observe (o : sky K) (d : obs) : sky K * (option obs * bool) :=
  match sk_exn o with
  | Some _ => (o, (None, false))
  | None =>
      match observe kin cloudy nights downs mjd_start park_after fuel (sk_y o) d with
      | (y, Raise e) => (mkSky y (sk_seen o) (Some e), (None, false))
      | (y, Ok (Some v, nn)) => (mkSky y (sk_seen o ++ [v]) None, (Some (v_obs v), nn))
      | (y, Ok (None, nn)) => (mkSky y (sk_seen o) None, (None, nn))
      end
  end.
(** The setter of mjd, and mounting: neither completes a visit. *)
Definition sky_set (o : sky K) (t : Q) : sky K := mkSky (mkOsy (y_k (sk_y o)) t (y_ctr (sk_y o))) (sk_seen o) (sk_exn o).
Definition sky_mount (o : sky K) (l : list string) : sky K :=
  mkSky (mkOsy (km (y_k (sk_y o)) l) (y_mjd (sk_y o)) (y_ctr (sk_y o))) (sk_seen o) (sk_exn o).

Definition whole : simB S (sky K) F C :=
  mkSimB S (sky K) F C (fun o => y_mjd (sk_y o)) sky_set conds sky_observe sky_mount
    (sc_has B) (sc_check B) (sc_update B) (sc_request B) (sc_add B) (sc_flush B) (bs_call B) (bs_add B) (overhead B).
End Whole.
