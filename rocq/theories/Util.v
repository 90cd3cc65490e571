(** Model of season numbering, the simulated alert server and the queue interrupt
    of an alert.
    /repo/rubin_scheduler/scheduler/utils/utils.py lines 889-928 (season_calc);
    /repo/rubin_scheduler/scheduler/utils/too_objects.py. *)
From Coq Require Import List ZArith QArith Qround Bool Lia Lqa.
From Verif Require Import Base IntRounded.
Import ListNotations.
Open Scope nat_scope.

(** [result[mask] = v] *)
Definition put (mask : list bool) (v : Q) (l : list Q) : list Q :=
  map (fun p : bool * Q => if fst p then v else snd p) (combine mask l).

(** Float [x % m] (sign of the divisor), for m <> 0. *)
Definition qmod (x m : Q) : Q := (x - m * inject_Z (Qfloor (x / m)))%Q.

(** [.astype(int)]: truncation towards zero. *)
Definition trunc (x : Q) : Q := inject_Z (if Qle_bool 0 x then Qfloor x else (- Qfloor (- x))%Z).

(** [season_calc], lines 889-928.  [nights] and [offset] are broadcast against each
    other; a single number is a list of one.  Season length zero (infinities) and
    modulo zero (NaN) are not modelled. *)
Definition season_calc (nights offset : list Q) (modulo : option Z) (max_season : option Q) (len : Q) (floor : bool)
  : res (list Q) :=
  bind (bcast nights offset) (fun ps =>
  let r0 := map (fun p => ((fst p + snd p) / len)%Q) ps in
  let r1 := if floor then map (fun x => inject_Z (Qfloor x)) r0 else r0 in
  bind (match max_season with None => Ok [] | Some m => ir_ge r1 [m] end) (fun over =>
  bind (match modulo with
        | None => Ok r1
        | Some m => bind (ir_lt r1 [0%Q]) (fun neg =>
                    Ok (put neg (-1)%Q (map (fun x => qmod x (inject_Z m)) r1)))
        end) (fun r2 =>
  let r3 := match max_season with None => r2 | Some _ => put over (-1)%Q r2 end in
  Ok (if floor then map trunc r3 else r3)))).

(** ** Alerts *)

(** The parts of a TargetoO (too_objects.py lines 11-66) read here.  [al_dur] is
    None for a duration left out, which becomes NaN in a float array. *)
Record alert : Type := mkAl {
  al_id : Z;
  al_start : Q;
  al_dur : option er;
  al_fp : list er;          (* footprint, one value per pixel *)
  al_center : bool;         (* ra_rad_center is not None *)
  al_limit : Q;             (* altitude limit *)
  al_interrupt : bool }.

(** [np.nan_to_num(x, nan=fill)]: the infinities become the largest finite
    numbers, here (2^1024 - 2^971). *)
Definition big : Q := inject_Z (2 ^ 1024 - 2 ^ 971).
Definition nan_to_num (fill : Q) (x : er) : Q :=
  match x with ENaN => fill | EFin q => q | EPInf => big | ENInf => (- big)%Q end.

(** [SimTargetooServer.__init__], lines 105-113. *)
Definition al_end (a : alert) : Q :=
  (al_start a + nan_to_num 3 (match al_dur a with None => ENaN | Some d => d end))%Q.

(** [SimTargetooServer.__call__], lines 115-120: the result is None or a list of
    alerts picked by index. *)
Definition serve (l : list alert) (mjd : Q) : option (list alert) :=
  let starts := map al_start l in
  let ends := map al_end l in
  let in_range := np_where (fun p => Qltb (fst p) mjd && Qltb mjd (snd p)) (combine starts ends) in
  match in_range with
  | [] => None
  | _ => Some (flat_map (fun i => match nth_error l i with Some a => [a] | None => [] end) in_range)
  end.

(** [np.max] of an array, a ValueError when it is empty. *)
Definition np_max (l : list Q) : res Q :=
  match l with [] => Raise ValueError | x :: r => Ok (fold_left (fun a b => if Qle_bool a b then b else a) r x) end.

(** [footprint[indx]]: an index beyond the footprint raises. *)
Fixpoint take_ix (fp : list er) (ix : list nat) : res (list er) :=
  match ix with
  | [] => Ok []
  | i :: r => match nth_error fp i with
              | None => Raise IndexError
              | Some v => bind (take_ix fp r) (fun t => Ok (v :: t))
              end
  end.

(** [TargetoO.queue_should_flush], lines 68-99.  [center_alt] is the altitude
    [_approx_ra_dec2_alt_az] gives for the centre, [alt] the altitude map of the
    conditions (NaN below the horizon or not). *)
Definition should_flush (a : alert) (center_alt : Q) (alt : list er) : res bool :=
  if negb (al_interrupt a) then Ok false
  else if al_center a then Ok (negb (Qltb center_alt (al_limit a)))
  else
    let indx := np_where (fun x => er_ltb (EFin (al_limit a)) x || er_eqb (EFin (al_limit a)) x) alt in
    bind (take_ix (al_fp a) indx) (fun fp =>
    bind (np_max (map (nan_to_num 0) fp)) (fun m => Ok (negb (Qeq_bool m 0)))).
