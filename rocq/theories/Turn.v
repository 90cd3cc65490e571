(** Model of the rewards that keep a band or a sequence going or share out turns.
    /repo/rubin_scheduler/scheduler/basis_functions/basis_functions.py: BandDistBasisFunction
    (279-297), StrictBandBasisFunction (834-894), BandChangeBasisFunction (907-918),
    SlewtimeBasisFunction (931-984), MapModuloBasisFunction (1282-1299), BalanceVisits
    (1435-1477), RewardNObsSequence (1480-1509); features.py: NObsCount (158-230, Feat.v),
    LastObservation (233-272).
    Counts are Python integers; times and altitudes are exact. *)
From Coq Require Import List ZArith QArith Qround Bool String.
From Verif Require Import Base IntRounded Script Feat TimeGate.
Import ListNotations.
Open Scope nat_scope.

Definition counted (note bn : option string) (h : list fvis) : Z := nn_count (fold_left (nc_one note bn false) h nc0).
(** n_all / (n_in + 1), lines 291-296 *)
Definition band_dist (bn : string) (h : list fvis) : Q :=
  (inject_Z (counted None None h) / inject_Z (counted None (Some bn) h + 1))%Q.
(** (1 + floor(n_interest / ref)) / (n or 1), lines 1471-1477 *)
Definition balance (ref : Z) (note interest : string) (h : list fvis) : res Q :=
  if (ref =? 0)%Z then Raise ZeroDivisionError
  else
    let n := counted (Some note) None h in
    Ok ((1 + inject_Z (Qfloor (inject_Z (counted (Some interest) None h) / inject_Z ref))) / inject_Z (if (0 <? n)%Z then n else 1%Z))%Q.
(** n % k, lines 1508-1509 *)
Definition sequence (k : Z) (note : string) (h : list fvis) : res Z :=
  if (k =? 0)%Z then Raise ZeroDivisionError else Ok (counted (Some note) None h mod k)%Z.

(** ** StrictBand *)
(** The columns of the last observation it reads. *)
Record lvis : Type := mkLv { lv_mjd : Q; lv_moon : Q; lv_sun : Q; lv_note : string }.
(** LastObservation holds the array of length one it started with or was given by add_observation,
    or the record add_observations_array took from an array. *)
Inductive lastobs : Type := LArray (v : lvis) | LRecord (v : lvis).
Definition lo_vis (s : lastobs) : lvis := match s with LArray v => v | LRecord v => v end.
Definition last0 : lastobs := LArray (mkLv 0 0 0 EmptyString).
Definition last_add (s : lastobs) (v : lvis) : lastobs := LArray v.
Definition last_batch (s : lastobs) (l : list lvis) : lastobs := match last_opt l with Some v => LRecord v | None => s end.
(** [note_free in feature["scheduler_note"]]: for an array, whether an element is equal; for a
    string, whether it is a part of it *)
Definition note_free_in (free : string) (s : lastobs) : bool :=
  match s with
  | LArray v => String.eqb (lv_note v) free
  | LRecord v => contains free (lv_note v)
  end.
Record scond : Type := mkSc { sc_mjd : Q; sc_moon : Q; sc_sun : Q; sc_band : option string; sc_mounted : list string }.
Definition in_use (b : string) (c : scond) : bool := match sc_band c with None => true | Some x => String.eqb x b end.
Definition strict (lag twi : Q) (free b : string) (s : lastobs) (c : scond) : Q :=
  let v := lo_vis s in
  let moon := Qltb (sc_moon c * lv_moon v) 0 in
  let past := truth (ir_gt [(sc_mjd c - lv_mjd v)%Q] [lag]) in
  let dusk := Qltb ((sc_sun c - twi) * (lv_sun v - twi)) 0 in
  let dd := note_free_in free s in
  let mounted := existsb (String.eqb b) (sc_mounted c) in
  if (moon || in_use b c || past || dusk || dd) && mounted then 1%Q else 0%Q.
Definition band_change (b : string) (c : scond) : Q := if in_use b c then 1%Q else 0%Q.
(** Slewtime with a map of slew times; [None] for no band *)
Definition slew_reward (max : Q) (b : option string) (cur : option string) (slew : er) : er :=
  let other := match b with None => false | Some x => match cur with None => true | Some y => negb (String.eqb y x) end end in
  match slew with
  | EFin q => EFin (if other then 0 else - q / max)%Q
  | _ => ENaN
  end.
(** MapModulo *)
Definition map_modulo {A} (maps : list A) (night : Z) : res A :=
  match maps with
  | [] => Raise ZeroDivisionError
  | _ => match nth_error maps (Z.to_nat (night mod Z.of_nat (List.length maps))) with Some m => Ok m | None => Raise IndexError end
  end.
