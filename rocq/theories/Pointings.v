(** Model of the survey over a list of pointings.
    /repo/rubin_scheduler/scheduler/surveys/pointings_survey.py.
    A method of the survey gives a list with one value per pointing.  Altitudes,
    moon distances, wind pressures, slew times, depth differences and the raw hour
    angles (sidereal time less right ascension) at the pointings are inputs; angles
    are in radians with [tw] for two pi.  Detailers are not modelled. *)
From Coq Require Import List ZArith QArith Qround Bool String.
From Verif Require Import Base IntRounded Core Sky.
From Verif Require Script Surveys.
Import ListNotations.
Open Scope nat_scope.

(** The methods that [weights] can name (221-335). *)
Inductive meth : Type := VisitGap | Balance | M5diff | SlewTime | WindLimit | HaLimit | AltLimit | MoonLimit | SeqBoost.

(** What [__init__] keeps (62-140). *)
Record pcfg := mkCfg {
  g_notes : list string;          (* observations["scheduler_note"] *)
  g_gap : Q;                      (* days *)
  g_moon : Q; g_alt_max : Q; g_alt_min : Q; g_wind : Q; g_sun : Q;
  g_ha_max : Q; g_ha_min : Q;     (* wrapped to [0, tw) *)
  g_goal : list (string * Z);     (* track_notes_ngoal, [] for None *)
  g_weights : list (meth * Q)
}.

(** The conditions at the pointings. *)
Record pcond := mkCond {
  c_mjd : Q; c_sun : Q;
  c_ha : list Q;                  (* before the wrap *)
  c_alt : list Q; c_moon : list Q;
  c_wind : option (list Q);       (* None: no wind telemetry *)
  c_slew : list er; c_m5 : list er
}.

(** n_obs, last_observed, tracking_notes, last_computed_reward, reward. *)
Record pst := mkPst { p_n : list Z; p_last : list Q; p_track : list (string * Z); p_mjd : Q; p_reward : option (list er) }.

(** Lines 111-112: hour angle limits from hours to [0, tw). *)
Definition ha_lim (tw hours : Q) : Q := Script.Qmod (hours * tw / 24 + tw) tw.

(** [__init__]: 82-83 for the notes, 94-98 and 115-118 for the counters. *)
Definition p_new (g : pcfg) : res pst :=
  if Nat.eqb (List.length (nodup string_dec (g_notes g))) (List.length (g_notes g))
  then Ok (mkPst (map (fun _ => 0%Z) (g_notes g)) (map (fun _ => 0%Q) (g_notes g)) (map (fun k => (fst k, 0%Z)) (g_goal g)) (-1) None)
  else Raise ValueError.

(** [ha_limit] 221-231 on wrapped hour angles (169-170). *)
Definition wrap_ha (tw : Q) (l : list Q) : list Q := map (fun h => if Qltb h 0 then (h + tw)%Q else h) l.
Definition m_ha (g : pcfg) (ha : list Q) : list er :=
  set_where (both (cmp_all (ir_gt ha [g_ha_max g])) (cmp_all (ir_lt ha [g_ha_min g]))) ENaN (filled (EFin 0) ha).
(** [alt_limit] 233-238. *)
Definition m_alt (g : pcfg) (c : pcond) : list er :=
  set_where (cmp_all (ir_lt (c_alt c) [g_alt_min g])) ENaN
    (set_where (cmp_all (ir_gt (c_alt c) [g_alt_max g])) ENaN (filled (EFin 0) (c_alt c))).
(** [moon_limit] 240-247. *)
Definition m_moon (g : pcfg) (c : pcond) : list er :=
  set_where (cmp_all (ir_lt (c_moon c) [g_moon g])) ENaN (filled (EFin 0) (c_moon c)).
(** [wind_limit] 249-259. *)
Definition m_wind (g : pcfg) (c : pcond) : list er :=
  match c_wind c with
  | None => map (fun _ => EFin 0) (g_notes g)
  | Some w => set_where (cmp_all (ir_gt w [g_wind g])) ENaN (map (fun x => EFin (0 - x * x)) w)
  end.
(** [visit_gap] 261-269. *)
Definition m_gap (g : pcfg) (s : pst) (c : pcond) : list er :=
  let diff := map (fun x => c_mjd c - x)%Q (p_last s) in
  set_where (cmp_all (ir_lt diff [g_gap g])) ENaN (filled (EFin 0) diff).
(** [balance_revisit] 271-279. *)
Definition m_balance (s : pst) : list er :=
  let total := fold_left Z.add (p_n s) 0%Z in
  map (fun n => if (n =? 0)%Z then EFin 1
                else if (total =? 0)%Z then EFin (inject_Z (Qfloor (1 + inject_Z n)))
                else EFin (inject_Z (Qfloor (1 + inject_Z n / inject_Z total)))) (p_n s).
(** [sequence_boost] 296-302; the members of a sequence are those of 101-108. *)
Fixpoint m_seq (g : pcfg) (track goal : list (string * Z)) (acc : list er) : res (list er) :=
  match track, goal with
  | (k, n) :: tr, (_, m) :: gr =>
      if (m =? 0)%Z then Raise ZeroDivisionError
      else m_seq g tr gr (set_where (map (Script.contains k) (g_notes g)) (EFin (inject_Z (n mod m))) acc)
  | _, _ => Ok acc
  end.

Definition m_call (tw : Q) (g : pcfg) (s : pst) (c : pcond) (m : meth) : res (list er) :=
  match m with
  | VisitGap => Ok (m_gap g s c)
  | Balance => Ok (m_balance s)
  | M5diff => Ok (c_m5 c)
  | SlewTime => Ok (c_slew c)
  | WindLimit => Ok (m_wind g c)
  | HaLimit => Ok (m_ha g (wrap_ha tw (c_ha c)))
  | AltLimit => Ok (m_alt g c)
  | MoonLimit => Ok (m_moon g c)
  | SeqBoost => m_seq g (p_track s) (g_goal g) (map (fun _ => EFin 0) (g_notes g))
  end.

(** [calc_reward_function] 156-180: nothing is computed again at the same mjd. *)
Fixpoint sum_weights (tw : Q) (g : pcfg) (s : pst) (c : pcond) (ws : list (meth * Q)) (acc : list er) : res (list er) :=
  match ws with
  | [] => Ok acc
  | (m, w) :: r => bind (m_call tw g s c m) (fun v => bind (Surveys.zip_add acc (map (fun x => Surveys.er_scale x w) v)) (sum_weights tw g s c r))
  end.
Definition calc_reward (tw : Q) (g : pcfg) (s : pst) (c : pcond) : res (pst * list er) :=
  if Qeq_bool (p_mjd s) (c_mjd c)
  then match p_reward s with Some r => Ok (s, r) | None => Raise AttributeError end
  else bind (sum_weights tw g s c (g_weights g) (map (fun _ => EFin 0) (g_notes g))) (fun r =>
       Ok (mkPst (p_n s) (p_last s) (p_track s) (c_mjd c) (Some r), r)).
Definition p_calc (tw : Q) (g : pcfg) (s : pst) (c : pcond) : res (pst * er) :=
  bind (calc_reward tw g s c) (fun sr =>
  match snd sr with [] => Raise ValueError | _ => Ok (fst sr, nanmax (snd sr)) end).

(** [_check_feasibility] 142-154. *)
Definition er_finite (x : er) : bool := match x with EFin _ => true | _ => false end.
Definition p_feasible (tw : Q) (g : pcfg) (s : pst) (c : pcond) : res (pst * bool) :=
  if existsb (fun b => b) (cmp_all (ir_gt [c_sun c] [g_sun g])) then Ok (s, false)
  else bind (p_calc tw g s c) (fun sr => Ok (fst sr, er_finite (snd sr))).

(** [generate_observations_rough] 182-193: the index of the pointing. *)
Definition p_generate (tw : Q) (g : pcfg) (s : pst) (c : pcond) : res (pst * nat) :=
  bind (calc_reward tw g s c) (fun sr =>
  match hd_error (np_where (fun x => er_eqb x (nanmax (snd sr))) (snd sr)) with
  | None => Raise ValueError
  | Some i => Ok (fst sr, i)
  end).

(** ** Reports *)
Record visit := mkVisit { w_note : string; w_mjd : Q }.
(** Values at the pointings with a note. *)
Fixpoint at_note {A} (n : string) (f : A -> A) (notes : list string) (l : list A) : list A :=
  match notes, l with
  | s :: ns, x :: r => (if String.eqb n s then f x else x) :: at_note n f ns r
  | _, _ => l
  end.
(** [add_observation] 195-206.  A row of an array holds a string, and
    [key in note] looks for a part of it; an array of one visit, as the scheduler
    passes it, holds an array, and looks for an element equal to the key. *)
Definition p_add (g : pcfg) (s : pst) (as_array : bool) (v : visit) : pst :=
  mkPst (at_note (w_note v) (Z.add 1) (g_notes g) (p_n s)) (at_note (w_note v) (fun _ => w_mjd v) (g_notes g) (p_last s))
    (map (fun kn => if (if as_array then String.eqb (fst kn) (w_note v) else Script.contains (fst kn) (w_note v)) then (fst kn, snd kn + 1)%Z else kn) (p_track s))
    (p_mjd s) (p_reward s).
(** [add_observations_array] 208-219; [order] is [np.unique] of the notes. *)
Definition matching (n : string) (l : list visit) : list visit := filter (fun v => String.eqb (w_note v) n) l.
Definition latest (l : list visit) : Q := match l with [] => 0%Q | v :: r => fold_left (fun a w => if Qle_bool a (w_mjd w) then w_mjd w else a) r (w_mjd v) end.
Definition add_note (g : pcfg) (l : list visit) (s : pst) (n : string) : pst :=
  let m := matching n l in
  mkPst (at_note n (Z.add (Z.of_nat (List.length m))) (g_notes g) (p_n s)) (at_note n (fun _ => latest m) (g_notes g) (p_last s))
    (map (fun kn => if Script.contains (fst kn) n then (fst kn, snd kn + Z.of_nat (List.length m))%Z else kn) (p_track s))
    (p_mjd s) (p_reward s).
Definition p_batch (g : pcfg) (s : pst) (order : list string) (l : list visit) : pst := fold_left (add_note g l) order s.

(** Everything that can happen to the survey. *)
Inductive pop : Type := One (as_array : bool) (v : visit) | Many (order : list string) (l : list visit) | Ask (c : pcond).
Definition p_step (tw : Q) (g : pcfg) (s : pst) (o : pop) : pst :=
  match o with
  | One a v => p_add g s a v
  | Many order l => p_batch g s order l
  | Ask c => match calc_reward tw g s c with Ok (s', _) => s' | Raise _ => s end
  end.
Definition p_run (tw : Q) (g : pcfg) (s : pst) (l : list pop) : pst := fold_left (p_step tw g) l s.
