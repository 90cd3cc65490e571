(** Model of the survey that revisits pairs later in the night.
    /repo/rubin_scheduler/scheduler/surveys/long_gap_survey.py, on top of the model of
    ScriptedSurvey (Script.v).
    The blob survey is an arbitrary machine; the random gaps are a given list; the
    altitude of a position at a time is an arbitrary function.  Times are exact days.
    Of the columns only those of Script.v are kept. *)
From Coq Require Import List ZArith QArith Qround Bool String.
From Verif Require Import Base Obs Core Script SiteData.
Import ListNotations.
Open Scope nat_scope.

(** What [__init__] keeps (46-98), lengths in days. *)
Record lcfg := mkL {
  g_bnote : string;               (* scheduler_note of the blob survey *)
  g_long : string;                (* long_name *)
  g_gaps : list Q;                (* one gap per night *)
  g_tol : Q; g_flush : Q; g_block : Q;
  g_amin : Q; g_amax : Q; g_hamin : Q; g_hamax : Q; g_sunmax : Q;
  g_zen : bool;                   (* avoid_zenith *)
  g_site : bool;                  (* a site was given: [self.site] is then not set, 79-80 *)
  g_step : Q                      (* mjd_step *)
}.

Section LongGap.
Variable F : scfg.                (* the scripted survey *)
Variable py_int : string -> option Z.
Variable reward_val : Q.
Variable alt_at : Q -> Q -> Q -> Q.   (* RA, dec, mjd *)
(** The blob survey. *)
Variable B : Type.
Variable blob_calc : B -> scond -> B * list er.
Variable blob_gen : B -> scond -> B * option (list obs).
Variable blob_add : B -> list obs -> B.
Variable G : lcfg.
(** Rounds of the loop of lines 174-195 that are waited for. *)
Variable fuel : nat.

(** Lines 110-124. *)
Definition second_of_pair (top : Z) (o : obs) : bool :=
  String.eqb (o_note o) (g_bnote G ++ ", b") && (o_night o =? top)%Z.
Definition top_night (l : list obs) : Z := match l with [] => 0%Z | o :: r => fold_left (fun a x => Z.max a (o_night x)) r (o_night o) end.

(** Lines 132-152 and 197: a row of the script; one character of the band is kept. *)
Definition row_of (gap : Q) (o : obs) : sobs :=
  mkSobs (trunc 60 (g_long G)) (o_mjd o + gap) (g_tol G) (o_mjd o + g_flush G + gap) (trunc 1 (o_band o)) (o_filter o)
    (o_ra o) (o_dec o) (o_rsp o) (o_exptime o) (o_nexp o) (g_amin G) (g_amax G) (g_hamax G) (g_hamin G) (g_sunmax G) 0 false.
(** Lines 176-177. *)
Definition later (d : Q) (s : sobs) : sobs :=
  mkSobs (s_note s) (s_mjd s + d) (s_tol s) (s_flush s + d) (s_band s) (s_filter s) (s_ra s) (s_dec s) (s_rsp s) (s_exptime s)
    (s_nexp s) (s_alt_min s) (s_alt_max s) (s_ha_max s) (s_ha_min s) (s_sun_alt_max s) (s_moon_min s) (s_done s).

(** Lines 155-161, 178-184: the times at which altitudes are computed ([np.arange]). *)
Definition qmin (l : list Q) : Q := match l with [] => 0%Q | x :: r => fold_left (fun a y => if Qle_bool a y then a else y) r x end.
Definition qmax (l : list Q) : Q := match l with [] => 0%Q | x :: r => fold_left (fun a y => if Qle_bool a y then y else a) r x end.
Definition arange (start stop step : Q) : list Q :=
  if Qle_bool step 0 then []
  else map (fun k => start + inject_Z (Z.of_nat k) * step)%Q (seq 0 (Z.to_nat (Qceiling ((stop - start) / step)))).
Definition times (rows : list sobs) : list Q :=
  arange (qmin (map (fun s => s_mjd s - s_tol s)%Q rows)) (qmax (map s_mjd rows) + g_step G) (g_step G).
(** Lines 164-174, 187-195: some altitude above the limit. *)
Definition too_high (rows : list sobs) : res bool :=
  match times rows with
  | [] => Raise ValueError
  | ts => if g_site G then Raise AttributeError
          else Ok (existsb (fun t => existsb (fun s => Qltb (g_amax G) (alt_at (s_ra s) (s_dec s) t)) rows) ts)
  end.
(** Lines 153-195. *)
Fixpoint clear_zenith (n : nat) (rows : list sobs) : res (list sobs) :=
  bind (too_high rows) (fun h =>
  if h then match n with
            | 0 => Raise OutOfFuel
            | Datatypes.S n => clear_zenith n (map (later (g_step G)) rows)
            end
  else Ok rows).

(** Attributes.  [l_r2] is unset until a reward is asked for ([reward_checked]). *)
Record lst := mkLst { l_night : Z; l_gap : Q; l_scr : sst; l_r2 : option er; l_blob : B }.
Definition l_init (id : Z) (b : B) : lst := mkLst (-1) 0 (script_init id) None b.

(** [_schedule_obs] 105-202. *)
Definition schedule (s : lst) (l : list obs) : lst * res unit :=
  match l with
  | [] => (s, Raise ValueError)
  | _ =>
    let top := top_night l in
    match py_get (g_gaps G) top with
    | Raise e => (s, Raise e)
    | Ok gap =>
      let s1 := mkLst (l_night s) gap (l_scr s) (l_r2 s) (l_blob s) in
      match filter (second_of_pair top) l with
      | [] => (s1, Ok tt)
      | need =>
        let rows := map (row_of gap) need in
        match (if g_zen G then clear_zenith fuel rows else Ok rows) with
        | Raise e => (s1, Raise e)
        | Ok rows => let '(st, r) := set_script py_int (l_scr s1) rows true true in
                     (mkLst (l_night s1) gap st (l_r2 s1) (l_blob s1), r)
        end
      end
    end
  end.
(** [add_observations_array] 204-208 and [add_observation] 210-214. *)
Definition l_report (single : bool) (s : lst) (l : list obs) : lst * res unit :=
  match schedule s l with
  | (s1, Raise e) => (s1, Raise e)
  | (s1, Ok _) =>
      let st := if single then match l with o :: _ => add_observation F (l_scr s1) o | [] => l_scr s1 end else add_array F (l_scr s1) l in
      (mkLst (l_night s1) (l_gap s1) st (l_r2 s1) (blob_add (l_blob s1) l), Ok tt)
  end.

(** [calc_reward_function] 227-242; the conditions with their night. *)
Definition l_calc (s : lst) (night : Z) (c : scond) : lst * res er :=
  let new : lst * res unit :=
    if (night =? l_night s)%Z then (s, Ok tt)
    else let scr := clear_script (l_scr s) in
         match py_get (g_gaps G) night with
         | Raise e => (mkLst night (l_gap s) scr (l_r2 s) (l_blob s), Raise e)
         | Ok gap => let left := (c_n18 c - c_mjd c)%Q in
                     (mkLst night (if Qltb left gap then left - g_block G else gap)%Q scr (l_r2 s) (l_blob s), Ok tt)
         end in
  match new with
  | (s1, Raise e) => (s1, Raise e)
  | (s1, Ok _) =>
      let '(b, r1) := blob_calc (l_blob s1) c in
      let '(scr, r) := has_reward F (l_scr s1) c in
      match r with
      | Raise e => (mkLst (l_night s1) (l_gap s1) scr (l_r2 s1) b, Raise e)
      | Ok h => let r2 := if h then EFin reward_val else ENInf in
                (mkLst (l_night s1) (l_gap s1) scr (Some r2) b, Ok (nanmax [nanmax r1; r2]))
      end
  end.

(** [generate_observations] 248-262. *)
Definition l_gen (s : lst) (c : scond) : lst * res (option (list obs)) :=
  match l_r2 s with
  | None => (s, Raise AttributeError)
  | Some r2 =>
      if er_ltb ENInf r2
      then let '(scr, r) := generate F (l_scr s) c in
           (mkLst (l_night s) (l_gap s) scr (l_r2 s) (l_blob s), match r with Raise e => Raise e | Ok l => Ok (Some l) end)
      else let '(b, r) := blob_gen (l_blob s) c in (mkLst (l_night s) (l_gap s) (l_scr s) (l_r2 s) b, Ok r)
  end.

(** Calls in sequence; [None]: a call raised. *)
Inductive lop : Type := Report (single : bool) (l : list obs) | Calc (night : Z) (c : scond) | Gen (c : scond).
Definition l_step (s : lst) (o : lop) : option lst :=
  match o with
  | Report b l => match l_report b s l with (s', Ok _) => Some s' | _ => None end
  | Calc n c => match l_calc s n c with (s', Ok _) => Some s' | _ => None end
  | Gen c => match l_gen s c with (s', Ok _) => Some s' | _ => None end
  end.
Fixpoint l_run (s : lst) (l : list lop) : option lst :=
  match l with
  | [] => Some s
  | o :: r => match l_step s o with Some s' => l_run s' r | None => None end
  end.
End LongGap.
