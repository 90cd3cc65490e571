(** Model of ToOScriptedSurvey.
    /repo/rubin_scheduler/scheduler/surveys/too_scripted_surveys.py lines 82-455.

    Simplifications: the overlap of an alert with the follow-up footprint, the
    position of a healpixel and the tessellation after the n-th random rotation
    are arbitrary functions; columns that the model of a row does not have
    (target_name, observation_reason, dist_tol) are left out. *)
From Coq Require Import List ZArith QArith Qround Bool String Ascii Lia.
From Verif Require Import Base Obs Labels Script.
Import ListNotations.
Open Scope nat_scope.

(** What the survey reads of a TargetoO. *)
Record alert : Type := mkAlert {
  a_id : string; a_type : option string;      (* id, too_type *)
  a_start : Q;                                (* mjd_start *)
  a_center : Q * Q;                           (* ra_rad_center, dec_rad_center *)
  a_area : nat                                (* footprint, identified by a number *)
}.

(** One entry of the zipped times, bands_at_times, nvis, exptimes. *)
Record visitplan : Type := mkPlan { v_time : Q; v_bands : list string; v_n : nat; v_exptime : Q }.

Record tcfg : Type := mkTcfg {
  t_scr : scfg;                               (* the scripted survey underneath *)
  t_types : list string;                      (* too_types_to_follow *)
  t_plan : list visitplan;
  t_name : string;                            (* survey_name *)
  t_flush : Q; t_tol : Q;                     (* flushtime in days, mjd_tol *)
  t_alt_min : Q; t_alt_max : Q; t_ha_min : Q; t_ha_max : Q;
  t_snaps : Z; t_usnaps : Z;
  t_simple : bool; t_dither : bool;           (* simple_single_tesselate, dither_per_visit *)
  t_update0 : bool;                           (* update_mjd0 *)
  t_npos : nat;                               (* npositions *)
  t_gen : scond -> alert -> list sobs -> list sobs;     (* event_gen_detailers *)
  t_pix : alert -> list nat;                  (* np.where(target_area > 0) *)
  t_incenter : alert -> bool;                 (* followup_footprint at the centre > 0 *)
  t_pos : nat -> Q * Q;                       (* _hpid2_ra_dec *)
  t_tess : nat -> list nat -> list (Q * Q);   (* pointings after the n-th rotation *)
  t_int : string -> option Z                  (* int() *)
}.

Record tst : Type := mkTst { u_s : sst; u_seen : list string; u_spin : nat }.
(** Lines 150-225. *)
Definition too_init (id_start : Z) : tst := mkTst (script_init id_start) [] 0.

Section Too.
Variable K : tcfg.

(** flush_script, lines 251-265. *)
Definition flush_script (st : sst) (c : scond) : sst * res unit :=
  match filter (fun s => negb (s_done s) && Qltb (c_mjd c) (s_flush s)) (st_wanted st) with
  | [] => (clear_script st, Ok tt)
  | rel => set_script (t_int K) st rel false false
  end.

(** Lines 347-350. *)
Definition follows (a : alert) : res bool :=
  match t_types K, a_type a with
  | [], _ => Ok false
  | _, None => Raise TypeError
  | l, Some t => Ok (existsb (fun x => contains x t) l)
  end.

(** _tesselate, lines 323-339; _spin_fields (267-303) raises beyond the stored positions. *)
Definition tesselate (spin : nat) (pix : list nat) : nat * res (list (Q * Q)) :=
  match pix with
  | [p] => if t_simple K then (spin, Ok [t_pos K p])
           else if Nat.ltb spin (t_npos K) then (S spin, Ok (t_tess K spin pix)) else (spin, Raise IndexError)
  | _ => if Nat.ltb spin (t_npos K) then (S spin, Ok (t_tess K spin pix)) else (spin, Raise IndexError)
  end.

(** Lines 407-435: one pointing. *)
Definition too_row (a : alert) (mjd0 : Q) (p : visitplan) (i : nat) (band : string) (pos : Q * Q) : sobs :=
  mkSobs (trunc 60 (t_name K ++ ", " ++ band ++ ", " ++ a_id a ++ ", i" ++ zdec (Z.of_nat i)))
    (mjd0 + v_time p) (t_tol K) (mjd0 + v_time p + t_flush K) band "" (fst pos) (snd pos) 0 (v_exptime p)
    (if String.eqb band "u" then t_usnaps K else t_snaps K) (t_alt_min K) (t_alt_max K) (t_ha_max K) (t_ha_min K) 0 0 false.

(** Lines 402-435: the visits of one entry; obs_list as a list of arrays. *)
Fixpoint too_visits (a : alert) (mjd0 : Q) (p : visitplan) (i n spin : nat) (pts : list (Q * Q)) (pix : list nat)
  : nat * res (list (Q * Q) * list (list sobs)) :=
  match n with
  | O => (spin, Ok (pts, []))
  | S n =>
      let '(spin1, r) := match pix with [] => (spin, Ok pts) | _ => if t_dither K then tesselate spin pix else (spin, Ok pts) end in
      match r with
      | Raise e => (spin1, Raise e)
      | Ok pts1 =>
          let here := map (fun b => map (too_row a mjd0 p i b) pts1) (v_bands p) in
          let '(spin2, r2) := too_visits a mjd0 p i n spin1 pts1 pix in
          (spin2, bind r2 (fun q => Ok (fst q, here ++ snd q)))
      end
  end.
(** Lines 394-435: all entries. *)
Fixpoint too_plan (a : alert) (mjd0 : Q) (ps : list visitplan) (i spin : nat) (pts : list (Q * Q)) (pix : list nat)
  : nat * res (list (list sobs)) :=
  match ps with
  | [] => (spin, Ok [])
  | p :: r =>
      let '(spin1, x) := too_visits a mjd0 p i (v_n p) spin pts pix in
      match x with
      | Raise e => (spin1, Raise e)
      | Ok (pts1, l) => let '(spin2, y) := too_plan a mjd0 r (S i) spin1 pts1 pix in (spin2, bind y (fun m => Ok (l ++ m)))
      end
  end.

(** Lines 386-392. *)
Definition too_mjd0 (c : scond) (a : alert) : res Q :=
  if t_update0 K then (if Qltb (a_start a) (c_mjd c) then Ok (c_mjd c) else Raise UnboundLocalError)
  else Ok (a_start a).

(** _new_event, lines 341-440.  The result is the array handed to set_script,
    if any. *)
Definition new_event (st : tst) (c : scond) (a : alert) : tst * res (option (list sobs)) :=
  let '(s1, fr) := flush_script (u_s st) c in
  let st1 := mkTst s1 (u_seen st) (u_spin st) in
  match fr with
  | Raise e => (st1, Raise e)
  | Ok _ =>
    match follows a with
    | Raise e => (st1, Raise e)
    | Ok ok =>
      if ok && negb (smem (a_id a) (u_seen st)) then
        let seen := u_seen st ++ [a_id a] in
        let pix := t_pix K a in
        let '(spin1, pr) :=
          match pix with
          | [] => (u_spin st, Ok (if t_incenter K a then Some [a_center a] else None))
          | _ => let '(sp, r) := tesselate (u_spin st) pix in (sp, bind r (fun p => Ok (Some p)))
          end in
        let st2 := mkTst s1 seen spin1 in
        match pr with
        | Raise e => (st2, Raise e)
        | Ok None => (st2, Ok None)
        | Ok (Some pts) =>
            match too_mjd0 c a with
            | Raise e => (st2, Raise e)
            | Ok mjd0 =>
                let '(spin2, rr) := too_plan a mjd0 (t_plan K) 0 spin1 pts pix in
                match rr with
                | Raise e => (mkTst s1 seen spin2, Raise e)
                | Ok [] => (mkTst s1 seen spin2, Raise ValueError)
                | Ok l =>
                    let rows := t_gen K c a (List.concat l) in
                    let '(s3, sr) := set_script (t_int K) s1 rows true true in
                    (mkTst s3 seen spin2, match sr with Raise e => Raise e | Ok _ => Ok (Some rows) end)
                end
            end
        end
      else (st1, Ok None)
    end
  end.

(** update_conditions, lines 442-445; the log lists the alerts scripted and the
    rows handed to set_script. *)
Fixpoint too_update (st : tst) (c : scond) (l : list alert) : tst * res (list (scond * alert * list sobs)) :=
  match l with
  | [] => (st, Ok [])
  | a :: r =>
      let '(st1, x) := new_event st c a in
      match x with
      | Raise e => (st1, Raise e)
      | Ok o => let '(st2, y) := too_update st1 c r in
                (st2, bind y (fun m => Ok (match o with Some rows => (c, a, rows) :: m | None => m end)))
      end
  end.

(** Calls: update_conditions (also made by calc_reward_function, lines 447-455),
    reports, generate_observations. *)
Inductive top : Type :=
| TUpdate (c : scond) (l : list alert)
| TAdd (o : obs)
| TArray (l : list obs)
| TGen (c : scond).
Definition tstep (st : tst) (o : top) : option (tst * list (scond * alert * list sobs)) :=
  match o with
  | TUpdate c l => match too_update st c l with (st', Ok m) => Some (st', m) | _ => None end
  | TAdd o => Some (mkTst (add_observation (t_scr K) (u_s st) o) (u_seen st) (u_spin st), [])
  | TArray l => Some (mkTst (add_array (t_scr K) (u_s st) l) (u_seen st) (u_spin st), [])
  | TGen c => match generate (t_scr K) (u_s st) c with (s', Ok _) => Some (mkTst s' (u_seen st) (u_spin st), []) | _ => None end
  end.
(** [None]: a call raised. *)
Fixpoint trun (st : tst) (l : list top) : option (tst * list (scond * alert * list sobs)) :=
  match l with
  | [] => Some (st, [])
  | o :: r => match tstep st o with
              | None => None
              | Some (st1, m1) => match trun st1 r with None => None | Some (st2, m2) => Some (st2, m1 ++ m2) end
              end
  end.
End Too.
