(** Model of ScriptedSurvey.
    /repo/rubin_scheduler/scheduler/surveys/scripted_surveys.py lines 55-417 and
    ScheduledObservationArray (utils/observation_array.py lines 217-330).

    Simplifications: angles and times are exact rationals; the conversions to
    altitude, azimuth, moon distance and hours of right ascension are arbitrary
    functions; of the columns only those below are kept. *)
From Coq Require Import List ZArith QArith Qround Bool String Ascii Lia DecimalString DecimalZ Decimal.
From Verif Require Import Base Obs.
Import ListNotations.
Open Scope nat_scope.

(** One row of a ScheduledObservationArray. *)
Record sobs : Type := mkSobs {
  s_note : string;                   (* scheduler_note, U60 *)
  s_mjd : Q; s_tol : Q;              (* mjd, mjd_tol *)
  s_flush : Q;                       (* flush_by_mjd *)
  s_band : string; s_filter : string;(* band U1, filter *)
  s_ra : Q; s_dec : Q; s_rsp : Q;
  s_exptime : Q; s_nexp : Z;
  s_alt_min : Q; s_alt_max : Q;
  s_ha_max : Q; s_ha_min : Q;
  s_sun_alt_max : Q; s_moon_min : Q;
  s_done : bool                      (* observed *)
}.
Definition set_note (n : string) (s : sobs) : sobs :=
  mkSobs n (s_mjd s) (s_tol s) (s_flush s) (s_band s) (s_filter s) (s_ra s) (s_dec s) (s_rsp s) (s_exptime s)
    (s_nexp s) (s_alt_min s) (s_alt_max s) (s_ha_max s) (s_ha_min s) (s_sun_alt_max s) (s_moon_min s) (s_done s).
Definition set_sband (b : string) (s : sobs) : sobs :=
  mkSobs (s_note s) (s_mjd s) (s_tol s) (s_flush s) b (s_filter s) (s_ra s) (s_dec s) (s_rsp s) (s_exptime s)
    (s_nexp s) (s_alt_min s) (s_alt_max s) (s_ha_max s) (s_ha_min s) (s_sun_alt_max s) (s_moon_min s) (s_done s).
Definition set_done (s : sobs) : sobs :=
  mkSobs (s_note s) (s_mjd s) (s_tol s) (s_flush s) (s_band s) (s_filter s) (s_ra s) (s_dec s) (s_rsp s) (s_exptime s)
    (s_nexp s) (s_alt_min s) (s_alt_max s) (s_ha_max s) (s_ha_min s) (s_sun_alt_max s) (s_moon_min s) true.

(** to_observation_array, observation_array.py lines 321-330: columns not in
    common stay zero. *)
Definition to_obs (s : sobs) : obs :=
  mkObs 0 0 (s_mjd s) 0 (s_flush s) (s_ra s) (s_dec s) (s_rsp s) (s_exptime s) (s_nexp s) (s_band s) (s_filter s) (s_note s).

(** Conditions read by the survey.  Limit pairs are (first, second). *)
Record scond : Type := mkScond {
  c_mjd : Q;
  c_mounted : list string; c_band : string;
  c_lmst : Q; c_sun_alt : Q; c_n18 : Q;              (* sun_n18_rising *)
  c_sky_alt : option (list (Q * Q)); c_tel_alt : Q * Q;
  c_sky_az : option (list (Q * Q)); c_tel_az : Q * Q
}.

(** Configuration and the environment. *)
Record scfg : Type := mkScfg {
  f_ignore : list string;
  f_limit : nat;                     (* return_n_limit *)
  f_twi : bool;                      (* before_twi_check *)
  f_bct : Q;                         (* band_change_time, in days *)
  f_mounted : bool; f_active : bool; (* check_band_mounted, check_band_active *)
  f_sort : option string;            (* sort_potential_result *)
  f_feasible : scond -> bool;        (* check_feasibility of the basis functions; never read *)
  f_mask : scond -> option (sobs -> bool);   (* finite interpolated reward map; None: no map *)
  f_det : scond -> list obs -> list obs;     (* detailers *)
  g_alt : scond -> Q -> Q -> Q; g_az : scond -> Q -> Q -> Q; g_moon : scond -> Q -> Q -> Q;
  g_hours : Q -> Q;                  (* RA * 12 / pi *)
  g_turn : Q                         (* 2 pi *)
}.

(** Python's [%] with a positive modulus. *)
Definition Qmod (x m : Q) : Q := (x - m * inject_Z (Qfloor (x / m)))%Q.
Definition Qmin2 (p : Q * Q) : Q := if Qle_bool (fst p) (snd p) then fst p else snd p.
Definition Qmax2 (p : Q * Q) : Q := if Qle_bool (fst p) (snd p) then snd p else fst p.
Definition Qabsb (x : Q) : Q := if Qle_bool 0 x then x else (- x)%Q.

Section Scripted.
Variable F : scfg.

(** Lines 191-193. *)
Definition hour_angle (c : scond) (s : sobs) : Q :=
  let h := (c_lmst c - g_hours F (s_ra s))%Q in
  let h := if Qltb 24 h then (h - 24)%Q else h in
  if Qltb h 0 then (h + 24)%Q else h.

(** Lines 216-227: inside an azimuth interval. *)
Definition az_inside (az : Q) (l : Q * Q) : bool :=
  Qle_bool (Qmod (az - fst l) (g_turn F)) (Qmod (snd l - fst l) (g_turn F)).

(** _check_alts_ha, lines 163-231; the successive index selections are one
    conjunction per row. *)
Definition check_alts_ha (c : scond) (s : sobs) : bool :=
  let alt := g_alt F c (s_ra s) (s_dec s) in
  let az := g_az F c (s_ra s) (s_dec s) in
  let ha := hour_angle c s in
  (Qltb (s_moon_min s) (g_moon F c (s_ra s) (s_dec s)) && Qltb alt (s_alt_max s) && Qltb (s_alt_min s) alt
    && (Qltb (s_ha_max s) ha || Qltb ha (s_ha_min s)) && Qltb (c_sun_alt c) (s_sun_alt_max s))
  && match c_sky_alt c with
     | None => true
     | Some ls => existsb (fun l => Qle_bool (Qmin2 l) alt && Qle_bool alt (Qmax2 l)) ls
     end
  && (Qle_bool (Qmin2 (c_tel_alt c)) alt && Qle_bool alt (Qmax2 (c_tel_alt c)))
  && match c_sky_az c with
     | None => true
     | Some ls => existsb (fun l => if Qle_bool (g_turn F) (Qabsb (snd l - fst l)) then true else az_inside az l) ls
     end
  && (if Qltb (Qabsb (snd (c_tel_az c) - fst (c_tel_az c))) (g_turn F) then az_inside az (c_tel_az c) else true).

(** Mutable attributes.  [st_seen]: what the features, basis functions and
    detailers have been shown. *)
Record sst : Type := mkSst {
  st_wanted : list sobs;             (* obs_wanted *)
  st_start : option (list Q);        (* mjd_start *)
  st_sched : option (list Q);        (* scheduled_obs *)
  st_id : Z;                         (* id_start *)
  st_rough : list obs; st_obs : list obs;    (* cached results *)
  st_last : Q; st_last_rough : Q;    (* last_mjd, last_mjd_rough *)
  st_seen : list obs }.

Definition with_wanted (st : sst) (w : list sobs) : sst :=
  mkSst w (st_start st) (st_sched st) (st_id st) (st_rough st) (st_obs st) (st_last st) (st_last_rough st) (st_seen st).
Definition with_seen (st : sst) (l : list obs) : sst :=
  mkSst (st_wanted st) (st_start st) (st_sched st) (st_id st) (st_rough st) (st_obs st) (st_last st) (st_last_rough st)
        (st_seen st ++ l).

(** Lines 55-115. *)
Definition script_init (id_start : Z) : sst := mkSst [] None None id_start [] [] (-1) (-1) [].

(** clear_script, lines 308-313. *)
Definition clear_script (st : sst) : sst :=
  mkSst [] None None (st_id st) (st_rough st) (st_obs st) (st_last st) (st_last_rough st) (st_seen st).

Definition smem (x : string) (l : list string) : bool := existsb (String.eqb x) l.
Fixpoint prefixb (p s : string) : bool :=
  match p, s with
  | EmptyString, _ => true
  | String a p, String b s => Ascii.eqb a b && prefixb p s
  | _, _ => false
  end.
(** [s.find(p) >= 0]. *)
Fixpoint contains (p s : string) : bool :=
  prefixb p s || match s with EmptyString => false | String _ r => contains p r end.

(** check_good_note, base_survey.py lines 224-242. *)
Definition good_note (o : obs) : bool := negb (existsb (fun ig => contains ig (o_note o)) (f_ignore F)).

(** Mark the first unobserved row with the note, lines 143-151. *)
Fixpoint mark_first (n : string) (l : list sobs) : list sobs :=
  match l with
  | [] => []
  | s :: r => if String.eqb (s_note s) n && negb (s_done s) then set_done s :: r else s :: mark_first n r
  end.
(** add_observation, lines 134-151. *)
Definition add_observation (st : sst) (o : obs) : sst :=
  match st_wanted st with
  | [] => st
  | w => if good_note o then with_wanted (with_seen st [o]) (mark_first (o_note o) w) else st
  end.

(** add_observations_array, lines 117-132. *)
Definition add_array (st : sst) (l : list obs) : sst :=
  let st1 := with_seen st (filter (fun o => negb (smem (o_note o) (f_ignore F))) l) in
  match st_wanted st with
  | [] => st1
  | w =>
      let w' := map (fun s => if smem (s_note s) (map o_note l) then set_done s else s) w in
      mkSst w' (st_start st) (Some (map s_mjd (filter (fun s => negb (s_done s)) w'))) (st_id st) (st_rough st)
            (st_obs st) (st_last st) (st_last_rough st) (st_seen st1)
  end.

(** Fixed-width string fields keep the first [n] characters. *)
Definition trunc (n : nat) (s : string) : string := substring 0 n s.
Definition zdec (z : Z) : string := NilZero.string_of_int (Z.to_int z).

(** Lines 337-340; the band field has one character. *)
Definition sbackfill (s : sobs) : sobs :=
  if String.eqb (s_band s) "" then set_sband (trunc 1 (rstrip (s_filter s))) s else s.
(** Lines 342-347. *)
Fixpoint index_notes (i : Z) (l : list sobs) : list sobs :=
  match l with
  | [] => []
  | s :: r => set_note (trunc 60 (s_note s ++ ", " ++ zdec i)) s :: index_notes (i + 1) r
  end.
(** [note.split(", ")[-1]]. *)
Fixpoint last_part (s : string) : string :=
  match s with
  | EmptyString => EmptyString
  | String c r =>
      if contains ", " r then last_part r
      else if prefixb ", " s then match r with String _ r' => r' | EmptyString => EmptyString end
      else s
  end.
(** np.unique(notes).size == notes.size. *)
Fixpoint nodupb (l : list string) : bool :=
  match l with [] => true | x :: r => negb (smem x r) && nodupb r end.

(** int(); what it accepts is left open. *)
Variable py_int : string -> option Z.
Fixpoint parse_ids (l : list sobs) : res (list Z) :=
  match l with
  | [] => Ok []
  | s :: r => match py_int (last_part (s_note s)) with
              | None => Raise ValueError
              | Some z => bind (parse_ids r) (fun zs => Ok (z :: zs))
              end
  end.

(** set_script, lines 315-370. *)
Definition set_script (st : sst) (new : list sobs) (append add_index : bool) : sst * res unit :=
  let new := map sbackfill new in
  let pre :=
    if add_index then Ok (index_notes (st_id st) new, (st_id st + Z.of_nat (List.length new))%Z)
    else bind (parse_ids (st_wanted st)) (fun ids =>
         Ok (new, match ids with [] => st_id st | z :: zs => (fold_left Z.max zs z + 1)%Z end)) in
  match pre with
  | Raise e => (st, Raise e)
  | Ok (new, id) =>
      let w := if append then st_wanted st ++ new else new in
      let st1 := mkSst w (st_start st) (st_sched st) id (st_rough st) (st_obs st) (st_last st) (st_last_rough st)
                       (st_seen st) in
      if nodupb (map s_note w) then
        (mkSst w (Some (map (fun s => (s_mjd s - s_tol s)%Q) w)) (Some (map s_mjd w)) id (st_rough st) (st_obs st)
               (st_last st) (st_last_rough st) (st_seen st), Ok tt)
      else (st1, Raise ValueError)
  end.

(** mjd_start < conditions.mjd, per row, with numpy broadcasting. *)
Definition starts (st : sst) : res (list Q) :=
  match st_start st with
  | None => Raise TypeError
  | Some [x] => Ok (map (fun _ => x) (st_wanted st))
  | Some l => if Nat.eqb (List.length l) (List.length (st_wanted st)) then Ok l else Raise ValueError
  end.

(** Lines 279-294: order by band, then by hour angle from west to east. *)
Definition ha_key (c : scond) (s : sobs) : Q :=
  let h := Qmod (c_lmst c - g_hours F (s_ra s)) 24 in
  (- (if Qltb 12 h then h - 24 else h))%Q.
Definition ha_le (c : scond) (a b : sobs) : bool :=
  if String.eqb (s_band a) (s_band b) then Qle_bool (ha_key c a) (ha_key c b)
  else String.leb (s_band a) (s_band b).
Fixpoint insert (le : sobs -> sobs -> bool) (x : sobs) (l : list sobs) : list sobs :=
  match l with
  | [] => [x]
  | y :: r => if le x y then x :: l else y :: insert le x r
  end.
Definition isort (le : sobs -> sobs -> bool) (l : list sobs) : list sobs := fold_right (insert le) [] l.

(** _check_list, lines 233-306. *)
Definition check_list (st : sst) (c : scond) : res (list sobs) :=
  match st_wanted st with
  | [] => Ok []
  | w =>
    bind (starts st) (fun ss =>
      let win := filter (fun p => Qltb (fst p) (c_mjd c) && Qltb (c_mjd c) (s_flush (snd p)) && negb (s_done (snd p)))
                        (combine ss w) in
      let m := filter (check_alts_ha c) (map snd win) in
      let m := if f_mounted F then filter (fun s => smem (s_band s) (c_mounted c)) m else m in
      let m := if f_active F then filter (fun s => String.eqb (s_band s) (c_band c)) m else m in
      match m with
      | [] => Ok []
      | _ =>
        let m := match f_mask F c with None => m | Some ok => filter ok m end in
        match f_sort F with
        | None => Ok (firstn (f_limit F) m)
        | Some k => if String.eqb k "HA" then
                      Ok (if Nat.ltb (f_limit F) (List.length m) then firstn (f_limit F) (isort (ha_le c) m) else m)
                    else Raise ValueError
        end
      end)
  end.

(** Line 395: n_band_changes. *)
Fixpoint same_band_pairs (l : list sobs) : nat :=
  match l with
  | a :: (b :: _) as r => (if String.eqb (s_band a) (s_band b) then 1 else 0) + same_band_pairs r
  | _ => 0
  end.
Definition Qsum (l : list Q) : Q := fold_right Qplus 0%Q l.
Definition time_needed (l : list sobs) : Q :=
  (Qsum (map s_exptime l) / 3600 / 24 + inject_Z (Z.of_nat (same_band_pairs l)) * f_bct F)%Q.

(** generate_observations_rough, lines 385-417. *)
Definition generate_rough (st : sst) (c : scond) : sst * res (list obs) :=
  if Qeq_bool (st_last_rough st) (c_mjd c) then (st, Ok (st_rough st))
  else match check_list st c with
       | Raise e => (st, Raise e)
       | Ok [] => (mkSst (st_wanted st) (st_start st) (st_sched st) (st_id st) [] (st_obs st) (st_last st) (c_mjd c)
                         (st_seen st), Ok [])
       | Ok l =>
           if f_twi F && Qltb (c_n18 c - c_mjd c) (time_needed l) then
             (mkSst (st_wanted st) (st_start st) (st_sched st) (st_id st) [] (st_obs st) (c_mjd c) (st_last_rough st)
                    (st_seen st), Ok [])
           else (mkSst (st_wanted st) (st_start st) (st_sched st) (st_id st) (map to_obs l) (st_obs st) (st_last st)
                       (c_mjd c) (st_seen st), Ok (map to_obs l))
       end.

(** generate_observations, lines 372-383. *)
Definition generate (st : sst) (c : scond) : sst * res (list obs) :=
  if Qeq_bool (st_last st) (c_mjd c) then (st, Ok (st_obs st))
  else let '(st1, r) := generate_rough st c in
       match r with
       | Raise e => (st1, Raise e)
       | Ok l => let l := match l with [] => [] | _ => f_det F c l end in
                 (mkSst (st_wanted st1) (st_start st1) (st_sched st1) (st_id st1) (st_rough st1) l (c_mjd c)
                        (st_last_rough st1) (st_seen st1), Ok l)
       end.

(** calc_reward_function, lines 153-161: whether the reward is above -inf. *)
Definition has_reward (st : sst) (c : scond) : sst * res bool :=
  let '(st1, r) := generate st c in
  (st1, match r with Raise e => Raise e | Ok [] => Ok false | Ok _ => Ok true end).

(** Calls in sequence. *)
Inductive sop : Type :=
| SSet (l : list sobs) (append add_index : bool)
| SClear
| SAdd (o : obs)
| SArray (l : list obs)
| SGen (c : scond).
(** [None]: a call raised. *)
Definition sstep (st : sst) (o : sop) : option sst :=
  match o with
  | SSet l a i => match set_script st l a i with (st', Ok _) => Some st' | _ => None end
  | SClear => Some (clear_script st)
  | SAdd o => Some (add_observation st o)
  | SArray l => Some (add_array st l)
  | SGen c => match generate st c with (st', Ok _) => Some st' | _ => None end
  end.
Fixpoint srun (st : sst) (l : list sop) : option sst :=
  match l with
  | [] => Some st
  | o :: r => match sstep st o with Some st' => srun st' r | None => None end
  end.
End Scripted.
