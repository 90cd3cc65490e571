(** Model of the prescheduling of deep drilling sequences.
    /repo/rubin_scheduler/scheduler/example/lsst_ddf_presched.py.
    Numbers are exact; conversions to radians and the night number of a time (Almanac)
    are inputs.  Warnings, file hashes and the reading of the grid are not modelled. *)
From Coq Require Import List ZArith QArith Qround Bool String Ascii.
From Verif Require Import Base Bisect IntRounded Blob Pointings SeasonBf Feat Script.
Import ListNotations.
Open Scope nat_scope.

(** ** [match_cumulative] 149-208 *)
(** [np.where(np.diff(rounded) > 0)[0] + 1] 187-188. *)
Fixpoint rises (i : nat) (prev : Z) (l : list Z) : list nat :=
  match l with [] => [] | x :: r => (if (prev <? x)%Z then [i] else []) ++ rises (S i) x r end.
Definition step_points (cum : list Q) : list nat :=
  match map Qround_even cum with [] => [] | x :: r => rises 1 x r end.
(** Lines 195-206: the position in the list of free elements. *)
Definition pick (valid : list nat) (s : nat) : nat :=
  let lf := searchsorted (fun a => Nat.ltb a s) 0 valid in
  let rg := searchsorted (fun a => Nat.leb a s) 0 valid in
  let k := if (Z.of_nat s - Z.of_nat lf <? Z.of_nat rg - Z.of_nat s)%Z then lf else rg in
  if Nat.leb (List.length valid) k then k - 1 else k.
Fixpoint remove_at {A} (k : nat) (l : list A) : list A :=
  match l, k with [], _ => [] | _ :: r, 0 => r | x :: r, S k => x :: remove_at k r end.
Fixpoint bump (k : nat) (l : list Z) : list Z :=
  match l, k with [], _ => [] | x :: r, 0 => (x + 1)%Z :: r | x :: r, S k => x :: bump k r end.
(** Lines 194-212; indexing an empty list raises. *)
Fixpoint place (nodup : bool) (steps valid : list nat) (sched : list Z) : res (list Z) :=
  match steps with
  | [] => Ok sched
  | s :: r => match nth_error valid (pick valid s) with
              | None => Raise IndexError
              | Some v => place nodup r (if nodup then remove_at (pick valid s) valid else valid) (bump v sched)
              end
  end.
Definition match_cumulative (cum : list Q) (mask : list bool) (nodup : bool) : res (list Z) :=
  place nodup (step_points cum) (np_where (fun b => b) mask) (map (fun _ => 0%Z) cum).

(** ** [ddf_slopes] 54-146 *)
Definition qtop (l : list Q) : Q := match l with [] => 0%Q | x :: r => fold_left (fun a y => if Qle_bool a y then y else a) r x end.
Definition qlow (l : list Q) : Q := match l with [] => 0%Q | x :: r => fold_left (fun a y => if Qle_bool a y then a else y) r x end.
Definition in_season (s : Z) (x : Q) : bool := (Qfloor x =? s)%Z.
(** Nights with a rate, lines 94-97. *)
Definition active (raw seas : list Q) : list Q := map snd (filter (fun p => negb (Qeq_bool (fst p) 0)) (combine raw seas)).
(** Lines 101-104. *)
Definition season_length (act : list Q) (s : Z) : Q := let l := filter (in_season s) act in (qtop l - qlow l)%Q.
(** Lines 107-131, before rounding; [boost] is early, third, fractional, all given. *)
Definition season_goal (act : list Q) (n minlen : Q) (boost : option (Q * Q * Q)) (top : Q) (s : Z) : Q :=
  let len := season_length act s in
  let v := if Qltb len (minlen / yr) then 0%Q else (n * len / top)%Q in
  match boost with
  | None => v
  | Some (early, third, frac) =>
      let v := if (s =? -1)%Z && Qltb 0 frac then (n * frac)%Q else v in
      let v := if (s =? 0)%Z || (s =? 1)%Z then (v * early)%Q else v in
      if (s =? 2)%Z then (v * third)%Q else v
  end.
(** [np.cumsum] over the nights of one season. *)
Fixpoint season_sums (s : Z) (acc : Q) (raw seas : list Q) : list (option Q) :=
  match raw, seas with
  | r :: raw, x :: seas => if in_season s x then Some (acc + r)%Q :: season_sums s (acc + r)%Q raw seas
                           else None :: season_sums s acc raw seas
  | _, _ => []
  end.
Definition somes (l : list (option Q)) : list Q := flat_map (fun o => match o with Some x => [x] | None => [] end) l.
Fixpoint over (l : list (option Q)) (base : list Q) : list Q :=
  match l, base with Some x :: l, _ :: b => x :: over l b | None :: l, y :: b => y :: over l b | _, _ => [] end.
(** One season, lines 136-144. *)
Definition add_season (raw seas : list Q) (goal : Z -> Q) (cum : list Q) (s : Z) : list Q :=
  let c := season_sums s 0 raw seas in
  let top := qtop (somes c) in
  if Qltb 0 top then over (map (option_map (fun x => x / top * goal s + qtop cum)%Q) c) cum else cum.
(** With seasons all of one night the division is by zero and the result nan: [None].
    (With a boost of season -1 that season would keep a number; not modelled.) *)
Definition slopes (raw seas : list Q) (n minlen : Q) (boost : option (Q * Q * Q)) : res (option (list Q)) :=
  let act := active raw seas in
  match unique_sorted (map Qfloor act) with
  | [] => Raise ValueError
  | ss => let top := qtop (map (season_length act) ss) in
          if Qeq_bool top 0 then Ok None
          else let goal s := inject_Z (Qround_even (season_goal act n minlen boost top s)) in
               Ok (Some (fold_left (add_season raw seas goal) ss (map (fun _ => 0%Q) raw)))
  end.

(** ** [optimize_ddf_times] 211-467 *)
(** One time of the grid for one field. *)
Record gpt : Type := mkGpt { g_mjd : Q; g_sun : er; g_air : er; g_sky : er; g_m5 : er; g_moon : er }.
Record dset : Type := mkDset {
  d_sun : Q;                       (* sun_limit, radians *)
  d_seq : Q;                       (* sequence_time, minutes *)
  d_air : Q;
  d_sky : option Q;
  d_depth : option Q;              (* g_depth_limit *)
  d_off : Q;                       (* offseason_length, days *)
  d_low : Q; d_rate : Q;           (* low_season_frac, low_season_rate *)
  d_n : Q;                         (* season_seq *)
  d_boost : option (Q * Q * Q);
  d_only : option Z;
  d_parity : option bool;          (* mask_even_odd *)
  d_mlt : option Q; d_mgt : option Q;
  d_early : bool                   (* early_late_season_only *)
}.
Definition opt {A} (o : option A) (f : A -> bool) : bool := match o with None => true | Some x => f x end.
(** Lines 326-369: the masks at one time; comparisons with nan are false. *)
Definition point_ok (D : dset) (night : Z) (g : gpt) : bool :=
  negb (er_leb (EFin (d_sun D)) (g_sun g)) &&
  negb (er_leb (EFin (d_air D)) (g_air g)) &&
  opt (d_sky D) (fun l => negb (er_leb (g_sky g) (EFin l)) && negb (er_isnan (g_sky g))) &&
  (er_finite (g_m5 g) && opt (d_depth D) (fun l => negb (er_ltb (g_m5 g) (EFin l)))) &&
  opt (d_parity D) (fun b => if b then Z.odd night else Z.even night) &&
  opt (d_mlt D) (fun l => negb (er_ltb (EFin l) (g_moon g))) &&
  opt (d_mgt D) (fun l => negb (er_ltb (g_moon g) (EFin l))).
(** Lines 371-380: a time is masked if it or one of the next [n] is. *)
Definition grow (n : nat) (m : list bool) : list bool :=
  map (fun i => forallb (fun o => nth (i + o) m true) (seq 0 (S n))) (seq 0 (List.length m)).
(** Lines 373-374; the integer of an infinite number raises. *)
Definition mask_steps (D : dset) (grid : list gpt) : res nat :=
  match grid with
  | a :: b :: _ => let dt := (g_mjd b - g_mjd a)%Q in
                   if Qeq_bool dt 0 then Raise RuntimeError else Ok (Z.to_nat (Qceiling (d_seq D / 60 / 24 / dt)))
  | _ => Raise IndexError
  end.

Section Opt.
Variable night : Q -> Z.           (* almanac night of a time *)
Variable ra : Q.                   (* of the field, degrees *)
Variable start : Q.                (* survey_start_mjd *)
Variable D : dset.
Variable grid : list gpt.

Definition nights : list Z := map (fun g => night (g_mjd g)) grid.
Definition big_mask (n : nat) : list bool := grow n (map (fun g => point_ok D (night (g_mjd g)) g) grid).
(** The first time of a night. *)
Definition first_mjd (u : Z) : Q := match find (fun g => (night (g_mjd g) =? u)%Z) grid with Some g => g_mjd g | None => 0%Q end.
(** Lines 382-400: night, first time and season, of the nights looked at. *)
Definition table : list (Z * Q * Q) :=
  let us := unique_sorted nights in
  let ses := map (fun u => calc_season ra (first_mjd u) start) us in
  let base := inject_Z (Qfloor (qlow ses)) in
  filter (fun r => opt (d_only D) (fun o => in_season o (snd r))) (map (fun u => (u, first_mjd u, (calc_season ra (first_mjd u) start - base)%Q)) us).
(** Lines 402-422: the rate of a night. *)
Definition rate (season : Q) : Q :=
  let m := Qmod season 1 in
  let outs f := Qltb m f || Qltb (1 - f) m in
  if d_early D then (if outs (d_low D) then d_rate D else 0%Q)
  else if outs (d_low D) then d_rate D else if outs (d_off D / yr)%Q then 0%Q else 1%Q.
(** Lines 456-466: the earliest of the deepest unmasked times of a night. *)
Definition in_night (mask : list bool) (u : Z) : list nat :=
  filter (fun i => match nth_error grid i with Some g => (night (g_mjd g) =? u)%Z && er_finite (g_m5 g) && nth i mask false | None => false end) (seq 0 (List.length grid)).
Definition m5_at (i : nat) : er := match nth_error grid i with Some g => g_m5 g | None => ENaN end.
Definition best_time (mask : list bool) (u : Z) : res Q :=
  match in_night mask u with
  | [] => Raise ValueError
  | l => let top := fold_left (fun a i => if er_ltb a (m5_at i) then m5_at i else a) l ENInf in
         match find (fun i => er_eqb (m5_at i) top) l with
         | Some i => Ok (match nth_error grid i with Some g => g_mjd g | None => 0%Q end)
         | None => Raise ValueError
         end
  end.
Fixpoint collect {A B} (f : A -> res B) (l : list A) : res (list B) :=
  match l with [] => Ok [] | x :: r => bind (f x) (fun y => bind (collect f r) (fun ys => Ok (y :: ys))) end.
(** Lines 424-467: the times, the desired and the scheduled cumulative numbers (of nights). *)
Definition optimize : res (list Q * option (list Q) * list Z) :=
  bind (mask_steps D grid) (fun n =>
  let mask := big_mask n in
  let us := map (fun r => fst (fst r)) table in
  let seas := map snd table in
  let raw := map rate seas in
  if Qltb 0 (fold_left Qplus raw 0%Q) then
    bind (slopes raw seas (d_n D) 0 (d_boost D)) (fun cum =>
    match cum with
    | None => Ok ([], None, map (fun _ => 0%Z) us)
    | Some cum =>
        let free := map (fun u => existsb (fun i => match nth_error nights i with Some v => (v =? u)%Z && nth i mask false | None => false end) (seq 0 (List.length grid))) us in
        let possible := inject_Z (Z.of_nat (List.length (np_where (fun b => b) free))) in
        let cum := if Qltb possible (qtop cum) then map (fun x => x / qtop cum * possible)%Q cum else cum in
        bind (match_cumulative cum free true) (fun sched =>
        bind (collect (best_time mask) (map fst (filter (fun p => (snd p =? 1)%Z) (combine us sched)))) (fun mjds =>
        Ok (mjds, Some cum, sched)))
    end)
  else Ok ([], Some [], [])).
End Opt.

(** ** [generate_ddf_scheduled_obs] 470-742 *)
Definition bands6 : list string := ["u"; "g"; "r"; "i"; "z"; "y"]%string.
(** One row of the configuration. *)
Record cfg : Type := mkCfg {
  c_name : string;
  c_len : Q;                       (* season_length *)
  c_n : Q;                         (* n_sequences *)
  c_flush : Q;
  c_count : string -> nat;         (* visits by band *)
  c_parity : string;               (* even_odd *)
  c_depth : option Q;
  c_season : option Z
}.
Fixpoint has (x s : string) : bool :=
  match s with EmptyString => String.prefix x s | String _ r => String.prefix x s || has x r end.
(** [ddf_name.replace("_a", "_b")]. *)
Fixpoint a_to_b (s : string) : string :=
  match s with
  | String "_" (String "a" r) => String "_" (String "b" (a_to_b r))
  | String c r => String c (a_to_b r)
  | EmptyString => EmptyString
  end.
Fixpoint skip_blank (s : string) : string := match s with String " " r => skip_blank r | _ => s end.
Fixpoint trail_blank (s : string) : string :=
  match s with EmptyString => EmptyString | String c r => let t := trail_blank r in if String.eqb t "" && Ascii.eqb c " " then EmptyString else String c t end.
Record gset : Type := mkGset {
  q_tol : Q; q_amin : Q; q_amax : Q; q_hamin : Q; q_hamax : Q; q_sun : Q; q_moon : Q;  (* converted *)
  q_over : Q; q_illum : Q; q_expt : string -> Q; q_snaps : string -> Z; q_sunlim : Q  (* -18 degrees in radians *)
}.
Section Gen.
Variable night : Q -> Z.
Variable start : Q.
Variable ddfs : string -> option (Q * Q).      (* ddf_locations, degrees *)
Variable rad : Q -> Q.                          (* np.radians *)
Variable grid : string -> list gpt.             (* the part of the grid within the survey *)
Variable G : gset.

(** Lines 594-625. *)
Definition seq_seconds (c : cfg) : Q := fold_left (fun a b => a + (q_expt G b + q_over G * inject_Z (q_snaps G b)) * inject_Z (Z.of_nat (c_count c b)))%Q bands6 0%Q.
Definition total (c : cfg) : nat := fold_left (fun a b => a + c_count c b) bands6 0.
Definition dset_of (c : cfg) : dset :=
  let eo := trail_blank (skip_blank (c_parity c)) in
  let uo := Nat.eqb (total c) (c_count c "u") in
  let yo := negb uo && Nat.eqb (total c) (c_count c "y") in
  let par := if String.eqb eo "even" then Some true else if String.eqb eo "odd" then Some false else None in
  let early := has "early" eo in
  let par := if early then (if has "p_0" eo then Some true else if has "p_2" eo then Some false else par) else par in
  mkDset (q_sunlim G) (seq_seconds c / 60) (5 # 2) None (c_depth c) ((365 - c_len c) / 2)
    (if early then 80 / 200 else 0)%Q (if early then 1 else 3 # 10)%Q (c_n c) None (c_season c) par
    (if uo then Some (q_illum G) else None) (if yo then Some (q_illum G) else None) early.
(** One visit of a sequence; the note is cut to 60 characters. *)
Definition visit (name band : string) (at_ : Q * Q) (mjd flush moon : Q) : sobs :=
  mkSobs (trunc 60 ("DD:" ++ name)) mjd (q_tol G) (mjd + flush) (trunc 1 band) "" (rad (fst at_)) (rad (snd at_)) 0 (q_expt G band) (q_snaps G band)
    (q_amin G) (q_amax G) (q_hamax G) (q_hamin G) (q_sun G) moon false.
Definition half_up (n : nat) : nat := Nat.div (n + 1) 2.
(** Lines 668-739: one band of one sequence.  The first part of a double field has no
    limit on the distance of the moon. *)
Definition band_visits (c : cfg) (mjd : Q) (band : string) : res (list sobs) :=
  let n := c_count c band in
  match ddfs (c_name c) with
  | None => Raise KeyError
  | Some pa =>
      if has "EDFS" (c_name c) then
        match ddfs (a_to_b (c_name c)) with
        | None => Raise KeyError
        | Some pb => Ok (repeat (visit (c_name c) band pa mjd (c_flush c) 0) (half_up n) ++ repeat (visit (a_to_b (c_name c)) band pb mjd (c_flush c) (q_moon G)) (half_up n))
        end
      else Ok (repeat (visit (c_name c) band pa mjd (c_flush c) (q_moon G)) n)
  end.
Definition row_times (c : cfg) : res (list Q) :=
  match ddfs (c_name c) with
  | None => Raise KeyError
  | Some p => bind (optimize night (fst p) start (dset_of c) (grid (c_name c))) (fun r => Ok (fst (fst r)))
  end.
Definition row_visits (c : cfg) : res (list sobs) :=
  bind (row_times c) (fun ts => bind (collect (fun t => bind (collect (band_visits c t) bands6) (fun l => Ok (List.concat l))) ts) (fun l => Ok (List.concat l))).
(** [np.concatenate] of nothing raises. *)
Definition generate (cs : list cfg) : res (list sobs) :=
  bind (collect row_visits cs) (fun l =>
  bind (collect row_times cs) (fun tss =>
  if forallb (fun ts => match ts with [] => true | _ => false end) tss then Raise ValueError else Ok (List.concat l))).
End Gen.
