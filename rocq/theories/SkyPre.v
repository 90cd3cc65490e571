(** Model of the interpolation of stored sky brightness maps.
    /repo/rubin_scheduler/skybrightness_pre/sky_model_pre.py.
    Times, angles and magnitudes are exact; a failed [assert] is written RuntimeError.
    The altitudes of the sun and of pixels and the distance of two pixels are
    arbitrary functions.  Requested pixels and bands are taken to exist. *)
From Coq Require Import List ZArith QArith Qround Qabs Bool String.
From Verif Require Import Base Bisect Script Surveys SiteData.
Import ListNotations.
Open Scope nat_scope.

(** ** Angles *)
(** [short_angle_dist] 30-36; [tw] is a whole turn. *)
Definition short_dist (tw a0 a1 : Q) : Q := let da := Qmod (a1 - a0) tw in (Qmod (2 * da) tw - da)%Q.
(** [interp_angle] 39-77, in radians, one output point. *)
Definition interp_angle (tw x : Q) (xp ap : list Q) : res Q :=
  let k := searchsorted (fun a => Qltb a x) 0%Q xp in
  let jl := if Nat.eqb k 0 then 0 else k - 1 in
  let jr := if Nat.ltb k (List.length xp) then k else k - 1 in
  match nth_error xp jl, nth_error xp jr, nth_error ap jl, nth_error ap jr with
  | Some xl, Some xr, Some al, Some ar =>
      let base := (xr - xl)%Q in
      let w := if Qeq_bool base 0 then 0%Q else ((x - xl) / base)%Q in
      Ok (Qmod (al + short_dist tw al ar * w) tw)
  | _, _, _, _ => Raise IndexError
  end.

(** ** Maps *)
(** A file: the range in its name, its times, its longest step, its maps by band,
    time and pixel. *)
Record sfile := mkFile { f_left : Q; f_right : Q; f_mjds : list Q; f_step : Q; f_map : string -> nat -> nat -> er }.

(** [_best_matching_file] 213-227: the last file whose name covers the time. *)
Definition best_file (files : list sfile) (t : Q) : res sfile :=
  match rev (filter (fun f => Qle_bool (f_left f) t && Qle_bool t (f_right f)) files) with
  | [] => Raise ValueError
  | f :: _ => Ok f
  end.
Definition qmax (l : list Q) : Q := match l with [] => 0%Q | x :: r => fold_left (fun a y => if Qle_bool a y then y else a) r x end.
Definition qmin (l : list Q) : Q := match l with [] => 0%Q | x :: r => fold_left (fun a y => if Qle_bool a y then a else y) r x end.
(** [np.round(np.nextafter(mjd, inf)) + 0.2] 245: halves go up. *)
Definition in_dayobs (t : Q) : Q := (inject_Z (Qfloor (t + (1 # 2))) + (1 # 5))%Q.

(** What [_load_data] keeps: the file and the slice of its maps, from [k_from] up to but
    not including [k_to] (286-297). *)
Record loaded := mkLoaded { k_file : sfile; k_from : nat; k_to : nat }.
Definition k_mjds (k : loaded) : list Q := firstn (k_to k - k_from k) (skipn (k_from k) (f_mjds (k_file k))).
(** The attributes: maps are loaded, or what a failed [_load_data] leaves: the range still
    taken as loaded, and what a question inside it raises.  [loaded_range] starts as -1. *)
Inductive sky : Type := Ready (k : loaded) | Broken (lo hi : Q) (e : exn).
Definition unloaded : sky := Broken (-1) (-1) AttributeError.
(** The file and the time to load, before anything is changed (191-252). *)
Definition load_what (files : list sfile) (t : Q) : res (sfile * Q) :=
  bind (best_file files t) (fun f =>
  match f_mjds f with
  | [] => Raise ValueError
  | _ =>
    if Qltb (qmax (f_mjds f)) t then
      bind (best_file files (in_dayobs t)) (fun f2 =>
      match f_mjds f2 with
      | [] => Raise ValueError
      | _ => let first := qmin (f_mjds f2) in
             if Qltb t first then (if Qltb (first - t) 1 then Ok (f2, first) else Raise RuntimeError)
             else Ok (f2, t)
      end)
    else Ok (f, t)
  end).
Definition range_of (s : sky) : Q * Q :=
  match s with
  | Ready k => (nth (k_from k) (f_mjds (k_file k)) 0%Q, nth (k_to k) (f_mjds (k_file k)) 0%Q)
  | Broken lo hi _ => (lo, hi)
  end.
(** [_load_data] 191-300: the maps are dropped (258-278) before the new ones are found. *)
Definition load (files : list sfile) (len : Q) (s : sky) (t : Q) : sky * res unit :=
  match load_what files t with
  | Raise e => (s, Raise e)
  | Ok (f, t') =>
      match np_where (fun m => Qle_bool t' m && Qle_bool m (t' + len)) (f_mjds f) with
      | [] => (Broken (fst (range_of s)) (snd (range_of s)) AttributeError, Raise ValueError)
      | i :: r => let i0 := i - 1 in let i1 := last r i in
                  if Nat.eqb i0 i1 then (Broken (nth i0 (f_mjds f) 0%Q) (nth i0 (f_mjds f) 0%Q) IndexError, Raise IndexError)
                  else (Ready (mkLoaded f i0 i1), Ok tt)
      end
  end.

(** ** Answers *)
Definition unseen : Q := inject_Z (- (16375 * 10 ^ 26)).
Definition is_nan (x : er) : bool := match x with ENaN => true | _ => false end.
Definition is_inf (x : er) : bool := match x with ENInf | EPInf => true | _ => false end.
(** Lines 405-406. *)
Definition clean (bad x : er) : er :=
  let x := if is_inf x then bad else x in if er_eqb x (EFin unseen) then bad else x.

Section Sky.
Variable files : list sfile.
Variable len : Q.                       (* load_length *)
Variable sun_alt : Q -> Q.
Variable sun_limit : Q.
Variable pix_alt : Q -> nat -> Q.       (* degrees *)
Variable dist : nat -> nat -> Q.
Variable npix : nat.

(** Lines 351-352: reload when the time is out of the loaded range. *)
Definition refresh (s : sky) (t : Q) : sky * res unit :=
  if Qltb t (fst (range_of s)) || Qltb (snd (range_of s)) t then load files len s t else (s, Ok tt).

(** Lines 354-381: the positions of the maps on both sides and their distance. *)
Definition sides (ms : list Q) (t : Q) : res (nat * nat * Q) :=
  let k := searchsorted (fun a => Qltb a t) 0%Q ms in
  if Nat.leb (List.length ms) k then
    let jr := k - 1 in
    if Qltb (t - nth jr ms 0%Q) (3 # 4) then Ok (jr, jr, 1%Q) else Raise RuntimeError
  else match k with
       | 0 => if Qltb (nth 0 ms 0%Q - t) (3 # 4) then Ok (0, 0, 1%Q) else Raise RuntimeError
       | S jl => let ml := nth jl ms 0%Q in let mr := nth k ms 0%Q in
                 if Qle_bool ml t && Qle_bool t mr then Ok (jl, k, (mr - ml)%Q) else Raise RuntimeError
       end.
(** Line 401-402: the closest of the two, the earlier if they are as close. *)
Definition closest (ms : list Q) (t : Q) (jl jr : nat) : nat :=
  if Qle_bool (Qabs (nth jl ms 0%Q - t)) (Qabs (nth jr ms 0%Q - t)) then jl else jr.

(** Lines 383-414 for one band: the values at given pixels. *)
Definition values (k : loaded) (t : Q) (bad : er) (lrb : nat * nat * Q) (pix : list nat) (band : string) : list er :=
  let '(jl, jr, base) := lrb in
  let m i p := f_map (k_file k) band (k_from k + i) p in
  if Qltb (f_step (k_file k) + (1 # 1000000)) base then
    if Qltb sun_limit (sun_alt t) then map (fun p => if Qltb 20 (pix_alt t p) then EFin 2 else ENaN) pix
    else map (fun p => clean bad (m (closest (k_mjds k) t jl jr) p)) pix
  else
    let w := ((t - nth jl (k_mjds k) 0%Q) / base)%Q in
    map (fun p => er_add (er_scale (m jl p) (1 - w)) (er_scale (m jr p) w)) pix.

(** [np.min]: nan if one is. *)
Definition er_min (l : list er) : er :=
  match l with
  | [] => ENaN
  | x :: r => fold_left (fun a y => if is_nan a || is_nan y then ENaN else if er_ltb y a then y else a) r x
  end.
Fixpoint set_at {A} (i : nat) (x : A) (l : list A) : list A :=
  match l, i with [], _ => [] | _ :: r, 0 => x :: r | y :: r, S i => y :: set_at i x r end.
(** Lines 416-451: masked pixels take the value of the nearest good ones.  [i] counts
    the masked pixels, [mi] is the position; the distance is from pixel [indx[i]]. *)
Definition nearest (good : list nat) (p : nat) : list nat :=
  filter (fun g => Qeq_bool (dist p g) (qmin (map (dist p) good))) good.
Fixpoint fill_band (full : nat -> er) (good pix : list nat) (i : nat) (masked : list nat) (vals : list er) : list er :=
  match masked with
  | [] => vals
  | mi :: r => fill_band full good pix (S i) r (set_at mi (er_min (map full (nearest good (nth i pix 0)))) vals)
  end.
Definition is_masked (bad x : er) : bool := er_eqb x bad || is_nan x.
(** [return_mags] 302-451 once the maps are loaded; all pixels when [indx] is [None]. *)
Definition mags (k : loaded) (t : Q) (indx : option (list nat)) (bad : er) (bands : list string) (extrapolate : bool) : res (list (list er)) :=
  bind (sides (k_mjds k) t) (fun lrb =>
  match indx with
  | None => Ok (map (values k t bad lrb (seq 0 npix)) bands)
  | Some pix =>
      let sbs := map (values k t bad lrb pix) bands in
      if extrapolate && existsb (existsb (is_masked bad)) sbs then
        let full band := values k t (EFin unseen) lrb (seq 0 npix) band in
        match bands, sbs with
        | b0 :: _, v0 :: _ =>
            let good := np_where (fun x => negb (is_masked bad x)) (full b0) in
            let masked := np_where (is_masked bad) v0 in
            match good, masked with
            | [], _ :: _ => Raise ValueError
            | _, _ => Ok (map (fun bv => fill_band (fun p => nth p (full (fst bv)) ENaN) good pix 0 masked (snd bv)) (combine bands sbs))
            end
        | _, _ => Ok sbs
        end
      else Ok sbs
  end).
(** One question and the state after it. *)
Definition ask (s : sky) (t : Q) (indx : option (list nat)) (bad : er) (bands : list string) (extrapolate : bool) : sky * res (list (list er)) :=
  match refresh s t with
  | (s', Raise e) => (s', Raise e)
  | (Broken lo hi e, Ok _) => (Broken lo hi e, Raise e)
  | (Ready k, Ok _) => (Ready k, mags k t indx bad bands extrapolate)
  end.
(** Any questions before. *)
Fixpoint asked (s : sky) (ts : list Q) : sky :=
  match ts with [] => s | t :: r => asked (fst (ask s t None (EFin unseen) [] false)) r end.
End Sky.
