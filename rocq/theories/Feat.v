(** Model of the survey features.
    /repo/rubin_scheduler/scheduler/features/features.py lines 116-913 and
    /repo/rubin_scheduler/utils/season_utils.py lines 10-101 (calc_season).

    Each feature is a pair of functions on its state: [.._one] for
    add_observation and [.._arr] for add_observations_array.  A map over the sky
    is a function of the pixel number.  The rows of observations_hpid are the
    visits repeated for each of their pixels, in the order of the visits.

    Not modelled: bandname given as a list of bands, seeing limits in
    NObservationsCurrentSeason, the difference between a one-row array and a
    single record as the value of LastObservation, warnings. *)
From Coq Require Import List ZArith QArith Qround Bool String Lia.
From Verif Require Import Base IntRounded Core Script Surveys.
Import ListNotations.
Open Scope nat_scope.

(** A visit with the pixels it overlaps (the argument indx). *)
Record fvis : Type := mkFv {
  fv_id : Z; fv_night : Z; fv_mjd : Q; fv_band : string; fv_note : string; fv_prog : string;
  fv_see : er; fv_depth : er; fv_ra : Q; fv_pix : list nat }.

Definition rows (l : list fvis) : list (fvis * nat) := flat_map (fun v => map (pair v) (fv_pix v)) l.

(** [b in bandname] for strings, with None matching everything. *)
Definition band_in (bn : option string) (v : fvis) : bool :=
  match bn with None => true | Some s => Script.contains (fv_band v) s end.
Definition band_is (bn : option string) (v : fvis) : bool :=
  match bn with None => true | Some s => String.eqb (fv_band v) s end.
(** [self.scheduler_note in note]. *)
Definition note_has (n : option string) (v : fvis) : bool :=
  match n with None => true | Some s => Script.contains s (fv_note v) end.

Definition is_pix (h : nat) (l : list nat) : bool := existsb (Nat.eqb h) l.
(** [feature[indx] += 1]: numpy adds once however often a pixel is listed. *)
Definition bump (f : nat -> Z) (l : list nat) (h : nat) : Z := if is_pix h l then (f h + 1)%Z else f h.
(** binned_statistic with np.sum of ones or np.size. *)
Definition n_rows (data : list (fvis * nat)) (h : nat) : Z :=
  Z.of_nat (List.length (filter (fun r => Nat.eqb (snd r) h) data)).

Definition last_opt {A} (l : list A) : option A := hd_error (rev l).

(** ** NoteInNight, lines 116-155 *)
Record nnst : Type := mkNn { nn_night : Z; nn_count : Z }.
Definition nn0 : nnst := mkNn (-100) 0.
(** [notes] is None for the default [[None]]. *)
Definition nn_match (notes : option (list string)) (v : fvis) : bool :=
  match notes with None => true | Some l => existsb (String.eqb (fv_note v)) l end.
Definition nn_one (notes : option (list string)) (s : nnst) (v : fvis) : nnst :=
  let s1 := if (nn_night s =? fv_night v)%Z then s else mkNn (fv_night v) 0 in
  if nn_match notes v then mkNn (nn_night s1) (nn_count s1 + 1) else s1.
Definition nn_arr (notes : option (list string)) (s : nnst) (l : list fvis) : res nnst :=
  match last_opt l with
  | None => Raise IndexError
  | Some w =>
      let s1 := if (nn_night s =? fv_night w)%Z then s else mkNn (fv_night w) 0 in
      Ok (fold_left (fun a v => if nn_match notes v then mkNn (nn_night a) (nn_count a + 1) else a)
                    (filter (fun v => (fv_night v =? fv_night w)%Z) l) s1)
  end.

(** ** NObsCount, lines 158-230 *)
Definition nc_note (n : option string) : option string :=
  match n with Some EmptyString => None | _ => n end.
Definition zmax_list (z : Z) (l : list Z) : Z := fold_left Z.max l z.
Definition nc0 : nnst := mkNn (-1) 0.
Definition nc_one (note bn : option string) (per_night : bool) (s : nnst) (v : fvis) : nnst :=
  let s1 := if per_night && negb (fv_night v =? nn_night s)%Z then mkNn (fv_night v) 0 else s in
  if note_has (nc_note note) v && band_in bn v then mkNn (nn_night s1) (nn_count s1 + 1) else s1.
Definition nc_arr (note bn : option string) (per_night : bool) (s : nnst) (l : list fvis) : res nnst :=
  bind (if per_night then
          match map fv_night l with
          | [] => Raise ValueError
          | z :: r => let m := zmax_list z r in Ok (mkNn m (nn_count s), filter (fun v => (fv_night v =? m)%Z) l)
          end
        else Ok (s, l)) (fun p =>
  let good := filter (fun v => note_has (nc_note note) v && band_is bn v) (snd p) in
  Ok (mkNn (nn_night (fst p)) (nn_count (fst p) + Z.of_nat (List.length good)))).

(** ** LastObservation, lines 233-272, and LastObservationMjd, lines 755-795 *)
Definition lo_match (note bn : option string) (v : fvis) : bool := note_has note v && band_is bn v.
Definition lo_one (note bn : option string) (s : option fvis) (v : fvis) : option fvis :=
  if lo_match note bn v then Some v else s.
Definition lo_arr (note bn : option string) (s : option fvis) (l : list fvis) : res (option fvis) :=
  Ok (match last_opt (filter (lo_match note bn) l) with None => s | Some v => Some v end).

(** ** LastObservedMatching, lines 663-712 *)
(** [pos] holds the distance of each visit from the position asked for and the
    largest distance allowed. *)
Definition om_text (prog note : option string) (v : fvis) : bool :=
  (match prog with None => true | Some s => String.eqb (fv_prog v) s end) &&
  (match note with None => true | Some s => String.eqb (fv_note v) s end).
Definition om_one (prog note : option string) (pos : option ((fvis -> Q) * Q)) (s : option fvis) (v : fvis) : option fvis :=
  if om_text prog note v && match pos with None => true | Some (d, lim) => negb (Qle_bool lim (d v)) end then Some v else s.
Definition om_arr (prog note : option string) (pos : option ((fvis -> Q) * Q)) (s : option fvis) (l : list fvis) : res (option fvis) :=
  let good := filter (fun v => om_text prog note v && match pos with None => true | Some (d, lim) => Qle_bool (d v) lim end) l in
  Ok (match last_opt good with None => s | Some v => Some v end).

(** ** NObservations, lines 275-374 *)
Inductive seelim : Type := LNone | LScalar (x : Q) | LMap (m : nat -> Q).
Definition see_val (fill : Q) (v : fvis) : Q := match fv_see v with EFin q => q | _ => fill end.
(** [name in self.scheduler_note]: the note of the visit is part of the feature's. *)
Definition note_within (n : option string) (v : fvis) : bool :=
  match n with None => true | Some s => Script.contains (fv_note v) s end.
Definition any_true (l : list bool) : bool := existsb (fun b => b) l.
Definition no_one (note bn : option string) (lim : seelim) (fill : Q) (f : nat -> Z) (v : fvis) : res (nat -> Z) :=
  bind (match lim with
        | LNone => Ok true
        | LScalar x => bind (ir_le [see_val fill v] [x]) (fun b => Ok (any_true b))
        | LMap m => bind (ir_le [see_val fill v] (map m (fv_pix v))) (fun b => Ok (any_true b))
        end) (fun ok =>
  Ok (if band_in bn v && ok && note_within note v then bump f (fv_pix v) else f)).
Definition no_arr (note bn : option string) (lim : seelim) (fill : Q) (f : nat -> Z) (l : list fvis) : res (nat -> Z) :=
  let rs := rows l in
  bind (match lim with
        | LNone => Ok (map (fun _ => false) rs)
        | LScalar x => ir_ge (map (fun r => see_val fill (fst r)) rs) [x]
        | LMap m => ir_ge (map (fun r => see_val fill (fst r)) rs) (map (fun r => m (snd r)) rs)
        end) (fun bad =>
  let data := map fst (filter (fun p => negb (snd p) && band_is bn (fst (fst p)) && note_within note (fst (fst p))) (combine rs bad)) in
  Ok (fun h => (f h + n_rows data h)%Z)).

(** ** LastNObsTimes, lines 377-428: the times of the last [n] visits, latest first *)
Definition lt0 (n : nat) (h : nat) : list Q := repeat 0%Q (Nat.max 1 n).
Definition lt_one (bn : option string) (f : nat -> list Q) (v : fvis) (h : nat) : list Q :=
  if band_in bn v && is_pix h (fv_pix v) then firstn (List.length (f h)) (fv_mjd v :: f h) else f h.
Definition lt_arr (bn : option string) (n : nat) (f : nat -> list Q) (l : list fvis) : res (nat -> list Q) :=
  let data := filter (fun r => band_is bn (fst r)) (rows l) in
  Ok (match data with
      | [] => f
      | _ => fun h =>
          let times := rev (map (fun r => fv_mjd (fst r)) (filter (fun r => Nat.eqb (snd r) h) data)) in
          map (fun i => nth i times 0%Q) (seq 0 n) ++ skipn n (f h)
      end).

(** ** LastObserved, lines 715-752.  None stands for the fill value. *)
Definition qmax_list (q : Q) (l : list Q) : Q := fold_left (fun a x => if Qltb a x then x else a) l q.
Definition ld_one (bn : option string) (f : nat -> option Q) (v : fvis) (h : nat) : option Q :=
  if band_in bn v && is_pix h (fv_pix v) then Some (fv_mjd v) else f h.
Definition ld_arr (bn : option string) (f : nat -> option Q) (l : list fvis) : res (nat -> option Q) :=
  let data := filter (fun r => band_is bn (fst r)) (rows l) in
  Ok (fun h => match map (fun r => fv_mjd (fst r)) (filter (fun r => Nat.eqb (snd r) h) data) with
               | [] => f h
               | q :: r => let m := qmax_list q r in if Qltb 0 m then Some m else f h
               end).

(** ** NObsNight, lines 798-842 *)
Record nbst : Type := mkNb { nb_night : option Z; nb_map : nat -> Z }.
Definition nb0 : nbst := mkNb None (fun _ => 0%Z).
Definition zopt_eqb (o : option Z) (z : Z) : bool := match o with Some x => (x =? z)%Z | None => false end.
Definition nb_one (bn : option string) (s : nbst) (v : fvis) : nbst :=
  let s1 := if zopt_eqb (nb_night s) (fv_night v) then s else mkNb (Some (fv_night v)) (fun _ => 0%Z) in
  let all := match bn with None => true | Some EmptyString => true | _ => false end in
  if all || band_in bn v then mkNb (nb_night s1) (bump (nb_map s1) (fv_pix v)) else s1.
Definition nb_arr (bn : option string) (s : nbst) (l : list fvis) : res nbst :=
  match map fv_night l with
  | [] => Raise ValueError
  | z :: r =>
      let m := zmax_list z r in
      let s1 := if zopt_eqb (nb_night s) m then s else mkNb (Some m) (fun _ => 0%Z) in
      let data := filter (fun r => band_is bn (fst r) && (fv_night (fst r) =? m)%Z) (rows l) in
      Ok (mkNb (nb_night s1) (fun h => (nb_map s1 h + n_rows data h)%Z))
  end.

(** ** Seasons *)
Definition yr : Q := 1461 # 4.
Definition ref_time : Q := 60940.
Definition ref_sun : Q := 17898403541421598 # 100000000000000.
(** [calc_season], season_utils.py lines 62-83, for one right ascension (degrees)
    and one time. *)
Definition season_began (ra start : Q) : Q :=
  let b := (ref_time + (ra - ref_sun) / 360 * yr)%Q in
  (b - inject_Z (Qfloor ((b - start) / yr)) * yr)%Q.
Definition calc_season (ra mjd start : Q) : Q := ((mjd - season_began ra start) / yr)%Q.

(** ** NObservationsCurrentSeason, lines 431-660 *)
Section Season.
Variable pix_ra : nat -> Q.      (* right ascension of the pixels, degrees *)
Variable dark : nat -> er.       (* dark sky map *)
Variable start : Q.              (* mjd_start *)
Variable bn : option string.
Variable m5max : option Q.       (* disregarded when bandname is None *)

Record csst : Type := mkCs { cs_mjd : Q; cs_season : nat -> Z; cs_map : nat -> Z }.
Definition season_map (h : nat) : Q := calc_season (pix_ra h) start start.
Definition cs0 : csst := mkCs start (fun h => Qfloor (season_map h)) (fun _ => 0%Z).
(** Season of pixel [h] at time [t]. *)
Definition pix_season (h : nat) (t : Q) : Z := Qfloor (season_map h + (t - start) / yr).

(** [season_update], lines 504-565. *)
Definition season_update (s : csst) (t : Q) : csst :=
  if Qltb t (cs_mjd s) then s
  else mkCs t (fun h => pix_season h t)
            (fun h => if (cs_season s h <? pix_season h t)%Z then 0%Z else cs_map s h).

(** [dark_map - fivesigmadepth]; the dark map is finite or NaN. *)
Definition penalty (v : fvis) (h : nat) : er :=
  match dark h, fv_depth v with
  | ENaN, _ | _, ENaN => ENaN
  | EFin a, EFin b => EFin (a - b)
  | _, EPInf => ENInf
  | _, ENInf => EPInf
  | x, EFin _ => x
  end.
Definition m5_limit : option Q := match bn with None => None | Some _ => m5max end.
Definition cs_one (s : csst) (v : fvis) : csst :=
  let s1 := season_update s (fv_mjd v) in
  let ps := filter (fun h => (pix_season h (fv_mjd v) =? cs_season s1 h)%Z) (fv_pix v) in
  if band_is bn v then
    let ps2 := match m5_limit with
               | None => ps
               | Some x => filter (fun h => er_ltb (penalty v h) (EFin x) || er_eqb (penalty v h) (EFin x)) ps
               end in
    mkCs (cs_mjd s1) (cs_season s1) (bump (cs_map s1) ps2)
  else s1.

Definition cs_arr (s : csst) (l : list fvis) : res csst :=
  match last_opt l with
  | None => Raise IndexError
  | Some w =>
      let s1 := season_update s (fv_mjd w) in
      let good := filter (fun r =>
        band_is bn (fst r) &&
        (Qfloor (calc_season (fv_ra (fst r)) (fv_mjd (fst r)) start) =? cs_season s1 (snd r))%Z &&
        match m5_limit with
        | None => true
        | Some x => negb (er_ltb (EFin x) (penalty (fst r) (snd r)))
        end) (rows l) in
      (* line 615: np.sum of the pixel numbers *)
      if Nat.eqb (list_sum (map snd good)) 0 then Ok s1
      else Ok (mkCs (cs_mjd s1) (cs_season s1) (fun h => (cs_map s1 h + n_rows good h)%Z))
  end.
End Season.

(** ** PairInNight, lines 845-913 *)
Record pnst : Type := mkPn { pn_night : Z; pn_map : nat -> Z; pn_log : list (Q * nat) }.
Definition pn0 : pnst := mkPn 0 (fun _ => 0%Z) [].

(** Lines 883-913.  [infilt] is the outcome of the band test; gaps in days. *)
Definition pn_one (gmin gmax : Q) (s : pnst) (infilt : bool) (night : Z) (mjd : Q) (pix : list nat) : res pnst :=
  if infilt then
    let s1 := if (pn_night s =? night)%Z then s else mkPn night (fun _ => 0%Z) [] in
    let diffs := map (fun e => (mjd - fst e)%Q) (pn_log s1) in
    bind (ir_gt diffs [gmin]) (fun above =>
    bind (ir_lt diffs [gmax]) (fun below =>
    let idx := np_where (fun p => fst p && snd p) (combine above below) in
    let f := match idx with
             | [] => pn_map s1
             | lft :: _ =>
                 let right := S (last idx lft) in
                 let seen := map snd (firstn (right - lft) (skipn lft (pn_log s1))) in
                 bump (pn_map s1) (filter (fun h => is_pix h seen) pix)
             end in
    Ok (mkPn (pn_night s1) f (pn_log s1 ++ map (pair mjd) pix))))
  else Ok s.
Definition pn_single (bn : option string) (gmin gmax : Q) (s : pnst) (v : fvis) : res pnst :=
  pn_one gmin gmax s (band_in bn v) (fv_night v) (fv_mjd v) (fv_pix v).

(** A single row of the array: [observation["band"][0]] is then the first
    character of the band. *)
Definition first_char (s : string) : string := match s with EmptyString => EmptyString | String a _ => String a EmptyString end.
Definition row_in (bn : option string) (v : fvis) : bool :=
  match bn with None => true | Some s => Script.contains (first_char (fv_band v)) s end.

Fixpoint zins_u (z : Z) (l : list Z) : list Z :=
  match l with
  | [] => [z]
  | y :: r => if (z <? y)%Z then z :: l else if (z =? y)%Z then l else y :: zins_u z r
  end.
Definition uids (l : list Z) : list Z := fold_right zins_u [] l.

(** Lines 870-881: positions found in the rows of the last night are looked up in
    all rows. *)
Definition pn_arr (bn : option string) (gmin gmax : Q) (s : pnst) (l : list fvis) : res pnst :=
  let rs := rows l in
  match map (fun r => fv_night (fst r)) rs with
  | [] => Raise ValueError
  | z :: r =>
      let m := zmax_list z r in
      let recent := filter (fun r => (fv_night (fst r) =? m)%Z) rs in
      fold_left (fun acc i =>
        bind acc (fun a =>
        let good := np_where (fun r => (fv_id (fst r) =? i)%Z) recent in
        let picked := flat_map (fun k => match nth_error rs k with Some r => [r] | None => [] end) good in
        match picked with
        | [] => Raise IndexError
        | p :: _ => pn_one gmin gmax a (row_in bn (fst p)) (fv_night (fst p)) (fv_mjd (fst p)) (map snd picked)
        end)) (uids (map (fun r => fv_id (fst r)) recent)) (Ok s)
  end.
