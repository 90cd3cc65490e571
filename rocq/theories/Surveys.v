(** Model of the base, deep drilling and field surveys.
    /repo/rubin_scheduler/scheduler/surveys/base_survey.py lines 191-316,
    /repo/rubin_scheduler/scheduler/surveys/dd_surveys.py lines 48-173 and
    /repo/rubin_scheduler/scheduler/surveys/field_survey.py lines 71-260.

    Basis functions are arbitrary: a basis function is given by its feasibility
    and its value as functions of the conditions.  Reward maps are arrays of
    extended numbers; arrays of length one are not broadcast. *)
From Coq Require Import List ZArith QArith Bool String Ascii Lia Permutation Sorted.
From Verif Require Import Base IntRounded Obs Queue Core.
From Verif Require Script.
Import ListNotations.
Open Scope nat_scope.

(** ** Float arithmetic on rewards *)

(** IEEE addition. *)
Definition er_add (x y : er) : er :=
  match x, y with
  | ENaN, _ | _, ENaN => ENaN
  | ENInf, EPInf | EPInf, ENInf => ENaN
  | ENInf, _ | _, ENInf => ENInf
  | EPInf, _ | _, EPInf => EPInf
  | EFin a, EFin b => EFin (a + b)
  end.

(** IEEE multiplication with a finite weight. *)
Definition er_scale (x : er) (w : Q) : er :=
  match x with
  | ENaN => ENaN
  | EFin a => EFin (a * w)
  | ENInf => if Qltb 0 w then ENInf else if Qltb w 0 then EPInf else ENaN
  | EPInf => if Qltb 0 w then EPInf else if Qltb w 0 then ENInf else ENaN
  end.

(** A reward: a Python scalar or a map. *)
Inductive val : Type := VS (x : er) | VM (l : list er).
Definition vlist (v : val) : list er := match v with VS x => [x] | VM l => l end.

Definition vscale (v : val) (w : Q) : val :=
  match v with VS x => VS (er_scale x w) | VM l => VM (map (fun x => er_scale x w) l) end.

Fixpoint zip_add (l1 l2 : list er) : res (list er) :=
  match l1, l2 with
  | [], [] => Ok []
  | x :: r1, y :: r2 => bind (zip_add r1 r2) (fun r => Ok (er_add x y :: r))
  | _, _ => Raise ValueError   (* operands could not be broadcast together *)
  end.
Definition vadd (a b : val) : res val :=
  match a, b with
  | VS x, VS y => Ok (VS (er_add x y))
  | VS x, VM l => Ok (VM (map (er_add x) l))
  | VM l, VS y => Ok (VM (map (fun x => er_add x y) l))
  | VM l, VM m => bind (zip_add l m) (fun r => Ok (VM r))
  end.

Section Survey.
Variable W : Type.   (* everything in the conditions not listed below *)

(** The conditions: mjd, mounted_bands, current_band. *)
Record scond : Type := mkSc { sc_mjd : Q; sc_mounted : list string; sc_band : string; sc_ext : W }.

(** A basis function: check_feasibility and __call__. *)
Record bfun : Type := mkBf { bf_feas : scond -> bool; bf_val : scond -> val }.

(** [BaseSurvey._check_feasibility], base_survey.py lines 263-276. *)
Fixpoint feasible (bs : list bfun) (c : scond) : bool :=
  match bs with
  | [] => true
  | b :: r => if bf_feas b c then feasible r c else false
  end.

(** [BaseSurvey.calc_reward_function], lines 278-296. *)
Definition base_reward (bs : list bfun) (c : scond) : val :=
  if feasible bs c then VS (EFin 0) else VS ENInf.

(** The weighted sum of the basis functions, field_survey.py lines 232-235 and
    base_survey.py lines 722-728. *)
Fixpoint wsum (acc : val) (l : list (bfun * Q)) (c : scond) : res val :=
  match l with
  | [] => Ok acc
  | (b, w) :: r => bind (vadd acc (vscale (bf_val b c) w)) (fun a => wsum a r c)
  end.

(** [generate_observations] lines 311-316: detailers see nonempty results only. *)
Definition run_detailers (ds : list (list obs -> scond -> list obs)) (l : list obs) (c : scond) : list obs :=
  fold_left (fun a d => d a c) ds l.
Definition detail (ds : list (list obs -> scond -> list obs)) (g : genres) (c : scond) : genres :=
  match g with
  | GArr (x :: l) => GArr (run_detailers ds (x :: l) c)
  | _ => g
  end.

(** ** Shared pieces *)
Definition set_flush (f : Q) (o : obs) : obs :=
  mkObs (o_id o) (o_tid o) (o_mjd o) (o_night o) f (o_ra o) (o_dec o) (o_rsp o)
        (o_exptime o) (o_nexp o) (o_band o) (o_filter o) (o_note o).

(** [ObservationArray()]: one row of zeros and empty strings. *)
Definition blank : obs := mkObs 0 0 0 0 0 0 0 0 0 0 "" "" "".
Definition entry (band : string) (ra dec exptime : Q) (nexp : Z) (note : string) : obs :=
  mkObs 0 0 0 0 0 ra dec 0 exptime nexp band "" note.

(** np.size(np.unique(band)) *)
Definition n_bands (l : list obs) : nat := List.length (nodup string_dec (map o_band l)).
Definition Qsum (l : list Q) : Q := fold_right Qplus 0%Q l.
Definition mounted (c : scond) (o : obs) : bool := existsb (String.eqb (o_band o)) (sc_mounted c).

(** ** Deep drilling surveys *)
Record ddf : Type := mkDdf {
  dd_bfs : list bfun;
  dd_value : option er;      (* reward_value *)
  dd_obs : list obs;         (* observations, in the order they are kept *)
  dd_approx : Q;             (* approx_time, days *)
  dd_pad : Q                 (* flush_pad, days *)
}.

(** The characters of a str sequence as bands. *)
Definition chars (s : string) : list string := map (fun a => String a EmptyString) (list_ascii_of_string s).

(** dd_surveys.py lines 85-99: a str sequence with its visit counts; zip stops
    at the shorter of the two. *)
Definition dd_expand (ra dec exptime u_exptime : Q) (nexp : Z) (name : string)
    (nvis : list Z) (sequence : list string) : list obs :=
  flat_map (fun p => repeat (entry (snd p) ra dec (if String.eqb (snd p) "u" then u_exptime else exptime) nexp name)
                       (Z.to_nat (fst p)))
    (combine nvis sequence).

(** dd_surveys.py lines 103-116.  [order] is what indexing with
    [np.argsort(observations["band"])] does; numpy's default sort is not stable,
    so theorems take any [order] that sorts.  np.concatenate of an empty list
    raises ValueError. *)
Definition dd_new (order : list obs -> list obs) (bs : list bfun) (value : option er) (readtime band_change_time flush_pad : Q)
    (sequence : list obs) : res ddf :=
  match sequence with
  | [] => Raise ValueError
  | _ =>
      let l := order sequence in
      let approx := (Qsum (map (fun o => o_exptime o + readtime * inject_Z (o_nexp o)) l) / 3600 / 24
                     + band_change_time * inject_Z (Z.of_nat (n_bands l)) / 3600 / 24)%Q in
      Ok (mkDdf bs value l approx (flush_pad / 60 / 24))
  end.

(** [calc_reward_function], lines 144-155; [ntot] and [nsurvey] are the counts of
    the two NObsCount features. *)
Definition dd_reward (s : ddf) (ntot nsurvey : Z) (c : scond) : val :=
  if feasible (dd_bfs s) c then
    match dd_value s with
    | Some v => VS v
    | None => VS (EFin (inject_Z ntot / inject_Z (nsurvey + 1)))
    end
  else VS ENInf.

(** [generate_observations_rough], lines 157-173. *)
Definition dd_generate (s : ddf) (c : scond) : genres :=
  if feasible (dd_bfs s) c then
    let r := map (set_flush (sc_mjd c + dd_approx s + dd_pad s)) (dd_obs s) in
    let r := filter (mounted c) r in
    let first := filter (fun o => String.eqb (o_band o) (sc_band c)) r in
    let rest := filter (fun o => negb (String.eqb (o_band o) (sc_band c))) r in
    GArr (first ++ rest)
  else GPyList.

(** ** Field surveys *)
Record field : Type := mkField {
  fd_bfs : list (bfun * Q);   (* basis functions with their weights *)
  fd_obs : list obs;
  fd_approx : Q;
  fd_pad : Q;
  fd_indx : nat               (* the pixel of the field *)
}.

(** A setting given per band or as one number for all bands, field_survey.py
    lines 152-158. *)
Inductive perband (A : Type) : Type := PAll (x : A) | PDict (d : list (string * A)).
Arguments PAll {A}. Arguments PDict {A}.
Fixpoint lookup {A} (d : list (string * A)) (k : string) : res A :=
  match d with
  | [] => Raise KeyError
  | (k', v) :: r => if String.eqb k k' then Ok v else lookup r k
  end.
Definition per {A} (p : perband A) (b : string) : res A :=
  match p with PAll x => Ok x | PDict d => lookup d b end.

(** Lines 161-171: for each band its visits. *)
Fixpoint fd_expand (ra dec : Q) (note : string) (nvisits : perband Z) (exptimes : perband Q) (nexps : perband Z)
    (sequence : list string) : res (list obs) :=
  match sequence with
  | [] => Ok []
  | b :: r =>
      bind (per nvisits b) (fun n =>
      bind (if (n <=? 0)%Z then Ok [] else
              bind (per exptimes b) (fun t => bind (per nexps b) (fun x =>
              Ok (repeat (entry b ra dec t x note) (Z.to_nat n))))) (fun l =>
      bind (fd_expand ra dec note nvisits exptimes nexps r) (fun l' => Ok (l ++ l'))))
  end.

(** Lines 146-193 for a given list of visits: missing bands are filled from the
    filter column, the duration is estimated. *)
Definition fd_new (bs : list bfun) (readtime band_change_time flush_pad : Q) (indx : nat) (sequence : list obs) : res field :=
  match sequence with
  | [] => Raise ValueError
  | _ =>
      let l := map backfill_band sequence in
      let seconds := (Qsum (map (fun o => o_exptime o + readtime * inject_Z (o_nexp o)) l)
                      + band_change_time * inject_Z (Z.of_nat (n_bands l)))%Q in
      let w := (1 / inject_Z (Z.of_nat (List.length bs)))%Q in
      Ok (mkField (map (fun b => (b, w)) bs) l (seconds / (3600 / 24)) (flush_pad / 60 / 24) indx)
  end.

(** [calc_reward_function], lines 228-246.  A map is read at the pixel of the
    field; an infinite value there becomes +inf. *)
Definition fd_reward (s : field) (c : scond) : res val :=
  if feasible (map fst (fd_bfs s)) c then
    bind (wsum (VS (EFin 0)) (fd_bfs s) c) (fun v =>
    match v with
    | VS x => Ok (VS x)
    | VM l => match nth_error l (fd_indx s) with
              | None => Raise IndexError
              | Some ENInf => Ok (VS EPInf)
              | Some x => Ok (VS x)
              end
    end)
  else Ok (VS ENInf).

(** [generate_observations_rough], lines 248-260. *)
Definition fd_generate (s : field) (c : scond) : genres :=
  if feasible (map fst (fd_bfs s)) c then
    GArr (filter (mounted c) (map (set_flush (sc_mjd c + fd_approx s + fd_pad s)) (fd_obs s)))
  else GPyList.

End Survey.
Arguments PAll {A}. Arguments PDict {A}.
Arguments mkSc {W}. Arguments sc_mjd {W}. Arguments sc_mounted {W}. Arguments sc_band {W}. Arguments sc_ext {W}.
Arguments mkBf {W}. Arguments bf_feas {W}. Arguments bf_val {W}.
Arguments feasible {W}. Arguments base_reward {W}. Arguments wsum {W}. Arguments detail {W}. Arguments run_detailers {W}.
Arguments mounted {W}. Arguments dd_bfs {W}. Arguments dd_value {W}. Arguments dd_obs {W}. Arguments dd_approx {W}. Arguments dd_pad {W}.
Arguments mkDdf {W}. Arguments dd_new {W}. Arguments dd_reward {W}. Arguments dd_generate {W}.
Arguments mkField {W}. Arguments fd_bfs {W}. Arguments fd_obs {W}. Arguments fd_approx {W}. Arguments fd_pad {W}. Arguments fd_indx {W}.
Arguments fd_new {W}. Arguments fd_reward {W}. Arguments fd_generate {W}.

(** ** Ignored observations *)

(** np.strings.find / np.char.find different from -1. *)
Notation contains := Script.contains.

(** [check_good_note], base_survey.py lines 224-242. *)
Definition good_note (ignore : list string) (o : obs) : bool :=
  negb (existsb (fun ig => contains ig (o_note o)) ignore).

(** [add_observation], lines 258-261: what is passed on to the features, basis
    functions and detailers of the survey. *)
Definition sub_single (ignore : list string) (o : obs) : list obs :=
  if good_note ignore o then [o] else [].

(** [add_observations_array], lines 207-222: the visits and the (visit, pixel)
    rows passed on, None when nothing is.  [sort]/[sortp] sort by mjd. *)
Definition sub_batch (sort : list obs -> list obs) (sortp : list (obs * Z) -> list (obs * Z))
    (ignore : list string) (l : list obs) (lp : list (obs * Z)) : option (list obs * list (obs * Z)) :=
  let keep := fun (acc : list obs * list (obs * Z)) ig =>
    (filter (fun o => negb (contains ig (o_note o))) (fst acc),
     filter (fun p => negb (contains ig (o_note (fst p)))) (snd acc)) in
  let r := fold_left keep ignore (sort l, sortp lp) in
  match fst r with [] => None | _ => Some r end.
