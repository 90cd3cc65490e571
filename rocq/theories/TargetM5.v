(** Model of calc_target_m5s.
    /repo/rubin_scheduler/scheduler/detailers/vary_exptime.py lines 12-53.
    Degrees and magnitudes of the sky are rational, depths real (Seeing.v).  The dark sky is a list of
    pixels with their declination and, for each band, the value there; [None] is a nan.  The site's
    latitude is an input. *)
From Coq Require Import List Bool String ZArith QArith Qround Reals Qreals.
From Verif Require Import Base Seeing.
Import ListNotations.
Local Open Scope string_scope.
Open Scope list_scope.
Open Scope Q_scope.

(** A pixel of one band: declination and dark sky. *)
Record pixel := mkPx { px_dec : Q; px_sky : option Q }.

(** Lines 35-36. *)
Definition listed (lat dec : Q) : Q := let a := lat - dec + 90 in if Qltb 90 a then a - 90 else a.

(** The bin of five degrees, lines 37-38: closed below, the last one (17) closed at both ends
    (scipy.stats.binned_statistic); outside there is none. *)
Definition bin_of (a : Q) : option Z :=
  if Qeq_bool a 90 then Some 17%Z
  else if Qle_bool 0 a && Qltb a 90 then Some (Qfloor (a / 5)) else None.
Definition in_bin (i : Z) (a : Q) : bool := match bin_of a with Some j => Z.eqb i j | None => false end.
(** np.mean of a bin: nan when it is empty or holds a nan. *)
Fixpoint total (l : list (option Q)) : option Q :=
  match l with
  | [] => Some 0
  | None :: _ => None
  | Some x :: r => match total r with Some t => Some (x + t) | None => None end
  end.
Definition mean (l : list (option Q)) : option Q :=
  match l with
  | [] => None
  | _ => match total l with Some t => Some (t / inject_Z (Z.of_nat (List.length l))) | None => None end
  end.
(** Lines 41-45. *)
Definition bin_sky (lat : Q) (m : list pixel) (i : Z) : option Q :=
  mean (map px_sky (filter (fun p => Qltb 0 (listed lat (px_dec p)) && in_bin i (listed lat (px_dec p))) m)).
(** Line 39. *)
Definition mid (i : Z) : Q := 5 * inject_Z i + (5 # 2).
(** np.interp on the middles of the bins, line 46: the value of the end bins outside, the very value
    on a middle, straight in between; a nan on either side makes a nan. *)
Definition interp (f : Z -> option Q) (alt : Q) : option Q :=
  if Qle_bool alt (mid 0) then f 0%Z
  else if Qle_bool (mid 17) alt then f 17%Z
  else let j := Qfloor ((alt - (5 # 2)) / 5) in
       if Qeq_bool alt (mid j) then f j
       else match f j, f (j + 1)%Z with
            | Some a, Some b => Some ((b - a) / 5 * (alt - mid j) + a)
            | _, _ => None
            end.
Definition sky_at (lat : Q) (m : list pixel) (alt : Q) : option Q := interp (bin_sky lat m) alt.

(** Line 48. *)
Definition airmass_at (alt : Q) : R := (1 / cos (PI / 2 - Q2R alt * (PI / 180)))%R.
(** Lines 50-52 for a band; a nan of the sky is a nan of the depth, and a band that is not known a KeyError. *)
Definition goal (lat : Q) (m : list pixel) (band : string) (alt : Q) (seeing exptime : R) : res (option R) :=
  match sky_at lat m alt with
  | Some s => bind (m5_flat_sed band (Q2R s) seeing exptime (airmass_at alt) 1 0) (fun d => Ok (Some d))
  | None => bind (m5_flat_sed band 0 seeing exptime (airmass_at alt) 1 0) (fun _ => Ok None)
  end.
Fixpoint mapM {A B} (f : A -> res B) (l : list A) : res (list B) :=
  match l with [] => Ok [] | x :: r => bind (f x) (fun y => bind (mapM f r) (fun ys => Ok (y :: ys))) end.
(** The whole of it: a dictionary over the bands of the dark sky. *)
Definition targets (lat : Q) (dark : list (string * list pixel)) (alt : Q) (seeing exptime : R) : res (list (string * option R)) :=
  mapM (fun bm => bind (goal lat (snd bm) (fst bm) alt seeing exptime) (fun d => Ok (fst bm, d))) dark.
