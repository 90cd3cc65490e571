(** Model of the band swap schedulers.
    /repo/rubin_scheduler/scheduler/schedulers/filter_scheduler.py. *)
From Coq Require Import List ZArith QArith Bool String Lia Lqa.
From Verif Require Import Base IntRounded Bisect.
Import ListNotations.
Local Open Scope string_scope.
Open Scope nat_scope.

(** A set of loaded bands, a Python list of one-letter strings. *)
Notation bands := (list string) (only parsing).

(** What the band schedulers read from the conditions: the moon illumination at
    sunset (percent), the time (MJD, TAI) and the bands mounted now. *)
Record bcond : Type := mkBc { bc_moon : Q; bc_mjd : Q; bc_mounted : list string }.

(** [IntRounded(moon) > limit] on two numbers, lines 55 and 128. *)
Definition brighter (moon limit : Q) : bool :=
  match ir_gt [moon] [limit] with Ok [b] => b | _ => false end.

(** [SimpleBandSched.__call__], lines 54-59. *)
Definition simple_sched (limit : Q) (c : bcond) : bands :=
  if brighter (bc_moon c) limit then ["g"; "r"; "i"; "z"; "y"] else ["u"; "g"; "r"; "i"; "z"].

(** [ComCamBandSched.__init__], lines 86-96: the table is accepted or refused. *)
Definition comcam_init (groups : list bands) (bins : list Q) : res (list bands * list Q) :=
  if Z.ltb (Z.of_nat (List.length groups)) (Z.of_nat (List.length bins) - 1) then Raise ValueError
  else Ok (groups, bins).

(** [conditions.moon_phase_sunset] is a number or an array (lines 99-104). *)
Inductive moonval : Type := MNum (q : Q) | MArr (l : list Q).

(** [ComCamBandSched.__call__], lines 98-108.  An empty array reaches
    [np.max([0, []])], a ValueError. *)
Definition comcam_sched (groups : list bands) (bins : list Q) (m : moonval) : res bands :=
  match (match m with MNum q => Some q | MArr (q :: _) => Some q | MArr [] => None end) with
  | None => Raise ValueError
  | Some q =>
      let indx := searchsorted (fun b => Qltb b q) 0%Q bins in
      let indx := Z.to_nat (Z.max 0 (Z.of_nat indx - 1)) in
      match nth_error groups indx with Some g => Ok g | None => Raise IndexError end
  end.

(** [list != list] on lists of strings. *)
Fixpoint bands_eqb (a b : list string) : bool :=
  match a, b with
  | [], [] => true
  | x :: r, y :: s => String.eqb x y && bands_eqb r s
  | _, _ => false
  end.

(** [BandSchedUzy], lines 111-136: the state is [last_swap]. *)
Definition uzy_bright : bands := ["g"; "r"; "i"; "z"; "y"].
Definition uzy_dark (i : nat) : bands :=
  if Nat.even i then ["u"; "g"; "r"; "i"; "y"] else ["u"; "g"; "r"; "i"; "z"].
Definition uzy_call (limit : Q) (n : nat) (c : bcond) : nat * bands :=
  if brighter (bc_moon c) limit then (n, uzy_bright)
  else let r := uzy_dark n in
       ((if bands_eqb r (bc_mounted c) then n else S n), r).

(** A [dict] from day to bands.  A key "YYYY-MM-DD" is its MJD day number, so
    [time_to_key] and [key_to_time] (lines 11-16) are inverse to each other; the
    time of a key is noon (TAI) of that day. *)
Notation table := (list (Z * list string)) (only parsing).
Definition noon (k : Z) : Q := (inject_Z k + (1 # 2))%Q.
Fixpoint dict_set (k : Z) (v : bands) (t : table) : table :=
  match t with
  | [] => [(k, v)]
  | (k', v') :: r => if Z.eqb k' k then (k, v) :: r else (k', v') :: dict_set k v r
  end.
Definition dict_update (t u : table) : table := fold_left (fun acc kv => dict_set (fst kv) (snd kv) acc) u t.
Fixpoint dict_get (k : Z) (t : table) : res bands :=
  match t with
  | [] => Raise KeyError
  | (k', v) :: r => if Z.eqb k' k then Ok v else dict_get k r
  end.

(** [np.sort] of the times (one per key). *)
Fixpoint t_insert (x : Z) (l : list Z) : list Z :=
  match l with [] => [x] | y :: r => if Z.leb x y then x :: l else y :: t_insert x r end.
Fixpoint t_sort (l : list Z) : list Z :=
  match l with [] => [] | x :: r => t_insert x (t_sort r) end.

(** [DateSwapBandScheduler.__init__], lines 158-212: entries of the built-in past
    table [prev] strictly before the earliest new entry are kept, the new table is
    laid over them.  An empty new table makes [min()] raise. *)
Definition date_init (prev new : table) : res (table * list Z) :=
  match t_sort (map fst new) with
  | [] => Raise ValueError
  | first :: _ =>
      let keep := filter (fun k => Qltb (noon k) (noon first)) (t_sort (map fst prev)) in
      let kept := flat_map (fun k => match dict_get k prev with Ok v => [(k, v)] | Raise _ => [] end) keep in
      let t := dict_update kept new in
      Ok (t, t_sort (map fst t))
  end.

(** The past table written in the code, lines 168-182, and the one used when no
    table is given, lines 186-191; MJD 60846 is 2025-06-20. *)
Definition past_table : table :=
  [ (60846%Z, ["u"; "g"; "r"; "i"; "z"]); (60857%Z, ["g"; "r"; "i"; "z"]); (60860%Z, ["g"; "r"; "i"; "z"; "y"]);
    (60866%Z, ["z"]); (60867%Z, ["g"; "r"; "i"; "z"; "y"]); (60871%Z, ["u"; "g"; "r"; "i"; "z"]);
    (60884%Z, ["u"; "r"; "i"; "z"]); (60894%Z, ["r"; "i"; "z"; "y"]); (60899%Z, ["g"; "r"; "i"; "z"]) ].
Definition default_table : table := [(60899%Z, ["g"; "r"; "i"; "z"])].

(** [DateSwapBandScheduler.__call__], lines 214-223.  [end_date] is given as a TAI
    MJD; the backup scheduler is any function of the conditions. *)
Definition date_call (t : table) (times : list Z) (end_date : Q) (backup : bcond -> res bands) (c : bcond) : res bands :=
  if Qltb (bc_mjd c) end_date then
    match rev (filter (fun k => Qle_bool (noon k) (bc_mjd c)) times) with
    | [] => Raise IndexError
    | k :: _ => dict_get k t
    end
  else backup c.

(** The scheduler as a user builds and calls it. *)
Definition date_sched (prev new : table) (end_date : Q) (backup : bcond -> res bands) (c : bcond) : res bands :=
  bind (date_init prev new) (fun s => date_call (fst s) (snd s) end_date backup c).
