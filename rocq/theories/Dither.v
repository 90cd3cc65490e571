(** Model of the dithering detailers.
    /repo/rubin_scheduler/scheduler/detailers/dither_detailer.py: DitherDetailer (30-129),
    DeltaCoordDitherDetailer (132-203), EuclidDitherDetailer (206-393), SplitDetailer (396-431),
    ComCamGridDitherDetailer (636-713); scheduler/features/features.py: NObsCount with per_night
    (177-230).  An offset is an element of any type; the offsets a seed gives are an input.
    Spherical geometry is an input. *)
From Coq Require Import List ZArith Bool String Reals.
From Verif Require Import Base.
Import ListNotations.
Open Scope Z_scope.

(** NObsCount(per_night=True), one visit at a time: lines 177-190, 212-219. *)
Record cnt := mkCnt { c_night : Z; c_n : nat }.
Definition cnt0 : cnt := mkCnt (-1) 0.
Definition cnt_add (c : cnt) (night : Z) : cnt :=
  let c1 := if Z.eqb night (c_night c) then c else mkCnt night 0 in mkCnt (c_night c1) (S (c_n c1)).

(** DitherDetailer.__init__ check and _new_ang_rad seed, lines 56-58 and 80-86 (36525 and
    sys.maxsize; default_rng refuses negative seeds). *)
Definition maxsize : Z := 9223372036854775807.
Definition big_int_ok (b : Z) : bool := (36525 <? b) && (b <? maxsize - 36525).
Definition dither_seed (big night : Z) : res Z :=
  let s := if night <? 0 then big + night else night in
  if s <? 0 then Raise ValueError else Ok s.

(** Python's [sub in x]. *)
Definition contains (x : string) (sub : string) : bool := match index 0 sub x with Some _ => true | None => false end.

Section Dithers.
Context {P : Type}.

(** The detailer's state: last night, the positions drawn for it, the feature. *)
Record dst := mkDst { d_night : option Z; d_pos : list P; d_cnt : cnt }.
Definition dst0 : dst := mkDst None [] cnt0.
Definition is_night (o : option Z) (n : Z) : bool := match o with Some k => Z.eqb k n | None => false end.

(** Numpy broadcasting of the offsets against n pointings, and the assignment back, lines
    118-126: one offset serves all, otherwise the sizes must agree. *)
Definition broadcast (os : list P) (n : nat) : res (list P) :=
  match os with
  | [o] => Ok (repeat o n)
  | _ => if Nat.eqb (List.length os) n then Ok os else Raise ValueError
  end.

(** _generate_offsets and __call__, lines 96-129.  [seeded]: the positions of a seed. *)
Definition dither_call (big : Z) (per_night : bool) (seeded : Z -> list P) (s : dst) (n : nat) (night : Z) : dst * res (list P) :=
  if Nat.eqb n 0 then (s, Ok [])
  else
    match (if is_night (d_night s) night then Ok s
           else bind (dither_seed big night) (fun k => Ok (mkDst (Some night) (seeded k) (d_cnt s)))) with
    | Raise e => (s, Raise e)
    | Ok s1 =>
        let os := if per_night then d_pos s1 else firstn n (skipn (c_n (d_cnt s1)) (d_pos s1)) in
        (s1, broadcast os n)
    end.
(** BaseDetailer.add_observation, detailer.py lines 88-100. *)
Definition dither_add (s : dst) (night : Z) : dst := mkDst (d_night s) (d_pos s) (cnt_add (d_cnt s) night).

(** A history of calls (n observations, night) and completed visits (night). *)
Inductive dev := DCall (n : nat) (night : Z) | DVisit (night : Z).
Fixpoint dither_run (big : Z) (per_night : bool) (seeded : Z -> list P) (s : dst) (l : list dev) : dst * list (res (list P)) :=
  match l with
  | [] => (s, [])
  | DVisit k :: r => dither_run big per_night seeded (dither_add s k) r
  | DCall n k :: r =>
      let '(s1, a) := dither_call big per_night seeded s n k in
      let '(s2, l2) := dither_run big per_night seeded s1 r in (s2, a :: l2)
  end.

(** SplitDetailer, lines 396-431: it has no features, so completed visits do not reach the two
    detailers; each is called with its share of the list. *)
Fixpoint merge {A} (mask : list bool) (xs ys : list A) : list A :=
  match mask with
  | [] => []
  | false :: m => match xs with x :: r => x :: merge m r ys | [] => merge m xs ys end
  | true :: m => match ys with y :: r => y :: merge m xs r | [] => merge m xs ys end
  end.
Definition split_call {A S1 S2} (d1 : S1 -> list A -> S1 * res (list A)) (d2 : S2 -> list A -> S2 * res (list A))
    (note : A -> string) (sub : string) (s : S1 * S2) (l : list A) : (S1 * S2) * res (list A) :=
  let mask := map (fun a => contains (note a) sub) l in
  let '(s1, r1) := d1 (fst s) (filter (fun a => negb (contains (note a) sub)) l) in
  match r1 with
  | Raise e => ((s1, snd s), Raise e)
  | Ok xs =>
      if negb (Nat.eqb (List.length xs) (List.length (filter negb mask)) || Nat.eqb (List.length xs) 1) then ((s1, snd s), Raise ValueError)
      else
        let xs' := match xs with [x] => repeat x (List.length (filter negb mask)) | _ => xs end in
        let '(s2, r2) := d2 (snd s) (filter (fun a => contains (note a) sub) l) in
        match r2 with
        | Raise e => ((s1, s2), Raise e)
        | Ok ys =>
            if negb (Nat.eqb (List.length ys) (List.length (filter (fun b => b) mask)) || Nat.eqb (List.length ys) 1) then ((s1, s2), Raise ValueError)
            else
              let ys' := match ys with [y] => repeat y (List.length (filter (fun b => b) mask)) | _ => ys end in
              ((s1, s2), Ok (merge mask xs' ys'))
        end
  end.
Definition split_add {S1 S2} (s : S1 * S2) (_ : Z) : S1 * S2 := s.
End Dithers.
Arguments dst0 {P}.
Arguments dst P : clear implicits.

(** DeltaCoordDitherDetailer, lines 147-203.  A row is position, desired rotSkyPos and the rest;
    [move]: the position moved by an offset. *)
Section Delta.
Context {Pos Off A : Type}.
Record crow := mkCrow { k_pos : Pos; k_rot : Z; k_rest : A }.
Definition delta_init (nra ndec : nat) (nrot : option nat) : res unit :=
  match nrot with
  | Some k => if Nat.eqb nra k then if Nat.eqb nra ndec then Ok tt else Raise ValueError else Raise ValueError
  | None => if Nat.eqb nra ndec then Ok tt else Raise ValueError
  end.
Definition delta_call (move : Pos -> Off -> Pos) (offs : list Off) (rots : option (list Z)) (l : list crow) : res (list crow) :=
  match l with
  | [] => Raise ValueError
  | _ => Ok (flat_map (fun r =>
      match rots with
      | None => map (fun o => mkCrow (move (k_pos r) o) (k_rot r) (k_rest r)) offs
      | Some rs => map (fun p => mkCrow (move (k_pos r) (fst p)) (k_rot r + snd p) (k_rest r)) (combine offs rs)
      end) l)
  end.
End Delta.

(** ComCamGridDitherDetailer._generate_offsets, lines 666-713: grid and dither index of each
    observation. *)
Fixpoint grid_from (prev : option string) (i : nat) (bands : list string) : list (nat * nat) :=
  match bands with
  | [] => []
  | b :: r =>
      let i1 := match prev with Some p => if String.eqb p b then i else O | None => O end in
      (Nat.modulo i1 4, Nat.modulo (Nat.div i1 4) 5) :: grid_from (Some b) (S i1) r
  end.
Definition grid_indices (bands : list string) : list (nat * nat) := grid_from None 0 bands.

(** EuclidDitherDetailer.__call__, lines 366-393, per night: the two shifted centres go to the
    observations whose note names them. *)
Definition euclid_seed (night : Z) : Z := if night <? 0 then Z.abs night else night.
Definition euclid_call {Pos : Type} (a b : Pos) (l : list (string * Pos)) : res (list (string * Pos)) :=
  if forallb (fun r => contains (fst r) "EDFS_a" || contains (fst r) "EDFS_b") l then
    Ok (map (fun r => (fst r, if contains (fst r) "EDFS_b" then b else if contains (fst r) "EDFS_a" then a else snd r)) l)
  else Raise ValueError.

(** gnomonic_project_tosky, utils/projections.py lines 17-23, the right ascension, for offsets
    with a positive denominator (arctan2 is then the arctangent of the quotient).
    DitherDetailer writes it to the observation without wrapping (lines 121-126). *)
Definition gnomonic_ra (x y ra dec : R) : R := (ra + atan (x / (cos dec - y * sin dec)))%R.
