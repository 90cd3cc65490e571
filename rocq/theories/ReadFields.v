(** Positions of fields read from a file of numbers.
    /repo/rubin_scheduler/site_models/read_fields.py, on real numbers.  The file is the list
    of its numbers, one to a line, as np.genfromtxt returns it; a file with several columns, for
    which it returns a table, and its reading of text are not modelled. *)
From Coq Require Import List Bool Reals Arith.
From Verif Require Import Base Sphere.
Import ListNotations.

(** [cov[0::3]], [cov[1::3]], [cov[2::3]], lines 28-30. *)
Fixpoint every3 {A} (l : list A) : list A :=
  match l with a :: _ :: _ :: r => a :: every3 r | a :: _ => [a] | [] => [] end.
Definition stride {A} (k : nat) (l : list A) : list A := every3 (skipn k l).

(** numpy's broadcasting of two one-dimensional arrays: of one length, or one of them of length
    one. *)
Definition width (a b : nat) : nat := if Nat.eqb a 1 then b else a.
Definition stretch {A} (n : nat) (l : list A) : res (list A) :=
  if Nat.eqb (length l) n then Ok l else match l with [a] => Ok (repeat a n) | _ => Raise ValueError end.
Definition arr2 {A B} (x : list A) (y : list B) : res (list (A * B)) :=
  let n := width (length x) (length y) in
  bind (stretch n x) (fun x' => bind (stretch n y) (fun y' => Ok (combine x' y'))).

(** [_ra_dec_from_xyz] on arrays, coordinate_transformations.py lines 302-306: the length of the
    vectors first, then ra from y and x alone and dec from all three. *)
Definition radec_arrays (x y z : list R) : res (list R * list (option R)) :=
  bind (arr2 x y) (fun xy => bind (arr2 xy z) (fun xyz =>
    Ok (map (fun p => fst (ra_dec_from_xyz (fst p) (snd p) 0)) xy,
        map (fun p => snd (ra_dec_from_xyz (fst (fst p)) (snd (fst p)) (snd p))) xyz))).

(** [_read_fields] lines 25-33.  np.genfromtxt returns an array without dimensions for a single
    number, which cannot be sliced. *)
Definition read_fields_rad (cov : list R) : res (list R * list (option R)) :=
  match cov with
  | [_] => Raise IndexError
  | _ => radec_arrays (stride 0 cov) (stride 1 cov) (stride 2 cov)
  end.
(** [read_fields] lines 49-50. *)
Definition read_fields (cov : list R) : res (list R * list (option R)) :=
  bind (read_fields_rad cov) (fun rd => Ok (map degrees (fst rd), map (option_map degrees) (snd rd))).
