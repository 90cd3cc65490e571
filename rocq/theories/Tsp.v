(** Model of the route finder.
    /repo/rubin_scheduler/scheduler/utils/tsp.py.
    Towns are their indices; the distance matrix is a function with finite values
    (exact rationals, any values: neither symmetry nor the triangle inequality is
    used).  Qhull is an external function. *)
From Coq Require Import List ZArith QArith Bool Lia.
From Verif Require Import Base IntRounded.
Import ListNotations.
Open Scope nat_scope.

Section Tsp.
Variable dist : nat -> nat -> Q.
(** [spatial.ConvexHull(...).vertices] for the given remaining towns: positions in
    that list, or None for QhullError. *)
Variable hull : list nat -> option (list nat).

(** [np.roll(l, -1)] *)
Definition roll (l : list nat) : list nat :=
  match l with [] => [] | x :: r => r ++ [x] end.

(** [route_length], lines 71-87. *)
Definition route_length (r : list nat) : Q :=
  fold_right Qplus 0%Q (map (fun p => dist (fst p) (snd p)) (combine r (roll r))).

(** [generate_hulls], lines 90-133.  [used] is the list of towns already in a hull;
    the loop runs while some town is unused. *)
Fixpoint hulls_loop (fuel n : nat) (used : list nat) : res (list (list nat)) :=
  match fuel with
  | O => Raise OutOfFuel
  | S f =>
      match filter (fun i => negb (existsb (Nat.eqb i) used)) (seq 0 n) with
      | [] => Ok []
      | rem =>
          match hull rem with
          | Some vs =>
              let new := map (fun v => nth v rem 0) vs in
              bind (hulls_loop f n (new ++ used)) (fun r => Ok (new :: r))
          | None => Ok [rem]
          end
      end
  end.
Definition generate_hulls (n : nat) : res (list (list nat)) := hulls_loop (S n) n [].

(** [deque.rotate(1)]: the last element moves to the front. *)
Definition rotate (l : list nat) : list nat :=
  match rev l with [] => [] | x :: r => x :: rev r end.

(** The candidates of lines 150-154: after each rotation the town is appended. *)
Fixpoint candidates (k : nat) (l : list nat) (x : nat) : list (list nat) :=
  match k with
  | O => []
  | S k' => let l' := rotate l in (l' ++ [x]) :: candidates k' l' x
  end.

(** Lines 155-156: the first candidate of least length; [np.nanmin] of an empty
    list raises. *)
Fixpoint first_min (best : list nat) (l : list (list nat)) : list nat :=
  match l with
  | [] => best
  | r :: l' => first_min (if Qltb (route_length r) (route_length best) then r else best) l'
  end.
Definition insert_town (c : list nat) (x : nat) : res (list nat) :=
  match candidates (List.length c) c x with
  | [] => Raise ValueError
  | r :: l => Ok (first_min r l)
  end.
Fixpoint insert_towns (c : list nat) (xs : list nat) : res (list nat) :=
  match xs with
  | [] => Ok c
  | x :: r => bind (insert_town c x) (fun c' => insert_towns c' r)
  end.

(** [merge_hulls], lines 136-160. *)
Definition merge_hulls (hs : list (list nat)) : res (list nat) :=
  match hs with
  | [] => Raise IndexError
  | h :: r => insert_towns h (concat r)
  end.

(** [itertools.combinations(range(n), 3)]. *)
Definition combos (n : nat) : list (nat * nat * nat) :=
  flat_map (fun i => flat_map (fun j => map (fun k => (i, j, k)) (seq (S j) (n - S j))) (seq (S i) (n - S i))) (seq 0 n).

(** [l[a:b]] for indices in range. *)
Definition slice (a b : nat) (l : list nat) : list nat := firstn (b - a) (skipn a l).

(** Lines 189-211: the eight reassemblies. *)
Definition moves (route : list nat) (cut : nat * nat * nat) : list (list nat) :=
  let '(i, j, k) := cut in
  let c1 := slice i j route in
  let c2 := slice j k route in
  let c3 := skipn k route ++ firstn i route in
  let rc2 := rev c2 in
  let rc3 := rev c3 in
  [ c1 ++ c2 ++ c3; c1 ++ c3 ++ c2; c1 ++ rc2 ++ c3; c1 ++ c3 ++ rc2;
    c1 ++ c2 ++ rc3; c1 ++ rc3 ++ c2; c1 ++ rc2 ++ rc3; c1 ++ rc3 ++ rc2 ].

(** [IntRounded(a) < IntRounded(b)] for scalars; scalars always broadcast. *)
Definition ir_less (a b : Q) : bool :=
  match ir_lt [a] [b] with Ok [x] => x | _ => false end.

(** Lines 213-223: the running minimum. *)
Definition improve (cross : bool) (m : list nat * Q) (perm : list nat) : list nat * Q :=
  let t := route_length perm in
  if (if cross then ir_less t (snd m) else Qltb t (snd m)) then (perm, t) else m.

(** [three_opt], lines 163-225. *)
Definition three_opt (route : list nat) (cross : bool) : list nat * Q :=
  fold_left (improve cross) (flat_map (moves route) (combos (List.length route))) (route, route_length route).

(** [tsp_convex], lines 228-262.  [niter] is tested after an iteration, so zero means
    no limit. *)
Fixpoint opt_loop (fuel niter : nat) (route : list nat) (distance : Q) (iter_count : nat) : res (list nat) :=
  match fuel with
  | O => Raise OutOfFuel
  | S f =>
      let '(nr, nd) := three_opt route true in
      if ir_less nd distance then
        if Nat.eqb (S iter_count) niter then Ok nr else opt_loop f niter nr nd (S iter_count)
      else Ok route
  end.
Definition tsp_convex (fuel n : nat) (optimize : bool) (niter : nat) : res (list nat) :=
  bind (generate_hulls n) (fun hs =>
  bind (merge_hulls hs) (fun route =>
  if optimize then opt_loop fuel niter route (route_length route) 0 else Ok route)).
End Tsp.
