(** Model of raster_sort.
    /repo/rubin_scheduler/scheduler/utils/utils.py lines 389-436, with two keys.
    Coordinates are rational.  The array has no further fields (numpy would use them to break ties);
    np.argsort is a stable sort (numpy leaves the order of equal rows open; no theorem depends on it).
    xbin is positive. *)
From Coq Require Import List Bool ZArith QArith Qround Qminmax.
From Verif Require Import Base.
Import ListNotations.
Open Scope Q_scope.
Open Scope nat_scope.

Record row := mkRw { r_x : Q; r_y : Q }.

(** The edges, lines 408-412: np.arange(start, stop, step). *)
Definition arange (a b s : Q) : list Q := map (fun k => (a + inject_Z (Z.of_nat k) * s)%Q) (seq 0 (Z.to_nat (Qceiling ((b - a) / s)%Q))).
Definition least (x : Q) (l : list Q) : Q := fold_right Qmin x l.
Definition most (x : Q) (l : list Q) : Q := fold_right Qmax x l.
Definition edges (x : Q) (l : list Q) (xbin : Q) : list Q := arange (least x l - xbin / 2)%Q (most x l + 3 * xbin / 2)%Q xbin.
(** np.digitize: how many edges are at or below, line 414. *)
Definition digitize (e : list Q) (x : Q) : nat := List.length (filter (fun b => Qle_bool b x) e).

(** np.argsort by the two keys, line 415. *)
Definition before (p q : nat * Q) : bool := (fst p <? fst q) || ((fst p =? fst q) && Qle_bool (snd p) (snd q)).
Fixpoint insert (p : (nat * Q) * nat) (l : list ((nat * Q) * nat)) : list ((nat * Q) * nat) :=
  match l with [] => [p] | q :: r => if before (fst p) (fst q) then p :: l else q :: insert p r end.
Definition sort (l : list ((nat * Q) * nat)) : list ((nat * Q) * nat) := fold_right insert [] l.

(** Lines 417 and 419: the places after a step down. *)
Fixpoint descents (l : list Q) (i : nat) : list nat :=
  match l with
  | a :: r => match r with b :: _ => if Qltb b a then S i :: descents r (S i) else descents r (S i) | [] => [] end
  | [] => []
  end.
(** Lines 420-433: the slices between the places, every second one turned around. *)
Fixpoint cut {A} (l : list A) (start : nat) (places : list nat) : list (list A) :=
  match places with [] => [l] | p :: r => firstn (p - start) l :: cut (skipn (p - start) l) p r end.
Fixpoint alternate {A} (turned : bool) (ls : list (list A)) : list A :=
  match ls with [] => [] | s :: r => (if turned then rev s else s) ++ alternate (negb turned) r end.

Definition raster_sort (rows : list row) (xbin : Q) : res (list nat) :=
  match map r_x rows with
  | [] => Raise ValueError
  | x :: xs =>
      let e := edges x xs xbin in
      let sorted := sort (combine (map (fun r => (digitize e (r_x r), r_y r)) rows) (seq 0 (List.length rows))) in
      let order1 := map snd sorted in
      match descents (map (fun s => snd (fst s)) sorted) 0 with
      | [] => Ok order1
      | places => Ok (map (fun i => nth i order1 0) (alternate false (cut (seq 0 (List.length sorted)) 0 places)))
      end
  end.
