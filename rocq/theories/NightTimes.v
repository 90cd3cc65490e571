(** Rough times of sunset, twilight and the moon:
    /repo/rubin_scheduler/scheduler/model_observatory/generate_altitudes.py lines 11-34 and 54-163.
    The altitudes of sun and moon on the grid of times (lines 69-86, astropy) are arguments; the
    refinement by scipy (lines 165-219) is not modelled.  Numbers are reals. *)
From Coq Require Import List Bool Reals ZArith Arith.
From Verif Require Import Base.
Import ListNotations.
Open Scope R_scope.

Definition ltb (x y : R) : bool := if Rlt_dec x y then true else false.
(** lin_interp, lines 11-16. *)
Definition lin_interp (x x0 x1 y0 y1 : R) : R := y0 * (1 - (x - x0) / (x1 - x0)) + y1 * (x - x0) / (x1 - x0).
Definition item (l : list R) (i : nat) : res R := match nth_error l i with Some x => Ok x | None => Raise IndexError end.
(** The indices of lines 22 and 25; np.roll(altitudes, -1) follows the last by the first. *)
Definition crossings (alts : list R) (goal : R) (rising : bool) : list nat :=
  let n := length alts in
  filter (fun i => let a := nth i alts 0 in let b := nth (S i mod n) alts 0 in
                   if rising then ltb a goal && ltb goal b else ltb goal a && ltb b goal) (seq 0 n).
Definition np_max (l : list nat) : res nat := match l with [] => Raise ValueError | x :: l => Ok (fold_left Nat.max l x) end.
Fixpoint collect {A B} (f : A -> res B) (l : list A) : res (list B) :=
  match l with [] => Ok [] | x :: l => bind (f x) (fun y => bind (collect f l) (fun ys => Ok (y :: ys))) end.
(** alt_passing_interp, lines 19-34. *)
Definition alt_passing_interp (times alts : list R) (goal : R) (rising : bool) : res (list R) :=
  let js := crossings alts goal rising in
  let below := if rising then js else map S js in
  let above := if rising then map S js else js in
  bind (np_max below) (fun max_below =>
  bind (np_max above) (fun max_above =>
  let cut := (Nat.leb (length below) max_below || Nat.leb (length above) max_above)%bool in
  let below := if cut then removelast below else below in
  let above := if cut then removelast above else above in
  collect (fun ab : nat * nat =>
    bind (item alts (fst ab)) (fun x0 => bind (item alts (snd ab)) (fun x1 =>
    bind (item times (fst ab)) (fun y0 => bind (item times (snd ab)) (fun y1 =>
    Ok (lin_interp goal x0 x1 y0 y1)))))) (combine above below))).

(** np.searchsorted(., side="left") in an increasing array: the number of smaller entries. *)
Definition searchsorted (l : list R) (x : R) : nat := length (filter (fun y => ltb y x) l).
Fixpoint set (i : nat) (x : R) (l : list R) : list R :=
  match l, i with [], _ => [] | _ :: l, O => x :: l | y :: l, S i => y :: set i x l end.
(** Lines 118-122 and the like: entries of 0, each point stored with the sunset before it, but not with
    the first. *)
Definition fill (sunsets points : list R) : list R :=
  fold_left (fun col p => let insert := (Z.of_nat (searchsorted sunsets p) - 1)%Z in
                          if (0 <? insert)%Z then set (Z.to_nat insert) p col else col)
            points (repeat 0 (length sunsets)).
Record row := Row { night : Z; sunset : R; n12_setting : R; n18_setting : R; n18_rising : R; n12_rising : R; sunrise : R; moonrise : R; moonset : R }.
(** The rough table, lines 88-163. *)
Definition rough_nights (mjd_start : R) (times sun moon : list R) : res (list row) :=
  bind (alt_passing_interp times sun 0 false) (fun sunsets =>
  let n := length sunsets in
  let night_1 := searchsorted sunsets mjd_start in
  if Nat.leb n night_1 then Raise IndexError
  else
  bind (alt_passing_interp times sun 0 true) (fun sunrises =>
  bind (alt_passing_interp times sun (-12) false) (fun n12s =>
  bind (alt_passing_interp times sun (-12) true) (fun n12r =>
  bind (alt_passing_interp times sun (-18) true) (fun n18r =>
  bind (alt_passing_interp times sun (-18) false) (fun n18s =>
  bind (alt_passing_interp times moon 0 true) (fun mrise =>
  bind (alt_passing_interp times moon 0 false) (fun mset =>
  let c12s := fill sunsets n12s in let c18s := fill sunsets n18s in let c18r := fill sunsets n18r in let c12r := fill sunsets n12r in
  let crise := fill sunsets sunrises in let cmr := fill sunsets mrise in let cms := fill sunsets mset in
  let rows := map (fun i => Row (Z.of_nat i + (1 - Z.of_nat night_1)) (nth i sunsets 0) (nth i c12s 0) (nth i c18s 0) (nth i c18r 0) (nth i c12r 0) (nth i crise 0) (nth i cmr 0) (nth i cms 0)) (seq 0 n) in
  Ok (removelast (filter (fun r => (0 <? night r)%Z) rows)))))))))).
