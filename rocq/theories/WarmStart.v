(** Model of warm_start.
    /repo/rubin_scheduler/scheduler/utils/utils.py lines 871-887.
    A row is the list of its fields in the order of the dtype; a field is an integer, its place among the values of
    that field in numpy's order (numbers and texts alike; NaN is not modelled).  The scheduler is any object whose
    add_observation either returns with the object changed, or raises. *)
From Coq Require Import List Bool ZArith.
From Verif Require Import Base.
Import ListNotations.
Open Scope Z_scope.

Definition visit := list Z.
(** numpy compares structured rows by the named key first, and breaks ties with the other fields as they come in the dtype. *)
Fixpoint lex (a b : list Z) : bool :=
  match a with
  | [] => true
  | x :: p => match b with [] => false | y :: q => (x <? y) || ((x =? y) && lex p q) end
  end.
Definition before (key : nat) (a b : visit) : bool := lex (nth key a 0 :: a) (nth key b 0 :: b).
Fixpoint place (key : nat) (v : visit) (l : list visit) : list visit :=
  match l with [] => [v] | w :: r => if before key v w then v :: l else w :: place key v r end.
(** observations.sort(order=mjd_key), in place, line 882. *)
Definition in_order (key : nat) (l : list visit) : list visit := fold_right (place key) [] l.

Section Scheduler.
Variable St : Type.
Variable add_observation : St -> visit -> St * option exn.
(** Lines 883-884. *)
Fixpoint replay (s : St) (l : list visit) : St * option exn :=
  match l with
  | [] => (s, None)
  | v :: r => match add_observation s v with (s', None) => replay s' r | (s', Some e) => (s', Some e) end
  end.
(** The scheduler, the array of the caller and what was raised, after the call; [names] are the fields of the dtype. *)
Definition warm_start (names : list Z) (mjd_key : Z) (s : St) (l : list visit) : St * list visit * option exn :=
  let fix find (k : nat) (ns : list Z) := match ns with [] => None | n :: r => if Z.eqb n mjd_key then Some k else find (S k) r end in
  match find O names with
  | None => (s, l, Some ValueError)
  | Some k => let o := in_order k l in let (s', e) := replay s o in (s', o, e)
  end.
End Scheduler.
