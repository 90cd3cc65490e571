(** Model of the basis functions that gate a survey on the visits completed so far.
    /repo/rubin_scheduler/scheduler/basis_functions/feasibility_funcs.py: OnceInNightBasisFunction
    (255-272), ForceDelayBasisFunction (431-459), SoftDelayBasisFunction (462-504),
    FractionOfObsBasisFunction (546-583); basis_functions.py: VisitGap (1302-1355).
    Their features are those of Feat.v, updated one visit at a time (Props_Feat.v, C37, compares
    the batch updates).  The counts are Python integers. *)
From Coq Require Import List ZArith QArith Qround Bool String.
From Verif Require Import Base Bisect Feat.
Import ListNotations.
Open Scope nat_scope.

(** The fields of the empty observation LastObservation starts with are zero. *)
Definition last_mjd (s : option fvis) : Q := match s with Some v => fv_mjd v | None => 0%Q end.

(** ** ForceDelay *)
Definition fd0 : option fvis := None.
Definition fd_add (note : option string) (s : option fvis) (v : fvis) : option fvis := lo_one note None s v.
Definition fd_check (delay : Q) (s : option fvis) (t : Q) : bool := negb (Qltb (t - last_mjd s) delay).

(** ** FractionOfObs: the counts of all visits and of those with the note *)
Definition fo0 : nnst * nnst := (nc0, nc0).
Definition fo_add (note : option string) (s : nnst * nnst) (v : fvis) : nnst * nnst :=
  (nc_one None None false (fst s) v, nc_one note None false (snd s) v).
Definition fo_check (frac : Q) (s : nnst * nnst) : bool :=
  if (0 <? nn_count (fst s))%Z then negb (Qltb frac (inject_Z (nn_count (snd s)) / inject_Z (nn_count (fst s))))
  else true.

(** ** OnceInNight *)
Definition on_add (notes : list string) (s : nnst) (v : fvis) : nnst := nn_one (Some notes) s v.
Definition on_check (s : nnst) : bool := negb (0 <? nn_count s)%Z.

(** ** SoftDelay *)
Record sdst : Type := mkSd { sd_last : option fvis; sd_all : nnst; sd_note : nnst }.
Definition sd0 : sdst := mkSd None nc0 nc0.
Definition sd_add (note : option string) (s : sdst) (v : fvis) : sdst :=
  mkSd (lo_one note None (sd_last s) v) (nc_one None None false (sd_all s) v) (nc_one note None false (sd_note s) v).
Definition sd_delay (fractions delays : list Q) (ratio : Q) : res Q :=
  let i := searchsorted (fun f => Qltb f ratio) 0%Q fractions in
  let i1 := if Nat.eqb i (List.length fractions) then i - 1 else i in
  match nth_error delays i1 with Some d => Ok d | None => Raise IndexError end.
Definition sd_check (fractions delays : list Q) (s : sdst) (t : Q) : res bool :=
  if (nn_count (sd_all s) =? 0)%Z then Raise ZeroDivisionError
  else bind (sd_delay fractions delays (inject_Z (nn_count (sd_note s)) / inject_Z (nn_count (sd_all s)))) (fun d =>
    Ok (negb (Qltb (t - last_mjd (sd_last s)) d))).

(** ** VisitGap: one LastObservationMjd for each band, or one for all *)
Definition vg_keys (bands : option (list string)) : list (option string) :=
  match bands with None => [None] | Some l => map Some l end.
Definition vg0 (bands : option (list string)) : list (option fvis) := map (fun _ => None) (vg_keys bands).
Definition vg_add (note : string) (bands : option (list string)) (s : list (option fvis)) (v : fvis) : list (option fvis) :=
  map (fun p => lo_one (Some note) (fst p) (snd p) v) (combine (vg_keys bands) s).
Definition vg_check (gap : Q) (s : list (option fvis)) (t : Q) : bool :=
  if existsb (fun x => match x with None => true | Some _ => false end) s then true
  else forallb (fun x => Qltb gap (t - last_mjd x)) s.
