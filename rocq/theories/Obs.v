(** Observations.  Model of the columns of [ObservationArray] the modelled code
    reads or writes; /repo/rubin_scheduler/scheduler/utils/observation_array.py
    lines 43-200 lists all 48 columns, the others are not modelled. *)
From Coq Require Import List ZArith QArith Bool String Ascii Lia.
From Verif Require Import Base.
Import ListNotations.
Open Scope nat_scope.

Record obs : Type := mkObs {
  o_id : Z;            (* "ID" *)
  o_tid : Z;           (* "target_id" *)
  o_mjd : Q;           (* "mjd" *)
  o_night : Z;         (* "night" *)
  o_flush : Q;         (* "flush_by_mjd" *)
  o_ra : Q; o_dec : Q; (* "RA", "dec" *)
  o_rsp : Q;           (* "rotSkyPos" *)
  o_exptime : Q;       (* "exptime" *)
  o_nexp : Z;          (* "nexp" *)
  o_band : string;     (* "band" *)
  o_filter : string;   (* "filter" *)
  o_note : string      (* "scheduler_note" *)
}.

Definition set_tid (t : Z) (o : obs) : obs :=
  mkObs (o_id o) t (o_mjd o) (o_night o) (o_flush o) (o_ra o) (o_dec o) (o_rsp o)
        (o_exptime o) (o_nexp o) (o_band o) (o_filter o) (o_note o).
Definition set_filter (f : string) (o : obs) : obs :=
  mkObs (o_id o) (o_tid o) (o_mjd o) (o_night o) (o_flush o) (o_ra o) (o_dec o) (o_rsp o)
        (o_exptime o) (o_nexp o) (o_band o) f (o_note o).
Definition set_band (b : string) (o : obs) : obs :=
  mkObs (o_id o) (o_tid o) (o_mjd o) (o_night o) (o_flush o) (o_ra o) (o_dec o) (o_rsp o)
        (o_exptime o) (o_nexp o) b (o_filter o) (o_note o).

(** Sample observation used by examples. *)
Definition obs0 : obs :=
  mkObs 0 (-1) 0 0 0 0 0 0 30 1 "r"%string ""%string ""%string.

(** [np.char.rstrip(s, chars="_0123456789")]: drop trailing characters of the
    set.  Used by core_scheduler.py lines 173-176 and 227-230. *)
Definition strippable (c : ascii) : bool :=
  let n := nat_of_ascii c in
  (Nat.eqb n 95) || ((Nat.leb 48 n) && (Nat.leb n 57)).

Fixpoint rstrip (s : string) : string :=
  match s with
  | EmptyString => EmptyString
  | String c r =>
      match rstrip r with
      | EmptyString => if strippable c then EmptyString else String c EmptyString
      | r' => String c r'
      end
  end.

(** Fill a missing band from the filter name, core_scheduler.py 173-176, 227-230. *)
Definition backfill_band (o : obs) : obs :=
  if String.eqb (o_band o) "" then set_band (rstrip (o_filter o)) o else o.

Lemma backfill_tid : forall o, o_tid (backfill_band o) = o_tid o.
Proof. intros o. unfold backfill_band. destruct (String.eqb (o_band o) ""); reflexivity. Qed.
