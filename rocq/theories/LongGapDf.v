(** Model of the table of rewards of the survey that revisits pairs.
    /repo/rubin_scheduler/scheduler/surveys/long_gap_survey.py 216-222 and 264-308, on top of
    LongGap.v.  The table is made on a copy of the survey, so it leaves nothing behind; the
    feasibility of the blob survey is an arbitrary function of its state. *)
From Coq Require Import List ZArith QArith Bool String.
From Verif Require Import Base Obs Core Script SiteData LongGap.
Import ListNotations.
Open Scope nat_scope.

(** The one row: feasible, max_basis_reward, basis_area, basis_weight, and with [accum]
    max_accum_reward and accum_area. *)
Record lrow := mkLrow { w_feasible : bool; w_reward : er; w_area : nat; w_weight : nat; w_accum : option (er * nat) }.

Section Table.
Variable F : scfg.
Variable reward_val : Q.
Variable B : Type.
Variable blob_calc : B -> scond -> B * list er.
Variable blob_feasible : B -> scond -> bool.
Variable G : lcfg.
Variable fmin : Q.                (* np.finfo(reward).min *)

(** [_check_feasibility] 216-222. *)
Definition l_feasible (s : lst B) (c : scond) : bool := blob_feasible (l_blob B s) c || f_feasible F c.
(** [make_reward_df] 264-308. *)
Definition l_df (s : lst B) (night : Z) (c : scond) (accum : bool) : res lrow :=
  match l_calc F reward_val B blob_calc G s night c with
  | (_, Raise e) => Raise e
  | (s1, Ok r) =>
      Ok (mkLrow (l_feasible s1 c && er_ltb (EFin fmin) r) r 0 1 (if accum then Some (r, 0) else None))
  end.
End Table.
