(** Model of the gates of simple_rewards_field_survey, /repo/rubin_scheduler/scheduler/example/simple_examples.py lines 703-737, as simple_field_survey
    (740-845) uses it: NotTwilight and VisitGap in their order.  RewardRising and M5Diff have no feasibility check of their own. *)
From Coq Require Import List ZArith QArith Bool String.
From Verif Require Import Base Feat TimeGate GateLoop.
Import ListNotations.
Open Scope nat_scope.

(** The feature of VisitGap after a history, and its check with 30 minutes. *)
Definition field_told (name : string) (h : list fvis) : list (option fvis) := fold_left (vg_add name None) h (vg0 None).
Definition field_check (name : string) (alt : Z) (h : list fvis) (c : tcond) : res bool :=
  bind (not_twilight alt c) (fun x => if x then Ok (vg_check (minutes 30) (field_told name h) (tc_mjd c)) else Ok false).
