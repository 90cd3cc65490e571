(** Model of record_rewards in sim_runner, /repo/rubin_scheduler/scheduler/sim_runner.py
    lines 112-114, 170-173, 203-204 and 288-310, around the loop of Sim.v.
    [fill] and [df] read scheduler.queue_fill_mjd_ns and scheduler.queue_reward_df
    (core_scheduler.py lines 121-123 and 401-409): a stamp and a table, None until the
    first queue filled with keep_rewards.  Simplifications: tables are arbitrary; the
    notes are kept with the state of the scheduler, which does not see them; writing
    to a file is left out.  [r_from] is not in the code: the stamps of the scheduler
    when the visits were reported to it. *)
From Coq Require Import List ZArith QArith Bool String.
From Verif Require Import Base Obs Sim.
Import ListNotations.
Open Scope nat_scope.

Record rlog (D : Type) : Type := mkRlog {
  r_last : option Z;                  (* last_obs_queue_fill_mjd_ns *)
  r_dfs : list (Z * option D);        (* reward_dfs, each with the stamp it came with *)
  r_obs : list (Q * option Z);        (* obs_rewards, in order of insertion *)
  r_from : list Z }.
Arguments mkRlog {D}. Arguments r_last {D}. Arguments r_dfs {D}. Arguments r_obs {D}. Arguments r_from {D}.
Definition rlog0 {D} : rlog D := mkRlog None [] [] [].

(** [d[k] = v] for a dict keyed by times, and [d.get(k)]. *)
Fixpoint put {V} (k : Q) (v : V) (d : list (Q * V)) : list (Q * V) :=
  match d with
  | [] => [(k, v)]
  | (k', v') :: r => if Qeq_bool k k' then (k', v) :: r else (k', v') :: put k v r
  end.
Fixpoint get {V} (k : Q) (d : list (Q * V)) : option V :=
  match d with [] => None | (k', v) :: r => if Qeq_bool k k' then Some v else get k r end.

Section Log.
Context {S O F C D : Type}.
Variable B : simB S O F C.
Variable fill : S -> Z.
Variable df : S -> option D.

(** Lines 170-173. *)
Definition noted (s : S) (r : rlog D) : rlog D :=
  if match r_last r with None => false | Some z => Z.eqb z (fill s) end then r
  else mkRlog (Some (fill s)) (r_dfs r ++ [(fill s, df s)]) (r_obs r) (r_from r).
(** Lines 203-204. *)
Definition visited (s : S) (c : obs) (r : rlog D) : rlog D :=
  mkRlog (r_last r) (r_dfs r) (put (o_mjd c) (r_last r) (r_obs r)) (r_from r ++ [fill s]).

Definition logged : simB (S * rlog D) O F C :=
  mkSimB (S * rlog D) O F C (ob_mjd B) (ob_set B) (ob_cond B) (ob_observe B) (ob_mount B)
    (fun s => sc_has B (fst s)) (fun s t => sc_check B (fst s) t) (fun s c => (sc_update B (fst s) c, snd s))
    (fun s t => let '(s', r) := sc_request B (fst s) t in ((s', match r with Ok _ => noted s' (snd s) | Raise _ => snd s end), r))
    (fun s c => (sc_add B (fst s) c, visited (fst s) c (snd s))) (fun s => (sc_flush B (fst s), snd s))
    (bs_call B) (bs_add B) (overhead B).

(** Lines 288-310: pd.concat leaves out None and raises when nothing is left; nothing
    is put together when there are no visits. *)
Definition tables (l : list (Z * option D)) : list (Z * D) :=
  flat_map (fun p => match snd p with Some d => [(fst p, d)] | None => [] end) l.
Definition reward_result (visits : list obs) (r : rlog D) : res (option (list (Z * D) * list (Q * option Z))) :=
  match visits with
  | [] => Ok None
  | _ => match tables (r_dfs r) with [] => Raise ValueError | l => Ok (Some (l, r_obs r)) end
  end.
End Log.
