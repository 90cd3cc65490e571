(** Model of the simulation loop.
    /repo/rubin_scheduler/scheduler/sim_runner.py lines 88-245.

    The scheduler (state [S]), the observatory ([O]) and the band scheduler ([F])
    are arbitrary; [C] is the type of conditions.  Snapshots, reward recording,
    printing and the computation of derived columns after the loop (lines
    247-310) are not modelled.  Every interaction is appended to a trace. *)
From Coq Require Import List ZArith QArith Bool String Lia.
From Verif Require Import Base Obs.
Import ListNotations.
Open Scope nat_scope.

Record simB (S O F C : Type) : Type := mkSimB {
  ob_mjd : O -> Q;                        (* observatory.mjd *)
  ob_set : O -> Q -> O;                   (* observatory.mjd = ... *)
  ob_cond : O -> C;                       (* return_conditions() *)
  ob_observe : O -> obs -> O * (option obs * bool);  (* observe() *)
  ob_mount : O -> list string -> O;       (* observatory.mount_bands *)
  sc_has : S -> bool;                     (* hasattr(scheduler, "conditions") *)
  sc_check : S -> Q -> bool;              (* _check_queue_mjd_only *)
  sc_update : S -> C -> S;                (* update_conditions *)
  sc_request : S -> Q -> S * res (option obs);   (* request_observation(mjd=) *)
  sc_add : S -> obs -> S;                 (* add_observation *)
  sc_flush : S -> S;                      (* flush_queue *)
  bs_call : F -> C -> list string;        (* band_scheduler(conditions) *)
  bs_add : F -> obs -> F;                 (* band_scheduler.add_observation *)
  overhead : option (obs -> Q)            (* anomalous_overhead_func, seconds *)
}.
Arguments ob_mjd {S O F C}. Arguments ob_set {S O F C}. Arguments ob_cond {S O F C}.
Arguments ob_observe {S O F C}. Arguments ob_mount {S O F C}. Arguments sc_has {S O F C}.
Arguments sc_check {S O F C}. Arguments sc_update {S O F C}. Arguments sc_request {S O F C}.
Arguments sc_add {S O F C}. Arguments sc_flush {S O F C}. Arguments bs_call {S O F C}.
Arguments bs_add {S O F C}. Arguments overhead {S O F C}.

(** Observable interactions; times are the observatory time when they happen. *)
Inductive ev : Type :=
| EvUpdate (t : Q)
| EvRequest (t : Q)
| EvNone
| EvObserve (d : obs) (t : Q)
| EvDone (o : obs)
| EvFail
| EvAdd (o : obs)
| EvFlush
| EvMount (l : list string).

Record sim (S O F : Type) : Type := mkSim {
  sm_s : S; sm_o : O; sm_f : F;
  sm_mjd : Q;                 (* mjd: loop variable *)
  sm_arr : list obs;          (* observations, pre-allocated *)
  sm_n : nat;                 (* counter *)
  sm_skip : nat;              (* nskip *)
  sm_last : Q;                (* mjd_last_flush *)
  sm_tr : list ev }.
Arguments mkSim {S O F}. Arguments sm_s {S O F}. Arguments sm_o {S O F}. Arguments sm_f {S O F}.
Arguments sm_mjd {S O F}. Arguments sm_arr {S O F}. Arguments sm_n {S O F}. Arguments sm_skip {S O F}.
Arguments sm_last {S O F}. Arguments sm_tr {S O F}.

Inductive ctl : Type := CGo | CBreak | CRaise (e : exn).

(** [a[i] = v]; None stands for IndexError. *)
Fixpoint set_nth (l : list obs) (i : nat) (v : obs) : option (list obs) :=
  match l, i with
  | [], _ => None
  | _ :: r, 0 => Some (v :: r)
  | x :: r, S i => option_map (cons x) (set_nth r i v)
  end.

Section Loop.
Context {S O F C : Type}.
Variable B : simB S O F C.
Variable sim_end : Q.
Variable step_none : Q.                (* in days, after line 107 *)
Variable limit : option Z.             (* n_visit_limit *)
Variable append_size : nat.            (* append_result_size *)
Variable every_obs : bool.             (* update_conditions_every_obs *)

(** Lines 157-167: conditions updates before the request. *)
Definition pre_update (s : S) (o : O) : S * list ev :=
  let up := [EvUpdate (ob_mjd B o)] in
  let '(s1, n1, t1) := if sc_has B s then (s, true, []) else (sc_update B s (ob_cond B o), false, up) in
  let '(s2, n2, t2) := if sc_check B s1 (ob_mjd B o) then (s1, n1, [])
                       else (sc_update B s1 (ob_cond B o), false, up) in
  let '(s3, t3) := if every_obs && n2 then (sc_update B s2 (ob_cond B o), up) else (s2, []) in
  (s3, t1 ++ t2 ++ t3).

(** Lines 223-239: new night, refresh of [mjd], visit limit. *)
Definition post (st : sim S O F) (new_night : bool) : sim S O F * ctl :=
  let '(o, t) := if new_night then
                   let bn := bs_call B (sm_f st) (ob_cond B (sm_o st)) in
                   (ob_mount B (sm_o st) bn, [EvMount bn])
                 else (sm_o st, []) in
  let st' := mkSim (sm_s st) o (sm_f st) (ob_mjd B o) (sm_arr st) (sm_n st) (sm_skip st)
                   (sm_last st) (sm_tr st ++ t) in
  match limit with
  | None => (st', CGo)
  | Some n => if Z.eqb (Z.of_nat (sm_n st)) n then (st', CBreak) else (st', CGo)
  end.

(** One pass through the loop body, lines 157-239. *)
Definition iter (st : sim S O F) : sim S O F * ctl :=
  let '(s1, t1) := pre_update (sm_s st) (sm_o st) in
  let now := ob_mjd B (sm_o st) in
  let '(s2, r) := sc_request B s1 now in
  let tr := sm_tr st ++ t1 ++ [EvRequest now] in
  match r with
  | Raise e => (mkSim s2 (sm_o st) (sm_f st) (sm_mjd st) (sm_arr st) (sm_n st) (sm_skip st) (sm_last st) tr,
                CRaise e)
  | Ok None =>
      let o1 := ob_set B (sm_o st) (now + step_none)%Q in
      let s3 := sc_update B s2 (ob_cond B o1) in
      let st' := mkSim s3 o1 (sm_f st) (sm_mjd st) (sm_arr st) (sm_n st) (sm_skip st + 1) (sm_last st)
                       (tr ++ [EvNone; EvUpdate (ob_mjd B o1)]) in
      if Qltb sim_end (ob_mjd B o1) then (st', CBreak) else (st', CGo)
  | Ok (Some d) =>
      let '(o1, (done, new_night)) := ob_observe B (sm_o st) d in
      let tr1 := tr ++ [EvObserve d now] in
      match done with
      | Some c =>
          let o2 := match overhead B with
                    | None => o1
                    | Some f => ob_set B o1 (ob_mjd B o1 + f c / 86400)%Q end in
          let s3 := sc_add B s2 c in
          let tr2 := tr1 ++ [EvDone c; EvAdd c] in
          match set_nth (sm_arr st) (sm_n st) c with
          | None => (mkSim s3 o2 (sm_f st) (sm_mjd st) (sm_arr st) (sm_n st) (sm_skip st) (sm_last st) tr2,
                     CRaise IndexError)
          | Some arr =>
              let n := Datatypes.S (sm_n st) in
              let arr' := if Nat.eqb n (List.length arr) then arr ++ repeat obs0 append_size else arr in
              post (mkSim s3 o2 (bs_add B (sm_f st) c) (sm_mjd st) arr' n (sm_skip st) (sm_last st) tr2)
                   new_night
          end
      | None =>
          let tr2 := tr1 ++ [EvFail] in
          if Qeq_bool (ob_mjd B o1) (sm_last st) then
            (mkSim s2 o1 (sm_f st) (sm_mjd st) (sm_arr st) (sm_n st) (sm_skip st) (sm_last st) tr2,
             CRaise RuntimeError)
          else
            post (mkSim (sc_flush B s2) o1 (sm_f st) (sm_mjd st) (sm_arr st) (sm_n st) (sm_skip st)
                        (ob_mjd B o1) (tr2 ++ [EvFlush])) new_night
      end
  end.

(** The while loop, line 125, with fuel. *)
Fixpoint loop (fuel : nat) (st : sim S O F) : sim S O F * ctl :=
  match fuel with
  | 0 => (st, CRaise OutOfFuel)
  | Datatypes.S fuel =>
      if Qltb (sm_mjd st) sim_end then
        match iter st with
        | (st', CGo) => loop fuel st'
        | x => x
        end
      else (st, CBreak)
  end.

(** Lines 93-124 (start) and 244-245 (trim). *)
Definition sim_init (s : S) (o : O) (f : F) (start_size : nat) (start : option Q) : sim S O F :=
  let o1 := match start with None => o | Some t => ob_set B o t end in
  let mjd := match start with None => ob_mjd B o | Some t => t end in
  let bn := bs_call B f (ob_cond B o1) in
  mkSim s (ob_mount B o1 bn) f mjd (repeat obs0 start_size) 0 0 (-1) [EvMount bn].

Definition result (st : sim S O F) : list obs := firstn (sm_n st) (sm_arr st).

End Loop.

(** ** Reading a trace *)
Definition dones (tr : list ev) : list obs :=
  flat_map (fun e => match e with EvDone o => [o] | _ => [] end) tr.
Definition adds (tr : list ev) : list obs :=
  flat_map (fun e => match e with EvAdd o => [o] | _ => [] end) tr.

(** Whenever a request is made, everything completed so far has been reported,
    once each and in completion order. *)
Definition reported_before_request (tr : list ev) : Prop :=
  forall p t q, tr = p ++ EvRequest t :: q -> adds p = dones p.

(** Every executed pointing comes from a request made at the same observatory
    time, with nothing in between. *)
Definition observe_follows_request (tr : list ev) : Prop :=
  forall p d t q, tr = p ++ EvObserve d t :: q -> exists p', p = p' ++ [EvRequest t].

(** Every request happens no later than [te]. *)
Definition requests_by (te : Q) (tr : list ev) : Prop :=
  forall t, In (EvRequest t) tr -> (t <= te)%Q.

(** Every request is immediately preceded by a conditions update made at the
    same observatory time. *)
Definition fresh_requests (tr : list ev) : Prop :=
  forall p t q, tr = p ++ EvRequest t :: q -> exists p', p = p' ++ [EvUpdate t].
