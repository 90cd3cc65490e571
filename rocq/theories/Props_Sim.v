(** Properties of the simulation loop (C15-C17, C44). *)
From Coq Require Import List ZArith QArith Bool String.
From Verif Require Import Base IntRounded Obs Queue Core Core_proofs Core_proofs2 Sim Sim_proofs SimCore SimRec Props_Core.
Import ListNotations.
Open Scope nat_scope.

(** ** Fixture: the core scheduler of the C17 scenario.  One survey proposes three
    visits; the first two expire at 60000.5, the third never.  A visit takes 0.6
    days; the observatory is just a clock. *)
Definition exG : list obs := [ob 0 (600005 # 10) 0; ob 0 (600005 # 10) 0; ob 0 0 0].
Definition exSB : behav unit unit :=
  mkBehav unit unit (fun w _ _ _ => (w, [EFin 1])) (fun w _ _ _ => (w, GArr exG))
    (fun w _ _ _ _ => w) (fun w _ _ _ _ => w) (fun w _ _ _ => w) (fun _ _ _ => None)
    (fun _ _ _ => true) (fun w l _ => (w, l)) (fun w _ => w) (fun w _ _ => w) (fun _ => []) (fun _ => []).
Definition exClock (failing : Q -> bool) (t : Q) (d : obs) : Q * (option obs * bool) :=
  if failing t then ((t + (1 # 10))%Q, (None, true)) else ((t + (6 # 10))%Q, (Some d, false)).
Definition exSim (failing : Q -> bool) : simB (core unit unit) Q unit (cond unit) :=
  coreSim exSB [1] [] false (fun t => t) (fun _ t => t) (fun t => mkCond t [] [] tt) (exClock failing)
    (fun t _ => t) (fun _ _ => ["r"%string]) (fun f _ => f) None.
Definition exLoop (failing : Q -> bool) (lim : option Z) (every : bool) :=
  loop (exSim failing) 60003 (1 # 24) lim 2 every 20 (sim_init (exSim failing) (init tt 0) 60000%Q tt 2 None).
Definition never (_ : Q) : bool := false.

(** ** C15 *)
Theorem C15_bookkeeping :
  forall S O F C (B : simB S O F C) sim_end step_none limit append_size every_obs s o f n start fuel st,
  loop B sim_end step_none limit append_size every_obs fuel (sim_init B s o f n start) = (st, CBreak) ->
  result st = dones (sm_tr st) /\ adds (sm_tr st) = dones (sm_tr st) /\
  reported_before_request (sm_tr st) /\ observe_follows_request (sm_tr st).
Proof. exact @sim_bookkeeping. Qed.
Print Assumptions C15_bookkeeping.

(** The same in terms of calls really received: [recSim] makes the scheduler, the
    observatory and the band scheduler write down the calls made to them.  The
    result, the reports to the scheduler and the reports to the band scheduler
    are each exactly the visits the observatory completed, in order. *)
Theorem C15_bookkeeping_calls :
  forall S O F C (B : simB S O F C) tc sim_end step_none limit append_size every_obs,
  (forall o, tc (ob_cond B o) = ob_mjd B o) ->
  forall s o f n start fuel st,
  loop (recSim B tc) sim_end step_none limit append_size every_obs fuel
    (sim_init (recSim B tc) (s, []) (o, []) (f, []) n start) = (st, CBreak) ->
  result st = done_log (snd (sm_o st)) /\
  add_log (snd (sm_s st)) = done_log (snd (sm_o st)) /\
  snd (sm_f st) = done_log (snd (sm_o st)).
Proof. exact @sim_calls. Qed.
Print Assumptions C15_bookkeeping_calls.

(** The trace used above lists the calls really made, and when a request arrives
    the scheduler has been given exactly the visits completed before it. *)
Theorem C15_reported_before_request_calls :
  forall S O F C (B : simB S O F C) tc sim_end step_none limit append_size every_obs,
  (forall o, tc (ob_cond B o) = ob_mjd B o) ->
  forall s o f n start fuel st,
  loop (recSim B tc) sim_end step_none limit append_size every_obs fuel
    (sim_init (recSim B tc) (s, []) (o, []) (f, []) n start) = (st, CBreak) ->
  snd (sm_s st) = s_view (sm_tr st) /\ snd (sm_o st) = o_view (sm_tr st) /\
  (forall p t q, snd (sm_s st) = p ++ SRequest t :: q -> exists tp tq,
     sm_tr st = tp ++ EvRequest t :: tq /\ add_log p = done_log (o_view tp)).
Proof. exact @sim_calls_order. Qed.
Print Assumptions C15_reported_before_request_calls.

Example C15_calls_example :
  let B := recSim (exSim (fun t => Qeq_bool t (600006 # 10))) cd_mjd in
  let r := loop B 60002 (1 # 24) None 2 true 20 (sim_init B (init tt 0, []) (60000%Q, []) (tt, []) 2 None) in
  snd r = CBreak /\ map o_tid (add_log (snd (sm_s (fst r)))) = [0; 5; 8; 11]%Z /\
  existsb (fun c => match c with SFlush => true | _ => false end) (snd (sm_s (fst r))) = true.
Proof. vm_compute. auto. Qed.

(** Storing never runs off the pre-allocated array. *)
Theorem C15_no_index_error :
  forall S O F C (B : simB S O F C) sim_end step_none limit append_size every_obs fuel st st' c,
  0 < append_size -> sm_n st < List.length (sm_arr st) ->
  (forall s t s', sc_request B s t <> (s', Raise IndexError)) ->
  loop B sim_end step_none limit append_size every_obs fuel st = (st', c) -> c <> CRaise IndexError.
Proof. exact @loop_room. Qed.
Print Assumptions C15_no_index_error.

Example C15_example :
  (* five visits with one failure in between; the array (size 2) grows twice *)
  let r := exLoop (fun t => Qeq_bool t (600006 # 10)) None true in
  snd r = CBreak /\ List.length (result (fst r)) = 5 /\
  existsb (fun e => match e with EvFlush => true | _ => false end) (sm_tr (fst r)) = true /\
  List.length (sm_arr (fst r)) = 6.
Proof. vm_compute. auto. Qed.

(** ** C16 *)
Theorem C16_limit_respected_partial :
  forall S O F C (B : simB S O F C) sim_end step_none limit append_size every_obs s o f k start fuel st c n,
  limit = Some n -> (0 < n)%Z ->
  loop B sim_end step_none limit append_size every_obs fuel (sim_init B s o f k start) = (st, c) ->
  (Z.of_nat (List.length (result st)) <= n)%Z.
Proof. exact @sim_limit. Qed.
Print Assumptions C16_limit_respected_partial.

Example C16_example : snd (exLoop never (Some 2%Z) true) = CBreak /\
  List.length (result (fst (exLoop never (Some 2%Z) true))) = 2.
Proof. vm_compute. auto. Qed.

(** Refuted for a limit of zero, which is never reached. *)
Theorem C16_limit_respected_refuted :
  exists S O F C (B : simB S O F C) sim_end s o f st,
  loop B sim_end (1 # 24) (Some 0%Z) 2 true 20 (sim_init B s o f 2 None) = (st, CBreak) /\
  List.length (result st) = 5.
Proof.
  exists (core unit unit), Q, unit, (cond unit), (exSim never), 60003%Q, (init tt 0), 60000%Q, tt.
  eexists. split; [vm_compute; reflexivity|reflexivity].
Qed.
Print Assumptions C16_limit_respected_refuted.

(** ** C17 *)
(** Refuted: with the default settings the conditions are only refreshed when the
    whole queue has expired, and expiry of the entry handed out is judged by the
    time of the last refresh.  The second visit expired at 60000.5 and is executed
    at 60000.6. *)
Theorem C17_no_expired_execution_refuted :
  exists W X O F (B : behav W X) shape b2f tf mjd_of set_mjd cond_of observe mount
    (call : F -> cond X -> list string) addf ovh s (o : O) f st d t,
  det_keeps_flush B /\ (forall y, cd_mjd (cond_of y) = mjd_of y) /\
  let SB := coreSim B shape b2f tf mjd_of set_mjd cond_of observe mount call addf ovh in
  loop SB 60003 (1 # 24) None 2 false 20 (sim_init SB s o f 2 None) = (st, CBreak) /\
  In (EvObserve d t) (sm_tr st) /\ ~ (o_flush d == 0)%Q /\ (o_flush d < t)%Q.
Proof.
  exists unit, unit, Q, unit, exSB, [1], [], false, (fun t => t), (fun _ t => t),
    (fun t => mkCond t [] [] tt), (exClock never), (fun t _ => t), (fun _ _ => ["r"%string]), (fun f _ => f), None,
    (init tt 0), 60000%Q, tt.
  eexists. exists (set_tid 1 (ob 0 (600005 # 10) 0)), (60000 + (6 # 10))%Q.
  split; [intros w l c o H; exists o; auto|]. split; [reflexivity|].
  split; [vm_compute; reflexivity|]. split; [|split; [discriminate|reflexivity]].
  vm_compute. tauto.
Qed.
Print Assumptions C17_no_expired_execution_refuted.

(** With update_conditions_every_obs each request directly follows a refresh at
    the same time. *)
Theorem C17_requests_fresh :
  forall S O F C (B : simB S O F C) sim_end step_none limit append_size every_obs,
  every_obs = true -> forall s o f k start fuel st c,
  loop B sim_end step_none limit append_size every_obs fuel (sim_init B s o f k start) = (st, c) ->
  fresh_requests (sm_tr st).
Proof. exact @sim_fresh. Qed.
Print Assumptions C17_requests_fresh.

(** Partial: with update_conditions_every_obs no executed entry is more than one
    day past its flush time (the remaining day is the tie behaviour of C05). *)
Theorem C17_no_expired_execution_partial :
  forall W X O F (B : behav W X) shape b2f tf mjd_of set_mjd cond_of observe mount
    (call : F -> cond X -> list string) addf ovh sim_end step_none limit append_size s (o : O) f k start fuel st c,
  det_keeps_flush B -> (forall y, cd_mjd (cond_of y) = mjd_of y) ->
  let SB := coreSim B shape b2f tf mjd_of set_mjd cond_of observe mount call addf ovh in
  loop SB sim_end step_none limit append_size true fuel (sim_init SB s o f k start) = (st, c) ->
  forall d t, In (EvObserve d t) (sm_tr st) -> (o_flush d == 0)%Q \/ (t <= o_flush d + 1)%Q.
Proof. exact sim_core_fresh. Qed.
Print Assumptions C17_no_expired_execution_partial.

Example C17_example :
  det_keeps_flush exSB /\
  flat_map (fun e => match e with EvObserve d t => [(o_tid d, Qred t)] | _ => [] end) (sm_tr (fst (exLoop never None true)))
  = [(0%Z, 60000%Q); (2%Z, 300003 # 5); (5%Z, 300006 # 5); (8%Z, 300009 # 5);
     (11%Z, 300012 # 5)]%Q.
Proof. split; [intros w l c o H; exists o; auto|]. vm_compute. reflexivity. Qed.

(** ** C44 *)
Theorem C44_requests_within_period :
  forall S O F C (B : simB S O F C) sim_end step_none limit append_size every_obs s o f k start fuel st c,
  (match start with None => True | Some t => (t <= sim_end)%Q end) ->
  (match start with None => (ob_mjd B o <= sim_end)%Q | Some _ => True end) ->
  SetOK B -> MountOK B ->
  loop B sim_end step_none limit append_size every_obs fuel (sim_init B s o f k start) = (st, c) ->
  requests_by sim_end (sm_tr st).
Proof. exact @sim_requests_by. Qed.
Print Assumptions C44_requests_within_period.

Example C44_example :
  SetOK (exSim never) /\ MountOK (exSim never) /\
  existsb (fun e => match e with EvRequest t => Qltb 60002 t | _ => false end) (sm_tr (fst (exLoop never None true))) = true.
Proof. split; [intros o t; reflexivity|]. split; [intros o l; reflexivity|]. vm_compute. reflexivity. Qed.
