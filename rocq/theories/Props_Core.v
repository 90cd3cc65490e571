(** Properties of the core scheduler and its queue (C01-C12). *)
From Coq Require Import List ZArith QArith Qabs Bool String Permutation Sorted.
From Verif Require Import Base IntRounded Obs Queue Core Core_proofs Core_proofs2 Core_rec.
Import ListNotations.
Open Scope nat_scope.

(** ** Concrete scheduler used in the examples: two tiers; tier 0 has one survey
    that is infeasible before time 60001, tier 1 has three surveys. *)
Definition ob (t : Z) (fl : Q) (m : Q) : obs :=
  mkObs 0 t m 0 fl 0 0 0 30 1 "r"%string ""%string "n"%string.
Definition exB : behav unit unit :=
  mkBehav unit unit
    (fun w t i c => (w, match t, i with
       | 0, _ => [if Qle_bool 60001 (cd_mjd c) then EFin 1 else ENInf]
       | _, 0 => [ENaN; ENaN]
       | _, 1 => [ENInf; EFin 3; ENaN]
       | _, _ => [EFin 3; EFin 2] end))
    (fun w t i c => (w, match t with
       | 0 => GArr [ob 0 60002 0]
       | _ => GArr [ob 0 60000 0; ob 0 0 0; ob 0 60005 0] end))
    (fun w _ _ _ _ => w) (fun w _ _ _ _ => w) (fun w _ _ _ => w)
    (fun _ t i => match t, i with 0, _ => Some [60003%Q; 59999%Q] | _, 1 => Some [60001%Q] | _, _ => None end)
    (fun _ _ _ => true) (fun w l _ => (w, l)) (fun w _ => w) (fun w _ _ => w)
    (fun _ => [7; 8]%Z) (fun _ => [7; 8]%Z).
Definition exShape := [1; 3].
Definition exRun := run exB exShape [] true.
Definition exCond (m : Q) (ts : list too) : cond unit := mkCond m ts [] tt.
Definition exInit : core unit unit := init tt 0.

(** ** C01 *)
(** Every id stamped during [h2] is larger than every id stamped or reported
    during [h1]; all ids ever stamped are pairwise different. *)
Theorem C01_target_ids_never_reused :
  forall W X (B : behav W X) shape b2f too_flush w ctr h1 h2,
  Forall no_setctr h1 -> Forall no_setctr h2 ->
  let s1 := fst (run B shape b2f too_flush (init w ctr) h1) in
  let s2 := fst (run B shape b2f too_flush s1 h2) in
  NoDup (c_issued s2) /\
  exists new, c_issued s2 = c_issued s1 ++ new /\
    forall n old, In n new -> In old (c_issued s1 ++ c_reported s1) -> (old < n)%Z.
Proof. exact @target_ids_fresh. Qed.
Print Assumptions C01_target_ids_never_reused.

(** Every observation handed out carries an id that was stamped by a refill. *)
Theorem C01_returned_ids_were_stamped :
  forall W X (B : behav W X) shape b2f too_flush,
  det_keeps_ids B -> forall w ctr h s xs,
  Forall no_append h -> run B shape b2f too_flush (init w ctr) h = (s, xs) ->
  forall l o, In (OutObs l) xs -> In o l -> In (o_tid o) (c_issued s).
Proof.
  exact (fun W X B shape b2f tf D w ctr h s xs Hh Hr =>
    proj2 (run_known B shape b2f tf D h (init w ctr) s xs (fun o (H : In (o, true) []) => match H with end) Hh Hr)).
Qed.
Print Assumptions C01_returned_ids_were_stamped.

Example C01_example :
  let h1 := [OpUpdate (exCond 60000 []); OpRequest None false; OpAdd (ob 9 0 60000)] in
  let h2 := [OpFlush; OpRequest None true] in
  let s1 := fst (exRun exInit h1) in
  let s2 := fst (exRun s1 h2) in
  Forall (no_setctr (X := unit)) (h1 ++ h2) /\
  c_issued s1 = [0; 1; 2]%Z /\ c_reported s1 = [9]%Z /\ c_issued s2 = [0; 1; 2; 10; 11; 12]%Z.
Proof. cbn zeta. split; [repeat constructor|]. vm_compute. auto. Qed.

(** ** C02 *)
Theorem C02_first_tier_first_best :
  forall W X (B : behav W X) shape b2f (s : core W X) c s',
  fill_queue B shape b2f s c = (s', Ok tt) ->
  let RR := all_arrays B (c_w s) 0 shape c in
  (exists t i w1 l l2, chosen RR t i /\
      sv_gen B (world_after B (c_w s) 0 shape (S t) c) t i c = (w1, GArr l) /\
      band_to_filter b2f (stamp (c_ctr s) l) = Ok l2 /\
      c_q s' = q_set l2 /\ c_w s' = w1 /\ c_sidx s' = (Some t, Some i) /\
      c_ctr s' = (c_ctr s + Z.of_nat (List.length l))%Z /\
      c_issued s' = c_issued s ++ map o_tid l2)
  \/ ((forall tier a, In tier RR -> In a tier -> no_usable a) /\
      c_q s' = [] /\ c_ctr s' = c_ctr s /\ c_sidx s' = (None, None) /\ c_issued s' = c_issued s).
Proof. exact @fill_queue_spec. Qed.
Print Assumptions C02_first_tier_first_best.

(** The refill raises nothing when every tier has a survey and the surveys
    return observation arrays. *)
Theorem C02_refill_succeeds :
  forall W X (B : behav W X) shape b2f (s : core W X) c,
  shape <> [] -> Forall (fun n => n <> 0) shape -> b2f = [] ->
  (forall w t i, exists l, snd (sv_gen B w t i c) = GArr l) ->
  snd (fill_queue B shape b2f s c) = Ok tt.
Proof. exact @fill_queue_ok. Qed.
Print Assumptions C02_refill_succeeds.

Example C02_example :
  let s := fst (fill_queue exB exShape [] exInit (exCond 60000 [])) in
  snd (fill_queue exB exShape [] exInit (exCond 60000 [])) = Ok tt /\
  c_sidx s = (Some 1, Some 1) /\ map (fun e => o_tid (fst e)) (c_q s) = [0; 1; 2]%Z /\
  c_sidx (fst (fill_queue exB exShape [] exInit (exCond 60001 []))) = (Some 0, Some 0).
Proof. vm_compute. auto. Qed.

(** ** C03 *)
Theorem C03_completed_never_handed_out :
  forall W X (B : behav W X) shape b2f too_flush,
  det_keeps_ids B -> forall t o (s s' : core W X) ops xs,
  (o = OpAdd t \/ exists l, o = OpAddArr l /\ In t l) ->
  Forall (op_ok (o_tid t)) ops ->
  run B shape b2f too_flush (fst (step B shape b2f too_flush s o)) ops = (s', xs) ->
  forall l ob, In (OutObs l) xs -> In ob l -> o_tid ob <> o_tid t.
Proof. exact @completed_never_again. Qed.
Print Assumptions C03_completed_never_handed_out.

Example C03_example :
  let h := [OpUpdate (exCond 60000 []); OpRequest None true] in
  let s := fst (exRun exInit h) in
  let h2 := [OpRequest None true; OpFlush; OpRequest None false] in
  Forall (op_ok (X := unit) 1) h2 /\
  map (fun x => match x with OutObs l => map o_tid l | _ => [] end)
    (snd (exRun (fst (step exB exShape [] true s (OpAdd (ob 1 0 60000)))) h2)) = [[0; 2]; []; [3]]%Z.
Proof. cbn zeta. split; [repeat constructor; cbn; auto|]. vm_compute. auto. Qed.

(** ** C04 *)
(** Partial: the full statement has no side condition on flush times.  Missing: a
    queue with a flush time within 1e-9 (relative) of the current time, where the
    rounded comparison loosens the expiry test (refuted under C05). *)
Theorem C04_earliest_outstanding_partial :
  forall W X (B : behav W X) shape b2f too_flush (s : core W X) l h c m,
  c_q s = q_set l -> Forall report_op h -> c_cond s = Some c -> ~ (cd_mjd c == 0)%Q ->
  (forall o, In o l -> ((1 # 1000000000) * Qabs (cd_mjd c) < Qabs (cd_mjd c - o_flush o))%Q) ->
  let s2 := fst (run B shape b2f too_flush s h) in
  let g := good (flat_map reported_by h) (cd_mjd c) (qm_ok B (c_w s2) c) in
  (forall o, find g l = Some o -> snd (qm_det B (c_w s2) [o] c) <> [] ->
     snd (request B shape b2f s2 m false) = OutObs (snd (qm_det B (c_w s2) [o] c))) /\
  (forall o r, filter g l = o :: r -> snd (qm_det B (c_w s2) (o :: r) c) <> [] ->
     snd (request B shape b2f s2 m true) = OutObs (snd (qm_det B (c_w s2) (o :: r) c))).
Proof. exact @request_after_reports. Qed.
Print Assumptions C04_earliest_outstanding_partial.

Definition exQ (now : Q) (l : list obs) : core unit unit :=
  mkCore tt (q_set l) 10 [] (Some 1, Some 1) (Some (exCond now [])) [] [].
Example C04_example :
  let l := [ob 0 59000 0; ob 1 0 0; ob 2 61000 0; ob 3 62000 0] in
  let s := exQ 60000 l in
  (forall o, In o l -> ((1 # 1000000000) * Qabs 60000 < Qabs (60000 - o_flush o))%Q) /\
  find (good [1%Z] 60000 (fun _ => true)) l = Some (ob 2 61000 0) /\
  snd (request exB exShape [] (fst (exRun s [OpAdd (ob 1 0 60000)])) None false)
    = OutObs [ob 2 61000 0] /\
  snd (request exB exShape [] (fst (exRun s [OpAdd (ob 1 0 60000)])) None true)
    = OutObs [ob 2 61000 0; ob 3 62000 0].
Proof.
  cbn zeta. split; [|vm_compute; auto].
  intros o [<-|[<-|[<-|[<-|[]]]]]; vm_compute; reflexivity.
Qed.

(** Without the side condition the claim is false: the first unexpired entry is the
    second, whose flush time is this very moment, and its tie loosens the test so that
    the first, expired 0.3 days ago, is handed out; in whole-queue mode it comes along. *)
Theorem C04_tie_refuted :
  exists W X (B : behav W X) shape (s : core W X) l h c o e,
  c_q s = q_set l /\ Forall report_op h /\ c_cond s = Some c /\ ~ (cd_mjd c == 0)%Q /\
  let s2 := fst (run B shape [] true s h) in
  let g := good (flat_map reported_by h) (cd_mjd c) (qm_ok B (c_w s2) c) in
  find g l = Some o /\ filter g l = [o] /\ (o_flush e + (3 # 10) <= cd_mjd c)%Q /\ ~ (o_flush e == 0)%Q /\
  snd (qm_det B (c_w s2) [o] c) = [o] /\ o <> e /\
  snd (request B shape [] s2 None false) = OutObs [e] /\
  snd (request B shape [] s2 None true) = OutObs [e; o].
Proof.
  exists unit, unit, exB, exShape, (exQ (604 # 10) [ob 0 (601 # 10) 0; ob 1 (604 # 10) 0; ob 2 0 0]),
    [ob 0 (601 # 10) 0; ob 1 (604 # 10) 0; ob 2 0 0], [OpAdd (ob 2 0 60)],
    (exCond (604 # 10) []), (ob 1 (604 # 10) 0), (ob 0 (601 # 10) 0).
  split; [reflexivity|]. split; [repeat constructor|]. split; [reflexivity|]. split; [discriminate|].
  cbv zeta. split; [vm_compute; reflexivity|]. split; [vm_compute; reflexivity|]. split; [discriminate|]. split; [discriminate|].
  split; [vm_compute; reflexivity|]. split; [discriminate|]. split; vm_compute; reflexivity.
Qed.
Print Assumptions C04_tie_refuted.

(** ** C05 *)
(** Refuted as stated: an entry that expired 0.3 days ago is handed out because
    another entry's flush time ties with the current time. *)
Theorem C05_expired_not_returned_refuted :
  exists W X (B : behav W X) shape (s : core W X) c o,
  det_keeps_ids B /\ c_cond s = Some c /\ ~ (o_flush o == 0)%Q /\
  (o_flush o + (3 # 10) <= cd_mjd c)%Q /\
  snd (request B shape [] s None false) = OutObs [o].
Proof.
  exists unit, unit, exB, exShape, (exQ (604 # 10) [ob 0 (601 # 10) 0; ob 1 (604 # 10) 0]),
    (exCond (604 # 10) []), (ob 0 (601 # 10) 0).
  split; [intros w l c o H; exact (in_map o_tid l o H)|].
  split; [reflexivity|]. split; [discriminate|]. split; [discriminate|]. vm_compute. reflexivity.
Qed.
Print Assumptions C05_expired_not_returned_refuted.

(** What does hold without any proviso: an entry handed out is unmasked and is
    never more than one day past its flush time. *)
Theorem C05_at_most_one_day_late :
  forall W X (B : behav W X) shape b2f (s : core W X) c m whole s' l,
  c_cond s = Some c -> request B shape b2f s m whole = (s', OutObs l) ->
  exists w es, l = snd (qm_det B w es c) /\ es <> [] /\
    forall o, In o es -> qm_ok B w c o = true /\
       ((o_flush o == 0)%Q \/ (cd_mjd c <= o_flush o + 1)%Q).
Proof. exact @request_live. Qed.
Print Assumptions C05_at_most_one_day_late.

(** Away from ties the queue hands out exactly the unexpired entries. *)
Theorem C05_exact_without_ties : forall now ok q, ~ (now == 0)%Q -> no_near_tie now q ->
  q_valid now ok q =
  map fst (filter (fun e => (Qle_bool now (o_flush (fst e)) || Qeq_bool (o_flush (fst e)) 0)
                            && snd e && ok (fst e)) q).
Proof. exact q_valid_exact. Qed.
Print Assumptions C05_exact_without_ties.

Example C05_example :
  q_valid 60000 (fun _ => true) (q_set [ob 0 59999 0; ob 1 60001 0; ob 2 0 0])
    = [ob 1 60001 0; ob 2 0 0].
Proof. vm_compute. reflexivity. Qed.

(** ** C06 *)
(** Refuted: the entry has expired at the time passed in, yet it is returned. *)
Theorem C06_mjd_argument_honoured_refuted :
  exists W X (B : behav W X) shape (s : core W X) t o,
  ~ (o_flush o == 0)%Q /\ (o_flush o + 1000 <= t)%Q /\
  snd (request B shape [] s (Some t) false) = OutObs [o].
Proof.
  exists unit, unit, exB, exShape, (exQ 60000 [ob 0 60005 0]), 62000%Q, (ob 0 60005 0).
  split; [discriminate|]. split; [discriminate|]. vm_compute. reflexivity.
Qed.
Print Assumptions C06_mjd_argument_honoured_refuted.

(** ** C07 *)
(** A [None] answer means that a refill took place in this very call (from the
    state at hand or from an emptied queue) and that nothing of what it queued
    is acceptable.  By C02 the refill either found no usable tier or queued
    the output of the best survey. *)
Theorem C07_none_only_after_refill :
  forall W X (B : behav W X) shape b2f (s : core W X) c m whole s',
  c_cond s = Some c -> request B shape b2f s m whole = (s', OutNone) ->
  exists s0 sf, c_ctr s0 = c_ctr s /\ (s0 = s \/ c_q s0 = []) /\
    fill_queue B shape b2f s0 c = (sf, Ok tt) /\ snd (qm_request B sf c whole) = [].
Proof. exact @request_none. Qed.
Print Assumptions C07_none_only_after_refill.

(** Conversely the queue is kept as long as something in it is acceptable. *)
Theorem C07_queue_kept_while_valid :
  forall W X (B : behav W X) shape b2f (s : core W X) c m whole s2 o l,
  c_cond s = Some c -> qm_request B s c whole = (s2, o :: l) ->
  request B shape b2f s m whole = (s2, OutObs (o :: l)) /\ c_q s2 = c_q s.
Proof. exact @request_keeps_queue. Qed.
Print Assumptions C07_queue_kept_while_valid.

Example C07_example :
  (* the only entry expired long ago: the queue is refilled in the same call *)
  snd (request exB exShape [] (exQ 60000 [ob 0 59000 0]) None false) = OutObs [set_tid 10 (ob 0 60000 0)] /\
  (* everything generated is rejected again *)
  snd (request exB exShape [] (exQ 60010 [ob 0 59000 0]) None false) = OutNone.
Proof. vm_compute. auto. Qed.

(** ** C08 *)
Theorem C08_alert_flushes_at_most_once :
  forall W X (B : behav W X) shape b2f too_flush, too_flush = true -> forall w ctr h c,
  let s := fst (run B shape b2f too_flush (init w ctr) h) in
  let s' := fst (step B shape b2f too_flush s (OpUpdate c)) in
  ((exists a, In a (cd_toos c) /\ t_flush a = true /\ ~ In (t_id a) (flat_map op_too_ids h)) ->
     c_q s' = [] /\ c_sidx s' = (None, None)) /\
  (~ (exists a, In a (cd_toos c) /\ t_flush a = true /\ ~ In (t_id a) (flat_map op_too_ids h)) ->
     c_q s' = c_q s /\ c_sidx s' = c_sidx s).
Proof. exact @too_flush_once. Qed.
Print Assumptions C08_alert_flushes_at_most_once.

Example C08_example :
  let h := [OpUpdate (exCond 60000 []); OpRequest None false;
            OpUpdate (exCond 60000 [mkToo 5 true]); OpRequest None false] in
  let s := fst (exRun exInit h) in
  q_count (c_q (fst (exRun exInit (firstn 3 h)))) = 0 /\
  q_count (c_q (fst (step exB exShape [] true s (OpUpdate (exCond 60000 [mkToo 5 true]))))) = 3 /\
  q_count (c_q (fst (step exB exShape [] true s (OpUpdate (exCond 60000 [mkToo 5 true; mkToo 6 true]))))) = 0.
Proof. vm_compute. auto. Qed.

(** ** C09 *)
Theorem C09_scheduled_list :
  forall W X (B : behav W X) shape too_flush (s : core W X) c,
  let s' := update_conditions B shape too_flush s c in
  exists c', c_cond s' = Some c' /\ cd_mjd c' = cd_mjd c /\
    StronglySorted Qle (cd_sched c') /\
    Permutation (cd_sched c')
      (filter (fun t => Qle_bool (cd_mjd c) t)
         (flat_map (fun p => match sv_sched B (c_w s') (fst p) (snd p) with
                             | None => [] | Some l => l end) (all_idx shape))).
Proof. exact @scheduled_spec. Qed.
Print Assumptions C09_scheduled_list.

(** [all_idx] really ranges over all surveys, each once. *)
Theorem C09_all_surveys_once : forall shape,
  NoDup (all_idx shape) /\
  forall t i, In (t, i) (all_idx shape) <-> exists n, nth_error shape t = Some n /\ i < n.
Proof. exact (fun shape => conj (idx_from_nodup shape 0) (all_idx_in shape)). Qed.
Print Assumptions C09_all_surveys_once.

Example C09_example :
  match c_cond (update_conditions exB exShape true exInit (exCond 60000 [])) with
  | Some c => cd_sched c = [60001%Q; 60003%Q] | None => False end.
Proof. vm_compute. reflexivity. Qed.

(** ** C10 *)
Theorem C10_batch_equals_single : forall W X (B : behav W X) shape (s : core W X) l l',
  Permutation l l' ->
  c_q (fst (add_arr B shape s l)) = c_q (fold_left (add_obs B shape) l' s).
Proof. exact @batch_equals_single_queue. Qed.
Print Assumptions C10_batch_equals_single.

Theorem C10_batch_equals_single_counter : forall W X (B : behav W X) shape (s : core W X) l l',
  l <> [] -> Permutation l l' ->
  c_ctr (fst (add_arr B shape s l)) = c_ctr (fold_left (add_obs B shape) l' s).
Proof. exact @batch_equals_single_ctr. Qed.
Print Assumptions C10_batch_equals_single_counter.

Example C10_example :
  map snd (c_q (fst (add_arr exB exShape (exQ 60000 [ob 0 0 0; ob 1 0 0; ob 2 0 0]) [ob 2 0 2; ob 0 0 1])))
    = [false; true; false].
Proof. vm_compute. reflexivity. Qed.

(** ** C11 *)
(** For a non-empty queue the queue manager's basis functions and detailers see
    the same observations (up to order). *)
Theorem C11_batch_equals_single_nonempty :
  forall fr fn shape (s : core (list call) unit) l,
  l <> [] -> c_q s <> [] ->
  Permutation (qm_seen (c_w (fst (add_arr (recB fr fn) shape s l))))
              (qm_seen (c_w (fold_left (add_obs (recB fr fn) shape) l s))).
Proof. exact batch_qm_nonempty. Qed.
Print Assumptions C11_batch_equals_single_nonempty.

(** Refuted in general: with an empty queue a batch of two or more is not shown
    to them at all, although single reports would be. *)
Theorem C11_batch_equals_single_refuted :
  forall fr fn shape (s : core (list call) unit) l,
  2 <= List.length l -> c_q s = [] ->
  qm_seen (c_w (fst (add_arr (recB fr fn) shape s l))) = qm_seen (c_w s) /\
  qm_seen (c_w (fold_left (add_obs (recB fr fn) shape) l s)) = qm_seen (c_w s) ++ map backfill_band l.
Proof. exact batch_qm_empty. Qed.
Print Assumptions C11_batch_equals_single_refuted.

Example C11_example :
  let s : core (list call) unit := mkCore [] (q_set [ob 5 0 0]) 0 [] (None, None) None [] [] in
  let e : core (list call) unit := init [] 0 in
  let B := recB (fun _ => [1]%Z) (fun _ => [1]%Z) in
  qm_seen (c_w (fst (add_arr B [1; 2] s [ob 2 0 2; ob 0 0 1]))) = [ob 0 0 1; ob 2 0 2] /\
  qm_seen (c_w (fst (add_arr B [1; 2] e [ob 2 0 2; ob 0 0 1]))) = [].
Proof. vm_compute. auto. Qed.

(** ** C12 *)
Theorem C12_rows_exactly_once :
  forall fr fn shape (s : core (list call) unit) l t i n,
  2 <= List.length l -> c_w s = [] -> nth_error shape t = Some n -> i < n ->
  let log := c_w (fst (add_arr (recB fr fn) shape s l)) in
  Permutation (sv_visits t i log) (map backfill_band l) /\
  StronglySorted by_mjd (sv_visits t i log) /\
  rows_ok fn (sv_visits t i log) (sv_seen t i log).
Proof. exact batch_rows. Qed.
Print Assumptions C12_rows_exactly_once.

(** With a footprint independent of camera rotation, single and batch reports
    give every survey the same rows. *)
Theorem C12_batch_equals_single_rows :
  forall fp shape (s : core (list call) unit) l t i n,
  l <> [] -> nth_error shape t = Some n -> i < n ->
  Permutation (sv_seen t i (c_w (fst (add_arr (recB fp fp) shape s l))))
              (sv_seen t i (c_w (fold_left (add_obs (recB fp fp) shape) l s))).
Proof. exact batch_single_rows. Qed.
Print Assumptions C12_batch_equals_single_rows.

(** Refuted for a footprint that depends on rotation: the batch path drops the
    rotation angle ([fp_norot] is the footprint at the default angle). *)
Theorem C12_batch_equals_single_rows_refuted :
  exists (fp : obs -> Q -> list Z) shape (s : core (list call) unit) l,
  let B := recB (fun o => fp o (o_rsp o)) (fun o => fp o 0%Q) in
  ~ Permutation (sv_seen 0 0 (c_w (fst (add_arr B shape s l))))
                (sv_seen 0 0 (c_w (fold_left (add_obs B shape) l s))).
Proof.
  exists (fun _ a => if Qeq_bool a 0 then [1%Z] else [2%Z]), [1], (init [] 0).
  exists [mkObs 0 0 1 0 0 0 0 1 30 1 "r"%string ""%string ""%string;
          mkObs 0 1 2 0 0 0 0 1 30 1 "r"%string ""%string ""%string].
  cbv zeta. vm_compute. intros P. apply (Permutation_map snd) in P. vm_compute in P.
  assert (K : In 1%Z [2%Z; 2%Z]) by (apply (Permutation_in _ P); now left).
  destruct K as [K|[K|[]]]; discriminate.
Qed.
Print Assumptions C12_batch_equals_single_rows_refuted.

Example C12_example :
  let B := recB (fun _ => []) (fun o => if Z.eqb (o_tid o) 0 then [4; 5]%Z else [6]%Z) in
  map snd (sv_seen 1 0 (c_w (fst (add_arr B [1; 1] (init [] 0) [ob 2 0 2; ob 0 0 1])))) = [4; 5; 6]%Z.
Proof. vm_compute. reflexivity. Qed.

(** ** C46 *)
(** Over any history, whatever the surveys do, each survey in the lists is shown
    exactly the conditions updates and reported visits of that history, each
    once and in order ([shown]: one entry per update or report; batches sorted by
    time), and nothing by any other operation. *)
Theorem C46_conditions_reach_all_surveys :
  forall (W X : Type) (B : behav W X) shape b2f tf h w0 z t i n,
  nth_error shape t = Some n -> i < n ->
  seen_by t i (snd (c_w (fst (run (recW B) shape b2f tf (init (w0, []) z) h)))) = flat_map shown h.
Proof. intros W X B shape b2f tf h w0 z t i n Hn Hi. exact (run_shown B shape b2f tf h (init (w0, []) z) t i n Hn Hi). Qed.
Print Assumptions C46_conditions_reach_all_surveys.

Example C46_example :
  let c := exCond 60000 [] in
  seen_by 1 2 (snd (c_w (fst (run (recW exB) [1; 3] [] false (init (tt, []) 0)
     [OpUpdate c; OpRequest None false; OpAddArr [ob 2 0 2; ob 0 0 1]])))) = [LU c; LA [ob 0 0 1; ob 2 0 2]].
Proof. vm_compute. reflexivity. Qed.
