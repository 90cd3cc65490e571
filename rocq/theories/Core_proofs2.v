(** More facts about the core scheduler: requests after reports, expiry, batch
    fan-out. *)
From Coq Require Import List ZArith QArith Bool String Lia Permutation Sorted.
From Verif Require Import Base IntRounded Obs Queue Core Core_proofs.
Import ListNotations.
Open Scope nat_scope.

Section Facts.
Context {W X : Type}.
Variable B : behav W X.
Variable shape : list nat.
Variable b2f : list (string * string).
Variable too_flush : bool.
Notation core := (core W X).

(** Operations that only report completed observations, and the ids reported. *)
Definition report_op (o : op (X := X)) : Prop :=
  match o with OpAdd _ | OpAddArr _ | OpMark _ => True | _ => False end.
Definition reported_by (o : op (X := X)) : list Z :=
  match o with OpAdd o => [o_tid o] | OpAddArr l => map o_tid l | OpMark t => [t] | _ => [] end.

Lemma step_report_q : forall (s : core) o, report_op o ->
  c_q (fst (step B shape b2f too_flush s o)) = q_mark_many (reported_by o) (c_q s) /\
  c_cond (fst (step B shape b2f too_flush s o)) = c_cond s.
Proof.
  intros s o H. destruct o as [c|m w|o|l| |l|t0|z]; try contradiction; cbn [step fst reported_by].
  - rewrite add_obs_q, q_mark_many_single. split; reflexivity.
  - pose proof (add_arr_q B shape s l) as Q.
    assert (C : c_cond (fst (add_arr B shape s l)) = c_cond s).
    { unfold add_arr. destruct l as [|o1 [|o2 l]]; [reflexivity|reflexivity|].
      destruct (map o_tid (o_sort (map backfill_band (o1 :: o2 :: l)))); [reflexivity|].
      destruct (match c_q s with [] => _ | _ => _ end). reflexivity. }
    destruct (add_arr B shape s l) as [s1 r]. cbn [fst] in *. auto.
  - rewrite q_mark_many_single. split; reflexivity.
Qed.

Lemma run_report_q : forall h (s : core), Forall report_op h ->
  c_q (fst (run B shape b2f too_flush s h)) = q_mark_many (flat_map reported_by h) (c_q s) /\
  c_cond (fst (run B shape b2f too_flush s h)) = c_cond s.
Proof.
  induction h as [|o r IH]; intros s H; cbn [run flat_map].
  - cbn. split; [|reflexivity]. unfold q_mark_many. cbn. symmetry. apply map_id.
  - inversion H; subst. destruct (step_report_q s o H2) as [E1 E2].
    destruct (step B shape b2f too_flush s o) as [s1 x]. cbn [fst] in *.
    destruct (IH s1 H3) as [F1 F2].
    destruct (run B shape b2f too_flush s1 r) as [s2 xs]. cbn [fst] in *.
    rewrite F1, F2, E1, E2, q_mark_many_app. auto.
Qed.

(** An entry of the queued list is good: not reported, not expired, not masked. *)
Definition good (rep : list Z) (now : Q) (ok : obs -> bool) (o : obs) : bool :=
  negb (existsb (Z.eqb (o_tid o)) rep) &&
  (Qeq_bool (o_flush o) 0 || Qle_bool now (o_flush o)) && ok o.

Lemma marked_valid : forall rep now ok l, ~ (now == 0)%Q ->
  (forall o, In o l -> ((1 # 1000000000) * Qabs.Qabs now < Qabs.Qabs (now - o_flush o))%Q) ->
  q_valid now ok (q_mark_many rep (q_set l)) = filter (good rep now ok) l.
Proof.
  intros rep now ok l Hn Ht. rewrite q_valid_exact; auto.
  - clear. induction l as [|o r IH]; [reflexivity|]. cbn [q_set map q_mark_many filter fst].
    change (map (fun o => (o, true)) r) with (q_set r).
    fold (q_mark_many rep (q_set r)).
    unfold good at 1, exact_live at 1. destruct (existsb (Z.eqb (o_tid o)) rep); cbn [fst snd negb andb].
    + rewrite andb_false_r. exact IH.
    + rewrite (orb_comm (Qeq_bool _ _)), andb_true_r.
      destruct ((Qle_bool now (o_flush o) || Qeq_bool (o_flush o) 0) && ok o); cbn [map fst]; now rewrite IH.
  - intros e He. unfold q_mark_many in He. apply in_map_iff in He. destruct He as [[o b] [<- He]].
    apply in_q_set in He. destruct He as [_ He]. specialize (Ht o He).
    cbn [fst]. destruct (existsb _ _); exact Ht.
Qed.

Lemma request_after_reports : forall (s : core) l h c m,
  c_q s = q_set l -> Forall report_op h -> c_cond s = Some c -> ~ (cd_mjd c == 0)%Q ->
  (forall o, In o l -> ((1 # 1000000000) * Qabs.Qabs (cd_mjd c) < Qabs.Qabs (cd_mjd c - o_flush o))%Q) ->
  let s2 := fst (run B shape b2f too_flush s h) in
  let g := good (flat_map reported_by h) (cd_mjd c) (qm_ok B (c_w s2) c) in
  (forall o, find g l = Some o -> snd (qm_det B (c_w s2) [o] c) <> [] ->
     snd (request B shape b2f s2 m false) = OutObs (snd (qm_det B (c_w s2) [o] c))) /\
  (forall o r, filter g l = o :: r -> snd (qm_det B (c_w s2) (o :: r) c) <> [] ->
     snd (request B shape b2f s2 m true) = OutObs (snd (qm_det B (c_w s2) (o :: r) c))).
Proof.
  intros s l h c m Hq Hh Hc Hn Ht s2 g.
  destruct (run_report_q h s Hh) as [E1 E2]. fold s2 in E1, E2. rewrite Hq in E1. rewrite Hc in E2.
  assert (HV : q_valid (cd_mjd c) (qm_ok B (c_w s2) c) (c_q s2) = filter g l).
  { rewrite E1. now apply marked_valid. }
  assert (HR : forall whole o r, q_request (cd_mjd c) (qm_ok B (c_w s2) c) whole (c_q s2) = o :: r ->
     snd (qm_det B (c_w s2) (o :: r) c) <> [] ->
     snd (request B shape b2f s2 m whole) = OutObs (snd (qm_det B (c_w s2) (o :: r) c))).
  { intros whole o r HQ HN.
    destruct (qm_det B (c_w s2) (o :: r) c) as [w' l'] eqn:ED. cbn [snd] in *.
    destruct l' as [|o' l']; [congruence|].
    assert (HQR : qm_request B s2 c whole = (upd_w s2 w', o' :: l')).
    { unfold qm_request. rewrite HQ, ED. reflexivity. }
    destruct (request_keeps_queue B shape b2f s2 c m whole _ _ _ E2 HQR) as [-> _]. reflexivity. }
  split.
  - intros o Hf HN. apply HR; auto. unfold q_request. rewrite HV.
    clear -Hf. induction l as [|x r IH]; [discriminate|]. cbn [find filter] in *. destruct (g x).
    + injection Hf as ->. reflexivity.
    + auto.
  - intros o r Hf HN. apply HR; auto. unfold q_request. now rewrite HV.
Qed.

(** What a request returns comes out of the detailers applied to unexpired,
    unmasked, outstanding entries of the (possibly refilled) queue. *)
Lemma request_live : forall (s : core) c m whole s' l,
  c_cond s = Some c -> request B shape b2f s m whole = (s', OutObs l) ->
  exists w es, l = snd (qm_det B w es c) /\ es <> [] /\
    forall o, In o es -> qm_ok B w c o = true /\
       ((o_flush o == 0)%Q \/ (cd_mjd c <= o_flush o + 1)%Q).
Proof.
  intros s c m whole s' l Hc H.
  assert (HQ : forall (s1 s2 : core) r, qm_request B s1 c whole = (s2, r) -> r <> [] ->
    exists w es, r = snd (qm_det B w es c) /\ es <> [] /\
    forall o, In o es -> qm_ok B w c o = true /\ ((o_flush o == 0)%Q \/ (cd_mjd c <= o_flush o + 1)%Q)).
  { intros s1 s2 r HQ Hr. unfold qm_request in HQ.
    destruct (q_request (cd_mjd c) (qm_ok B (c_w s1) c) whole (c_q s1)) as [|x y] eqn:E.
    - injection HQ as _ <-. congruence.
    - destruct (qm_det B (c_w s1) (x :: y) c) as [w' l'] eqn:ED. injection HQ as _ <-.
      exists (c_w s1), (x :: y). rewrite ED. split; [reflexivity|]. split; [discriminate|].
      intros o Ho. rewrite <- E in Ho. apply q_request_in, q_valid_in in Ho.
      destruct Ho as (_ & H1 & H2). split; [exact H1|tauto]. }
  unfold request in H. rewrite Hc in H.
  destruct (if Nat.eqb (q_count (c_q s)) 0 then fill_queue B shape b2f s c else (s, Ok tt)) as [s1 [u|e]];
    [|discriminate].
  destruct (Nat.eqb (q_count (c_q s1)) 0); [discriminate|].
  destruct (qm_request B s1 c whole) as [s2 l2] eqn:E2. destruct l2 as [|o l2].
  - destruct (fill_queue B shape b2f (upd_q s2 q_flush) c) as [s3 [u3|e]]; [|discriminate].
    destruct (qm_request B s3 c whole) as [s4 l4] eqn:E4. destruct l4 as [|o l4]; [discriminate|].
    injection H as <- <-. eapply HQ; eauto. discriminate.
  - injection H as <- <-. eapply HQ; eauto. discriminate.
Qed.

End Facts.

(** ** Sorting by time *)
Definition by_mjd (a b : obs) : Prop := (o_mjd a <= o_mjd b)%Q.
Lemma o_insert_sorted : forall x l, StronglySorted by_mjd l -> StronglySorted by_mjd (o_insert x l).
Proof.
  induction l as [|y r IH]; intros H; cbn; [repeat constructor|].
  inversion H; subst. destruct (Qle_bool (o_mjd x) (o_mjd y)) eqn:E.
  - apply Qle_bool_iff in E. constructor; [exact H|]. constructor; [exact E|].
    eapply Forall_impl; [|exact H3]. intros a Ha. unfold by_mjd in *. eapply Qle_trans; eauto.
  - apply Qle_bool_false in E. constructor; [now apply IH|].
    apply (Permutation_Forall (Permutation_sym (o_insert_perm x r))).
    constructor; [now apply Qlt_le_weak|exact H3].
Qed.
Lemma o_sort_sorted : forall l, StronglySorted by_mjd (o_sort l).
Proof. induction l as [|x r IH]; cbn; [constructor|]. now apply o_insert_sorted. Qed.

(** ** A recording world: every call into a survey or the queue manager is
    appended to a log, nothing else happens. *)
Inductive call : Type :=
| CSv (t i : nat) (l : list obs) (rows : list (obs * Z))
| CQm (l : list obs).

Definition recB (fr fn : obs -> list Z) : behav (list call) unit :=
  mkBehav (list call) unit
    (fun w _ _ _ => (w, [])) (fun w _ _ _ => (w, GPyList))
    (fun w t i o hp => w ++ [CSv t i [o] (map (fun h => (o, h)) hp)])
    (fun w t i l rows => w ++ [CSv t i l rows])
    (fun w _ _ _ => w) (fun _ _ _ => None) (fun _ _ _ => true) (fun w l _ => (w, l))
    (fun w o => w ++ [CQm [o]]) (fun w l _ => w ++ [CQm l]) fr fn.

Definition qm_seen (log : list call) : list obs :=
  flat_map (fun c => match c with CQm l => l | _ => [] end) log.
Definition sv_seen (t i : nat) (log : list call) : list (obs * Z) :=
  flat_map (fun c => match c with
     | CSv t' i' _ rows => if Nat.eqb t t' && Nat.eqb i i' then rows else [] | _ => [] end) log.
Definition sv_visits (t i : nat) (log : list call) : list obs :=
  flat_map (fun c => match c with
     | CSv t' i' l _ => if Nat.eqb t t' && Nat.eqb i i' then l else [] | _ => [] end) log.

Lemma fold_log : forall (f : nat * nat -> call) ps (w : list call),
  fold_left (fun w p => w ++ [f p]) ps w = w ++ map f ps.
Proof.
  intros f. induction ps as [|p r IH]; intros w; cbn; [now rewrite app_nil_r|].
  rewrite IH, <- app_assoc. reflexivity.
Qed.

Lemma add_obs_log : forall fr fn shape (s : core (list call) unit) o,
  c_w (add_obs (recB fr fn) shape s o) =
  c_w s ++ map (fun p => CSv (fst p) (snd p) [backfill_band o] (map (fun h => (backfill_band o, h)) (fr (backfill_band o))))
               (all_idx shape) ++ [CQm [backfill_band o]].
Proof.
  intros. unfold add_obs. cbn -[fold_left].
  rewrite (fold_log (fun p => CSv (fst p) (snd p) [backfill_band o] (map (fun h => (backfill_band o, h)) (fr (backfill_band o))))).
  now rewrite <- app_assoc.
Qed.

Lemma add_arr_log : forall fr fn shape (s : core (list call) unit) o1 o2 l,
  let ll := o1 :: o2 :: l in
  let l0 := o_sort (map backfill_band ll) in
  c_w (fst (add_arr (recB fr fn) shape s ll)) =
  c_w s ++ map (fun p => CSv (fst p) (snd p) l0 (flatten_hp fn l0)) (all_idx shape)
        ++ (match c_q s with [] => [] | _ => [CQm l0] end).
Proof.
  intros. unfold add_arr. unfold ll. fold ll. fold l0.
  destruct (map o_tid l0) as [|t ts] eqn:E.
  { pose proof (sort_tids ll) as P. fold l0 in P. rewrite E in P. apply Permutation_nil in P. discriminate. }
  cbn -[fold_left flatten_hp].
  rewrite (fold_log (fun p => CSv (fst p) (snd p) l0 (flatten_hp fn l0))).
  destruct (c_q s); cbn; [now rewrite app_nil_r|now rewrite <- app_assoc].
Qed.

Lemma qm_seen_app : forall a b, qm_seen (a ++ b) = qm_seen a ++ qm_seen b.
Proof. intros. unfold qm_seen. apply flat_map_app. Qed.
Lemma qm_seen_sv : forall a b ps,
  qm_seen (map (fun p => CSv (fst p) (snd p) a b) ps) = [].
Proof. intros a b. induction ps; cbn; auto. Qed.

Lemma fold_add_log_qm : forall fr fn shape l (s : core (list call) unit),
  qm_seen (c_w (fold_left (add_obs (recB fr fn) shape) l s)) =
  qm_seen (c_w s) ++ map backfill_band l.
Proof.
  intros fr fn shape. induction l as [|o r IH]; intros s; cbn [fold_left map]; [now rewrite app_nil_r|].
  rewrite IH, add_obs_log, !qm_seen_app.
  rewrite qm_seen_sv.
  cbn. now rewrite <- app_assoc.
Qed.

Lemma batch_qm_nonempty : forall fr fn shape (s : core (list call) unit) l,
  l <> [] -> c_q s <> [] ->
  Permutation (qm_seen (c_w (fst (add_arr (recB fr fn) shape s l))))
              (qm_seen (c_w (fold_left (add_obs (recB fr fn) shape) l s))).
Proof.
  intros fr fn shape s l Hl Hq. rewrite fold_add_log_qm.
  destruct l as [|o1 [|o2 l]]; [congruence| |].
  - cbn [add_arr fst]. change (add_obs (recB fr fn) shape s o1) with (fold_left (add_obs (recB fr fn) shape) [o1] s).
    now rewrite fold_add_log_qm.
  - rewrite add_arr_log, !qm_seen_app. destruct (c_q s); [congruence|].
    rewrite qm_seen_sv. cbn [app].
    apply Permutation_app_head. unfold qm_seen. cbn [flat_map]. rewrite app_nil_r. apply o_sort_perm.
Qed.

Lemma batch_qm_empty : forall fr fn shape (s : core (list call) unit) l,
  2 <= List.length l -> c_q s = [] ->
  qm_seen (c_w (fst (add_arr (recB fr fn) shape s l))) = qm_seen (c_w s) /\
  qm_seen (c_w (fold_left (add_obs (recB fr fn) shape) l s)) = qm_seen (c_w s) ++ map backfill_band l.
Proof.
  intros fr fn shape s l Hl Hq. split; [|apply fold_add_log_qm].
  destruct l as [|o1 [|o2 l]]; cbn in Hl; try lia.
  rewrite add_arr_log, !qm_seen_app, Hq.
  rewrite qm_seen_sv. apply app_nil_r.
Qed.

(** ** Rows given to the surveys *)

(** [rows] lists for each visit, in order, one row per pixel of its footprint. *)
Definition rows_ok (fp : obs -> list Z) (visits : list obs) (rows : list (obs * Z)) : Prop :=
  exists blocks, rows = List.concat blocks /\
    Forall2 (fun o b => map snd b = fp o /\ forall r, In r b -> fst r = o) visits blocks.

Lemma flatten_ok : forall fp l, rows_ok fp l (flatten_hp fp l).
Proof.
  intros fp l. exists (map (fun o => map (fun h => (o, h)) (fp o)) l). split.
  - induction l as [|o r IH]; cbn; [reflexivity|]. now rewrite IH.
  - induction l as [|o r IH]; cbn; constructor; auto. split.
    + rewrite map_map. cbn. apply map_id.
    + intros x Hx. apply in_map_iff in Hx. destruct Hx as [h [<- _]]. reflexivity.
Qed.

Lemma sel_unique : forall (A : Type) t i (v : list A) ps, NoDup ps ->
  flat_map (fun p : nat * nat => if Nat.eqb t (fst p) && Nat.eqb i (snd p) then v else []) ps =
  if existsb (fun p => Nat.eqb t (fst p) && Nat.eqb i (snd p)) ps then v else [].
Proof.
  intros A t i v. induction ps as [|[a b] r IH]; intros N; cbn [flat_map existsb fst snd]; [reflexivity|].
  inversion N; subst. rewrite IH by assumption.
  destruct (Nat.eqb t a && Nat.eqb i b) eqn:E; cbn [orb]; [|reflexivity].
  apply andb_true_iff in E. destruct E as [E1 E2]. apply Nat.eqb_eq in E1. apply Nat.eqb_eq in E2. subst.
  replace (existsb _ r) with false; [apply app_nil_r|]. symmetry.
  destruct (existsb (fun p => Nat.eqb a (fst p) && Nat.eqb b (snd p)) r) eqn:EX; [|reflexivity].
  exfalso. apply existsb_exists in EX. destruct EX as [[c d] [Hin E]]. cbn in E.
  apply andb_true_iff in E. destruct E as [E1 E2]. apply Nat.eqb_eq in E1. apply Nat.eqb_eq in E2. subst. contradiction.
Qed.

Lemma flat_map_map' : forall A B C (f : B -> list C) (g : A -> B) l,
  flat_map f (map g l) = flat_map (fun x => f (g x)) l.
Proof. induction l as [|x r IH]; cbn; [reflexivity|]. now rewrite IH. Qed.

Lemma batch_rows : forall fr fn shape (s : core (list call) unit) l t i n,
  2 <= List.length l -> c_w s = [] -> nth_error shape t = Some n -> i < n ->
  let log := c_w (fst (add_arr (recB fr fn) shape s l)) in
  Permutation (sv_visits t i log) (map backfill_band l) /\
  StronglySorted by_mjd (sv_visits t i log) /\
  rows_ok fn (sv_visits t i log) (sv_seen t i log).
Proof.
  intros fr fn shape s l t i n Hl Hw Ht Hi.
  destruct l as [|o1 [|o2 l]]; cbn in Hl; try lia. cbn zeta. rewrite add_arr_log, Hw. cbn [app].
  set (l0 := o_sort (map backfill_band (o1 :: o2 :: l))).
  assert (Hex : existsb (fun p => Nat.eqb t (fst p) && Nat.eqb i (snd p)) (all_idx shape) = true).
  { apply existsb_exists. exists (t, i). split; [apply all_idx_in; eauto|]. cbn. now rewrite !Nat.eqb_refl. }
  assert (N : NoDup (all_idx shape)) by apply idx_from_nodup.
  assert (E1 : sv_visits t i (map (fun p => CSv (fst p) (snd p) l0 (flatten_hp fn l0)) (all_idx shape) ++
                match c_q s with [] => [] | _ => [CQm l0] end) = l0).
  { unfold sv_visits. rewrite flat_map_app, flat_map_map', sel_unique, Hex by exact N. destruct (c_q s); cbn; apply app_nil_r. }
  assert (E2 : sv_seen t i (map (fun p => CSv (fst p) (snd p) l0 (flatten_hp fn l0)) (all_idx shape) ++
                match c_q s with [] => [] | _ => [CQm l0] end) = flatten_hp fn l0).
  { unfold sv_seen. rewrite flat_map_app, flat_map_map', sel_unique, Hex by exact N. destruct (c_q s); cbn; apply app_nil_r. }
  rewrite E1, E2. split; [apply o_sort_perm|]. split; [apply o_sort_sorted|apply flatten_ok].
Qed.

Lemma sv_seen_app : forall t i a b, sv_seen t i (a ++ b) = sv_seen t i a ++ sv_seen t i b.
Proof. intros. unfold sv_seen. apply flat_map_app. Qed.

Lemma single_rows : forall fr fn shape l (s : core (list call) unit) t i n,
  nth_error shape t = Some n -> i < n ->
  sv_seen t i (c_w (fold_left (add_obs (recB fr fn) shape) l s)) =
  sv_seen t i (c_w s) ++ flatten_hp fr (map backfill_band l).
Proof.
  intros fr fn shape l s t i n Ht Hi.
  assert (Hex : existsb (fun p => Nat.eqb t (fst p) && Nat.eqb i (snd p)) (all_idx shape) = true).
  { apply existsb_exists. exists (t, i). split; [apply all_idx_in; eauto|]. cbn. now rewrite !Nat.eqb_refl. }
  assert (N : NoDup (all_idx shape)) by apply idx_from_nodup.
  revert s. induction l as [|o r IH]; intros s; cbn [fold_left map flatten_hp]; [now rewrite app_nil_r|].
  rewrite IH, add_obs_log, !sv_seen_app. rewrite <- !app_assoc. f_equal.
  unfold sv_seen at 1. rewrite flat_map_map', sel_unique, Hex by exact N. reflexivity.
Qed.

Lemma flatten_perm : forall fp l l', Permutation l l' -> Permutation (flatten_hp fp l) (flatten_hp fp l').
Proof.
  intros fp l l' H. induction H; cbn; auto.
  - now apply Permutation_app_head.
  - rewrite !app_assoc. apply Permutation_app_tail, Permutation_app_comm.
  - eapply Permutation_trans; eauto.
Qed.

(** With a footprint that ignores the camera rotation the rows seen by every
    survey agree up to order; with one that does not they may differ. *)
Lemma batch_single_rows : forall fp shape (s : core (list call) unit) l t i n,
  l <> [] -> nth_error shape t = Some n -> i < n ->
  Permutation (sv_seen t i (c_w (fst (add_arr (recB fp fp) shape s l))))
              (sv_seen t i (c_w (fold_left (add_obs (recB fp fp) shape) l s))).
Proof.
  intros fp shape s l t i n Hl Ht Hi. rewrite (single_rows fp fp shape l s t i n Ht Hi).
  destruct l as [|o1 [|o2 l]]; [congruence| |].
  - cbn [add_arr fst]. change (add_obs (recB fp fp) shape s o1) with (fold_left (add_obs (recB fp fp) shape) [o1] s).
    rewrite (single_rows fp fp shape [o1] s t i n Ht Hi). reflexivity.
  - rewrite add_arr_log, !sv_seen_app. apply Permutation_app_head.
    assert (Hex : existsb (fun p => Nat.eqb t (fst p) && Nat.eqb i (snd p)) (all_idx shape) = true).
    { apply existsb_exists. exists (t, i). split; [apply all_idx_in; eauto|]. cbn. now rewrite !Nat.eqb_refl. }
    assert (N : NoDup (all_idx shape)) by apply idx_from_nodup.
    unfold sv_seen at 1. rewrite flat_map_map', sel_unique, Hex by exact N.
    replace (sv_seen t i _) with (@nil (obs * Z)) by (destruct (c_q s); reflexivity).
    rewrite app_nil_r. apply flatten_perm, o_sort_perm.
Qed.
