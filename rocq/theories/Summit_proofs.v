(** Proofs about the look-ahead wrapper. *)
From Coq Require Import List ZArith QArith Bool String Lia Sorted.
From Verif Require Import Base IntRounded Obs Queue Core Core_proofs Bisect Summit.
Import ListNotations.
Open Scope nat_scope.

(** ** Queues *)
Definition no_expiry (o : obs) : Prop := (o_flush o == 0)%Q.

Lemma active_mark : forall t q, q_active (q_mark t q) = filter (fun o => negb (Z.eqb (o_tid o) t)) (q_active q).
Proof.
  intros t q. unfold q_active, q_mark. induction q as [|[o b] q IH]; [reflexivity|]. cbn [map fst].
  destruct (Z.eqb (o_tid o) t) eqn:E; destruct b; cbn [filter snd map fst negb]; rewrite ?E; cbn [negb]; now rewrite ?IH.
Qed.
Lemma active_append : forall q l, q_active (q_append q l) = q_active q ++ l.
Proof.
  intros q l. unfold q_active, q_append. rewrite filter_app, map_app. f_equal.
  induction l as [|o l IH]; cbn; [reflexivity|]. now rewrite IH.
Qed.
Lemma active_set : forall l, q_active (q_set l) = l.
Proof. intros l. change (q_set l) with (q_append [] l). now rewrite active_append. Qed.
Lemma count_active : forall q, q_count q = List.length (q_active q).
Proof. intros. unfold q_count, q_active. now rewrite map_length. Qed.

Lemma nth_error_eq : forall A (a b : list A), (forall i, nth_error a i = nth_error b i) -> a = b.
Proof.
  induction a as [|x a IH]; intros [|y b] H; [reflexivity|specialize (H 0); discriminate|specialize (H 0); discriminate|].
  pose proof (H 0) as H0. cbn in H0. injection H0 as ->. f_equal. apply IH. intros i. exact (H (S i)).
Qed.
Lemma flags_true : forall now q, (forall e, In e q -> no_expiry (fst e)) -> mjd_flags now q = map (fun _ => true) q.
Proof.
  intros now q H. apply nth_error_eq. intros i. rewrite nth_error_map. destruct (nth_error q i) as [e|] eqn:E.
  - destruct (mjd_flags_nth now q i e E) as (b & Hb & K & _). rewrite Hb. cbn. f_equal. apply K. right. apply H. eapply nth_error_In; eauto.
  - cbn. apply nth_error_None. rewrite mjd_flags_length. now apply nth_error_None.
Qed.
Lemma valid_active : forall now ok q, (forall e, In e q -> no_expiry (fst e)) -> (forall o, ok o = true) -> q_valid now ok q = q_active q.
Proof.
  intros now ok q H K. unfold q_valid. rewrite flags_true by exact H. clear H. unfold q_active.
  induction q as [|[o b] q IH]; [reflexivity|]. cbn [map combine filter fst snd]. rewrite K. destruct b; cbn [andb map fst snd]; now rewrite IH.
Qed.

Definition outside (ids : list Z) (o : obs) : bool := negb (existsb (Z.eqb (o_tid o)) ids).
Lemma outside_true : forall ids o, outside ids o = true <-> ~ In (o_tid o) ids.
Proof.
  intros ids o. unfold outside. rewrite negb_true_iff. split.
  - intros H I. assert (X : existsb (Z.eqb (o_tid o)) ids = true) by (apply existsb_exists; eexists; split; [exact I|apply Z.eqb_refl]). congruence.
  - intros H. destruct (existsb _ _) eqn:E; [|reflexivity]. apply existsb_exists in E. destruct E as (t & I & X). apply Z.eqb_eq in X. subst. contradiction.
Qed.
Lemma filter_filter : forall A (p r : A -> bool) l, filter p (filter r l) = filter (fun x => r x && p x) l.
Proof. induction l as [|x l IH]; cbn; [reflexivity|]. destruct (r x); cbn; [destruct (p x)|]; now rewrite ?IH. Qed.
Lemma filter_true : forall A (p : A -> bool) l, (forall x, In x l -> p x = true) -> filter p l = l.
Proof. induction l as [|x l IH]; cbn; intros H; [reflexivity|]. rewrite H by now left. f_equal. apply IH. auto. Qed.

Section SummitProofs.
Context {W X : Type}.
Variable B : behav W X.
Variable shape : list nat.
Variable b2f : list (string * string).
Variable too_flush : bool.
Variable fill : cond X -> obs -> obs.
Notation core := (core W X).
Notation sw := (sw W X).
Notation add := (add_obs B shape).

(** The worlds are compared up to [E]: requests and updates of the conditions may
    change what [E] ignores (caches), reports may not depend on it. *)
Variable E : W -> W -> Prop.

Record quiet : Prop := mkQuiet {
  e_refl : forall w, E w w;
  e_sym : forall a b, E a b -> E b a;
  e_trans : forall a b c, E a b -> E b c -> E a c;
  e_reward : forall w t i c, E (fst (sv_reward B w t i c)) w;
  e_gen : forall w t i c, E (fst (sv_gen B w t i c)) w;
  e_upd : forall w t i c, E (sv_upd B w t i c) w;
  e_det : forall w l c, E (fst (qm_det B w l c)) w;
  e_add : forall a b t i o h, E a b -> E (sv_add B a t i o h) (sv_add B b t i o h);
  e_qadd : forall a b o, E a b -> E (qm_add B a o) (qm_add B b o) }.

(** Visits in the queue stay valid until reported: they carry no expiry time, the
    queue manager has no mask, its detailers return the visit they are given. *)
Record lasting : Prop := mkLasting {
  l_ok : forall w c o, qm_ok B w c o = true;
  l_gen : forall w t i c l, snd (sv_gen B w t i c) = GArr l -> Forall no_expiry l;
  l_det : forall w o c, exists o', snd (qm_det B w [o] c) = [o'] /\ o_tid o' = o_tid o /\ o_flush o' = o_flush o }.

Hypothesis Q1 : quiet.
Hypothesis L1 : lasting.
Hypothesis fill_tid : forall c o, o_tid (fill c o) = o_tid o.

Lemma tier_rewards_e : forall is w t c, E (fst (tier_rewards B w t is c)) w.
Proof.
  induction is as [|i is IH]; intros w t c; [apply e_refl; exact Q1|]. cbn [tier_rewards].
  pose proof (e_reward Q1 w t i c) as R. destruct (sv_reward B w t i c) as [w1 a]. cbn [fst] in R.
  specialize (IH w1 t c). destruct (tier_rewards B w1 t is c) as [w2 rs]. cbn [fst] in *. eapply (e_trans Q1); eauto.
Qed.
Lemma tier_loop_e : forall sh w t c last, E (fst (tier_loop B w t sh c last)) w.
Proof.
  induction sh as [|n sh IH]; intros w t c last; cbn [tier_loop].
  - destruct last; apply (e_refl Q1).
  - pose proof (tier_rewards_e (seq 0 n) w t c) as R. destruct (tier_rewards B w t (seq 0 n) c) as [w1 rs]. cbn [fst] in R.
    destruct rs as [|x rs]; [exact R|]. destruct (er_ltb ENInf (nanmax (x :: rs))); [exact R|].
    eapply (e_trans Q1); [apply IH|exact R].
Qed.

Lemma stamp_flush : forall l c, Forall no_expiry l -> Forall no_expiry (stamp c l).
Proof. induction l as [|o l IH]; intros c H; cbn; [constructor|]. inversion H; subst. constructor; [assumption|now apply IH]. Qed.
Lemma filters_flush : forall d l l', fill_filters d l = Ok l' -> Forall no_expiry l -> Forall no_expiry l'.
Proof.
  induction l as [|o l IH]; intros l' H F; cbn in H; [injection H as <-; constructor|]. inversion F; subst.
  destruct (String.eqb (o_filter o) "").
  - destruct (assoc (o_band o) d); [|discriminate]. destruct (fill_filters d l) as [r|]; cbn in H; [|discriminate].
    injection H as <-. constructor; auto.
  - destruct (fill_filters d l) as [r|]; cbn in H; [|discriminate]. injection H as <-. constructor; auto.
Qed.

(** A refill. *)
Lemma fill_cases : forall (s : core) c,
  let r := fill_queue B shape b2f s c in
  E (c_w (fst r)) (c_w s) /\ c_seen (fst r) = c_seen s /\ c_cond (fst r) = c_cond s /\ (c_ctr s <= c_ctr (fst r))%Z /\
  ((snd r <> Ok tt /\ c_q (fst r) = c_q s) \/
   (snd r = Ok tt /\ c_q (fst r) = []) \/
   (snd r = Ok tt /\ exists l, c_q (fst r) = q_set l /\ Forall no_expiry l /\ map o_tid l = zseq (c_ctr s) (List.length l) /\
      c_ctr (fst r) = (c_ctr s + Z.of_nat (List.length l))%Z)).
Proof.
  intros s c. cbv zeta. unfold fill_queue. pose proof (tier_loop_e shape (c_w s) 0 c None) as R.
  destruct (tier_loop B (c_w s) 0 shape c None) as [w [[ot rs]|e]]; cbn [fst] in R.
  2:{ cbn. split; [assumption|]; split; [reflexivity|]; split; [reflexivity|]; split; [lia|]. left. split; [discriminate|reflexivity]. }
  destruct (er_eqb (nanmax rs) ENInf || er_isnan (nanmax rs)).
  { cbn. split; [assumption|]; split; [reflexivity|]; split; [reflexivity|]; split; [lia|]. right. left. auto. }
  destruct (match ot with Some t => Some t | None => fst (c_sidx s) end) as [t'|];
    [|cbn; split; [assumption|]; split; [reflexivity|]; split; [reflexivity|]; split; [lia|]; left; split; [discriminate|reflexivity]].
  destruct (first_argmax rs) as [i|]; [|cbn; split; [assumption|]; split; [reflexivity|]; split; [reflexivity|]; split; [lia|]; left; split; [discriminate|reflexivity]].
  pose proof (e_gen Q1 w t' i c) as G. pose proof (l_gen L1 w t' i c) as GL.
  destruct (sv_gen B w t' i c) as [w1 g]. cbn [fst snd] in G, GL.
  assert (Ew : E w1 (c_w s)) by (eapply (e_trans Q1); eauto).
  destruct g as [l| |e].
  - specialize (GL l eq_refl).
    destruct (band_to_filter b2f (stamp (c_ctr s) l)) as [l2|e] eqn:EB.
    + cbn. split; [assumption|]; split; [reflexivity|]; split; [reflexivity|]; split; [lia|]. right. right. split; [reflexivity|]. exists l2.
      pose proof (band_to_filter_tids _ _ _ EB) as T. rewrite stamp_tids in T.
      assert (Len : List.length l2 = List.length l).
      { rewrite <- (map_length o_tid l2), T. clear. generalize (c_ctr s). induction (List.length l) as [|n IH]; intros z; cbn; [reflexivity|]. now rewrite IH. }
      split; [reflexivity|]. split; [|rewrite Len; auto].
      unfold band_to_filter in EB. destruct b2f as [|p d].
      * injection EB as <-. now apply stamp_flush.
      * eapply filters_flush; eauto. now apply stamp_flush.
    + cbn. split; [assumption|]; split; [reflexivity|]; split; [reflexivity|]; split; [lia|]. left. split; [discriminate|reflexivity].
  - cbn. split; [assumption|]; split; [reflexivity|]; split; [reflexivity|]; split; [lia|]. left. split; [discriminate|reflexivity].
  - cbn. split; [assumption|]; split; [reflexivity|]; split; [reflexivity|]; split; [lia|]. left. split; [discriminate|reflexivity].
Qed.

(** The queue manager returns the first visit of the active queue. *)
Lemma qm_first : forall (s : core) c o r, (forall e, In e (c_q s) -> no_expiry (fst e)) -> q_active (c_q s) = o :: r ->
  exists o', snd (qm_request B s c false) = [o'] /\ o_tid o' = o_tid o /\ o_flush o' = o_flush o /\
    E (c_w (fst (qm_request B s c false))) (c_w s).
Proof.
  intros s c o r H A. unfold qm_request, q_request. rewrite valid_active; [|exact H|intros; apply (l_ok L1)]. rewrite A. cbn [firstn].
  destruct (l_det L1 (c_w s) o c) as (o' & D & T & F). pose proof (e_det Q1 (c_w s) [o] c) as Ed.
  destruct (qm_det B (c_w s) [o] c) as [w l]. cbn [fst snd] in *. exists o'. subst l. cbn. auto.
Qed.

(** A request to a core scheduler. *)
Lemma request_active : forall (s : core) c m o r, c_cond s = Some c -> (forall e, In e (c_q s) -> no_expiry (fst e)) ->
  q_active (c_q s) = o :: r ->
  exists s' o', request B shape b2f s m false = (s', OutObs [o']) /\ o_tid o' = o_tid o /\ o_flush o' = o_flush o /\
    E (c_w s') (c_w s) /\ c_q s' = c_q s /\ c_ctr s' = c_ctr s /\ c_seen s' = c_seen s /\ c_cond s' = c_cond s.
Proof.
  intros s c m o r C H A. unfold request. rewrite C, count_active, A. cbn [List.length Nat.eqb].
  rewrite count_active, A. cbn [List.length Nat.eqb].
  destruct (qm_first s c o r H A) as (o' & D & T & F & Ew). destruct (qm_request_fields B s c false) as (K1 & K2 & _ & _ & K5 & K6).
  destruct (qm_request B s c false) as [s2 l]. cbn [fst snd] in *. subst l. exists s2, o'. repeat split; auto; congruence.
Qed.

Lemma request_empty : forall (s : core) c m, c_cond s = Some c -> (forall e, In e (c_q s) -> no_expiry (fst e)) ->
  q_active (c_q s) = [] ->
  exists s' x, request B shape b2f s m false = (s', x) /\
    E (c_w s') (c_w s) /\ c_seen s' = c_seen s /\ c_cond s' = c_cond s /\ (c_ctr s <= c_ctr s')%Z /\
    (forall e, In e (c_q s') -> no_expiry (fst e)) /\
    (((x = OutNone \/ exists e, x = OutRaise e) /\ q_active (c_q s') = []) \/
     (exists o o' l, x = OutObs [o'] /\ o_tid o' = o_tid o /\ o_flush o' = o_flush o /\ q_active (c_q s') = o :: l /\
        map o_tid (o :: l) = zseq (c_ctr s) (S (List.length l)) /\ c_ctr s' = (c_ctr s + Z.of_nat (S (List.length l)))%Z)).
Proof.
  intros s c m C H A. unfold request. rewrite C, count_active, A. cbn [List.length Nat.eqb].
  pose proof (fill_cases s c) as F. cbv zeta in F. destruct (fill_queue B shape b2f s c) as [s1 r1]. cbn [fst snd] in F.
  destruct F as (F1 & F2 & F3 & F4 & F5).
  destruct F5 as [[N Eq]|[[-> Eq]|[-> (l & Eq & Fl & T & Ct)]]].
  - destruct r1 as [[]|e]; [congruence|]. exists s1, (OutRaise e). split; [reflexivity|]. split; [first [assumption|congruence]|]; split; [first [assumption|congruence]|]; split; [first [assumption|congruence]|]; split; [first [assumption|congruence]|]. split; [rewrite Eq; exact H|].
    left. split; [right; eauto|]. now rewrite Eq.
  - rewrite count_active, Eq. cbn. exists s1, OutNone. split; [reflexivity|]. split; [first [assumption|congruence]|]; split; [first [assumption|congruence]|]; split; [first [assumption|congruence]|]; split; [first [assumption|congruence]|]. rewrite Eq. split; [intros e []|]. left. auto.
  - assert (H1 : forall e, In e (c_q s1) -> no_expiry (fst e)).
    { intros [o b] I. rewrite Eq in I. apply in_q_set in I. destruct I as [_ I]. rewrite Forall_forall in Fl. now apply Fl. }
    rewrite count_active, Eq, active_set. destruct l as [|o l].
    + cbn. exists s1, OutNone. split; [reflexivity|]. split; [first [assumption|congruence]|]; split; [first [assumption|congruence]|]; split; [first [assumption|congruence]|]; split; [first [assumption|congruence]|]. split; [exact H1|]. left. split; [auto|]. now rewrite Eq.
    + cbn [List.length Nat.eqb].
      assert (A1 : q_active (c_q s1) = o :: l) by (rewrite Eq; apply active_set).
      destruct (qm_first s1 c o l H1 A1) as (o' & D & T' & F' & Ew). destruct (qm_request_fields B s1 c false) as (K1 & K2 & _ & _ & K5 & K6).
      destruct (qm_request B s1 c false) as [s2 l']. cbn [fst snd] in *. subst l'. exists s2, (OutObs [o']). split; [reflexivity|].
      split; [eapply (e_trans Q1); eauto|]. split; [congruence|]. split; [congruence|]. split; [lia|]. split; [rewrite K1; exact H1|].
      right. exists o, o', l. rewrite K1, K2. repeat split; auto.
Qed.

(** Reports. *)
Lemma add_w : forall (a b : core) o, E (c_w a) (c_w b) -> E (c_w (add a o)) (c_w (add b o)).
Proof.
  intros a b o H. unfold add_obs. cbn. apply (e_qadd Q1). revert H. generalize (c_w a) (c_w b).
  induction (all_idx shape) as [|p l IH]; intros x y H; cbn; [exact H|]. apply IH. now apply (e_add Q1).
Qed.
Lemma fold_add_w : forall l (a b : core), E (c_w a) (c_w b) -> E (c_w (fold_left add l a)) (c_w (fold_left add l b)).
Proof. induction l as [|o l IH]; intros a b H; cbn; [exact H|]. apply IH. now apply add_w. Qed.
Lemma add_active : forall (s : core) o, q_active (c_q (add s o)) = filter (fun x => negb (Z.eqb (o_tid x) (o_tid o))) (q_active (c_q s)).
Proof. intros. rewrite add_obs_q. apply active_mark. Qed.
Lemma fold_add_active : forall l (s : core), q_active (c_q (fold_left add l s)) = filter (outside (map o_tid l)) (q_active (c_q s)).
Proof.
  induction l as [|o l IH]; intros s; cbn [fold_left map].
  - symmetry. apply filter_true. intros x _. reflexivity.
  - rewrite IH, add_active, filter_filter. apply filter_ext. intros x. unfold outside. cbn [existsb]. now rewrite negb_orb.
Qed.
Lemma add_fields : forall (s : core) o, c_seen (add s o) = c_seen s /\ c_cond (add s o) = c_cond s /\ c_ctr (add s o) = bump (c_ctr s) (o_tid o).
Proof. intros s o. unfold add_obs. cbn. rewrite backfill_tid. auto. Qed.
Lemma fold_add_fields : forall l (s : core), c_seen (fold_left add l s) = c_seen s /\ c_cond (fold_left add l s) = c_cond s /\
  (c_ctr s <= c_ctr (fold_left add l s))%Z /\ (forall o, In o l -> (o_tid o < c_ctr (fold_left add l s))%Z).
Proof.
  induction l as [|o l IH]; intros s; cbn [fold_left]; [repeat split; try lia; intros o []|].
  destruct (IH (add s o)) as (A1 & A2 & A3 & A4). destruct (add_fields s o) as (B1 & B2 & B3).
  pose proof (bump_spec (c_ctr s) (o_tid o)) as [U1 U2].
  split; [congruence|]. split; [congruence|]. split; [lia|]. intros x [<-|Hx]; [lia|now apply A4].
Qed.
Lemma mark_flush : forall t q, (forall e, In e q -> no_expiry (fst e)) -> forall e, In e (q_mark t q) -> no_expiry (fst e).
Proof.
  intros t q H e I. unfold q_mark in I. apply in_map_iff in I. destruct I as ([o b] & D & I). cbn [fst] in D.
  specialize (H _ I). destruct (Z.eqb (o_tid o) t); subst e; exact H.
Qed.
Lemma fold_add_flush : forall l (s : core), (forall e, In e (c_q s) -> no_expiry (fst e)) ->
  forall e, In e (c_q (fold_left add l s)) -> no_expiry (fst e).
Proof.
  induction l as [|o l IH]; intros s H e I; cbn in I; [auto|]. eapply IH; [|exact I]. rewrite add_obs_q. apply mark_flush, H.
Qed.

(** Updates. *)
Definition known (s : core) (c : cond X) : Prop := too_flush = true -> forall t, In t (cd_toos c) -> In (t_id t) (c_seen s).
Lemma upd_fold_e : forall l w c, E (fold_left (fun w p => sv_upd B w (fst p) (snd p) c) l w) w.
Proof. induction l as [|p l IH]; intros w c; cbn; [apply (e_refl Q1)|]. eapply (e_trans Q1); [apply IH|apply (e_upd Q1)]. Qed.
Lemma update_facts : forall (s : core) c, let s' := update_conditions B shape too_flush s c in
  E (c_w s') (c_w s) /\ c_ctr s' = c_ctr s /\
  (exists c', c_cond s' = Some c' /\ cd_toos c' = cd_toos c /\ cd_mjd c' = cd_mjd c /\ cd_ext c' = cd_ext c /\ known s' c') /\
  c_seen s' = (if too_flush then c_seen s ++ nodup Z.eq_dec (map t_id (too_new (c_seen s) (cd_toos c))) else c_seen s) /\
  c_q s' = (if too_flush && existsb t_flush (too_new (c_seen s) (cd_toos c)) then [] else c_q s).
Proof.
  intros s c. cbv zeta. unfold update_conditions, too_part.
  destruct too_flush eqn:TF.
  - destruct (existsb t_flush (too_new (c_seen s) (cd_toos c))) eqn:EX; cbn -[too_new nodup].
    + split; [eapply (e_trans Q1); [apply upd_fold_e|apply (e_refl Q1)]|]. split; [reflexivity|]. split.
      * eexists. split; [reflexivity|]. cbn -[too_new nodup]. repeat split. intros _ t I. apply in_or_app.
        destruct (existsb (Z.eqb (t_id t)) (c_seen s)) eqn:K.
        -- left. apply existsb_exists in K. destruct K as (z & I' & K). apply Z.eqb_eq in K. now subst.
        -- right. apply nodup_In. apply in_map. apply filter_In. split; [exact I|]. now rewrite K.
      * split; reflexivity.
    + split; [eapply (e_trans Q1); [apply upd_fold_e|apply (e_refl Q1)]|]. split; [reflexivity|]. split.
      * eexists. split; [reflexivity|]. cbn -[too_new nodup]. repeat split. intros _ t I. apply in_or_app.
        destruct (existsb (Z.eqb (t_id t)) (c_seen s)) eqn:K.
        -- left. apply existsb_exists in K. destruct K as (z & I' & K). apply Z.eqb_eq in K. now subst.
        -- right. apply nodup_In. apply in_map. apply filter_In. split; [exact I|]. now rewrite K.
      * split; reflexivity.
  - cbn. split; [apply upd_fold_e|]. split; [reflexivity|]. split; [|split; reflexivity].
    eexists. split; [reflexivity|]. repeat split. unfold known. congruence.
Qed.
Lemma known_new : forall (s : core) c, known s c -> too_flush = true -> too_new (c_seen s) (cd_toos c) = [].
Proof.
  intros s c K T. specialize (K T). unfold too_new. induction (cd_toos c) as [|t l IH]; [reflexivity|]. cbn [filter].
  assert (X1 : existsb (Z.eqb (t_id t)) (c_seen s) = true) by (apply existsb_exists; exists (t_id t); split; [apply K; now left|apply Z.eqb_refl]).
  rewrite X1. cbn. apply IH. intros u Hu. apply K. now right.
Qed.
Lemma known_seen : forall (s s' : core) c, c_seen s = c_seen s' -> known s c -> known s' c.
Proof. unfold known. intros s s' c H K T t I. rewrite <- H. auto. Qed.

(** ** The invariant *)
Definition pool (s : sw) : list obs := filter (outside (map o_tid (sw_obs s))) (q_active (c_q (sw_core s))).
Record J (s : sw) : Prop := mkJ {
  j_ids : sw_ids s = map o_tid (sw_obs s);
  j_cond : c_cond (sw_core s) = sw_cond s;
  j_acond : c_cond (sw_ahead s) = sw_cond s;
  j_known : forall c, sw_cond s = Some c -> known (sw_core s) c;
  j_seen : c_seen (sw_ahead s) = c_seen (sw_core s);
  j_cq : forall e, In e (c_q (sw_core s)) -> no_expiry (fst e);
  j_aq : forall e, In e (c_q (sw_ahead s)) -> no_expiry (fst e);
  j_sync : sw_need s = false ->
    E (c_w (sw_ahead s)) (c_w (fold_left add (sw_obs s) (sw_core s))) /\
    q_active (c_q (sw_ahead s)) = pool s /\
    (forall o, In o (sw_obs s) -> (o_tid o < c_ctr (sw_ahead s))%Z) /\
    (c_ctr (sw_core s) <= c_ctr (sw_ahead s))%Z }.

Lemma J_init : forall w ctr, J (sw_init (init w ctr)).
Proof.
  intros. constructor; cbn; try reflexivity; try discriminate; try (intros ? []; fail).
  intros _. split; [apply (e_refl Q1)|]. split; [reflexivity|]. split; [intros o []|lia].
Qed.

Lemma pool_nil : forall s : sw, sw_obs s = [] -> pool s = q_active (c_q (sw_core s)).
Proof. intros s H. unfold pool. rewrite H. apply filter_true. reflexivity. Qed.

Lemma J_flush : forall s, J s -> J (sw_flush s).
Proof.
  intros s [a b c d e f g h]. unfold sw_flush, clear_ahead. constructor; cbn; auto; try (intros ? []).
  intros _. split; [apply (e_refl Q1)|]. split; [reflexivity|]. split; [intros o []|lia].
Qed.

Lemma skipn_map : forall A C (f : A -> C) n l, skipn n (map f l) = map f (skipn n l).
Proof. induction n as [|n IH]; intros [|x l]; cbn; auto. Qed.

Lemma J_add : forall s o, J s -> J (sw_add B shape s o).
Proof.
  intros s o [a b c d e f g h]. unfold sw_add. constructor; cbn [sw_ids sw_obs sw_core sw_ahead sw_cond sw_need]; try discriminate.
  - rewrite a at 2. apply skipn_map.
  - now rewrite (proj1 (proj2 (add_fields (sw_core s) o))).
  - exact c.
  - intros k Hk. eapply known_seen; [|apply d; exact Hk]. symmetry. apply add_fields.
  - rewrite e. symmetry. apply add_fields.
  - rewrite add_obs_q. now apply mark_flush.
  - exact g.
Qed.

Lemma J_update : forall s c, J s -> J (sw_update B shape too_flush s c).
Proof.
  intros s c [a b ac d e f g h]. unfold sw_update. cbv zeta.
  destruct (update_facts (sw_ahead s) c) as (A1 & A2 & (c1 & A3 & A4 & A5 & A6 & A7) & A8 & A9).
  set (ah := update_conditions B shape too_flush (sw_ahead s) c) in *. rewrite A3.
  destruct (update_facts (sw_core s) c1) as (K1 & K2 & (c2 & K3 & K4 & K5 & K6 & K7) & K8 & K9).
  set (k := update_conditions B shape too_flush (sw_core s) c1) in *.
  rewrite A4 in K8, K9. rewrite e in A8, A9.
  assert (FL : c_q ah = [] /\ c_q k = [] \/ c_q ah = c_q (sw_ahead s) /\ c_q k = c_q (sw_core s)).
  { rewrite A9, K9. destruct (too_flush && _); auto. }
  constructor; cbn [sw_ids sw_obs sw_core sw_ahead sw_cond sw_need set_cond c_cond c_seen c_q c_w c_ctr]; auto.
  - intros x Hx. rewrite K3 in Hx. injection Hx as <-. exact K7.
  - rewrite A8, K8. reflexivity.
  - destruct FL as [[_ ->]|[_ ->]]; [intros ? []|exact f].
  - destruct FL as [[-> _]|[-> _]]; [intros ? []|exact g].
  - intros N. destruct (h N) as (h1 & h2 & h3 & h4). split; [|split; [|split]].
    + eapply (e_trans Q1); [exact A1|]. eapply (e_trans Q1); [exact h1|]. apply fold_add_w. now apply (e_sym Q1).
    + unfold pool. cbn [sw_obs sw_core]. destruct FL as [[-> ->]|[-> ->]]; [reflexivity|exact h2].
    + intros o Ho. rewrite A2. now apply h3.
    + rewrite A2, K2. exact h4.
Qed.

Lemma replay_sync : forall s, J s -> let r := sw_replay B shape too_flush s in
  J (fst r) /\ sw_need (fst r) = false /\ sw_ids (fst r) = sw_ids s /\ sw_obs (fst r) = sw_obs s /\
  c_q (sw_core (fst r)) = c_q (sw_core s) /\ c_ctr (sw_core (fst r)) = c_ctr (sw_core s) /\
  (snd r = false <-> sw_need s = true /\ sw_cond s = None) /\ (sw_cond (fst r) = None <-> sw_cond s = None).
Proof.
  intros s HJ. pose proof HJ as [a b ac d e f g h]. cbv zeta. unfold sw_replay. destruct (sw_need s) eqn:N.
  2:{ cbn. repeat split; auto; try tauto; try discriminate. intros [X1 _]. discriminate. }
  destruct (fold_add_fields (sw_obs s) (sw_core s)) as (F1 & F2 & F3 & F4).
  destruct (sw_cond s) as [c|] eqn:C.
  - set (r := fold_left add (sw_obs s) (sw_core s)) in *.
    destruct (update_facts r c) as (A1 & A2 & (c1 & A3 & A4 & A5 & A6 & A7) & A8 & A9).
    assert (Kn : known r c) by (eapply known_seen; [symmetry; exact F1|apply d; reflexivity]).
    assert (S9 : c_q (update_conditions B shape too_flush r c) = c_q r /\ c_seen (update_conditions B shape too_flush r c) = c_seen r).
    { rewrite A8, A9. destruct too_flush eqn:TF; [|auto]. rewrite (known_new r c Kn TF). cbn. rewrite app_nil_r. auto. }
    destruct S9 as [S1 S2]. cbn [fst snd].
    split; [|repeat split; auto; cbn; try (now rewrite A3); try (intros [_ X1]; discriminate); discriminate].
    constructor; cbn [sw_ids sw_obs sw_core sw_ahead sw_cond sw_need set_cond c_cond c_seen c_q c_w c_ctr]; auto.
    + intros x Hx. rewrite A3 in Hx. injection Hx as <-. unfold known in *. intros T t I. rewrite A4 in I. exact (d c eq_refl T t I).
    + rewrite S2, F1. reflexivity.
    + rewrite S1. apply fold_add_flush. exact f.
    + intros _. split; [|split; [|split]].
      * eapply (e_trans Q1); [exact A1|]. apply fold_add_w. apply (e_refl Q1).
      * rewrite S1. unfold r. rewrite fold_add_active. reflexivity.
      * intros o Ho. rewrite A2. now apply F4.
      * rewrite A2. exact F3.
  - cbn [fst snd]. split; [|repeat split; auto].
    constructor; cbn [sw_ids sw_obs sw_core sw_ahead sw_cond sw_need]; auto.
    + now rewrite F2.
    + apply fold_add_flush. exact f.
    + intros _. split; [apply (e_refl Q1)|]. split; [unfold pool; cbn; apply fold_add_active|]. split; [exact F4|exact F3].
Qed.

(** What a request does to the bookkeeping. *)
Lemma request_sync : forall s m, J s ->
  let s' := fst (sw_request B shape b2f too_flush fill s m) in
  let x := snd (sw_request B shape b2f too_flush fill s m) in
  J s' /\
  ((sw_ids s' = sw_ids s /\ sw_obs s' = sw_obs s /\ c_q (sw_core s') = c_q (sw_core s) /\
    c_ctr (sw_core s') = c_ctr (sw_core s) /\ exists e, x = OutRaise e) \/
   (exists o c, x = OutObs [o] /\ sw_cond s' = Some c /\ sw_obs s' = sw_obs s ++ [fill c o] /\ c_ctr (sw_core s') = c_ctr (sw_core s) /\
     ((c_q (sw_core s') = c_q (sw_core s) /\ exists o1 r, pool s = o1 :: r /\ o_tid o1 = o_tid o) \/
      (pool s = [] /\ exists o1 l z, o_tid o1 = o_tid o /\ c_q (sw_core s') = q_append (q_append (c_q (sw_core s)) [o]) (o1 :: l) /\
         map o_tid (o1 :: l) = zseq z (S (List.length l)) /\ (c_ctr (sw_core s) <= z)%Z /\
         (forall p, In p (sw_obs s) -> (o_tid p < z)%Z))))).
Proof.
  intros s m HJ. cbv zeta. unfold sw_request.
  assert (MAIN : let '(s1, ok) := sw_replay B shape too_flush s in
      forall T : sw * out, T = (if negb ok then (s1, OutRaise AttributeError)
      else
        let had := q_active (c_q (sw_ahead s1)) in
        let '(a, r) := request B shape b2f (sw_ahead s1) m false in
        match r with
        | OutObs (o :: _) =>
            let k := match had with
                     | [] => upd_q (sw_core s1) (q_append (q_append (c_q (sw_core s1)) [o]) (q_active (c_q a)))
                     | _ => sw_core s1
                     end in
            match sw_cond s1 with
            | None => (mkSw k a (sw_ids s1) (sw_obs s1) (sw_need s1) (sw_cond s1), OutRaise AttributeError)
            | Some c =>
                let f := fill c o in
                (mkSw k (add a f) (sw_ids s1 ++ [o_tid f]) (sw_obs s1 ++ [f]) (sw_need s1) (sw_cond s1), OutObs [o])
            end
        | OutRaise e => (mkSw (sw_core s1) a (sw_ids s1) (sw_obs s1) (sw_need s1) (sw_cond s1), OutRaise e)
        | _ => (mkSw (sw_core s1) a (sw_ids s1) (sw_obs s1) (sw_need s1) (sw_cond s1), OutRaise AttributeError)
        end) ->
      J (fst T) /\
  ((sw_ids (fst T) = sw_ids s /\ sw_obs (fst T) = sw_obs s /\ c_q (sw_core (fst T)) = c_q (sw_core s) /\
    c_ctr (sw_core (fst T)) = c_ctr (sw_core s) /\ exists e, snd T = OutRaise e) \/
   (exists o c, snd T = OutObs [o] /\ sw_cond (fst T) = Some c /\ sw_obs (fst T) = sw_obs s ++ [fill c o] /\ c_ctr (sw_core (fst T)) = c_ctr (sw_core s) /\
     ((c_q (sw_core (fst T)) = c_q (sw_core s) /\ exists o1 r, pool s = o1 :: r /\ o_tid o1 = o_tid o) \/
      (pool s = [] /\ exists o1 l z, o_tid o1 = o_tid o /\ c_q (sw_core (fst T)) = q_append (q_append (c_q (sw_core s)) [o]) (o1 :: l) /\
         map o_tid (o1 :: l) = zseq z (S (List.length l)) /\ (c_ctr (sw_core s) <= z)%Z /\
         (forall p, In p (sw_obs s) -> (o_tid p < z)%Z)))))).
  { pose proof (replay_sync s HJ) as R. cbv zeta in R. destruct (sw_replay B shape too_flush s) as [s1 ok]. cbn [fst snd] in R.
    destruct R as (J1 & N1 & I1 & O1 & Q0 & C0 & OK1 & SC1).
    assert (P1 : pool s1 = pool s) by (unfold pool; now rewrite O1, Q0).
    intros T ->. destruct ok; cbn [negb]; [|cbn [fst snd]; split; [exact J1|]; left; split; [exact I1|]; split; [exact O1|]; split; [exact Q0|]; split; [exact C0|]; eexists; reflexivity].
    pose proof J1 as [a b ac d e f g h]. destruct (h N1) as (h1 & h2 & h3 & h4).
    destruct (sw_cond s1) as [c|] eqn:C.
    2:{ (* no conditions: the ahead scheduler has none either *)
      cbv zeta. unfold request. rewrite ac. cbn [fst snd]. split; [|left; repeat split; eauto].
      constructor; cbn [sw_ids sw_obs sw_core sw_ahead sw_cond sw_need]; try assumption; congruence. }
    cbv zeta. destruct (pool s) as [|o1 r] eqn:PO; rewrite P1 in h2.
    - destruct (request_empty (sw_ahead s1) c m ac g h2) as (s' & x & RQ & E1 & S1 & Cd & Ct & Fl & Cases).
      rewrite RQ, h2. destruct Cases as [[NX Ac]|(o & o' & l & -> & Tt & Tf & Ac & Ts & Cs)].
      + assert (JJ : J (mkSw (sw_core s1) s' (sw_ids s1) (sw_obs s1) (sw_need s1) (Some c))).
        { constructor; cbn [sw_ids sw_obs sw_core sw_ahead sw_cond sw_need]; auto; try congruence.
          intros _. split; [eapply (e_trans Q1); eauto|]. split; [|split].
          - unfold pool in *. cbn [sw_obs sw_core]. rewrite Ac. congruence.
          - intros p Hp. specialize (h3 p Hp). lia.
          - lia. }
        destruct NX as [->|[e' ->]]; cbn [fst snd]; (split; [exact JJ|]); left; repeat split; eauto.
      + cbn [fst snd]. split.
        * constructor; cbn [sw_ids sw_obs sw_core sw_ahead sw_cond sw_need upd_q c_cond c_seen c_q c_ctr].
          -- rewrite a, map_app. reflexivity.
          -- exact b.
          -- rewrite (proj1 (proj2 (add_fields s' (fill c o')))). congruence.
          -- intros y Hy. injection Hy as <-. unfold known. cbn. apply d. reflexivity.
          -- rewrite (proj1 (add_fields s' (fill c o'))). congruence.
          -- intros y Hy. unfold q_append in Hy. rewrite !in_app_iff in Hy. destruct Hy as [[Hy|Hy]|Hy].
             ++ now apply f.
             ++ cbn in Hy. destruct Hy as [<-|[]]. cbn. unfold no_expiry. rewrite Tf.
                assert (I : In o (q_active (c_q s'))) by (rewrite Ac; now left).
                unfold q_active in I. apply in_map_iff in I. destruct I as ([u v] & <- & I). apply filter_In in I. exact (Fl (u, v) (proj1 I)).
             ++ apply in_map_iff in Hy. destruct Hy as (u & <- & Hu). cbn. unfold q_active in Hu. apply in_map_iff in Hu.
                destruct Hu as (v & <- & Hv). apply filter_In in Hv. exact (Fl v (proj1 Hv)).
          -- rewrite add_obs_q. now apply mark_flush.
          -- intros _.
             assert (Z1 : forall u, In u (o :: l) -> (c_ctr (sw_ahead s1) <= o_tid u)%Z).
             { intros u Hu. apply (in_map o_tid) in Hu. rewrite Ts in Hu. apply zseq_bounds in Hu. lia. }
             assert (fold_app_one : forall (k : core) l0 p, fold_left add (l0 ++ [p]) k = add (fold_left add l0 k) p) by (intros; now rewrite fold_left_app).
             split; [|split; [|split]].
             ++ rewrite fold_app_one. apply add_w. eapply (e_trans Q1); [exact E1|]. eapply (e_trans Q1); [exact h1|].
                apply fold_add_w. apply (e_refl Q1).
             ++ rewrite add_active, Ac, fill_tid. unfold pool. cbn [sw_obs sw_core upd_q c_q]. rewrite !active_append.
                rewrite !filter_app, map_app. cbn [map]. rewrite fill_tid.
                assert (Out : forall u, outside (map o_tid (sw_obs s1) ++ [o_tid o']) u = outside (map o_tid (sw_obs s1)) u && negb (Z.eqb (o_tid u) (o_tid o'))).
                { intros u. unfold outside. rewrite existsb_app. cbn. now rewrite orb_false_r, negb_orb. }
                rewrite (filter_ext _ _ Out (q_active (c_q (sw_core s1)))).
                rewrite <- filter_filter. fold (pool s1). rewrite P1. cbn [filter app].
                assert (O' : outside (map o_tid (sw_obs s1) ++ [o_tid o']) o' = false).
                { rewrite Out, Z.eqb_refl. apply andb_false_r. }
                rewrite O'. cbn [app]. change (if outside (map o_tid (sw_obs s1) ++ [o_tid o']) o then o :: filter (outside (map o_tid (sw_obs s1) ++ [o_tid o'])) l else filter (outside (map o_tid (sw_obs s1) ++ [o_tid o'])) l) with (filter (outside (map o_tid (sw_obs s1) ++ [o_tid o'])) (o :: l)). rewrite (filter_ext _ _ Out (o :: l)), <- filter_filter.
                rewrite (filter_true _ (outside (map o_tid (sw_obs s1))) (o :: l)); [reflexivity|].
                intros u Hu. apply outside_true. intros I. apply in_map_iff in I. destruct I as (p & Ep & Ip).
                specialize (h3 p Ip). specialize (Z1 u Hu). lia.
             ++ intros p Hp. rewrite (proj2 (proj2 (add_fields s' (fill c o')))), fill_tid.
                pose proof (bump_spec (c_ctr s') (o_tid o')) as [U1 U2]. apply in_app_iff in Hp. destruct Hp as [Hp|[<-|[]]].
                ** specialize (h3 p Hp). lia.
                ** rewrite fill_tid. lia.
             ++ rewrite (proj2 (proj2 (add_fields s' (fill c o')))). pose proof (bump_spec (c_ctr s') (o_tid (fill c o'))). lia.
        * right. exists o', c. split; [reflexivity|]. split; [reflexivity|]. split; [cbn; rewrite O1; reflexivity|]. split; [cbn; exact C0|]. right.
          split; [reflexivity|]. exists o, l, (c_ctr (sw_ahead s1)). split; [congruence|]. split; [cbn; rewrite Ac, Q0; reflexivity|].
          split; [exact Ts|]. split; [lia|]. intros p Hp. rewrite <- O1 in Hp. now apply h3.
    - destruct (request_active (sw_ahead s1) c m o1 r ac g h2) as (s' & o' & RQ & Tt & Tf & E1 & Qs & Ct & S1 & Cd).
      rewrite RQ, h2. cbn [fst snd]. split.
      + constructor; cbn [sw_ids sw_obs sw_core sw_ahead sw_cond sw_need].
        * rewrite a, map_app. reflexivity.
        * exact b.
        * rewrite (proj1 (proj2 (add_fields s' (fill c o')))). congruence.
        * exact d.
        * rewrite (proj1 (add_fields s' (fill c o'))). congruence.
        * exact f.
        * rewrite add_obs_q, Qs. now apply mark_flush.
        * intros _. split; [|split; [|split]].
          -- rewrite fold_left_app. cbn. apply add_w. eapply (e_trans Q1); [exact E1|exact h1].
          -- rewrite add_active, Qs, h2, fill_tid. unfold pool. cbn [sw_obs sw_core]. rewrite map_app. cbn [map]. rewrite fill_tid.
             assert (Out : forall u, outside (map o_tid (sw_obs s1) ++ [o_tid o']) u = outside (map o_tid (sw_obs s1)) u && negb (Z.eqb (o_tid u) (o_tid o'))).
             { intros u. unfold outside. rewrite existsb_app. cbn. now rewrite orb_false_r, negb_orb. }
             rewrite (filter_ext _ _ Out). rewrite <- filter_filter. unfold pool in P1. rewrite P1. reflexivity.
          -- intros p Hp. rewrite (proj2 (proj2 (add_fields s' (fill c o')))), fill_tid.
             pose proof (bump_spec (c_ctr s') (o_tid o')) as [U1 U2]. apply in_app_iff in Hp. destruct Hp as [Hp|[<-|[]]].
             ++ specialize (h3 p Hp). lia.
             ++ rewrite fill_tid. lia.
          -- rewrite (proj2 (proj2 (add_fields s' (fill c o')))). pose proof (bump_spec (c_ctr s') (o_tid (fill c o'))). lia.
      + right. exists o', c. split; [reflexivity|]. split; [reflexivity|]. split; [cbn; rewrite O1; reflexivity|]. split; [exact C0|]. left. split; [exact Q0|].
        exists o1, r. split; [reflexivity|congruence]. }
  destruct m as [m|].
  - destruct (sw_replay B shape too_flush s) as [s1 ok]. apply (MAIN _ eq_refl).
  - destruct (sw_cond s) as [c|] eqn:C.
    + destruct (sw_replay B shape too_flush s) as [s1 ok]. apply (MAIN _ eq_refl).
    + cbn [fst snd]. split; [exact HJ|]. left. repeat split; auto. eauto.
Qed.

Lemma wstep_J : forall s o, J s -> J (fst (wstep B shape b2f too_flush fill s o)).
Proof.
  intros s [c|m|o|] H; cbn [wstep].
  - now apply J_update.
  - apply (request_sync s m H).
  - now apply J_add.
  - now apply J_flush.
Qed.
Lemma wrun_J : forall ops s, J s -> J (fst (wrun B shape b2f too_flush fill s ops)).
Proof.
  induction ops as [|o ops IH]; intros s H; cbn [wrun]; [exact H|].
  pose proof (wstep_J s o H) as H1. destruct (wstep B shape b2f too_flush fill s o) as [s1 x]. cbn [fst] in H1.
  specialize (IH s1 H1). destruct (wrun B shape b2f too_flush fill s1 ops) as [s2 xs]. exact IH.
Qed.

(** ** Bookkeeping of requests and reports *)
Lemma sorted_app_inv : forall a b, StronglySorted Z.lt (a ++ b) -> StronglySorted Z.lt a /\ StronglySorted Z.lt b /\
  forall x y, In x a -> In y b -> (x < y)%Z.
Proof.
  induction a as [|u a IH]; cbn; intros b H; [repeat split; auto; [constructor|intros x y []]|].
  inversion H as [|? ? H1 H2]; subst. destruct (IH b H1) as (A & Bb & C). rewrite Forall_forall in H2. split; [|split; [exact Bb|]].
  - constructor; [exact A|]. apply Forall_forall. intros x Hx. apply H2, in_or_app. now left.
  - intros x y [<-|Hx] Hy; [apply H2, in_or_app; now right|now apply C].
Qed.
Lemma sorted_app : forall a b, StronglySorted Z.lt a -> StronglySorted Z.lt b -> (forall x y, In x a -> In y b -> (x < y)%Z) ->
  StronglySorted Z.lt (a ++ b).
Proof.
  induction a as [|u a IH]; cbn; intros b Ha Hb C; [exact Hb|]. inversion Ha as [|? ? H1 H2]; subst. constructor.
  - apply IH; auto.
  - apply Forall_forall. intros x Hx. apply in_app_iff in Hx. destruct Hx as [Hx|Hx]; [rewrite Forall_forall in H2; auto|auto].
Qed.
Lemma zseq_sorted : forall n z, StronglySorted Z.lt (zseq z n).
Proof.
  induction n as [|n IH]; intros z; cbn; constructor; [apply IH|]. apply Forall_forall. intros x Hx. apply zseq_bounds in Hx. lia.
Qed.

Definition filled (f o : obs) : Prop := exists c, f = fill c o.
Lemma filled_tids : forall a b, Forall2 filled a b -> map o_tid a = map o_tid b.
Proof. induction 1 as [|x y a b [c ->] H IH]; cbn; [reflexivity|]. now rewrite fill_tid, IH. Qed.

Record K (s : sw) (req : list Z) (pend : list obs) : Prop := mkK {
  k_obs : Forall2 filled (sw_obs s) pend;
  k_req : exists rep, req = rep ++ map o_tid pend /\ Forall (fun t => (t < c_ctr (sw_core s))%Z) rep;
  k_sorted : StronglySorted Z.lt (req ++ map o_tid (pool s)) }.

Lemma K_init : forall w ctr, K (sw_init (init w ctr)) [] [].
Proof. intros. constructor; cbn; [constructor|exists []; split; [reflexivity|constructor]|constructor]. Qed.

Lemma K_update : forall s req pend c, J s -> K s req pend -> K (sw_update B shape too_flush s c) req pend.
Proof.
  intros s req pend c [a b ac d e f g h] [k1 k2 k3]. unfold sw_update. cbv zeta.
  destruct (update_facts (sw_ahead s) c) as (_ & _ & (c1 & A3 & A4 & _) & _ & _).
  rewrite A3. destruct (update_facts (sw_core s) c1) as (_ & K2 & _ & _ & K9).
  set (k := update_conditions B shape too_flush (sw_core s) c1) in *.
  constructor; cbn [sw_ids sw_obs sw_core].
  - exact k1.
  - destruct k2 as (rep & R1 & R2). exists rep. split; [exact R1|]. now rewrite K2.
  - unfold pool in *. cbn [sw_obs sw_core]. rewrite K9. destruct (too_flush && _); [|exact k3].
    cbn. rewrite app_nil_r. exact (proj1 (sorted_app_inv _ _ k3)).
Qed.

Lemma K_request : forall s req pend m, J s -> K s req pend ->
  let s' := fst (sw_request B shape b2f too_flush fill s m) in
  match snd (sw_request B shape b2f too_flush fill s m) with
  | OutObs [o] => K s' (req ++ [o_tid o]) (pend ++ [o])
  | OutRaise _ => K s' req pend
  | _ => False
  end.
Proof.
  intros s req pend m HJ [k1 k2 k3]. cbv zeta.
  pose proof (request_sync s m HJ) as R. cbv zeta in R.
  destruct (sw_request B shape b2f too_flush fill s m) as [s' x]. cbn [fst snd] in *. destruct R as [J' R].
  pose proof (filled_tids _ _ k1) as Ft.
  destruct R as [(R1 & R2 & R3 & R4 & e & ->)|(o & c & -> & Rc & R2 & R4 & R)].
  - constructor; rewrite ?R2, ?R4; auto. unfold pool. now rewrite R2, R3.
  - assert (P0 : pool s' = filter (fun u => negb (Z.eqb (o_tid u) (o_tid o))) (filter (outside (map o_tid (sw_obs s))) (q_active (c_q (sw_core s'))))).
    { unfold pool. rewrite R2, map_app. cbn [map]. rewrite fill_tid, filter_filter. apply filter_ext. intros u. unfold outside.
      rewrite existsb_app. cbn. now rewrite orb_false_r, negb_orb. }
    constructor.
    + rewrite R2. apply Forall2_app; [exact k1|]. constructor; [now exists c|constructor].
    + destruct k2 as (rep & -> & R5). exists rep. rewrite map_app. cbn. split; [now rewrite app_assoc|]. now rewrite R4.
    + destruct R as [(Q0 & o1 & r & P1 & T1)|(P1 & o1 & l & z & T1 & Q0 & Ts & Zc & Zp)].
      * rewrite P1 in k3. cbn [map] in k3.
        assert (P2 : pool s' = r).
        { rewrite P0, Q0. fold (pool s). rewrite P1. cbn [filter]. rewrite T1, Z.eqb_refl. cbn [negb].
          apply filter_true. intros u Hu. apply negb_true_iff, Z.eqb_neq.
          apply sorted_app_inv in k3. destruct k3 as (_ & k3 & _). inversion k3 as [|? ? _ F]; subst. rewrite Forall_forall in F.
          specialize (F (o_tid u) (in_map o_tid _ _ Hu)). lia. }
        rewrite P2, <- T1, <- app_assoc. exact k3.
      * rewrite P1 in k3. cbn [map] in k3. rewrite app_nil_r in k3.
        assert (Zl : forall u, In u l -> (o_tid o < o_tid u)%Z /\ (z <= o_tid u)%Z).
        { intros u Hu. cbn [map zseq] in Ts. injection Ts as Ta Tb. apply (in_map o_tid) in Hu. rewrite Tb in Hu. apply zseq_bounds in Hu. lia. }
        assert (Ez : o_tid o = z) by (cbn [map zseq] in Ts; injection Ts as Ta _; congruence).
        assert (P2 : pool s' = l).
        { rewrite P0, Q0, !active_append, !filter_app. fold (pool s). rewrite P1. cbn [filter app].
          
          assert (N : forall u, o_tid u = o_tid o -> filter (fun u => negb (Z.eqb (o_tid u) (o_tid o))) (if outside (map o_tid (sw_obs s)) u then [u] else []) = []).
          { intros u Hu. destruct (outside _ u); cbn; [rewrite Hu, Z.eqb_refl|]; reflexivity. }
          rewrite (N o eq_refl). cbn [app].
          assert (M : forall (q : bool) (y : list obs), filter (fun u => negb (Z.eqb (o_tid u) (o_tid o))) (if q then o1 :: y else y) = filter (fun u => negb (Z.eqb (o_tid u) (o_tid o))) y).
          { intros [|] y; cbn [filter]; [rewrite T1, Z.eqb_refl|]; reflexivity. }
          rewrite M, filter_filter. apply filter_true. intros u Hu. destruct (Zl u Hu) as [Z1 Z2]. apply andb_true_iff. split.
          - apply outside_true. intros I. apply in_map_iff in I. destruct I as (p & Ep & Ip). specialize (Zp p Ip). lia.
          - apply negb_true_iff, Z.eqb_neq. lia. }
        rewrite P2, <- app_assoc. cbn [app]. apply sorted_app; [exact k3| |].
        -- replace (o_tid o :: map o_tid l) with (map o_tid (o1 :: l)) by (cbn; now rewrite T1). rewrite Ts. apply zseq_sorted.
        -- intros x y Hx Hy. assert (z <= y)%Z by (destruct Hy as [<-|Hy]; [lia|apply in_map_iff in Hy; destruct Hy as (u & <- & Hu); now apply Zl]).
           destruct k2 as (rep & -> & R5). apply in_app_iff in Hx. destruct Hx as [Hx|Hx].
           ++ rewrite Forall_forall in R5. specialize (R5 x Hx). lia.
           ++ rewrite <- Ft in Hx. apply in_map_iff in Hx. destruct Hx as (p & <- & Ip). specialize (Zp p Ip). lia.
Qed.

Lemma K_report : forall s req p pend o, J s -> K s req (p :: pend) -> o_tid o = o_tid p -> K (sw_add B shape s o) req pend.
Proof.
  intros s req p pend o [a b ac d e f g h] [k1 k2 k3] T. inversion k1 as [|f0 ? fs ? F1 F2 E1 E2]; subst.
  pose proof (filled_tids _ _ F2) as Ft. destruct F1 as [c Ec].
  assert (Tf : o_tid f0 = o_tid p) by (rewrite Ec; apply fill_tid).
  assert (S1 : searchsorted (fun i => Z.leb i (o_tid o)) 0%Z (sw_ids s) = 1).
  { destruct k2 as (rep & R1 & R2). rewrite R1, <- app_assoc in k3. apply sorted_app_inv in k3. destruct k3 as (_ & k3 & _).
    apply sorted_app_inv in k3. destruct k3 as (k3 & _ & _). cbn [map] in k3. inversion k3 as [|? ? k4 F]; subst.
    rewrite Forall_forall in F. rewrite a, <- E1. cbn [map]. rewrite Ft, Tf.
    assert (Lt : forall k x, nth_error (map o_tid pend) k = Some x -> (o_tid p < x)%Z) by (intros k x Hk; apply F; eapply nth_error_In; eauto).
    apply searchsorted_unique.
    - intros i j x y Hij Hi Hj Hy. apply Z.leb_le in Hy. apply Z.leb_le. destruct j as [|j].
      + assert (i = 0) by lia. subst i. cbn in *. injection Hi as <-. lia.
      + cbn in Hj. specialize (Lt _ _ Hj). lia.
    - cbn. lia.
    - intros i x Hi Hx. assert (i = 0) by lia. subst i. cbn in Hx. injection Hx as <-. apply Z.leb_le. lia.
    - intros i x Hi Hx. destruct i as [|i]; [lia|]. cbn in Hx. specialize (Lt _ _ Hx). apply Z.leb_gt. lia. }
  unfold sw_add. cbv zeta. rewrite S1. constructor; cbn [sw_obs sw_core sw_ids].
  - rewrite <- E1. cbn. exact F2.
  - destruct k2 as (rep & -> & R2). exists (rep ++ [o_tid p]). cbn [map]. split; [now rewrite <- app_assoc|].
    rewrite (proj2 (proj2 (add_fields (sw_core s) o))). pose proof (bump_spec (c_ctr (sw_core s)) (o_tid o)) as [U1 U2].
    apply Forall_app. split; [eapply Forall_impl; [|exact R2]; cbn; intros; lia|constructor; [lia|constructor]].
  - unfold pool in *. cbn [sw_obs sw_core]. rewrite <- E1 in *. cbn [skipn map] in *. rewrite add_active, filter_filter.
    erewrite filter_ext; [exact k3|]. intros u. unfold outside. cbn [existsb]. rewrite Tf, T, negb_orb. reflexivity.
Qed.

(** ** Requests never fail when some survey can always be asked *)
Record productive : Prop := mkProd {
  p_shape : shape <> [];
  p_tiers : Forall (fun n => n <> 0) shape;
  p_b2f : b2f = [];
  p_gen : forall w t i c, exists o l, snd (sv_gen B w t i c) = GArr (o :: l);
  p_reward : forall w t i c, exists x, In x (snd (sv_reward B w t i c)) /\ above_ninf x }.

Lemma fill_productive : productive -> forall (s : core) c, exists s' o l, fill_queue B shape b2f s c = (s', Ok tt) /\ c_q s' = q_set (o :: l).
Proof.
  intros [P1 P2 P3 P4 P5] s c.
  assert (OKf : snd (fill_queue B shape b2f s c) = Ok tt).
  { apply fill_queue_ok; auto. intros w t i. destruct (P4 w t i c) as (o & l & H). eauto. }
  destruct (fill_queue B shape b2f s c) as [s' r] eqn:EF. cbn in OKf. subst r. pose proof (fill_queue_spec B shape b2f s c s' EF) as S.
  cbv zeta in S. destruct S as [(t & i & w1 & l & l2 & _ & G & Bf & Q0 & _)|(N & _)].
  - destruct (P4 (world_after B (c_w s) 0 shape (S t) c) t i c) as (o & l0 & H). rewrite G in H. cbn in H. injection H as ->.
    rewrite P3 in Bf. cbn in Bf. injection Bf as <-. exists s'. do 2 eexists. split; [reflexivity|exact Q0].
  - exfalso. destruct shape as [|n sh]; [congruence|]. inversion P2 as [|? ? Pn _]; subst. cbn [all_arrays] in N.
    destruct n as [|n]; [congruence|]. cbn [seq tier_arrays] in N. pose proof (P5 (c_w s) 0 0 c) as (x & Ix & Ax).
    destruct (sv_reward B (c_w s) 0 0 c) as [w1 a]. destruct (tier_arrays B w1 0 (seq 1 n) c) as [w2 l].
    refine (N (a :: l) a (or_introl eq_refl) (or_introl eq_refl) x Ix Ax).
Qed.

Lemma request_productive : productive -> forall (s : core) c m, c_cond s = Some c -> (forall e, In e (c_q s) -> no_expiry (fst e)) ->
  exists s' o, request B shape b2f s m false = (s', OutObs [o]).
Proof.
  intros P s c m C H. destruct (q_active (c_q s)) as [|o r] eqn:A.
  - destruct (request_empty s c m C H A) as (s' & x & RQ & _ & _ & _ & _ & _ & Cases).
    destruct Cases as [[NX Ac]|(o & o' & l & -> & _)]; [|eauto]. exfalso.
    destruct (fill_productive P s c) as (s1 & o & l & F & Q0).
    unfold request in RQ. rewrite C, count_active, A in RQ. cbn [List.length Nat.eqb] in RQ. rewrite F in RQ.
    rewrite count_active, Q0, active_set in RQ. cbn [List.length Nat.eqb] in RQ.
    assert (H1 : forall e, In e (c_q s1) -> no_expiry (fst e)).
    { pose proof (fill_cases s c) as FC. cbv zeta in FC. rewrite F in FC. cbn [fst snd] in FC.
      destruct FC as (_ & _ & _ & _ & [[N _]|[[_ Eq]|[_ (l1 & Eq & Fl & _)]]]); [congruence|rewrite Eq; intros ? []|].
      intros [u b] I. rewrite Eq in I. apply in_q_set in I. destruct I as [_ I]. rewrite Forall_forall in Fl. now apply Fl. }
    destruct (qm_first s1 c o l H1) as (o' & D & _); [rewrite Q0; apply active_set|].
    destruct (qm_request B s1 c false) as [s2 l']. cbn [snd] in D. subst l'. injection RQ as <- <-. destruct NX as [NX|[e NX]]; discriminate.
  - destruct (request_active s c m o r C H A) as (s' & o' & RQ & _). eauto.
Qed.

Lemma sw_request_ok : productive -> forall s m, J s -> sw_cond s <> None ->
  exists o, snd (sw_request B shape b2f too_flush fill s m) = OutObs [o].
Proof.
  intros P s m HJ HC. unfold sw_request. destruct (sw_cond s) as [c|] eqn:C; [|congruence].
  pose proof (replay_sync s HJ) as R. cbv zeta in R.
  assert (G : forall s1 ok, sw_replay B shape too_flush s = (s1, ok) -> ok = true /\
     exists a o c1, request B shape b2f (sw_ahead s1) m false = (a, OutObs [o]) /\ sw_cond s1 = Some c1).
  { intros s1 ok RE. rewrite RE in R. cbn [fst snd] in R. destruct R as (J1 & N1 & I1 & O1 & Q0 & C0 & OK1 & SC1). split.
    - destruct ok; [reflexivity|]. destruct OK1 as [OK1 _]. destruct (OK1 eq_refl) as [_ X1]. congruence.
    - destruct (sw_cond s1) as [c1|] eqn:C1; [|rewrite (proj1 SC1 eq_refl) in C; discriminate].
      destruct (request_productive P (sw_ahead s1) c1 m) as (a & o & RQ); [rewrite (j_acond _ J1); exact C1|apply (j_aq _ J1)|]. eauto 6. }
  destruct (sw_replay B shape too_flush s) as [s1 ok]. destruct (G s1 ok eq_refl) as (-> & a & o & c1 & RQ & C1).
  exists o. destruct m; cbn [negb]; rewrite RQ, C1; reflexivity.
Qed.

Lemma wstep_cond : forall s o, J s -> sw_cond s <> None -> sw_cond (fst (wstep B shape b2f too_flush fill s o)) <> None.
Proof.
  intros s [c|m|o|] HJ H; cbn [wstep fst].
  - unfold sw_update, update_conditions. cbn. discriminate.
  - pose proof (request_sync s m HJ) as R. cbv zeta in R. unfold sw_request in *.
    destruct (sw_cond s) as [c|] eqn:C; [|congruence].
    pose proof (replay_sync s HJ) as RS. cbv zeta in RS. destruct (sw_replay B shape too_flush s) as [s1 ok]. cbn [fst snd] in RS.
    destruct RS as (_ & _ & _ & _ & _ & _ & _ & SC). rewrite C in SC.
    destruct (sw_cond s1) as [c1|] eqn:C1; [|destruct SC as [SC _]; specialize (SC eq_refl); discriminate].
    destruct m; destruct (negb ok); cbn [fst]; try congruence;
      destruct (request B shape b2f (sw_ahead s1) _ false) as [a [| |[|o l]|e]]; cbn [fst sw_cond]; try congruence; rewrite ?C1; cbn; congruence.
  - exact H.
  - exact H.
Qed.
Lemma wrun_cond : forall ops s, J s -> sw_cond s <> None \/ (exists c, In (WUpdate c) ops) ->
  sw_cond (fst (wrun B shape b2f too_flush fill s ops)) <> None.
Proof.
  induction ops as [|o ops IH]; intros s HJ H; cbn [wrun].
  - destruct H as [H|[c []]]. exact H.
  - pose proof (wstep_J s o HJ) as H1. assert (H2 : sw_cond s <> None \/ (exists c, o = WUpdate c) \/ exists c, In (WUpdate c) ops).
    { destruct H as [H|[c [Hc|H]]]; [now left|right; left; eexists; exact Hc|right; right; eauto]. }
    assert (H3 : sw_cond (fst (wstep B shape b2f too_flush fill s o)) <> None \/ exists c, In (WUpdate c) ops).
    { destruct H2 as [H2|[[c ->]|H2]]; [left; now apply wstep_cond|left; cbn [wstep fst]; unfold sw_update, update_conditions; cbn; discriminate|now right]. }
    destruct (wstep B shape b2f too_flush fill s o) as [s1 x]. cbn [fst] in *. specialize (IH s1 H1 H3).
    destruct (wrun B shape b2f too_flush fill s1 ops) as [s2 xs]. exact IH.
Qed.
End SummitProofs.
