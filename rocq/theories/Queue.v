(** Model of the queue manager.
    /repo/rubin_scheduler/scheduler/schedulers/queue_manager.py. *)
From Coq Require Import List ZArith QArith Bool Lia.
From Verif Require Import Base IntRounded Obs.
Import ListNotations.
Open Scope nat_scope.

(** [desired_observations_array] and [need_observing] (lines 53-56) are two
    parallel arrays of equal length; modelled as one list of pairs. *)
Definition queue : Type := list (obs * bool).

(** [flush_queue] lines 58-60. *)
Definition q_flush : queue := [].
(** [append_to_queue] lines 62-65. *)
Definition q_append (q : queue) (l : list obs) : queue := q ++ map (fun o => (o, true)) l.
(** [set_queue] lines 67-69. *)
Definition q_set (l : list obs) : queue := map (fun o => (o, true)) l.
(** [mark_observation_completed] lines 184-189: matches on target_id only. *)
Definition q_mark (t : Z) (q : queue) : queue :=
  map (fun e => if Z.eqb (o_tid (fst e)) t then (fst e, false) else e) q.
(** first part of [add_observations_array] lines 81-84 ([np.isin]). *)
Definition q_mark_many (ts : list Z) (q : queue) : queue :=
  map (fun e => if existsb (Z.eqb (o_tid (fst e))) ts then (fst e, false) else e) q.

(** [np.sum(need_observing)] *)
Definition q_count (q : queue) : nat := length (filter snd q).
(** [return_active_queue] lines 180-182. *)
Definition q_active (q : queue) : list obs := map fst (filter snd q).

(** [find_valid_observations_indx] lines 114-152.  [now] is the time used,
    [ok o] says whether the reward map of the basis functions is finite at the
    position of [o] (always true when the reward is a scalar, line 137).  The
    index arrays are represented by flags in queue order. *)
Definition mjd_flags (now : Q) (q : queue) : list bool :=
  let fl := map (fun e => o_flush (fst e)) q in
  let le := map (fun p => Qle_bool (fst p) (snd p)) (check_limit (map (fun f => (now, f)) fl)) in
  map (fun p => fst p || Qeq_bool (snd p) 0) (combine le fl).

Definition q_valid (now : Q) (ok : obs -> bool) (q : queue) : list obs :=
  map (fun p => fst (snd p))
    (filter (fun p => fst p && snd (snd p) && ok (fst (snd p))) (combine (mjd_flags now q) q)).

(** [_check_queue_mjd_only] lines 99-112. *)
Definition q_check_mjd (now : Q) (ok : obs -> bool) (q : queue) : bool :=
  negb (Nat.eqb (length (q_valid now ok q)) 0).

(** [request_observation] lines 154-173 before detailers are applied;
    [n_return] is 1 in every call made by the core scheduler. *)
Definition q_request (now : Q) (ok : obs -> bool) (whole : bool) (q : queue) : list obs :=
  if whole then q_valid now ok q else firstn 1 (q_valid now ok q).

(** ** Facts *)

Lemma mjd_flags_length : forall now q, length (mjd_flags now q) = length q.
Proof.
  intros. unfold mjd_flags. rewrite map_length, combine_length, map_length, check_limit_length, !map_length.
  apply Nat.min_id.
Qed.

(** [mjd_flags] agrees with [IntRounded(mjd) <= IntRounded(flush_by)]. *)
Lemma mjd_flags_ir : forall now (q : queue),
  ir_le [now] (map (fun e => o_flush (fst e)) q) =
  Ok (map (fun p => Qle_bool (fst p) (snd p))
          (check_limit (map (fun f => (now, f)) (map (fun e => o_flush (fst e)) q)))).
Proof. reflexivity. Qed.

Lemma in_combine_same : forall A B (l1 : list A) (l2 : list B) a b,
  In (a, b) (combine l1 l2) ->
  exists i, nth_error l1 i = Some a /\ nth_error l2 i = Some b.
Proof.
  induction l1 as [|x r IH]; intros [|y s] a b H; simpl in H; try contradiction.
  destruct H as [H|H].
  - inversion H; subst. exists 0. auto.
  - destruct (IH _ _ _ H) as [i [H1 H2]]. exists (S i). auto.
Qed.

(** Each flag depends only on its own entry up to the rounding decision: it is
    implied by the exact test and implies it up to one day. *)
Lemma mjd_flags_nth : forall now q i e,
  nth_error q i = Some e ->
  exists b, nth_error (mjd_flags now q) i = Some b /\
    ((now <= o_flush (fst e))%Q \/ (o_flush (fst e) == 0)%Q -> b = true) /\
    (b = true -> (now <= o_flush (fst e) + 1)%Q \/ (o_flush (fst e) == 0)%Q).
Proof.
  intros now q i e H. unfold mjd_flags.
  set (fl := map (fun e => o_flush (fst e)) q).
  assert (Hf : nth_error fl i = Some (o_flush (fst e))).
  { unfold fl. rewrite nth_error_map, H. reflexivity. }
  set (ps := map (fun f => (now, f)) fl).
  assert (Hp : nth_error ps i = Some (now, o_flush (fst e))).
  { unfold ps. rewrite nth_error_map, Hf. reflexivity. }
  assert (Hle : exists b, nth_error (map (fun p => Qle_bool (fst p) (snd p)) (check_limit ps)) i = Some b
     /\ ((now <= o_flush (fst e))%Q -> b = true) /\ (b = true -> (now <= o_flush (fst e) + 1)%Q)).
  { rewrite nth_error_map. destruct (check_limit_cases ps) as [-> | ->].
    - rewrite Hp. exists (Qle_bool now (o_flush (fst e))). split; [reflexivity|].
      split; intros K; [now apply Qle_bool_iff|].
      apply Qle_bool_iff in K. apply Qle_trans with (1 := K).
      rewrite <- (Qplus_0_r (o_flush (fst e))) at 1. apply Qplus_le_r. discriminate.
    - rewrite nth_error_map, Hp. cbn [option_map].
      exists (Qle_bool (fst (round_pair (now, o_flush (fst e)))) (snd (round_pair (now, o_flush (fst e))))).
      split; [reflexivity|]. split; intros K.
      + apply Qle_bool_iff. now apply round_pair_mono.
      + apply Qle_bool_iff in K. exact (round_pair_le_bound _ K). }
  destruct Hle as (b & Hb & K1 & K2).
  assert (Hc : nth_error (combine (map (fun p => Qle_bool (fst p) (snd p)) (check_limit ps)) fl) i
               = Some (b, o_flush (fst e))).
  { revert Hb Hf. generalize (map (fun p => Qle_bool (fst p) (snd p)) (check_limit ps)).
    clear. intros l. revert l i. induction fl as [|f r IH]; intros [|c l] i Hb Hf; destruct i; simpl in *; try discriminate.
    - congruence.
    - now apply IH. }
  rewrite nth_error_map, Hc. cbn [option_map fst snd].
  exists (b || Qeq_bool (o_flush (fst e)) 0). split; [reflexivity|]. split.
  - intros [K|K]; apply orb_true_iff; [left|right]; [now apply K1|now apply Qeq_bool_iff].
  - intros K. apply orb_true_iff in K. destruct K as [K|K]; [left|right]; [now apply K2|now apply Qeq_bool_iff].
Qed.

Lemma q_valid_in : forall now ok q o,
  In o (q_valid now ok q) -> In (o, true) q /\ ok o = true /\
    ((now <= o_flush o + 1)%Q \/ (o_flush o == 0)%Q).
Proof.
  intros now ok q o H. unfold q_valid in H. apply in_map_iff in H.
  destruct H as [[b [o' n]] [E H]]. cbn in E. subst o'.
  apply filter_In in H. destruct H as [H C]. cbn in C.
  apply andb_true_iff in C. destruct C as [C Cok]. apply andb_true_iff in C. destruct C as [-> ->].
  destruct (in_combine_same _ _ _ _ _ _ H) as [i [H1 H2]].
  split; [eapply nth_error_In; eauto|]. split; [exact Cok|].
  destruct (mjd_flags_nth now q i _ H2) as (b & Hb & _ & K).
  rewrite H1 in Hb. injection Hb as <-. cbn in K. now apply K.
Qed.

Lemma q_request_in : forall now ok whole q o,
  In o (q_request now ok whole q) -> In o (q_valid now ok q).
Proof.
  intros now ok [|] q o H; unfold q_request in H; [exact H|].
  destruct (q_valid now ok q) as [|x r]; simpl in *; [contradiction|]. destruct H; auto. contradiction.
Qed.

(** When no flush time is within 1e-9 (relative to the current time) of the
    current time, the validity test is the exact one. *)
Definition no_near_tie (now : Q) (q : queue) : Prop :=
  forall e, In e q -> ((1 # 1000000000) * Qabs.Qabs now < Qabs.Qabs (now - o_flush (fst e)))%Q.

Definition exact_live (now : Q) (o : obs) : bool :=
  Qle_bool now (o_flush o) || Qeq_bool (o_flush o) 0.

Lemma mjd_flags_exact : forall now q, ~ (now == 0)%Q -> no_near_tie now q ->
  mjd_flags now q = map (fun e => exact_live now (fst e)) q.
Proof.
  intros now q Hn Ht. unfold mjd_flags.
  destruct q as [|e0 q0]; [reflexivity|].
  rewrite (check_limit_exact _ now).
  - rewrite !map_map. generalize (e0 :: q0). clear. intros q.
    induction q as [|e r IH]; [reflexivity|]. cbn [map combine fst snd]. f_equal. exact IH.
  - left. cbn. auto.
  - exact Hn.
  - intros a b Hin. apply in_map_iff in Hin. destruct Hin as [f [E Hf]]. injection E as <- <-.
    apply in_map_iff in Hf. destruct Hf as [e [<- He]]. apply (Ht e He).
Qed.

Lemma q_valid_exact : forall now ok q, ~ (now == 0)%Q -> no_near_tie now q ->
  q_valid now ok q =
  map fst (filter (fun e => exact_live now (fst e) && snd e && ok (fst e)) q).
Proof.
  intros now ok q Hn Ht. unfold q_valid. rewrite mjd_flags_exact by assumption. clear.
  induction q as [|[o n] r IH]; [reflexivity|]. cbn [map combine filter fst snd].
  destruct (exact_live now o && n && ok o); cbn [map fst snd]; rewrite IH; reflexivity.
Qed.

Lemma q_mark_many_in : forall ts q o,
  In (o, true) (q_mark_many ts q) <-> In (o, true) q /\ ~ In (o_tid o) ts.
Proof.
  intros ts q o. unfold q_mark_many. rewrite in_map_iff. split.
  - intros [[o' n] [E H]]. cbn in E.
    destruct (existsb (Z.eqb (o_tid o')) ts) eqn:X; [discriminate|].
    injection E as -> ->. split; [exact H|]. intros Hin.
    assert (existsb (Z.eqb (o_tid o)) ts = true); [|congruence].
    apply existsb_exists. exists (o_tid o). split; [exact Hin|apply Z.eqb_refl].
  - intros [H N]. exists (o, true). split; [|exact H]. cbn.
    destruct (existsb (Z.eqb (o_tid o)) ts) eqn:X; [|reflexivity].
    apply existsb_exists in X. destruct X as [t [Ht E]]. apply Z.eqb_eq in E. subst. contradiction.
Qed.

Lemma q_mark_many_single : forall t q, q_mark_many [t] q = q_mark t q.
Proof.
  intros t q. unfold q_mark_many, q_mark. apply map_ext. intros e. cbn [existsb].
  rewrite orb_false_r. reflexivity.
Qed.

Lemma q_mark_many_app : forall a b q, q_mark_many (a ++ b) q = q_mark_many b (q_mark_many a q).
Proof.
  intros a b q. unfold q_mark_many. rewrite map_map. apply map_ext. intros [o n]. cbn [fst].
  rewrite existsb_app. destruct (existsb (Z.eqb (o_tid o)) a) eqn:A; cbn [fst orb].
  - destruct (existsb (Z.eqb (o_tid o)) b); reflexivity.
  - reflexivity.
Qed.

Lemma fold_mark : forall ts q, fold_left (fun q t => q_mark t q) ts q = q_mark_many ts q.
Proof.
  induction ts as [|t r IH]; intros q.
  - cbn. unfold q_mark_many. cbn. symmetry. rewrite <- (map_id q) at 2. reflexivity.
  - cbn [fold_left]. rewrite IH, <- q_mark_many_single, <- q_mark_many_app. reflexivity.
Qed.

Lemma q_mark_many_perm : forall a b q,
  (forall t, In t a <-> In t b) -> q_mark_many a q = q_mark_many b q.
Proof.
  intros a b q H. unfold q_mark_many. apply map_ext. intros [o n]. cbn [fst].
  assert (E : existsb (Z.eqb (o_tid o)) a = existsb (Z.eqb (o_tid o)) b); [|rewrite E; reflexivity].
  apply eq_true_iff_eq. rewrite !existsb_exists. split; intros [t [Ht Et]]; exists t; split; auto; now apply H.
Qed.
