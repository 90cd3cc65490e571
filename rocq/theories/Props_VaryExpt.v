(** C77: exposure times that aim for a uniform depth. *)
From Coq Require Import List Bool String ZArith Reals Lra Lia.
From Verif Require Import Base VaryExpt VaryExpt_proofs.
Import ListNotations.
Local Open Scope string_scope.
Open Scope list_scope.
Open Scope R_scope.

(** The nearest whole number, the even one of two. *)
Definition nearest (x n : R) : Prop :=
  exists z, n = IZR z /\ Rabs (n - x) <= 1 / 2 /\ (Rabs (n - x) = 1 / 2 -> Z.even z = true).
(** What an observation keeps, and the exposure time it gets. *)
Definition exposes (lo hi : R) (target : string -> option R) (k : sky) (r q : vrow) : Prop :=
  v_id q = v_id r /\ v_band q = v_band r /\ v_pix q = v_pix r /\
  exists t m d e, target (v_band r) = Some t /\ s_m5 k (v_band r) = Some m /\ depth_of k m (v_pix r) d /\
    reaches (s_exptime k) d t e /\
    (lo <= e <= hi -> nearest e (v_exptime q)) /\ (e <= lo -> nearest lo (v_exptime q)) /\ (hi <= e -> nearest hi (v_exptime q)).

Lemma nearest_rround : forall x, nearest x (IZR (rround x)).
Proof. intro x. exists (rround x). split; [reflexivity|]. split; [apply rround_near|apply rround_tie]. Qed.
Lemma vary_ok : forall lo hi target k l out, vary lo hi target k l = Ok out ->
  Forall2 (fun r q => v_id q = v_id r /\ v_band q = v_band r /\ v_pix q = v_pix r /\ new_exptime lo hi target k r = Ok (v_exptime q)) l out.
Proof.
  intros lo hi target k l out H. unfold vary in H. pose proof (mapM_spec (new_exptime lo hi target k) l) as M.
  destruct (mapM (new_exptime lo hi target k) l) as [es|e]; [|discriminate]. cbn [bind] in H. injection H as <-.
  induction M as [|r e l es H1 H2 IH]; cbn; constructor; [repeat split; exact H1|exact IH].
Qed.
Lemma new_exptime_ok : forall lo hi target k r x, new_exptime lo hi target k r = Ok x ->
  exists t m d, target (v_band r) = Some t /\ s_m5 k (v_band r) = Some m /\ depth k m (v_pix r) = Ok d /\
    x = IZR (rround (clip (s_exptime k * Rpower 10 ((t - d) / (5 / 4))) lo hi)).
Proof.
  intros lo hi target k r x H. unfold new_exptime in H. destruct (target (v_band r)) as [t|]; [|discriminate].
  destruct (s_m5 k (v_band r)) as [m|]; [|discriminate]. destruct (depth k m (v_pix r)) as [d|] eqn:E; [|discriminate].
  cbn [bind] in H. injection H as <-. exists t, m, d. auto.
Qed.

(** Each observation gets the time, to the second, that reaches the target depth from the depth at
    its pixel, or the limit on its side; nothing else changes. *)
Theorem C77_exptime : forall lo hi target k l out, 0 < s_exptime k -> lo <= hi ->
  vary lo hi target k l = Ok out -> Forall2 (exposes lo hi target k) l out.
Proof.
  intros lo hi target k l out P L H. apply vary_ok in H. eapply Forall2_impl2; [|exact H]. clear H.
  intros r q [H1 [H2 [H3 H4]]]. split; [exact H1|]. split; [exact H2|]. split; [exact H3|].
  destruct (new_exptime_ok _ _ _ _ _ _ H4) as [t [m [d [T [M [D X]]]]]].
  pose proof (depth_spec k m (v_pix r)) as DS. rewrite D in DS.
  exists t, m, d, (s_exptime k * Rpower 10 ((t - d) / (5 / 4))). rewrite X.
  split; [exact T|]. split; [exact M|]. split; [exact DS|]. split; [apply power_reaches; exact P|].
  split; [intro G; rewrite clip_id by exact G|split; intro G; [rewrite clip_low by lra|rewrite clip_high by lra]]; apply nearest_rround.
Qed.
Print Assumptions C77_exptime.
(** The time reaching a depth is unique. *)
Theorem C77_one_time : forall t0 d t e e', 0 < t0 -> reaches t0 d t e -> reaches t0 d t e' -> e = e'.
Proof. exact reaches_unique. Qed.
Print Assumptions C77_one_time.
(** With limits in whole seconds the times are whole seconds between them. *)
Theorem C77_limits_partial : forall lo hi target k l out, (lo <= hi)%Z ->
  vary (IZR lo) (IZR hi) target k l = Ok out ->
  Forall (fun q => exists z, v_exptime q = IZR z /\ (lo <= z <= hi)%Z) out.
Proof.
  intros lo hi target k l out L H. apply vary_ok in H. induction H as [|r q l out [_ [_ [_ X]]] F IH]; constructor; [|exact IH].
  destruct (new_exptime_ok _ _ _ _ _ _ X) as [t [m [d [_ [_ [_ E]]]]]]. eexists. split; [exact E|].
  apply IZR_le in L. destruct (clip_range (s_exptime k * Rpower 10 ((t - d) / (5 / 4))) _ _ L) as [C1 C2].
  apply rround_mono in C1. apply rround_mono in C2. rewrite rround_int in C1, C2. split; assumption.
Qed.
Print Assumptions C77_limits_partial.
(** With other limits they may be outside. *)
Definition flat_sky (x : R) : sky := mkSky 30 (fun _ => Some [Some x]) (fun _ => []).
Definition one_row : list vrow := [mkV 1 "r" 0 30].
Lemma flat_ok : forall lo hi x t, vary lo hi (fun _ => Some t) (flat_sky x) one_row =
  Ok [mkV 1 "r" 0 (IZR (rround (clip (30 * Rpower 10 ((t - x) / (5 / 4))) lo hi)))].
Proof. reflexivity. Qed.
Lemma pow0 : forall x, 30 * Rpower 10 ((x - x) / (5 / 4)) = 30.
Proof. intro x. replace ((x - x) / (5 / 4)) with 0 by field. rewrite Rpower_O by lra. lra. Qed.
Theorem C77_limits_refuted : exists lo hi target k l out, lo <= hi /\ 0 < s_exptime k /\
  vary lo hi target k l = Ok out /\ exists q, In q out /\ v_exptime q < lo.
Proof.
  exists (161 / 4), 100, (fun _ => Some 24), (flat_sky 24), one_row. eexists.
  split; [lra|]. split; [cbn; lra|]. split; [apply flat_ok|]. eexists. split; [left; reflexivity|]. cbn [v_exptime].
  rewrite pow0, clip_low by lra. rewrite (rround_unique (161 / 4) 40); [lra| |]; unfold Rabs; destruct Rcase_abs; lra.
Qed.
Print Assumptions C77_limits_refuted.
Theorem C77_limits_high_refuted : exists lo hi target k l out, lo <= hi /\ 0 < s_exptime k /\
  vary lo hi target k l = Ok out /\ exists q, In q out /\ hi < v_exptime q.
Proof.
  exists 20, (119 / 4), (fun _ => Some 24), (flat_sky 24), one_row. eexists.
  split; [lra|]. split; [cbn; lra|]. split; [apply flat_ok|]. eexists. split; [left; reflexivity|]. cbn [v_exptime].
  rewrite pow0, clip_high by lra. rewrite (rround_unique (119 / 4) 30); [lra| |]; unfold Rabs; destruct Rcase_abs; lra.
Qed.
Print Assumptions C77_limits_high_refuted.
(** Rounding to the second costs little depth: an observation given [n] seconds between the limits
    misses its target by at most 1.25 log10 (n / (n - 1/2)) magnitudes. *)
Theorem C77_depth : forall t0 d t e n, 0 < t0 -> reaches t0 d t e -> nearest e n -> 1 <= n ->
  Rabs (d + 5 / 4 * log10 (n / t0) - t) <= 5 / 4 * log10 (n / (n - 1 / 2)).
Proof. intros t0 d t e n P R [z [_ [N _]]] L. eapply rounding_error; eassumption. Qed.
Print Assumptions C77_depth.
(** A brighter sky is exposed no shorter. *)
Theorem C77_monotone : forall lo hi target k1 k2 r x1 x2 m1 m2 d1 d2,
  s_exptime k1 = s_exptime k2 -> 0 < s_exptime k1 ->
  s_m5 k1 (v_band r) = Some m1 -> s_m5 k2 (v_band r) = Some m2 ->
  value_at m1 (v_pix r) (Some d1) -> value_at m2 (v_pix r) (Some d2) -> d1 <= d2 ->
  vary lo hi target k1 [r] = Ok [x1] -> vary lo hi target k2 [r] = Ok [x2] -> v_exptime x2 <= v_exptime x1.
Proof.
  intros lo hi target k1 k2 r x1 x2 m1 m2 d1 d2 Ek P M1 M2 V1 V2 D H1 H2.
  apply vary_ok in H1. apply vary_ok in H2. inversion H1 as [|? ? ? ? [_ [_ [_ X1]]] _]. inversion H2 as [|? ? ? ? [_ [_ [_ X2]]] _]. subst.
  destruct (new_exptime_ok _ _ _ _ _ _ X1) as [t [m [d [T [M [De E]]]]]]. destruct (new_exptime_ok _ _ _ _ _ _ X2) as [t' [m' [d' [T' [M' [De' E']]]]]].
  rewrite M1 in M. rewrite M2 in M'. injection M as <-. injection M' as <-. rewrite T in T'. injection T' as <-.
  apply at_pix_spec in V1. apply at_pix_spec in V2. unfold depth in De, De'. rewrite V1 in De. rewrite V2 in De'. cbn [bind] in De, De'.
  injection De as <-. injection De' as <-. rewrite E, E', <- Ek. apply IZR_le, rround_mono, clip_mono.
  apply Rmult_le_compat_l; [lra|]. destruct (Req_dec d1 d2) as [->|N]; [lra|]. left. apply Rpower_lt; lra.
Qed.
Print Assumptions C77_monotone.
(** The times do not depend on those the observations had, so a second call changes nothing. *)
Theorem C77_again : forall lo hi target k l out, vary lo hi target k l = Ok out -> vary lo hi target k out = Ok out.
Proof.
  intros lo hi target k l out H. apply vary_ok in H. unfold vary.
  assert (M : mapM (new_exptime lo hi target k) out = Ok (map v_exptime out)).
  { induction H as [|r q l out [_ [H2 [H3 H4]]] F IH]; [reflexivity|]. cbn [mapM map].
    replace (new_exptime lo hi target k q) with (new_exptime lo hi target k r) by (unfold new_exptime; rewrite H2, H3; reflexivity).
    rewrite H4, IH. reflexivity. }
  rewrite M. cbn [bind]. f_equal. clear. induction out as [|[a b c d] out IH]; cbn; [reflexivity|]. f_equal. exact IH.
Qed.
Print Assumptions C77_again.
(** It fails only for a band without target or sky, a pixel off the map, or a masked pixel all of
    whose neighbours are masked. *)
Theorem C77_fails : forall lo hi target k l e, vary lo hi target k l = Raise e ->
  exists r, In r l /\
    ((e = KeyError /\ (target (v_band r) = None \/ s_m5 k (v_band r) = None)) \/ e = IndexError \/
     (e = ValueError /\ exists m, s_m5 k (v_band r) = Some m /\ value_at m (v_pix r) None /\
        exists vals, Forall2 (value_at m) (s_near k (v_pix r)) vals /\ forall v, In v vals -> v = None)).
Proof.
  intros lo hi target k l e H. unfold vary in H. pose proof (mapM_spec (new_exptime lo hi target k) l) as M.
  destruct (mapM (new_exptime lo hi target k) l) as [es|e']; [discriminate|]. cbn [bind] in H. injection H as ->.
  destruct M as [r [I M]]. exists r. split; [exact I|]. unfold new_exptime in M.
  destruct (target (v_band r)) as [t|]; [|injection M as <-; left; auto].
  destruct (s_m5 k (v_band r)) as [m|]; [|injection M as <-; left; auto].
  pose proof (depth_spec k m (v_pix r)) as DS. destruct (depth k m (v_pix r)) as [d|x]; [discriminate|]. cbn [bind] in M. injection M as ->.
  destruct e; try discriminate DS; try (right; left; reflexivity).
  right. right. split; [reflexivity|]. exists m. split; [reflexivity|exact DS].
Qed.
Print Assumptions C77_fails.
(** A masked pixel with a missing neighbour (numbered -1) averages in the last pixel of the map,
    wherever that is: two skies that differ in that pixel alone, which is no neighbour, give
    different times. *)
Definition edge_sky (x : R) : sky := mkSky 30 (fun _ => Some [None; Some 24; None; Some x]) (fun _ => [1; -1]%Z).
Lemma edge_ok : forall x, vary 20 100 (fun _ => Some 24) (edge_sky x) one_row =
  Ok [mkV 1 "r" 0 (IZR (rround (clip (30 * Rpower 10 ((24 - (24 + (x + 0)) / INR 2) / (5 / 4))) 20 100)))].
Proof. reflexivity. Qed.
Lemma edge_24 : vary 20 100 (fun _ => Some 24) (edge_sky 24) one_row = Ok [mkV 1 "r" 0 30].
Proof.
  rewrite edge_ok. replace ((24 - (24 + (24 + 0)) / INR 2) / (5 / 4)) with 0 by (cbn [INR]; field).
  rewrite Rpower_O by lra. rewrite Rmult_1_r, clip_id by lra. rewrite rround_int. reflexivity.
Qed.
Lemma edge_19 : vary 20 100 (fun _ => Some 24) (edge_sky 19) one_row = Ok [mkV 1 "r" 0 100].
Proof.
  rewrite edge_ok. replace ((24 - (24 + (19 + 0)) / INR 2) / (5 / 4)) with (1 + 1) by (cbn [INR]; field).
  rewrite Rpower_plus, Rpower_1 by lra. rewrite clip_high by lra. rewrite rround_int. reflexivity.
Qed.
Theorem C77_neighbour_refuted : exists lo hi target k k' r m m' out out',
  s_exptime k = s_exptime k' /\ s_near k = s_near k' /\ s_m5 k (v_band r) = Some m /\ s_m5 k' (v_band r) = Some m' /\
  (forall i, i <> 3%nat -> nth_error m i = nth_error m' i) /\ ~ In 3%Z (s_near k (v_pix r)) /\ v_pix r <> 3%Z /\
  vary lo hi target k [r] = Ok [out] /\ vary lo hi target k' [r] = Ok [out'] /\ v_exptime out <> v_exptime out'.
Proof.
  exists 20, 100, (fun _ => Some 24), (edge_sky 24), (edge_sky 19), (mkV 1 "r" 0 30). do 2 eexists. do 2 eexists.
  split; [reflexivity|]. split; [reflexivity|]. split; [reflexivity|]. split; [reflexivity|].
  split; [intros [|[|[|[|i]]]] H; try reflexivity; contradiction|].
  split; [cbn; lia|]. split; [discriminate|]. split; [exact edge_24|]. split; [exact edge_19|]. cbn. lra.
Qed.
Print Assumptions C77_neighbour_refuted.

Example C77_ex : vary 20 100 (fun _ => Some 24) (flat_sky 24) one_row = Ok [mkV 1 "r" 0 30].
Proof. rewrite flat_ok, pow0, clip_id by lra. rewrite rround_int. reflexivity. Qed.
(** 2.5 magnitudes short of the target would take 100 times as long: the upper limit is used. *)
Example C77_ex_clip : vary 20 100 (fun _ => Some 24) (flat_sky (43 / 2)) one_row = Ok [mkV 1 "r" 0 100].
Proof.
  rewrite flat_ok. replace ((24 - 43 / 2) / (5 / 4)) with (1 + 1) by field. rewrite Rpower_plus, Rpower_1 by lra.
  rewrite clip_high by lra. rewrite rround_int. reflexivity.
Qed.
