(** C134: the wind masks the sky it blows from. *)
From Coq Require Import Bool Reals Lia Lra.
From Verif Require Import Base Angles Sphere Wind.
From Verif Require Props_Sampling.
Open Scope R_scope.

(** The azimuth is within [a] of the direction the wind comes from. *)
Definition within (a dir az : R) : Prop := exists (k : Z) d, az = dir + d + IZR k * (2 * PI) /\ Rabs d < a.
Lemma cos_cycle : forall x (k : Z), cos (x + IZR k * (2 * PI)) = cos x.
Proof.
  intros x k. destruct (Z_le_dec 0 k) as [H|H].
  - rewrite <- (Z2Nat.id k H), <- INR_IZR_INZ. replace (INR (Z.to_nat k) * (2 * PI)) with (2 * INR (Z.to_nat k) * PI) by ring. apply cos_period.
  - replace x with ((x + IZR k * (2 * PI)) + 2 * INR (Z.to_nat (- k)) * PI) at 2. { symmetry. apply cos_period. }
    rewrite INR_IZR_INZ, Z2Nat.id by lia. rewrite opp_IZR. ring.
Qed.
Lemma turn : forall x, exists (k : Z) d, x = d + IZR k * (2 * PI) /\ - PI <= d < PI.
Proof.
  intros x. pose proof PI_RGT_0 as P. pose proof (Rmod_range (x + PI) (2 * PI) ltac:(lra)) as R. destruct (Rmod_congr (x + PI) (2 * PI)) as [k E].
  exists (- k)%Z, (Rmod (x + PI) (2 * PI) - PI). split; [|lra]. rewrite opp_IZR. lra.
Qed.
Lemma cos_gt : forall m d, -1 <= m <= 1 -> - PI <= d <= PI -> (m < cos d <-> Rabs d < acos m).
Proof.
  intros m d Hm Hd. assert (C : cos d = cos (Rabs d)) by (unfold Rabs; destruct (Rcase_abs d); [rewrite cos_neg|]; reflexivity). rewrite C.
  assert (A : 0 <= Rabs d <= PI) by (split; [apply Rabs_pos|apply Rabs_le; lra]).
  pose proof (Props_Sampling.acos_le m (Rabs d) Hm A) as L. split; intros H.
  - destruct (Rlt_dec (Rabs d) (acos m)); [assumption|]. exfalso. assert (acos m <= Rabs d) by lra. apply L in H0. lra.
  - destruct (Rlt_dec m (cos (Rabs d))); [assumption|]. exfalso. assert (cos (Rabs d) <= m) by lra. apply L in H0. lra.
Qed.

(** A wind above the limit masks exactly the azimuths within arccos(limit / speed) of the
    direction it comes from, whatever turns are added; a wind up to the limit masks
    nothing, and so does no wind. *)
Theorem C134_mask : forall maximum speed dir az,
  (- speed <= maximum < speed -> (mask_wind maximum (Some (speed, dir)) az = None <-> within (acos (maximum / speed)) dir az)) /\
  (0 <= speed <= maximum -> mask_wind maximum (Some (speed, dir)) az = Some 0) /\ mask_wind maximum None az = Some 0.
Proof.
  intros maximum speed dir az. split; [|split; [|reflexivity]].
  - intros H. assert (S0 : 0 < speed) by lra. unfold mask_wind, pressure.
    assert (M : -1 <= maximum / speed <= 1). { split; [apply Rmult_le_reg_r with speed; [lra|]; unfold Rdiv; rewrite Rmult_assoc, Rinv_l by lra; lra|apply Rmult_le_reg_r with speed; [lra|]; unfold Rdiv; rewrite Rmult_assoc, Rinv_l by lra; lra]. }
    assert (E : maximum < speed * cos (az - dir) <-> maximum / speed < cos (az - dir)).
    { split; intros X; [apply Rmult_lt_reg_l with speed; [lra|]; replace (speed * (maximum / speed)) with maximum by (field; lra); exact X|].
      apply (Rmult_lt_compat_l speed) in X; [|lra]. replace (speed * (maximum / speed)) with maximum in X by (field; lra). exact X. }
    transitivity (maximum / speed < cos (az - dir)).
    { rewrite <- E. destruct (Rlt_dec maximum (speed * cos (az - dir))); split; intros; try discriminate; try reflexivity; try assumption. contradiction. }
    split.
    + intros X. destruct (turn (az - dir)) as (k & d & D & R). rewrite D, cos_cycle in X. exists k, d. split; [lra|]. apply cos_gt in X; [exact X|exact M|lra].
    + intros (k & d & D & B). replace (az - dir) with (d + IZR k * (2 * PI)) by (rewrite D; ring). rewrite cos_cycle.
      pose proof (acos_bound (maximum / speed)) as A. apply cos_gt; [exact M| |exact B]. apply Rabs_def2 in B. lra.
  - intros H. unfold mask_wind, pressure. destruct (Rlt_dec maximum (speed * cos (az - dir))) as [X|X]; [|reflexivity]. exfalso. pose proof (COS_bound (az - dir)). nra.
Qed.
Print Assumptions C134_mask.
Example C134_mask_ex : mask_wind 5 (Some (10, 0)) 0 = None /\ mask_wind 5 (Some (10, 0)) PI = Some 0 /\ - 10 <= 5 < 10.
Proof.
  unfold mask_wind, pressure. rewrite !Rminus_0_r, cos_0, cos_PI. split; [destruct (Rlt_dec 5 (10 * 1)); [reflexivity|lra]|]. split; [destruct (Rlt_dec 5 (10 * -1)); [lra|reflexivity]|lra].
Qed.

(** Sky a quarter turn or more from the wind is never masked; a higher limit masks less; the
    mask is symmetric about the wind and the same after whole turns of either angle. *)
Theorem C134_shape : forall maximum maximum' speed dir d (k : Z),
  (0 <= maximum -> 0 <= speed -> cos d <= 0 -> mask_wind maximum (Some (speed, dir)) (dir + d) = Some 0) /\
  (maximum <= maximum' -> mask_wind maximum' (Some (speed, dir)) (dir + d) = None -> mask_wind maximum (Some (speed, dir)) (dir + d) = None) /\
  mask_wind maximum (Some (speed, dir)) (dir + d) = mask_wind maximum (Some (speed, dir)) (dir - d) /\
  mask_wind maximum (Some (speed, dir)) (dir + d + IZR k * (2 * PI)) = mask_wind maximum (Some (speed, dir)) (dir + d) /\
  mask_wind maximum (Some (speed, dir + IZR k * (2 * PI))) (dir + d) = mask_wind maximum (Some (speed, dir)) (dir + d).
Proof.
  intros maximum maximum' speed dir d k. unfold mask_wind, pressure. replace (dir + d - dir) with d by ring. repeat split.
  - intros H1 H2 H3. destruct (Rlt_dec maximum (speed * cos d)) as [X|X]; [exfalso; nra|reflexivity].
  - intros H. destruct (Rlt_dec maximum' (speed * cos d)); [|discriminate]. intros _. destruct (Rlt_dec maximum (speed * cos d)); [reflexivity|lra].
  - replace (dir - d - dir) with (- d) by ring. rewrite cos_neg. reflexivity.
  - replace (dir + d + IZR k * (2 * PI) - dir) with (d + IZR k * (2 * PI)) by ring. rewrite cos_cycle. reflexivity.
  - replace (dir + d - (dir + IZR k * (2 * PI))) with (d + IZR (- k) * (2 * PI)) by (rewrite opp_IZR; ring). rewrite cos_cycle. reflexivity.
Qed.
Print Assumptions C134_shape.

(** The function that was deprecated is the two that replace it: masked where the mask is,
    else the reward for the pressure, which is never above zero. *)
Theorem C134_split : forall maximum speed dir az, 0 <= speed ->
  avoid_wind maximum (Some (speed, dir)) az = match mask_wind maximum (Some (speed, dir)) az with None => None | Some x => Some (x + reward_wind 0 (Some (speed, dir)) az) end /\
  avoid_wind maximum None az = match mask_wind maximum None az with None => None | Some x => Some (x + reward_wind 0 None az) end /\
  reward_wind 0 (Some (speed, dir)) az <= 0.
Proof.
  intros maximum speed dir az H. unfold avoid_wind, mask_wind, reward_wind. destruct (Rlt_dec speed 0); [lra|]. repeat split.
  - destruct (Rlt_dec maximum (pressure speed dir az)); [reflexivity|]. f_equal. ring.
  - f_equal. ring.
  - nra.
Qed.
Print Assumptions C134_split.

(** The reward is zero for a wind below the minimum and the square of the pressure above, and
    the two limits in the wrong order are refused. *)
Theorem C134_reward : forall maximum minimum speed dir az,
  (speed < minimum -> reward_wind minimum (Some (speed, dir)) az = 0) /\
  (minimum <= speed -> reward_wind minimum (Some (speed, dir)) az = - (speed * cos (az - dir)) ^ 2) /\
  (minimum <= speed -> 0 <= speed -> - (speed ^ 2) <= reward_wind minimum (Some (speed, dir)) az) /\
  (pressure_limits maximum minimum = Raise ValueError <-> maximum < minimum).
Proof.
  intros maximum minimum speed dir az. unfold reward_wind, pressure, pressure_limits. repeat split.
  - intros H. destruct (Rlt_dec speed minimum); [reflexivity|lra].
  - intros H. destruct (Rlt_dec speed minimum); [lra|]. ring.
  - intros H1 H2. destruct (Rlt_dec speed minimum); [lra|]. pose proof (COS_bound (az - dir)) as C. assert (0 <= speed * speed * (1 - cos (az - dir) * cos (az - dir))) by (apply Rmult_le_pos; nra). nra.
  - destruct (Rlt_dec maximum minimum); [auto|discriminate].
  - intros H. destruct (Rlt_dec maximum minimum); [reflexivity|lra].
Qed.
Print Assumptions C134_reward.

(** Refuted: the reward prefers to look away from the wind; with the wind behind it is as
    low as against it. *)
Theorem C134_behind_refuted : forall minimum w az, reward_wind minimum w (az + PI) = reward_wind minimum w az.
Proof.
  intros minimum [[speed dir]|] az; [|reflexivity]. unfold reward_wind, pressure. destruct (Rlt_dec speed minimum); [reflexivity|].
  replace (az + PI - dir) with ((az - dir) + PI) by ring. rewrite neg_cos. ring.
Qed.
Print Assumptions C134_behind_refuted.
Example C134_behind_refuted_ex : reward_wind 0 (Some (10, 0)) (0 + PI) = - 100.
Proof. rewrite C134_behind_refuted. unfold reward_wind, pressure. rewrite Rminus_0_r, cos_0. destruct (Rlt_dec 10 0); lra. Qed.

(** Refuted: the ideal observatory has the wind from the direction asked for, in degrees.
    The number of degrees is used as radians, and the pressure is right everywhere only for
    directions that differ from their value in radians by whole turns. *)
Theorem C134_degrees_refuted : forall speed d, 0 < speed ->
  ((forall az maximum, mask_wind maximum (ideal_wind speed d) az = mask_wind maximum (constant_wind speed (radians d)) az) <-> exists k : Z, d - radians d = IZR k * (2 * PI)).
Proof.
  intros speed d H. split.
  - intros A. destruct (turn (radians d - d)) as (k & e & E & R). exists (- k)%Z.
    assert (C : cos (radians d - d) = 1).
    { destruct (Req_dec (cos (radians d - d)) 1) as [X|X]; [exact X|exfalso]. pose proof (COS_bound (radians d - d)) as B.
      specialize (A (radians d) ((speed * cos (radians d - d) + speed) / 2)). unfold mask_wind, ideal_wind, constant_wind, pressure in A.
      replace (radians d - radians d) with 0 in A by ring. rewrite cos_0 in A.
      destruct (Rlt_dec _ (speed * cos (radians d - d))) as [Y|Y]; [nra|]. destruct (Rlt_dec _ (speed * 1)) as [Z|Z]; [discriminate|nra]. }
    rewrite E, cos_cycle in C.
    assert (Q : e = 0). { assert (N : ~ Rabs e > 0). { intros G. assert (B : Rabs e <= PI) by (apply Rabs_le; lra). assert (Ce : cos (Rabs e) = 1) by (unfold Rabs in *; destruct (Rcase_abs e); [rewrite cos_neg|]; exact C).
        assert (cos (Rabs e) < cos 0) by (apply cos_decreasing_1; lra). rewrite cos_0 in H0. lra. }
      destruct (Req_dec e 0); [assumption|]. exfalso. apply N. apply Rabs_pos_lt. assumption. }
    rewrite opp_IZR. lra.
  - intros [k E] az maximum. unfold mask_wind, ideal_wind, constant_wind, pressure.
    replace (az - d) with ((az - radians d) + IZR (- k) * (2 * PI)) by (rewrite opp_IZR; lra). rewrite cos_cycle. reflexivity.
Qed.
Print Assumptions C134_degrees_refuted.
(** Three degrees east of north is taken for nearly south: sky the wind blows from is left
    open, and sky behind it has the reward of looking into it. *)
Example C134_degrees_refuted_ex : mask_wind 5 (constant_wind 10 (radians 3)) (radians 3) = None /\ mask_wind 5 (ideal_wind 10 3) (radians 3) = Some 0.
Proof.
  assert (P4 := PI_4). assert (P2 := PI2_1). unfold mask_wind, ideal_wind, constant_wind, pressure. split.
  - replace (radians 3 - radians 3) with 0 by ring. rewrite cos_0. destruct (Rlt_dec 5 (10 * 1)); [reflexivity|lra].
  - assert (C : cos (radians 3 - 3) <= 0). { replace (radians 3 - 3) with (- (3 - radians 3)) by ring. rewrite cos_neg. apply cos_le_0; unfold radians; lra. }
    destruct (Rlt_dec 5 (10 * cos (radians 3 - 3))); [lra|reflexivity].
Qed.
