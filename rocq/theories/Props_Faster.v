(** A whole slew with faster axes, and with the dome creep (C153). *)
From Coq Require Import List Reals Lra Psatz String Bool.
From Verif Require Import Base Angles Jerk Jerk_proofs Kinem Percent Percent_proofs Faster_proofs.
Import ListNotations.
Open Scope list_scope.
Open Scope R_scope.

(** Two telescopes that differ in nothing but the limits of their axes, where the
    second allows at least as much: from the same state, asked for the same slew,
    both refuse it or neither does, they end up in the same state, and the second
    takes no longer.  This covers the mount, the dome (also with creep), the rotator,
    settling, band changes and closed loop optics together. *)
Theorem C153_slew :
  forall E P alt az rot dalt daz s a,
  quicker (telalt P) alt -> quicker (telaz P) az -> quicker (telrot P) rot ->
  quicker (domalt P) dalt -> quicker (domaz P) daz -> 0 <= camera_fov P -> 0 <= domaz_settle P ->
  exists s' r r', slew_times E P s a = (s', r) /\
    slew_times E (with_axes P alt az rot dalt daz) s a = (s', r') /\
    match r, r' with
    | Ok (Some t), Ok (Some t') => t' <= t
    | Ok None, Ok None => True
    | Raise e, Raise e' => e = e'
    | _, _ => False
    end.
Proof.
  intros E P alt az rot dalt daz s a Q1 Q2 Q3 Q4 Q5 F S0.
  destruct (slew_le E P alt az rot dalt daz Q1 Q2 Q3 Q4 Q5 F S0 s a) as (A & B).
  destruct (slew_times E P s a) as [s1 r1]. destruct (slew_times E (with_axes P alt az rot dalt daz) s a) as [s2 r2].
  cbn in A, B. subst s2. exists s1, r1, r2. split; [reflexivity|]. split; [reflexivity|].
  destruct r1 as [[t|]|e], r2 as [[t'|]|e']; cbn in *; auto.
Qed.
Print Assumptions C153_slew.

(** The limits of Percent.v as an axis of the telescope. *)
Definition as_axis (x : Percent.axis) : Kinem.axis :=
  let y := in_radians x in mkAxis (speed y) (accel y) (jerk y).
(** A telescope set up with tma_movement(p) and rotator_movement(r). *)
Definition at_percent (P : cfg) (p r : R) : cfg :=
  with_axes P (as_axis (alt (tma_movement p))) (as_axis (az (tma_movement p))) (as_axis (rotator_movement r))
    (domalt P) (domaz P).
Definition sound_axis (x : Kinem.axis) : Prop :=
  0 < ax_v x /\ 0 < ax_a x /\ match ax_j x with None => True | Some j => 0 < j end.

(** Raising the percentages never makes any slew longer. *)
Theorem C153_percent :
  forall E P p q r r' s a, 0 < p -> p <= q -> 0 < r -> r <= r' ->
  sound_axis (domalt P) -> sound_axis (domaz P) -> 0 <= camera_fov P -> 0 <= domaz_settle P ->
  exists s' x y, slew_times E (at_percent P p r) s a = (s', x) /\ slew_times E (at_percent P q r') s a = (s', y) /\
    match x, y with
    | Ok (Some t), Ok (Some t') => t' <= t
    | Ok None, Ok None => True
    | Raise e, Raise e' => e = e'
    | _, _ => False
    end.
Proof.
  intros E P p q r r' s a Hp Lp Hr Lr (D1 & D2 & D3) (D4 & D5 & D6) F S0.
  assert (CP : forall c, 0 < c -> 0 < cap c) by (intros c H; unfold cap; destruct (Rlt_dec 125 c); lra).
  assert (CL : forall c e, c <= e -> cap c <= cap e) by (intros c e H; unfold cap; destruct (Rlt_dec 125 c), (Rlt_dec 125 e); lra).
  pose proof (CP p Hp) as A1. pose proof (CP r Hr) as A2. pose proof (CL p q Lp) as A3. pose proof (CL r r' Lr) as A4.
  assert (K : 0 < PI / 180) by (pose proof PI_RGT_0; lra).
  assert (AX : forall x y : Percent.axis, 0 < speed x -> speed x <= speed y -> 0 < accel x -> accel x <= accel y ->
    jpos (jerk x) -> jle (jerk x) (jerk y) -> quicker (as_axis x) (as_axis y)).
  { intros [v c [i|]] [v' c' [i'|]]; cbn; intros; unfold quicker, Percent.radians; cbn; unfold Percent.radians;
      repeat split; try exact I; try (exfalso; assumption);
      try (apply Rmult_lt_0_compat; lra); try (apply Rmult_le_compat_r; lra). }
  assert (M1 : forall c, 0 < Rmax 1 c) by (intros c; apply Rlt_le_trans with 1; [lra|apply Rmax_l]).
  assert (REFL : forall x, sound_axis x -> quicker x x).
  { intros [v c [i|]] (B1 & B2 & B3); unfold quicker; cbn in *; repeat split; auto; lra. }
  apply (C153_slew E (at_percent P p r) (as_axis (alt (tma_movement q))) (as_axis (az (tma_movement q)))
    (as_axis (rotator_movement r')) (domalt P) (domaz P)); auto; try (apply REFL; repeat split; assumption).
  - apply AX; cbn; try lra; [apply M1|apply Rle_max_compat_l; lra].
  - apply AX; cbn; try lra; [apply Rmin_glb_lt; lra| |apply M1|apply Rle_max_compat_l; lra].
    unfold Rmin. destruct (Rle_dec (10 * (cap p / 100)) 7), (Rle_dec (10 * (cap q / 100)) 7); lra.
  - apply AX; cbn; lra.
Qed.
Print Assumptions C153_percent.

(** ** Dome creep *)
(** The dome as setup_dome leaves it, and the field of view, in radians. *)
Definition default_dome (P : cfg) : Prop :=
  domalt P = mkAxis (Kinem.radians 1.75) (Kinem.radians 0.875) None /\
  domaz P = mkAxis (Kinem.radians 1.5) (Kinem.radians 0.75) None /\
  domaz_settle P = 1 /\ camera_fov P = Kinem.radians 3.5.

Lemma lax_degrees : forall y z, 0 <= y -> 0 <= z -> 3.5 ^ 2 <= y ^ 2 + z ^ 2 ->
  Rmax (y / 1.75) ((z + 1.75) / 1.5) <=
  Rmax (acc_time y 1.75 0.875) (if Rlt_dec 0 (acc_time z 1.5 0.75) then acc_time z 1.5 0.75 + 1 else acc_time z 1.5 0.75).
Proof.
  intros y z Hy Hz F.
  assert (Y : y / 1.75 <= acc_time y 1.75 0.875).
  { pose proof (dur_speed 1.75 0.875 None y ltac:(lra) ltac:(lra) I Hy) as Q. cbn [dur] in Q. lra. }
  apply Rmax_lub; [eapply Rle_trans; [exact Y|apply Rmax_l]|].
  destruct (Rlt_dec z 0.25) as [L|L].
  - assert (3.4 <= y) by (apply Rnot_lt_le; intros K; nra).
    eapply Rle_trans; [|apply Rmax_l]. lra.
  - eapply Rle_trans; [|apply Rmax_r].
    assert (Z : z / 1.5 * 2 <= acc_time z 1.5 0.75 \/ z / 1.5 + 2 <= acc_time z 1.5 0.75).
    { unfold acc_time. replace (1.5 ^ 2 / 0.75) with 3 by lra. destruct (Rlt_dec z 3) as [B|B]; [left|right; lra].
      assert (z / 1.5 <= sqrt (z / 0.75)); [|lra].
      rewrite <- (sqrt_pow2 (z / 1.5)) by lra. apply sqrt_le_1_alt. nra. }
    destruct (Rlt_dec 0 (acc_time z 1.5 0.75)); lra.
Qed.

(** With the default dome and field of view the dome creep never makes the dome
    slower than waiting for it to be centred. *)
Theorem C153_lax :
  forall P da dz, default_dome P -> 0 <= da -> 0 <= dz -> dome_time P true da dz <= dome_time P false da dz.
Proof.
  intros P da dz (E1 & E2 & E3 & E4) Ha Hz. unfold dome_time. rewrite E1, E2, E3, E4. cbn [ax_v].
  assert (K : 0 < PI / 180) by (pose proof PI_RGT_0; lra). set (k := PI / 180) in *.
  assert (RD : forall c, Kinem.radians c = k * c) by (intros c; unfold Kinem.radians, k; field). rewrite !RD.
  set (y := da / k). set (z := dz / k). assert (Dy : da = k * y) by (unfold y; field; lra).
  assert (Dz : dz = k * z) by (unfold z; field; lra).
  assert (Y0 : 0 <= y) by (unfold y; apply Rmult_le_pos; [lra|apply Rlt_le, Rinv_0_lt_compat; lra]).
  assert (Z0' : 0 <= z) by (unfold z; apply Rmult_le_pos; [lra|apply Rlt_le, Rinv_0_lt_compat; lra]).
  rewrite Dy, Dz. unfold jt. cbn [ax_j ax_v ax_a].
  pose proof (dur_units k 1.75 0.875 None y K ltac:(lra) ltac:(lra) I Y0) as U1.
  pose proof (dur_units k 1.5 0.75 None z K ltac:(lra) ltac:(lra) I Z0') as U2. cbn [dur option_map] in U1, U2.
  rewrite U1, U2.
  assert (N1 : 0 <= acc_time y 1.75 0.875) by (apply (dur_nonneg 1.75 0.875 None y); auto; cbn; lra).
  destruct (Rlt_dec ((k * y) ^ 2 + (k * z) ^ 2) ((k * 3.5) ^ 2)) as [B|B].
  - eapply Rle_trans; [exact N1|apply Rmax_l].
  - eapply Rle_trans; [apply Rmin_l|].
    replace (k * y / (k * 1.75)) with (y / 1.75) by (field; lra).
    replace ((k * z - 2 * (k * 3.5 / 2 / 2 - k * 3.5 / 2)) / (k * 1.5)) with ((z + 1.75) / 1.5)
      by (replace (k * z - 2 * (k * 3.5 / 2 / 2 - k * 3.5 / 2)) with (k * (z + 1.75)) by lra; field; lra).
    apply lax_degrees; auto. apply Rnot_lt_le. intros C. apply B. assert (0 < k * k) by nra. nra.
Qed.
Print Assumptions C153_lax.

(** With a dome that gets up to speed quickly it does: the shift that stands for the
    slit is added to the way instead of taken off, for the slit is taken half as
    wide as the field of view. *)
Theorem C153_lax_refuted :
  exists P, sound_axis (domalt P) /\ sound_axis (domaz P) /\ 0 < camera_fov P /\ 0 <= domaz_settle P /\
    dome_time P false 2 2 < dome_time P true 2 2.
Proof.
  exists (mkCfg 0 0 0 2 0 0 (mkAxis 1 1 None) 0 (mkAxis 1 100 None) (mkAxis 1 100 None) 0 0 0 0 0
    (mkAxis 1 1 None) (mkAxis 1 1 None) 0 0 0 0 0 0).
  unfold sound_axis. cbn [domalt domaz camera_fov domaz_settle ax_v ax_a ax_j].
  split; [repeat split; lra|]. split; [repeat split; lra|]. split; [lra|]. split; [lra|].
  unfold dome_time, jt. cbn [domalt domaz camera_fov domaz_settle ax_v ax_a ax_j].
  destruct (Rlt_dec (2 ^ 2 + 2 ^ 2) (2 ^ 2)) as [B|B]; [lra|].
  assert (T2 : acc_time 2 1 100 = 2.01).
  { unfold acc_time. replace (1 ^ 2 / 100) with 0.01 by lra. destruct (Rlt_dec 2 0.01); lra. }
  rewrite T2. destruct (Rlt_dec 0 2.01); [|lra]. rewrite Rmax_left by lra.
  rewrite Rmax_right by lra. rewrite Rmax_left by lra. rewrite Rmin_left by lra. lra.
Qed.
Print Assumptions C153_lax_refuted.

(** A mount that can be made faster in azimuth alone: the hypotheses of C153_slew. *)
Example C153_example :
  let x := mkAxis 1 1 (Some 1) in let y := mkAxis 1 1 None in
  quicker x x /\ quicker x y /\ jt x 2 = 4 /\ jt y 2 = 3.
Proof.
  unfold quicker, jt. cbn. repeat (split; [try exact I; try (repeat split; lra)|]).
  - rewrite jerk_T by lra. unfold T. destruct (Rlt_dec (1 * 1) (1 * 1)); [lra|].
    assert (S1 : sa 1 1 = 2) by (unfold sa; field). assert (S2 : sv2 1 1 1 = 2) by (unfold sv2; field).
    rewrite S1, S2. destruct (Rlt_dec 2 2); [lra|]. unfold P5. field.
  - unfold acc_time. destruct (Rlt_dec 2 (1 ^ 2 / 1)) as [L|L]; [exfalso; lra|lra].
Qed.
