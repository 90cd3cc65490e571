(** Faster limits and higher percentages never make a slew longer (C151). *)
From Coq Require Import List Reals Lra Psatz.
From Verif Require Import Jerk Jerk_proofs Percent Percent_proofs.
Import ListNotations.
Open Scope R_scope.

(** A jerk limit that is positive if there is one. *)
Definition positive_jerk (jm : option R) : Prop := match jm with None => True | Some j => 0 < j end.
(** The second jerk limit allows at least as much as the first; none allows all. *)
Definition allows (x y : option R) : Prop :=
  match x, y with _, None => True | None, Some _ => False | Some i, Some j => i <= j end.

(** The duration over every distance does not get longer when speed, acceleration
    and jerk are each allowed at least as much, also when that changes the motion
    profile, and also when the limit on the jerk is taken away. *)
Theorem C151_limits :
  forall v a jm v' a' jm' ds, 0 < v -> v <= v' -> 0 < a -> a <= a' -> positive_jerk jm -> allows jm jm' ->
  (forall d, In d ds -> 0 <= d) ->
  exists ts ts', jerk_time ds v a jm = Some ts /\ jerk_time ds v' a' jm' = Some ts' /\
    Forall2 Rle ts' ts /\ length ts = length ds.
Proof.
  intros v a jm v' a' jm' ds Hv Lv Ha La Hj Lj D.
  exists (map (dur v a jm) ds), (map (dur v' a' jm') ds).
  split; [now apply dur_spec|]. split; [apply dur_spec; [lra|lra|exact (jle_pos _ _ Hj Lj)]|].
  split; [|apply map_length]. induction ds as [|d ds IH]; [constructor|].
  cbn. constructor; [apply dur_limits; auto; apply D; now left|apply IH; intros; apply D; now right].
Qed.
Print Assumptions C151_limits.

(** The unit of angle does not matter: distances and limits all taken [k] times
    give the same durations. *)
Theorem C151_units :
  forall k v a jm ds, 0 < k -> 0 < v -> 0 < a -> positive_jerk jm -> (forall d, In d ds -> 0 <= d) ->
  jerk_time (map (Rmult k) ds) (k * v) (k * a) (option_map (Rmult k) jm) = jerk_time ds v a jm.
Proof.
  intros k v a jm ds Hk Hv Ha Hj D.
  rewrite (dur_spec v a jm) by auto.
  rewrite (dur_spec (k * v)); [|nra|nra|now apply jpos_units]. f_equal. rewrite map_map.
  apply map_ext_in. intros d I. apply dur_units; auto.
Qed.
Print Assumptions C151_units.

(** No slew is quicker than its distance at top speed. *)
Theorem C151_speed :
  forall v a jm d t, 0 < v -> 0 < a -> positive_jerk jm -> 0 <= d ->
  jerk_time [d] v a jm = Some [t] -> d <= v * t.
Proof.
  intros v a jm d t Hv Ha Hj Hd E. rewrite dur_spec in E by auto. injection E as <-. now apply dur_speed.
Qed.
Print Assumptions C151_speed.

(** The limits of a usable axis. *)
Definition usable (x : axis) : Prop := 0 < speed x /\ 0 < accel x /\ positive_jerk (jerk x).
(** Axis [y] is at least as quick as [x] over every distance (in radians). *)
Definition no_slower (x y : axis) : Prop :=
  forall d, 0 <= d -> exists t t', axis_time x [d] = Some [t] /\ axis_time y [d] = Some [t'] /\ 0 <= t' <= t.

Lemma rad_pos : forall x, 0 < x -> 0 < radians x.
Proof. intros. unfold radians. pose proof PI_RGT_0. apply Rmult_lt_0_compat; lra. Qed.
Lemma rad_le : forall x y, x <= y -> radians x <= radians y.
Proof. intros. unfold radians. pose proof PI_RGT_0. apply Rmult_le_compat_r; lra. Qed.
Lemma axes : forall x y, usable x -> speed x <= speed y -> accel x <= accel y -> allows (jerk x) (jerk y) ->
  no_slower x y.
Proof.
  intros x y (Hv & Ha & Hj) Lv La Lj d Hd. unfold axis_time. cbn.
  assert (J : jpos (option_map radians (jerk x))) by (destruct (jerk x); cbn in *; auto; now apply rad_pos).
  assert (L : jle (option_map radians (jerk x)) (option_map radians (jerk y)))
    by (destruct (jerk x), (jerk y); cbn in *; auto; now apply rad_le).
  exists (dur (radians (speed x)) (radians (accel x)) (option_map radians (jerk x)) d),
    (dur (radians (speed y)) (radians (accel y)) (option_map radians (jerk y)) d).
  pose proof (rad_pos _ Hv). pose proof (rad_pos _ Ha). pose proof (rad_le _ _ Lv). pose proof (rad_le _ _ La).
  pose proof (jle_pos _ _ J L) as J'.
  split; [now rewrite dur_spec|]. split; [rewrite dur_spec; auto; lra|].
  split; [apply dur_nonneg; auto; lra|now apply dur_limits].
Qed.

Lemma cap_pos : forall p, 0 < p -> 0 < cap p.
Proof. intros p H. unfold cap. destruct (Rlt_dec 125 p); lra. Qed.
Lemma cap_le : forall p q, p <= q -> cap p <= cap q.
Proof. intros p q H. unfold cap. destruct (Rlt_dec 125 p), (Rlt_dec 125 q); lra. Qed.

(** A higher percentage never makes azimuth, altitude or rotator slower over any
    distance. *)
Theorem C151_percent :
  forall p q, 0 < p -> p <= q ->
  no_slower (az (tma_movement p)) (az (tma_movement q)) /\
  no_slower (alt (tma_movement p)) (alt (tma_movement q)) /\
  no_slower (rotator_movement p) (rotator_movement q).
Proof.
  intros p q Hp L. pose proof (cap_pos p Hp) as P. pose proof (cap_le p q L) as C.
  split; [|split]; apply axes; unfold usable; cbn; try lra.
  - split; [apply Rmin_glb_lt; lra|]. split; [lra|]. apply Rlt_le_trans with 1; [lra|apply Rmax_l].
  - unfold Rmin. destruct (Rle_dec (10 * (cap p / 100)) 7), (Rle_dec (10 * (cap q / 100)) 7); lra.
  - apply Rle_max_compat_l. lra.
  - split; [lra|]. split; [lra|]. apply Rlt_le_trans with 1; [lra|apply Rmax_l].
  - apply Rle_max_compat_l. lra.
Qed.
Print Assumptions C151_percent.

(** The same of the percentages a mount is set to: nothing changes from 125 on. *)
Theorem C151_capped :
  forall p, 125 <= p -> tma_movement p = tma_movement 125 /\ rotator_movement p = rotator_movement 125.
Proof.
  intros p H. assert (E : cap p = cap 125).
  { unfold cap. destruct (Rlt_dec 125 p), (Rlt_dec 125 125); lra. }
  unfold tma_movement, rotator_movement. now rewrite E.
Qed.
Print Assumptions C151_capped.

Lemma axis_eq : forall s s' a a' j j', s = s' -> a = a' -> j = j' ->
  {| speed := s; accel := a; jerk := Some j |} = {| speed := s'; accel := a'; jerk := Some j' |}.
Proof. intros. now subst. Qed.
Lemma tma_eq : forall x x' y y' s, x = x' -> y = y' ->
  {| az := x; alt := y; settle := s |} = {| az := x'; alt := y'; settle := s |}.
Proof. intros. now subst. Qed.

(** The limits at full performance. *)
Definition full_az : axis := {| speed := 10; accel := 10; jerk := Some 40 |}.
Definition full_alt : axis := {| speed := 5; accel := 5; jerk := Some 20 |}.
Definition full_rot : axis := {| speed := 3.5; accel := 1; jerk := Some 4 |}.
Definition share (p : R) (x : axis) : axis :=
  {| speed := p / 100 * speed x; accel := p / 100 * accel x; jerk := option_map (Rmult (p / 100)) (jerk x) |}.

(** From 5 to 70 percent every limit is that share of the full one.  Above 70 the
    speed in azimuth stays at 7 degrees a second and all others still are the
    share.  The rotator's limits are the share at every percentage up to 125. *)
Theorem C151_share :
  forall p, p <= 125 ->
  (5 <= p -> p <= 70 -> tma_movement p = {| az := share p full_az; alt := share p full_alt; settle := 3 |}) /\
  (70 <= p -> tma_movement p =
     {| az := {| speed := 7; accel := p / 100 * 10; jerk := Some (p / 100 * 40) |};
        alt := share p full_alt; settle := 3 |}) /\
  rotator_movement p = share p full_rot.
Proof.
  intros p H. assert (E : cap p = p) by (unfold cap; destruct (Rlt_dec 125 p); lra).
  unfold tma_movement, rotator_movement, share, full_az, full_alt, full_rot. cbn. rewrite E.
  split; [|split].
  - intros A B. rewrite Rmin_left, !Rmax_right by lra. apply tma_eq; apply axis_eq; lra.
  - intros A. rewrite Rmin_right, !Rmax_right by lra. apply tma_eq; apply axis_eq; lra.
  - apply axis_eq; lra.
Qed.
Print Assumptions C151_share.

(** A mount set up with tma_movement() and a camera with rotator_movement() move
    like those set up without any values. *)
Theorem C151_default : tma_movement 70 = tel_default /\ rotator_movement 100 = rot_default.
Proof.
  assert (E : cap 70 = 70) by (unfold cap; destruct (Rlt_dec 125 70); lra).
  assert (F : cap 100 = 100) by (unfold cap; destruct (Rlt_dec 125 100); lra).
  unfold tma_movement, rotator_movement, tel_default, rot_default. cbn. rewrite E, F.
  rewrite Rmin_left, !Rmax_right by lra. split; [apply tma_eq|]; apply axis_eq; lra.
Qed.
Print Assumptions C151_default.

(** Degrees or radians, at every percentage: the durations are those of the limits
    in degrees over the distance in degrees. *)
Theorem C151_degrees :
  forall x ds, usable x -> (forall d, In d ds -> 0 <= d) ->
  axis_time x (map radians ds) = jerk_time ds (speed x) (accel x) (jerk x).
Proof.
  intros x ds (Hv & Ha & Hj) D. unfold axis_time, in_radians. cbn.
  assert (K : 0 < PI / 180) by (pose proof PI_RGT_0; lra).
  rewrite <- (C151_units (PI / 180) (speed x) (accel x) (jerk x) ds K Hv Ha Hj D).
  assert (C : forall y, radians y = PI / 180 * y) by (intros; unfold radians; ring).
  rewrite !C. f_equal; [apply map_ext; intros; apply C|destruct (jerk x); cbn; now rewrite ?C].
Qed.
Print Assumptions C151_degrees.

(** Limits that meet the hypotheses of C151_limits and do help: without a limit on
    the jerk two units take three seconds, not four. *)
Example C151_example_limits :
  allows (Some 1) None /\ jerk_time [2] 1 1 (Some 1) = Some [4] /\ jerk_time [2] 1 1 None = Some [3].
Proof.
  split; [exact I|]. split.
  - rewrite jerk_time_map by lra. cbn. unfold T. destruct (Rlt_dec (1 * 1) (1 * 1)); [lra|].
    assert (S1 : sa 1 1 = 2) by (unfold sa; field). assert (S2 : sv2 1 1 1 = 2) by (unfold sv2; field).
    rewrite S1, S2. destruct (Rlt_dec 2 2); [lra|]. unfold P5. repeat f_equal. field.
  - cbn. unfold acc_time. destruct (Rlt_dec 2 (1 ^ 2 / 1)) as [L|L].
    + exfalso. replace (1 ^ 2 / 1) with 1 in L by field. lra.
    + repeat f_equal. field.
Qed.
(** The mount at 70 and at 10 percent: usable, and the one of 10 percent slower in
    every limit. *)
Example C151_example_percent :
  usable (az (tma_movement 10)) /\ speed (az (tma_movement 10)) = 1 /\ speed (az (tma_movement 70)) = 7 /\
  speed (az (tma_movement 125)) = 7 /\ accel (alt (tma_movement 10)) = 0.5.
Proof.
  assert (E : forall p, p <= 125 -> cap p = p) by (intros; unfold cap; destruct (Rlt_dec 125 p); lra).
  unfold usable. cbn. rewrite !E by lra.
  rewrite (Rmin_left (10 * (10 / 100))), (Rmin_left (10 * (70 / 100))), (Rmin_right (10 * (125 / 100))) by lra.
  rewrite Rmax_right by lra. repeat split; lra.
Qed.
