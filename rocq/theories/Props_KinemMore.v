(** More of the kinematic model: the motion in a restricted azimuth range (C23), a slew
    without a band (C47) and the time of a visit (C158). *)
From Coq Require Import List Reals Lra Lia String Bool ZArith.
From Verif Require Import Base Angles Jerk Kinem Kinem_proofs Props_Kinem.
Import ListNotations.
Open Scope R_scope.

(** In a range of less than a turn the telescope moves from the position of the start
    to that of the target, each within the turn from the lower limit on, and never
    across the limit; a target without a position in the range has no motion. *)
Theorem C23_restricted_motion : forall P cum start az, Rabs (telaz_max P - telaz_min P) < 2 * PI ->
  let lo := telaz_min P in let hi := telaz_min P + Rmod (telaz_max P - telaz_min P) (2 * PI) in
  (forall d, aztel P cum start az = Some d ->
     exists a b, congr (2 * PI) a az /\ congr (2 * PI) b start /\ lo <= a <= hi /\ lo <= b < lo + 2 * PI /\ b - d = a) /\
  (aztel P cum start az = None <-> ~ exists a, congr (2 * PI) a az /\ lo <= a <= hi).
Proof.
  intros P cum start az H lo hi. pose proof PI_RGT_0 as PP. assert (W : wraps P = false).
  { unfold wraps, Rleb, two_pi. destruct (Rle_dec _ _); [lra|reflexivity]. }
  unfold aztel. rewrite W. unfold aztel_restricted, two_pi.
  pose proof (Rmod_range (az - telaz_min P) (2 * PI) ltac:(lra)) as R1. pose proof (Rmod_range (start - telaz_min P) (2 * PI) ltac:(lra)) as R2.
  destruct (Rmod_congr (az - telaz_min P) (2 * PI)) as [k1 K1]. destruct (Rmod_congr (start - telaz_min P) (2 * PI)) as [k2 K2].
  pose proof (Rmod_range (telaz_max P - telaz_min P) (2 * PI) ltac:(lra)) as R3.
  split.
  - intros d E. destruct (Rlt_dec _ _) as [L|L]; [discriminate|]. injection E as <-.
    exists (lo + Rmod (az - telaz_min P) (2 * PI)), (lo + Rmod (start - telaz_min P) (2 * PI)). unfold lo, hi.
    split; [exists k1; lra|]. split; [exists k2; lra|]. split; [lra|]. split; [lra|ring].
  - destruct (Rlt_dec _ _) as [L|L].
    + split; [intros _|reflexivity]. intros (a & [k K] & A). unfold lo, hi in A.
      assert (X : a - telaz_min P = Rmod (az - telaz_min P) (2 * PI)).
      { apply Rmod_unique; [lra| |lra]. exists k. lra. }
      lra.
    + split; [discriminate|]. intros N. exfalso. apply N. exists (lo + Rmod (az - telaz_min P) (2 * PI)). unfold lo, hi. split; [exists k1; lra|lra].
Qed.
Print Assumptions C23_restricted_motion.

(** A range from 170 to 190 degrees, across the half turn: from 175 to -175 the way is
    10 degrees, and 0 is out of reach. *)
Example C23_restricted_motion_example :
  let P := mkCfg 3 1 120 1 (-1) 1 (mkAxis 1 1 None) 15 (mkAxis 1 1 None) (mkAxis 1 1 None) 1
    0 1 (radians 170) (radians 190) (mkAxis 1 1 None) (mkAxis 1 1 None) 3 1 1 36 1 0 in
  Rabs (telaz_max P - telaz_min P) < 2 * PI /\ (forall d, aztel P 0 (radians 175) (radians (-175)) = Some d -> d = - radians 10).
Proof.
  intros P. pose proof PI_RGT_0 as PP. assert (W : Rabs (telaz_max P - telaz_min P) < 2 * PI).
  { cbn. unfold radians. rewrite Rabs_right; lra. }
  split; [exact W|]. intros d E. destruct (C23_restricted_motion P 0 (radians 175) (radians (-175)) W) as [H _].
  destruct (H d E) as (a & b & [k K] & [j J] & A & B & D). cbn in A, B. unfold radians in *.
  assert (M : Rmod (190 * PI / 180 - 170 * PI / 180) (2 * PI) = PI / 9) by (symmetry; apply Rmod_unique; [lra|exists 0%Z; lra|lra]).
  rewrite M in A.
  assert (Kz : k = 1%Z).
  { assert (0 < IZR k < 2) as [X Y] by (split; apply (Rmult_lt_reg_l PI); [exact PP|lra|exact PP|lra]). apply lt_IZR in X. apply (lt_IZR k 2) in Y. lia. }
  assert (Jz : j = 0%Z).
  { assert (-1 < IZR j < 1) as [X Y] by (split; apply (Rmult_lt_reg_l PI); [exact PP|lra|exact PP|lra]). apply (lt_IZR (-1)) in X. apply (lt_IZR j 1) in Y. lia. }
  subst k j. lra.
Qed.

(** A slew without a band is the slew in the band in use, when that is mounted. *)
Theorem C47_no_band : forall E P s a, In (k_band s) (k_mounted s) ->
  let in_band b := mkSlew (a_ra a) (a_dec a) (a_mjd a) (a_rotsky a) (a_rottel a) b (a_lax a) (a_while a) (a_const a) (a_altaz a) (a_start a) (a_start_rot a) (a_update a) in
  slew_times E P s (in_band None) = slew_times E P s (in_band (Some (k_band s))).
Proof.
  intros E P s a I in_band. unfold slew_times, in_band, band_ok, band_of, dest, rotation, origin. cbn [a_band a_ra a_dec a_mjd a_rotsky a_rottel a_lax a_while a_const a_altaz a_start a_start_rot a_update].
  assert (X : existsb (String.eqb (k_band s)) (k_mounted s) = true).
  { apply existsb_exists. exists (k_band s). split; [exact I|apply String.eqb_refl]. }
  rewrite X. reflexivity.
Qed.
Print Assumptions C47_no_band.
Example C47_no_band_example : In (k_band (kin_init (mkCfg 3 1 120 1 (-1) 1 (mkAxis 1 1 None) 15 (mkAxis 1 1 None) (mkAxis 1 1 None) 1
    0 1 0 6 (mkAxis 1 1 None) (mkAxis 1 1 None) 3 1 1 36 1 0) "r"%string ["g"; "r"]%string)) ["g"; "r"]%string.
Proof. right. left. reflexivity. Qed.

(** A visit of n exposures takes as long as n visits of one exposure, each with its
    share of the exposure time, and the readouts between them. *)
Theorem C158_exposures : forall E P s v mjd rot lax whl s' t x s2 mjd2 rot2 lax2 whl2 s2' t2 y n, (1 <= n)%nat -> v_nexp v = n ->
  observe E P s v mjd rot lax whl = (s', Ok (t, x)) ->
  observe E P s2 (mkVisit (v_ra v) (v_dec v) (v_rotsky v) (v_band v) (v_exptime v / INR n) 1) mjd2 rot2 lax2 whl2 = (s2', Ok (t2, y)) ->
  x = INR n * y + INR (n - 1) * readtime P /\ (0 <= shuttertime P -> 0 <= readtime P -> v_exptime v <= x).
Proof.
  intros E P s v mjd rot lax whl s' t x s2 mjd2 rot2 lax2 whl2 s2' t2 y n Hn En H G. unfold observe in H, G.
  destruct (slew_times E P s _) as [s1 [u|e]]; [|discriminate]. destruct (slew_times E P s2 _) as [s3 [u2|e]]; [|discriminate].
  injection H as _ _ <-. injection G as _ _ <-. unfold visit_time. rewrite En. cbn [v_exptime v_nexp].
  assert (N : 0 < INR n) by (apply lt_0_INR; lia). split.
  - replace (1 - 1)%nat with 0%nat by reflexivity. cbn [INR]. field. lra.
  - intros A B. pose proof (pos_INR (n - 1)). assert (0 <= INR n * shuttertime P) by (apply Rmult_le_pos; lra).
    assert (0 <= INR (n - 1) * readtime P) by (apply Rmult_le_pos; lra). lra.
Qed.
Print Assumptions C158_exposures.
Definition four : visit := mkVisit 1 (PI / 4) 0 "r"%string 24 4.
Lemma four_observed : exists t, snd (observe dE dP dS four 0 None true false) = Ok (Some t, visit_time dP four).
Proof.
  assert (HC : telaz_min dP <= k_cum dS <= telaz_max dP) by (pose proof PI_RGT_0; cbn; unfold radians; lra).
  destruct (slew_spec dE dP dS (obs_args (dV 1) 0 None true false)) as (r & ES & _ & H2 & _).
  destruct (H2 (dP_possible dS 1 0 eq_refl HC)) as (t & ->). { intros rt _. exists 0. reflexivity. }
  exists t. unfold observe. change (mkSlew (v_ra four) _ _ _ _ _ _ _ _ _ _ _ _) with (obs_args (dV 1) 0 None true false). rewrite ES. reflexivity.
Qed.
Example C158_exposures_example : exists t, snd (observe dE dP dS four 0 None true false) = Ok (Some t, 24 + 4 * 1 + 3 * 3.07).
Proof. destruct four_observed as [t H]. exists t. rewrite H. unfold visit_time, four, dP. cbn. do 2 f_equal. lra. Qed.

(** Lines 851-861: observe warns when this rate is below the least time between two
    motions of the shutter. *)
Definition rate_warned (P : cfg) (v : visit) : Prop :=
  (2 <= v_nexp v)%nat /\ v_exptime v / INR (v_nexp v) + readtime P * (INR (v_nexp v) - 1) < shutter_2motion P.

(** From the visit time x that observe returns, the exposures of a visit begin
    (x + readtime) / n apart.  With two exposures, every visit whose exposures begin
    closer than the shutter allows is warned about. *)
Theorem C158_warned_partial : forall E P s v mjd rot lax whl s' t x, 0 <= shuttertime P -> v_nexp v = 2%nat ->
  observe E P s v mjd rot lax whl = (s', Ok (t, x)) -> (x + readtime P) / 2 < shutter_2motion P -> rate_warned P v.
Proof.
  intros E P s v mjd rot lax whl s' t x S N H L. unfold observe in H.
  destruct (slew_times E P s _) as [s1 [u|e]]; [|discriminate]. injection H as _ _ <-. unfold rate_warned, visit_time in *. rewrite N in *.
  split; [lia|]. cbn [INR Nat.sub] in *. lra.
Qed.
Print Assumptions C158_warned_partial.
Example C158_warned_example : rate_warned dP (mkVisit 1 (PI / 4) 0 "r"%string 20 2).
Proof. unfold rate_warned. cbn. split; [lia|lra]. Qed.

(** With more exposures the readouts of the whole visit are counted as if they were
    before each exposure: four exposures of 6 seconds begin 10 seconds apart, where
    the shutter needs 15, are carried out, and nothing is said. *)
Theorem C158_warned_refuted : exists E P s v mjd s' t x, 0 < shuttertime P /\
  observe E P s v mjd None true false = (s', Ok (Some t, x)) /\
  (x + readtime P) / INR (v_nexp v) < shutter_2motion P - 4 /\ ~ rate_warned P v.
Proof.
  destruct four_observed as [t H]. exists dE, dP, dS, four, 0. destruct (observe dE dP dS four 0 None true false) as [s' r]. cbn [snd] in H. subst r.
  exists s', t, (visit_time dP four). split; [cbn; lra|]. split; [reflexivity|]. split.
  - unfold visit_time, four, dP. cbn. lra.
  - unfold rate_warned, four, dP. cbn. intros [_ X]. lra.
Qed.
Print Assumptions C158_warned_refuted.

(** The exposures of one visit are not kept apart by anything else: whatever the least
    time between two motions of the shutter is, the visit time is the same. *)
Theorem C158_spacing : forall E P s v mjd rot lax whl s' t x, observe E P s v mjd rot lax whl = (s', Ok (t, x)) ->
  0 < shuttertime P -> (1 <= v_nexp v)%nat ->
  (x + readtime P) / INR (v_nexp v) = v_exptime v / INR (v_nexp v) + shuttertime P + readtime P.
Proof.
  intros E P s v mjd rot lax whl s' t x H S N. unfold observe in H.
  destruct (slew_times E P s _) as [s1 [u|e]]; [|discriminate]. injection H as _ _ <-. unfold visit_time.
  rewrite minus_INR by lia. assert (0 < INR (v_nexp v)) by (apply lt_0_INR; lia). cbn [INR]. field. lra.
Qed.
Print Assumptions C158_spacing.
