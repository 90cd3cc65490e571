(** Angles and kinematic model (C23-C28, C47, C48). *)
From Coq Require Import List Reals Lra Lia String Bool ZArith.
From Verif Require Import Base Angles Jerk Jerk_proofs Kinem Kinem_proofs Kinem_proofs2.
Import ListNotations.
Open Scope R_scope.

(** ** C28 *)
Theorem C28_smallest_signed_angle : forall a b,
  (exists k : Z, smallest_signed_angle a b = b - a + IZR k * (2 * PI)) /\
  - PI < smallest_signed_angle a b <= PI /\
  (forall z, (exists k : Z, z = b - a + IZR k * (2 * PI)) -> Rabs (smallest_signed_angle a b) <= Rabs z).
Proof. intros a b. split; [exact (ssa_congr a b)|]. split; [apply ssa_range|exact (ssa_minimal a b)]. Qed.
Print Assumptions C28_smallest_signed_angle.
Example C28_example : smallest_signed_angle (7 * PI / 4) (PI / 4) = PI / 2.
Proof.
  pose proof PI_RGT_0. apply (congr_close two_pi); [apply two_pi_pos| |].
  - eapply congr_trans; [apply ssa_congr|]. exists (-1)%Z. unfold two_pi. field.
  - pose proof (ssa_range (7 * PI / 4) (PI / 4)). unfold two_pi. apply Rabs_def1; lra.
Qed.

(** ** C48 *)
Theorem C48_wrap_keeps_direction : forall ra dec,
  let '(ra', dec') := wrap_ra_dec ra dec in
  cos dec' * cos ra' = cos dec * cos ra /\ cos dec' * sin ra' = cos dec * sin ra /\ sin dec' = sin dec /\
  (- (3 * PI / 2) <= dec <= 3 * PI / 2 -> 0 <= ra' < 2 * PI /\ - (PI / 2) <= dec' <= PI / 2).
Proof.
  intros ra dec. pose proof (wrap_dir ra dec) as D. pose proof (wrap_range ra dec) as R.
  destruct (wrap_ra_dec ra dec) as [ra' dec']. unfold dir in D. injection D as D1 D2 D3. auto.
Qed.
Print Assumptions C48_wrap_keeps_direction.
Example C48_example : wrap_ra_dec (PI / 2) (3 * PI / 4) = (3 * PI / 2, PI / 4).
Proof.
  pose proof PI_RGT_0. unfold wrap_ra_dec. destruct (Rlt_dec (3 * PI / 4) (- PI / 2)); [lra|].
  destruct (Rlt_dec (PI / 2) (3 * PI / 4)); [|lra]. f_equal; [|lra]. symmetry. apply Rmod_unique; [lra| |lra].
  exists 1%Z. field.
Qed.

(** ** Default configuration and a simple sky for the examples: the altitude is
    the declination, azimuth drifts by one radian per day. *)
Definition dP : cfg :=
  mkCfg 3.07 1 120 (radians 3.5) (radians (-90)) (radians 90)
    (mkAxis (radians 3.5) (radians 1) (Some (radians 4))) 15
    (mkAxis (radians 1.75) (radians 0.875) None) (mkAxis (radians 1.5) (radians 0.75) None) 1
    (radians 20) (radians 86.5) (radians (-250)) (radians 250)
    (mkAxis (radians 3.5) (radians 3.5) (Some (radians 14))) (mkAxis (radians 7) (radians 7) (Some (radians 28))) 3
    (1 / 3.5) (radians 9) 36 (radians 86.5) 0.
Definition dE : conv :=
  mkConv (fun ra dec mjd => (dec, ra + mjd, 0)) (fun _ _ => 0) (fun alt az mjd => (az - mjd, alt))
         (fun rs pa => rs - pa) (fun rt pa => rt + pa).
Definition dS : kin := kin_init dP "r" ["u"; "g"; "r"; "i"; "y"]%string.
Definition dV (ra : R) : visit := mkVisit ra (PI / 4) 0 "r"%string 30 1.
Definition dO (ra m : R) : kop := KObserve (dV ra) m None true false.

Lemma dP_wraps : wraps dP = true.
Proof.
  unfold wraps, Rleb, dP, radians, two_pi. cbn. pose proof PI_RGT_0. rewrite Rabs_pos_eq by lra.
  destruct (Rle_dec _ _); [reflexivity|lra].
Qed.
Lemma dP_possible : forall s ra m, k_mounted s = ["u"; "g"; "r"; "i"; "y"]%string ->
  telaz_min dP <= k_cum s <= telaz_max dP -> possible dE dP s (obs_args (dV ra) m None true false).
Proof.
  intros s ra m HM HC. unfold possible. rewrite (proj1 (conj eq_refl HM)) || idtac.
  pose proof PI_RGT_0. repeat split.
  - unfold band_ok. cbn. rewrite HM. reflexivity.
  - unfold to_alt. cbn. unfold radians. lra.
  - unfold to_alt. cbn. unfold radians. lra.
  - unfold rot_of, rotation in H0. cbn in H0. injection H0 as <-. unfold radians. cbn. unfold radians. lra.
  - unfold rot_of, rotation in H0. cbn in H0. injection H0 as <-. unfold radians. cbn. unfold radians. lra.
  - unfold aztel. rewrite dP_wraps. apply aztel_total; [exact HC|]. unfold dP, radians, two_pi. cbn. lra.
Qed.

(** ** C23 *)
(** At least a full turn of azimuth range: the cumulative azimuth never leaves
    the limits... *)
Theorem C23_cable_wrap_partial :
  forall E P l band mounted,
  2 * PI <= telaz_max P - telaz_min P -> telaz_min P <= 0 <= telaz_max P ->
  telaz_min P <= k_cum (krun E P (kin_init P band mounted) l) <= telaz_max P.
Proof.
  intros E P l band mounted HR H0. apply cum_in_limits; [|exact H0|exact H0].
  unfold wraps, Rleb, two_pi. rewrite Rabs_pos_eq by lra. destruct (Rle_dec _ _); [reflexivity|lra].
Qed.
Print Assumptions C23_cable_wrap_partial.

(** ... every azimuth stays reachable, and the move made is the shortest of all
    moves to that azimuth that stay inside the limits. *)
Theorem C23_shortest_allowed_move :
  forall E P l band mounted a,
  2 * PI <= telaz_max P - telaz_min P -> telaz_min P <= 0 <= telaz_max P ->
  let s := krun E P (kin_init P band mounted) l in
  exists d, aztel P (k_cum s) (from_az E P s a) (to_az E a) = Some d /\
    (exists k : Z, d = to_az E a - from_az E P s a + IZR k * (2 * PI)) /\
    telaz_min P <= k_cum s + d <= telaz_max P /\
    (forall x, (exists k : Z, x = to_az E a - from_az E P s a + IZR k * (2 * PI)) ->
       telaz_min P <= k_cum s + x <= telaz_max P -> Rabs d <= Rabs x) /\
    (forall t, slew_times E P s a = (moved E P s a, Ok (Some t)) -> k_cum (moved E P s a) = k_cum s + d).
Proof.
  intros E P l band mounted a HR H0 s.
  assert (W : wraps P = true) by (unfold wraps, Rleb, two_pi; rewrite Rabs_pos_eq by lra; destruct (Rle_dec _ _); [reflexivity|lra]).
  assert (HC : telaz_min P <= k_cum s <= telaz_max P) by (apply cum_in_limits; [exact W|exact H0|exact H0]).
  unfold aztel. rewrite W.
  destruct (aztel_wrap P (k_cum s) (from_az E P s a) (to_az E a)) as [d|] eqn:ED.
  - exists d. split; [reflexivity|]. destruct (aztel_sound P _ _ _ _ ED) as [C L].
    split; [exact C|]. split; [exact L|]. split.
    + intros x CX LX. destruct (aztel_shortest P _ _ _ x HC CX LX) as (d' & ED' & M). congruence.
    + intros _ _. cbn. unfold aztel. rewrite W, ED. reflexivity.
  - exfalso. now apply (aztel_total P _ _ _ HC HR ED).
Qed.
Print Assumptions C23_shortest_allowed_move.

(** Less than a full turn: the stored value is the raw azimuth, which is inside
    the configured interval only up to full turns. *)
Theorem C23_restricted_range_partial :
  forall E P l band mounted,
  Rabs (telaz_max P - telaz_min P) < 2 * PI ->
  Rmod (0 - telaz_min P) (2 * PI) <= Rmod (telaz_max P - telaz_min P) (2 * PI) ->
  Rmod (k_cum (krun E P (kin_init P band mounted) l) - telaz_min P) (2 * PI)
    <= Rmod (telaz_max P - telaz_min P) (2 * PI).
Proof.
  intros E P l band mounted HR H0. apply cum_restricted; [|exact H0|exact H0].
  unfold wraps, Rleb, two_pi. destruct (Rle_dec _ _); [lra|reflexivity].
Qed.
Print Assumptions C23_restricted_range_partial.

Definition rP : cfg :=
  mkCfg 3.07 1 120 (radians 3.5) (radians (-90)) (radians 90)
    (mkAxis (radians 3.5) (radians 1) (Some (radians 4))) 15
    (mkAxis (radians 1.75) (radians 0.875) None) (mkAxis (radians 1.5) (radians 0.75) None) 1
    (radians 20) (radians 86.5) (radians (-100)) (radians 100)
    (mkAxis (radians 3.5) (radians 3.5) (Some (radians 14))) (mkAxis (radians 7) (radians 7) (Some (radians 28))) 3
    (1 / 3.5) (radians 9) 36 (radians 86.5) 0.

Theorem C23_restricted_range_refuted :
  exists E P l band mounted,
  telaz_min P <= 0 <= telaz_max P /\
  ~ telaz_min P <= k_cum (krun E P (kin_init P band mounted) l) <= telaz_max P.
Proof.
  pose proof PI_RGT_0.
  exists dE, rP, [dO (radians 350) 0], "r"%string, ["r"]%string. split; [cbn; unfold radians; lra|].
  assert (W : wraps rP = false).
  { unfold wraps, Rleb, rP, radians, two_pi. cbn. rewrite Rabs_pos_eq by lra. destruct (Rle_dec _ _); [lra|reflexivity]. }
  set (s := kin_init rP "r" ["r"%string]). set (a := obs_args (dV (radians 350)) 0 None true false).
  assert (Q : possible dE rP s a).
  { unfold possible. repeat split; try (unfold to_alt; cbn; unfold radians; lra).
    - unfold rot_of, rotation in H0. cbn in H0. injection H0 as <-. cbn. unfold radians. lra.
    - unfold rot_of, rotation in H0. cbn in H0. injection H0 as <-. cbn. unfold radians. lra.
    - unfold aztel. rewrite W. apply restricted_iff. unfold to_az. cbn [dest obs_args a dE a_altaz radec2altaz a_ra a_dec a_mjd dV v_ra v_dec].
      rewrite <- (Rmod_unique (radians 90) (radians 350 + 0 - telaz_min rP) two_pi);
      [rewrite <- (Rmod_unique (radians 200) (telaz_max rP - telaz_min rP) two_pi)| | |];
      try apply two_pi_pos; unfold rP, two_pi, radians; cbn; try lra; try (exists 0%Z; unfold radians; lra); try (exists (-1)%Z; unfold radians; lra). }
  destruct (slew_spec dE rP s a) as (r & ES & _ & H2 & _).
  destruct (H2 Q) as (t & ->). { intros rt _. exists 0. reflexivity. }
  assert (EO : observe dE rP s (dV (radians 350)) 0 None true false =
    (with_overhead (moved dE rP s a) (Rmax (readtime rP) (shutter_stall rP (dV (radians 350)))), Ok (Some t, visit_time rP (dV (radians 350))))).
  { rewrite observe_eq. fold a. rewrite ES. reflexivity. }
  cbn [krun fold_left kstep dO]. fold s. rewrite EO. cbn [fst]. unfold with_overhead, moved. cbn [k_cum]. rewrite W.
  unfold to_az. cbn. unfold radians. lra.
Qed.
Print Assumptions C23_restricted_range_refuted.

(** A first visit at azimuth 1 in the default configuration is made and leaves
    the cumulative azimuth at 1. *)
Lemma dP_first : exists t,
  observe dE dP dS (dV 1) 0 None true false =
  (with_overhead (moved dE dP dS (obs_args (dV 1) 0 None true false)) (Rmax (readtime dP) (shutter_stall dP (dV 1))),
   Ok (Some t, visit_time dP (dV 1))) /\
  k_cum (moved dE dP dS (obs_args (dV 1) 0 None true false)) = 1.
Proof.
  pose proof PI_RGT_0. pose proof PI2_1. set (a := obs_args (dV 1) 0 None true false).
  assert (HC : telaz_min dP <= k_cum dS <= telaz_max dP) by (cbn; unfold radians; lra).
  destruct (slew_spec dE dP dS a) as (r & ES & _ & H2 & _).
  destruct (H2 (dP_possible dS 1 0 eq_refl HC)) as (t & ->). { intros rt _. exists 0. reflexivity. }
  exists t. split.
  - rewrite observe_eq. fold a. rewrite ES. reflexivity.
  - cbn [moved k_cum]. rewrite dP_wraps. unfold aztel. rewrite dP_wraps.
    rewrite aztel_direct; unfold to_az, from_az; cbn; unfold radians; lra.
Qed.
Example C23_example : k_cum (krun dE dP dS [dO 1 0]) = 1.
Proof. destruct dP_first as (t & E & C). cbn [krun fold_left kstep dO]. rewrite E. exact C. Qed.

(** ** C24 *)
(** Impossible: band not mounted, altitude or rotator angle outside the limits,
    or no way to reach the azimuth inside the cable-wrap limits. *)
Definition unreachable (E : conv) (P : cfg) (s : kin) (a : slew_args) : Prop :=
  if wraps P then
    forall d, (exists k : Z, d = to_az E a - from_az E P s a + IZR k * (2 * PI)) ->
      ~ telaz_min P <= k_cum s + d <= telaz_max P
  else Rmod (telaz_max P - telaz_min P) (2 * PI) < Rmod (to_az E a - telaz_min P) (2 * PI).
Definition impossible (E : conv) (P : cfg) (s : kin) (a : slew_args) : Prop :=
  (exists b, a_band a = Some b /\ ~ In b (k_mounted s)) \/
  to_alt E a < telalt_min P \/ telalt_max P < to_alt E a \/
  (exists rt, rot_of E a = Some rt /\ (rt < telrot_min P \/ telrot_max P < rt)) \/
  unreachable E P s a.
Lemma impossible_not : forall E P s a, impossible E P s a -> ~ possible E P s a.
Proof.
  intros E P s a H (B & A & R & Z). destruct H as [(b & Eb & Nb)|[H|[H|[(rt & Er & H)|H]]]].
  - unfold band_ok in B. rewrite Eb in B. apply mem_iff in B. contradiction.
  - lra.
  - lra.
  - specialize (R rt Er). lra.
  - unfold unreachable in H. unfold aztel in Z. destruct (wraps P).
    + destruct (aztel_wrap P (k_cum s) (from_az E P s a) (to_az E a)) as [d|] eqn:ED; [|contradiction].
      apply aztel_sound in ED. destruct ED as [C L]. exact (H d C L).
    + apply restricted_iff in Z. unfold two_pi in Z. lra.
Qed.

Theorem C24_impossible_slew_refused : forall E P s a, impossible E P s a ->
  fst (slew_times E P s a) = s /\ forall t, snd (slew_times E P s a) <> Ok (Some t).
Proof.
  intros E P s a H. apply impossible_not in H. destruct (slew_spec E P s a) as (r & -> & H1 & _). cbn [fst snd].
  destruct r as [[t|]|e]; [elim H; apply (H1 t eq_refl)| |]; (split; [reflexivity|discriminate]).
Qed.
Print Assumptions C24_impossible_slew_refused.

Theorem C24_impossible_observe_refused : forall E P s v m r lax whl,
  impossible E P s (obs_args v m r lax whl) ->
  fst (observe E P s v m r lax whl) = s /\ forall t vt, snd (observe E P s v m r lax whl) <> Ok (Some t, vt).
Proof.
  intros E P s v m r lax whl H. apply impossible_not in H.
  destruct (observe_spec E P s v m r lax whl) as [(t & EO & Q & _)|[E1 E2]]; [contradiction|].
  split; [exact E1|]. intros t vt K. destruct E2 as [E2|(e & E2)]; congruence.
Qed.
Print Assumptions C24_impossible_observe_refused.

(** Over any history of observing, parking and band changes: an impossible visit
    returns no slew time and changes nothing (overhead included), and every
    other visit is made; nothing ever raises. *)
Theorem C24_impossible_visit_refused : forall E P l band mounted v m r lax whl,
  Forall no_bare_slew l ->
  2 * PI <= telaz_max P - telaz_min P -> telaz_min P <= 0 <= telaz_max P ->
  let s := krun E P (kin_init P band mounted) l in
  (impossible E P s (obs_args v m r lax whl) /\ observe E P s v m r lax whl = (s, Ok (None, visit_time P v))) \/
  (~ impossible E P s (obs_args v m r lax whl) /\
   exists s' t, observe E P s v m r lax whl = (s', Ok (Some t, visit_time P v)) /\
     k_band s' = v_band v /\ k_parked s' = false /\ k_az s' = to_az E (obs_args v m r lax whl) /\
     k_alt s' = to_alt E (obs_args v m r lax whl)).
Proof.
  intros E P l band mounted v m r lax whl F HR H0 s.
  assert (TR : trackable s). { apply run_trackable; [exact F|]. left. cbn. repeat split; discriminate. }
  destruct (observe_trackable E P s v m r lax whl TR) as (_ & x & EX).
  destruct (observe_spec E P s v m r lax whl) as [(t & EO & Q & _)|[E1 E2]].
  - right. split; [intros I; now apply impossible_not in I|]. rewrite EO. eexists _, t. split; [reflexivity|]. cbn. auto.
  - left. assert (EO : observe E P s v m r lax whl = (s, Ok (None, visit_time P v))).
    { destruct E2 as [E2|(e & E2)]; [|congruence]. rewrite <- E1 at 2. rewrite <- E2. apply surjective_pairing. }
    split; [|exact EO]. set (a := obs_args v m r lax whl).
    destruct (slew_spec E P s a) as (y & ES & _ & H2 & H3).
    assert (NP : ~ possible E P s a).
    { intros Q. destruct (H2 Q) as (t & ->).
      - intros rt _. unfold current_rot, from_pa, origin. cbn [a obs_args a_start_rot a_start a_mjd].
        destruct TR as [(Hp & -> & Hr)|(Hp & Hr)].
        + destruct (k_rottel s); [eauto|contradiction].
        + rewrite Hp. destruct (k_rotsky s); [|contradiction]. destruct (radec2altaz E (k_ra s) (k_dec s) m) as [[? ?] ?]. eauto.
      - rewrite observe_eq in EO. fold a in EO. rewrite ES in EO. cbn in EO. discriminate. }
    assert (W : wraps P = true) by (unfold wraps, Rleb, two_pi; rewrite Rabs_pos_eq by lra; destruct (Rle_dec _ _); [reflexivity|lra]).
    assert (HC : telaz_min P <= k_cum s <= telaz_max P) by (apply cum_in_limits; [exact W|exact H0|exact H0]).
    unfold impossible. destruct (existsb (String.eqb (v_band v)) (k_mounted s)) eqn:EB.
    2:{ left. exists (v_band v). split; [reflexivity|]. rewrite <- mem_iff, EB. discriminate. }
    right. destruct (Rlt_dec (to_alt E a) (telalt_min P)); [now left|]. right.
    destruct (Rlt_dec (telalt_max P) (to_alt E a)); [now left|]. right. left.
    destruct (rot_of E a) as [rt|] eqn:ER.
    2:{ exfalso. revert ER. unfold rot_of, rotation. cbn. destruct r; discriminate. }
    exists rt. split; [reflexivity|].
    destruct (Rlt_dec rt (telrot_min P)); [now left|]. destruct (Rlt_dec (telrot_max P) rt); [now right|].
    exfalso. apply NP. repeat split; try lra.
    + exact EB.
    + rewrite ER in *. injection H as <-. lra.
    + rewrite ER in *. injection H as <-. lra.
    + unfold aztel. rewrite W. now apply aztel_total.
Qed.
Print Assumptions C24_impossible_visit_refused.

(** Non-trivial: the default telescope refuses an unmounted band. *)
Example C24_example : impossible dE dP dS (obs_args (mkVisit 1 (PI / 4) 0 "z" 30 1) 0 None true false) /\
  ~ impossible dE dP dS (obs_args (dV 1) 0 None true false).
Proof.
  split.
  - left. exists "z"%string. split; [reflexivity|]. cbn. intuition discriminate.
  - intros H. apply impossible_not in H. apply H. apply dP_possible; [reflexivity|]. pose proof PI_RGT_0. cbn. unfold radians. lra.
Qed.

(** A tracking slew without any rotator angle is accepted, but the next slew
    with a rotator angle then raises TypeError. *)
Theorem C24_slew_without_rotation_raises : exists E P s a1 a2 t,
  possible E P s a1 /\ snd (slew_times E P s a1) = Ok (Some t) /\
  possible E P (fst (slew_times E P s a1)) a2 /\
  snd (slew_times E P (fst (slew_times E P s a1)) a2) = Raise TypeError.
Proof.
  pose proof PI_RGT_0.
  set (a1 := mkSlew 1 (PI / 4) 0 None None (Some "r"%string) true false true None None None true).
  set (a2 := obs_args (dV 1) 0 None true false).
  assert (HC : telaz_min dP <= k_cum dS <= telaz_max dP) by (cbn; unfold radians; lra).
  assert (Q1 : possible dE dP dS a1).
  { unfold possible. repeat split; try (unfold to_alt; cbn; unfold radians; lra); try discriminate.
    unfold aztel. rewrite dP_wraps. apply aztel_total; [exact HC|]. unfold dP, radians, two_pi. cbn. lra. }
  destruct (slew_spec dE dP dS a1) as (r & ES & _ & H2 & _).
  destruct (H2 Q1) as (t & ->). { intros rt K. discriminate. }
  cbn [a1 a_update] in ES. fold a1 in ES.
  exists dE, dP, dS, a1, a2, t. rewrite ES. cbn [fst snd].
  assert (C1 : telaz_min dP <= k_cum (moved dE dP dS a1) <= telaz_max dP).
  { pose proof (cum_in_limits dE dP dP_wraps ltac:(cbn; unfold radians; lra) [KSlew a1] dS HC) as K.
    cbn [krun fold_left kstep] in K. rewrite ES in K. exact K. }
  assert (Q2 : possible dE dP (moved dE dP dS a1) a2) by (apply dP_possible; [reflexivity|exact C1]).
  split; [exact Q1|]. split; [reflexivity|]. split; [exact Q2|].
  destruct (slew_spec dE dP (moved dE dP dS a1) a2) as (r & ES2 & _).
  unfold slew_times. change (band_ok (moved dE dP dS a1) a2) with true. cbn [negb].
  reflexivity.
Qed.
Print Assumptions C24_slew_without_rotation_raises.

(** ** C25 *)
(** Exactly what holds: up to full turns the cumulative azimuth is the telescope
    azimuth, minus the park azimuth, minus everything the telescope moved while
    tracking between slews. *)
Theorem C25_cumulative_azimuth_partial :
  forall E P l band mounted, 2 * PI <= Rabs (telaz_max P - telaz_min P) ->
  let s0 := kin_init P band mounted in
  let s := krun E P s0 l in
  exists k : Z, k_cum s = k_az s - park_az P - drift E P s0 l 0 + IZR k * (2 * PI).
Proof.
  intros E P l band mounted H s0 s. apply (cum_drift E P).
  - unfold wraps, Rleb, two_pi. destruct (Rle_dec _ _); [reflexivity|lra].
  - cbn. replace (park_az P - park_az P - 0) with 0 by ring. apply congr_refl.
Qed.
Print Assumptions C25_cumulative_azimuth_partial.

(** Refuted as stated: staying on one target for a day moves the telescope by
    one radian, the cumulative azimuth does not move. *)
Theorem C25_cumulative_azimuth_refuted :
  exists E P l band mounted, park_az P = 0 /\ 2 * PI <= telaz_max P - telaz_min P /\
  let s := krun E P (kin_init P band mounted) l in
  ~ exists k : Z, k_cum s = k_az s + IZR k * (2 * PI).
Proof.
  pose proof PI_RGT_0. pose proof PI2_1.
  exists dE, dP, [dO 1 0; dO 1 1], "r"%string, ["u"; "g"; "r"; "i"; "y"]%string. split; [reflexivity|].
  split; [cbn; unfold radians; lra|]. fold dS.
  destruct dP_first as (t & EO & C). intros s.
  assert (ES0 : s = kstep dE dP (fst (observe dE dP dS (dV 1) 0 None true false)) (dO 1 1)) by reflexivity.
  rewrite EO in ES0. cbn [fst] in ES0. clearbody s. subst s.
  set (s1 := with_overhead _ _).
  assert (C1 : k_cum s1 = 1) by exact C.
  set (a := obs_args (dV 1) 1 None true false).
  assert (Q : possible dE dP s1 a) by (apply dP_possible; [reflexivity|rewrite C1; cbn; unfold radians; lra]).
  destruct (slew_spec dE dP s1 a) as (r & ES & _ & H2 & _).
  destruct (H2 Q) as (t2 & ->). { intros rt _. eexists. reflexivity. }
  unfold dO, kstep. rewrite observe_eq. fold a. rewrite ES. cbn [fst snd a obs_args a_update]. fold a.
  change (k_cum (with_overhead ?x _)) with (k_cum x). change (k_az (with_overhead ?x _)) with (k_az x).
  assert (K1 : k_cum (moved dE dP s1 a) = 1).
  { cbn [moved k_cum]. rewrite dP_wraps. unfold aztel. rewrite dP_wraps. rewrite aztel_direct.
    - rewrite C1. unfold to_az, from_az. cbn. ring.
    - unfold to_az, from_az. cbn. lra.
    - rewrite C1. unfold to_az, from_az. cbn. unfold radians. lra. }
  rewrite K1. cbn [moved k_az]. unfold to_az. cbn. intros (k & EK).
  assert (CC : congr two_pi 1 (1 + 1)) by (exists k; exact EK).
  apply congr_close in CC; [lra|apply two_pi_pos|]. unfold two_pi. replace (1 - (1 + 1)) with (- (1)) by ring.
  rewrite Rabs_Ropp, Rabs_R1. lra.
Qed.
Print Assumptions C25_cumulative_azimuth_refuted.

(** ** C26 *)
(** Telescope part of a slew over [d] degrees in altitude, as documented: motion
    time plus the longer of settling and [d * ol_slope] seconds. *)
Definition documented_tel_time (P : cfg) (oh d daz : R) : R :=
  Rmax oh (Rmax (jt (telalt P) (radians d)) (jt (telaz P) (Rabs daz)) + Rmax (d * ol_slope P) (mount_settle P)).

Theorem C26_open_loop_slope_refuted : exists P d,
  0 < d /\ 0 < ol_slope P /\ tel_time P 0 (radians d) (Some 0) <> Some (documented_tel_time P 0 d 0).
Proof.
  pose proof PI_RGT_0. pose proof PI_4. exists dP, 30. split; [lra|]. split; [cbn; lra|].
  assert (J1 : 0 <= jt (telalt dP) (radians 30)) by (apply jt_nonneg; cbn; unfold radians; lra).
  assert (O : 0 < ol_time dP (radians 30) < 3).
  { unfold ol_time, optics_ol_slope, dP, radians. cbn.
    replace (30 * PI / 180 / (1 / 3.5 / (1 * PI / 180))) with (PI * PI * (3.5 * 30 / 32400)) by (field; lra).
    split; [nra|]. assert (PI * PI <= 16) by nra. lra. }
  rewrite tel_time_form. 2:{ pose proof (Rmax_l (jt (telalt dP) (radians 30)) (jt (telaz dP) (Rabs 0))). lra. }
  unfold documented_tel_time. intros K. apply (f_equal (fun o => match o with Some x => x | None => 0 end)) in K. cbv beta iota in K.
  set (j := Rmax (jt (telalt dP) (radians 30)) (jt (telaz dP) (Rabs 0))) in *.
  assert (0 <= j) by (unfold j; eapply Rle_trans; [exact J1|apply Rmax_l]).
  change (mount_settle dP) with 3 in K. change (ol_slope dP) with (1 / 3.5) in K.
  rewrite (Rmax_right (ol_time dP (radians 30)) 3) in K by lra. rewrite (Rmax_left (30 * (1 / 3.5)) 3) in K by lra.
  rewrite (Rmax_right 0 (j + 3)) in K by lra. rewrite (Rmax_right 0 (j + 30 * (1 / 3.5))) in K by lra. lra.
Qed.
Print Assumptions C26_open_loop_slope_refuted.

(** What holds: the same formula with the slope's reciprocal (in radians squared
    per degree squared); it agrees with the documentation only for the single
    slope pi/180. *)
Theorem C26_open_loop_slope_partial : forall P oh d daz, 0 <= d -> 0 < ol_slope P ->
  0 < Rmax (jt (telalt P) (radians d)) (jt (telaz P) (Rabs daz)) ->
  tel_time P oh (radians d) (Some daz) =
    Some (Rmax oh (Rmax (jt (telalt P) (radians d)) (jt (telaz P) (Rabs daz)) +
                   Rmax (d * (PI / 180) ^ 2 / ol_slope P) (mount_settle P))) /\
  (0 < d -> d * (PI / 180) ^ 2 / ol_slope P = d * ol_slope P <-> ol_slope P = PI / 180).
Proof.
  intros P oh d daz Hd Hs Hj. pose proof PI_RGT_0.
  assert (O : ol_time P (radians d) = d * (PI / 180) ^ 2 / ol_slope P).
  { unfold ol_time, optics_ol_slope, radians. field. repeat split; lra. }
  split.
  - rewrite <- O. apply tel_time_form. assert (0 <= ol_time P (radians d)).
    { rewrite O. apply Rmult_le_pos; [apply Rmult_le_pos; [lra|apply pow2_ge_0]|apply Rlt_le, Rinv_0_lt_compat; lra]. } lra.
  - intros Hd'. split.
    + intros K. apply (f_equal (fun x => x * ol_slope P / d)) in K.
      replace (d * (PI / 180) ^ 2 / ol_slope P * ol_slope P / d) with ((PI / 180) ^ 2) in K by (field; lra).
      replace (d * ol_slope P * ol_slope P / d) with (ol_slope P ^ 2) in K by (field; lra).
      assert (Z : (ol_slope P - PI / 180) * (ol_slope P + PI / 180) = 0) by (simpl in K; lra).
      apply Rmult_integral in Z. destruct Z; lra.
    + intros ->. field. lra.
Qed.
Print Assumptions C26_open_loop_slope_partial.
Example C26_example : 0 < Rmax (jt (telalt dP) (radians 30)) (jt (telaz dP) (Rabs 1)).
Proof.
  pose proof PI_RGT_0. eapply Rlt_le_trans; [|apply Rmax_r]. rewrite Rabs_R1.
  unfold jt. cbn [dP telaz ax_j ax_v ax_a].
  rewrite jerk_T by (unfold radians; lra). unfold T, sa, sv2, P5, P6, P24, P13, sv1.
  assert (SP : 0 < sqrt (radians 7 / radians 28)) by (apply sqrt_lt_R0, Rdiv_lt_0_compat; unfold radians; lra).
  assert (A1 : 0 < radians 7 / radians 28) by (apply Rdiv_lt_0_compat; unfold radians; lra).
  assert (A2 : 0 < radians 7 / radians 7) by (apply Rdiv_lt_0_compat; unfold radians; lra).
  assert (A3 : 0 < 1 / radians 7) by (apply Rdiv_lt_0_compat; unfold radians; lra).
  assert (C : 0 < cbrt (1 / (2 * radians 28))).
  { unfold cbrt. assert (0 < 1 / (2 * radians 28)) by (apply Rdiv_lt_0_compat; unfold radians; lra).
    destruct (Rle_dec _ 0); [lra|apply exp_pos]. }
  repeat destruct (Rlt_dec _ _); try lra.
  match goal with |- context [sqrt ?x] => pose proof (sqrt_pos x) end. lra.
Qed.

(** ** C27 *)
(** After any history, a completed visit that follows completed visit [v]
    (without parking in between) has slew time at least the readout time, and for
    a single-exposure [v] the next exposure starts at least the shutter interval
    after the exposure of [v] started. *)
Theorem C27_overhead_bounds_next_slew :
  forall E P l band mounted v0,
  0 <= band_changetime P -> 0 <= cl_delay P -> 0 <= shuttertime P ->
  0 < ax_v (telrot P) -> 0 < ax_a (telrot P) -> match ax_j (telrot P) with None => True | Some j => 0 < j end ->
  let s0 := kin_init P band mounted in
  let s := krun E P s0 l in
  last_visit E P s0 l None = Some v0 ->
  forall v m r lax whl t vt, snd (observe E P s v m r lax whl) = Ok (Some t, vt) ->
  readtime P <= t /\
  (v_nexp v0 = 1%nat -> shutter_2motion P <= visit_time P v0 + t).
Proof.
  intros E P l band mounted v0 B1 B2 B3 R1 R2 R3 s0 s LV v m r lax whl t vt H.
  assert (O : k_overhead s = Rmax (readtime P) (shutter_stall P v0)).
  { unfold s. rewrite (overhead_last E P l s0 None eq_refl), LV. reflexivity. }
  pose proof (next_overhead E P s v m r lax whl B1 B2 (fun d => jt_nonneg (telrot P) d R1 R2 R3) t vt H) as N.
  rewrite O in N. split; [eapply Rle_trans; [apply Rmax_l|exact N]|].
  intros N1. now apply (stall_gap P v0 N1 B3 t N).
Qed.
Print Assumptions C27_overhead_bounds_next_slew.
Example C27_example : last_visit dE dP dS [dO 1 0; KMount ["r"]%string] None = Some (dV 1).
Proof. destruct dP_first as (t & E & _). cbn [last_visit dO]. rewrite E. reflexivity. Qed.

(** ** C47 *)
Theorem C47_band_in_use_is_mounted :
  forall E P l band mounted, In band mounted -> Forall nonempty_mount l ->
  let s := krun E P (kin_init P band mounted) l in
  In (k_band s) (k_mounted s) /\ In (k_start_band s) (k_mounted s).
Proof. intros E P l band mounted H F. apply run_bands_ok; [exact F|]. split; exact H. Qed.
Print Assumptions C47_band_in_use_is_mounted.
Example C47_example : k_band (krun dE dP dS [KMount ["g"; "z"]%string]) = "z"%string.
Proof. reflexivity. Qed.

(** ** C49 *)
(** Repeating a completed visit at once costs exactly the readout (or shutter)
    overhead, whatever happened before. *)
Theorem C49_repeat_costs_overhead :
  forall E P l band mounted v m r lax whl t vt,
  cfg_ok P -> 0 < cl_limit P -> 0 < camera_fov P -> 0 <= readtime P ->
  2 * PI <= telaz_max P - telaz_min P -> telaz_min P <= 0 <= telaz_max P ->
  (forall rt pa, rs2rt E (rt2rs E rt pa) pa = rt) ->
  let s := krun E P (kin_init P band mounted) l in
  snd (observe E P s v m r lax whl) = Ok (Some t, vt) ->
  forall lax' whl',
  snd (observe E P (fst (observe E P s v m r lax whl)) v m r lax' whl') =
    Ok (Some (Rmax (readtime P) (shutter_stall P v)), visit_time P v).
Proof.
  intros E P l band mounted v m r lax whl t vt OK CL FOV RT FT H0 RR s H lax' whl'.
  assert (W : wraps P = true) by (unfold wraps, Rleb, two_pi; rewrite Rabs_pos_eq by lra; destruct (Rle_dec _ _); [reflexivity|lra]).
  apply (observe_again E P OK s v m r lax whl t vt); try assumption.
  - pose proof (cum_in_limits E P W H0 (l ++ [KObserve v m r lax whl]) (kin_init P band mounted) H0) as K.
    unfold krun in K. rewrite fold_left_app in K. exact K.
  - destruct r; [apply RR|exact I].
Qed.
Print Assumptions C49_repeat_costs_overhead.
Lemma dP_ok : cfg_ok dP.
Proof.
  pose proof PI_RGT_0. unfold cfg_ok, axis_ok, dP, radians. cbn. repeat split; lra.
Qed.
Example C49_example :
  snd (observe dE dP (fst (observe dE dP dS (dV 1) 0 None true false)) (dV 1) 0 None true false) = Ok (Some 3.07, 31).
Proof.
  destruct dP_first as (t & EO & _). pose proof PI_RGT_0.
  rewrite (C49_repeat_costs_overhead dE dP [] "r" ["u"; "g"; "r"; "i"; "y"]%string (dV 1) 0 None true false t (visit_time dP (dV 1)) dP_ok).
  - unfold visit_time, shutter_stall, dV, dP. cbn. do 3 f_equal; [|lra].
    destruct (Rlt_dec (30 / 1) 15); [lra|]. apply Rmax_left. lra.
  - cbn. unfold radians. lra.
  - cbn. unfold radians. lra.
  - cbn. lra.
  - cbn. unfold radians. lra.
  - cbn. unfold radians. lra.
  - intros rt pa. cbn. ring.
  - change (krun dE dP _ []) with dS. now rewrite EO.
Qed.

(** ** C50 *)
(** A slew never takes less time than any of its parts: the overhead, the motion
    of each telescope and dome axis, the mount and dome settling after a move, the
    rotator motion, the band change and the optics closed loop delay. *)
Theorem C50_slew_no_faster_than_parts :
  forall E P s a t, cfg_ok P -> snd (slew_times E P s a) = Ok (Some t) ->
  let dalt := Rabs (to_alt E a - from_alt E P s a) in
  let dome_az := Rabs (smallest_signed_angle (from_az E P s a) (to_az E a)) in
  k_overhead s <= t /\
  jt (telalt P) dalt <= t /\
  (exists d, aztel P (k_cum s) (from_az E P s a) (to_az E a) = Some d /\ jt (telaz P) (Rabs d) <= t /\
     (0 < jt (telalt P) dalt \/ 0 < jt (telaz P) (Rabs d) ->
        jt (telalt P) dalt + mount_settle P <= t /\ jt (telaz P) (Rabs d) + mount_settle P <= t)) /\
  (a_lax a = false -> jt (domalt P) dalt <= t /\ jt (domaz P) dome_az <= t /\
     (0 < jt (domaz P) dome_az -> jt (domaz P) dome_az + domaz_settle P <= t)) /\
  (band_of s a = k_band s -> forall rt c, rot_of E a = Some rt -> rot_before E P s a = Some c ->
     jt (telrot P) (Rabs (smallest_signed_angle c rt)) <= t) /\
  (k_parked s = false -> band_of s a <> k_band s -> a_const a = true -> band_changetime P <= t) /\
  (k_parked s = false -> band_of s a <> k_band s -> a_const a = false ->
     forall rt c, rot_of E a = Some rt -> rot_before E P s a = Some c ->
     90 + jt (telrot P) (Rabs (smallest_signed_angle c 0)) + jt (telrot P) (Rabs (smallest_signed_angle 0 rt)) <= t) /\
  (k_parked s = false -> band_of s a <> k_band s -> a_const a = true -> a_while a = false ->
     jt (telalt P) dalt + band_changetime P <= t) /\
  (cl_limit P <= dalt -> jt (telalt P) dalt + cl_delay P <= t).
Proof.
  intros E P s a t OK H dalt dome_az.
  destruct (slew_lower E P OK s a t H) as (x & d & ET & Lx & EA & DT & RO & BC & BW & BB & CL). fold dalt in ET, DT, CL. fold dome_az in DT.
  destruct (tel_time_bounds P OK _ _ _ _ (Rabs_pos _) ET) as (d' & [= <-] & O & JA & JZ & ST). fold dalt in JA, ST.
  split; [lra|]. split; [lra|]. split; [|split; [|split; [|split; [|split; [|split]]]]].
  - exists d. split; [exact EA|]. split; [lra|]. intros M. specialize (ST M).
    pose proof (Rmax_l (jt (telalt P) dalt) (jt (telaz P) (Rabs d))). pose proof (Rmax_r (jt (telalt P) dalt) (jt (telaz P) (Rabs d))). lra.
  - intros LX. rewrite LX in DT.
    destruct (dome_bounds P OK dalt dome_az (Rabs_pos _) (Rabs_pos _)) as (D1 & D2 & D3). cbv zeta in *.
    split; [lra|]. split; [lra|]. intros Z. specialize (D3 Z). lra.
  - intros SB rt c R1 R2. apply (RO rt c R1 R2). now apply String.eqb_eq.
  - intros PK SB CT. apply BC; try assumption. now apply String.eqb_neq.
  - intros PK SB CT rt c R1 R2. apply (BB rt c PK); try assumption. now apply String.eqb_neq.
  - intros PK SB CT WH. enough (x + band_changetime P <= t) by lra. apply BW; try assumption. now apply String.eqb_neq.
  - intros C. specialize (CL C). lra.
Qed.
Print Assumptions C50_slew_no_faster_than_parts.
Example C50_example : exists t, snd (slew_times dE dP dS (obs_args (dV 1) 0 None true false)) = Ok (Some t) /\
  to_alt dE (obs_args (dV 1) 0 None true false) <> from_alt dE dP dS (obs_args (dV 1) 0 None true false).
Proof.
  pose proof PI_RGT_0. assert (HC : telaz_min dP <= k_cum dS <= telaz_max dP) by (cbn; unfold radians; lra).
  destruct (slew_spec dE dP dS (obs_args (dV 1) 0 None true false)) as (r & -> & _ & H2 & _).
  destruct (H2 (dP_possible dS 1 0 eq_refl HC)) as (t & ->). { intros rt _. exists 0. reflexivity. }
  exists t. split; [reflexivity|]. unfold to_alt, from_alt. cbn. unfold radians. lra.
Qed.
