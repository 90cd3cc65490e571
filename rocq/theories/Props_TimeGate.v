(** C80: what an open gate promises for the block that starts under it. *)
From Coq Require Import List ZArith QArith Qround Qabs Bool String Lia Lqa Permutation Sorted.
From Verif Require Import Base IntRounded IntRounded_proofs Script Script_proofs Core Core_proofs Props_Core TimeGate TimeGate_proofs.
Import ListNotations.
Local Open Scope string_scope.
Open Scope list_scope.
Open Scope nat_scope.

Definition days (m : Q) : Q := (m * (1 # 1440))%Q.
Lemma minutes_days : forall m, (minutes m == days m)%Q.
Proof. intro m. unfold minutes, days. field. Qed.
(** The twilight times a gate may be asked about. *)
Definition sets (alt : Z) (c : tcond) (t : Q) : Prop := (alt = 12%Z /\ t = tc_n12_set c) \/ (alt = 18%Z /\ t = tc_n18_set c).
Definition rises (alt : Z) (c : tcond) (t : Q) : Prop := (alt = 12%Z /\ t = tc_n12_rise c) \/ (alt = 18%Z /\ t = tc_n18_rise c).
Lemma sets_eq : forall alt c t, sets alt c t -> setting alt c = Ok t.
Proof. intros alt c t [[-> ->]|[-> ->]]; reflexivity. Qed.
Lemma rises_eq : forall alt c t, rises alt c t -> rising alt c = Ok t.
Proof. intros alt c t [[-> ->]|[-> ->]]; reflexivity. Qed.

(** ** Twilight *)
(** Open exactly when every block of at most the time needed, started now, ends before twilight. *)
Theorem C80_to_twilight : forall m alt c r, rises alt c r ->
  exists b, time_to_twilight m alt c = Ok b /\ (b = true <-> forall d, (d <= days m)%Q -> (tc_mjd c + d < r)%Q).
Proof.
  intros m alt c r R. unfold time_to_twilight. rewrite (rises_eq alt c r R). cbn [bind]. eexists. split; [reflexivity|].
  rewrite Qltb_lt. pose proof (minutes_days m) as E. split.
  - intros H d L. lra.
  - intro H. pose proof (H (days m) (Qle_refl _)). lra.
Qed.
Print Assumptions C80_to_twilight.
(** Open exactly between the end of evening and the start of morning twilight. *)
Theorem C80_not_twilight : forall alt c s r, sets alt c s -> rises alt c r ->
  exists b, not_twilight alt c = Ok b /\ (b = true <-> (s <= tc_mjd c <= r)%Q).
Proof.
  intros alt c s r A B. unfold not_twilight. rewrite (sets_eq alt c s A), (rises_eq alt c r B). cbn [bind]. eexists. split; [reflexivity|].
  destruct (Qltb r (tc_mjd c)) eqn:E1; [|destruct (Qltb (tc_mjd c) s) eqn:E2].
  - apply Qltb_lt in E1. split; [discriminate|lra].
  - apply Qltb_lt in E2. split; [discriminate|lra].
  - apply Qltb_false in E1. apply Qltb_false in E2. split; [lra|reflexivity].
Qed.
Print Assumptions C80_not_twilight.
(** So a block under both gates is dark from its first to its last moment. *)
Theorem C80_dark_block : forall m alt c s r d, sets alt c s -> rises alt c r ->
  not_twilight alt c = Ok true -> time_to_twilight m alt c = Ok true -> (0 <= d <= days m)%Q -> (s <= tc_mjd c + d /\ tc_mjd c + d < r)%Q.
Proof.
  intros m alt c s r d A B N T D. destruct (C80_not_twilight alt c s r A B) as [b [E1 B1]]. destruct (C80_to_twilight m alt c r B) as [b' [E2 B2]].
  assert (b = true) by congruence. assert (b' = true) by congruence. pose proof (proj1 B1 H). pose proof (proj1 B2 H0 d (proj2 D)). lra.
Qed.
Print Assumptions C80_dark_block.
(** Close to twilight: not less than the time that must remain, and either a high sun or
    twilight near.  The text asks for all three; a high sun in the evening opens it with the
    whole night ahead. *)
Theorem C80_close : forall lim hi lo c, (lo <= hi)%Q ->
  exists b, close_to_twilight lim hi lo c = Ok b /\
  (b = true <-> (tc_mjd c + days lo <= tc_n12_rise c)%Q /\ ((lim < tc_sun_alt c)%Q \/ (tc_n12_rise c < tc_mjd c + days hi)%Q)).
Proof.
  intros lim hi lo c L. unfold close_to_twilight. rewrite (proj2 (Qltb_false hi lo) L). eexists. split; [reflexivity|].
  pose proof (minutes_days lo) as E1. pose proof (minutes_days hi) as E2.
  destruct (Qltb (tc_n12_rise c - tc_mjd c) (minutes lo)) eqn:A.
  - apply Qltb_lt in A. split; [discriminate|]. intros [B _]. lra.
  - apply Qltb_false in A. destruct (Qltb (tc_n12_rise c - tc_mjd c) (minutes hi)) eqn:B.
    + apply Qltb_lt in B. split; [|reflexivity]. intros _. split; [lra|]. right. lra.
    + apply Qltb_false in B. rewrite Qltb_lt. split.
      * intro H. split; [lra|left; exact H].
      * intros [_ [H|H]]; [exact H|lra].
Qed.
Print Assumptions C80_close.
Theorem C80_close_refuted : exists c, close_to_twilight (-148 # 10) 21 15 c = Ok true /\ (tc_mjd c + (1 # 4) < tc_n12_rise c)%Q.
Proof.
  exists (mkTc 60000 1 (-13) (-30) 0 60000 (60000 + (1#50)) (60000 + (8#10)) (60000 + (9#10)) 0 0 [] []). split; reflexivity.
Qed.
Print Assumptions C80_close_refuted.
(** Right after evening twilight: never later than the time allowed, and exactly then away from ties. *)
Theorem C80_after_evening_partial : forall m alt c s, sets alt c s -> exists b, after_evening m alt c = Ok b /\
  (b = true -> (tc_mjd c < s + days m)%Q) /\ (apart (tc_mjd c - s) (minutes m) -> (tc_mjd c < s + days m)%Q -> b = true).
Proof.
  intros m alt c s A. unfold after_evening. rewrite (sets_eq alt c s A). cbn [bind]. eexists. split; [reflexivity|]. pose proof (minutes_days m) as E. split.
  - intro H. apply truth_lt_sound in H. lra.
  - intros P H. apply (truth_lt_exact _ _ P). lra.
Qed.
Print Assumptions C80_after_evening_partial.
Theorem C80_end_of_evening_partial : forall m alt c r, rises alt c r -> exists b, end_of_evening m alt c = Ok b /\
  (b = true -> (r < tc_mjd c + days m)%Q) /\ (apart (r - tc_mjd c) (minutes m) -> (r < tc_mjd c + days m)%Q -> b = true).
Proof.
  intros m alt c r A. unfold end_of_evening. rewrite (rises_eq alt c r A). cbn [bind]. eexists. split; [reflexivity|]. pose proof (minutes_days m) as E. split.
  - intro H. apply truth_lt_sound in H. lra.
  - intros P H. apply (truth_lt_exact _ _ P). lra.
Qed.
Print Assumptions C80_end_of_evening_partial.
(** But before evening twilight the first is open too, and after morning twilight the second. *)
Theorem C80_evening_refuted :
  (exists c, after_evening 30 18 c = Ok true /\ (tc_mjd c + (1 # 24) < tc_n18_set c)%Q) /\
  (exists c, end_of_evening 30 18 c = Ok true /\ (tc_n18_rise c + (1 # 24) < tc_mjd c)%Q).
Proof.
  split.
  - exists (mkTc 60000 1 0 0 0 (60000 + (5#100)) (60000 + (1#10)) (60000 + (4#10)) (60000 + (5#10)) 0 0 [] []). split; vm_compute; reflexivity.
  - exists (mkTc (60000 + (6#10)) 1 0 0 0 (60000 + (5#100)) (60000 + (1#10)) (60000 + (4#10)) (60000 + (5#10)) 0 0 [] []). split; vm_compute; reflexivity.
Qed.
Print Assumptions C80_evening_refuted.

(** ** Scheduled observations *)
(** With the list the core scheduler puts into the conditions, the gate is open exactly when no survey
    has an observation scheduled from now until the end of a block of the time needed. *)
Theorem C80_to_scheduled : forall W X (B : behav W X) shape too_flush (s : core W X) c tc m,
  let s' := update_conditions B shape too_flush s c in
  tc_mjd tc = cd_mjd c -> (forall c', c_cond s' = Some c' -> tc_sched tc = cd_sched c') ->
  exists b, time_to_scheduled m tc = Ok b /\
  (b = true <-> forall t i n l x, nth_error shape t = Some n -> i < n -> sv_sched B (c_w s') t i = Some l -> In x l ->
      (cd_mjd c <= x)%Q -> (cd_mjd c + days m < x)%Q).
Proof.
  intros W X B shape tf s c tc m s' Em Es. destruct (C09_scheduled_list W X B shape tf s c) as [c' [Hc [_ [_ P]]]]. cbv zeta in P. fold s' in Hc, P.
  specialize (Es c' Hc). rewrite <- Es in P. clear Es Hc c'.
  assert (I : forall x, In x (tc_sched tc) <-> (cd_mjd c <= x)%Q /\ exists t i n l, nth_error shape t = Some n /\ i < n /\ sv_sched B (c_w s') t i = Some l /\ In x l).
  { intro x. split.
    - intro H. apply (Permutation_in _ P) in H. apply filter_In in H. destruct H as [H G]. apply Qle_bool_iff in G. split; [exact G|].
      apply in_flat_map in H. destruct H as [[t i] [H J]]. apply (proj2 (C09_all_surveys_once shape)) in H. destruct H as [n [N L]]. cbn [fst snd] in J.
      destruct (sv_sched B (c_w s') t i) as [l|] eqn:E; [|destruct J]. exists t, i, n, l. auto.
    - intros [G [t [i [n [l [N [L [E J]]]]]]]]. apply (Permutation_in _ (Permutation_sym P)). apply filter_In. split; [|apply Qle_bool_iff; exact G].
      apply in_flat_map. exists (t, i). split; [apply (proj2 (C09_all_surveys_once shape)); exists n; auto|]. cbn [fst snd]. rewrite E. exact J. }
  pose proof (minutes_days m) as Ed. unfold time_to_scheduled. destruct (tc_sched tc) as [|x0 l0] eqn:L.
  - exists true. split; [reflexivity|]. split; [|reflexivity]. intros _ t i n l x N Li E J G. exfalso. apply (I x). split; [exact G|]. exists t, i, n, l. auto.
  - destruct (np_min_ok (x0 :: l0)) as [mn [E [Im Bm]]]; [discriminate|]. rewrite E. cbn [bind]. eexists. split; [reflexivity|]. rewrite Qltb_lt, Em. split.
    + intros H t i n l x N Li E' J G. assert (K : In x (x0 :: l0)) by (apply I; split; [exact G|exists t, i, n, l; auto]). pose proof (Bm x K). lra.
    + intro H. apply I in Im. destruct Im as [G [t [i [n [l [N [Li [E' J]]]]]]]]. pose proof (H t i n l mn N Li E' J G). lra.
Qed.
Print Assumptions C80_to_scheduled.

(** ** Windows, nights and bands *)
Theorem C80_window : forall ws c, (forall w, In w ws -> w <> []) ->
  exists b, in_time_window ws c = Ok b /\ (b = true <-> exists w x y, In w ws /\ In x w /\ In y w /\ (x <= tc_mjd c <= y)%Q).
Proof.
  intros ws c H. destruct (in_windows_spec ws (tc_mjd c) false H) as [b [E B]]. exists b. split; [exact E|]. rewrite B. split.
  - intros [D|[w [Iw [x [y A]]]]]; [discriminate|]. exists w, x, y. tauto.
  - intros [w [x [y A]]]. right. exists w. split; [tauto|]. exists x, y. tauto.
Qed.
Print Assumptions C80_window.
(** Any run of consecutive nights as long as the pattern has its nights, in some order. *)
Theorem C80_modulo : forall pattern c (at_night : Z -> tcond), pattern <> [] -> (forall n, tc_night (at_night n) = n) ->
  exists bs, Forall2 (fun i b => night_modulo pattern (at_night (tc_night c + Z.of_nat i)%Z) = Ok b) (seq 0 (List.length pattern)) bs /\ Permutation bs pattern.
Proof.
  intros pattern c at_night N A. set (n := List.length pattern). assert (Np : 0 < n) by (unfold n; destruct pattern; [contradiction|cbn; lia]).
  exists (map (fun i => nth (Z.to_nat ((tc_night c + Z.of_nat i) mod Z.of_nat n)) pattern false) (seq 0 n)). split.
  - generalize (seq 0 n). intro l. induction l as [|i l IH]; cbn [map]; [constructor|]. constructor; [|exact IH].
    unfold night_modulo. rewrite A. fold n. assert (B : Z.to_nat ((tc_night c + Z.of_nat i) mod Z.of_nat n) < n).
    { pose proof (Z.mod_pos_bound (tc_night c + Z.of_nat i) (Z.of_nat n)). lia. }
    destruct pattern as [|p0 pr]; [contradiction|]. rewrite (nth_error_nth' _ false) by exact B. reflexivity.
  - rewrite <- (map_map (fun i => Z.to_nat ((tc_night c + Z.of_nat i) mod Z.of_nat n)) (fun j => nth j pattern false)).
    eapply Permutation_trans; [apply Permutation_map, residues; exact Np|]. unfold n. rewrite map_nth_seq. apply Permutation_refl.
Qed.
Print Assumptions C80_modulo.
Theorem C80_bands : forall bands c, bands <> [] ->
  exists b, band_loaded bands c = Ok b /\ (b = true <-> forall x, In x bands -> In x (tc_bands c)).
Proof. intros bands c H. destruct (band_loaded_spec bands (tc_bands c) None (or_introl H)) as [b [E B]]. exists b. split; [exact E|exact B]. Qed.
Print Assumptions C80_bands.
Theorem C80_no_bands_refuted : forall c, band_loaded [] c = Raise UnboundLocalError.
Proof. reflexivity. Qed.
Print Assumptions C80_no_bands_refuted.

(** ** Hour angles *)
(** Limits between 0 and 24: open exactly when the hour angle, give or take whole turns, is in one. *)
Theorem C80_hour_angle_partial : forall ra limits c, (forall l, In l limits -> (0 <= fst l /\ snd l <= 24)%Q) ->
  (ha_limit ra limits c = true <-> exists l k, In l limits /\ (fst l <= tc_lmst c - ra * (1 # 15) + inject_Z k * 24 /\ tc_lmst c - ra * (1 # 15) + inject_Z k * 24 < snd l)%Q).
Proof.
  intros ra limits c H. unfold ha_limit, target_ha.
  set (x := (tc_lmst c - ra / 360 * 24)%Q). assert (E : (x == tc_lmst c - ra * (1 # 15))%Q) by (unfold x; field).
  rewrite existsb_exists. split.
  - intros [l [Il B]]. apply andb_true_iff in B. destruct B as [B1 B2]. apply Qle_bool_iff in B1. apply Qltb_lt in B2.
    destruct (Qmod_shift x 24) as [k K]; [lra|]. exists l, k. split; [exact Il|]. split; lra.
  - intros [l [k [Il [B1 B2]]]]. exists l. split; [exact Il|]. pose proof (H l Il) as [H1 H2].
    assert (M : (Qmod x 24 == x + inject_Z k * 24)%Q) by (apply Qmod_unique; lra).
    apply andb_true_iff. split; [apply Qle_bool_iff|apply Qltb_lt]; lra.
Qed.
Print Assumptions C80_hour_angle_partial.
(** Limits given around zero lose their eastern half. *)
Theorem C80_hour_angle_refuted : exists ra limits c l, In l limits /\
  (fst l <= tc_lmst c - ra * (1 # 15) /\ tc_lmst c - ra * (1 # 15) < snd l)%Q /\ ha_limit ra limits c = false.
Proof.
  exists 30%Q, [((-2)%Q, 2%Q)], (mkTc 60000 1 0 0 1 0 0 0 0 0 0 [] []), ((-2)%Q, 2%Q). split; [left; reflexivity|]. split; [split; vm_compute; congruence|reflexivity].
Qed.
Print Assumptions C80_hour_angle_refuted.

(** A target crosses the meridian again within half a day, more than the pad from now and more
    than the pad before twilight. *)
Definition better_later (ra pad : Q) (c : tcond) : Prop := exists k,
  let h := (ra * (1 # 15) - tc_lmst c + inject_Z k * 24)%Q in
  (pad * (1 # 60) < h /\ h <= 12 /\ h < (tc_n18_rise c - tc_mjd c) * 24 - pad * (1 # 60))%Q.
Theorem C80_rising_more_partial : forall ra pad c, (0 <= pad)%Q -> (-12 < ra * (1 # 15) - tc_lmst c <= 12)%Q ->
  (rising_more ra pad c = false <-> better_later ra pad c).
Proof.
  intros ra pad c P [H1 H2]. unfold rising_more. set (p := (pad / 60)%Q). set (h := (tc_lmst c - ra * 24 / 360)%Q).
  assert (Ep : (p == pad * (1 # 60))%Q) by (unfold p; field). assert (Eh : (h == tc_lmst c - ra * (1 # 15))%Q) by (unfold h; field).
  rewrite negb_false_iff, andb_true_iff, !Qltb_lt. unfold better_later. split.
  - intros [A B]. exists 0%Z. change (inject_Z 0) with 0%Q. rewrite Qabs_neg in B by lra. repeat split; lra.
  - intros [k [A [B D]]]. assert (k = 0%Z).
    { destruct (Z.lt_trichotomy k 0) as [K|[K|K]]; [exfalso| exact K|exfalso].
      - assert (J : (inject_Z k <= -1)%Q) by (change (-1)%Q with (inject_Z (-1)); rewrite <- Zle_Qle; lia). lra.
      - assert (J : (1 <= inject_Z k)%Q) by (change 1%Q with (inject_Z 1); rewrite <- Zle_Qle; lia). lra. }
    subst k. change (inject_Z 0) with 0%Q in *. split; [lra|]. rewrite Qabs_neg by lra. lra.
Qed.
Print Assumptions C80_rising_more_partial.
(** The hour angle is not brought into range: late in the sidereal day it is missed. *)
Theorem C80_rising_more_refuted : exists ra c, better_later ra 30 c /\ rising_more ra 30 c = true.
Proof.
  exists 15%Q, (mkTc 60000 1 0 0 23 0 0 (60000 + (1#4)) 0 0 0 [] []). split; [|reflexivity]. exists 1%Z. cbn. repeat split; vm_compute; congruence.
Qed.
Print Assumptions C80_rising_more_refuted.

(** ** LookAheadDdf *)
(** Far behind, it is open whatever the sky. *)
Theorem C80_ahead_behind : forall frac agg needed ra jump alt total mine c r, (agg <= frac)%Q -> (0 < total)%Z -> rises alt c r ->
  apart (inject_Z mine / inject_Z total) agg -> (inject_Z mine / inject_Z total < agg)%Q ->
  look_ahead frac agg needed ra jump alt total mine c = Ok true.
Proof.
  intros frac agg needed ra jump alt total mine c r F T R A H. unfold look_ahead. rewrite (proj2 (Qltb_false frac agg) F).
  destruct (Z.eqb_spec total 0); [lia|]. rewrite (rises_eq alt c r R). cbn [bind]. rewrite (proj2 (truth_lt_exact _ _ A) H). reflexivity.
Qed.
Print Assumptions C80_ahead_behind.
(** A target past the meridian with the moon down is never made to wait. *)
Theorem C80_ahead_west : forall frac agg needed ra jump alt total mine c r, (agg <= frac)%Q -> (0 < total)%Z -> rises alt c r ->
  (exists k, 0 <= tc_lmst c - ra * (1 # 15) + inject_Z k * 24 <= 12)%Q -> (tc_moon_alt c <= 0)%Q ->
  look_ahead frac agg needed ra jump alt total mine c = Ok true.
Proof.
  intros frac agg needed ra jump alt total mine c r F T R [k [K1 K2]] M. unfold look_ahead. rewrite (proj2 (Qltb_false frac agg) F).
  destruct (Z.eqb_spec total 0); [lia|]. rewrite (rises_eq alt c r R). cbn [bind].
  assert (G : forall a b, (a <= b)%Q -> truth (ir_gt [a] [b]) = false).
  { intros a b L. destruct (truth (ir_gt [a] [b])) eqn:E; [exfalso|reflexivity].
    unfold ir_gt, ir_cmp in E. cbn [bcast map bind] in E. unfold check_limit in E. destruct (order_of_mag [(a, b)]) as [om|].
    - destruct (existsb (is_close om) [(a, b)]).
      + cbn [map fst snd truth] in E. apply Qltb_lt in E. unfold round_pair in E. cbn [fst snd] in E. rewrite <- Zlt_Qlt in E.
        assert (X : forall x y, (x <= y)%Q -> (Qround_even x <= Qround_even y)%Z) by exact round_even_mono.
        pose proof (X (a - inject_Z (Qfloor (Qminb a b)) * ir_scale)%Q (b - inject_Z (Qfloor (Qminb a b)) * ir_scale)%Q ltac:(lra)). lia.
      + cbn [map fst snd truth] in E. apply Qltb_lt in E. lra.
    - cbn [map fst snd truth] in E. apply Qltb_lt in E. lra. }
  assert (Eh : (target_ha ra c <= 12)%Q).
  { unfold target_ha. set (x := (tc_lmst c - ra / 360 * 24)%Q). assert (E : (x == tc_lmst c - ra * (1 # 15))%Q) by (unfold x; field).
    assert (Q1 : (Qmod x 24 == x + inject_Z k * 24)%Q) by (apply Qmod_unique; lra). lra. }
  rewrite (G _ _ Eh). cbn [andb]. rewrite (G _ _ M). destruct (truth (ir_lt _ _)); reflexivity.
Qed.
Print Assumptions C80_ahead_west.
(** It never looks at the fraction it is given, and raises before the first visit. *)
Theorem C80_ahead_fraction_refuted : exists frac agg c mine total, (frac < inject_Z mine / inject_Z total)%Q /\
  (forall needed jump, look_ahead frac agg needed 0 jump 18 total mine c = Ok true) /\
  (forall needed jump, look_ahead frac agg needed 0 jump 18 0 0 c = Raise ZeroDivisionError).
Proof.
  exists (1#100)%Q, (1#100)%Q, (mkTc 60000 1 (-20) (-20) 1 0 0 (60000 + (1#4)) 0 0 0 [] []), 50%Z, 100%Z. split; [reflexivity|]. split; intros needed jump.
  - apply C80_ahead_west with (60000 + (1#4))%Q; [lra|lia|right; split; reflexivity| |cbn; lra]. exists 0%Z. cbn. split; unfold Qle; cbn; lia.
  - reflexivity.
Qed.
Print Assumptions C80_ahead_fraction_refuted.
(** The jump is subtracted from 24 hours as a fraction of a day, so a target half an hour from
    the meridian still waits 44 minutes; and the time of moonset, not the time left until it, is
    compared with the jump, so a moon that sets hours from now counts as setting soon. *)
Theorem C80_ahead_units_refuted :
  (exists c, (24 - (44 # 60) < tc_lmst c - 0 /\ tc_lmst c < 24)%Q /\ look_ahead (2#100) (1#100) 30 0 44 18 100 2 c = Ok false) /\
  (exists c, (tc_mjd c + (1 # 4) < tc_moonset c)%Q /\ look_ahead (2#100) (1#100) 30 0 44 18 100 2 c = Ok false /\
     look_ahead (2#100) (1#100) 30 0 44 18 100 2 (mkTc (tc_mjd c) (tc_night c) (tc_sun_alt c) (-20) (tc_lmst c) (tc_n12_set c) (tc_n18_set c) (tc_n18_rise c) (tc_n12_rise c) (tc_moonrise c) (tc_moonset c) (tc_bands c) (tc_sched c)) = Ok true).
Proof.
  split.
  - exists (mkTc 60000 1 (-20) (-20) (235#10) 0 0 (60000 + (1#4)) 0 (60000 - (1#4)) (60000 + (1#2)) [] []). split; [split; reflexivity|vm_compute; reflexivity].
  - exists (mkTc 60000 1 (-20) 20 1 0 0 (60000 + (4#10)) 0 (60000 - (1#4)) (60000 + (3#10)) [] []). split; [reflexivity|]. split; vm_compute; reflexivity.
Qed.
Print Assumptions C80_ahead_units_refuted.

(** ** Examples *)
Definition exc : tcond := mkTc (60000 + (2#10)) 7 (-20) (-20) 1 (60000 + (5#100)) (60000 + (1#10)) (60000 + (4#10)) (60000 + (45#100)) 0 0 ["g"; "r"; "i"] [60000 + (3#10); 60000 + (25#100)]%Q.
Example C80_ex_twilight : rises 18 exc (60000 + (4#10)) /\ sets 12 exc (60000 + (5#100)) /\ time_to_twilight 30 18 exc = Ok true /\ time_to_twilight 288 18 exc = Ok false /\
  not_twilight 18 exc = Ok true /\ close_to_twilight (-148 # 10) 21 15 exc = Ok false /\ after_evening 30 18 exc = Ok false /\ end_of_evening 300 18 exc = Ok true.
Proof. repeat split; try (right; split; reflexivity); try (left; split; reflexivity); vm_compute; reflexivity. Qed.
Example C80_ex_rest : time_to_scheduled 60 exc = Ok true /\ time_to_scheduled 72 exc = Ok false /\ in_time_window [[59000; 60000]; [60001; 60000 + (1#10)]]%Q exc = Ok true /\
  map (fun n => night_modulo [true; false; false] (mkTc 0 n 0 0 0 0 0 0 0 0 0 [] [])) [7%Z; 8%Z; 9%Z] = [Ok false; Ok false; Ok true] /\
  band_loaded ["r"; "g"] exc = Ok true /\ band_loaded ["r"; "u"] exc = Ok false.
Proof. repeat split; vm_compute; reflexivity. Qed.
Example C80_ex_sched : match c_cond (update_conditions exB exShape true exInit (exCond 60000 [])) with
  | Some c => time_to_scheduled 30 (mkTc (cd_mjd c) 1 0 0 0 0 0 0 0 0 0 [] (cd_sched c)) = Ok true /\ time_to_scheduled 1440 (mkTc (cd_mjd c) 1 0 0 0 0 0 0 0 0 0 [] (cd_sched c)) = Ok false
  | None => False end.
Proof. vm_compute. split; reflexivity. Qed.
Example C80_ex_ha : ha_limit 0 [(22%Q, 24%Q); (0%Q, 2%Q)] exc = true /\ ha_limit 180 [(22%Q, 24%Q); (0%Q, 2%Q)] exc = false /\
  rising_more 45 30 exc = false /\ rising_more 15 30 exc = true /\ (-12 < 45 * (1 # 15) - tc_lmst exc <= 12)%Q.
Proof. repeat split; vm_compute; congruence. Qed.
Example C80_ex_ahead : apart (inject_Z 1 / inject_Z 200) (1#100) /\ look_ahead (2#100) (1#100) 30 180 44 18 200 1 exc = Ok true /\ look_ahead (2#100) (1#100) 30 180 44 18 200 4 exc = Ok false.
Proof.
  split; [|split; vm_compute; reflexivity]. exists (1#100)%Q. split; [right; reflexivity|]. split; [intro H; discriminate H|reflexivity].
Qed.
