(** C100: sidereal time, horizon coordinates and the parallactic angle. *)
From Coq Require Import Bool Reals Lra Lia ZArith.
From Verif Require Import Base Angles Sphere Sphere_proofs Props_Sphere Props_Bearing Horizon Horizon_proofs.
Open Scope R_scope.

(** calc_lmst is the sidereal time of the date plus the longitude, up to whole days. *)
Theorem C100_lmst : forall mjd lon, exists k : Z,
  calc_lmst mjd lon = 1869711679816973 / 100000000000000 + 24065709854011313 / 1000000000000000 * (mjd - 515445 / 10) + lon * 12 / PI + IZR k * 24.
Proof.
  intros mjd lon. pose proof PI_RGT_0 as P. unfold calc_lmst, gmst0, gmst_rate, degrees.
  destruct (Rmod_congr (1869711679816973 / 100000000000000 + 24065709854011313 / 1000000000000000 * (mjd - 515445 / 10)) 24) as (k & E).
  rewrite E. replace (lon * 180 / PI / 15) with (lon * 12 / PI) by (field; lra).
  destruct (Rlt_dec _ 0); [exists (k + 1)%Z; rewrite plus_IZR|exists k]; lra.
Qed.
Print Assumptions C100_lmst.
(** West of Greenwich (longitudes from minus a turn to 0) it is an hour of the day. *)
Theorem C100_lmst_range : forall mjd lon, - (2 * PI) <= lon <= 0 -> 0 <= calc_lmst mjd lon < 24.
Proof.
  intros mjd lon H. pose proof PI_RGT_0 as P. unfold calc_lmst, degrees.
  pose proof (Rmod_range (gmst0 + gmst_rate * (mjd - 515445 / 10)) 24 ltac:(lra)) as R. set (g := Rmod _ _) in *. clearbody g.
  assert (E : lon * 180 / PI / 15 * PI = lon * 12) by (field; lra). set (q := lon * 180 / PI / 15) in *. clearbody q.
  assert (-24 <= q <= 0) by (split; nra). destruct (Rlt_dec (g + q) 0); lra.
Qed.
Print Assumptions C100_lmst_range.
Example C100_lmst_range_ex : - (2 * PI) <= -1 <= 0.
Proof. pose proof PI2_1. lra. Qed.
(** East of it, it is not. *)
Theorem C100_lmst_refuted : exists mjd lon, 0 <= lon <= PI /\ 24 <= calc_lmst mjd lon.
Proof.
  exists (515445 / 10 + (23 - gmst0) / gmst_rate), (PI / 2). pose proof PI_RGT_0 as P. split; [lra|]. unfold calc_lmst, degrees.
  replace (gmst0 + gmst_rate * (515445 / 10 + (23 - gmst0) / gmst_rate - 515445 / 10)) with 23 by (unfold gmst0, gmst_rate; field).
  assert (E : 23 = Rmod 23 24) by (apply Rmod_unique; [lra|exists 0%Z; ring|lra]). rewrite <- E.
  replace (PI / 2 * 180 / PI / 15) with 6 by (field; lra). destruct (Rlt_dec (23 + 6) 0); lra.
Qed.
Print Assumptions C100_lmst_refuted.
(** A sidereal day later it is the same. *)
Theorem C100_day : forall mjd lon (k : Z), calc_lmst (mjd + IZR k * 24 / (24065709854011313 / 1000000000000000)) lon = calc_lmst mjd lon.
Proof.
  intros mjd lon k. unfold calc_lmst.
  replace (Rmod (gmst0 + gmst_rate * (mjd + IZR k * 24 / (24065709854011313 / 1000000000000000) - 515445 / 10)) 24)
    with (Rmod (gmst0 + gmst_rate * (mjd - 515445 / 10)) 24); [reflexivity|].
  apply Rmod_congr_eq; [lra|]. exists (- k)%Z. rewrite opp_IZR. unfold gmst0, gmst_rate. field.
Qed.
Print Assumptions C100_day.

(** _wrap_hour_angle: the same angle, between -pi and pi for angles up to three half turns. *)
Theorem C100_wrap : forall ha, (exists k : Z, wrap_hour_angle ha = ha + IZR k * (2 * PI)) /\
  (- PI < ha <= 3 * PI -> - PI < wrap_hour_angle ha <= PI).
Proof.
  intros ha. unfold wrap_hour_angle. pose proof PI_RGT_0. destruct (Rlt_dec PI ha).
  - split; [exists (-1)%Z; ring|intros; lra].
  - split; [exists 0%Z; ring|intros; lra].
Qed.
Print Assumptions C100_wrap.
(** But not for hour angles below -pi, as of an ra of 20 hours at 2 hours sidereal time. *)
Theorem C100_wrap_refuted : exists lst ra, 0 <= lst < 2 * PI /\ 0 <= ra < 2 * PI /\ wrap_hour_angle (lst - ra) < - PI.
Proof.
  exists (2 / 12 * PI), (20 / 12 * PI). pose proof PI_RGT_0. split; [lra|]. split; [lra|]. unfold wrap_hour_angle.
  destruct (Rlt_dec PI _); lra.
Qed.
Print Assumptions C100_wrap_refuted.

(** The sidereal time in radians: the one given, in hours, or that of the date. *)
Definition sidereal (lmst : option R) (mjd lon : R) : R := match lmst with Some l => l * PI / 12 | None => calc_lmst mjd lon * PI / 12 end.
Lemma sidereal_hours : forall lmst mjd lon, hours (use_lmst lmst mjd lon) = sidereal lmst mjd lon.
Proof. intros [l|] mjd lon; unfold hours, use_lmst, sidereal; field. Qed.

(** The altitude is what is left to the zenith, always. *)
Theorem C100_altitude : forall ra dec lat lon mjd lmst, exists alt az s,
  ra_dec2_alt_az ra dec lat lon mjd lmst = Some (alt, az) /\ sep1 (sidereal lmst mjd lon) lat ra dec = Some s /\ alt = PI / 2 - s.
Proof.
  intros ra dec lat lon mjd lmst. destruct (altaz_alt ra dec lat lon mjd lmst) as (az & E). rewrite sidereal_hours in E.
  do 3 eexists. split; [exact E|]. split; [apply sep1_ang|]. unfold ang. rewrite dot_comm.
  rewrite asin_acos by (apply unit_dot_bound; apply xyz_unit). reflexivity.
Qed.
Print Assumptions C100_altitude.

(** Altitude and azimuth: the target has sin alt of its direction up, cos alt cos az north and
    cos alt sin az east, unless it is at the zenith or nadir. *)
Theorem C100_altaz : forall ra dec lat lon mjd lmst, - (PI / 2) <= dec <= PI / 2 -> - (PI / 2) < lat < PI / 2 ->
  let lst := sidereal lmst mjd lon in
  pos ra dec <> pos lst lat -> pos ra dec <> times (-1) (pos lst lat) ->
  exists alt az, ra_dec2_alt_az ra dec lat lon mjd lmst = Some (alt, Some az) /\
    - (PI / 2) < alt < PI / 2 /\ 0 <= az <= 2 * PI /\
    inner (pos ra dec) (pos lst lat) = sin alt /\
    inner (pos ra dec) (northward lst lat) = cos alt * cos az /\
    inner (pos ra dec) (eastward lst) = cos alt * sin az.
Proof.
  intros ra dec lat lon mjd lmst Hd Hl lst N1 N2. rewrite !pos_xyz in *. pose proof PI_RGT_0 as P.
  assert (B := unit_dot_bound _ _ (xyz_unit ra dec) (xyz_unit lst lat)). set (u := dot (xyz_from_ra_dec ra dec) (xyz_from_ra_dec lst lat)) in *.
  assert (B' : -1 < u < 1).
  { split.
    - destruct (Req_dec u (-1)) as [E|E]; [|lra]. exfalso. apply N2. apply unit_dot_one; [apply xyz_unit| |].
      + pose proof (xyz_unit lst lat) as U. unfold unit, dot, times in *. simpl in *. lra.
      + unfold u, dot in E. unfold dot, times. simpl in *. lra.
    - destruct (Req_dec u 1) as [E|E]; [|lra]. exfalso. apply N1. apply unit_dot_one; [apply xyz_unit|apply xyz_unit|exact E]. }
  pose proof (asin_bound_lt u B') as AB. assert (CA : 0 < cos (asin u)) by (apply cos_gt_0; lra).
  assert (CD : 0 <= cos dec) by (apply cos_ge_0; lra). assert (CL : 0 < cos lat) by (apply cos_gt_0; lra).
  pose proof (altaz_az ra dec lat lon mjd lmst CD CL) as A. rewrite sidereal_hours in A. fold lst u in A.
  destruct (A ltac:(lra)) as (az & E & R & C & S). exists (asin u), az.
  split; [exact E|]. split; [lra|]. split; [exact R|]. split; [symmetry; now apply sin_asin|].
  split; [symmetry; exact C|symmetry; exact S].
Qed.
Print Assumptions C100_altaz.
Example C100_altaz_ex : exists alt az, ra_dec2_alt_az 0 0 0 0 0 (Some 3) = Some (alt, Some az) /\ alt = PI / 4 /\ az = 3 * (PI / 2).
Proof.
  pose proof PI_RGT_0 as P.
  assert (L : sidereal (Some 3) 0 0 = PI / 4) by (unfold sidereal; field).
  assert (S2 : 0 < 1 / sqrt 2) by (apply Rdiv_lt_0_compat; [lra|apply sqrt_lt_R0; lra]).
  destruct (C100_altaz 0 0 0 0 0 (Some 3)) as (alt & az & E & A & Z & U & N & Es); try lra.
  - rewrite L. intros Q. apply (f_equal vy) in Q. unfold pos in Q. cbn [vy] in Q. rewrite sin_0, cos_0, sin_PI4 in Q. lra.
  - rewrite L. intros Q. apply (f_equal vy) in Q. unfold pos, times in Q. cbn [vy] in Q. rewrite sin_0, cos_0, sin_PI4 in Q. lra.
  - rewrite L in *. exists alt, az. split; [exact E|].
    unfold inner, pos, northward, eastward in *. cbn [vx vy vz] in *. rewrite ?sin_0, ?cos_0, ?sin_PI4, ?cos_PI4 in *.
    assert (SA : alt = PI / 4).
    { rewrite <- (asin_sin alt), <- (asin_sin (PI / 4)) by lra. f_equal. rewrite sin_PI4. lra. }
    split; [exact SA|]. subst alt. rewrite cos_PI4 in *. set (q := 1 / sqrt 2) in *. clearbody q.
    assert (SZ : sin az = -1) by nra.
    assert (CZ : cos az = 0) by nra.
    apply (congr_close (2 * PI)); [lra| |apply Rabs_def1; lra]. apply angle_congr; [rewrite cos_3PI2|rewrite sin_3PI2]; lra.
Qed.
(** The azimuth is documented nowhere to be below a turn, and is not: at the celestial pole. *)
Theorem C100_az_refuted : exists ra dec lat lmst alt, - (PI / 2) <= dec <= PI / 2 /\ - (PI / 2) < lat < PI / 2 /\
  ra_dec2_alt_az ra dec lat 0 0 (Some lmst) = Some (alt, Some (2 * PI)).
Proof.
  pose proof PI_RGT_0 as P. exists 0, (PI / 2), (PI / 6), 6, (PI / 6). split; [lra|]. split; [lra|].
  unfold ra_dec2_alt_az, use_lmst. replace (6 / 12 * PI - 0) with (PI / 2) by field.
  rewrite !cos_PI2, !sin_PI2. replace (1 * sin (PI / 6) + 0 * cos (PI / 6) * 0) with (sin (PI / 6)) by ring.
  rewrite clip1_in, np_arcsin_in by (apply SIN_bound). cbn [obind]. rewrite asin_sin by lra. f_equal. f_equal.
  assert (C : 0 < cos (PI / 6)) by (apply cos_gt_0; lra).
  unfold np_div. destruct (Req_EM_T (cos (PI / 6) * cos (PI / 6)) 0); [nra|]. cbn [obind].
  replace ((1 - sin (PI / 6) * sin (PI / 6)) / (cos (PI / 6) * cos (PI / 6))) with 1.
  - rewrite clip1_in, np_arccos_in, acos_1 by lra. cbn [obind]. destruct (Rlt_dec 0 1); [f_equal; ring|lra].
  - pose proof (cs1 (PI / 6)). replace (1 - sin (PI / 6) * sin (PI / 6)) with (cos (PI / 6) * cos (PI / 6)) by lra. field. lra.
Qed.
Print Assumptions C100_az_refuted.
(** Azimuth and altitude lead from the zenith to the target. *)
Theorem C100_from_zenith : forall ra dec lat lon mjd lmst alt az,
  - (PI / 2) <= dec <= PI / 2 -> - (PI / 2) < lat < PI / 2 ->
  let lst := sidereal lmst mjd lon in
  pos ra dec <> pos lst lat -> pos ra dec <> times (-1) (pos lst lat) ->
  ra_dec2_alt_az ra dec lat lon mjd lmst = Some (alt, Some az) ->
  pos ra dec = reached lst lat az (PI / 2 - alt) /\ exists k : Z, az = bearing lst lat ra dec + IZR k * (2 * PI).
Proof.
  intros ra dec lat lon mjd lmst alt az Hd Hl lst N1 N2 E.
  destruct (C100_altaz ra dec lat lon mjd lmst Hd Hl N1 N2) as (alt' & az' & E' & A & Z & U & N & Es). fold lst in U, N, Es.
  rewrite E in E'. injection E' as <- <-. rewrite !pos_xyz in *.
  assert (H : xyz_from_ra_dec ra dec = along lst lat az (PI / 2 - alt)) by (rewrite <- horizon_along; apply horizon_span; assumption).
  split; [rewrite reached_along; exact H|].
  apply congr_sym. apply (bearing_of_along _ _ _ _ _ (PI / 2 - alt)); [lra|exact H].
Qed.
Print Assumptions C100_from_zenith.

(** ra and dec from altitude and azimuth: the position with those components. *)
Definition seen (lst lat alt az : R) : vec :=
  plus3 (times (sin alt) (pos lst lat)) (times (cos alt * cos az) (northward lst lat)) (times (cos alt * sin az) (eastward lst)).
Lemma seen_dir : forall lst lat alt az, seen lst lat alt az = horizon_dir lst lat alt az.
Proof. intros. unfold seen, horizon_dir. rewrite pos_xyz. apply vec_eq; unfold plus3, vadd, times, scale; cbn [vx vy vz]; unfold northward, eastward, north, east; cbn [vx vy vz]; ring. Qed.
Theorem C100_radec : forall alt az lat lon mjd lmst, exists ra dec, alt_az2_ra_dec alt az lat lon mjd lmst = Some (ra, dec) /\
  - (PI / 2) <= dec <= PI / 2 /\ pos ra dec = seen (sidereal lmst mjd lon) lat alt az.
Proof.
  intros. destruct (radec_pos alt az lat lon mjd lmst) as (ra & dec & E & R & X & _). exists ra, dec. split; [exact E|]. split; [exact R|].
  rewrite pos_xyz, seen_dir, <- sidereal_hours. exact X.
Qed.
Print Assumptions C100_radec.
Example C100_radec_ex : seen (PI / 2) 0 0 (PI / 2) = V (-1) 0 0.
Proof. unfold seen, plus3, times, pos, northward, eastward. cbn [vx vy vz]. rewrite !sin_0, !cos_0, !cos_PI2, !sin_PI2. f_equal; ring. Qed.
(** For sidereal times up to 36 hours, as calc_lmst answers for longitudes from minus a turn to
    half a turn, the ra lies in [0, 2 pi]. *)
Theorem C100_ra : forall alt az lat lon mjd h ra dec, 0 <= h <= 36 -> alt_az2_ra_dec alt az lat lon mjd (Some h) = Some (ra, dec) -> 0 <= ra <= 2 * PI.
Proof.
  intros alt az lat lon mjd h ra dec H E. pose proof PI_RGT_0 as P. unfold alt_az2_ra_dec, use_lmst in E.
  destruct (np_arcsin _) as [d|]; [|discriminate]. cbn [obind] in E. injection E as E1 E2.
  pose proof (atan2_range (- sin az * cos alt) (- cos az * sin lat * cos alt + sin alt * cos lat)) as A. set (t := atan2 _ _) in *. clearbody t.
  assert (0 <= h / 12 * PI <= 3 * PI) by (split; nra). set (l := h / 12 * PI) in *. clearbody l.
  rewrite <- E1. destruct (Rlt_dec (l - t) 0).
  - destruct (Rlt_dec (2 * PI) (l - t + 2 * PI)); lra.
  - destruct (Rlt_dec (2 * PI) (l - t)); lra.
Qed.
Print Assumptions C100_ra.
(** Not below 2 pi, though, and beyond it for longitudes counted east up to a turn. *)
Theorem C100_ra_refuted : (exists alt az lat h ra dec, 0 <= h < 24 /\ alt_az2_ra_dec alt az lat 0 0 (Some h) = Some (ra, dec) /\ ra = 2 * PI) /\
  (exists alt az lat lon mjd ra dec, 0 <= lon <= 2 * PI /\ alt_az2_ra_dec alt az lat lon mjd None = Some (ra, dec) /\ 2 * PI < ra).
Proof.
  pose proof PI_RGT_0 as P.
  assert (A1 : atan2 (- sin (PI / 2) * cos 0) (- cos (PI / 2) * sin 0 * cos 0 + sin 0 * cos 0) = - (PI / 2)).
  { apply (atan2_val 1); try lra; rewrite ?cos_neg, ?sin_neg, ?cos_PI2, ?sin_PI2, ?cos_0, ?sin_0; ring. }
  assert (B : -1 <= sin 0 * sin 0 + cos 0 * cos 0 * cos (PI / 2) <= 1) by (rewrite sin_0, cos_0, cos_PI2; lra).
  split.
  - exists 0, (PI / 2), 0, 18, (2 * PI), (asin (sin 0 * sin 0 + cos 0 * cos 0 * cos (PI / 2))). split; [lra|]. split; [|reflexivity]. unfold alt_az2_ra_dec, use_lmst.
    rewrite clip1_in, np_arcsin_in by exact B. cbn [obind]. rewrite A1.
    replace (18 / 12 * PI - - (PI / 2)) with (2 * PI) by field. destruct (Rlt_dec (2 * PI) 0); [lra|]. destruct (Rlt_dec (2 * PI) (2 * PI)); [lra|reflexivity].
  - exists 0, (PI / 2), 0, (2 * PI), (515445 / 10 + (23 - gmst0) / gmst_rate). do 2 eexists. split; [lra|].
    unfold alt_az2_ra_dec, use_lmst.
    assert (L : calc_lmst (515445 / 10 + (23 - gmst0) / gmst_rate) (2 * PI) = 47).
    { unfold calc_lmst, degrees.
      replace (gmst0 + gmst_rate * (515445 / 10 + (23 - gmst0) / gmst_rate - 515445 / 10)) with 23 by (unfold gmst0, gmst_rate; field).
      assert (E : 23 = Rmod 23 24) by (apply Rmod_unique; [lra|exists 0%Z; ring|lra]). rewrite <- E.
      replace (2 * PI * 180 / PI / 15) with 24 by (field; lra). destruct (Rlt_dec (23 + 24) 0); lra. }
    rewrite L, clip1_in, np_arcsin_in by exact B. cbn [obind]. rewrite A1. split; [reflexivity|].
    destruct (Rlt_dec (47 / 12 * PI - - (PI / 2)) 0); [lra|]. destruct (Rlt_dec (2 * PI) (47 / 12 * PI - - (PI / 2))); lra.
Qed.
Print Assumptions C100_ra_refuted.

(** There and back: ra, dec to alt, az and back is the same position ... *)
Theorem C100_sky_round : forall ra dec lat lon mjd lmst alt az,
  - (PI / 2) <= dec <= PI / 2 -> - (PI / 2) < lat < PI / 2 ->
  ra_dec2_alt_az ra dec lat lon mjd lmst = Some (alt, Some az) ->
  exists ra' , alt_az2_ra_dec alt az lat lon mjd lmst = Some (ra', dec) /\ pos ra' dec = pos ra dec.
Proof.
  intros ra dec lat lon mjd lmst alt az Hd Hl E. pose proof PI_RGT_0 as P.
  assert (CD : 0 <= cos dec) by (apply cos_ge_0; lra). assert (CL : 0 < cos lat) by (apply cos_gt_0; lra).
  destruct (altaz_alt ra dec lat lon mjd lmst) as (o & EA). set (lst := hours (use_lmst lmst mjd lon)) in *.
  set (u := dot (xyz_from_ra_dec ra dec) (xyz_from_ra_dec lst lat)) in *.
  assert (CA : cos (asin u) <> 0).
  { intros Z. assert (X := E). unfold ra_dec2_alt_az in X. fold (hours (use_lmst lmst mjd lon)) in X. fold lst in X. rewrite <- site_up in X. fold u in X.
    pose proof (unit_dot_bound _ _ (xyz_unit ra dec) (xyz_unit lst lat)) as B. fold u in B.
    rewrite clip1_in, np_arcsin_in in X by exact B. cbn [obind] in X. unfold np_div in X. rewrite Z, Rmult_0_l in X.
    destruct (Req_EM_T 0 0); [discriminate|contradiction]. }
  destruct (altaz_az ra dec lat lon mjd lmst CD CL CA) as (az' & E' & R & C & S). fold lst u in E', C, S. rewrite E in E'. injection E' as E1 E2. subst alt az'.
  destruct (radec_pos (asin u) az lat lon mjd lmst) as (ra' & dec' & F & D & X & _). fold lst in X.
  assert (V : xyz_from_ra_dec ra dec = horizon_dir lst lat (asin u) az).
  { apply horizon_span; [symmetry; apply sin_asin, unit_dot_bound; apply xyz_unit|symmetry; exact C|symmetry; exact S]. }
  rewrite <- V in X. assert (dec' = dec).
  { apply (f_equal vz) in X. simpl in X. rewrite <- (asin_sin dec), <- (asin_sin dec') by lra. now rewrite X. }
  subst dec'. exists ra'. split; [exact F|]. rewrite !pos_xyz. exact X.
Qed.
Print Assumptions C100_sky_round.
(** ... and alt, az to ra, dec and back is the same altitude and, up to a turn, azimuth. *)
Theorem C100_round : forall alt az lat lon mjd lmst ra dec, - (PI / 2) < alt < PI / 2 -> - (PI / 2) < lat < PI / 2 ->
  alt_az2_ra_dec alt az lat lon mjd lmst = Some (ra, dec) ->
  exists az', ra_dec2_alt_az ra dec lat lon mjd lmst = Some (alt, Some az') /\ 0 <= az' <= 2 * PI /\ exists k : Z, az' = az + IZR k * (2 * PI).
Proof.
  intros alt az lat lon mjd lmst ra dec Ha Hl E. pose proof PI_RGT_0 as P.
  destruct (radec_pos alt az lat lon mjd lmst) as (ra' & dec' & F & D & X & _). rewrite E in F. injection F as <- <-.
  set (lst := hours (use_lmst lmst mjd lon)) in *.
  assert (CD : 0 <= cos dec) by (apply cos_ge_0; lra). assert (CL : 0 < cos lat) by (apply cos_gt_0; lra).
  destruct (horizon_dots lst lat alt az) as (U & N & Es). cbv zeta in *. rewrite <- X in U, N, Es.
  assert (CA : 0 < cos alt) by (apply cos_gt_0; lra).
  pose proof (altaz_az ra dec lat lon mjd lmst CD CL) as A. fold lst in A. rewrite U, N, Es, asin_sin in A by lra.
  destruct (A ltac:(lra)) as (az' & G & R & C & S). exists az'. split; [exact G|]. split; [exact R|].
  apply angle_congr; apply (Rmult_eq_reg_l (cos alt)); lra.
Qed.
Print Assumptions C100_round.
Example C100_round_ex : exists ra dec, alt_az2_ra_dec (1 / 2) 1 (-1 / 2) 0 0 (Some 5) = Some (ra, dec) /\ - (PI / 2) < 1 / 2 < PI / 2 /\ - (PI / 2) < -1 / 2 < PI / 2.
Proof.
  pose proof PI2_1. destruct (C100_radec (1 / 2) 1 (-1 / 2) 0 0 (Some 5)) as (ra & dec & E & _). exists ra, dec. split; [exact E|]. split; lra.
Qed.

(** _approx_altaz2pa of that altitude and azimuth: the direction of the zenith at the target,
    from north through east, in [0, 2 pi). *)
Theorem C100_pa : forall ra dec lat lon mjd lmst alt az,
  - (PI / 2) < dec < PI / 2 -> - (PI / 2) < lat < PI / 2 ->
  let lst := sidereal lmst mjd lon in
  pos ra dec <> pos lst lat -> pos ra dec <> times (-1) (pos lst lat) ->
  ra_dec2_alt_az ra dec lat lon mjd lmst = Some (alt, Some az) ->
  0 <= altaz2pa alt az lat < 2 * PI /\ pos lst lat = reached ra dec (altaz2pa alt az lat) (PI / 2 - alt).
Proof.
  intros ra dec lat lon mjd lmst alt az Hd Hl lst N1 N2 E. pose proof PI_RGT_0 as P.
  destruct (C100_altaz ra dec lat lon mjd lmst ltac:(lra) Hl N1 N2) as (alt' & az' & E' & A & Z & U & N & Es). fold lst in U, N, Es.
  rewrite E in E'. injection E' as <- <-. rewrite !pos_xyz in *.
  split; [apply Rmod_range; lra|].
  assert (V : xyz_from_ra_dec ra dec = horizon_dir lst lat alt az) by (apply horizon_span; assumption).
  destruct (pa_dots lst lat ra dec alt az V ltac:(apply cos_gt_0; lra)) as [P1 P2].
  rewrite reached_along. unfold along. rewrite cos_shift, sin_shift.
  rewrite (frame_span ra dec (xyz_from_ra_dec lst lat)) at 1. rewrite <- P1, <- P2, (dot_comm _ (xyz_from_ra_dec ra dec)).
  change (dot (xyz_from_ra_dec ra dec) (xyz_from_ra_dec lst lat)) with (inner (xyz_from_ra_dec ra dec) (xyz_from_ra_dec lst lat)). rewrite U.
  apply vec_eq; unfold vadd, scale; cbn [vx vy vz]; ring.
Qed.
Print Assumptions C100_pa.
(** The formula with the hour angle gives the same parallactic angle, up to a turn. *)
Theorem C100_pa_agree : forall ra dec lat lon mjd lmst alt az,
  - (PI / 2) < dec < PI / 2 -> - (PI / 2) < lat < PI / 2 ->
  let lst := sidereal lmst mjd lon in
  pos ra dec <> pos lst lat -> pos ra dec <> times (-1) (pos lst lat) ->
  ra_dec2_alt_az ra dec lat lon mjd lmst = Some (alt, Some az) ->
  exists k : Z, pa_from_hour_angle lst ra dec lat = altaz2pa alt az lat + IZR k * (2 * PI).
Proof.
  intros ra dec lat lon mjd lmst alt az Hd Hl lst N1 N2 E. pose proof PI_RGT_0 as P.
  destruct (C100_altaz ra dec lat lon mjd lmst ltac:(lra) Hl N1 N2) as (alt' & az' & E' & A & Z & U & N & Es). fold lst in U, N, Es.
  rewrite E in E'. injection E' as <- <-. rewrite !pos_xyz in *.
  assert (V : xyz_from_ra_dec ra dec = horizon_dir lst lat alt az) by (apply horizon_span; assumption).
  destruct (pa_dots lst lat ra dec alt az V ltac:(apply cos_gt_0; lra)) as [P1 P2].
  rewrite (site_east ra) in P1. rewrite site_north in P2. set (q := altaz2pa alt az lat) in *. clearbody q.
  replace (ra - lst) with (- (lst - ra)) in P1, P2 by ring. rewrite sin_neg in P1. rewrite cos_neg in P2.
  assert (CL : 0 < cos lat) by (apply cos_gt_0; lra). assert (CA : 0 < cos alt) by (apply cos_gt_0; lra).
  unfold pa_from_hour_angle. destruct (proj1 (C100_wrap (lst - ra))) as (k & W).
  rewrite (sin_congr (wrap_hour_angle (lst - ra)) (lst - ra)), (cos_congr (wrap_hour_angle (lst - ra)) (lst - ra)) by (exists k; exact W).
  assert (T : tan lat * cos lat = sin lat) by (unfold tan; field; lra). set (t := tan lat) in *. clearbody t.
  assert (EY : sin (lst - ra) = cos alt / cos lat * sin q).
  { apply (Rmult_eq_reg_l (cos lat)); [|lra]. transitivity (cos alt * sin q); [lra|field; lra]. }
  assert (EX : cos dec * t - sin dec * cos (lst - ra) = cos alt / cos lat * cos q).
  { apply (Rmult_eq_reg_l (cos lat)); [|lra]. transitivity (cos alt * cos q); [rewrite P2, <- T; ring|field; lra]. }
  rewrite EX, EY. apply atan2_polar. apply Rdiv_lt_0_compat; assumption.
Qed.
Print Assumptions C100_pa_agree.
Example C100_pa_ex : pos 0 0 <> pos (sidereal (Some 3) 0 0) 0 /\ pos 0 0 <> times (-1) (pos (sidereal (Some 3) 0 0) 0) /\ altaz2pa (PI / 4) (3 * (PI / 2)) 0 = PI / 2.
Proof.
  pose proof PI_RGT_0 as P.
  assert (L : sidereal (Some 3) 0 0 = PI / 4) by (unfold sidereal; field). rewrite L.
  assert (S2 : 0 < 1 / sqrt 2) by (apply Rdiv_lt_0_compat; [lra|apply sqrt_lt_R0; lra]).
  split; [|split].
  - intros Q. apply (f_equal vy) in Q. unfold pos in Q. cbn [vy] in Q. rewrite sin_0, cos_0, sin_PI4 in Q. lra.
  - intros Q. apply (f_equal vy) in Q. unfold pos, times in Q. cbn [vy] in Q. rewrite sin_0, cos_0, sin_PI4 in Q. lra.
  - unfold altaz2pa. rewrite sin_neg, cos_neg, cos_3PI2, sin_3PI2, cos_0, sin_0.
    rewrite (atan2_val 1 (PI / 2)); [|lra|lra|rewrite cos_PI2; ring|rewrite sin_PI2; ring].
    symmetry. apply Rmod_unique; [lra|exists 0%Z; ring|lra].
Qed.
