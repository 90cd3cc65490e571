(** Proofs about Horizon.v. *)
From Coq Require Import Bool Reals Lra Lia ZArith Nsatz.
From Verif Require Import Base Angles Sphere Sphere_proofs Horizon.
Open Scope R_scope.

Lemma clip1_in : forall x, -1 <= x <= 1 -> clip1 x = x.
Proof. intros x H. unfold clip1. destruct (Rlt_dec x (-1)); [lra|]. destruct (Rlt_dec 1 x); [lra|reflexivity]. Qed.
Definition hours (h : R) : R := h / 12 * PI.

(** The target in the frame of the site: up, north and east. *)
Lemma site_up : forall lst lat ra dec, dot (xyz_from_ra_dec ra dec) (xyz_from_ra_dec lst lat) = sin dec * sin lat + cos dec * cos lat * cos (lst - ra).
Proof. intros. rewrite cos_minus. trig. ring. Qed.
Lemma site_north : forall lst lat ra dec, dot (xyz_from_ra_dec ra dec) (north lst lat) = sin dec * cos lat - cos dec * sin lat * cos (lst - ra).
Proof. intros. rewrite cos_minus. trig. ring. Qed.
Lemma site_east : forall lst ra dec, dot (xyz_from_ra_dec ra dec) (east lst) = - (cos dec * sin (lst - ra)).
Proof. intros. rewrite sin_minus. trig. ring. Qed.
Lemma site_sq : forall lst lat ra dec, let p := xyz_from_ra_dec ra dec in
  dot p (xyz_from_ra_dec lst lat) * dot p (xyz_from_ra_dec lst lat) + dot p (north lst lat) * dot p (north lst lat) + dot p (east lst) * dot p (east lst) = 1.
Proof. intros. pose proof (frame_sq lst lat p (xyz_unit ra dec)) as H. cbv zeta in H. rewrite (dot_comm _ p) in H. exact H. Qed.

Section AltAz.
Variables (ra dec lat lon mjd : R) (lmst : option R).
Let lst := hours (use_lmst lmst mjd lon).
Let p := xyz_from_ra_dec ra dec.
Let u := dot p (xyz_from_ra_dec lst lat).
Let n := dot p (north lst lat).
Let e := dot p (east lst).
Lemma altaz_alt : exists az, ra_dec2_alt_az ra dec lat lon mjd lmst = Some (asin u, az).
Proof.
  unfold ra_dec2_alt_az. fold (hours (use_lmst lmst mjd lon)). fold lst. rewrite <- site_up. fold p u.
  assert (B : -1 <= u <= 1) by (apply unit_dot_bound; apply xyz_unit).
  rewrite clip1_in, np_arcsin_in by exact B. cbn [obind]. eexists. reflexivity.
Qed.
Lemma u_bound : -1 <= u <= 1.
Proof. apply unit_dot_bound; apply xyz_unit. Qed.
Lemma cos_alt_sq : cos (asin u) * cos (asin u) = n * n + e * e.
Proof.
  pose proof (cs1 (asin u)) as K. rewrite (sin_asin u u_bound) in K.
  pose proof (site_sq lst lat ra dec) as S. cbv zeta in S. fold p u n e in S. lra.
Qed.
Lemma altaz_az : 0 <= cos dec -> 0 < cos lat -> cos (asin u) <> 0 -> exists az,
  ra_dec2_alt_az ra dec lat lon mjd lmst = Some (asin u, Some az) /\ 0 <= az <= 2 * PI /\
  cos (asin u) * cos az = n /\ cos (asin u) * sin az = e.
Proof.
  intros CD CL CA. unfold ra_dec2_alt_az. fold (hours (use_lmst lmst mjd lon)). fold lst. rewrite <- site_up. fold p u.
  pose proof u_bound as B. rewrite clip1_in, np_arcsin_in by exact B. cbn [obind].
  pose proof (asin_bound u) as AB. pose proof PI_RGT_0 as P.
  assert (CP : 0 < cos (asin u)).
  { assert (0 <= cos (asin u)) by (apply cos_ge_0; lra). lra. }
  rewrite (sin_asin u B).
  pose proof cos_alt_sq as Q. set (c := cos (asin u)) in *.
  assert (N : sin dec - u * sin lat = n * cos lat).
  { pose proof (cs1 lat) as K. unfold u, n, p. rewrite site_up, site_north. nsatz. }
  unfold np_div. destruct (Req_EM_T (c * cos lat) 0) as [Z|Z]; [nra|]. cbn [obind].
  rewrite N. replace (n * cos lat / (c * cos lat)) with (n / c) by (field; lra).
  assert (NB : -1 <= n / c <= 1) by (apply ratio_bound; [exact CP|rewrite Q; nra]).
  rewrite clip1_in, np_arccos_in by exact NB. cbn [obind]. eexists. split; [reflexivity|].
  pose proof (acos_bound (n / c)) as AC.
  assert (CC : c * cos (acos (n / c)) = n) by (rewrite cos_acos by exact NB; field; lra).
  assert (SC : c * sin (acos (n / c)) = Rabs e).
  { assert (G : 0 <= sin (acos (n / c))) by (apply sin_ge_0; lra).
    assert (K : c * sin (acos (n / c)) * (c * sin (acos (n / c))) = e * e).
    { pose proof (cs1 (acos (n / c))) as K1. set (s := sin (acos (n / c))) in *. set (k := cos (acos (n / c))) in *. clearbody s k. rewrite <- CC in Q. nra. }
    pose proof (Rabs_pos e). assert (Rabs e * Rabs e = e * e) by (rewrite <- Rabs_mult; apply Rabs_pos_eq; nra).
    assert (0 <= c * sin (acos (n / c))) by nra. nra. }
  assert (E : e = - (cos dec * sin (lst - ra))) by (unfold e, p; apply (site_east lst)).
  destruct (Rlt_dec 0 (sin (lst - ra))) as [S|S].
  - split; [lra|]. replace (2 * PI - acos (n / c)) with (- acos (n / c) + 2 * INR 1 * PI) by (simpl; ring).
    rewrite cos_period, sin_period, cos_neg, sin_neg. split; [exact CC|]. assert (e <= 0) by (rewrite E; nra). rewrite Rabs_left1 in SC by assumption. lra.
  - split; [lra|]. split; [exact CC|]. rewrite SC. apply Rabs_pos_eq. rewrite E. nra.
Qed.
(** Where the azimuth divides by zero it divides zero. *)
Lemma altaz_zero : cos (asin u) * cos lat = 0 -> sin dec - sin (asin u) * sin lat = 0.
Proof.
  intros Z. rewrite (sin_asin u u_bound). pose proof (cs1 lat) as K.
  assert (N : sin dec - u * sin lat = n * cos lat) by (unfold u, n, p; rewrite site_up, site_north; nsatz).
  rewrite N. apply Rmult_integral in Z as [Z|Z]; [|rewrite Z; ring].
  pose proof cos_alt_sq as Q. rewrite Z in Q. assert (n = 0) by nra. rewrite H. ring.
Qed.
End AltAz.

Section RaDec.
Variables (alt az lat lon mjd : R) (lmst : option R).
Let lst := hours (use_lmst lmst mjd lon).
(** The direction (alt, az) at the site. *)
Definition horizon_dir (lst lat alt az : R) : vec :=
  vadd (scale (sin alt) (xyz_from_ra_dec lst lat)) (vadd (scale (cos alt * cos az) (north lst lat)) (scale (cos alt * sin az) (east lst))).
Lemma horizon_along : forall lst lat alt az, horizon_dir lst lat alt az = along lst lat az (PI / 2 - alt).
Proof. intros. unfold horizon_dir, along. rewrite cos_shift, sin_shift. apply vec_eq; unfold vadd, scale; cbn [vx vy vz]; ring. Qed.
Lemma radec_pos : exists ra dec, alt_az2_ra_dec alt az lat lon mjd lmst = Some (ra, dec) /\ - (PI / 2) <= dec <= PI / 2 /\
  xyz_from_ra_dec ra dec = horizon_dir lst lat alt az /\
  congr (2 * PI) ra (lst - atan2 (- sin az * cos alt) (- cos az * sin lat * cos alt + sin alt * cos lat)).
Proof.
  unfold alt_az2_ra_dec. fold (hours (use_lmst lmst mjd lon)). fold lst.
  assert (Z : vz (horizon_dir lst lat alt az) = sin lat * sin alt + cos lat * cos alt * cos az).
  { unfold horizon_dir, vadd, scale, xyz_from_ra_dec, north, east; cbn [vx vy vz]. ring. }
  pose proof (along_unit lst lat az (PI / 2 - alt)) as U. rewrite <- horizon_along in U.
  rewrite <- Z. set (w := horizon_dir lst lat alt az) in *.
  assert (B : -1 <= vz w <= 1) by (unfold unit, dot in U; split; nra).
  rewrite clip1_in, np_arcsin_in by exact B. cbn [obind].
  set (X := - cos az * sin lat * cos alt + sin alt * cos lat). set (Y := - sin az * cos alt).
  destruct (atan2_spec Y X) as [A1 A2]. set (h := atan2 Y X) in *. clearbody h.
  match goal with |- context [Some (?r, asin (vz w))] => set (r0 := r) end.
  assert (C : congr (2 * PI) r0 (lst - h)).
  { unfold r0. destruct (Rlt_dec (lst - h) 0).
    - assert (C1 : congr (2 * PI) (lst - h + 2 * PI) (lst - h)) by (exists 1%Z; ring).
      destruct (Rlt_dec (2 * PI) (lst - h + 2 * PI)); [|exact C1]. exists 0%Z. ring.
    - destruct (Rlt_dec (2 * PI) (lst - h)); [exists (-1)%Z; ring|exists 0%Z; ring]. }
  exists r0, (asin (vz w)). split; [reflexivity|]. split; [apply asin_bound|]. split; [|exact C].
  assert (H : sqrt (X * X + Y * Y) = cos (asin (vz w))).
  { rewrite cos_asin by exact B. f_equal. unfold Rsqr.
    assert (W : dot w w = X * X + Y * Y + vz w * vz w).
    { rewrite Z. unfold w. rewrite horizon_along, (along_unit lst lat az (PI / 2 - alt)). unfold X, Y.
      pose proof (cs1 lat) as K1. pose proof (cs1 alt) as K2. pose proof (cs1 az) as K3. nsatz. }
    rewrite U in W. lra. }
  rewrite H in A1, A2.
  apply vec_eq; unfold xyz_from_ra_dec; cbn [vx vy vz].
  - rewrite (cos_congr _ _ C), cos_minus.
    transitivity (cos lst * (cos (asin (vz w)) * cos h) + sin lst * (cos (asin (vz w)) * sin h)); [ring|]. rewrite <- A1, <- A2.
    unfold w, X, Y, horizon_dir, vadd, scale, xyz_from_ra_dec, north, east; cbn [vx vy vz]. ring.
  - rewrite (sin_congr _ _ C), sin_minus.
    transitivity (sin lst * (cos (asin (vz w)) * cos h) - cos lst * (cos (asin (vz w)) * sin h)); [ring|]. rewrite <- A1, <- A2.
    unfold w, X, Y, horizon_dir, vadd, scale, xyz_from_ra_dec, north, east; cbn [vx vy vz]. ring.
  - now apply sin_asin.
Qed.
End RaDec.

(** In the frame of the site. *)
Lemma horizon_dots : forall lst lat alt az, let w := horizon_dir lst lat alt az in
  dot w (xyz_from_ra_dec lst lat) = sin alt /\ dot w (north lst lat) = cos alt * cos az /\ dot w (east lst) = cos alt * sin az.
Proof.
  intros. destruct (frame lst lat) as (PP & NN & EE & PN & PE & NE). unfold w, horizon_dir.
  repeat rewrite ?dot_add_l, ?dot_scale_l.
  rewrite ?(dot_comm (north lst lat) (xyz_from_ra_dec lst lat)), ?(dot_comm (east lst) (xyz_from_ra_dec lst lat)), ?(dot_comm (east lst) (north lst lat)).
  rewrite PP, NN, EE, PN, PE, NE. repeat split; ring.
Qed.
Lemma horizon_span : forall lst lat v alt az, dot v (xyz_from_ra_dec lst lat) = sin alt -> dot v (north lst lat) = cos alt * cos az ->
  dot v (east lst) = cos alt * sin az -> v = horizon_dir lst lat alt az.
Proof. intros lst lat v alt az A B C. rewrite (frame_span lst lat v), A, B, C. reflexivity. Qed.

(** ** Parallactic angle *)
Lemma pa_dots : forall lst lat ra dec alt az, xyz_from_ra_dec ra dec = horizon_dir lst lat alt az ->
  0 < cos dec ->
  cos alt * sin (altaz2pa alt az lat) = dot (xyz_from_ra_dec lst lat) (east ra) /\
  cos alt * cos (altaz2pa alt az lat) = dot (xyz_from_ra_dec lst lat) (north ra dec).
Proof.
  intros lst lat ra dec alt az E CD. destruct (horizon_dots lst lat alt az) as (U & N & Es). cbv zeta in *. rewrite <- E in U, N, Es.
  rewrite site_up in U. rewrite site_north in N. rewrite (site_east lst) in Es.
  unfold altaz2pa. set (y := sin (- az) * cos lat). set (x := cos alt * sin lat - sin alt * cos lat * cos (- az)).
  rewrite (sin_congr _ _ (Rmod_congr (atan2 y x) (2 * PI))), (cos_congr _ _ (Rmod_congr (atan2 y x) (2 * PI))).
  destruct (atan2_spec y x) as [A1 A2]. set (q := atan2 y x) in *. clearbody q.
  assert (Z : sin dec = sin lat * sin alt + cos lat * cos alt * cos az).
  { apply (f_equal vz) in E. unfold horizon_dir, vadd, scale, xyz_from_ra_dec, north, east in E; cbn [vx vy vz] in E. lra. }
  assert (H : sqrt (x * x + y * y) = cos dec).
  { rewrite <- (sqrt_square (cos dec)) by lra. f_equal. pose proof (cs1 dec) as K. rewrite Z in K.
    unfold x, y. rewrite sin_neg, cos_neg. pose proof (cs1 lat) as K1. pose proof (cs1 alt) as K2. pose proof (cs1 az) as K3. nsatz. }
  rewrite H in A1, A2. unfold x in A1. unfold y in A2. rewrite cos_neg in A1. rewrite sin_neg in A2.
  rewrite (site_east ra lst lat), (site_north ra dec lst lat).
  replace (ra - lst) with (- (lst - ra)) by ring. rewrite sin_neg, cos_neg. set (ha := lst - ra) in *. clearbody ha.
  pose proof (cs1 lat) as K1. pose proof (cs1 alt) as K2. pose proof (cs1 az) as K3. pose proof (cs1 dec) as K4.
  split; apply (Rmult_eq_reg_l (cos dec)); try lra.
  - transitivity (cos alt * (cos dec * sin q)); [ring|]. rewrite <- A2. transitivity (- cos lat * (cos alt * sin az)); [ring|]. rewrite <- Es. ring.
  - transitivity (cos alt * (cos dec * cos q)); [ring|]. rewrite <- A1. clear A1 A2 H E Es. nsatz.
Qed.
