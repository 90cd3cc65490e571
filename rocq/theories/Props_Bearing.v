(** C99: bearings, destinations, tangent-plane offsets and distances to an arc. *)
From Coq Require Import List Bool Reals Lra Lia ZArith.
From Verif Require Import Base Angles Sphere Sphere_proofs Props_Sphere.
Import ListNotations.
Open Scope R_scope.

(** The local directions at a point and the point reached by going [s] along the direction [b],
    measured from north through east. *)
Definition northward (ra dec : R) : vec := V (- sin dec * cos ra) (- sin dec * sin ra) (cos dec).
Definition eastward (ra : R) : vec := V (- sin ra) (cos ra) 0.
Definition plus3 (a b c : vec) : vec := V (vx a + vx b + vx c) (vy a + vy b + vy c) (vz a + vz b + vz c).
Definition reached (ra dec b s : R) : vec :=
  plus3 (times (cos s) (pos ra dec)) (times (sin s * cos b) (northward ra dec)) (times (sin s * sin b) (eastward ra)).
Lemma reached_along : forall ra dec b s, reached ra dec b s = along ra dec b s.
Proof. intros. unfold reached, along. rewrite pos_xyz. apply vec_eq; unfold plus3, times, vadd, scale; cbn [vx vy vz]; unfold northward, eastward, north, east; cbn [vx vy vz]; ring. Qed.

(** The second point is reached from the first by going their separation along the bearing. *)
Theorem C99_bearing : forall lon1 lat1 lon2 lat2 s, sep1 lon1 lat1 lon2 lat2 = Some s ->
  - PI < bearing lon1 lat1 lon2 lat2 <= PI /\ reached lon1 lat1 (bearing lon1 lat1 lon2 lat2) s = pos lon2 lat2.
Proof.
  intros lon1 lat1 lon2 lat2 s E. split; [apply atan2_range|].
  rewrite sep1_ang in E. injection E as <-. rewrite reached_along, pos_xyz. symmetry. apply bearing_along.
Qed.
Print Assumptions C99_bearing.
Example C99_bearing_ex : bearing 0 0 (PI / 2) 0 = PI / 2 /\ bearing 0 0 0 1 = 0.
Proof.
  pose proof PI_RGT_0. unfold bearing. split; [apply (atan2_val 1)|apply (atan2_val (sin 1))]; try lra;
    rewrite ?Rminus_0_r, ?sin_PI2, ?cos_PI2, ?cos_0, ?sin_0; try ring. apply sin_gt_0; pose proof PI2_1; lra.
Qed.

(** dest_latlon, away from the poles: the point reached, at that separation and bearing. *)
Theorem C99_dest : forall dist brg lat1 lon1, - (PI / 2) < lat1 < PI / 2 -> exists lat2 lon2,
  dest_latlon dist brg lat1 lon1 = Some (lat2, lon2) /\ - (PI / 2) <= lat2 <= PI / 2 /\
  pos lon2 lat2 = reached lon1 lat1 brg dist /\
  (0 <= dist <= PI -> sep1 lon1 lat1 lon2 lat2 = Some dist) /\
  (0 < dist < PI -> exists k : Z, bearing lon1 lat1 lon2 lat2 = brg + IZR k * (2 * PI)).
Proof.
  intros dist brg lat1 lon1 H. destruct (dest_along dist brg lat1 lon1 H) as (lat2 & lon2 & E & R & A).
  exists lat2, lon2. split; [exact E|]. split; [exact R|]. split; [rewrite pos_xyz, reached_along; exact A|]. split.
  - intros D. rewrite sep1_ang, A. f_equal. now apply along_ang.
  - intros D. exact (bearing_of_along lon1 lat1 lon2 lat2 brg dist D A).
Qed.
Print Assumptions C99_dest.
Example C99_dest_ex : exists lat2 lon2, dest_latlon (PI / 6) (PI / 2) 0 0 = Some (lat2, lon2) /\ lat2 = 0 /\ lon2 = PI / 6.
Proof.
  pose proof PI_RGT_0. unfold dest_latlon. rewrite sin_0, cos_0, cos_PI2, sin_PI2. rewrite np_arcsin_in by lra. cbn [obind].
  do 2 eexists. split; [reflexivity|]. replace (0 * cos (PI / 6) + 1 * sin (PI / 6) * 0) with 0 by ring. split; [apply asin_0|].
  rewrite Rplus_0_l. apply (atan2_val 1); try lra; rewrite ?asin_0, ?sin_0; ring.
Qed.
(** To another point and back to it: its own separation and bearing lead there. *)
Theorem C99_there : forall lon1 lat1 lon2 lat2 s, - (PI / 2) < lat1 < PI / 2 -> sep1 lon1 lat1 lon2 lat2 = Some s ->
  exists lat lon, dest_latlon s (bearing lon1 lat1 lon2 lat2) lat1 lon1 = Some (lat, lon) /\ pos lon lat = pos lon2 lat2 /\
    (- (PI / 2) <= lat2 <= PI / 2 -> lat = lat2).
Proof.
  intros lon1 lat1 lon2 lat2 s H E. destruct (C99_dest s (bearing lon1 lat1 lon2 lat2) lat1 lon1 H) as (lat & lon & D & R & A & _).
  exists lat, lon. split; [exact D|]. rewrite A. destruct (C99_bearing _ _ _ _ _ E) as [_ B]. split; [exact B|].
  intros R2. rewrite B in A. assert (Z : sin lat = sin lat2) by (apply (f_equal vz) in A; exact A).
  rewrite <- (asin_sin lat), <- (asin_sin lat2) by lra. now rewrite Z.
Qed.
Print Assumptions C99_there.
Example C99_there_ex : - (PI / 2) < -1/2 < PI / 2 /\ exists s, sep1 0 (-1/2) 1 (1/3) = Some s.
Proof. pose proof PI2_1. split; [lra|]. eexists. apply sep1_ang. Qed.
(** From a pole the bearing is ignored: opposite directions lead to one point. *)
Theorem C99_pole_refuted : exists dist b1 b2 lat1 lon1, lat1 = PI / 2 /\ 0 < dist < PI /\ cos b1 = - cos b2 /\ b1 <> b2 /\
  dest_latlon dist b1 lat1 lon1 = dest_latlon dist b2 lat1 lon1 /\ dest_latlon dist b1 lat1 lon1 <> None.
Proof.
  exists (PI / 3), 0, PI, (PI / 2), 0. pose proof PI_RGT_0. split; [reflexivity|]. split; [lra|]. rewrite cos_0, cos_PI. split; [lra|]. split; [lra|].
  unfold dest_latlon. rewrite cos_PI2, sin_PI2, sin_0, sin_PI, cos_0, cos_PI.
  replace (1 * cos (PI / 3) + 0 * sin (PI / 3) * 1) with (cos (PI / 3)) by ring.
  replace (1 * cos (PI / 3) + 0 * sin (PI / 3) * -1) with (cos (PI / 3)) by ring. split; [reflexivity|].
  rewrite np_arcsin_in by apply COS_bound. discriminate.
Qed.
Print Assumptions C99_pole_refuted.

(** Tangent-plane offsets: (x, y) is x to the east and y to the north on the plane touching the
    sphere at the centre; the two projections undo each other. *)
Theorem C99_tosky : forall x y racen deccen, exists ra dec, gnomonic_tosky x y racen deccen = (ra, dec) /\
  - (PI / 2) <= dec <= PI / 2 /\
  times (sqrt (1 + x * x + y * y)) (pos ra dec) = plus3 (pos racen deccen) (times x (eastward racen)) (times y (northward racen deccen)) /\
  gnomonic_toxy ra dec racen deccen = Some (x, y).
Proof.
  intros x y racen deccen. pose proof (tosky_vec x y racen deccen) as T. pose proof (gno_back_there x y racen deccen) as B.
  destruct (gnomonic_tosky x y racen deccen) as [ra dec]. exists ra, dec. split; [reflexivity|]. destruct T as [R T]. split; [exact R|].
  split; [|apply B]. rewrite !pos_xyz. etransitivity; [exact T|]. apply vec_eq; unfold plus3, vadd, times, scale; cbn [vx vy vz]; unfold eastward, northward, east, north; cbn [vx vy vz]; ring.
Qed.
Print Assumptions C99_tosky.
(** How far an offset moves the pointing: the arctangent of its length, so never more than it. *)
Theorem C99_offset : forall x y racen deccen, let '(ra, dec) := gnomonic_tosky x y racen deccen in
  exists s, sep1 racen deccen ra dec = Some s /\ s < PI / 2 /\ tan s = sqrt (x * x + y * y) /\ s <= sqrt (x * x + y * y).
Proof.
  intros x y racen deccen. pose proof (gno_back_there x y racen deccen) as B. destruct (gnomonic_tosky x y racen deccen) as [ra dec].
  destruct B as [B P]. pose proof PI_RGT_0. eexists. split; [apply sep1_ang|].
  pose proof (cos_ang _ _ (xyz_unit racen deccen) (xyz_unit ra dec)) as C. pose proof (ang_range (xyz_from_ra_dec racen deccen) (xyz_from_ra_dec ra dec)) as A.
  pose proof (gno_tan _ _ _ _ _ _ B) as T. cbv zeta in T. set (s := ang _ _) in *. clearbody s.
  assert (S : s < PI / 2).
  { destruct (Rlt_dec s (PI / 2)); [assumption|exfalso]. assert (cos s <= 0) by (apply cos_le_0; lra). lra. }
  split; [exact S|]. rewrite (T S). split; [reflexivity|].
  destruct (Req_dec s 0) as [->|N]; [rewrite tan_0; lra|]. left.
  assert (CP : 0 < cos s) by (apply cos_gt_0; lra). unfold tan.
  (* s cos s < sin s on (0, pi/2): the derivative of sin s - s cos s is s sin s *)
  assert (G : s * cos s < sin s).
  { pose (f := fun u => sin u - u * cos u).
    assert (D : derivable f) by (unfold f; reg).
    assert (M : exists c, f s - f 0 = derive_pt f c (D c) * (s - 0) /\ 0 < c < s) by (apply MVT_cor1; lra).
    destruct M as (c & M & Hc).
    assert (DV : derive_pt f c (D c) = c * sin c).
    { unfold f in *. rewrite (derive_pt_eq_0 _ _ (c * sin c) (D c)); [reflexivity|].
      replace (c * sin c) with (cos c - (1 * cos c + c * (- sin c))) by ring.
      apply derivable_pt_lim_minus; [apply derivable_pt_lim_sin|].
      apply (derivable_pt_lim_mult id cos); [apply derivable_pt_lim_id|apply derivable_pt_lim_cos]. }
    rewrite DV in M. unfold f in M. rewrite sin_0 in M. assert (0 < sin c) by (apply sin_gt_0; lra).
    assert (0 < c * sin c * (s - 0)) by (repeat apply Rmult_lt_0_compat; lra). lra. }
  apply (Rmult_lt_reg_r (cos s)); [exact CP|]. replace (sin s / cos s * cos s) with (sin s) by (field; lra). exact G.
Qed.
Print Assumptions C99_offset.
(** From the sky to the plane and back, for points less than 90 degrees from the centre. *)
Theorem C99_toxy : forall ra1 dec1 racen deccen s, sep1 racen deccen ra1 dec1 = Some s -> s < PI / 2 ->
  exists x y, gnomonic_toxy ra1 dec1 racen deccen = Some (x, y) /\ sqrt (x * x + y * y) = tan s /\
    let '(ra, dec) := gnomonic_tosky x y racen deccen in pos ra dec = pos ra1 dec1 /\ (- (PI / 2) <= dec1 <= PI / 2 -> dec = dec1).
Proof.
  intros ra1 dec1 racen deccen s E S. rewrite sep1_ang in E. injection E as E. pose proof PI_RGT_0.
  pose proof (ang_range (xyz_from_ra_dec racen deccen) (xyz_from_ra_dec ra1 dec1)) as A. rewrite E in A.
  pose proof (cos_ang _ _ (xyz_unit racen deccen) (xyz_unit ra1 dec1)) as C. rewrite E in C.
  assert (CP : 0 < cos s) by (apply cos_gt_0; lra).
  destruct (gno_there_back ra1 dec1 racen deccen ltac:(cbv zeta; lra)) as (x & y & X & T).
  exists x, y. split; [exact X|]. split; [rewrite <- E in S |- *; exact (gno_tan _ _ _ _ _ _ X S)|].
  destruct (gnomonic_tosky x y racen deccen) as [ra dec]. destruct T as [R T].
  destruct (Rlt_dec 0 (dot (xyz_from_ra_dec racen deccen) (xyz_from_ra_dec ra1 dec1))); [|lra].
  assert (P : pos ra dec = pos ra1 dec1) by (rewrite !pos_xyz, T; apply vec_eq; unfold scale; cbn [vx vy vz]; ring).
  split; [exact P|]. intros R1. assert (Z : sin dec = sin dec1) by (apply (f_equal vz) in P; exact P).
  rewrite <- (asin_sin dec), <- (asin_sin dec1) by lra. now rewrite Z.
Qed.
Print Assumptions C99_toxy.
Example C99_toxy_ex : gnomonic_toxy (PI / 4) 0 0 0 = Some (1, 0).
Proof.
  unfold gnomonic_toxy. rewrite sin_0, cos_0, Rminus_0_r, cos_PI4, sin_PI4.
  assert (H : 0 < 1 / sqrt 2) by (apply Rdiv_lt_0_compat; [lra|apply sqrt_lt_R0; lra]).
  set (q := 1 / sqrt 2) in *. clearbody q. cbv zeta. destruct (Req_EM_T _ 0) as [Q|Q]; [lra|]. f_equal. f_equal; field; try lra.
Qed.
(** A point on the far side is taken for its opposite. *)
Theorem C99_far_refuted : exists ra1 dec1 racen deccen x y, gnomonic_toxy ra1 dec1 racen deccen = Some (x, y) /\
  let '(ra, dec) := gnomonic_tosky x y racen deccen in pos ra dec = times (-1) (pos ra1 dec1).
Proof.
  assert (C : dot (xyz_from_ra_dec 0 0) (xyz_from_ra_dec PI 0) = -1).
  { unfold dot. simpl. rewrite cos_0, sin_0, cos_PI, sin_PI. ring. }
  exists PI, 0, 0, 0. destruct (gno_there_back PI 0 0 0 ltac:(cbv zeta; lra)) as (x & y & X & T). exists x, y. split; [exact X|].
  destruct (gnomonic_tosky x y 0 0) as [ra dec]. destruct T as [_ T]. destruct (Rlt_dec 0 _) as [Q|Q]; [lra|].
  rewrite !pos_xyz. exact T.
Qed.
Print Assumptions C99_far_refuted.

(** The shorter arc between two points that are not opposite: the unit vectors between them. *)
Definition between (p q v : vec) : Prop :=
  inner v v = 1 /\ exists a b, 0 <= a /\ 0 <= b /\ v = plus3 (times a p) (times b q) (V 0 0 0).
Lemma between_arc : forall p q v, between p q v <-> on_arc p q v.
Proof.
  intros p q v. unfold between, on_arc. split; intros (U & a & b & A & B & E); (split; [exact U|]); exists a, b; (split; [exact A|]); (split; [exact B|]);
    rewrite E; apply vec_eq; unfold plus3, times, vadd, scale; cbn [vx vy vz]; ring.
Qed.
(** point_to_line_distance is the least separation from a point of the arc, when the third point
    is within 90 degrees of the first, or when the angle at the first is not obtuse. *)
Theorem C99_arc : forall lon1 lat1 lon2 lat2 lon3 lat3 s12 s13 s23,
  sep1 lon1 lat1 lon2 lat2 = Some s12 -> sep1 lon1 lat1 lon3 lat3 = Some s13 -> sep1 lon2 lat2 lon3 lat3 = Some s23 ->
  s12 < PI -> (s13 <= PI / 2 \/ (s13 < PI /\ 0 < s12 /\ cos s12 * cos s13 <= cos s23)) ->
  exists r, point_to_line_distance lon1 lat1 lon2 lat2 lon3 lat3 = Some r /\
    (forall v, between (pos lon1 lat1) (pos lon2 lat2) v -> r <= acos (inner v (pos lon3 lat3))) /\
    (exists v, between (pos lon1 lat1) (pos lon2 lat2) v /\ acos (inner v (pos lon3 lat3)) = r).
Proof.
  intros lon1 lat1 lon2 lat2 lon3 lat3 s12 s13 s23 E1 E2 E3 H G. rewrite sep1_ang in E1, E2, E3. injection E1 as <-. injection E2 as <-. injection E3 as <-.
  rewrite !cos_ang in G by apply xyz_unit. rewrite !pos_xyz.
  destruct (line_distance lon1 lat1 lon2 lat2 lon3 lat3 H G) as (r & E & A & q & Q & B). exists r. split; [exact E|]. split.
  - intros v V. apply A. now apply between_arc.
  - exists q. split; [now apply between_arc|exact B].
Qed.
Print Assumptions C99_arc.
Example C99_arc_ex : sep1 0 0 (PI / 2) 0 = Some (PI / 2) /\ sep1 0 0 (PI / 4) (PI / 6) <> None /\
  (exists s, sep1 0 0 (PI / 4) (PI / 6) = Some s /\ s <= PI / 2).
Proof.
  pose proof PI_RGT_0. split; [|split].
  - rewrite sep1_ang. f_equal. apply ang_val; [lra|]. unfold dot; simpl. rewrite cos_0, sin_0, cos_PI2, sin_PI2. ring.
  - rewrite sep1_ang. discriminate.
  - eexists. split; [apply sep1_ang|]. pose proof (cos_ang _ _ (xyz_unit 0 0) (xyz_unit (PI / 4) (PI / 6))) as C.
    pose proof (ang_range (xyz_from_ra_dec 0 0) (xyz_from_ra_dec (PI / 4) (PI / 6))). set (s := ang _ _) in *.
    destruct (Rle_dec s (PI / 2)); [assumption|exfalso]. assert (cos s < 0) by (apply cos_lt_0; lra).
    unfold dot in C. simpl in C. rewrite cos_0, sin_0 in C.
    assert (0 < cos (PI / 4)) by (apply cos_gt_0; lra). assert (0 < cos (PI / 6)) by (apply cos_gt_0; lra). nra.
Qed.
(** Further away it is not: here the end of the arc is 120 degrees off and the answer is 150. *)
Theorem C99_arc_refuted : exists lon1 lat1 lon2 lat2 lon3 lat3 r s,
  sep1 lon1 lat1 lon2 lat2 = Some (PI / 2) /\ point_to_line_distance lon1 lat1 lon2 lat2 lon3 lat3 = Some r /\
  sep1 lon2 lat2 lon3 lat3 = Some s /\ s < r.
Proof.
  pose proof PI_RGT_0 as P. exists 0, 0, (PI / 2), 0, (- (5 * (PI / 6))), 0, (5 * (PI / 6)), (2 * (PI / 3)).
  assert (C6 : cos (5 * (PI / 6)) = - cos (PI / 6)) by (replace (5 * (PI / 6)) with (PI - PI / 6) by field; apply Rtrigo_facts.cos_pi_minus).
  assert (S6 : sin (5 * (PI / 6)) = sin (PI / 6)) by (replace (5 * (PI / 6)) with (PI - PI / 6) by field; apply Rtrigo_facts.sin_pi_minus).
  split; [apply C99_arc_ex|]. split; [|split; [|lra]].
  - unfold point_to_line_distance.
    assert (E13 : sep1 0 0 (- (5 * (PI / 6))) 0 = Some (5 * (PI / 6))).
    { rewrite sep1_ang. f_equal. apply ang_val; [lra|]. unfold dot; simpl. rewrite cos_0, sin_0, cos_neg. ring. }
    rewrite E13. cbn [obind].
    assert (B2 : bearing 0 0 (PI / 2) 0 = PI / 2) by apply C99_bearing_ex.
    assert (B3 : bearing 0 0 (- (5 * (PI / 6))) 0 = - (PI / 2)).
    { unfold bearing. apply (atan2_val (sin (PI / 6))); try lra; rewrite ?Rminus_0_r, ?cos_neg, ?sin_neg, ?cos_0, ?sin_0, ?cos_PI2, ?sin_PI2, ?S6; try ring.
      apply sin_gt_0; lra. }
    rewrite B2, B3. replace (- (PI / 2) - PI / 2) with (- PI) by field. rewrite Rabs_Ropp, Rabs_pos_eq by lra.
    destruct (Rlt_dec PI PI); [lra|]. destruct (Rlt_dec (PI / 2) PI); [reflexivity|lra].
  - rewrite sep1_ang. f_equal. apply ang_val; [lra|]. unfold dot; simpl. rewrite cos_0, sin_0, cos_PI2, sin_PI2, sin_neg, S6.
    replace (2 * (PI / 3)) with (PI - PI / 3) by field. rewrite Rtrigo_facts.cos_pi_minus, sin_PI6, cos_PI3. ring.
Qed.
Print Assumptions C99_arc_refuted.
