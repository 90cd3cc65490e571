(** C138: ordering positions on the sky. *)
From Coq Require Import List Reals ZArith QArith Lia Lra Permutation Bool.
From Verif Require Import Base IntRounded Angles Sphere Sphere_proofs Tsp Tsp_proofs Props_Tsp OrderSky.
Import ListNotations.
Open Scope R_scope.

(** ** The plane and the sky *)

(** Two points of the sphere seen from a third: how far they are, on the plane and
    on the sky. *)
Lemma plane_sq : forall c1 e1 n1 c2 e2 n2 s, c1 * c1 + n1 * n1 + e1 * e1 = 1 -> c2 * c2 + n2 * n2 + e2 * e2 = 1 ->
  s = c1 * c2 + n1 * n2 + e1 * e2 -> 0 < c1 -> 0 < c2 ->
  let d := (e2 / c2 - e1 / c1) * (e2 / c2 - e1 / c1) + (n2 / c2 - n1 / c1) * (n2 / c2 - n1 / c1) in
  d * ((c1 * c2) * (c1 * c2)) = (c1 - c2) * (c1 - c2) + 2 * (c1 * c2) * (1 - s).
Proof.
  intros c1 e1 n1 c2 e2 n2 s H1 H2 -> P1 P2 d.
  assert (E : d * (c1 * c2 * (c1 * c2)) = (e2 * c1 - e1 * c2) * (e2 * c1 - e1 * c2) + (n2 * c1 - n1 * c2) * (n2 * c1 - n1 * c2)) by (unfold d; field; lra).
  rewrite E. assert (A1 : e1 * e1 = 1 - c1 * c1 - n1 * n1) by lra. assert (A2 : e2 * e2 = 1 - c2 * c2 - n2 * n2) by lra.
  replace ((e2 * c1 - e1 * c2) * (e2 * c1 - e1 * c2)) with (c1 * c1 * (e2 * e2) + c2 * c2 * (e1 * e1) - 2 * (c1 * c2) * (e1 * e2)) by ring.
  rewrite A1, A2. ring.
Qed.
Lemma one_side : forall c e n, c * c + n * n + e * e = 1 -> c <= 1.
Proof. intros c e n H. destruct (Rle_dec c 1); [assumption|]. exfalso. nra. Qed.
Lemma prod_le_1 : forall a b, 0 < a <= 1 -> 0 < b <= 1 -> 0 < a * b <= 1.
Proof. intros a b A B. split; [apply Rmult_lt_0_compat; lra|]. replace 1 with (1 * 1) by ring. apply Rmult_le_compat; lra. Qed.

Definition point (lon lat : R) : vec := xyz_from_ra_dec lon lat.
(** A leg on the plane is at least the straight line through the sphere, and in a
    field of radius r hardly more. *)
Lemma leg : forall ra dec lon1 lat1 lon2 lat2 a b k,
  gnomonic_toxy lon1 lat1 ra dec = Some a -> gnomonic_toxy lon2 lat2 ra dec = Some b -> 0 < k ->
  k <= dot (point ra dec) (point lon1 lat1) -> k <= dot (point ra dec) (point lon2 lat2) ->
  let d := plane a b in let s := dot (point lon1 lat1) (point lon2 lat2) in
  2 * (1 - s) <= d * d /\ d * d <= 2 * (1 - s) * (2 * (1 - k) / (k * k * (k * k)) + 1 / (k * k)).
Proof.
  intros ra dec lon1 lat1 lon2 lat2 a b k Ha Hb Hk K1 K2 d s. unfold point in *.
  pose proof (toxy_eq lon1 lat1 ra dec) as T1. pose proof (toxy_eq lon2 lat2 ra dec) as T2. cbv zeta in T1, T2.
  rewrite Ha in T1. rewrite Hb in T2.
  set (c1 := dot (xyz_from_ra_dec ra dec) (xyz_from_ra_dec lon1 lat1)) in *. set (c2 := dot (xyz_from_ra_dec ra dec) (xyz_from_ra_dec lon2 lat2)) in *.
  specialize (T1 ltac:(lra)). specialize (T2 ltac:(lra)). injection T1 as T1. injection T2 as T2.
  pose proof (frame_sq ra dec _ (xyz_unit lon1 lat1)) as F1. pose proof (frame_sq ra dec _ (xyz_unit lon2 lat2)) as F2. cbv zeta in F1, F2. fold c1 in F1. fold c2 in F2.
  assert (S0 : s = c1 * c2 + dot (xyz_from_ra_dec lon1 lat1) (north ra dec) * dot (xyz_from_ra_dec lon2 lat2) (north ra dec) + dot (xyz_from_ra_dec lon1 lat1) (east ra) * dot (xyz_from_ra_dec lon2 lat2) (east ra)).
  { unfold s. rewrite (frame_span ra dec (xyz_from_ra_dec lon2 lat2)) at 1. rewrite !dot_add_r, !dot_scale_r.
    rewrite (dot_comm (xyz_from_ra_dec lon2 lat2) (xyz_from_ra_dec ra dec)), (dot_comm (xyz_from_ra_dec lon1 lat1) (xyz_from_ra_dec ra dec)). fold c1 c2. ring. }
  pose proof (unit_dot_bound _ _ (xyz_unit lon1 lat1) (xyz_unit lon2 lat2)) as SB. fold s in SB.
  set (n1 := dot (xyz_from_ra_dec lon1 lat1) (north ra dec)) in *. set (n2 := dot (xyz_from_ra_dec lon2 lat2) (north ra dec)) in *.
  set (e1 := dot (xyz_from_ra_dec lon1 lat1) (east ra)) in *. set (e2 := dot (xyz_from_ra_dec lon2 lat2) (east ra)) in *.
  assert (DD : d * d = (e2 / c2 - e1 / c1) * (e2 / c2 - e1 / c1) + (n2 / c2 - n1 / c1) * (n2 / c2 - n1 / c1)).
  { unfold d, plane. rewrite T1, T2. cbn [fst snd]. apply sqrt_sqrt. apply hyp_nonneg. }
  pose proof (plane_sq c1 e1 n1 c2 e2 n2 s F1 F2 S0 ltac:(lra) ltac:(lra)) as PS. cbv zeta in PS. rewrite <- DD in PS.
  clearbody d s c1 c2 n1 n2 e1 e2. clear DD Ha Hb T1 T2.
  pose proof (one_side _ _ _ F1) as O1. pose proof (one_side _ _ _ F2) as O2.
  pose proof (prod_le_1 c1 c2 ltac:(lra) ltac:(lra)) as KK. set (K := c1 * c2) in *.
  assert (KKp : 0 < K * K) by nra.
  split.
  - apply (Rmult_le_reg_r (K * K)); [exact KKp|]. rewrite PS. pose proof (Rle_0_sqr (c1 - c2)) as Sq. unfold Rsqr in Sq.
    assert (0 <= K * (1 - K) * (1 - s)) by (apply Rmult_le_pos; [apply Rmult_le_pos; lra|lra]). nra.
  - (* the difference of the cosines *)
    assert (CD : (c1 - c2) * (c1 - c2) <= 2 * (1 - s) * (2 * (1 - k))).
    { pose proof (cauchy (V (c1 - c2) (e1 - e2) (n1 - n2)) (V (1 - (c1 + c2) / 2) (- (e1 + e2) / 2) (- (n1 + n2) / 2))) as C. unfold dot in C. cbn [vx vy vz] in C.
      replace ((c1 - c2) * (1 - (c1 + c2) / 2) + (e1 - e2) * (- (e1 + e2) / 2) + (n1 - n2) * (- (n1 + n2) / 2)) with
        ((c1 - c2) - (c1 * c1 + n1 * n1 + e1 * e1) / 2 + (c2 * c2 + n2 * n2 + e2 * e2) / 2) in C by field.
      rewrite F1, F2 in C.
      replace ((c1 - c2) * (c1 - c2) + (e1 - e2) * (e1 - e2) + (n1 - n2) * (n1 - n2)) with
        ((c1 * c1 + n1 * n1 + e1 * e1) + (c2 * c2 + n2 * n2 + e2 * e2) - 2 * (K + n1 * n2 + e1 * e2)) in C by (unfold K; ring).
      replace ((1 - (c1 + c2) / 2) * (1 - (c1 + c2) / 2) + - (e1 + e2) / 2 * (- (e1 + e2) / 2) + - (n1 + n2) / 2 * (- (n1 + n2) / 2)) with
        (1 - (c1 + c2) + ((c1 * c1 + n1 * n1 + e1 * e1) + (c2 * c2 + n2 * n2 + e2 * e2) + 2 * (K + n1 * n2 + e1 * e2)) / 4) in C by (unfold K; field).
      rewrite F1, F2, <- S0 in C.
      replace (c1 - c2 - 1 / 2 + 1 / 2) with (c1 - c2) in C by field.
      eapply Rle_trans; [exact C|]. replace (1 + 1 - 2 * s) with (2 * (1 - s)) by ring. apply Rmult_le_compat_l; lra. }
    assert (kK : k * k <= K) by (unfold K; apply Rmult_le_compat; lra).
    assert (kk : 0 < k * k) by nra.
    apply (Rmult_le_reg_r (K * K)); [exact KKp|]. rewrite PS.
    apply Rle_trans with (2 * (1 - s) * (2 * (1 - k)) + 2 * (1 - s) * K); [lra|].
    replace (2 * (1 - s) * (2 * (1 - k) / (k * k * (k * k)) + 1 / (k * k)) * (K * K)) with
      (2 * (1 - s) * ((2 * (1 - k)) * ((K / (k * k)) * (K / (k * k))) + K * (K / (k * k)))) by (field; lra).
    assert (Q : 1 <= K / (k * k)). { apply (Rmult_le_reg_r (k * k)); [exact kk|]. unfold Rdiv. rewrite Rmult_assoc, Rinv_l by lra. lra. }
    set (q := K / (k * k)) in *. clearbody q.
    assert (kle : k <= 1) by lra.
    assert (B1 : 2 * (1 - k) <= 2 * (1 - k) * (q * q)). { rewrite <- (Rmult_1_r (2 * (1 - k))) at 1. apply Rmult_le_compat_l; [lra|nra]. }
    assert (B2 : K <= K * q). { rewrite <- (Rmult_1_r K) at 1. apply Rmult_le_compat_l; lra. }
    assert (B0 : 0 <= 2 * (1 - s)) by lra.
    replace (2 * (1 - s) * (2 * (1 - k)) + 2 * (1 - s) * K) with (2 * (1 - s) * (2 * (1 - k) + K)) by ring.
    apply Rmult_le_compat_l; [exact B0|lra].
Qed.

Lemma chord_half : forall s, 0 <= s <= PI -> 2 * (1 - cos s) = (2 * sin (s / 2)) * (2 * sin (s / 2)) /\ 0 <= 2 * sin (s / 2).
Proof.
  intros s H. pose proof (hav s) as E. assert (0 <= sin (s / 2)) by (apply sin_ge_0; pose proof PI_RGT_0; lra). split; [|lra].
  replace (sin (s / 2) ^ 2) with (sin (s / 2) * sin (s / 2)) in E by ring. lra.
Qed.
Lemma sq_le : forall x y, 0 <= y -> x * x <= y * y -> x <= y.
Proof. intros x y H L. destruct (Rle_dec x y); [assumption|]. exfalso. nra. Qed.

(** The length of a leg on the plane, for two positions at separation s, both within
    r of the centre. *)
Definition stretch (r : R) : R := sqrt (2 * (1 - cos r) / (cos r * cos r * (cos r * cos r)) + 1 / (cos r * cos r)).
Theorem C138_legs : forall ra dec lon1 lat1 lon2 lat2 a b r s s1 s2,
  gnomonic_toxy lon1 lat1 ra dec = Some a -> gnomonic_toxy lon2 lat2 ra dec = Some b ->
  sep1 ra dec lon1 lat1 = Some s1 -> sep1 ra dec lon2 lat2 = Some s2 -> sep1 lon1 lat1 lon2 lat2 = Some s ->
  s1 <= r -> s2 <= r -> r < PI / 2 ->
  2 * sin (s / 2) <= plane a b <= 2 * sin (s / 2) * stretch r.
Proof.
  intros ra dec lon1 lat1 lon2 lat2 a b r s s1 s2 Ha Hb S1 S2 S3 L1 L2 Lr.
  rewrite sep1_ang in S1, S2, S3. injection S1 as S1. injection S2 as S2. injection S3 as S3.
  pose proof (ang_range (xyz_from_ra_dec ra dec) (xyz_from_ra_dec lon1 lat1)) as R1.
  pose proof (ang_range (xyz_from_ra_dec ra dec) (xyz_from_ra_dec lon2 lat2)) as R2.
  pose proof (ang_range (xyz_from_ra_dec lon1 lat1) (xyz_from_ra_dec lon2 lat2)) as R3. rewrite S1 in R1. rewrite S2 in R2. rewrite S3 in R3.
  assert (Kr : 0 < cos r) by (apply cos_gt_0; lra).
  assert (K1 : cos r <= dot (point ra dec) (point lon1 lat1)). { unfold point. rewrite <- (cos_ang _ _ (xyz_unit ra dec) (xyz_unit lon1 lat1)), S1. apply cos_decr_1; lra. }
  assert (K2 : cos r <= dot (point ra dec) (point lon2 lat2)). { unfold point. rewrite <- (cos_ang _ _ (xyz_unit ra dec) (xyz_unit lon2 lat2)), S2. apply cos_decr_1; lra. }
  destruct (leg ra dec lon1 lat1 lon2 lat2 a b (cos r) Ha Hb Kr K1 K2) as [A B]. unfold point in A, B.
  rewrite <- (cos_ang _ _ (xyz_unit lon1 lat1) (xyz_unit lon2 lat2)), S3 in A, B.
  destruct (chord_half s R3) as [E P]. rewrite E in A, B.
  assert (Dp : 0 <= plane a b) by apply sqrt_pos. split; [apply sq_le; assumption|].
  assert (St : 0 <= stretch r) by apply sqrt_pos.
  apply sq_le; [apply Rmult_le_pos; assumption|].
  replace (2 * sin (s / 2) * stretch r * (2 * sin (s / 2) * stretch r)) with (2 * sin (s / 2) * (2 * sin (s / 2)) * (stretch r * stretch r)) by ring.
  unfold stretch. rewrite sqrt_sqrt; [exact B|].
  assert (0 < cos r * cos r) by nra. assert (0 < cos r * cos r * (cos r * cos r)) by nra. pose proof (COS_bound r).
  apply Rplus_le_le_0_compat; apply Rmult_le_pos; try lra; apply Rlt_le, Rinv_0_lt_compat; assumption.
Qed.
(** In the limit the plane is the sky. *)
Theorem C138_stretch : stretch 0 = 1 /\ forall r, 0 <= r < PI / 2 -> 1 <= stretch r.
Proof.
  split.
  - unfold stretch. rewrite cos_0. replace (2 * (1 - 1) / (1 * 1 * (1 * 1)) + 1 / (1 * 1)) with 1 by field. apply sqrt_1.
  - intros r H. unfold stretch. rewrite <- sqrt_1 at 1. apply sqrt_le_1_alt.
    assert (C : 0 < cos r) by (apply cos_gt_0; lra). pose proof (COS_bound r) as B.
    assert (P2 : 0 < cos r * cos r <= 1) by (apply prod_le_1; lra). assert (P4 : 0 < cos r * cos r * (cos r * cos r)) by nra.
    assert (0 <= 2 * (1 - cos r) / (cos r * cos r * (cos r * cos r))) by (apply Rmult_le_pos; [lra|apply Rlt_le, Rinv_0_lt_compat; exact P4]).
    assert (1 <= 1 / (cos r * cos r)). { apply (Rmult_le_reg_r (cos r * cos r)); [lra|]. replace (1 / (cos r * cos r) * (cos r * cos r)) with 1 by (field; lra). lra. }
    lra.
Qed.

(** Refuted: places apart on the sky are apart on the plane.  Opposite positions are
    the same town. *)
Theorem C138_opposite_refuted : forall ra dec lon lat a b, gnomonic_toxy lon lat ra dec = Some a -> gnomonic_toxy (lon + PI) (- lat) ra dec = Some b ->
  sep1 lon lat (lon + PI) (- lat) = Some PI /\ plane a b = 0.
Proof.
  intros ra dec lon lat a b Ha Hb. split.
  - rewrite sep1_ang. f_equal. apply ang_val; [pose proof PI_RGT_0; lra|]. rewrite cos_PI.
    unfold dot, xyz_from_ra_dec. cbn [vx vy vz]. rewrite neg_cos, neg_sin, cos_neg, sin_neg. pose proof (cs1 lon). pose proof (cs1 lat). nra.
  - unfold gnomonic_toxy in *. replace (lon + PI - ra) with ((lon - ra) + PI) in Hb by ring.
    rewrite neg_cos, neg_sin, cos_neg, sin_neg in Hb.
    set (c := sin dec * sin lat + cos dec * cos lat * cos (lon - ra)) in Ha.
    replace (sin dec * - sin lat + cos dec * cos lat * - cos (lon - ra)) with (- c) in Hb by (unfold c; ring).
    destruct (Req_EM_T c 0) as [Z1|Z1]; [discriminate|]. destruct (Req_EM_T (- c) 0) as [Z2|Z2]; [discriminate|].
    injection Ha as <-. injection Hb as <-. unfold plane. cbn [fst snd].
    match goal with |- sqrt (?x * ?x + ?y * ?y) = 0 => replace x with 0 by (field; lra); replace y with 0 by (field; lra) end.
    rewrite Rmult_0_l, Rplus_0_r. apply sqrt_0.
Qed.

(** ** The centre *)
Section P.
Variable fl : R -> Q.
Variable qhull : list (R * R) -> option (list nat).

Definition mx (az : list R) := mean (map cos az).
Definition my (az : list R) := mean (map sin az).
Definition radius (az : list R) := sqrt (mx az * mx az + my az * my az).
(** The azimuths have a mean to speak of. *)
Definition clear_mean (az : list R) : Prop := 0 < radius az /\ ir_less (fl (radius az)) (fl (1 / 10)) = false.

(** It is the direction of the mean of the unit vectors. *)
Theorem C138_mean : forall az, clear_mean az -> let m := mean_azimuth fl az in
  0 <= m < 2 * PI /\ mean (map cos az) = radius az * cos m /\ mean (map sin az) = radius az * sin m.
Proof.
  intros az [P C] m. unfold m, mean_azimuth. fold (mx az) (my az) (radius az). rewrite C. pose proof PI_RGT_0.
  split; [apply Rmod_range; lra|]. destruct (atan2_spec (my az) (mx az)) as [E1 E2]. fold (radius az) in E1, E2.
  pose proof (Rmod_congr (atan2 (my az) (mx az)) (2 * PI)) as K.
  rewrite (cos_congr _ _ K), (sin_congr _ _ K). split; assumption.
Qed.
Lemma direction : forall r a b, 0 < r -> r * cos a = r * cos b -> r * sin a = r * sin b -> congr (2 * PI) a b.
Proof. intros r a b P C S0. apply angle_congr; [apply (Rmult_eq_reg_l r)|apply (Rmult_eq_reg_l r)]; lra. Qed.

Lemma mean_lin : forall (f g h : R -> R) p q l, (forall x, h x = p * f x + q * g x) -> mean (map h l) = p * mean (map f l) + q * mean (map g l).
Proof.
  intros f g h p q l E. unfold mean. rewrite !map_length.
  assert (S0 : fold_right Rplus 0 (map h l) = p * fold_right Rplus 0 (map f l) + q * fold_right Rplus 0 (map g l)).
  { induction l as [|x l IH]; cbn [map fold_right]; [ring|]. rewrite IH, E. ring. }
  rewrite S0. unfold Rdiv. ring.
Qed.
Lemma mx_turn : forall d az, mx (map (fun x => x + d) az) = cos d * mx az + - sin d * my az.
Proof. intros. unfold mx, my. rewrite map_map. apply mean_lin. intros x. rewrite cos_plus. ring. Qed.
Lemma my_turn : forall d az, my (map (fun x => x + d) az) = sin d * mx az + cos d * my az.
Proof. intros. unfold mx, my. rewrite map_map. apply mean_lin. intros x. rewrite sin_plus. ring. Qed.
Lemma radius_turn : forall d az, radius (map (fun x => x + d) az) = radius az.
Proof.
  intros. unfold radius. f_equal. rewrite mx_turn, my_turn. pose proof (cs1 d) as E. set (c := cos d) in *. set (s := sin d) in *. clearbody c s.
  replace ((c * mx az + - s * my az) * (c * mx az + - s * my az) + (s * mx az + c * my az) * (s * mx az + c * my az)) with ((c * c + s * s) * (mx az * mx az + my az * my az)) by ring.
  rewrite E. ring.
Qed.
(** Turning the sky turns the mean. *)
Theorem C138_mean_turn : forall d az, clear_mean az -> congr (2 * PI) (mean_azimuth fl (map (fun x => x + d) az)) (mean_azimuth fl az + d).
Proof.
  intros d az C. pose proof C as [P N]. assert (C' : clear_mean (map (fun x => x + d) az)) by (split; rewrite radius_turn; assumption).
  destruct (C138_mean az C) as (_ & A1 & A2). destruct (C138_mean _ C') as (_ & B1 & B2). rewrite radius_turn in B1, B2.
  fold (mx az) in A1. fold (my az) in A2. change (mean (map cos (map (fun x => x + d) az))) with (mx (map (fun x => x + d) az)) in B1. change (mean (map sin (map (fun x => x + d) az))) with (my (map (fun x => x + d) az)) in B2.
  rewrite mx_turn in B1. rewrite my_turn in B2. rewrite A1, A2 in B1, B2.
  apply (direction (radius az)); [exact P| |].
  - rewrite <- B1, cos_plus. ring.
  - rewrite <- B2, sin_plus. ring.
Qed.
(** Whole turns make no difference. *)
Lemma f2_length : forall (A B : Type) (P : A -> B -> Prop) l m, Forall2 P l m -> List.length l = List.length m.
Proof. intros A B P l m F. induction F; cbn; congruence. Qed.
Lemma mean_ext : forall (f g : R -> R) l m, Forall2 (fun x y => f x = g y) l m -> mean (map f l) = mean (map g m).
Proof.
  intros f g l m F. unfold mean. rewrite !map_length. assert (L : List.length l = List.length m) by (apply f2_length in F; exact F). rewrite L. f_equal.
  clear L. induction F; cbn [map fold_right]; [reflexivity|]. now rewrite H, IHF.
Qed.
Lemma mean_wrap : forall l m, Forall2 (congr (2 * PI)) l m -> mean_azimuth fl l = mean_azimuth fl m.
Proof.
  intros l m F. unfold mean_azimuth. rewrite (mean_ext cos cos l m), (mean_ext sin sin l m); [reflexivity| |].
  - clear - F. induction F; constructor; [now apply sin_congr|assumption].
  - clear - F. induction F; constructor; [now apply cos_congr|assumption].
Qed.
(** Azimuths within d of a, less than a quarter turn: so is their mean. *)
Theorem C138_mean_arc : forall az a d, clear_mean az -> az <> [] -> 0 <= d < PI / 2 -> (forall x, In x az -> exists t, congr (2 * PI) x (a + t) /\ - d <= t <= d) ->
  exists t, congr (2 * PI) (mean_azimuth fl az) (a + t) /\ - d <= t <= d.
Proof.
  intros az a d C Ne Hd H. pose proof PI_RGT_0 as PI0.
  pose proof (C138_mean_turn (- a) az C) as T. pose proof C as [P N].
  assert (C' : clear_mean (map (fun x => x + - a) az)) by (split; rewrite radius_turn; assumption).
  destruct (C138_mean _ C') as (_ & B1 & B2). rewrite radius_turn in B1, B2. set (l := map (fun x => x + - a) az) in *. set (m := mean_azimuth fl l) in *.
  assert (Hl : forall x, In x l -> 0 < cos x /\ - (sin d * cos x) <= cos d * sin x <= sin d * cos x).
  { intros x I. apply in_map_iff in I as (y & <- & I). destruct (H y I) as (t & K & Ht).
    assert (K' : congr (2 * PI) (y + - a) t). { destruct K as (k & K). exists k. rewrite K. ring. }
    rewrite (cos_congr _ _ K'), (sin_congr _ _ K'). split; [apply cos_gt_0; lra|].
    assert (S1 : 0 <= sin (d - t)) by (apply sin_ge_0; lra). assert (S2 : 0 <= sin (d + t)) by (apply sin_ge_0; lra).
    rewrite sin_minus in S1. rewrite sin_plus in S2. lra. }
  assert (L0 : l <> []) by (unfold l; destruct az; [congruence|discriminate]).
  assert (Lp : 0 < INR (List.length l)) by (apply lt_0_INR; destruct l; [congruence|cbn; lia]).
  assert (G : 0 < fold_right Rplus 0 (map cos l) /\ - (sin d * fold_right Rplus 0 (map cos l)) <= cos d * fold_right Rplus 0 (map sin l) <= sin d * fold_right Rplus 0 (map cos l)).
  { clear - Hl L0. assert (W : forall k, (forall x, In x k -> 0 < cos x /\ - (sin d * cos x) <= cos d * sin x <= sin d * cos x) ->
      0 <= fold_right Rplus 0 (map cos k) /\ - (sin d * fold_right Rplus 0 (map cos k)) <= cos d * fold_right Rplus 0 (map sin k) <= sin d * fold_right Rplus 0 (map cos k)).
    { induction k as [|x k IH]; intros Hk; cbn [map fold_right]; [lra|]. destruct (Hk x (or_introl eq_refl)). destruct IH; [intros; apply Hk; now right|]. nra. }
    destruct l as [|x l]; [congruence|]. destruct (W l) as [W1 W2]; [intros; apply Hl; now right|]. destruct (Hl x (or_introl eq_refl)) as [X1 X2]. cbn [map fold_right]. nra. }
  assert (Mc : mean (map cos l) = fold_right Rplus 0 (map cos l) / INR (List.length l)) by (unfold mean; now rewrite map_length).
  assert (Ms : mean (map sin l) = fold_right Rplus 0 (map sin l) / INR (List.length l)) by (unfold mean; now rewrite map_length).
  rewrite Mc in B1. rewrite Ms in B2.
  assert (X1 : fold_right Rplus 0 (map cos l) = INR (List.length l) * radius az * cos m) by (rewrite Rmult_assoc, <- B1; field; lra).
  assert (X2 : fold_right Rplus 0 (map sin l) = INR (List.length l) * radius az * sin m) by (rewrite Rmult_assoc, <- B2; field; lra).
  assert (Q : 0 < INR (List.length l) * radius az) by (apply Rmult_lt_0_compat; assumption). set (q := INR (List.length l) * radius az) in *.
  rewrite X1, X2 in G. destruct G as [G1 [G2 G3]].
  assert (Cm : 0 < cos m). { apply (Rmult_lt_reg_l q); [exact Q|]. lra. }
  assert (D1 : cos d * sin m <= sin d * cos m). { apply (Rmult_le_reg_l q); [exact Q|]. lra. }
  assert (D2 : - (sin d * cos m) <= cos d * sin m). { apply (Rmult_le_reg_l q); [exact Q|]. lra. }
  (* the representative of m in (-pi, pi] *)
  set (t := atan2 (sin m) (cos m)).
  assert (Kt : congr (2 * PI) t m). { unfold t. pose proof (atan2_polar 1 m ltac:(lra)) as A. now rewrite !Rmult_1_l in A. }
  assert (Rt : - PI < t <= PI) by apply atan2_range.
  assert (Ct : cos t = cos m) by now apply cos_congr. assert (St : sin t = sin m) by now apply sin_congr.
  assert (Ht : - (PI / 2) < t < PI / 2).
  { split.
    - destruct (Rlt_dec (- (PI / 2)) t); [assumption|]. exfalso. assert (cos (- t) <= 0) by (apply cos_le_0; lra). rewrite cos_neg in *. lra.
    - destruct (Rlt_dec t (PI / 2)); [assumption|]. exfalso. assert (cos t <= 0) by (apply cos_le_0; lra). lra. }
  exists t. split.
  - apply congr_trans with (mean_azimuth fl az + - a + a).
    + exists 0%Z. ring.
    + destruct T as (k1 & T). destruct Kt as (k2 & Kt). fold m in T. exists (- k1 - k2)%Z. rewrite minus_IZR, opp_IZR. lra.
  - split.
    + destruct (Rle_dec (- d) t); [assumption|]. exfalso.
      assert (0 < sin (- (t + d))) by (apply sin_gt_0; lra). rewrite sin_neg, sin_plus, Ct, St in H0. lra.
    + destruct (Rle_dec t d); [assumption|]. exfalso.
      assert (0 < sin (t - d)) by (apply sin_gt_0; lra). rewrite sin_minus, Ct, St in H0. lra.
Qed.

(** ** The order *)

(** Every position is visited once, wherever they are on the sky. *)
Definition points_ok : Prop := forall pts vs, pts <> [] -> qhull pts = Some vs -> vs <> [] /\ NoDup vs /\ forall v, In v vs -> (v < List.length pts)%nat.
Theorem C138_every : forall lon lat optimize, points_ok -> lon <> [] -> List.length lon = List.length lat ->
  (forall p, In p (combine lon lat) -> gnomonic_toxy (fst p) (snd p) (mean_azimuth fl lon) (mid_lat lat) <> None) ->
  exists bound, forall fuel, (bound <= fuel)%nat ->
  exists r, order_observations fl qhull fuel lon lat optimize = Ok r /\ Permutation r (seq 0 (List.length lon)).
Proof.
  intros lon lat optimize Q Ne L G.
  assert (Pr : exists towns, project (mean_azimuth fl lon) (mid_lat lat) (combine lon lat) = Ok towns).
  { revert G. generalize (combine lon lat) (mean_azimuth fl lon) (mid_lat lat). clear. induction l as [|p l IH]; intros ra dec G; [eexists; reflexivity|].
    cbn [project]. destruct (gnomonic_toxy (fst p) (snd p) ra dec) eqn:E; [|exfalso; apply (G p (or_introl eq_refl)); exact E].
    destruct (IH ra dec) as [t ->]; [intros x I; apply G; now right|]. eexists. reflexivity. }
  destruct Pr as [towns Pr].
  destruct (C39_tour (fun i j => fl (dist_matrix towns i j)) (fun rem => qhull (map (fun i => nth i towns (0, 0)) rem)) (List.length lon) optimize 10) as [b B].
  - intros rem vs Nr H. assert (Nm : map (fun i => nth i towns (0, 0)) rem <> []) by (destruct rem; [congruence|cbn; discriminate]). destruct (Q _ _ Nm H) as (A1 & A2 & A3). split; [exact A1|]. split; [exact A2|].
    intros v I. specialize (A3 v I). now rewrite map_length in A3.
  - destruct lon; [congruence|cbn; lia].
  - exists b. intros fuel F. destruct (B fuel F) as (r & H & P). exists r. split; [|exact P]. unfold order_observations, towns_of. destruct lon as [|x lon]; [congruence|].
    rewrite L, Nat.eqb_refl, Pr. cbn [bind]. rewrite <- L. exact H.
Qed.

Lemma toxy_congr : forall a ra b rb lat dec, congr (2 * PI) (a - ra) (b - rb) -> gnomonic_toxy a lat ra dec = gnomonic_toxy b lat rb dec.
Proof. intros a ra b rb lat dec K. unfold gnomonic_toxy. now rewrite (cos_congr _ _ K), (sin_congr _ _ K). Qed.
Lemma project_congr : forall ra rb dec l m lat, Forall2 (fun a b => congr (2 * PI) (a - ra) (b - rb)) l m ->
  project ra dec (combine l lat) = project rb dec (combine m lat).
Proof.
  intros ra rb dec l m lat F. revert lat. induction F as [|a b l m K F IH]; intros lat; [reflexivity|]. destruct lat as [|y lat]; [reflexivity|].
  cbn [combine project fst snd]. rewrite (toxy_congr a ra b rb y dec K). destruct (gnomonic_toxy b y rb dec); [|reflexivity]. now rewrite IH.
Qed.
(** The order does not depend on where longitudes are counted from. *)
Theorem C138_turn : forall fuel lon lat optimize d, clear_mean lon ->
  order_observations fl qhull fuel (map (fun x => x + d) lon) lat optimize = order_observations fl qhull fuel lon lat optimize.
Proof.
  intros fuel lon lat optimize d C. pose proof (C138_mean_turn d lon C) as T.
  assert (E : towns_of fl (map (fun x => x + d) lon) lat = towns_of fl lon lat).
  { unfold towns_of. rewrite map_length. destruct lon as [|x lon]; [reflexivity|]. cbn [map].
    destruct (Nat.eqb _ _); [|reflexivity]. apply project_congr. set (l := x :: lon) in *. change (x + d :: map (fun x0 => x0 + d) lon) with (map (fun x0 => x0 + d) l).
    set (m' := mean_azimuth fl (map (fun x0 => x0 + d) l)) in *. set (m := mean_azimuth fl l) in *. clearbody m m' l.
    clear C. induction l as [|y l IH]; cbn [map]; constructor; [|exact IH]. destruct T as (k & ->). exists (- k)%Z. rewrite opp_IZR. ring. }
  unfold order_observations. now rewrite E, map_length.
Qed.
(** Nor on whole turns in some of them: nothing happens at the wrap. *)
Theorem C138_wrap : forall fuel lon lon' lat optimize, Forall2 (congr (2 * PI)) lon lon' ->
  order_observations fl qhull fuel lon lat optimize = order_observations fl qhull fuel lon' lat optimize.
Proof.
  intros fuel lon lon' lat optimize F. pose proof (f2_length _ _ _ _ _ F) as L.
  assert (E : towns_of fl lon lat = towns_of fl lon' lat).
  { unfold towns_of. rewrite L. rewrite (mean_wrap lon lon' F). destruct F as [|a b l m K F]; [reflexivity|].
    destruct (Nat.eqb _ _); [|reflexivity]. apply project_congr. set (c := mean_azimuth fl (b :: m)). clearbody c.
    constructor; [destruct K as (k & ->); exists k; ring|]. clear L K. induction F as [|x y l m K F IH]; constructor; [destruct K as (k & ->); exists k; ring|exact IH]. }
  unfold order_observations. now rewrite E, L.
Qed.
End P.

(** The centre is halfway between the lowest and the highest position. *)
Lemma top_spec : forall l x, In (fold_left Rmax l x) (x :: l) /\ forall y, In y (x :: l) -> y <= fold_left Rmax l x.
Proof.
  induction l as [|a l IH]; intros x; cbn [fold_left]; [split; [now left|intros y [->|[]]; lra]|].
  destruct (IH (Rmax x a)) as [I G]. split.
  - destruct I as [I|I]; [|right; now right]. rewrite <- I. unfold Rmax. destruct (Rle_dec x a); [right; now left|now left].
  - intros y [->|[->|H]].
    + eapply Rle_trans; [apply (Rmax_l y a)|apply G; now left].
    + eapply Rle_trans; [apply (Rmax_r x y)|apply G; now left].
    + apply G. now right.
Qed.
Lemma bottom_spec : forall l x, In (fold_left Rmin l x) (x :: l) /\ forall y, In y (x :: l) -> fold_left Rmin l x <= y.
Proof.
  induction l as [|a l IH]; intros x; cbn [fold_left]; [split; [now left|intros y [->|[]]; lra]|].
  destruct (IH (Rmin x a)) as [I G]. split.
  - destruct I as [I|I]; [|right; now right]. rewrite <- I. unfold Rmin. destruct (Rle_dec x a); [now left|right; now left].
  - intros y [->|[->|H]].
    + eapply Rle_trans; [apply G; now left|apply (Rmin_l y a)].
    + eapply Rle_trans; [apply G; now left|apply (Rmin_r x y)].
    + apply G. now right.
Qed.
Theorem C138_middle : forall lat, lat <> [] -> exists lo hi, In lo lat /\ In hi lat /\ (forall x, In x lat -> lo <= x <= hi) /\ mid_lat lat = (lo + hi) / 2.
Proof.
  intros [|x l] N; [congruence|]. exists (bottom (x :: l)), (top (x :: l)). destruct (top_spec l x) as [T1 T2]. destruct (bottom_spec l x) as [B1 B2].
  split; [exact B1|]. split; [exact T1|]. split; [intros y I; split; [now apply B2|now apply T2]|]. unfold mid_lat. field.
Qed.

(** The distances the route finder is given are those on the sky, but for the stretch
    of the field. *)
Lemma project_nth : forall ra dec l towns i p, project ra dec l = Ok towns -> nth_error l i = Some p ->
  gnomonic_toxy (fst p) (snd p) ra dec = Some (nth i towns (0, 0)).
Proof.
  induction l as [|q l IH]; intros towns i p H N; [destruct i; discriminate|]. cbn [project] in H.
  destruct (gnomonic_toxy (fst q) (snd q) ra dec) as [t|] eqn:E; [|discriminate]. destruct (project ra dec l) as [ts|] eqn:F; [|discriminate]. cbn [bind] in H. injection H as <-.
  destruct i as [|i]; cbn [nth_error] in N; [injection N as <-; exact E|]. cbn [nth]. now apply IH.
Qed.
Theorem C138_matrix : forall fl lon lat towns i j r s si sj lon1 lat1 lon2 lat2, towns_of fl lon lat = Ok towns ->
  nth_error lon i = Some lon1 -> nth_error lat i = Some lat1 -> nth_error lon j = Some lon2 -> nth_error lat j = Some lat2 ->
  sep1 (mean_azimuth fl lon) (mid_lat lat) lon1 lat1 = Some si -> sep1 (mean_azimuth fl lon) (mid_lat lat) lon2 lat2 = Some sj ->
  sep1 lon1 lat1 lon2 lat2 = Some s -> si <= r -> sj <= r -> r < PI / 2 ->
  2 * sin (s / 2) <= dist_matrix towns i j <= 2 * sin (s / 2) * stretch r.
Proof.
  intros fl lon lat towns i j r s si sj lon1 lat1 lon2 lat2 T A1 A2 B1 B2 S1 S2 S3 L1 L2 Lr.
  assert (Pr : project (mean_azimuth fl lon) (mid_lat lat) (combine lon lat) = Ok towns).
  { unfold towns_of in T. destruct lon; [discriminate|]. destruct (Nat.eqb _ _); [exact T|discriminate]. }
  assert (C : forall (l m : list R) k x y, nth_error l k = Some x -> nth_error m k = Some y -> nth_error (combine l m) k = Some (x, y)).
  { induction l as [|u l IH]; intros [|v m] [|k] x y X Y; cbn in *; try discriminate; [congruence|now apply IH]. }
  pose proof (project_nth _ _ _ _ i _ Pr (C _ _ _ _ _ A1 A2)) as Ga. pose proof (project_nth _ _ _ _ j _ Pr (C _ _ _ _ _ B1 B2)) as Gb. cbn [fst snd] in Ga, Gb.
  unfold dist_matrix. apply (C138_legs _ _ _ _ _ _ _ _ r s si sj Ga Gb S1 S2 S3 L1 L2 Lr).
Qed.

(** Refuted: so it is for positions all around.  Then the centre is pi whatever they
    are: of two fields half a turn apart either both fall on one town, or, turned by a
    quarter, neither has a place and the ordering is refused. *)
Theorem C138_spread_refuted : forall fl qhull fuel optimize, ir_less (fl 0) (fl (1 / 10)) = true ->
  sep1 0 0 PI 0 = Some PI /\ towns_of fl [0; PI] [0; 0] = Ok [(0, 0); (0, 0)] /\
  order_observations fl qhull fuel (map (fun x => x + PI / 2) [0; PI]) [0; 0] optimize = Raise ValueError.
Proof.
  intros fl qhull fuel optimize H. split; [|split].
  - rewrite sep1_ang. f_equal. apply ang_val; [pose proof PI_RGT_0; lra|]. unfold dot, xyz_from_ra_dec. cbn [vx vy vz]. rewrite cos_0, sin_0, cos_PI, sin_PI. ring.
  - assert (M : mean_azimuth fl [0; PI] = PI).
    { unfold mean_azimuth, mean. cbn [map fold_right List.length]. rewrite cos_0, sin_0, cos_PI, sin_PI.
      match goal with |- context [sqrt ?x] => replace x with 0 by (cbn; field) end. rewrite sqrt_0, H. reflexivity. }
    unfold towns_of. cbn [List.length Nat.eqb]. rewrite M. unfold mid_lat, top, bottom. cbn [fold_left].
    rewrite Rmax_left, Rmin_left by lra. replace ((0 - 0) / 2 + 0) with 0 by field. cbn [combine project fst snd].
    unfold gnomonic_toxy. replace (0 - PI) with (- PI) by ring. replace (PI - PI) with 0 by ring. rewrite cos_neg, sin_neg, sin_0, cos_0, cos_PI, sin_PI.
    destruct (Req_EM_T (0 * 0 + 1 * 1 * -1) 0) as [E|E]; [lra|]. destruct (Req_EM_T (0 * 0 + 1 * 1 * 1) 0) as [E2|E2]; [lra|]. cbn [bind].
    do 2 f_equal; [f_equal; field; lra|]. f_equal. f_equal; field; lra.
  - assert (M : mean_azimuth fl [0 + PI / 2; PI + PI / 2] = PI).
    { unfold mean_azimuth, mean. cbn [map fold_right List.length]. rewrite Rplus_0_l, cos_PI2, sin_PI2. rewrite (Rplus_comm PI (PI / 2)), neg_cos, neg_sin, cos_PI2, sin_PI2.
      match goal with |- context [sqrt ?x] => replace x with 0 by (cbn; field) end. rewrite sqrt_0, H. reflexivity. }
    unfold order_observations, towns_of. cbn [map List.length Nat.eqb]. rewrite M. unfold mid_lat, top, bottom. cbn [fold_left].
    rewrite Rmax_left, Rmin_left by lra. replace ((0 - 0) / 2 + 0) with 0 by field. cbn [combine project fst snd].
    unfold gnomonic_toxy. replace (0 + PI / 2 - PI) with (- (PI / 2)) by field. rewrite cos_neg, sin_0, cos_0, cos_PI2.
    destruct (Req_EM_T (0 * 0 + 1 * 1 * 0) 0) as [E|E]; [reflexivity|lra].
Qed.

Print Assumptions C138_legs.
Print Assumptions C138_stretch.
Print Assumptions C138_middle.
Print Assumptions C138_matrix.
Print Assumptions C138_mean.
Print Assumptions C138_mean_turn.
Print Assumptions C138_mean_arc.
Print Assumptions C138_every.
Print Assumptions C138_turn.
Print Assumptions C138_wrap.
Print Assumptions C138_opposite_refuted.
Print Assumptions C138_spread_refuted.

(** ** Example: two fields on both sides of azimuth zero, one degree or so apart; two
    points are too few for Qhull. *)
Definition fl0 (x : R) : Q := if Rlt_dec x (1 / 10) then 0%Q else 1%Q.
Definition hull0 (l : list (R * R)) : option (list nat) := None.
Definition lon0 : list R := [1 / 100; 2 * PI - 1 / 100].
Lemma lon0_wrap : Forall2 (congr (2 * PI)) lon0 [1 / 100; - (1 / 100)].
Proof. constructor; [apply congr_refl|]. constructor; [exists 1%Z; ring|constructor]. Qed.
Lemma small_cos : 1 / 2 < cos (1 / 100).
Proof.
  assert (P : 3 < PI). { pose proof PI2_3_2. lra. }
  pose proof cos_PI3 as E. rewrite <- E. apply cos_decreasing_1; lra.
Qed.
Example ex_clear : clear_mean fl0 [1 / 100; - (1 / 100)].
Proof.
  pose proof small_cos as C.
  assert (Rd : radius [1 / 100; - (1 / 100)] = cos (1 / 100)).
  { unfold radius, mx, my, mean. cbn [map fold_right List.length]. rewrite cos_neg, sin_neg.
    match goal with |- sqrt ?x = _ => replace x with (cos (1 / 100) * cos (1 / 100)) by (cbn; field) end. apply sqrt_square. lra. }
  split; rewrite Rd; [lra|]. unfold fl0. destruct (Rlt_dec (cos (1 / 100)) (1 / 10)); [lra|]. destruct (Rlt_dec (1 / 10) (1 / 10)); [lra|]. reflexivity.
Qed.
Example ex_mean : mean_azimuth fl0 lon0 = 0.
Proof.
  rewrite (mean_wrap fl0 _ _ lon0_wrap). destruct ex_clear as [P N]. pose proof small_cos as C.
  unfold mean_azimuth. fold (mx [1 / 100; - (1 / 100)]) (my [1 / 100; - (1 / 100)]) (radius [1 / 100; - (1 / 100)]). rewrite N.
  assert (Y : my [1 / 100; - (1 / 100)] = 0) by (unfold my, mean; cbn [map fold_right List.length]; rewrite sin_neg; cbn; field).
  assert (X : mx [1 / 100; - (1 / 100)] = cos (1 / 100)) by (unfold mx, mean; cbn [map fold_right List.length]; rewrite cos_neg; cbn; field).
  rewrite X, Y. assert (A : atan2 0 (cos (1 / 100)) = 0) by (apply (atan2_val (cos (1 / 100)) 0); [lra|pose proof PI_RGT_0; lra|rewrite cos_0; ring|rewrite sin_0; ring]).
  rewrite A. symmetry. apply Rmod_unique; [pose proof PI_RGT_0; lra|apply congr_refl|pose proof PI_RGT_0; lra].
Qed.
Example ex_order : order_observations fl0 hull0 3 lon0 [0; 0] false = Ok [0; 1]%nat.
Proof.
  rewrite (C138_wrap fl0 hull0 3 lon0 _ [0; 0] false lon0_wrap). unfold order_observations, towns_of. cbn [List.length Nat.eqb].
  rewrite <- (mean_wrap fl0 _ _ lon0_wrap), ex_mean. unfold mid_lat, top, bottom. cbn [fold_left]. rewrite Rmax_left, Rmin_left by lra. replace ((0 - 0) / 2 + 0) with 0 by field.
  cbn [combine project fst snd]. unfold gnomonic_toxy. rewrite !Rminus_0_r, cos_neg, sin_0, cos_0. pose proof small_cos as C.
  destruct (Req_EM_T (0 * 0 + 1 * 1 * cos (1 / 100)) 0); [lra|]. cbn [bind]. reflexivity.
Qed.
Example ex_apart : sep1 (1 / 100) 0 (- (1 / 100)) 0 = Some (2 / 100).
Proof.
  rewrite sep1_ang. f_equal. apply ang_val; [pose proof PI2_3_2; lra|]. unfold dot, xyz_from_ra_dec. cbn [vx vy vz]. rewrite sin_0, cos_0, cos_neg, sin_neg.
  replace (2 / 100) with (2 * (1 / 100)) by field. rewrite cos_2a. ring.
Qed.
