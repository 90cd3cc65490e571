(** Proofs about Sphere.v. *)
From Coq Require Import List Bool Reals Lra Lia ZArith Nsatz.
From Verif Require Import Base Angles Sphere.
Import ListNotations.
Open Scope R_scope.

(** ** Angles *)
Lemma cs1 : forall t, cos t * cos t + sin t * sin t = 1.
Proof. intros. pose proof (sin2_cos2 t) as H. unfold Rsqr in H. lra. Qed.
Lemma hyp_nonneg : forall x y, 0 <= x * x + y * y.
Proof. intros. nra. Qed.
Lemma hyp_zero : forall x y, sqrt (x * x + y * y) = 0 -> x = 0 /\ y = 0.
Proof.
  intros x y H. apply sqrt_eq_0 in H; [|apply hyp_nonneg]. split; nra.
Qed.
Lemma hyp_sq : forall x y, sqrt (x * x + y * y) * sqrt (x * x + y * y) = x * x + y * y.
Proof. intros. apply sqrt_sqrt, hyp_nonneg. Qed.
Lemma ratio_bound : forall x h, 0 < h -> x * x <= h * h -> -1 <= x / h <= 1.
Proof.
  intros x h H S. assert (E : x / h * h = x) by (field; lra). assert (x <= h) by nra. assert (- h <= x) by nra.
  split; apply (Rmult_le_reg_r h); lra.
Qed.
Lemma ratio_bound_lt : forall x h, 0 < h -> x * x < h * h -> -1 < x / h < 1.
Proof.
  intros x h H S. assert (E : x / h * h = x) by (field; lra). assert (x < h) by nra. assert (- h < x) by nra.
  split; apply (Rmult_lt_reg_r h); lra.
Qed.
Lemma hyp_ratio : forall x y, sqrt (x * x + y * y) <> 0 -> -1 <= x / sqrt (x * x + y * y) <= 1.
Proof.
  intros x y H. pose proof (hyp_sq x y) as S. pose proof (sqrt_pos (x * x + y * y)) as P.
  apply ratio_bound; [lra|]. rewrite S. nra.
Qed.

Lemma atan2_spec : forall y x, x = sqrt (x * x + y * y) * cos (atan2 y x) /\ y = sqrt (x * x + y * y) * sin (atan2 y x).
Proof.
  intros y x. unfold atan2. pose proof (hyp_sq x y) as S. pose proof (sqrt_pos (x * x + y * y)) as P.
  destruct (Req_EM_T (sqrt (x * x + y * y)) 0) as [E|N].
  - destruct (hyp_zero x y E) as [-> ->]. rewrite cos_0, sin_0. replace (0 * 0 + 0 * 0) with 0 by ring. rewrite sqrt_0. lra.
  - pose proof (hyp_ratio x y N) as B. set (h := sqrt (x * x + y * y)) in *.
    assert (Hp : h > 0) by lra.
    assert (SA : h * sin (acos (x / h)) = Rabs y).
    { rewrite sin_acos by exact B.
      replace h with (sqrt (h * h)) at 1 by (apply sqrt_square; lra).
      rewrite <- sqrt_mult_alt by nra. rewrite <- sqrt_Rsqr_abs. f_equal. unfold Rsqr.
      replace (h * h * (1 - x / h * (x / h))) with (h * h - x * x) by (field; lra). lra. }
    destruct (Rle_dec 0 y) as [Y|Y].
    + rewrite SA, cos_acos by exact B. rewrite Rabs_pos_eq by exact Y. split; [field; lra|reflexivity].
    + rewrite cos_neg, sin_neg, cos_acos by exact B. rewrite <- Ropp_mult_distr_r, SA, Rabs_left by lra. split; [field; lra|lra].
Qed.
Lemma atan2_range : forall y x, - PI < atan2 y x <= PI.
Proof.
  intros y x. unfold atan2. pose proof PI_RGT_0 as P. pose proof (hyp_sq x y) as S. pose proof (sqrt_pos (x * x + y * y)) as Q.
  destruct (Req_EM_T (sqrt (x * x + y * y)) 0) as [E|N]; [lra|].
  set (h := sqrt (x * x + y * y)) in *. pose proof (acos_bound (x / h)) as A.
  destruct (Rle_dec 0 y) as [Y|Y]; [lra|].
  assert (-1 < x / h < 1) by (apply ratio_bound_lt; [lra|rewrite S; nra]).
  pose proof (acos_bound_lt (x / h) H). lra.
Qed.
(** Two angles with the same cosine and sine are a whole number of turns apart. *)
Lemma angle_congr : forall a b, cos a = cos b -> sin a = sin b -> congr (2 * PI) a b.
Proof.
  intros a b C S. pose proof PI_RGT_0 as P.
  set (d := Rmod (a - b) (2 * PI)). pose proof (Rmod_range (a - b) (2 * PI) ltac:(lra)) as R. fold d in R.
  pose proof (Rmod_congr (a - b) (2 * PI)) as K. fold d in K.
  assert (CD : cos d = 1).
  { rewrite (cos_congr d (a - b) K), cos_minus, C, S. pose proof (cs1 b). lra. }
  assert (D : d = 0).
  { destruct (Rle_dec d PI) as [L|L].
    - rewrite <- (acos_cos d) by lra. rewrite CD. apply acos_1.
    - exfalso. assert (E : acos (cos (2 * PI - d)) = 2 * PI - d) by (apply acos_cos; lra).
      replace (2 * PI - d) with (- d + 2 * INR 1 * PI) in E at 1 by (simpl; ring). rewrite cos_period, cos_neg, CD, acos_1 in E. lra. }
  rewrite D in K. destruct K as (k & K). exists (- k)%Z. rewrite opp_IZR. lra.
Qed.
Lemma atan2_polar : forall r t, 0 < r -> congr (2 * PI) (atan2 (r * sin t) (r * cos t)) t.
Proof.
  intros r t Hr. destruct (atan2_spec (r * sin t) (r * cos t)) as [C S].
  assert (E : sqrt (r * cos t * (r * cos t) + r * sin t * (r * sin t)) = r).
  { replace (r * cos t * (r * cos t) + r * sin t * (r * sin t)) with (r * r * (cos t * cos t + sin t * sin t)) by ring.
    rewrite cs1, Rmult_1_r. apply sqrt_square. lra. }
  rewrite E in C, S. apply angle_congr; [apply (Rmult_eq_reg_l r)|apply (Rmult_eq_reg_l r)]; lra.
Qed.
Lemma atan2_val : forall r t x y, 0 < r -> - PI < t <= PI -> x = r * cos t -> y = r * sin t -> atan2 y x = t.
Proof.
  intros r t x y Hr Ht -> ->. apply (congr_close (2 * PI)); [lra|now apply atan2_polar|].
  pose proof (atan2_range (r * sin t) (r * cos t)). apply Rabs_def1; lra.
Qed.
Lemma np_arcsin_in : forall x, -1 <= x <= 1 -> np_arcsin x = Some (asin x).
Proof. intros x H. unfold np_arcsin. destruct (Rle_dec (-1) x); [|lra]. destruct (Rle_dec x 1); [reflexivity|lra]. Qed.
Lemma np_arccos_in : forall x, -1 <= x <= 1 -> np_arccos x = Some (acos x).
Proof. intros x H. unfold np_arccos. destruct (Rle_dec (-1) x); [|lra]. destruct (Rle_dec x 1); [reflexivity|lra]. Qed.

(** ** Vectors *)
Lemma vec_eq : forall a b, vx a = vx b -> vy a = vy b -> vz a = vz b -> a = b.
Proof. intros [] []; simpl. congruence. Qed.
Lemma dot_comm : forall a b, dot a b = dot b a.
Proof. intros. unfold dot. ring. Qed.
Lemma dot_self : forall a, 0 <= dot a a.
Proof. intros. unfold dot. nra. Qed.
Lemma lagrange : forall a b, dot a a * dot b b - dot a b * dot a b = dot (cross a b) (cross a b).
Proof. intros. unfold dot, cross. simpl. ring. Qed.
Lemma cauchy : forall a b, dot a b * dot a b <= dot a a * dot b b.
Proof. intros. pose proof (lagrange a b). pose proof (dot_self (cross a b)). lra. Qed.
Definition unit (v : vec) := dot v v = 1.
Lemma xyz_unit : forall ra dec, unit (xyz_from_ra_dec ra dec).
Proof.
  intros. unfold unit, dot, xyz_from_ra_dec. simpl.
  replace (cos ra * cos dec * (cos ra * cos dec) + sin ra * cos dec * (sin ra * cos dec) + sin dec * sin dec)
    with ((cos ra * cos ra + sin ra * sin ra) * (cos dec * cos dec) + sin dec * sin dec) by ring.
  rewrite cs1. pose proof (cs1 dec). lra.
Qed.
Lemma unit_dot_bound : forall a b, unit a -> unit b -> -1 <= dot a b <= 1.
Proof. intros a b A B. pose proof (cauchy a b) as C. rewrite A, B in C. split; nra. Qed.
Lemma sumsq0 : forall x y z, x * x + y * y + z * z = 0 -> x = 0 /\ y = 0 /\ z = 0.
Proof.
  intros x y z H. assert (x * x = 0 /\ y * y = 0 /\ z * z = 0) as (A & B & C) by nra.
  repeat split; apply Rsqr_0_uniq; assumption.
Qed.
(** Unit vectors with dot product one are equal. *)
Lemma unit_dot_one : forall a b, unit a -> unit b -> dot a b = 1 -> a = b.
Proof.
  intros a b A B D. unfold unit, dot in *.
  assert (E : (vx a - vx b) * (vx a - vx b) + (vy a - vy b) * (vy a - vy b) + (vz a - vz b) * (vz a - vz b) = 0) by lra.
  destruct (sumsq0 _ _ _ E) as (X & Y & Z). apply vec_eq; lra.
Qed.

(** ** Separation *)
Definition ang (a b : vec) : R := acos (dot a b).
Lemma hav : forall t, sin (t / 2) ^ 2 = (1 - cos t) / 2.
Proof.
  intros t. replace t with (2 * (t / 2)) at 2 by field. rewrite cos_2a_sin. field.
Qed.
Lemma hav_sum : forall long1 lat1 long2 lat2,
  sin (lat2 / 2 - lat1 / 2) ^ 2 + cos lat1 * cos lat2 * sin (long2 / 2 - long1 / 2) ^ 2
  = (1 - dot (xyz_from_ra_dec long1 lat1) (xyz_from_ra_dec long2 lat2)) / 2.
Proof.
  intros. replace (lat2 / 2 - lat1 / 2) with ((lat2 - lat1) / 2) by field.
  replace (long2 / 2 - long1 / 2) with ((long2 - long1) / 2) by field. rewrite !hav, !cos_minus.
  unfold dot, xyz_from_ra_dec. simpl. field.
Qed.
Lemma asin_sqrt_acos : forall c, -1 <= c <= 1 -> 2 * asin (sqrt ((1 - c) / 2)) = acos c.
Proof.
  intros c H. pose proof (acos_bound c) as A. pose proof PI_RGT_0.
  assert (E : sqrt ((1 - c) / 2) = sin (acos c / 2)).
  { assert (G : 0 <= sin (acos c / 2)) by (apply sin_ge_0; lra).
    rewrite <- (sqrt_square _ G). f_equal. pose proof (hav (acos c)) as K. rewrite cos_acos in K by exact H. lra. }
  rewrite E, asin_sin by lra. lra.
Qed.
Lemma sep1_ang : forall long1 lat1 long2 lat2,
  sep1 long1 lat1 long2 lat2 = Some (ang (xyz_from_ra_dec long1 lat1) (xyz_from_ra_dec long2 lat2)).
Proof.
  intros. unfold sep1. rewrite hav_sum.
  pose proof (unit_dot_bound _ _ (xyz_unit long1 lat1) (xyz_unit long2 lat2)) as B.
  unfold ang. set (c := dot _ _) in *. clearbody c.
  destruct (Rlt_dec ((1 - c) / 2) 0); [lra|].
  rewrite np_arcsin_in.
  - now rewrite asin_sqrt_acos.
  - split; [pose proof (sqrt_pos ((1 - c) / 2)); lra|]. apply Rle_trans with (sqrt 1); [apply sqrt_le_1_alt; lra|rewrite sqrt_1; lra].
Qed.
Lemma ang_range : forall a b, 0 <= ang a b <= PI.
Proof. intros. apply acos_bound. Qed.
Lemma cos_ang : forall a b, unit a -> unit b -> cos (ang a b) = dot a b.
Proof. intros. apply cos_acos. now apply unit_dot_bound. Qed.
Lemma ang_sym : forall a b, ang a b = ang b a.
Proof. intros. unfold ang. now rewrite dot_comm. Qed.
Lemma ang_zero : forall a b, unit a -> unit b -> (ang a b = 0 <-> a = b).
Proof.
  intros a b A B. split.
  - intros E. apply unit_dot_one; try assumption. rewrite <- cos_ang, E by assumption. apply cos_0.
  - intros <-. unfold ang. rewrite A. apply acos_1.
Qed.
Lemma ang_le : forall a b c d, unit a -> unit b -> unit c -> unit d -> (ang a b <= ang c d <-> dot c d <= dot a b).
Proof.
  intros a b c d A B C D. pose proof (ang_range a b). pose proof (ang_range c d).
  rewrite <- (cos_ang a b), <- (cos_ang c d) by assumption. split; intros L.
  - apply cos_decr_1; lra.
  - apply cos_decr_0; lra.
Qed.
Lemma sin_ang : forall a b, unit a -> unit b -> sin (ang a b) = sqrt (dot (cross a b) (cross a b)).
Proof.
  intros a b A B. pose proof (ang_range a b). pose proof (cs1 (ang a b)) as K. rewrite cos_ang in K by assumption.
  pose proof (lagrange a b) as L. rewrite A, B in L. rewrite <- L.
  assert (0 <= sin (ang a b)) by (apply sin_ge_0; lra).
  rewrite <- (sqrt_square (sin (ang a b))) by assumption. f_equal. lra.
Qed.
Lemma ang_triangle : forall a b c, unit a -> unit b -> unit c -> ang a c <= ang a b + ang b c.
Proof.
  intros a b c A B C. pose proof (ang_range a b) as R1. pose proof (ang_range b c) as R2. pose proof (ang_range a c) as R3.
  destruct (Rle_dec PI (ang a b + ang b c)) as [G|G]; [lra|].
  apply cos_decr_0; try lra. rewrite cos_plus, !cos_ang, !sin_ang by assumption.
  assert (K : dot a c - dot a b * dot b c = dot (cross a b) (cross c b)).
  { transitivity (dot a c * dot b b - dot a b * dot b c); [rewrite B; ring|]. unfold dot, cross. simpl. ring. }
  assert (E : dot (cross c b) (cross c b) = dot (cross b c) (cross b c)) by (unfold dot, cross; simpl; ring).
  pose proof (cauchy (cross a b) (cross c b)) as CS. rewrite E in CS.
  pose proof (dot_self (cross a b)) as P1. pose proof (dot_self (cross b c)) as P2.
  assert (- (sqrt (dot (cross a b) (cross a b)) * sqrt (dot (cross b c) (cross b c))) <= dot (cross a b) (cross c b)); [|lra].
  rewrite <- sqrt_mult_alt by assumption.
  set (w := dot (cross a b) (cross c b)) in *. set (z := dot (cross a b) (cross a b) * dot (cross b c) (cross b c)) in *.
  pose proof (sqrt_le_1_alt _ _ CS) as SQ. change (w * w) with (Rsqr w) in SQ. rewrite sqrt_Rsqr_abs in SQ.
  pose proof (Rle_abs (- w)). rewrite Rabs_Ropp in H. lra.
Qed.
(** Straight-line distance. *)
Definition chord (a b : vec) : R := sqrt ((vx a - vx b) ^ 2 + (vy a - vy b) ^ 2 + (vz a - vz b) ^ 2).
Lemma chord_dot : forall a b, unit a -> unit b -> chord a b = sqrt (2 * (1 - dot a b)).
Proof. intros a b A B. unfold chord. f_equal. unfold unit, dot in *. simpl. lra. Qed.
Lemma radius_cos : forall r, xyz_angular_radius r = sqrt (2 * (1 - cos r)).
Proof.
  intros r. unfold xyz_angular_radius, xyz_from_ra_dec. simpl. rewrite cos_0, sin_0. f_equal. pose proof (cs1 r). simpl. lra.
Qed.
Lemma chord_radius : forall a b r, unit a -> unit b -> 0 <= r <= PI -> (chord a b <= xyz_angular_radius r <-> ang a b <= r).
Proof.
  intros a b r A B Hr. pose proof (ang_range a b) as R. rewrite chord_dot, radius_cos, <- cos_ang by assumption.
  pose proof (COS_bound r). pose proof (COS_bound (ang a b)). split; intros L.
  - apply cos_decr_0; try lra. apply sqrt_le_0 in L; lra.
  - apply sqrt_le_1_alt. assert (cos r <= cos (ang a b)) by (apply cos_decr_1; lra). lra.
Qed.

(** ** Round trips *)
Lemma norm3 : forall x y z, x ^ 2 + y ^ 2 + z ^ 2 = dot (V x y z) (V x y z).
Proof. intros. unfold dot. simpl. ring. Qed.
Lemma radec_vec : forall x y z, ~ (x = 0 /\ y = 0 /\ z = 0) -> exists dec,
  snd (ra_dec_from_xyz x y z) = Some dec /\ - (PI / 2) <= dec <= PI / 2 /\
  let n := sqrt (x ^ 2 + y ^ 2 + z ^ 2) in
  0 < n /\ x = n * vx (xyz_from_ra_dec (fst (ra_dec_from_xyz x y z)) dec)
  /\ y = n * vy (xyz_from_ra_dec (fst (ra_dec_from_xyz x y z)) dec)
  /\ z = n * vz (xyz_from_ra_dec (fst (ra_dec_from_xyz x y z)) dec).
Proof.
  intros x y z NZ. unfold ra_dec_from_xyz. cbv beta iota zeta delta [fst snd].
  assert (S : 0 <= x ^ 2 + y ^ 2 + z ^ 2) by nra. pose proof (sqrt_pos (x ^ 2 + y ^ 2 + z ^ 2)) as P.
  pose proof (sqrt_sqrt _ S) as Q. set (n := sqrt (x ^ 2 + y ^ 2 + z ^ 2)) in *.
  assert (N : n <> 0). { intros E. rewrite E in Q. apply NZ, sumsq0. lra. }
  assert (Np : 0 < n) by lra. unfold np_div. destruct (Req_EM_T n 0); [contradiction|]. simpl.
  assert (B : -1 <= z / n <= 1) by (apply ratio_bound; [lra|rewrite Q; nra]).
  rewrite np_arcsin_in by exact B. exists (asin (z / n)). split; [reflexivity|]. split; [apply asin_bound|].
  split; [exact Np|]. rewrite sin_asin, cos_asin by exact B.
  assert (H : n * sqrt (1 - (z / n)²) = sqrt (x * x + y * y)).
  { replace n with (sqrt (n * n)) at 1 by (apply sqrt_square; lra). rewrite <- sqrt_mult_alt by nra. f_equal. unfold Rsqr.
    replace (n * n * (1 - z / n * (z / n))) with (n * n - z * z) by (field; lra). lra. }
  destruct (atan2_spec y x) as [C Sn]. rewrite <- H in C, Sn.
  repeat split; [rewrite C at 1; ring|rewrite Sn at 1; ring|field; lra].
Qed.
Lemma cos_dec_pos : forall d, - (PI / 2) < d < PI / 2 -> 0 < cos d.
Proof. intros. apply cos_gt_0; lra. Qed.
Lemma radec_round : forall ra dec, - (PI / 2) <= dec <= PI / 2 ->
  let v := xyz_from_ra_dec ra dec in
  snd (ra_dec_from_xyz (vx v) (vy v) (vz v)) = Some dec /\
  (- (PI / 2) < dec < PI / 2 -> congr (2 * PI) (fst (ra_dec_from_xyz (vx v) (vy v) (vz v))) ra).
Proof.
  intros ra dec H v. unfold ra_dec_from_xyz. cbv beta iota zeta delta [fst snd].
  assert (E : sqrt (vx v ^ 2 + vy v ^ 2 + vz v ^ 2) = 1).
  { rewrite norm3. fold v. replace (V (vx v) (vy v) (vz v)) with v by (now destruct v). unfold v. rewrite xyz_unit. apply sqrt_1. }
  rewrite E. unfold np_div. destruct (Req_EM_T 1 0); [lra|]. simpl. replace (sin dec / 1) with (sin dec) by field.
  split.
  - rewrite np_arcsin_in by (pose proof (SIN_bound dec); lra). now rewrite asin_sin.
  - intros D. rewrite (Rmult_comm (sin ra)), (Rmult_comm (cos ra)). apply atan2_polar, cos_dec_pos, D.
Qed.

(** ** Rotations *)
Definition isometry (f : vec -> vec) := forall a b, dot (f a) (f b) = dot a b.
Lemma rot_z_iso : forall t, isometry (fun v => rot_about_z v t).
Proof.
  intros t a b. unfold rot_about_z, mapply, z_rotation_matrix, dot. simpl. pose proof (cs1 t) as K.
  transitivity ((cos t * cos t + sin t * sin t) * (vx a * vx b + vy a * vy b) + vz a * vz b); [ring|rewrite K; ring].
Qed.
Lemma rot_y_iso : forall t, isometry (fun v => rot_about_y v t).
Proof.
  intros t a b. unfold rot_about_y, mapply, y_rotation_matrix, dot. simpl. pose proof (cs1 t) as K.
  transitivity ((cos t * cos t + sin t * sin t) * (vx a * vx b + vz a * vz b) + vy a * vy b); [ring|rewrite K; ring].
Qed.
Lemma rot_x_iso : forall t, isometry (fun v => rot_about_x v t).
Proof.
  intros t a b. unfold rot_about_x, mapply, x_rotation_matrix, dot. simpl. pose proof (cs1 t) as K.
  transitivity ((cos t * cos t + sin t * sin t) * (vy a * vy b + vz a * vz b) + vx a * vx b); [ring|rewrite K; ring].
Qed.
Ltac rotv := intros; apply vec_eq; unfold rot_about_z, rot_about_y, rot_about_x, mapply, z_rotation_matrix, y_rotation_matrix, x_rotation_matrix, dot; simpl.
Lemma rot_z_add : forall v s t, rot_about_z (rot_about_z v s) t = rot_about_z v (s + t).
Proof. rotv; rewrite ?cos_plus, ?sin_plus; ring. Qed.
Lemma rot_y_add : forall v s t, rot_about_y (rot_about_y v s) t = rot_about_y v (s + t).
Proof. rotv; rewrite ?cos_plus, ?sin_plus; ring. Qed.
Lemma rot_x_add : forall v s t, rot_about_x (rot_about_x v s) t = rot_about_x v (s + t).
Proof. rotv; rewrite ?cos_plus, ?sin_plus; ring. Qed.
Lemma rot_z_0 : forall v, rot_about_z v 0 = v.
Proof. rotv; rewrite ?cos_0, ?sin_0; ring. Qed.
Lemma rot_y_0 : forall v, rot_about_y v 0 = v.
Proof. rotv; rewrite ?cos_0, ?sin_0; ring. Qed.
Lemma rot_x_0 : forall v, rot_about_x v 0 = v.
Proof. rotv; rewrite ?cos_0, ?sin_0; ring. Qed.
Lemma rot_z_ra : forall ra dec t, rot_about_z (xyz_from_ra_dec ra dec) t = xyz_from_ra_dec (ra + t) dec.
Proof. rotv; rewrite ?cos_plus, ?sin_plus; ring. Qed.

Definition scale (k : R) (v : vec) : vec := V (k * vx v) (k * vy v) (k * vz v).
Definition vadd (a b : vec) : vec := V (vx a + vx b) (vy a + vy b) (vz a + vz b).

Lemma unit_on : forall v, unit v -> off_unit v = false.
Proof.
  intros v U. unfold off_unit. rewrite U, sqrt_1, Rminus_diag_eq, Rabs_R0 by reflexivity. destruct (Rlt_dec (1 / 100) 0); [lra|reflexivity].
Qed.
(** Turning about an axis (Rodrigues). *)
Definition rod (a : vec) (k s : R) : mat :=
  M (V (k + vx a * vx a * (1 - k)) (- vz a * s + (1 - k) * vx a * vy a) (vy a * s + (1 - k) * vx a * vz a))
    (V (vz a * s + (1 - k) * vx a * vy a) (k + (1 - k) * vy a * vy a) (- vx a * s + (1 - k) * vy a * vz a))
    (V (- vy a * s + (1 - k) * vx a * vz a) (vx a * s + (1 - k) * vy a * vz a) (k + (1 - k) * (vz a * vz a))).
Lemma rod_apply : forall a k s v, mapply (rod a k s) v = vadd (vadd (scale k v) (scale s (cross a v))) (scale ((1 - k) * dot a v) a).
Proof. intros. apply vec_eq; unfold mapply, rod, vadd, scale, cross, dot; simpl; ring. Qed.
Lemma rod_iso : forall a k s, unit a -> k * k + s * s = 1 -> isometry (mapply (rod a k s)).
Proof.
  intros [x y z] k s U K [p1 p2 p3] [q1 q2 q3]. unfold unit, dot in U. simpl in U. unfold mapply, rod, dot. simpl. nsatz.
Qed.
Lemma rod_det : forall a k s, unit a -> k * k + s * s = 1 ->
  dot (row1 (rod a k s)) (cross (row2 (rod a k s)) (row3 (rod a k s))) = 1.
Proof.
  intros [x y z] k s U K. unfold unit, dot in U. simpl in U. unfold rod, dot, cross. simpl. nsatz.
Qed.
Lemma cross_perp : forall a b, dot (cross a b) a = 0 /\ dot (cross a b) b = 0.
Proof. intros. split; unfold dot, cross; simpl; ring. Qed.
Lemma cross_cross : forall a b, cross (cross a b) a = vadd (scale (dot a a) b) (scale (- dot a b) a).
Proof. intros. apply vec_eq; unfold cross, vadd, scale, dot; simpl; ring. Qed.

(** The matrix that turns v1 to v2 about their common normal. *)
Lemma rotmat_ok : forall v1 v2, unit v1 -> unit v2 -> cross v1 v2 <> V 0 0 0 ->
  exists m, rotation_matrix_from_vectors v1 v2 = Ok (Some m) /\ mapply m v1 = v2 /\ isometry (mapply m)
    /\ mapply m (cross v1 v2) = cross v1 v2 /\ dot (row1 m) (cross (row2 m) (row3 m)) = 1.
Proof.
  intros v1 v2 U1 U2 NP. unfold rotation_matrix_from_vectors. rewrite !unit_on by assumption.
  pose proof (lagrange v1 v2) as L. rewrite U1, U2 in L.
  pose proof (sin_ang v1 v2 U1 U2) as SA. pose proof (cos_ang v1 v2 U1 U2) as CA.
  pose proof (unit_dot_bound v1 v2 U1 U2) as DB. pose proof (cross_cross v1 v2) as CC. pose proof (cross_perp v1 v2) as [PP _].
  cbv zeta. set (c := cross v1 v2) in *. clearbody c. pose proof (dot_self c) as CP.
  pose proof (sqrt_sqrt _ CP) as SS. pose proof (sqrt_pos (dot c c)) as SP.
  set (n := sqrt (dot c c)) in *.
  assert (Nn : n <> 0).
  { intros E. rewrite E in SS. apply NP. unfold dot in SS. destruct (sumsq0 (vx c) (vy c) (vz c)) as (A & B & D); [lra|].
    apply vec_eq; assumption. }
  unfold np_div. destruct (Req_EM_T n 0); [contradiction|]. cbn [obind]. rewrite np_arccos_in by exact DB. cbn [obind].
  fold (ang v1 v2). rewrite SA, CA.
  set (a := V (vx c / n) (vy c / n) (vz c / n)).
  exists (rod a (dot v1 v2) n). split; [reflexivity|].
  assert (A : c = scale n a) by (apply vec_eq; simpl; field; assumption).
  clearbody a. assert (UA : unit a).
  { unfold unit. apply (Rmult_eq_reg_l (n * n)); [|nra].
    transitivity (dot c c); [rewrite A; unfold dot, scale; simpl; ring|lra]. }
  assert (K : dot v1 v2 * dot v1 v2 + n * n = 1) by lra.
  clearbody n. split; [|split; [now apply rod_iso|split; [|now apply rod_det]]].
  - rewrite rod_apply. rewrite A in PP, CC.
    assert (O : dot a v1 = 0).
    { apply (Rmult_eq_reg_l n); [|assumption]. rewrite Rmult_0_r, <- PP. unfold dot, scale. simpl. ring. }
    assert (Q : scale n (cross a v1) = vadd v2 (scale (- dot v1 v2) v1)).
    { replace (scale n (cross a v1)) with (cross (scale n a) v1) by (apply vec_eq; unfold scale, cross; simpl; ring).
      rewrite CC, U1. apply vec_eq; unfold vadd, scale; simpl; ring. }
    rewrite Q, O. apply vec_eq; unfold vadd, scale; simpl; ring.
  - rewrite A, rod_apply. unfold unit in UA.
    replace (dot a (scale n a)) with n by (transitivity (n * dot a a); [rewrite UA; ring|unfold dot, scale; simpl; ring]).
    apply vec_eq; unfold vadd, scale, cross; simpl; ring.
Qed.

(** ** Directions seen from a point *)
Definition north (ra dec : R) : vec := V (- sin dec * cos ra) (- sin dec * sin ra) (cos dec).
Definition east (ra : R) : vec := V (- sin ra) (cos ra) 0.
(** The point reached from (ra, dec) by going [s] in the direction [b] east of north. *)
Definition along (ra dec b s : R) : vec :=
  vadd (scale (cos s) (xyz_from_ra_dec ra dec)) (scale (sin s) (vadd (scale (cos b) (north ra dec)) (scale (sin b) (east ra)))).

Ltac trig := unfold unit, along, vadd, scale, north, east, xyz_from_ra_dec, dot in *; cbn [vx vy vz] in *.
Ltac usecs t := let H := fresh "CS" in pose proof (cs1 t) as H; generalize dependent (cos t); generalize dependent (sin t); intros.

Lemma frame : forall ra dec, let P := xyz_from_ra_dec ra dec in let N := north ra dec in let E := east ra in
  dot P P = 1 /\ dot N N = 1 /\ dot E E = 1 /\ dot P N = 0 /\ dot P E = 0 /\ dot N E = 0.
Proof.
  intros ra dec. pose proof (cs1 ra) as A. pose proof (cs1 dec) as B. trig.
  set (c := cos ra) in *. set (s := sin ra) in *. set (k := cos dec) in *. set (t := sin dec) in *. clearbody c s k t.
  repeat split; nsatz.
Qed.
(** Every vector in the frame of a point. *)
Lemma frame_span : forall ra dec v,
  v = vadd (scale (dot v (xyz_from_ra_dec ra dec)) (xyz_from_ra_dec ra dec))
        (vadd (scale (dot v (north ra dec)) (north ra dec)) (scale (dot v (east ra)) (east ra))).
Proof.
  intros ra dec [p q r]. pose proof (cs1 ra) as A. pose proof (cs1 dec) as B. apply vec_eq; trig;
    set (c := cos ra) in *; set (s := sin ra) in *; set (k := cos dec) in *; set (t := sin dec) in *; clearbody c s k t; nsatz.
Qed.
Lemma dot_add_l : forall a b c, dot (vadd a b) c = dot a c + dot b c.
Proof. intros. trig. ring. Qed.
Lemma dot_scale_l : forall k a c, dot (scale k a) c = k * dot a c.
Proof. intros. trig. ring. Qed.
Lemma dot_add_r : forall a b c, dot c (vadd a b) = dot c a + dot c b.
Proof. intros. trig. ring. Qed.
Lemma dot_scale_r : forall k a c, dot c (scale k a) = k * dot c a.
Proof. intros. trig. ring. Qed.
Lemma along_dot : forall ra dec b s b' s',
  dot (along ra dec b s) (along ra dec b' s') = cos s * cos s' + sin s * sin s' * cos (b - b').
Proof.
  intros. destruct (frame ra dec) as (PP & NN & EE & PN & PE & NE). unfold along.
  repeat rewrite ?dot_add_l, ?dot_scale_l, ?dot_add_r, ?dot_scale_r.
  rewrite ?(dot_comm (north ra dec) (xyz_from_ra_dec ra dec)), ?(dot_comm (east ra) (xyz_from_ra_dec ra dec)), ?(dot_comm (east ra) (north ra dec)).
  rewrite PP, NN, EE, PN, PE, NE, cos_minus. ring.
Qed.
Lemma along_unit : forall ra dec b s, unit (along ra dec b s).
Proof. intros. unfold unit. rewrite along_dot, Rminus_diag_eq, cos_0 by reflexivity. pose proof (cs1 s). lra. Qed.
Lemma along_start : forall ra dec b, along ra dec b 0 = xyz_from_ra_dec ra dec.
Proof. intros. unfold along. rewrite cos_0, sin_0. apply vec_eq; trig; ring. Qed.
Lemma along_start_dot : forall ra dec b s, dot (xyz_from_ra_dec ra dec) (along ra dec b s) = cos s.
Proof. intros. rewrite <- (along_start ra dec b), along_dot, cos_0, sin_0. ring. Qed.
Lemma along_ang : forall ra dec b s, 0 <= s <= PI -> ang (xyz_from_ra_dec ra dec) (along ra dec b s) = s.
Proof. intros. unfold ang. rewrite along_start_dot. now apply acos_cos. Qed.

Lemma bear_en : forall lon1 lat1 lon2 lat2,
  dot (xyz_from_ra_dec lon2 lat2) (east lon1) = cos lat2 * sin (lon2 - lon1) /\
  dot (xyz_from_ra_dec lon2 lat2) (north lon1 lat1) = cos lat1 * sin lat2 - sin lat1 * cos lat2 * cos (lon2 - lon1).
Proof. intros. rewrite sin_minus, cos_minus. trig. split; ring. Qed.
Lemma bearing_along : forall lon1 lat1 lon2 lat2,
  xyz_from_ra_dec lon2 lat2 = along lon1 lat1 (bearing lon1 lat1 lon2 lat2) (ang (xyz_from_ra_dec lon1 lat1) (xyz_from_ra_dec lon2 lat2)).
Proof.
  intros. destruct (bear_en lon1 lat1 lon2 lat2) as [E N]. unfold bearing. cbv zeta. rewrite <- E, <- N.
  pose proof (xyz_unit lon1 lat1) as U1. pose proof (xyz_unit lon2 lat2) as U2.
  pose proof (cos_ang _ _ U1 U2) as C. pose proof (ang_range (xyz_from_ra_dec lon1 lat1) (xyz_from_ra_dec lon2 lat2)) as AR.
  set (L := ang _ _) in *. clearbody L.
  pose proof (frame_span lon1 lat1 (xyz_from_ra_dec lon2 lat2)) as SP.
  destruct (frame lon1 lat1) as (PP & NN & EE & PN & PE & NE).
  set (p1 := xyz_from_ra_dec lon1 lat1) in *. set (p2 := xyz_from_ra_dec lon2 lat2) in *.
  set (e := dot p2 (east lon1)) in *. set (n := dot p2 (north lon1 lat1)) in *.
  assert (H : sqrt (n * n + e * e) = sin L).
  { assert (0 <= sin L) by (apply sin_ge_0; lra). rewrite <- (sqrt_square (sin L)) by assumption. f_equal.
    pose proof (cs1 L) as K. rewrite C in K.
    assert (Q : dot p2 p2 = dot p2 p1 * dot p2 p1 + n * n + e * e).
    { rewrite SP at 2. rewrite !dot_add_r, !dot_scale_r. fold n e. ring. }
    rewrite U2, (dot_comm p2 p1) in Q. lra. }
  destruct (atan2_spec e n) as [B1 B2]. rewrite H in B1, B2.
  set (t := atan2 e n) in *. clearbody t. etransitivity; [exact SP|]. unfold along. fold p1.
  rewrite (dot_comm p2 p1), <- C. clearbody n e. rewrite B1, B2. apply vec_eq; unfold vadd, scale; cbn [vx vy vz]; ring.
Qed.

Lemma dest_along : forall d b lat1 lon1, - (PI / 2) < lat1 < PI / 2 -> exists lat2 lon2,
  dest_latlon d b lat1 lon1 = Some (lat2, lon2) /\ - (PI / 2) <= lat2 <= PI / 2 /\
  xyz_from_ra_dec lon2 lat2 = along lon1 lat1 b d.
Proof.
  intros d b lat1 lon1 H. pose proof (cos_dec_pos _ H) as CP. unfold dest_latlon.
  pose proof (along_unit lon1 lat1 b d) as U.
  assert (Z : vz (along lon1 lat1 b d) = sin lat1 * cos d + cos lat1 * sin d * cos b) by (trig; ring).
  rewrite <- Z. set (w := along lon1 lat1 b d) in *.
  assert (B : -1 <= vz w <= 1) by (unfold unit, dot in U; split; nra).
  rewrite np_arcsin_in by exact B. cbn [obind]. do 2 eexists. split; [reflexivity|]. split; [apply asin_bound|].
  set (px := cos d * cos lat1 - sin d * sin lat1 * cos b).
  set (py := sin d * sin b).
  assert (WX : vx w = px * cos lon1 - py * sin lon1) by (unfold w, px, py; trig; ring).
  assert (WY : vy w = px * sin lon1 + py * cos lon1) by (unfold w, px, py; trig; ring).
  rewrite sin_asin by exact B.
  replace (sin b * sin d * cos lat1) with (cos lat1 * py) by (unfold py; ring).
  replace (cos d - sin lat1 * vz w) with (cos lat1 * px)
    by (rewrite Z; unfold px; pose proof (cs1 lat1); nsatz).
  destruct (atan2_spec (cos lat1 * py) (cos lat1 * px)) as [A1 A2]. set (t := atan2 _ _) in *. clearbody t.
  assert (HH : sqrt (cos lat1 * px * (cos lat1 * px) + cos lat1 * py * (cos lat1 * py)) = cos lat1 * cos (asin (vz w))).
  { rewrite cos_asin by exact B. replace (cos lat1) with (sqrt (cos lat1 * cos lat1)) at 5 by (apply sqrt_square; lra).
    rewrite <- sqrt_mult_alt by nra. f_equal. unfold Rsqr.
    assert (Q : px * px + py * py = 1 - vz w * vz w).
    { unfold unit, dot in U. rewrite WX, WY in U.
      replace ((px * cos lon1 - py * sin lon1) * (px * cos lon1 - py * sin lon1) + (px * sin lon1 + py * cos lon1) * (px * sin lon1 + py * cos lon1))
        with ((px * px + py * py) * (cos lon1 * cos lon1 + sin lon1 * sin lon1)) in U by ring.
      rewrite cs1 in U. lra. }
    rewrite <- Q. ring. }
  rewrite HH in A1, A2.
  assert (B1 : px = cos (asin (vz w)) * cos t) by (apply (Rmult_eq_reg_l (cos lat1)); lra).
  assert (B2 : py = cos (asin (vz w)) * sin t) by (apply (Rmult_eq_reg_l (cos lat1)); lra).
  apply vec_eq; unfold xyz_from_ra_dec; cbn [vx vy vz].
  - rewrite WX, B1, B2, cos_plus. ring.
  - rewrite WY, B1, B2, sin_plus. ring.
  - now apply sin_asin.
Qed.
Lemma bearing_of_along : forall lon1 lat1 lon2 lat2 b s, 0 < s < PI ->
  xyz_from_ra_dec lon2 lat2 = along lon1 lat1 b s -> congr (2 * PI) (bearing lon1 lat1 lon2 lat2) b.
Proof.
  intros lon1 lat1 lon2 lat2 b s Hs E. unfold bearing. cbv zeta. destruct (bear_en lon1 lat1 lon2 lat2) as [X Y]. rewrite <- X, <- Y, E.
  destruct (frame lon1 lat1) as (PP & NN & EE & PN & PE & NE).
  assert (D1 : dot (along lon1 lat1 b s) (east lon1) = sin s * sin b).
  { unfold along. rewrite !dot_add_l, !dot_scale_l, !dot_add_l, !dot_scale_l, PE, NE, EE. ring. }
  assert (D2 : dot (along lon1 lat1 b s) (north lon1 lat1) = sin s * cos b).
  { unfold along. rewrite !dot_add_l, !dot_scale_l, !dot_add_l, !dot_scale_l, PN, NN, (dot_comm (east lon1)), NE. ring. }
  rewrite D1, D2. apply atan2_polar. apply sin_gt_0; lra.
Qed.

(** ** Gnomonic projection *)
Lemma tosky_vec : forall x y racen deccen, let '(ra, dec) := gnomonic_tosky x y racen deccen in
  - (PI / 2) <= dec <= PI / 2 /\
  scale (sqrt (1 + x * x + y * y)) (xyz_from_ra_dec ra dec) =
  vadd (xyz_from_ra_dec racen deccen) (vadd (scale x (east racen)) (scale y (north racen deccen))).
Proof.
  intros x y racen deccen. unfold gnomonic_tosky. set (den := cos deccen - y * sin deccen). set (u := sin deccen + y * cos deccen).
  destruct (atan2_spec x den) as [A1 A2]. set (t := atan2 x den) in *. clearbody t.
  rewrite (Rplus_comm (x * x)). pose proof (sqrt_pos (den * den + x * x)) as RP. pose proof (hyp_sq den x) as RS.
  set (r := sqrt (den * den + x * x)) in *. clearbody r.
  destruct (atan2_spec u r) as [B1 B2]. pose proof (atan2_range u r) as BR. set (d := atan2 u r) in *. clearbody d.
  assert (E : sqrt (r * r + u * u) = sqrt (1 + x * x + y * y)).
  { f_equal. rewrite RS. unfold den, u.
    transitivity (x * x + (1 + y * y) * (cos deccen * cos deccen + sin deccen * sin deccen)); [ring|rewrite cs1; ring]. }
  rewrite E in B1, B2.
  assert (NP : 0 < sqrt (1 + x * x + y * y)) by (apply sqrt_lt_R0; nra).
  set (n := sqrt (1 + x * x + y * y)) in *. clearbody n.
  split.
  - assert (C0 : 0 <= cos d) by nra. pose proof PI_RGT_0. split.
    + destruct (Rle_dec (- (PI / 2)) d); [assumption|exfalso].
      assert (cos (- d) < 0) by (apply cos_lt_0; lra). rewrite cos_neg in H0. lra.
    + destruct (Rle_dec d (PI / 2)); [assumption|exfalso]. assert (cos d < 0) by (apply cos_lt_0; lra). lra.
  - apply vec_eq; unfold vadd, scale, xyz_from_ra_dec, east, north; cbn [vx vy vz].
    + rewrite cos_plus. transitivity ((n * cos d) * cos t * cos racen - (n * cos d) * sin t * sin racen); [ring|].
      rewrite <- B1, <- A1, <- A2. unfold den. ring.
    + rewrite sin_plus. transitivity ((n * cos d) * cos t * sin racen + (n * cos d) * sin t * cos racen); [ring|].
      rewrite <- B1, <- A1, <- A2. unfold den. ring.
    + rewrite <- B2. unfold u. ring.
Qed.
Lemma toxy_dots : forall ra1 dec1 racen deccen,
  sin deccen * sin dec1 + cos deccen * cos dec1 * cos (ra1 - racen) = dot (xyz_from_ra_dec racen deccen) (xyz_from_ra_dec ra1 dec1).
Proof. intros. rewrite cos_minus. trig. ring. Qed.
Lemma toxy_eq : forall ra1 dec1 racen deccen, let p := xyz_from_ra_dec ra1 dec1 in let c := dot (xyz_from_ra_dec racen deccen) p in
  c <> 0 -> gnomonic_toxy ra1 dec1 racen deccen = Some (dot p (east racen) / c, dot p (north racen deccen) / c).
Proof.
  intros ra1 dec1 racen deccen p c H. unfold gnomonic_toxy. rewrite toxy_dots. fold p c. destruct (Req_EM_T c 0); [contradiction|].
  destruct (bear_en racen deccen ra1 dec1) as [E N]. fold p in E, N. now rewrite E, N.
Qed.
Lemma scale_inj : forall k a b, k <> 0 -> scale k a = scale k b -> a = b.
Proof.
  intros k [a1 a2 a3] [b1 b2 b3] K E. unfold scale in E. cbn [vx vy vz] in E. injection E as E1 E2 E3.
  apply vec_eq; cbn [vx vy vz]; now apply (Rmult_eq_reg_l k).
Qed.
Lemma gno_radius : forall c e n, c <> 0 -> c * c + n * n + e * e = 1 -> sqrt (1 + (e / c) * (e / c) + (n / c) * (n / c)) = / Rabs c.
Proof.
  intros c e n C H. pose proof (Rabs_pos_lt c C) as P. pose proof (Rinv_0_lt_compat _ P) as IP.
  rewrite <- (sqrt_square (/ Rabs c)) by lra. f_equal. rewrite <- Rinv_mult.
  replace (Rabs c * Rabs c) with (c * c) by (rewrite <- Rabs_mult; symmetry; apply Rabs_pos_eq; nra).
  transitivity ((c * c + n * n + e * e) / (c * c)); [field; exact C|rewrite H; field; exact C].
Qed.
Lemma frame_sq : forall ra dec v, unit v -> let c := dot (xyz_from_ra_dec ra dec) v in
  c * c + dot v (north ra dec) * dot v (north ra dec) + dot v (east ra) * dot v (east ra) = 1.
Proof.
  intros ra dec v U c. pose proof (frame_span ra dec v) as S. rewrite <- U. rewrite S at 6.
  rewrite !dot_add_r, !dot_scale_r. unfold c. rewrite (dot_comm _ v). ring.
Qed.
Lemma gno_there_back : forall ra1 dec1 racen deccen, let c := dot (xyz_from_ra_dec racen deccen) (xyz_from_ra_dec ra1 dec1) in
  c <> 0 -> exists x y, gnomonic_toxy ra1 dec1 racen deccen = Some (x, y) /\
    let '(ra, dec) := gnomonic_tosky x y racen deccen in
    - (PI / 2) <= dec <= PI / 2 /\ xyz_from_ra_dec ra dec = scale (if Rlt_dec 0 c then 1 else -1) (xyz_from_ra_dec ra1 dec1).
Proof.
  intros ra1 dec1 racen deccen c C. do 2 eexists. split; [apply toxy_eq; exact C|]. fold c.
  pose proof (frame_sq racen deccen _ (xyz_unit ra1 dec1)) as S. cbv zeta in S. fold c in S.
  pose proof (frame_span racen deccen (xyz_from_ra_dec ra1 dec1)) as SP. rewrite (dot_comm _ (xyz_from_ra_dec racen deccen)) in SP. fold c in SP.
  set (p := xyz_from_ra_dec ra1 dec1) in *. set (e := dot p (east racen)) in *. set (n := dot p (north racen deccen)) in *.
  pose proof (tosky_vec (e / c) (n / c) racen deccen) as T. destruct (gnomonic_tosky (e / c) (n / c) racen deccen) as [ra dec].
  destruct T as [D T]. split; [exact D|].
  rewrite (gno_radius c e n C S) in T.
  set (P := xyz_from_ra_dec racen deccen) in *. set (N := north racen deccen) in *. set (E := east racen) in *.
  assert (K : scale (/ Rabs c) (xyz_from_ra_dec ra dec) = scale (/ c) p).
  { rewrite T, SP. apply vec_eq; unfold vadd, scale; cbn [vx vy vz]; field; exact C. }
  pose proof (Rabs_pos_lt c C) as AP.
  apply (scale_inj (/ Rabs c)); [apply Rinv_neq_0_compat; lra|]. rewrite K.
  destruct (Rlt_dec 0 c) as [L|L].
  - rewrite Rabs_pos_eq by lra. apply vec_eq; unfold scale; cbn [vx vy vz]; ring.
  - rewrite Rabs_left by lra. apply vec_eq; unfold scale; cbn [vx vy vz]; field; lra.
Qed.
Lemma gno_back_there : forall x y racen deccen, let '(ra, dec) := gnomonic_tosky x y racen deccen in
  gnomonic_toxy ra dec racen deccen = Some (x, y) /\ 0 < dot (xyz_from_ra_dec racen deccen) (xyz_from_ra_dec ra dec).
Proof.
  intros x y racen deccen. pose proof (tosky_vec x y racen deccen) as T. destruct (gnomonic_tosky x y racen deccen) as [ra dec].
  destruct T as [_ T]. assert (NP : 0 < sqrt (1 + x * x + y * y)) by (apply sqrt_lt_R0; nra).
  set (n := sqrt (1 + x * x + y * y)) in *. destruct (frame racen deccen) as (PP & NN & EE & PN & PE & NE).
  set (p := xyz_from_ra_dec ra dec) in *. set (C := xyz_from_ra_dec racen deccen) in *.
  assert (D1 : n * dot C p = 1).
  { rewrite <- dot_scale_r, T, !dot_add_r, !dot_scale_r, PP, PN, PE. ring. }
  assert (D2 : n * dot p (east racen) = x).
  { rewrite <- dot_scale_l, T, !dot_add_l, !dot_scale_l, PE, EE, NE. ring. }
  assert (D3 : n * dot p (north racen deccen) = y).
  { rewrite <- dot_scale_l, T, !dot_add_l, !dot_scale_l, PN, NN, (dot_comm (east racen)), NE. ring. }
  assert (P : 0 < dot C p) by nra.
  split; [|exact P]. rewrite toxy_eq; fold p C; [|lra].
  f_equal. f_equal; apply (Rmult_eq_reg_l (n * dot C p)); try nra.
  - transitivity (n * dot p (east racen)); [field; lra|]. rewrite D1, D2. ring.
  - transitivity (n * dot p (north racen deccen)); [field; lra|]. rewrite D1, D3. ring.
Qed.
Lemma gno_tan : forall ra1 dec1 racen deccen x y, gnomonic_toxy ra1 dec1 racen deccen = Some (x, y) ->
  let s := ang (xyz_from_ra_dec racen deccen) (xyz_from_ra_dec ra1 dec1) in s < PI / 2 -> sqrt (x * x + y * y) = tan s.
Proof.
  intros ra1 dec1 racen deccen x y E s Hs. pose proof (ang_range (xyz_from_ra_dec racen deccen) (xyz_from_ra_dec ra1 dec1)) as AR. fold s in AR.
  pose proof (cos_ang _ _ (xyz_unit racen deccen) (xyz_unit ra1 dec1)) as CA. fold s in CA.
  assert (CP : 0 < cos s) by (apply cos_gt_0; lra).
  rewrite toxy_eq in E by lra. rewrite <- CA in E. injection E as <- <-.
  pose proof (frame_sq racen deccen _ (xyz_unit ra1 dec1)) as S. cbv zeta in S. rewrite <- CA in S.
  set (e := dot _ (east racen)) in *. set (n := dot _ (north racen deccen)) in *.
  assert (SP : 0 <= sin s) by (apply sin_ge_0; lra).
  assert (TP : 0 <= tan s) by (unfold tan; apply Rmult_le_pos; [exact SP|left; now apply Rinv_0_lt_compat]).
  rewrite <- (sqrt_square (tan s)) by exact TP. f_equal. unfold tan. pose proof (cs1 s).
  transitivity ((n * n + e * e) / (cos s * cos s)); [field; lra|]. replace (n * n + e * e) with (sin s * sin s) by lra. field; lra.
Qed.

(** ** Distance to an arc *)
(** The shorter arc between two points: the unit vectors between them. *)
Definition on_arc (p q v : vec) : Prop := unit v /\ exists a b, 0 <= a /\ 0 <= b /\ v = vadd (scale a p) (scale b q).
Lemma arc_along : forall ra dec b L v, 0 <= L < PI -> on_arc (xyz_from_ra_dec ra dec) (along ra dec b L) v ->
  exists s, 0 <= s <= L /\ v = along ra dec b s.
Proof.
  intros ra dec b L v HL (U & x & y & X & Y & E). pose proof PI_RGT_0 as PP.
  assert (SL : 0 <= sin L) by (apply sin_ge_0; lra).
  assert (N1 : dot v (xyz_from_ra_dec ra dec) = x + y * cos L).
  { rewrite E, dot_add_l, !dot_scale_l, (dot_comm (along ra dec b L)), along_start_dot, (xyz_unit ra dec). ring. }
  pose proof (unit_dot_bound _ _ U (xyz_unit ra dec)) as B. rewrite N1 in B.
  set (s := acos (x + y * cos L)).
  pose proof (acos_bound (x + y * cos L)) as SB. fold s in SB.
  assert (CS : cos s = x + y * cos L) by (apply cos_acos; exact B).
  assert (SQ : sin s = y * sin L).
  { assert (G : 0 <= sin s) by (apply sin_ge_0; lra). assert (G2 : 0 <= y * sin L) by nra.
    assert (Q : sin s * sin s = y * sin L * (y * sin L)).
    { pose proof (cs1 s) as K1. pose proof (cs1 L) as K2. rewrite CS in K1.
      assert (W : x * x + 2 * x * y * cos L + y * y = 1).
      { unfold unit in U. rewrite E in U. rewrite dot_add_l, !dot_add_r, !dot_scale_l, !dot_scale_r, (dot_comm (along ra dec b L) (xyz_from_ra_dec ra dec)), along_start_dot, (xyz_unit ra dec), (along_unit ra dec b L) in U. lra. }
      nra. }
    nra. }
  exists s. split.
  - split; [lra|]. destruct (Req_dec L 0) as [Z|NZ].
    + subst L. rewrite cos_0 in CS. rewrite sin_0 in SQ.
      assert (cos s * cos s = 1) by (pose proof (cs1 s); nra). assert (cos s = 1) by nra.
      assert (T : acos (cos s) = s) by (apply acos_cos; lra). rewrite H0, acos_1 in T. lra.
    + destruct (Rle_dec s L) as [Q|Q]; [exact Q|exfalso].
      assert (0 < sin (s - L)) by (apply sin_gt_0; lra). rewrite sin_minus, SQ, CS in H. nra.
  - rewrite E. unfold along. rewrite CS, SQ. apply vec_eq; unfold vadd, scale; cbn [vx vy vz]; ring.
Qed.
Lemma along_arc : forall ra dec b L s, 0 <= s <= L -> L < PI -> on_arc (xyz_from_ra_dec ra dec) (along ra dec b L) (along ra dec b s).
Proof.
  intros ra dec b L s Hs HL. split; [apply along_unit|]. destruct (Req_dec L 0) as [Z|NZ].
  - assert (s = 0) by lra. subst. exists 1, 0. repeat split; try lra. rewrite !along_start. apply vec_eq; unfold vadd, scale; cbn [vx vy vz]; ring.
  - assert (SL : 0 < sin L) by (apply sin_gt_0; lra). exists (sin (L - s) / sin L), (sin s / sin L).
    assert (I : 0 <= / sin L) by (left; now apply Rinv_0_lt_compat).
    split; [apply Rmult_le_pos; [apply sin_ge_0; lra|exact I]|]. split; [apply Rmult_le_pos; [apply sin_ge_0; lra|exact I]|].
    unfold along. rewrite sin_minus.
    apply vec_eq; unfold vadd, scale; cbn [vx vy vz]; field; lra.
Qed.
Lemma ang_val : forall a b t, 0 <= t <= PI -> dot a b = cos t -> ang a b = t.
Proof. intros a b t H E. unfold ang. rewrite E. now apply acos_cos. Qed.
Lemma ang_ge : forall a b t, unit a -> unit b -> 0 <= t <= PI -> dot a b <= cos t -> t <= ang a b.
Proof.
  intros a b t A B H E. pose proof (ang_range a b). apply cos_decr_0; try lra. now rewrite cos_ang.
Qed.

Lemma line_distance : forall lon1 lat1 lon2 lat2 lon3 lat3,
  let p1 := xyz_from_ra_dec lon1 lat1 in let p2 := xyz_from_ra_dec lon2 lat2 in let p3 := xyz_from_ra_dec lon3 lat3 in
  ang p1 p2 < PI -> ang p1 p3 <= PI / 2 \/ (ang p1 p3 < PI /\ 0 < ang p1 p2 /\ dot p1 p2 * dot p1 p3 <= dot p2 p3) ->
  exists r, point_to_line_distance lon1 lat1 lon2 lat2 lon3 lat3 = Some r /\
    (forall q, on_arc p1 p2 q -> r <= ang q p3) /\ (exists q, on_arc p1 p2 q /\ ang q p3 = r).
Proof.
  intros lon1 lat1 lon2 lat2 lon3 lat3 p1 p2 p3 HL G. pose proof PI_RGT_0 as PP.
  pose proof (bearing_along lon1 lat1 lon2 lat2) as E2. pose proof (bearing_along lon1 lat1 lon3 lat3) as E3.
  fold p1 p2 in E2. fold p1 p3 in E3.
  unfold point_to_line_distance. cbv zeta. rewrite !sep1_ang. fold p1 p2 p3. cbn [obind].
  pose proof (ang_range p1 p2) as LR. pose proof (ang_range p1 p3) as DR.
  assert (B2 := atan2_range (cos lat2 * sin (lon2 - lon1)) (cos lat1 * sin lat2 - sin lat1 * cos lat2 * cos (lon2 - lon1))).
  assert (B3 := atan2_range (cos lat3 * sin (lon3 - lon1)) (cos lat1 * sin lat3 - sin lat1 * cos lat3 * cos (lon3 - lon1))).
  fold (bearing lon1 lat1 lon2 lat2) in B2. fold (bearing lon1 lat1 lon3 lat3) in B3.
  set (b2 := bearing lon1 lat1 lon2 lat2) in *. set (b3 := bearing lon1 lat1 lon3 lat3) in *.
  assert (U1 : unit p1) by apply xyz_unit. assert (U2 : unit p2) by apply xyz_unit. assert (U3 : unit p3) by apply xyz_unit.
  assert (DG : dot p1 p2 * dot p1 p3 <= dot p2 p3 -> 0 < ang p1 p2 -> 0 < ang p1 p3 -> ang p1 p3 < PI -> 0 <= cos (b3 - b2)).
  { intros K K1 K2 K3. assert (0 < sin (ang p1 p2)) by (apply sin_gt_0; lra). assert (0 < sin (ang p1 p3)) by (apply sin_gt_0; lra).
    rewrite <- (cos_ang p1 p2), <- (cos_ang p1 p3) in K by assumption.
    assert (Q : dot p2 p3 = cos (ang p1 p2) * cos (ang p1 p3) + sin (ang p1 p2) * sin (ang p1 p3) * cos (b3 - b2)).
    { rewrite E2, E3 at 1. rewrite along_dot, <- (cos_neg (b2 - b3)). do 2 f_equal. f_equal. ring. }
    assert (0 < sin (ang p1 p2) * sin (ang p1 p3)) by nra. nra. }
  set (L := ang p1 p2) in *. set (d := ang p1 p3) in *.
  assert (DOT : forall s, dot (along lon1 lat1 b2 s) p3 = cos s * cos d + sin s * sin d * cos (b3 - b2)).
  { intros s. rewrite E3, along_dot, <- (cos_neg (b2 - b3)). do 2 f_equal. f_equal. ring. }
  set (D := b3 - b2) in *.
  set (diff := if Rlt_dec PI (Rabs D) then 2 * PI - Rabs D else Rabs D).
  assert (DF : 0 <= diff <= PI /\ cos diff = cos D).
  { assert (A : Rabs D < 2 * PI) by (apply Rabs_def1; unfold D; lra).
    assert (CA : cos (Rabs D) = cos D). { unfold Rabs. destruct (Rcase_abs D); [apply cos_neg|reflexivity]. }
    unfold diff. destruct (Rlt_dec PI (Rabs D)).
    - split; [lra|]. rewrite <- CA. replace (2 * PI - Rabs D) with (- Rabs D + 2 * INR 1 * PI) by (simpl; ring). rewrite cos_period. apply cos_neg.
    - split; [pose proof (Rabs_pos D); lra|exact CA]. }
  destruct DF as [DF CD].
  assert (ARC : forall v, on_arc p1 p2 v -> exists s, 0 <= s <= L /\ v = along lon1 lat1 b2 s).
  { intros v Hv. rewrite E2 in Hv. apply (arc_along lon1 lat1 b2 L v); [lra|exact Hv]. }
  assert (ARC' : forall s, 0 <= s <= L -> on_arc p1 p2 (along lon1 lat1 b2 s)).
  { intros s Hs. rewrite E2. now apply along_arc. }
  assert (SD : 0 <= sin d) by (apply sin_ge_0; lra).
  destruct (Rlt_dec (PI / 2) diff) as [OB|OB].
  - (* obtuse *)
    assert (CN : cos D < 0) by (rewrite <- CD; apply cos_lt_0; lra).
    assert (HD : d <= PI / 2).
    { destruct G as [G|(G1 & G2 & G3)]; [exact G|]. destruct (Req_dec d 0); [lra|]. exfalso. specialize (DG G3 G2 ltac:(lra) G1). lra. }
    exists d. split; [reflexivity|]. split.
    + intros q Hq. destruct (ARC q Hq) as (s & Hs & ->). apply ang_ge; [apply along_unit|exact U3|lra|].
      rewrite DOT. assert (0 <= sin s) by (apply sin_ge_0; lra). assert (0 <= cos d) by (apply cos_ge_0; lra).
      pose proof (COS_bound s). assert (0 <= sin s * sin d) by nra. nra.
    + exists (along lon1 lat1 b2 0). split; [apply ARC'; lra|]. rewrite along_start. reflexivity.
  - assert (CN : 0 <= cos D) by (rewrite <- CD; apply cos_ge_0; lra). clear OB.
    assert (XB : -1 <= sin d * sin D <= 1).
    { pose proof (SIN_bound d). pose proof (SIN_bound D). split; nra. }
    rewrite np_arcsin_in by exact XB. cbn [obind]. set (dxt := asin (sin d * sin D)).
    pose proof (asin_bound (sin d * sin D)) as XR. fold dxt in XR.
    assert (RX : 0 <= cos dxt) by (apply cos_ge_0; lra).
    assert (SX : sin dxt = sin d * sin D) by (apply sin_asin; exact XB).
    assert (RR : cos dxt * cos dxt = cos d * cos d + sin d * cos D * (sin d * cos D)).
    { pose proof (cs1 dxt). rewrite SX in H. pose proof (cs1 d). pose proof (cs1 D). nra. }
    assert (AX : 0 <= Rabs dxt <= PI) by (split; [apply Rabs_pos|apply Rabs_le; lra]).
    assert (CX : cos (Rabs dxt) = cos dxt). { unfold Rabs. destruct (Rcase_abs dxt); [apply cos_neg|reflexivity]. }
    unfold np_div. destruct (Req_EM_T (cos dxt) 0) as [Z|NZ].
    + cbn [obind gt_opt]. exists (Rabs dxt). split; [reflexivity|].
      assert (Z1 : cos d = 0) by (rewrite Z in RR; nra). assert (Z2 : sin d * cos D = 0) by (rewrite Z in RR; nra).
      assert (DZ : forall s, dot (along lon1 lat1 b2 s) p3 = cos (Rabs dxt)).
      { intros s. rewrite DOT, CX, Z, Z1, Rmult_assoc, Z2. ring. }
      split.
      * intros q Hq. destruct (ARC q Hq) as (s & Hs & ->). apply ang_ge; [apply along_unit|exact U3|exact AX|]. rewrite DZ. lra.
      * exists (along lon1 lat1 b2 0). split; [apply ARC'; lra|]. apply ang_val; [exact AX|apply DZ].
    + cbn [obind]. assert (RP : 0 < cos dxt) by lra. set (R := cos dxt) in *.
      assert (PB : -1 <= cos d / R <= 1) by (apply ratio_bound; [exact RP|rewrite RR; nra]).
      rewrite np_arccos_in by exact PB. set (phi := acos (cos d / R)). pose proof (acos_bound (cos d / R)) as PR. fold phi in PR.
      assert (CP : R * cos phi = cos d). { unfold phi. rewrite cos_acos by exact PB. field. lra. }
      assert (SPh : R * sin phi = sin d * cos D).
      { assert (0 <= sin phi) by (apply sin_ge_0; lra).
        assert (Q : R * sin phi * (R * sin phi) = sin d * cos D * (sin d * cos D)).
        { pose proof (cs1 phi). rewrite <- CP in RR. nra. }
        assert (0 <= R * sin phi) by nra. assert (0 <= sin d * cos D) by nra. nra. }
      assert (DR' : forall s, dot (along lon1 lat1 b2 s) p3 = R * cos (s - phi)).
      { intros s. rewrite DOT, cos_minus, <- CP. rewrite Rmult_assoc, <- SPh. ring. }
      unfold gt_opt. destruct (Rlt_dec L phi) as [B|B].
      * exists (ang p2 p3). split; [reflexivity|]. split.
        -- intros q Hq. destruct (ARC q Hq) as (s & Hs & ->).
           apply ang_le; [exact U2|exact U3|apply along_unit|exact U3|]. rewrite E2, !DR'. fold L.
           rewrite <- (cos_neg (s - phi)), <- (cos_neg (L - phi)).
           assert (cos (- (s - phi)) <= cos (- (L - phi))) by (apply cos_decr_1; lra). nra.
        -- exists p2. split; [|reflexivity]. rewrite E2 at 2. fold L. apply ARC'. lra.
      * exists (Rabs dxt). split; [reflexivity|]. split.
        -- intros q Hq. destruct (ARC q Hq) as (s & Hs & ->). apply ang_ge; [apply along_unit|exact U3|exact AX|].
           rewrite DR', CX. pose proof (COS_bound (s - phi)). nra.
        -- exists (along lon1 lat1 b2 phi). split; [apply ARC'; lra|]. apply ang_val; [exact AX|].
           rewrite DR', CX, Rminus_diag_eq, cos_0 by reflexivity. ring.
Qed.
