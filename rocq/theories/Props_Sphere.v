(** C98: positions on the unit sphere, separations, cone searches and rotations. *)
From Coq Require Import List Bool Reals Lra Lia ZArith Arith Nsatz.
From Verif Require Import Base Angles Sphere Sphere_proofs.
Import ListNotations.
Open Scope R_scope.

(** What the positions mean: the point of the unit sphere at (ra, dec), inner products, angles
    and straight-line distances. *)
Definition pos (ra dec : R) : vec := V (cos dec * cos ra) (cos dec * sin ra) (sin dec).
Definition inner (a b : vec) : R := vx a * vx b + vy a * vy b + vz a * vz b.
Definition times (k : R) (v : vec) : vec := V (k * vx v) (k * vy v) (k * vz v).
Definition straight (a b : vec) : R := sqrt ((vx a - vx b) ^ 2 + (vy a - vy b) ^ 2 + (vz a - vz b) ^ 2).
Lemma pos_xyz : forall ra dec, pos ra dec = xyz_from_ra_dec ra dec.
Proof. intros. apply vec_eq; simpl; ring. Qed.

(** _xyz_from_ra_dec gives the position, of length one. *)
Theorem C98_position : forall ra dec,
  xyz_from_ra_dec ra dec = pos ra dec /\ inner (xyz_from_ra_dec ra dec) (xyz_from_ra_dec ra dec) = 1.
Proof. intros. split; [now rewrite pos_xyz|apply xyz_unit]. Qed.
Print Assumptions C98_position.
Example C98_position_ex : xyz_from_ra_dec (PI / 2) 0 = V 0 1 0.
Proof. apply vec_eq; simpl; rewrite ?cos_PI2, ?sin_PI2, ?cos_0, ?sin_0; ring. Qed.

(** _ra_dec_from_xyz: any vector but the origin gets a declination between the poles, an ra in
    (-pi, pi] and lies in the direction they name. *)
Theorem C98_direction : forall x y z, ~ (x = 0 /\ y = 0 /\ z = 0) ->
  exists ra dec, ra_dec_from_xyz x y z = (ra, Some dec) /\ - PI < ra <= PI /\ - (PI / 2) <= dec <= PI / 2 /\
  exists n, 0 < n /\ V x y z = times n (pos ra dec).
Proof.
  intros x y z H. destruct (radec_vec x y z H) as (dec & E & R & N & X & Y & Z).
  exists (fst (ra_dec_from_xyz x y z)), dec. split; [destruct (ra_dec_from_xyz x y z) as [a o]; simpl in *; congruence|].
  split; [apply atan2_range|]. split; [exact R|]. exists (sqrt (x ^ 2 + y ^ 2 + z ^ 2)). split; [exact N|].
  rewrite pos_xyz. apply vec_eq; [exact X|exact Y|exact Z].
Qed.
Print Assumptions C98_direction.
Example C98_direction_ex : ra_dec_from_xyz 0 (-2) 0 = (- (PI / 2), Some 0).
Proof.
  unfold ra_dec_from_xyz. replace (0 ^ 2 + (-2) ^ 2 + 0 ^ 2) with (2 * 2) by ring. rewrite sqrt_square by lra.
  unfold np_div. destruct (Req_EM_T 2 0); [lra|]. simpl. replace (0 / 2) with 0 by field. rewrite np_arcsin_in, asin_0 by lra.
  f_equal. pose proof PI_RGT_0. apply (atan2_val 2); try lra; rewrite ?cos_neg, ?sin_neg, ?cos_PI2, ?sin_PI2; lra.
Qed.

(** ra, dec to xyz and back: the same dec, and the same ra up to whole turns unless at a pole. *)
Theorem C98_round : forall ra dec, - (PI / 2) <= dec <= PI / 2 ->
  let v := xyz_from_ra_dec ra dec in let a := ra_dec_from_xyz (vx v) (vy v) (vz v) in
  snd a = Some dec /\ (- (PI / 2) < dec < PI / 2 -> exists k : Z, fst a = ra + IZR k * (2 * PI)).
Proof. intros ra dec H. exact (radec_round ra dec H). Qed.
Print Assumptions C98_round.
(** But an ra between 0 and 2 pi does not come back as itself. *)
Theorem C98_round_refuted : exists ra dec, 0 <= ra < 2 * PI /\ - (PI / 2) < dec < PI / 2 /\
  let v := xyz_from_ra_dec ra dec in fst (ra_dec_from_xyz (vx v) (vy v) (vz v)) <> ra /\ fst (ra_dec_from_xyz (vx v) (vy v) (vz v)) < 0.
Proof.
  exists (3 * (PI / 2)), 0. pose proof PI_RGT_0. split; [lra|]. split; [lra|]. intros v.
  assert (E : fst (ra_dec_from_xyz (vx v) (vy v) (vz v)) = - (PI / 2)).
  { unfold ra_dec_from_xyz. cbv zeta delta [fst]. cbv beta iota. subst v. simpl. rewrite cos_0, cos_3PI2, sin_3PI2.
    apply (atan2_val 1); try lra; rewrite ?cos_neg, ?sin_neg, ?cos_PI2, ?sin_PI2; lra. }
  rewrite E. split; lra.
Qed.
Print Assumptions C98_round_refuted.

(** _angular_separation is never a nan: it is the angle in [0, pi] between the two positions. *)
Theorem C98_separation : forall long1 lat1 long2 lat2, exists s,
  sep1 long1 lat1 long2 lat2 = Some s /\ 0 <= s <= PI /\ cos s = inner (pos long1 lat1) (pos long2 lat2).
Proof.
  intros. eexists. split; [apply sep1_ang|]. split; [apply ang_range|]. rewrite !pos_xyz. apply cos_ang; apply xyz_unit.
Qed.
Print Assumptions C98_separation.
Example C98_separation_ex : sep1 0 0 (PI / 2) (PI / 3) = Some (PI / 2).
Proof.
  rewrite sep1_ang. f_equal. pose proof PI_RGT_0. apply ang_val; [lra|]. unfold dot. simpl.
  rewrite ?cos_0, ?sin_0, ?cos_PI2, ?sin_PI2. ring.
Qed.

(** It is a distance: symmetric, zero for the same position only, and a detour is never shorter. *)
Theorem C98_metric : forall a b c d e f,
  sep1 a b c d = sep1 c d a b /\
  (sep1 a b c d = Some 0 <-> pos a b = pos c d) /\
  (forall s t u, sep1 a b c d = Some s -> sep1 c d e f = Some t -> sep1 a b e f = Some u -> u <= s + t).
Proof.
  intros a b c d e f. pose proof (xyz_unit a b) as U1. pose proof (xyz_unit c d) as U2. pose proof (xyz_unit e f) as U3.
  rewrite !pos_xyz. split; [|split].
  - rewrite !sep1_ang. f_equal. apply ang_sym.
  - rewrite sep1_ang. rewrite <- (ang_zero _ _ U1 U2). split; [congruence|now intros ->].
  - intros s t u. rewrite !sep1_ang. intros [= <-] [= <-] [= <-]. now apply ang_triangle.
Qed.
Print Assumptions C98_metric.
Example C98_metric_ex : forall long lat, sep1 long lat (long + 2 * PI) lat = Some 0.
Proof. intros. apply C98_metric; [exact 0|exact 0|]. unfold pos. now rewrite cos_plus, sin_plus, cos_2PI, sin_2PI, !Rmult_1_r, !Rmult_0_r, Rminus_0_r, Rplus_0_r. Qed.

(** angular_separation, in degrees, lies in [0, 180]. *)
Theorem C98_degrees : forall long1 lat1 long2 lat2, exists s,
  sep1_deg long1 lat1 long2 lat2 = Some s /\ 0 <= s <= 180 /\
  cos (s * PI / 180) = inner (pos (long1 * PI / 180) (lat1 * PI / 180)) (pos (long2 * PI / 180) (lat2 * PI / 180)).
Proof.
  intros. pose proof PI_RGT_0 as P. unfold sep1_deg.
  destruct (C98_separation (radians long1) (radians lat1) (radians long2) (radians lat2)) as (s & -> & R & C).
  exists (degrees s). split; [reflexivity|]. unfold degrees. split.
  - assert (s * 180 / PI * PI = s * 180) by (field; lra). set (q := s * 180 / PI) in *. clearbody q. split; nra.
  - replace (s * 180 / PI * PI / 180) with s by (field; lra). exact C.
Qed.
Print Assumptions C98_degrees.
Example C98_degrees_ex : sep1_deg 0 (-90) 77 90 = Some 180.
Proof.
  unfold sep1_deg. rewrite sep1_ang. f_equal. pose proof PI_RGT_0.
  rewrite (ang_val _ _ PI); [unfold degrees; field; lra|lra|]. unfold dot, radians. simpl.
  replace (-90 * PI / 180) with (- (PI / 2)) by field. replace (90 * PI / 180) with (PI / 2) by field.
  rewrite cos_neg, sin_neg, cos_PI2, sin_PI2, cos_PI. ring.
Qed.

(** Arrays: element [i], where an array of one element serves every [i]. *)
Definition at_ (l : list R) (i : nat) : R := if Nat.eqb (List.length l) 1 then List.nth 0 l 0 else List.nth i l 0.
Definition bsize (m n : nat) : nat := if Nat.eqb m 1 then n else m.
Lemma nth_zip : forall l m i, List.length l = List.length m -> (i < List.length l)%nat -> nth_error (zip2 l m) i = Some (List.nth i l 0, List.nth i m 0).
Proof.
  induction l as [|x l IH]; intros [|y m] i E H; simpl in *; try lia. destruct i; simpl; [reflexivity|]. apply IH; lia.
Qed.
Lemma nth_combine : forall {A B} (l : list A) (m : list B) i x y, nth_error l i = Some x -> nth_error m i = Some y -> nth_error (combine l m) i = Some (x, y).
Proof. induction l as [|a l IH]; intros [|b m] [|i] x y H1 H2; simpl in *; try discriminate; [congruence|]. now apply IH. Qed.
Lemma unwrap_long : forall l, List.length l <> 1%nat -> unwrap (Arr l) = Arr l.
Proof. intros [|a [|b l]]; simpl; intros; congruence. Qed.
Lemma unwrap_one : forall l, List.length l = 1%nat -> unwrap (Arr l) = Num (List.nth 0 l 0).
Proof. intros [|a [|b l]]; simpl; intros; try lia. reflexivity. Qed.
Theorem C98_arrays : forall a b c d,
  let ok := (List.length a = List.length b /\ List.length c = List.length d /\
             (List.length a = List.length c \/ List.length a = 1%nat \/ List.length c = 1%nat)) in
  (~ ok -> angular_separation (Arr a) (Arr b) (Arr c) (Arr d) = Raise RuntimeError) /\
  (ok -> (List.length a = 1%nat /\ List.length c = 1%nat /\
            angular_separation (Arr a) (Arr b) (Arr c) (Arr d) = Ok (ONum (sep1 (at_ a 0) (at_ b 0) (at_ c 0) (at_ d 0)))) \/
         exists l, angular_separation (Arr a) (Arr b) (Arr c) (Arr d) = Ok (OArr l) /\
           List.length l = bsize (List.length a) (List.length c) /\
           forall i, (i < List.length l)%nat -> nth_error l i = Some (sep1 (at_ a i) (at_ b i) (at_ c i) (at_ d i))).
Proof.
  intros a b c d ok. unfold angular_separation, validate2. split.
  - intros N. destruct (Nat.eqb (List.length a) (List.length b)) eqn:E1; [apply Nat.eqb_eq in E1|reflexivity].
    destruct (Nat.eqb (List.length c) (List.length d)) eqn:E2; [apply Nat.eqb_eq in E2|reflexivity]. cbn [bind].
    assert (A : List.length a <> 1%nat) by (intros Q; apply N; repeat split; auto).
    assert (C : List.length c <> 1%nat) by (intros Q; apply N; repeat split; auto).
    rewrite !unwrap_long by congruence. destruct (Nat.eqb (List.length a) (List.length c)) eqn:E3; [apply Nat.eqb_eq in E3|reflexivity].
    exfalso. apply N. repeat split; auto.
  - intros (E1 & E2 & E3). rewrite E1, E2, !Nat.eqb_refl. cbn [bind].
    destruct (Nat.eq_dec (List.length b) 1) as [A|A]; destruct (Nat.eq_dec (List.length d) 1) as [C|C].
    + left. repeat split; try congruence. rewrite !unwrap_one by congruence. unfold at_. now rewrite E1, E2, A, C.
    + right. rewrite (unwrap_one a), (unwrap_one b), (unwrap_long c), (unwrap_long d) by congruence.
      eexists. split; [reflexivity|]. unfold bsize. rewrite A. cbn [Nat.eqb]. split.
      * unfold zip2. rewrite map_length, combine_length. lia.
      * intros i Hi. unfold zip2 in Hi. rewrite map_length, combine_length in Hi.
        rewrite nth_error_map, nth_zip by lia. cbn [option_map fst snd]. unfold at_. rewrite E1, E2, A.
        destruct (Nat.eqb (List.length d) 1) eqn:Q; [apply Nat.eqb_eq in Q; congruence|]. reflexivity.
    + right. rewrite (unwrap_long a), (unwrap_long b), (unwrap_one c), (unwrap_one d) by congruence.
      eexists. split; [reflexivity|]. unfold bsize. destruct (Nat.eqb (List.length b) 1) eqn:Q; [apply Nat.eqb_eq in Q; congruence|]. split.
      * unfold zip2. rewrite map_length, combine_length. lia.
      * intros i Hi. unfold zip2 in Hi. rewrite map_length, combine_length in Hi.
        rewrite nth_error_map, nth_zip by lia. cbn [option_map fst snd]. unfold at_. rewrite E1, E2, C, Q. reflexivity.
    + right. assert (E4 : List.length a = List.length c) by lia. rewrite !unwrap_long by congruence. rewrite E4, Nat.eqb_refl.
      eexists. split; [reflexivity|]. unfold bsize. destruct (Nat.eqb (List.length b) 1) eqn:Q; [apply Nat.eqb_eq in Q; congruence|].
      destruct (Nat.eqb (List.length d) 1) eqn:Q2; [apply Nat.eqb_eq in Q2; congruence|].
      replace (Nat.eqb (List.length c) 1) with false by (now rewrite E2, Q2). split.
      * unfold zip2. rewrite map_length, !combine_length. lia.
      * intros i Hi. unfold zip2 in Hi. rewrite map_length, !combine_length in Hi.
        rewrite nth_error_map, (nth_combine _ _ _ _ _ (nth_zip a b i ltac:(lia) ltac:(lia)) (nth_zip c d i ltac:(lia) ltac:(lia))).
        cbn [option_map fst snd]. unfold at_. rewrite E1, E2, Q, Q2. reflexivity.
Qed.
Print Assumptions C98_arrays.
Example C98_arrays_ex : angular_separation (Arr [0; 1]) (Arr [0; 0]) (Arr [0; 1; 2]) (Arr [0; 0; 0]) = Raise RuntimeError
  /\ angular_separation (Arr [0]) (Arr [0]) (Arr [0; 1]) (Arr [0; 0]) = Ok (OArr [sep1 0 0 0 0; sep1 0 0 1 0]).
Proof. split; reflexivity. Qed.
(** A number paired with an array in one point is refused; two points as numbers give a number. *)
Theorem C98_numbers : forall a b c d l m,
  angular_separation (Num a) (Num b) (Num c) (Num d) = Ok (ONum (sep1 a b c d)) /\
  angular_separation (Num a) (Arr l) (Arr l) (Arr m) = Raise RuntimeError /\
  angular_separation (Arr l) (Num a) (Arr l) (Arr m) = Raise RuntimeError /\
  (List.length l = List.length m -> List.length l <> 1%nat -> exists o, angular_separation (Num a) (Num b) (Arr l) (Arr m) = Ok (OArr o) /\
     List.length o = List.length l /\ forall i, (i < List.length l)%nat -> nth_error o i = Some (sep1 a b (List.nth i l 0) (List.nth i m 0))).
Proof.
  intros. repeat split; try reflexivity. intros E N. unfold angular_separation, validate2. rewrite E, Nat.eqb_refl. cbn [bind].
  rewrite !unwrap_long by congruence. eexists. split; [reflexivity|]. split.
  - unfold zip2. rewrite map_length, combine_length. lia.
  - intros i Hi. rewrite nth_error_map, nth_zip by lia. reflexivity.
Qed.
Print Assumptions C98_numbers.

(** Searching a tree of positions within _xyz_angular_radius(r) finds exactly the points within
    [r], for r up to half a turn. *)
Theorem C98_cone : forall long1 lat1 long2 lat2 r s, 0 <= r <= PI -> sep1 long1 lat1 long2 lat2 = Some s ->
  (straight (xyz_from_ra_dec long1 lat1) (xyz_from_ra_dec long2 lat2) <= xyz_angular_radius r <-> s <= r).
Proof.
  intros long1 lat1 long2 lat2 r s H E. rewrite sep1_ang in E. injection E as <-. apply chord_radius; [apply xyz_unit|apply xyz_unit|exact H].
Qed.
Print Assumptions C98_cone.
Theorem C98_cone_degrees : forall long1 lat1 long2 lat2 r s, 0 <= r <= 180 ->
  sep1_deg long1 lat1 long2 lat2 = Some s ->
  (straight (xyz_from_ra_dec (radians long1) (radians lat1)) (xyz_from_ra_dec (radians long2) (radians lat2)) <= xyz_angular_radius_deg r <-> s <= r).
Proof.
  intros long1 lat1 long2 lat2 r s H E. unfold sep1_deg in E. pose proof PI_RGT_0 as P.
  destruct (sep1 (radians long1) (radians lat1) (radians long2) (radians lat2)) as [t|] eqn:T; [|discriminate]. injection E as <-.
  unfold xyz_angular_radius_deg. rewrite (C98_cone _ _ _ _ _ t); [|unfold radians; split; nra|exact T]. unfold radians, degrees.
  assert (E : t * 180 / PI * PI = t * 180) by (field; lra). set (q := t * 180 / PI) in *. clearbody q. split; intros; nra.
Qed.
Print Assumptions C98_cone_degrees.
Example C98_cone_ex : straight (xyz_from_ra_dec 0 0) (xyz_from_ra_dec (PI / 2) (PI / 3)) <= xyz_angular_radius (PI / 2)
  /\ ~ straight (xyz_from_ra_dec 0 0) (xyz_from_ra_dec (PI / 2) (PI / 3)) <= xyz_angular_radius (PI / 3).
Proof.
  pose proof PI_RGT_0. rewrite !(C98_cone 0 0 (PI / 2) (PI / 3) _ (PI / 2)) by (try apply C98_separation_ex; lra). split; lra.
Qed.
(** Beyond half a turn it does not: a whole turn finds nothing but the point itself. *)
Theorem C98_cone_refuted : exists long1 lat1 long2 lat2 r s, PI < r /\ sep1 long1 lat1 long2 lat2 = Some s /\ s <= r /\
  ~ straight (xyz_from_ra_dec long1 lat1) (xyz_from_ra_dec long2 lat2) <= xyz_angular_radius r.
Proof.
  exists 0, 0, (PI / 2), (PI / 3), (2 * PI), (PI / 2). pose proof PI_RGT_0. split; [lra|]. split; [apply C98_separation_ex|]. split; [lra|].
  rewrite radius_cos, cos_2PI. replace (2 * (1 - 1)) with 0 by ring. rewrite sqrt_0.
  change (straight (xyz_from_ra_dec 0 0) (xyz_from_ra_dec (PI / 2) (PI / 3))) with (chord (xyz_from_ra_dec 0 0) (xyz_from_ra_dec (PI / 2) (PI / 3))).
  rewrite chord_dot by apply xyz_unit. unfold dot. simpl. rewrite ?cos_0, ?sin_0, ?cos_PI2, ?sin_PI2.
  intros Q. assert (0 < sqrt (2 * (1 - (1 * 1 * (0 * cos (PI / 3)) + 0 * 1 * (1 * cos (PI / 3)) + 0 * sin (PI / 3))))) by (apply sqrt_lt_R0; lra). lra.
Qed.
Print Assumptions C98_cone_refuted.

(** Rotations keep every angle, add up, undo themselves and turn the axes as documented. *)
Theorem C98_rotations : forall v w s t,
  (inner (rot_about_z v t) (rot_about_z w t) = inner v w /\ inner (rot_about_y v t) (rot_about_y w t) = inner v w /\ inner (rot_about_x v t) (rot_about_x w t) = inner v w) /\
  (rot_about_z (rot_about_z v s) t = rot_about_z v (s + t) /\ rot_about_y (rot_about_y v s) t = rot_about_y v (s + t) /\ rot_about_x (rot_about_x v s) t = rot_about_x v (s + t)) /\
  (rot_about_z (rot_about_z v t) (- t) = v /\ rot_about_y (rot_about_y v t) (- t) = v /\ rot_about_x (rot_about_x v t) (- t) = v).
Proof.
  intros v w s t. split; [|split].
  - repeat split; [apply (rot_z_iso t)|apply (rot_y_iso t)|apply (rot_x_iso t)].
  - rewrite rot_z_add, rot_y_add, rot_x_add. auto.
  - rewrite rot_z_add, rot_y_add, rot_x_add, Rplus_opp_r, rot_z_0, rot_y_0, rot_x_0. auto.
Qed.
Print Assumptions C98_rotations.
Theorem C98_axes : forall t,
  rot_about_z (V 1 0 0) t = V (cos t) (sin t) 0 /\ rot_about_z (V 0 0 1) t = V 0 0 1 /\
  rot_about_y (V 1 0 0) t = V (cos t) 0 (- sin t) /\ rot_about_y (V 0 1 0) t = V 0 1 0 /\
  rot_about_x (V 0 1 0) t = V 0 (cos t) (sin t) /\ rot_about_x (V 1 0 0) t = V 1 0 0.
Proof. intros. repeat split; rotv; ring. Qed.
Print Assumptions C98_axes.
(** Turning about z adds to the right ascension. *)
Theorem C98_turn : forall ra dec t, rot_about_z (xyz_from_ra_dec ra dec) t = pos (ra + t) dec.
Proof. intros. rewrite pos_xyz. apply rot_z_ra. Qed.
Print Assumptions C98_turn.
Example C98_turn_ex : rot_about_z (xyz_from_ra_dec 0 0) (PI / 2) = V 0 1 0 /\ rot_about_y (V 1 0 0) (PI / 2) = V 0 0 (-1).
Proof. split; [rewrite rot_z_ra, Rplus_0_l; apply C98_position_ex|]. rotv; rewrite ?cos_PI2, ?sin_PI2; ring. Qed.

(** rotation_matrix_from_vectors: for unit vectors that are not on one line, a proper rotation
    that turns the first into the second and leaves their common normal. *)
Theorem C98_matrix : forall v1 v2, inner v1 v1 = 1 -> inner v2 v2 = 1 -> v1 <> v2 -> v1 <> times (-1) v2 ->
  exists m, rotation_matrix_from_vectors v1 v2 = Ok (Some m) /\ mapply m v1 = v2 /\
    (forall a b, inner (mapply m a) (mapply m b) = inner a b) /\
    (forall n, inner n v1 = 0 -> inner n v2 = 0 -> mapply m n = n) /\
    vx (row1 m) * (vy (row2 m) * vz (row3 m) - vz (row2 m) * vy (row3 m))
    - vy (row1 m) * (vx (row2 m) * vz (row3 m) - vz (row2 m) * vx (row3 m))
    + vz (row1 m) * (vx (row2 m) * vy (row3 m) - vy (row2 m) * vx (row3 m)) = 1.
Proof.
  intros v1 v2 U1 U2 N1 N2.
  assert (NC : cross v1 v2 <> V 0 0 0).
  { intros E. pose proof (lagrange v1 v2) as L. rewrite E in L. unfold unit, dot in *. simpl in L. unfold inner in U1, U2. rewrite U1, U2 in L.
    set (d := vx v1 * vx v2 + vy v1 * vy v2 + vz v1 * vz v2) in *.
    assert (D : d = 1 \/ d = -1) by (destruct (Rle_dec 0 d); [left|right]; nra).
    destruct D as [D|D].
    - apply N1, unit_dot_one; [exact U1|exact U2|exact D].
    - apply N2. apply unit_dot_one; [exact U1| |].
      + unfold unit, dot, times. simpl. lra.
      + unfold dot, times. simpl. fold d. unfold d in D. lra. }
  destruct (rotmat_ok v1 v2 U1 U2 NC) as (m & E & A & I & F & D). exists m. split; [exact E|]. split; [exact A|]. split; [exact I|]. split.
  - intros n Z1 Z2.
    (* n is a multiple of the normal *)
    set (c := cross v1 v2) in *.
    assert (CC : 0 < dot c c).
    { destruct (Rle_dec (dot c c) 0) as [Q|Q]; [|lra]. exfalso. apply NC. unfold dot in Q.
      destruct (sumsq0 (vx c) (vy c) (vz c)) as (X & Y & Z); [nra|]. now apply vec_eq. }
    assert (K : n = times (dot n c / dot c c) c).
    { assert (T : times (dot c c) n = times (dot n c) c).
      { unfold inner in Z1, Z2. destruct n as [n1 n2 n3], v1 as [a1 a2 a3], v2 as [b1 b2 b3]. unfold c, times, dot, cross in *. cbn [vx vy vz] in *.
        apply vec_eq; cbn [vx vy vz]; clear - Z1 Z2; nsatz. }
      apply (scale_inj (dot c c)); [lra|]. change (scale (dot c c) n) with (times (dot c c) n). rewrite T.
      apply vec_eq; unfold scale, times; cbn [vx vy vz]; field; lra. }
    rewrite K. transitivity (times (dot n c / dot c c) (mapply m c)); [apply vec_eq; unfold mapply, times, dot; cbn [vx vy vz]; ring|now rewrite F].
  - rewrite <- D. unfold dot, cross. simpl. ring.
Qed.
Print Assumptions C98_matrix.
Example C98_matrix_ex : inner (V 1 0 0) (V 1 0 0) = 1 /\ inner (V 0 1 0) (V 0 1 0) = 1 /\ V 1 0 0 <> V 0 1 0 /\ V 1 0 0 <> times (-1) (V 0 1 0).
Proof. unfold inner, times; simpl. repeat split; try ring; intros E; injection E; intros; lra. Qed.
(** Vectors on one line have no such matrix: it is all nans, even for one and the same vector. *)
Theorem C98_matrix_refuted : exists v, inner v v = 1 /\
  rotation_matrix_from_vectors v v = Ok None /\ rotation_matrix_from_vectors v (times (-1) v) = Ok None.
Proof.
  exists (V 1 0 0). assert (U : unit (V 1 0 0)) by (unfold unit, dot; simpl; ring).
  assert (U' : unit (times (-1) (V 1 0 0))) by (unfold unit, dot, times; simpl; ring).
  split; [exact U|]. unfold rotation_matrix_from_vectors. rewrite !unit_on by assumption. unfold cross, dot, times. cbn [vx vy vz].
  split; match goal with |- context [sqrt ?x] => replace x with 0 by ring end; rewrite sqrt_0; unfold np_div; destruct (Req_EM_T 0 0); (reflexivity || contradiction).
Qed.
Print Assumptions C98_matrix_refuted.
(** Nor is the tolerance on the length safe: two accepted vectors can still give nans. *)
Theorem C98_tolerance_refuted : exists v1 v2, v1 <> v2 /\ v1 <> times (-1) v2 /\ rotation_matrix_from_vectors v1 v2 = Ok None.
Proof.
  exists (V (201 / 200) 0 0), (V (201 / 200) (1 / 1000) 0).
  split; [intros E; injection E; intros; lra|]. split; [intros E; injection E; intros; lra|].
  assert (O1 : off_unit (V (201 / 200) 0 0) = false).
  { unfold off_unit, dot. cbn [vx vy vz]. replace (201 / 200 * (201 / 200) + 0 * 0 + 0 * 0) with (201 / 200 * (201 / 200)) by ring.
    rewrite sqrt_square by lra. destruct (Rlt_dec (1 / 100) (Rabs (201 / 200 - 1))) as [Q|]; [|reflexivity]. rewrite Rabs_pos_eq in Q by lra. lra. }
  assert (O2 : off_unit (V (201 / 200) (1 / 1000) 0) = false).
  { unfold off_unit, dot. cbn [vx vy vz]. set (q := 201 / 200 * (201 / 200) + 1 / 1000 * (1 / 1000) + 0 * 0).
    assert (1 <= sqrt q) by (rewrite <- sqrt_1; apply sqrt_le_1_alt; unfold q; lra).
    assert (sqrt q <= 101 / 100) by (rewrite <- (sqrt_square (101 / 100)) by lra; apply sqrt_le_1_alt; unfold q; lra).
    destruct (Rlt_dec (1 / 100) (Rabs (sqrt q - 1))) as [Q|]; [|reflexivity]. rewrite Rabs_pos_eq in Q by lra. lra. }
  unfold rotation_matrix_from_vectors. rewrite O1, O2. unfold np_div. cbv zeta.
  destruct (Req_EM_T _ 0); [reflexivity|]. cbn [obind]. unfold np_arccos, dot. cbn [vx vy vz].
  destruct (Rle_dec (-1) _); [|reflexivity]. destruct (Rle_dec _ 1) as [Q|]; [exfalso; lra|reflexivity].
Qed.
Print Assumptions C98_tolerance_refuted.
(** A vector whose length is off by more than 0.01 is refused. *)
Theorem C98_refused : forall v1 v2, 1 / 100 < Rabs (sqrt (inner v1 v1) - 1) \/ 1 / 100 < Rabs (sqrt (inner v2 v2) - 1) ->
  rotation_matrix_from_vectors v1 v2 = Raise RuntimeError.
Proof.
  intros v1 v2 H. change inner with dot in H. unfold rotation_matrix_from_vectors, off_unit.
  destruct (Rlt_dec (1 / 100) (Rabs (sqrt (dot v1 v1) - 1))); [reflexivity|].
  destruct (Rlt_dec (1 / 100) (Rabs (sqrt (dot v2 v2) - 1))); [reflexivity|]. destruct H; contradiction.
Qed.
Print Assumptions C98_refused.

(** Arcseconds: each pair of conversions undoes the other, None stays None, and an arcsecond is
    the 1296000th part of a turn. *)
Theorem C98_arcsec : forall o,
  radians_from_arcsec (arcsec_from_radians o) = o /\ arcsec_from_radians (radians_from_arcsec o) = o /\
  degrees_from_arcsec (arcsec_from_degrees o) = o /\ arcsec_from_degrees (degrees_from_arcsec o) = o.
Proof.
  pose proof PI_RGT_0 as P. intros [v|]; [|auto]. unfold radians_from_arcsec, arcsec_from_radians, degrees_from_arcsec, arcsec_from_degrees, degrees, radians.
  repeat split; f_equal; field; lra.
Qed.
Print Assumptions C98_arcsec.
Theorem C98_arcsec_turn : arcsec_from_radians (Some (2 * PI)) = Some 1296000 /\ arcsec_from_degrees (Some 360) = Some 1296000.
Proof. pose proof PI_RGT_0 as P. split; simpl; f_equal; [unfold degrees; field; lra|ring]. Qed.
Print Assumptions C98_arcsec_turn.
