(** Property C104: half spaces from circular fields and from points, their trixels, and where two
    circles meet.  See /verif/properties.jsonl. *)
From Coq Require Import List Bool ZArith Reals Lra Lia Psatz.
From Verif Require Import Base Sphere Sphere_proofs Props_Sphere Htm Htm_proofs Props_Htm HtmHalf HtmHalf_proofs Props_HtmHalf.
Import ListNotations.
Open Scope R_scope.

Definition place (ra dec : R) : vec := pos (ra * PI / 180) (dec * PI / 180).
Lemma place_unit : forall ra dec, unit (place ra dec).
Proof. intros. unfold place. rewrite pos_xyz. apply xyz_unit. Qed.
Lemma place_size : forall ra dec, size (place ra dec) = 1.
Proof. intros. unfold size. change (inner (place ra dec) (place ra dec)) with (dot (place ra dec) (place ra dec)). rewrite place_unit. apply sqrt_1. Qed.
Lemma place_nonzero : forall ra dec, ~ zero (place ra dec).
Proof. intros. apply unit_nonzero, place_unit. Qed.
Lemma field_half : forall ra dec radius, half_space_from_ra_dec ra dec radius = half_space (place ra dec) (cos (radius * PI / 180)).
Proof. intros. unfold half_space_from_ra_dec, place. now rewrite pos_xyz. Qed.
(** A field of a given centre and radius, in degrees, contains just the positions separated from its
    centre by less. *)
Lemma field_cap : forall ra dec radius ra2 dec2 s, 0 <= radius <= 180 -> sep1_deg ra dec ra2 dec2 = Some s ->
  (in_cap (place ra dec) (cos (radius * PI / 180)) (place ra2 dec2) <-> s < radius).
Proof.
  intros ra dec radius ra2 dec2 s R S. destruct (C98_degrees ra dec ra2 dec2) as (s' & S' & B & C). rewrite S in S'. injection S' as <-.
  unfold in_cap. rewrite !place_size, !Rmult_1_r. replace (inner (place ra2 dec2) (place ra dec)) with (cos (s * PI / 180)).
  2:{ rewrite C. unfold place, inner. ring. }
  pose proof PI_RGT_0 as P. assert (A1 : 0 <= s * PI / 180 <= PI) by (split; [apply Rmult_le_pos; [nra|lra]|nra]). assert (A2 : 0 <= radius * PI / 180 <= PI) by (split; [apply Rmult_le_pos; [nra|lra]|nra]).
  split; intros H.
  - apply cos_decreasing_0 in H; try lra. nra.
  - apply cos_decreasing_1; try lra. nra.
Qed.
Theorem C104_field : forall ra dec radius ra2 dec2 s, 0 <= radius <= 180 -> sep1_deg ra dec ra2 dec2 = Some s ->
  (hs_contains_pt (half_space_from_ra_dec ra dec radius) (place ra2 dec2) None = true <-> s < radius).
Proof.
  intros ra dec radius ra2 dec2 s R S. rewrite field_half, <- (field_cap ra dec radius ra2 dec2 s R S).
  apply (C102_point _ _ _ 0); apply place_nonzero.
Qed.
Print Assumptions C104_field.
Example C104_field_ex : exists s, sep1_deg 10 20 10 20 = Some s /\ hs_contains_pt (half_space_from_ra_dec 10 20 2) (place 10 20) None = true.
Proof.
  destruct (C98_degrees 10 20 10 20) as (s & S & B & C). exists s. split; [exact S|]. apply (C104_field 10 20 2 10 20 s ltac:(lra) S).
  assert (Z : sep1_deg 10 20 10 20 = Some 0).
  { unfold sep1_deg. assert (H := proj2 (proj1 (proj2 (C98_metric (radians 10) (radians 20) (radians 10) (radians 20) 0 0))) eq_refl). rewrite H. f_equal. unfold degrees. pose proof PI_RGT_0. field. lra. }
  rewrite Z in S. injection S as <-. lra.
Qed.
(** A radius beyond 180 degrees is read as its cosine. *)
Theorem C104_field_refuted : exists ra dec radius ra2 dec2 s, 180 < radius /\ sep1_deg ra dec ra2 dec2 = Some s /\ s < radius /\
  hs_contains_pt (half_space_from_ra_dec ra dec radius) (place ra2 dec2) None = false.
Proof.
  destruct (C98_degrees 0 0 90 0) as (s & S & B & C). exists 0, 0, 270, 90, 0, s. split; [lra|]. split; [exact S|]. split; [lra|].
  rewrite field_half. destruct (hs_contains_pt (half_space (place 0 0) (cos (270 * PI / 180))) (place 90 0) None) eqn:E; [|reflexivity].
  apply (C102_point _ _ _ 0) in E; try apply place_nonzero. unfold in_cap in E. rewrite !place_size in E.
  replace (270 * PI / 180) with (3 * (PI / 2)) in E by field. rewrite cos_3PI2 in E. unfold place, pos, inner in E. cbn [vx vy vz] in E.
  replace (90 * PI / 180) with (PI / 2) in E by field. replace (0 * PI / 180) with 0 in E by field. rewrite sin_0, cos_0, cos_PI2, sin_PI2 in E. lra.
Qed.
Print Assumptions C104_field_refuted.
(** The search for the trixels of a field finds the trixel of every position in the field. *)
Theorem C104_search : forall fuel ra dec radius L, 0 <= radius <= 180 -> (2 <= L <= Z.of_nat fuel)%Z -> exists b,
  find_all_trixels (half_space_from_ra_dec ra dec radius) L = Ok b /\ apart_from 0 b /\
  forall ra2 dec2 s, sep1_deg ra dec ra2 dec2 = Some s -> s < radius -> exists h, find_htmid fuel (ra2, dec2) L = Ok (Some h) /\ in_ranges b h.
Proof.
  intros fuel ra dec radius L R LL. rewrite field_half. destruct (C102_find (place ra dec) (cos (radius * PI / 180)) L (place_nonzero _ _) ltac:(lia)) as (b & E & A & C & _).
  exists b. split; [exact E|]. split; [exact A|]. intros ra2 dec2 s S Q. destruct (C101_find fuel ra2 dec2 L ltac:(lia) ltac:(lia)) as (h & t & F & V & T & I).
  exists h. split; [exact F|]. apply (C h t (place ra2 dec2) V T I). now apply (field_cap ra dec radius ra2 dec2 s).
Qed.
Print Assumptions C104_search.
(** And, for a field of at most a hemisphere, only trixels that reach the closed field. *)
Theorem C104_search_only : forall ra dec radius L b h t, 0 <= radius <= 90 -> (2 <= L)%Z ->
  find_all_trixels (half_space_from_ra_dec ra dec radius) L = Ok b -> in_ranges b h -> trixel_from_htmid h = Ok t ->
  exists p, contains_pt t p = true /\ ~ zero p /\ on_cap (place ra dec) (cos (radius * PI / 180)) p.
Proof.
  intros ra dec radius L b h t R LL E I T. rewrite field_half in E. destruct (C102_find (place ra dec) (cos (radius * PI / 180)) L (place_nonzero _ _) LL) as (b' & E' & _ & _ & _ & O).
  rewrite E in E'. injection E' as <-. apply (O ltac:(split; [pose proof PI_RGT_0; apply cos_ge_0; nra|apply COS_bound]) h t I T).
Qed.
Print Assumptions C104_search_only.

(** *** From three points: a half of the sphere bounded by the great circle through the first two, on
    the side of the third. *)
Lemma squares_zero : forall x y z, x * x + y * y + z * z <= 0 -> x = 0 /\ y = 0 /\ z = 0.
Proof. intros x y z H. assert (X := Rle_0_sqr x). assert (Y := Rle_0_sqr y). assert (Z := Rle_0_sqr z). unfold Rsqr in *. repeat split; apply Rsqr_0_uniq; unfold Rsqr; lra. Qed.
Theorem C104_points : forall r1 d1 r2 d2 r3 d3, let a := place r1 d1 in let b := place r2 d2 in let c := place r3 d3 in
  (forall k, b <> times k a) -> exists n, inner n n = 1 /\ inner n a = 0 /\ inner n b = 0 /\ 0 <= inner n c /\
  forall p, ~ zero p -> (hs_contains_pt (half_space_from_points (r1, d1) (r2, d2) (r3, d3)) p None = true <-> 0 < inner n p).
Proof.
  intros r1 d1 r2 d2 r3 d3 a b c NP.
  assert (EP : point (r1, d1) = a /\ point (r2, d2) = b /\ point (r3, d3) = c) by (unfold point, a, b, c, place; cbn [fst snd]; rewrite !pos_xyz; auto).
  unfold half_space_from_points. destruct EP as (-> & -> & ->). cbv zeta.
  assert (CP : 0 < dot (cross a b) (cross a b)).
  { rewrite <- lagrange. assert (UA : dot a a = 1) by apply place_unit. assert (UB : dot b b = 1) by apply place_unit. rewrite UA, UB.
    destruct (Rlt_dec 0 (1 * 1 - dot a b * dot a b)) as [L|L]; [exact L|exfalso]. apply (NP (dot a b)).
    assert (Z : dot (vminus b (vtimes (dot a b) a)) (vminus b (vtimes (dot a b) a)) <= 0).
    { set (g := dot a b) in *. assert (Q : dot (vminus b (vtimes g a)) (vminus b (vtimes g a)) = dot b b - 2 * g * dot a b + g * g * dot a a) by (unfold vminus; dd; ring). rewrite Q, UA, UB. fold g. lra. }
    set (g := dot a b) in *. apply squares_zero in Z as (ZX & ZY & ZZ). cbn [vminus vtimes vx vy vz] in ZX, ZY, ZZ. apply vec_eq; unfold times; cbn [vx vy vz]; lra. }
  set (n := vnorm (cross a b)). assert (UN : unit n) by (apply vnorm_unit; exact CP).
  assert (NA : dot n a = 0) by (unfold n, vnorm; rewrite dot_times; dd; ring). assert (NB : dot n b = 0) by (unfold n, vnorm; rewrite dot_times; dd; ring).
  assert (K : forall m, unit m -> forall p, ~ zero p -> (hs_contains_pt (half_space m 0) p None = true <-> 0 < inner m p)).
  { intros m U p Z. destruct (C102_point m 0 p 0 (unit_nonzero m U) Z) as (H & _). rewrite H. unfold in_cap. rewrite Rmult_0_l. replace (inner p m) with (inner m p) by (unfold inner; ring). tauto. }
  destruct (Rlt_dec (dot n c) 0) as [L|L].
  - assert (UM : unit (vtimes (-1) n)) by (unfold unit; rewrite dot_times; replace (dot n (vtimes (-1) n)) with (- dot n n) by (dd; ring); rewrite UN; ring).
    exists (vtimes (-1) n). split; [exact UM|]. change inner with dot. rewrite !dot_times, NA, NB. split; [ring|]. split; [ring|]. split; [lra|]. intros p Z. now apply K.
  - exists n. split; [exact UN|]. split; [exact NA|]. split; [exact NB|]. split; [change (inner n c) with (dot n c); lra|]. intros p Z. now apply K.
Qed.
Print Assumptions C104_points.
Lemma place_x : place 0 0 = V 1 0 0.
Proof. unfold place, pos. replace (0 * PI / 180) with 0 by field. rewrite cos_0, sin_0. apply vec_eq; cbn [vx vy vz]; ring. Qed.
Lemma place_y : place 90 0 = V 0 1 0.
Proof. unfold place, pos. replace (0 * PI / 180) with 0 by field. replace (90 * PI / 180) with (PI / 2) by field. rewrite cos_0, sin_0, cos_PI2, sin_PI2. apply vec_eq; cbn [vx vy vz]; ring. Qed.
Example C104_points_ex : forall k, place 90 0 <> times k (place 0 0).
Proof. intros k. rewrite place_x, place_y. intros E. injection E. lra. Qed.
(** A third point on the great circle is not contained, though documented to be. *)
Theorem C104_third_refuted : exists p1 p2 p3, (forall k, place (fst p2) (snd p2) <> times k (place (fst p1) (snd p1))) /\
  hs_contains_pt (half_space_from_points p1 p2 p3) (place (fst p3) (snd p3)) None = false.
Proof.
  exists (0, 0), (90, 0), (90, 0). cbn [fst snd]. split; [exact C104_points_ex|]. destruct (C104_points 0 0 90 0 90 0 C104_points_ex) as (n & _ & _ & _ & _ & H).
  destruct (C104_points 0 0 90 0 90 0 C104_points_ex) as (n' & _ & _ & B & _ & H').
  destruct (hs_contains_pt (half_space_from_points (0, 0) (90, 0) (90, 0)) (place 90 0) None) eqn:E; [|reflexivity]. apply H' in E; [lra|apply place_nonzero].
Qed.
Print Assumptions C104_third_refuted.

(** *** Where two circles meet. *)
Definition on_both (v1 : vec) (d1 : R) (v2 : vec) (d2 : R) (x : vec) : Prop :=
  inner x x = 1 /\ inner x v1 = d1 * size v1 /\ inner x v2 = d2 * size v2.
Section Meet.
Variables (u w : vec) (d1 d2 : R).
Hypotheses (UU : unit u) (UW : unit w).
Let g := dot u w.
Let D := 1 - g ^ 2.
Let num := d1 ^ 2 + d2 ^ 2 - 2 * g * d1 * d2.
Let c := cross u w.
Let mid := vplus (vtimes ((d1 - g * d2) / D) u) (vtimes ((d2 - g * d1) / D) w).
Hypothesis DP : 0 < D.
Lemma cross_sq : dot c c = D.
Proof. unfold c. rewrite <- lagrange, UU, UW. unfold D, g. ring. Qed.
Lemma on_form : forall k, k * k = (1 - num / D) / D -> let x := vplus mid (vtimes k c) in dot x x = 1 /\ dot x u = d1 /\ dot x w = d2.
Proof.
  intros k K x. assert (CU : dot c u = 0) by (unfold c; dd; ring). assert (CW : dot c w = 0) by (unfold c; dd; ring).
  set (p := (d1 - g * d2) / D). set (q := (d2 - g * d1) / D).
  assert (XU : dot x u = p + q * g).
  { unfold x, mid. fold p q. rewrite !dot_plus, !dot_times, CU, UU. rewrite (dot_comm w u). fold g. ring. }
  assert (XW : dot x w = p * g + q).
  { unfold x, mid. fold p q. rewrite !dot_plus, !dot_times, CW, UW. fold g. ring. }
  assert (E1 : p + q * g = d1) by (unfold p, q; replace d1 with (d1 * (D / D)) at 3 by (field; lra); unfold Rdiv; set (i := / D); unfold D; ring).
  assert (E2 : p * g + q = d2) by (unfold p, q; replace d2 with (d2 * (D / D)) at 3 by (field; lra); unfold Rdiv; set (i := / D); unfold D; ring).
  split; [|split; congruence].
  transitivity (p * dot x u + q * dot x w + k * dot x c).
  { unfold x at 1, mid. fold p q. rewrite !dot_plus, !dot_times, (dot_comm u x), (dot_comm w x), (dot_comm c x). reflexivity. }
  assert (XC : dot x c = k * D).
  { unfold x, mid. fold p q. rewrite !dot_plus, !dot_times, (dot_comm u c), (dot_comm w c), CU, CW, cross_sq. ring. }
  rewrite XC, XU, XW, E1, E2. replace (k * (k * D)) with (k * k * D) by ring. rewrite K. unfold p, q, num. field. lra.
Qed.
Lemma form_on : forall x, dot x x = 1 -> dot x u = d1 -> dot x w = d2 ->
  x = vplus mid (vtimes (dot x c / D) c) /\ (dot x c / D) * (dot x c / D) = (1 - num / D) / D /\ num <= D.
Proof.
  intros x X1 XU XW.
  assert (I : vtimes (dot c c) x = vplus (vplus (vtimes (dot x u * dot w w - dot x w * dot u w) u) (vtimes (dot x w * dot u u - dot x u * dot u w) w)) (vtimes (dot x c) c)).
  { unfold c. apply vec_eq; dd; ring. }
  rewrite cross_sq, XU, XW, UU, UW in I. fold g in I. set (m := dot x c) in *.
  assert (N : D = num + m * m).
  { assert (Q : dot x (vtimes D x) = D) by (replace (dot x (vtimes D x)) with (D * dot x x) by (dd; ring); rewrite X1; ring).
    rewrite I, (dot_comm x), !dot_plus, !dot_times, (dot_comm u x), (dot_comm w x), (dot_comm c x), XU, XW in Q. fold m in Q. rewrite <- Q. unfold num. ring. }
  split; [|split].
  - assert (E : x = vtimes (/ D) (vtimes D x)) by (apply vec_eq; dd; field; lra). rewrite E at 1. rewrite I. unfold mid. apply vec_eq; dd; field; lra.
  - replace ((1 - num / D) / D) with ((D - num) / (D * D)) by (field; lra). rewrite N at 3. field. lra.
  - nra.
Qed.
End Meet.
Lemma square_eq : forall x y, x * x = y -> x = sqrt y \/ x = - sqrt y.
Proof.
  intros x y E. assert (0 <= y) by nra. assert (S := sqrt_sqrt y H). assert (Z : (x - sqrt y) * (x + sqrt y) = 0) by lra. apply Rmult_integral in Z as [Z|Z]; [left|right]; lra.
Qed.
Lemma both_unit : forall v1 d1 v2 d2 x, ~ zero v1 -> ~ zero v2 ->
  (on_both v1 d1 v2 d2 x <-> dot x x = 1 /\ dot x (hv (half_space v1 d1)) = d1 /\ dot x (hv (half_space v2 d2)) = d2).
Proof.
  intros v1 d1 v2 d2 x N1 N2. destruct (size_pos v1 N1) as (P1 & _), (size_pos v2 N2) as (P2 & _). rewrite !dot_hv. unfold on_both. change (dot x x) with (inner x x).
  assert (A : forall s i d, 0 < s -> (i = d * s <-> / s * i = d)).
  { intros s i d S. split; [intros ->; field; lra|]. intros <-. field. lra. }
  rewrite (A _ _ _ P1), (A _ _ _ P2). tauto.
Qed.
Theorem C104_meet : forall v1 d1 v2 d2, ~ zero v1 -> ~ zero v2 ->
  match intersect_half_spaces (half_space v1 d1) (half_space v2 d2) with
  | TwoPoints p q => p <> q /\ forall x, on_both v1 d1 v2 d2 x <-> x = p \/ x = q
  | OnePoint p => on_both v1 d1 v2 d2 p /\ forall x, on_both v1 d1 v2 d2 x -> straight x p ^ 2 < 2 / 10 ^ 20
  | NoPoint => Rabs (inner v1 v2) <= (1 - / 10 ^ 20) * (size v1 * size v2) -> forall x, ~ on_both v1 d1 v2 d2 x
  end.
Proof.
  intros v1 d1 v2 d2 N1 N2. pose proof (okh_unit _ (hs_ok v1 d1 N1)) as U1. pose proof (okh_unit _ (hs_ok v2 d2 N2)) as U2.
  destruct (size_pos v1 N1) as (P1 & _), (size_pos v2 N2) as (P2 & _).
  assert (BU := fun x => both_unit v1 d1 v2 d2 x N1 N2).
  assert (GA : dot (hv (half_space v1 d1)) (hv (half_space v2 d2)) = inner v1 v2 * / (size v1 * size v2)).
  { rewrite dot_hv. replace (inner (hv (half_space v1 d1)) v2) with (dot v2 (hv (half_space v1 d1))) by (unfold inner, dot; ring). rewrite dot_hv.
    replace (inner v2 v1) with (inner v1 v2) by (unfold inner; ring). field. lra. }
  unfold intersect_half_spaces. change (hd (half_space v1 d1)) with d1. change (hd (half_space v2 d2)) with d2. cbv zeta.
  set (u := hv (half_space v1 d1)) in *. set (w := hv (half_space v2 d2)) in *. pose proof (unit_dot_bound u w U1 U2) as GB.
  assert (TP : 0 < / 10 ^ 20 < 1) by (split; [apply Rinv_0_lt_compat, pow_lt; lra|rewrite <- Rinv_1; apply Rinv_lt_contravar; [apply Rmult_lt_0_compat; [lra|apply pow_lt; lra]|]]; assert (1 < 10 ^ 20) by (apply Rlt_pow_R1; [lra|lia]); assumption).
  set (tiny := / 10 ^ 20) in *. assert (T2 : 2 / 10 ^ 20 = 2 * tiny) by reflexivity. rewrite T2. clear T2. clearbody tiny.
  destruct (Rlt_dec (Rabs (1 - Rabs (dot u w))) tiny) as [L|L].
  { intros G. exfalso. rewrite GA in L. assert (S12 : 0 < size v1 * size v2) by (apply Rmult_lt_0_compat; assumption).
    rewrite Rabs_mult, (Rabs_pos_eq (/ _)) in L by (left; apply Rinv_0_lt_compat; exact S12). set (i := Rabs (inner v1 v2)) in *. set (s := size v1 * size v2) in *. clearbody i s.
    assert (Q : i * / s <= 1 - tiny) by (apply (Rmult_le_reg_r s); [exact S12|]; replace (i * / s * s) with i by (field; lra); exact G).
    rewrite Rabs_pos_eq in L by lra. lra. }
  assert (GL : Rabs (dot u w) < 1).
  { assert (Rabs (dot u w) <= 1) by (apply Rabs_le; lra). rewrite (Rabs_pos_eq (1 - _)) in L by lra. lra. }
  assert (DP : 0 < 1 - dot u w ^ 2).
  { apply Rabs_def2 in GL. nra. }
  destruct (Rlt_dec (1 - dot u w ^ 2) 0) as [|_]; [lra|].
  destruct (Rlt_dec (1 - dot u w ^ 2) (d1 ^ 2 + d2 ^ 2 - 2 * dot u w * d1 * d2)) as [L2|L2].
  { intros _ x B. apply BU in B as (X & XU & XW). destruct (form_on u w d1 d2 U1 U2 DP x X XU XW) as (_ & _ & H). lra. }
  set (D := 1 - dot u w ^ 2) in *. set (num := d1 ^ 2 + d2 ^ 2 - 2 * dot u w * d1 * d2) in *.
  set (mid := vplus (vtimes ((d1 - dot u w * d2) / D) u) (vtimes ((d2 - dot u w * d1) / D) w)). set (c := cross u w). set (k := sqrt ((1 - num / D) / D)).
  assert (KK : k * k = (1 - num / D) / D).
  { apply sqrt_sqrt. apply Rmult_le_pos; [|left; apply Rinv_0_lt_compat; exact DP]. replace (1 - num / D) with ((D - num) / D) by (field; lra). apply Rmult_le_pos; [lra|left; apply Rinv_0_lt_compat; exact DP]. }
  pose proof (on_form u w d1 d2 U1 U2 DP k KK) as B1. assert (KM : - k * - k = (1 - num / D) / D) by (rewrite <- KK; ring). pose proof (on_form u w d1 d2 U1 U2 DP (- k) KM) as B2. cbv zeta in B1, B2.
  fold D num c mid in B1, B2.
  assert (ALL : forall x, on_both v1 d1 v2 d2 x -> x = vplus mid (vtimes k c) \/ x = vplus mid (vtimes (- k) c)).
  { intros x B. apply BU in B as (X & XU & XW). destruct (form_on u w d1 d2 U1 U2 DP x X XU XW) as (E & Q & _). fold D num c mid in E, Q.
    destruct (square_eq _ _ Q) as [R|R]; fold k in R; rewrite R in E; auto. }
  set (p := vplus mid (vtimes k c)) in *. set (q := vplus mid (vtimes (- k) c)) in *.
  destruct (Rlt_dec (Rabs (1 - dot p q)) tiny) as [L3|L3].
  - split; [now apply BU|]. intros x B. unfold straight. rewrite pow2_sqrt by (repeat apply Rplus_le_le_0_compat; apply pow2_ge_0).
    assert (SD : forall a b, (vx a - vx b) ^ 2 + (vy a - vy b) ^ 2 + (vz a - vz b) ^ 2 = dot a a + dot b b - 2 * dot a b) by (intros; unfold dot; ring). rewrite SD.
    destruct B1 as (BP & _), B2 as (BQ & _). apply Rabs_def2 in L3. destruct (ALL x B) as [-> | ->].
    + rewrite BP. lra.
    + rewrite BP, BQ, (dot_comm q p). lra.
  - split.
    + intros E. rewrite <- E in L3. destruct B1 as (BP & _). rewrite BP in L3. apply L3. replace (1 - 1) with 0 by ring. rewrite Rabs_R0. lra.
    + intros x. split; [apply ALL|]. intros [-> | ->]; now apply BU.
Qed.
Print Assumptions C104_meet.
(** Parallel circles are said not to meet; the others are told apart by the theorem above. *)
Theorem C104_parallel : forall v d1 d2 k, ~ zero v -> k <> 0 -> intersect_half_spaces (half_space v d1) (half_space (times k v) d2) = NoPoint.
Proof.
  intros v d1 d2 k N K. destruct (size_pos v N) as (P & PD). assert (NK : ~ zero (times k v)).
  { intros Z. apply N. unfold times in Z. injection Z as A B C. apply Rmult_integral in A, B, C. apply vec_eq; cbn; lra. }
  destruct (size_pos _ NK) as (P2 & _). unfold intersect_half_spaces. cbv zeta.
  replace (dot (hv (half_space v d1)) (hv (half_space (times k v) d2))) with (/ size (times k v) * (/ size v * (k * dot v v))).
  2:{ rewrite dot_hv. f_equal. replace (inner (hv (half_space v d1)) (times k v)) with (k * dot v (hv (half_space v d1))) by (unfold inner, times, dot; cbn [vx vy vz]; ring). rewrite dot_hv. unfold inner, dot. ring. }
  assert (SK : size (times k v) = Rabs k * size v).
  { unfold size. replace (inner (times k v) (times k v)) with (k * k * inner v v) by (unfold inner, times; cbn [vx vy vz]; ring). rewrite sqrt_mult; [|nra|unfold inner; nra]. f_equal. apply sqrt_Rsqr_abs. }
  rewrite SK. assert (SS : dot v v = size v * size v) by (unfold size; change (inner v v) with (dot v v); rewrite sqrt_sqrt; lra). rewrite SS.
  assert (AK : 0 < Rabs k) by (now apply Rabs_pos_lt).
  replace (/ (Rabs k * size v) * (/ size v * (k * (size v * size v)))) with (k / Rabs k) by (field; lra).
  assert (E : Rabs (k / Rabs k) = 1) by (unfold Rdiv; rewrite Rabs_mult, (Rabs_pos_eq (/ Rabs k)) by (left; now apply Rinv_0_lt_compat); field; lra).
  rewrite E. replace (1 - 1) with 0 by ring. rewrite Rabs_R0. destruct (Rlt_dec 0 (/ 10 ^ 20)) as [_|L]; [reflexivity|exfalso; apply L, Rinv_0_lt_compat, pow_lt; lra].
Qed.
Print Assumptions C104_parallel.
(** Touching circles give their point on its own, not in a list. *)
Theorem C104_touch : intersect_half_spaces (half_space (V 1 0 0) (3 / 5)) (half_space (V 0 1 0) (4 / 5)) = OnePoint (V (3 / 5) (4 / 5) 0).
Proof.
  assert (N : forall v, dot v v = 1 -> vnorm v = v) by (intros v E; unfold vnorm; rewrite E, sqrt_1, Rinv_1; apply vec_eq; dd; ring).
  unfold intersect_half_spaces. cbn [hv hd half_space]. rewrite !N by (dd; ring). cbv zeta. replace (dot (V 1 0 0) (V 0 1 0)) with 0 by (dd; ring).
  assert (T : 0 < / 10 ^ 20 < 1) by (split; [apply Rinv_0_lt_compat, pow_lt; lra|rewrite <- Rinv_1; apply Rinv_lt_contravar; [apply Rmult_lt_0_compat; [lra|apply pow_lt; lra]|]]; assert (1 < 10 ^ 20) by (apply Rlt_pow_R1; [lra|lia]); assumption).
  set (tiny := / 10 ^ 20) in *. clearbody tiny. rewrite Rabs_R0. replace (1 - 0) with 1 by ring. rewrite Rabs_R1. destruct (Rlt_dec 1 tiny) as [|_]; [lra|].
  replace (1 - 0 ^ 2) with 1 by ring. destruct (Rlt_dec 1 0) as [|_]; [lra|]. destruct (Rlt_dec 1 _) as [L|_]; [lra|].
  replace ((1 - ((3 / 5) ^ 2 + (4 / 5) ^ 2 - 2 * 0 * (3 / 5) * (4 / 5)) / 1) / 1) with 0 by field. rewrite sqrt_0, Ropp_0.
  set (p := vplus _ _). assert (E : p = V (3 / 5) (4 / 5) 0) by (unfold p; apply vec_eq; dd; field). rewrite E. replace (dot (V (3 / 5) (4 / 5) 0) (V (3 / 5) (4 / 5) 0)) with 1 by (dd; field).
  replace (1 - 1) with 0 by ring. rewrite Rabs_R0. destruct (Rlt_dec 0 tiny) as [_|L]; [reflexivity|lra].
Qed.
Print Assumptions C104_touch.
Example C104_meet_ex : intersect_half_spaces (half_space (V 1 0 0) 0) (half_space (V 0 1 0) 0) = TwoPoints (V 0 0 1) (V 0 0 (-1)).
Proof.
  assert (N : forall v, dot v v = 1 -> vnorm v = v) by (intros v E; unfold vnorm; rewrite E, sqrt_1, Rinv_1; apply vec_eq; dd; ring).
  unfold intersect_half_spaces. cbn [hv hd half_space]. rewrite !N by (dd; ring). cbv zeta. replace (dot (V 1 0 0) (V 0 1 0)) with 0 by (dd; ring).
  assert (T : 0 < / 10 ^ 20 < 1) by (split; [apply Rinv_0_lt_compat, pow_lt; lra|rewrite <- Rinv_1; apply Rinv_lt_contravar; [apply Rmult_lt_0_compat; [lra|apply pow_lt; lra]|]]; assert (1 < 10 ^ 20) by (apply Rlt_pow_R1; [lra|lia]); assumption).
  set (tiny := / 10 ^ 20) in *. clearbody tiny. rewrite Rabs_R0. replace (1 - 0) with 1 by ring. rewrite Rabs_R1. destruct (Rlt_dec 1 tiny) as [|_]; [lra|].
  replace (1 - 0 ^ 2) with 1 by ring. destruct (Rlt_dec 1 0) as [|_]; [lra|]. destruct (Rlt_dec 1 _) as [L|_]; [lra|].
  replace ((1 - (0 ^ 2 + 0 ^ 2 - 2 * 0 * 0 * 0) / 1) / 1) with 1 by field. rewrite sqrt_1.
  replace (vplus (vplus (vtimes ((0 - 0 * 0) / 1) (V 1 0 0)) (vtimes ((0 - 0 * 0) / 1) (V 0 1 0))) (vtimes 1 (cross (V 1 0 0) (V 0 1 0)))) with (V 0 0 1) by (apply vec_eq; dd; field).
  replace (vplus (vplus (vtimes ((0 - 0 * 0) / 1) (V 1 0 0)) (vtimes ((0 - 0 * 0) / 1) (V 0 1 0))) (vtimes (- (1)) (cross (V 1 0 0) (V 0 1 0)))) with (V 0 0 (-1)) by (apply vec_eq; dd; field).
  replace (dot (V 0 0 1) (V 0 0 (-1))) with (-1) by (dd; ring). replace (1 - -1) with 2 by ring. rewrite Rabs_pos_eq by lra. destruct (Rlt_dec 2 tiny) as [|_]; [lra|reflexivity].
Qed.
