(** Angle utilities.  /repo/rubin_scheduler/scheduler/utils/utils.py lines 50-63
    (smallest_signed_angle) and 99-125 (wrap_ra_dec), one array element at a
    time, on real numbers. *)
From Coq Require Import List Reals Lra Lia ZArith.
Import ListNotations.
Open Scope R_scope.

(** Python's [%] for a positive modulus. *)
Definition Rmod (x m : R) : R := x - m * IZR (Int_part (x / m)).

Definition two_pi : R := 2 * PI.

(** Lines 50-63. *)
Definition smallest_signed_angle (a1 a2 : R) : R :=
  let x := Rmod a1 two_pi in
  let y := Rmod a2 two_pi in
  let a := Rmod (x - y) two_pi in
  let b := Rmod (y - x) two_pi in
  if Rlt_dec a b then -1 * a else b.

(** Lines 115-125: (ra, dec) to (ra, dec); the second test sees the result of
    the first. *)
Definition wrap_ra_dec (ra dec : R) : R * R :=
  let '(ra, dec) := if Rlt_dec dec (- PI / 2) then (ra - PI, -1 * (PI + dec)) else (ra, dec) in
  let '(ra, dec) := if Rlt_dec (PI / 2) dec then (ra - PI, PI - dec) else (ra, dec) in
  (Rmod ra (2 * PI), dec).

(** ** Proofs *)
Lemma Rmod_range : forall x m, 0 < m -> 0 <= Rmod x m < m.
Proof.
  intros x m Hm. unfold Rmod. destruct (base_Int_part (x / m)) as [H1 H2].
  assert (E : m * (x / m) = x) by (field; lra).
  pose proof (Rmult_le_compat_l m _ _ (Rlt_le _ _ Hm) H1). nra.
Qed.
Definition congr (m x y : R) : Prop := exists k : Z, x = y + IZR k * m.
Lemma Rmod_congr : forall x m, congr m (Rmod x m) x.
Proof. intros. exists (- Int_part (x / m))%Z. unfold Rmod. rewrite opp_IZR. ring. Qed.
Lemma congr_refl : forall m x, congr m x x.
Proof. intros. exists 0%Z. ring. Qed.
Lemma congr_sym : forall m x y, congr m x y -> congr m y x.
Proof. intros m x y (k & ->). exists (- k)%Z. rewrite opp_IZR. ring. Qed.
Lemma congr_trans : forall m x y z, congr m x y -> congr m y z -> congr m x z.
Proof. intros m x y z (k & ->) (l & ->). exists (k + l)%Z. rewrite plus_IZR. ring. Qed.
Lemma congr_sub : forall m x y x' y', congr m x x' -> congr m y y' -> congr m (x - y) (x' - y').
Proof. intros m x y x' y' (k & ->) (l & ->). exists (k - l)%Z. rewrite minus_IZR. ring. Qed.
Lemma congr_add : forall m x y x' y', congr m x x' -> congr m y y' -> congr m (x + y) (x' + y').
Proof. intros m x y x' y' (k & ->) (l & ->). exists (k + l)%Z. rewrite plus_IZR. ring. Qed.
Lemma congr_opp : forall m x y, congr m x y -> congr m (- x) (- y).
Proof. intros m x y (k & ->). exists (- k)%Z. rewrite opp_IZR. ring. Qed.
Lemma congr_turn : forall m x, congr m (x - m) x.
Proof. intros. exists (-1)%Z. ring. Qed.
Lemma congr_turn' : forall m x, congr m (m + x) x.
Proof. intros. exists 1%Z. ring. Qed.
Lemma two_pi_pos : 0 < two_pi.
Proof. unfold two_pi. pose proof PI_RGT_0. lra. Qed.
(** Congruent values closer than a turn apart are equal. *)
Lemma congr_close : forall m x y, 0 < m -> congr m x y -> Rabs (x - y) < m -> x = y.
Proof.
  intros m x y Hm (k & E) H.
  assert (K : k = 0%Z).
  { destruct (Z.eq_dec k 0) as [|N]; [assumption|exfalso].
    assert (1 <= Rabs (IZR k)).
    { rewrite <- abs_IZR. apply IZR_le. lia. }
    rewrite E in H. replace (y + IZR k * m - y) with (IZR k * m) in H by ring.
    rewrite Rabs_mult, (Rabs_pos_eq m) in H by lra. nra. }
  rewrite E, K. ring.
Qed.
Lemma Rmod_unique : forall x y m, 0 < m -> congr m x y -> 0 <= x < m -> x = Rmod y m.
Proof.
  intros x y m Hm C H. pose proof (Rmod_range y m Hm).
  apply (congr_close m); [exact Hm| |apply Rabs_def1; lra].
  apply congr_trans with y; [exact C|apply congr_sym, Rmod_congr].
Qed.
Lemma Rmod_congr_eq : forall x y m, 0 < m -> congr m x y -> Rmod x m = Rmod y m.
Proof.
  intros. apply Rmod_unique; [assumption| |now apply Rmod_range].
  apply congr_trans with x; [apply Rmod_congr|assumption].
Qed.

Section SSA.
Variables a1 a2 : R.
Let x := Rmod a1 two_pi. Let y := Rmod a2 two_pi.
Let a := Rmod (x - y) two_pi. Let b := Rmod (y - x) two_pi.
Lemma ab_sum : (a = 0 /\ b = 0) \/ a + b = two_pi.
Proof.
  pose proof two_pi_pos as HP. pose proof (Rmod_range (x - y) two_pi HP) as Ra. fold a in Ra.
  pose proof (Rmod_range (y - x) two_pi HP) as Rb. fold b in Rb.
  assert (C : congr two_pi (a + b) 0).
  { replace 0 with ((x - y) + (y - x)) by ring. apply congr_add; apply Rmod_congr. }
  destruct C as (k & E). assert (k = 0 \/ k = 1)%Z as [->| ->].
  { assert (-1 < k)%Z. { apply lt_IZR. nra. }
    assert (k < 2)%Z. { apply lt_IZR. nra. } lia. }
  - left. lra.
  - right. lra.
Qed.
Lemma ssa_eq : smallest_signed_angle a1 a2 = if Rlt_dec a b then - a else b.
Proof.
  unfold smallest_signed_angle. fold x y. fold a b. destruct (Rlt_dec a b); lra.
Qed.
Lemma b_congr : congr two_pi b (a2 - a1).
Proof. apply congr_trans with (y - x); [apply Rmod_congr|]. apply congr_sub; apply Rmod_congr. Qed.
Lemma a_congr : congr two_pi (- a) (a2 - a1).
Proof.
  replace (a2 - a1) with (- (a1 - a2)) by ring. apply congr_opp.
  apply congr_trans with (x - y); [apply Rmod_congr|]. apply congr_sub; apply Rmod_congr.
Qed.
Lemma ssa_congr : congr two_pi (smallest_signed_angle a1 a2) (a2 - a1).
Proof. rewrite ssa_eq. destruct (Rlt_dec a b); [apply a_congr|apply b_congr]. Qed.
Lemma ssa_range : - PI < smallest_signed_angle a1 a2 <= PI.
Proof.
  rewrite ssa_eq. pose proof PI_RGT_0. pose proof two_pi_pos as HP.
  pose proof (Rmod_range (x - y) two_pi HP) as Ra. fold a in Ra.
  pose proof (Rmod_range (y - x) two_pi HP) as Rb. fold b in Rb.
  unfold two_pi in *. destruct ab_sum as [[-> ->]|S]; unfold two_pi in *; destruct (Rlt_dec _ _); lra.
Qed.
End SSA.

(** No congruent angle is smaller in magnitude. *)
Lemma ssa_minimal : forall a1 a2 z, congr two_pi z (a2 - a1) -> Rabs (smallest_signed_angle a1 a2) <= Rabs z.
Proof.
  intros a1 a2 z C. pose proof (ssa_range a1 a2) as R. pose proof PI_RGT_0.
  assert (C2 : congr two_pi z (smallest_signed_angle a1 a2)).
  { apply congr_trans with (a2 - a1); [exact C|apply congr_sym, ssa_congr]. }
  destruct (Rle_dec (Rabs (smallest_signed_angle a1 a2)) (Rabs z)) as [L|N]; [exact L|exfalso].
  assert (z = smallest_signed_angle a1 a2).
  { apply (congr_close two_pi); [apply two_pi_pos|exact C2|]. unfold two_pi.
    unfold Rminus. apply Rle_lt_trans with (Rabs z + Rabs (- smallest_signed_angle a1 a2)); [apply Rabs_triang|].
    rewrite Rabs_Ropp. assert (Rabs (smallest_signed_angle a1 a2) <= PI) by (apply Rabs_le; lra). lra. }
  subst z. lra.
Qed.

(** ** wrap_ra_dec *)
Definition dir (ra dec : R) : R * R * R := (cos dec * cos ra, cos dec * sin ra, sin dec).

Lemma cos_congr : forall x y, congr (2 * PI) x y -> cos x = cos y.
Proof.
  intros x y (k & ->). destruct (Z_le_gt_dec 0 k) as [H|H].
  - rewrite <- (Z2Nat.id k H), <- INR_IZR_INZ.
    replace (INR (Z.to_nat k) * (2 * PI)) with (2 * INR (Z.to_nat k) * PI) by ring. apply cos_period.
  - assert (K : k = (- Z.of_nat (Z.to_nat (- k)))%Z) by lia. set (n := Z.to_nat (- k)) in *.
    rewrite <- (cos_period (y + IZR k * (2 * PI)) n). f_equal. rewrite K, opp_IZR, <- INR_IZR_INZ. ring.
Qed.
Lemma sin_congr : forall x y, congr (2 * PI) x y -> sin x = sin y.
Proof.
  intros x y (k & ->). destruct (Z_le_gt_dec 0 k) as [H|H].
  - rewrite <- (Z2Nat.id k H), <- INR_IZR_INZ.
    replace (INR (Z.to_nat k) * (2 * PI)) with (2 * INR (Z.to_nat k) * PI) by ring. apply sin_period.
  - assert (K : k = (- Z.of_nat (Z.to_nat (- k)))%Z) by lia. set (n := Z.to_nat (- k)) in *.
    rewrite <- (sin_period (y + IZR k * (2 * PI)) n). f_equal. rewrite K, opp_IZR, <- INR_IZR_INZ. ring.
Qed.
Lemma dir_flip : forall ra dec, dir (ra - PI) (PI - dec) = dir ra dec.
Proof.
  intros. unfold dir. rewrite Rtrigo_facts.cos_pi_minus, Rtrigo_facts.sin_pi_minus.
  replace (ra - PI) with (- (PI - ra)) by ring. rewrite cos_neg, sin_neg, Rtrigo_facts.cos_pi_minus, Rtrigo_facts.sin_pi_minus.
  apply f_equal2; [apply f_equal2; ring|ring].
Qed.
Lemma wrap_dir : forall ra dec, let '(ra', dec') := wrap_ra_dec ra dec in dir ra' dec' = dir ra dec.
Proof.
  intros ra dec. unfold wrap_ra_dec.
  assert (M : forall r d, dir (Rmod r (2 * PI)) d = dir r d).
  { intros. unfold dir. now rewrite (cos_congr (Rmod r (2 * PI)) r), (sin_congr (Rmod r (2 * PI)) r) by apply Rmod_congr. }
  assert (F2 : forall r d, dir (r - PI) (-1 * (PI + d)) = dir r d).
  { intros r d. rewrite <- (dir_flip r d). unfold dir.
    replace (-1 * (PI + d)) with ((PI - d) - 2 * PI) by ring.
    rewrite (cos_congr (PI - d - 2 * PI) (PI - d)), (sin_congr (PI - d - 2 * PI) (PI - d)) by apply congr_turn. reflexivity. }
  destruct (Rlt_dec dec (- PI / 2)).
  - destruct (Rlt_dec (PI / 2) (-1 * (PI + dec))); rewrite M; [rewrite dir_flip|]; apply F2.
  - destruct (Rlt_dec (PI / 2) dec); rewrite M; [apply dir_flip|reflexivity].
Qed.
Lemma wrap_range : forall ra dec, - (3 * PI / 2) <= dec <= 3 * PI / 2 ->
  let '(ra', dec') := wrap_ra_dec ra dec in 0 <= ra' < 2 * PI /\ - (PI / 2) <= dec' <= PI / 2.
Proof.
  intros ra dec H. pose proof PI_RGT_0. unfold wrap_ra_dec.
  destruct (Rlt_dec dec (- PI / 2)).
  - destruct (Rlt_dec (PI / 2) (-1 * (PI + dec))); (split; [apply Rmod_range; lra|lra]).
  - destruct (Rlt_dec (PI / 2) dec); (split; [apply Rmod_range; lra|lra]).
Qed.

Lemma ssa_val : forall a1 a2, - PI < a2 - a1 <= PI -> smallest_signed_angle a1 a2 = a2 - a1.
Proof.
  intros a1 a2 H. pose proof (ssa_range a1 a2). pose proof PI_RGT_0.
  apply (congr_close two_pi); [apply two_pi_pos|apply ssa_congr|]. unfold two_pi. apply Rabs_def1; lra.
Qed.
