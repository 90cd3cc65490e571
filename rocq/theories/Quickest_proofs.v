(** No motion within the limits is quicker than the slew duration. *)
From Coq Require Import List Reals Lra Psatz.
From Verif Require Import Jerk Jerk_proofs Percent_proofs.
Import ListNotations.
Open Scope R_scope.

(** ** Derivatives *)
(** The error of the linear part is quadratic near [t]. *)
Definition qe (f : R -> R) (t l : R) : Prop :=
  exists M e, 0 < e /\ forall h, Rabs h <= e -> Rabs (f (t + h) - f t - l * h) <= M * (h * h).
Lemma qe_der : forall f t l, qe f t l -> derivable_pt_lim f t l.
Proof.
  intros f t l (M & e & He & B) eps Heps.
  assert (Mp : 0 < Rabs M + 1) by (pose proof (Rabs_pos M); lra).
  assert (Dp : 0 < Rmin e (eps / (Rabs M + 1))) by (apply Rmin_glb_lt; [lra|apply Rdiv_lt_0_compat; lra]).
  exists (mkposreal _ Dp). intros h Hh Lh. cbn in Lh.
  assert (L1 : Rabs h < e) by (eapply Rlt_le_trans; [exact Lh|apply Rmin_l]).
  assert (L2 : Rabs h < eps / (Rabs M + 1)) by (eapply Rlt_le_trans; [exact Lh|apply Rmin_r]).
  specialize (B h ltac:(lra)).
  replace ((f (t + h) - f t) / h - l) with ((f (t + h) - f t - l * h) / h) by (field; exact Hh).
  unfold Rdiv. rewrite Rabs_mult, Rabs_inv. pose proof (Rabs_pos_lt h Hh) as Ph.
  apply (Rmult_lt_reg_r (Rabs h)); [lra|]. rewrite Rmult_assoc, Rinv_l, Rmult_1_r by lra.
  apply Rle_lt_trans with (1 := B).
  assert (E : h * h = Rabs h * Rabs h) by (rewrite <- Rabs_mult, Rabs_pos_eq; auto; apply Rle_0_sqr).
  rewrite E. apply (Rmult_lt_compat_r (Rabs M + 1)) in L2; [|lra]. unfold Rdiv in L2.
  rewrite Rmult_assoc, Rinv_l, Rmult_1_r in L2 by lra. pose proof (Rle_abs M).
  assert (M * (Rabs h * Rabs h) <= Rabs M * (Rabs h * Rabs h)) by (apply Rmult_le_compat_r; nra).
  nra.
Qed.
Lemma qe_local : forall f g t l e, 0 < e -> (forall h, Rabs h <= e -> f (t + h) = g (t + h)) -> qe g t l -> qe f t l.
Proof.
  intros f g t l e He E (M & e2 & He2 & B). exists M, (Rmin e e2). split; [apply Rmin_glb_lt; auto|].
  intros h Lh. assert (Rabs h <= e) by (eapply Rle_trans; [exact Lh|apply Rmin_l]).
  assert (Rabs h <= e2) by (eapply Rle_trans; [exact Lh|apply Rmin_r]).
  rewrite E by auto. replace (f t) with (g t); [auto|].
  symmetry. specialize (E 0). rewrite Rplus_0_r in E. apply E. rewrite Rabs_R0. lra.
Qed.
Lemma qe_glue : forall f g t l, f t = g t -> qe f t l -> qe g t l -> qe (fun s => if Rle_dec s t then f s else g s) t l.
Proof.
  intros f g t l E (M & e & He & B) (M2 & e2 & He2 & B2). exists (Rmax M M2), (Rmin e e2).
  split; [apply Rmin_glb_lt; auto|]. intros h Lh.
  assert (Rabs h <= e) by (eapply Rle_trans; [exact Lh|apply Rmin_l]).
  assert (Rabs h <= e2) by (eapply Rle_trans; [exact Lh|apply Rmin_r]).
  destruct (Rle_dec t t); [|lra]. pose proof (Rle_0_sqr h) as Sq. unfold Rsqr in Sq.
  destruct (Rle_dec (t + h) t).
  - apply Rle_trans with (M * (h * h)); [auto|]. apply Rmult_le_compat_r; [lra|apply Rmax_l].
  - rewrite E. apply Rle_trans with (M2 * (h * h)); [auto|]. apply Rmult_le_compat_r; [lra|apply Rmax_r].
Qed.

(** A cubic around [t0]. *)
Definition cub (x0 u0 b0 k t0 t : R) : R := x0 + u0 * (t - t0) + b0 * (t - t0) ^ 2 / 2 + k * (t - t0) ^ 3 / 6.
Lemma qe_cub : forall x0 u0 b0 k t0 t, qe (cub x0 u0 b0 k t0) t (u0 + b0 * (t - t0) + k * (t - t0) ^ 2 / 2).
Proof.
  intros. exists (Rabs (b0 / 2 + k * (t - t0) / 2) + Rabs k), 1. split; [lra|]. intros h Lh.
  replace (cub x0 u0 b0 k t0 (t + h) - cub x0 u0 b0 k t0 t - (u0 + b0 * (t - t0) + k * (t - t0) ^ 2 / 2) * h)
    with ((b0 / 2 + k * (t - t0) / 2 + k * (h / 6)) * (h * h)) by (unfold cub; field).
  rewrite Rabs_mult, (Rabs_pos_eq (h * h)) by apply Rle_0_sqr.
  apply Rmult_le_compat_r; [apply Rle_0_sqr|].
  eapply Rle_trans; [apply Rabs_triang|]. apply Rplus_le_compat_l. rewrite Rabs_mult.
  rewrite <- (Rmult_1_r (Rabs k)) at 2. apply Rmult_le_compat_l; [apply Rabs_pos|].
  apply Rabs_le. pose proof (Rle_abs h). pose proof (Rle_abs (- h)). rewrite Rabs_Ropp in *. lra.
Qed.
Lemma der_cub : forall x0 u0 b0 k t0 t, derivable_pt_lim (cub x0 u0 b0 k t0) t (u0 + b0 * (t - t0) + k * (t - t0) ^ 2 / 2).
Proof. intros. apply qe_der, qe_cub. Qed.

(** The square of the positive part. *)
Definition ppart (x : R) : R := Rmax x 0 * Rmax x 0.
Lemma der_ppart : forall x, derivable_pt_lim ppart x (2 * Rmax x 0).
Proof.
  intros x. apply qe_der. exists 1, 1. split; [lra|]. intros h _. unfold ppart, Rmax.
  apply Rabs_le. destruct (Rle_dec (x + h) 0), (Rle_dec x 0); split; nra.
Qed.

(** A function that grows no quicker ends no higher. *)
Lemma cmp : forall f f' F F' s t, s <= t ->
  (forall c, derivable_pt_lim f c (f' c)) -> (forall c, derivable_pt_lim F c (F' c)) ->
  (forall c, s <= c <= t -> f' c <= F' c) -> f t - f s <= F t - F s.
Proof.
  intros f f' F F' s t L Df DF B. destruct (Rle_lt_or_eq_dec s t L) as [K|<-]; [|lra].
  destruct (MVT_cor2 (f - F)%F (fun c => f' c - F' c) s t K) as (c & E & Hc).
  { intros c _. now apply derivable_pt_lim_minus. }
  unfold minus_fct in E. specialize (B c ltac:(lra)).
  assert ((f' c - F' c) * (t - s) <= 0) by nra. lra.
Qed.
Lemma der_rev : forall f c t l, derivable_pt_lim f (c - t) l -> derivable_pt_lim (fun s => f (c - s)) t (- l).
Proof.
  intros f c t l D eps He. destruct (D eps He) as (dl & B). exists dl. intros h Hh Lh.
  specialize (B (- h) ltac:(lra)). rewrite Rabs_Ropp in B. specialize (B Lh).
  replace (c - (t + h)) with (c - t + - h) by ring.
  replace ((f (c - t + - h) - f (c - t)) / h - - l) with (- ((f (c - t + - h) - f (c - t)) / - h - l)) by (field; lra).
  now rewrite Rabs_Ropp.
Qed.
Lemma der_opp : forall f t l, derivable_pt_lim f t l -> derivable_pt_lim (fun s => - f s) t (- l).
Proof. intros. now apply (derivable_pt_lim_opp f t l). Qed.

(** ** From rest up to the top speed *)
Lemma ramp_wit2 : forall a j w, 0 < a -> 0 < j -> 0 < w ->
  exists b, 0 < b /\ b * b <= w * j /\ (b = a \/ b * b = w * j) /\ ramp a (Some j) w = w / b + b / j.
Proof.
  intros a j w Ha Hj Hw. cbn [ramp]. destruct (Rlt_dec (w * j) (a * a)) as [L|L].
  - exists (j * sqrt (w / j)).
    assert (P : 0 < w / j) by (apply Rdiv_lt_0_compat; lra).
    pose proof (sqrt_lt_R0 _ P) as S0. pose proof (sqrt_sqrt (w / j) (Rlt_le _ _ P)) as SS.
    assert (E : w = j * (sqrt (w / j) * sqrt (w / j))) by (rewrite SS; field; lra).
    set (s := sqrt (w / j)) in *. assert (B : j * s * (j * s) = w * j) by (rewrite E; ring).
    split; [nra|]. split; [lra|]. split; [now right|]. rewrite E at 1. field. lra.
  - exists a. split; [lra|]. split; [lra|]. split; [now left|reflexivity].
Qed.

Section Half.
Variables (x u g : R -> R) (a j w : R).
Hypothesis Ha : 0 < a.
Hypothesis Hj : 0 < j.
Hypothesis Hw : 0 < w.
Hypothesis Dx : forall t, derivable_pt_lim x t (u t).
Hypothesis Du : forall t, derivable_pt_lim u t (g t).
Hypothesis Lg : forall s t, Rabs (g t - g s) <= j * Rabs (t - s).
Hypothesis Ga : forall t, g t <= a.
Hypothesis Uw : forall t, u t <= w.
Hypothesis U0 : u 0 = 0.
Hypothesis G0 : g 0 = 0.

Lemma g_late : forall s t, s <= t -> g t <= g s + j * (t - s) /\ g s - j * (t - s) <= g t.
Proof.
  intros s t L. specialize (Lg s t). rewrite (Rabs_pos_eq (t - s)) in Lg by lra.
  pose proof (Rle_abs (g t - g s)). pose proof (Rle_abs (- (g t - g s))). rewrite Rabs_Ropp in *. lra.
Qed.
(** Braking: the speed still gained while the acceleration goes down to zero. *)
Lemma brake : forall t, 0 < g t -> g t * g t <= 2 * j * (w - u t).
Proof.
  intros t P. set (y := g t) in *. assert (Y : 0 < y / j) by (apply Rdiv_lt_0_compat; lra).
  pose proof (cmp (cub 0 y (- j) 0 t) (fun s => y + - j * (s - t) + 0 * (s - t) ^ 2 / 2) u g t (t + y / j) ltac:(lra)
    (der_cub 0 y (- j) 0 t) Du) as C.
  assert (B : forall c, t <= c <= t + y / j -> y + - j * (c - t) + 0 * (c - t) ^ 2 / 2 <= g c).
  { intros c Hc. pose proof (g_late t c ltac:(lra)). fold y in H. lra. }
  specialize (C B). pose proof (Uw (t + y / j)) as W. unfold cub in C.
  replace (t + y / j - t) with (y / j) in C by ring. replace (t - t) with 0 in C by ring.
  assert (E : y * (y / j) + - j * (y / j) ^ 2 / 2 = y * y / (2 * j)) by (field; lra).
  assert (F : y * y / (2 * j) <= w - u t) by lra.
  apply (Rmult_le_compat_l (2 * j)) in F; [|lra].
  replace (2 * j * (y * y / (2 * j))) with (y * y) in F by (field; lra). exact F.
Qed.

Variable b : R.
Hypothesis Hb : 0 < b.
Hypothesis Bw : b * b <= w * j.
Hypothesis Ba : b = a \/ b * b = w * j.
Let c := b / j.
Let t1 := w / b.
Let r := t1 + c.

Lemma half_c : 0 < c. Proof. unfold c. apply Rdiv_lt_0_compat; lra. Qed.
Lemma half_t1 : c <= t1.
Proof.
  unfold c, t1. apply (Rmult_le_reg_r (b * j)); [nra|].
  replace (b / j * (b * j)) with (b * b) by (field; lra). replace (w / b * (b * j)) with (w * j) by (field; lra). exact Bw.
Qed.
Lemma half_w : w = b * t1. Proof. unfold t1. field. lra. Qed.
Lemma half_b : b = j * c. Proof. unfold c. field. lra. Qed.

Lemma speed1 : forall t, 0 <= t -> u t <= j * t ^ 2 / 2.
Proof.
  intros t Ht. pose proof (cmp u g (cub 0 0 j 0 0) _ 0 t Ht Du (der_cub 0 0 j 0 0)) as C. unfold cub in C.
  rewrite U0 in C. replace (t - 0) with t in C by ring. replace (0 - 0) with 0 in C by ring.
  assert (B : forall s, 0 <= s <= t -> g s <= 0 + j * (s - 0) + 0 * (s - 0) ^ 2 / 2).
  { intros s Hs. pose proof (g_late 0 s ltac:(lra)). rewrite G0 in *. lra. }
  specialize (C B). lra.
Qed.
Lemma speed2 : forall t, c <= t <= t1 -> u t <= b * c / 2 + b * (t - c).
Proof.
  intros t Ht. pose proof half_c as C0. pose proof (speed1 c ltac:(lra)) as S1.
  assert (E : j * c ^ 2 / 2 = b * c / 2) by (rewrite half_b; unfold c; field; lra).
  destruct Ba as [Eb|Eb].
  - pose proof (cmp u g (cub 0 b 0 0 c) _ c t ltac:(lra) Du (der_cub 0 b 0 0 c)) as C. unfold cub in C.
    assert (B : forall s, c <= s <= t -> g s <= b + 0 * (s - c) + 0 * (s - c) ^ 2 / 2).
    { intros s _. pose proof (Ga s). lra. }
    specialize (C B). replace (c - c) with 0 in C by ring. lra.
  - assert (T1 : t1 = c).
    { unfold t1, c. apply (Rmult_eq_reg_r (b * j)); [|nra].
      replace (b / j * (b * j)) with (b * b) by (field; lra). replace (w / b * (b * j)) with (w * j) by (field; lra). lra. }
    assert (t = c) by lra. subst t. lra.
Qed.
Lemma speed3 : forall t, t1 <= t <= r -> u t <= w - j * (r - t) ^ 2 / 2.
Proof.
  intros t Ht. pose proof half_c as C0. pose proof half_t1 as T1.
  set (h := fun s => u s - cub w 0 (- j) 0 r s).
  set (h' := fun s => g s - (0 + - j * (s - r) + 0 * (s - r) ^ 2 / 2)).
  assert (Dh : forall s, derivable_pt_lim h s (h' s)).
  { intros s. unfold h, h'. apply (derivable_pt_lim_minus u (cub w 0 (- j) 0 r)); [apply Du|apply der_cub]. }
  pose proof (cmp (comp ppart h) (fun s => 2 * Rmax (h s) 0 * h' s) (cub 0 0 0 0 0) _ t1 t ltac:(lra)
    (fun s => derivable_pt_lim_comp h ppart s _ _ (Dh s) (der_ppart (h s))) (der_cub 0 0 0 0 0)) as C.
  assert (B : forall s, t1 <= s <= t -> 2 * Rmax (h s) 0 * h' s <= 0 + 0 * (s - 0) + 0 * (s - 0) ^ 2 / 2).
  { intros s Hs. replace (0 + 0 * (s - 0) + 0 * (s - 0) ^ 2 / 2) with 0 by field.
    unfold Rmax. destruct (Rle_dec (h s) 0) as [N|N]; [lra|].
    assert (P : 0 < h s) by lra. unfold h, cub in P.
    assert (K : h' s <= 0); [|nra]. unfold h'.
    destruct (Rle_dec (g s) 0) as [G|G]; [nra|]. pose proof (brake s ltac:(lra)) as Bk.
    assert (g s * g s < (j * (r - s)) * (j * (r - s))) by nra.
    apply Rnot_lt_le. intros Q. assert (j * (r - s) < g s) by lra. assert (0 <= j * (r - s)) by nra. nra. }
  specialize (C B). unfold comp, cub in C.
  assert (H1 : h t1 <= 0).
  { unfold h, cub. pose proof (speed2 t1 ltac:(lra)) as S2. pose proof half_w as HW.
    assert (BC : b * c = j * c * c) by (rewrite half_b at 1; ring).
    replace (t1 - r) with (- c) by (unfold r; ring). lra. }
  assert (Z : ppart (h t1) = 0) by (unfold ppart; rewrite Rmax_right; [ring|lra]).
  rewrite Z in C. unfold ppart in C. assert (H2 : h t <= 0).
  { apply Rnot_lt_le. intros K. rewrite Rmax_left in C by lra. nra. }
  unfold h, cub in H2. nra.
Qed.

Lemma half_slow : forall t, 0 <= t < r -> u t < w.
Proof.
  intros t Ht. pose proof half_c as C0. pose proof half_t1 as T1.
  assert (J : 0 < j * c * c) by (apply Rmult_lt_0_compat; [apply Rmult_lt_0_compat|]; lra).
  assert (W2 : b * c <= w) by (pose proof half_w as HW; rewrite HW; apply Rmult_le_compat_l; lra).
  assert (BC : b * c = j * c * c) by (rewrite half_b at 1; ring).
  destruct (Rle_dec t c) as [A|A].
  - pose proof (speed1 t ltac:(lra)). assert (T2 : t ^ 2 <= c ^ 2) by (apply pow_incr; lra).
    apply (Rmult_le_compat_l j) in T2; [|lra]. lra.
  - destruct (Rle_dec t t1) as [B|B].
    + pose proof (speed2 t ltac:(lra)) as S2. pose proof half_w as HW. nra.
    + pose proof (speed3 t ltac:(lra)) as S3. assert (0 < j * (r - t) ^ 2); [|lra].
      apply Rmult_lt_0_compat; [lra|]. apply pow_lt. lra.
Qed.
Lemma half_way : forall t, r <= t -> x t - x 0 <= w * t - w * r / 2.
Proof.
  intros t Ht. pose proof half_c as C0. pose proof half_t1 as T1.
  assert (Q1 : x c - x 0 <= j * c ^ 3 / 6).
  { pose proof (cmp x u (cub 0 0 0 j 0) _ 0 c ltac:(lra) Dx (der_cub 0 0 0 j 0)) as C. unfold cub in C.
    replace (c - 0) with c in C by ring. replace (0 - 0) with 0 in C by ring.
    assert (B : forall s, 0 <= s <= c -> u s <= 0 + 0 * (s - 0) + j * (s - 0) ^ 2 / 2).
    { intros s Hs. pose proof (speed1 s ltac:(lra)). replace (s - 0) with s by ring. lra. }
    specialize (C B). lra. }
  assert (Q2 : x t1 - x c <= b * c / 2 * (t1 - c) + b * (t1 - c) ^ 2 / 2).
  { pose proof (cmp x u (cub 0 (b * c / 2) b 0 c) _ c t1 ltac:(lra) Dx (der_cub 0 (b * c / 2) b 0 c)) as C. unfold cub in C.
    replace (c - c) with 0 in C by ring.
    assert (B : forall s, c <= s <= t1 -> u s <= b * c / 2 + b * (s - c) + 0 * (s - c) ^ 2 / 2).
    { intros s Hs. pose proof (speed2 s ltac:(lra)). lra. }
    specialize (C B). lra. }
  assert (Q3 : x r - x t1 <= w * c - j * c ^ 3 / 6).
  { pose proof (cmp x u (cub 0 w 0 (- j) r) _ t1 r ltac:(unfold r; lra) Dx (der_cub 0 w 0 (- j) r)) as C. unfold cub in C.
    replace (r - r) with 0 in C by ring. replace (t1 - r) with (- c) in C by (unfold r; ring).
    assert (B : forall s, t1 <= s <= r -> u s <= w + 0 * (s - r) + - j * (s - r) ^ 2 / 2).
    { intros s Hs. pose proof (speed3 s ltac:(lra)). nra. }
    specialize (C B). replace ((- c) ^ 3) with (- c ^ 3) in C by ring. lra. }
  assert (Q4 : x t - x r <= w * (t - r)).
  { pose proof (cmp x u (cub 0 w 0 0 r) _ r t ltac:(lra) Dx (der_cub 0 w 0 0 r)) as C. unfold cub in C.
    replace (r - r) with 0 in C by ring.
    assert (B : forall s, r <= s <= t -> u s <= w + 0 * (s - r) + 0 * (s - r) ^ 2 / 2).
    { intros s Hs. pose proof (Uw s). lra. }
    specialize (C B). lra. }
  assert (E : b * c / 2 * (t1 - c) + b * (t1 - c) ^ 2 / 2 + w * c = w * r / 2)
    by (unfold r; rewrite half_w at 1 2; field).
  lra.
Qed.
End Half.

(** ** The whole motion *)
Lemma quick_end : forall v a jm d tau w, 0 < v -> 0 < a -> jpos jm -> 0 < d -> 0 < w <= v ->
  2 * ramp a jm w <= tau -> d <= w * tau - w * ramp a jm w -> dur v a jm d <= tau.
Proof.
  intros v a jm d tau w Hv Ha Hj Hd Hw T2 D.
  destruct (Rle_dec (w * ramp a jm w) d) as [F|F].
  - eapply Rle_trans; [apply (best v a jm d w); auto|].
    apply (Rmult_le_reg_l w); [lra|]. replace (w * (d / w + ramp a jm w)) with (d + w * ramp a jm w) by (field; lra). lra.
  - destruct (peak v a jm d Hv Ha Hj Hd) as (k & Hk & Fk & B & ->).
    assert (L : k <= w).
    { apply Rnot_lt_le. intros K. pose proof (ramp_grow a jm w k Ha Hj ltac:(lra) ltac:(lra)).
      pose proof (ramp_pos a jm w Ha Hj ltac:(lra)). nra. }
    destruct B as [->|E].
    + assert (v = w) by lra. subst w. lra.
    + rewrite <- E. replace (k * ramp a jm k / k) with (ramp a jm k) by (field; lra).
      pose proof (ramp_grow a jm k w Ha Hj ltac:(lra) L). lra.
Qed.

Lemma quick : forall v a j d tau x u g,
  0 < v -> 0 < a -> 0 < j -> 0 <= tau ->
  (forall t, derivable_pt_lim x t (u t)) -> (forall t, derivable_pt_lim u t (g t)) ->
  (forall s t, Rabs (g t - g s) <= j * Rabs (t - s)) ->
  (forall t, u t <= v) -> (forall t, - a <= g t <= a) ->
  (forall t, t <= 0 \/ tau <= t -> u t = 0 /\ g t = 0) ->
  x tau - x 0 = d -> 0 <= d -> dur v a (Some j) d <= tau.
Proof.
  intros v a j d tau x u g Hv Ha Hj Ht Dx Du Lg Uv Ga Rest Xd Hd.
  destruct (Rle_lt_or_eq_dec 0 d Hd) as [P|E]; [|rewrite <- E, dur_zero; auto].
  destruct (continuity_ab_maj u 0 tau Ht) as (p & Mx & Hp).
  { intros c _. apply derivable_continuous_pt. exists (g c). apply Du. }
  set (w := u p) in *. destruct (Rest 0 ltac:(lra)) as (U0 & G0). destruct (Rest tau ltac:(lra)) as (Ut & Gt).
  assert (W0 : 0 <= w) by (pose proof (Mx 0 ltac:(lra)); lra).
  assert (Uw : forall t, u t <= w).
  { intros t. destruct (Rle_dec 0 t), (Rle_dec t tau); [apply Mx; lra| | |]; destruct (Rest t ltac:(lra)) as (-> & _); lra. }
  assert (Wp : 0 < w).
  { destruct (Rle_lt_or_eq_dec 0 w W0) as [K|K]; [exact K|exfalso].
    pose proof (cmp x u (cub 0 0 0 0 0) _ 0 tau Ht Dx (der_cub 0 0 0 0 0)) as C. unfold cub in C.
    assert (B : forall s, 0 <= s <= tau -> u s <= 0 + 0 * (s - 0) + 0 * (s - 0) ^ 2 / 2) by (intros s _; pose proof (Uw s); lra).
    specialize (C B). lra. }
  destruct (ramp_wit2 a j w Ha Hj Wp) as (b & Hb & Bw & Ba & RW).
  set (x' := fun t => - x (tau - t)). set (u' := fun t => u (tau - t)). set (g' := fun t => - g (tau - t)).
  assert (Dx' : forall t, derivable_pt_lim x' t (u' t)).
  { intros t. unfold x', u'. rewrite <- (Ropp_involutive (u (tau - t))).
    apply (der_opp (fun s => x (tau - s))). apply der_rev, Dx. }
  assert (Du' : forall t, derivable_pt_lim u' t (g' t)) by (intros t; apply der_rev, Du).
  assert (Lg' : forall s t, Rabs (g' t - g' s) <= j * Rabs (t - s)).
  { intros s t. unfold g'. specialize (Lg (tau - t) (tau - s)).
    replace (- g (tau - t) - - g (tau - s)) with (g (tau - s) - g (tau - t)) by ring.
    replace (tau - s - (tau - t)) with (t - s) in Lg by ring. exact Lg. }
  assert (Ga1 : forall t, g t <= a) by (intros t; apply Ga).
  assert (Ga2 : forall t, g' t <= a) by (intros t; unfold g'; pose proof (Ga (tau - t)); lra).
  assert (Uw' : forall t, u' t <= w) by (intros t; apply Uw).
  assert (U0' : u' 0 = 0) by (unfold u'; now replace (tau - 0) with tau by ring).
  assert (G0' : g' 0 = 0) by (unfold g'; replace (tau - 0) with tau by ring; lra).
  assert (RP : 0 < ramp a (Some j) w) by now apply ramp_pos.
  assert (PL : ramp a (Some j) w <= p).
  { apply Rnot_lt_le. intros K. rewrite RW in K.
    pose proof (half_slow u g a j w Hj Wp Du Lg Ga1 Uw U0 G0 b Hb Bw Ba p ltac:(lra)). unfold w in *. lra. }
  assert (PR : ramp a (Some j) w <= tau - p).
  { apply Rnot_lt_le. intros K. rewrite RW in K.
    pose proof (half_slow u' g' a j w Hj Wp Du' Lg' Ga2 Uw' U0' G0' b Hb Bw Ba (tau - p) ltac:(lra)) as Q.
    unfold u' in Q. replace (tau - (tau - p)) with p in Q by ring. unfold w in *. lra. }
  apply (quick_end v a (Some j) d tau w); auto; [split; [exact Wp|apply Uv]|lra|].
  pose proof (half_way x u g a j w Hj Dx Du Lg Ga1 Uw U0 G0 b Hb Bw Ba (tau / 2) ltac:(lra)) as Q1.
  pose proof (half_way x' u' g' a j w Hj Dx' Du' Lg' Ga2 Uw' U0' G0' b Hb Bw Ba (tau / 2) ltac:(lra)) as Q2.
  unfold x' in Q2. replace (tau - tau / 2) with (tau / 2) in Q2 by field. replace (tau - 0) with tau in Q2 by ring.
  rewrite <- RW in *. lra.
Qed.

(** ** Without a limit on the jerk *)
Lemma lip_cont : forall u a, 0 < a -> (forall s t, Rabs (u t - u s) <= a * Rabs (t - s)) -> forall t, continuity_pt u t.
Proof.
  intros u a Ha L t e He. exists (e / a). split; [apply Rdiv_lt_0_compat; lra|].
  intros y (_ & Hy). cbn in *. unfold R_dist in *. eapply Rle_lt_trans; [apply L|].
  apply (Rmult_lt_compat_l a) in Hy; [|lra]. replace (a * (e / a)) with e in Hy by (field; lra). exact Hy.
Qed.
Lemma half_acc : forall x u a w, 0 < a -> 0 < w ->
  (forall t, derivable_pt_lim x t (u t)) -> (forall s t, Rabs (u t - u s) <= a * Rabs (t - s)) ->
  (forall t, u t <= w) -> u 0 = 0 ->
  (forall t, 0 <= t < w / a -> u t < w) /\ (forall t, w / a <= t -> x t - x 0 <= w * t - w * (w / a) / 2).
Proof.
  intros x u a w Ha Hw Dx Lu Uw U0. set (r := w / a).
  assert (RW : w = a * r) by (unfold r; field; lra). assert (Rp : 0 < r) by (unfold r; apply Rdiv_lt_0_compat; lra).
  assert (S1 : forall t, 0 <= t -> u t <= a * t).
  { intros t Ht. specialize (Lu 0 t). rewrite U0, (Rabs_pos_eq (t - 0)) in Lu by lra.
    pose proof (Rle_abs (u t - 0)). lra. }
  split.
  - intros t Ht. pose proof (S1 t ltac:(lra)). assert (a * t < a * r) by (apply Rmult_lt_compat_l; lra). lra.
  - intros t Ht.
    assert (Q1 : x r - x 0 <= a * r ^ 2 / 2).
    { pose proof (cmp x u (cub 0 0 a 0 0) _ 0 r ltac:(lra) Dx (der_cub 0 0 a 0 0)) as C. unfold cub in C.
      assert (B : forall s, 0 <= s <= r -> u s <= 0 + a * (s - 0) + 0 * (s - 0) ^ 2 / 2) by (intros s Hs; pose proof (S1 s ltac:(lra)); lra).
      specialize (C B). replace (r - 0) with r in C by ring. replace (0 - 0) with 0 in C by ring. lra. }
    assert (Q4 : x t - x r <= w * (t - r)).
    { pose proof (cmp x u (cub 0 w 0 0 r) _ r t ltac:(lra) Dx (der_cub 0 w 0 0 r)) as C. unfold cub in C.
      replace (r - r) with 0 in C by ring.
      assert (B : forall s, r <= s <= t -> u s <= w + 0 * (s - r) + 0 * (s - r) ^ 2 / 2) by (intros s Hs; pose proof (Uw s); lra).
      specialize (C B). lra. }
    assert (a * r ^ 2 = w * r) by (rewrite RW; ring). lra.
Qed.
Lemma quick_acc : forall v a d tau x u,
  0 < v -> 0 < a -> 0 <= tau ->
  (forall t, derivable_pt_lim x t (u t)) -> (forall s t, Rabs (u t - u s) <= a * Rabs (t - s)) ->
  (forall t, u t <= v) -> (forall t, t <= 0 \/ tau <= t -> u t = 0) ->
  x tau - x 0 = d -> 0 <= d -> dur v a None d <= tau.
Proof.
  intros v a d tau x u Hv Ha Ht Dx Lu Uv Rest Xd Hd.
  destruct (Rle_lt_or_eq_dec 0 d Hd) as [P|E]; [|rewrite <- E, dur_zero; cbn; auto].
  destruct (continuity_ab_maj u 0 tau Ht) as (p & Mx & Hp).
  { intros c _. now apply (lip_cont u a). }
  set (w := u p) in *. pose proof (Rest 0 ltac:(lra)) as U0. pose proof (Rest tau ltac:(lra)) as Ut.
  assert (W0 : 0 <= w) by (pose proof (Mx 0 ltac:(lra)); lra).
  assert (Uw : forall t, u t <= w).
  { intros t. destruct (Rle_dec 0 t), (Rle_dec t tau); [apply Mx; lra| | |]; rewrite (Rest t) by lra; lra. }
  assert (Wp : 0 < w).
  { destruct (Rle_lt_or_eq_dec 0 w W0) as [K|K]; [exact K|exfalso].
    pose proof (cmp x u (cub 0 0 0 0 0) _ 0 tau Ht Dx (der_cub 0 0 0 0 0)) as C. unfold cub in C.
    assert (B : forall s, 0 <= s <= tau -> u s <= 0 + 0 * (s - 0) + 0 * (s - 0) ^ 2 / 2) by (intros s _; pose proof (Uw s); lra).
    specialize (C B). lra. }
  set (x' := fun t => - x (tau - t)). set (u' := fun t => u (tau - t)).
  assert (Dx' : forall t, derivable_pt_lim x' t (u' t)).
  { intros t. unfold x', u'. rewrite <- (Ropp_involutive (u (tau - t))).
    apply (der_opp (fun s => x (tau - s))). apply der_rev, Dx. }
  assert (Lu' : forall s t, Rabs (u' t - u' s) <= a * Rabs (t - s)).
  { intros s t. unfold u'. specialize (Lu (tau - s) (tau - t)).
    replace (tau - t - (tau - s)) with (s - t) in Lu by ring. now rewrite (Rabs_minus_sym s t) in Lu. }
  assert (U0' : u' 0 = 0) by (unfold u'; now replace (tau - 0) with tau by ring).
  destruct (half_acc x u a w Ha Wp Dx Lu Uw U0) as (S1 & H1).
  destruct (half_acc x' u' a w Ha Wp Dx' Lu' (fun t => Uw (tau - t)) U0') as (S2 & H2).
  assert (RP : 0 < w / a) by (apply Rdiv_lt_0_compat; lra).
  assert (PL : w / a <= p).
  { apply Rnot_lt_le. intros K. pose proof (S1 p ltac:(lra)). unfold w in *. lra. }
  assert (PR : w / a <= tau - p).
  { apply Rnot_lt_le. intros K. pose proof (S2 (tau - p) ltac:(lra)) as Q.
    unfold u' in Q. replace (tau - (tau - p)) with p in Q by ring. unfold w in *. lra. }
  apply (quick_end v a None d tau w); cbn [ramp jpos]; auto; [split; [exact Wp|apply Uv]|lra|].
  specialize (H1 (tau / 2) ltac:(lra)). specialize (H2 (tau / 2) ltac:(lra)).
  unfold x' in H2. replace (tau - tau / 2) with (tau / 2) in H2 by field. replace (tau - 0) with tau in H2 by ring. lra.
Qed.
