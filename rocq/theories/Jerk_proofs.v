(** Proofs about the slew duration. *)
From Coq Require Import List Reals Lra Lia Psatz Bool.
From Verif Require Import Jerk.
Import ListNotations.
Open Scope R_scope.

(** ** Cube root *)
Lemma cbrt_pow : forall x, 0 <= x -> cbrt x ^ 3 = x.
Proof.
  intros x H. unfold cbrt. destruct (Rle_dec x 0); [assert (x = 0) by lra; subst; ring|].
  rewrite <- Rpower_pow by apply exp_pos. rewrite Rpower_mult.
  replace (1 / 3 * INR 3) with 1 by (cbn; field). apply Rpower_1. lra.
Qed.
Lemma cbrt_nonneg : forall x, 0 <= cbrt x.
Proof. intros. unfold cbrt. destruct (Rle_dec x 0); [lra|]. left. apply exp_pos. Qed.
Lemma cube_le : forall a b, 0 <= a -> 0 <= b -> a ^ 3 <= b ^ 3 -> a <= b.
Proof.
  intros a b Ha Hb H. destruct (Rle_dec a b) as [L|N]; [exact L|exfalso].
  assert (a > b) by lra. assert (b * b <= a * b) by nra. assert (a * b < a * a) by nra.
  assert (b * b * b <= a * b * b) by nra. assert (a * b * b <= a * a * b) by nra.
  assert (a * a * b < a * a * a) by (apply Rmult_lt_compat_l; nra). simpl in H. nra.
Qed.
Lemma cbrt_unique : forall x y, 0 <= y -> y ^ 3 = x -> cbrt x = y.
Proof.
  intros x y Hy E. assert (0 <= x) by (subst; now apply pow_le).
  apply Rle_antisym; apply cube_le; auto using cbrt_nonneg; rewrite cbrt_pow by auto; lra.
Qed.
Lemma cbrt_le : forall x y, 0 <= x <= y -> cbrt x <= cbrt y.
Proof. intros. apply cube_le; auto using cbrt_nonneg. rewrite !cbrt_pow; lra. Qed.
Lemma cbrt_sub : forall x y, 0 <= x <= y -> cbrt y - cbrt x <= cbrt (y - x).
Proof.
  intros x y H. pose proof (cbrt_le x y H). apply cube_le; [lra|apply cbrt_nonneg|].
  rewrite (cbrt_pow (y - x)) by lra. rewrite <- (cbrt_pow y), <- (cbrt_pow x) at 2 by lra.
  pose proof (cbrt_nonneg x). pose proof (cbrt_nonneg y).
  set (p := cbrt y) in *. set (q := cbrt x) in *.
  assert (0 <= p * q * (p - q)) by (apply Rmult_le_pos; [nra|lra]).
  simpl. nra.
Qed.
Lemma sqrt_sub : forall x y, 0 <= x <= y -> sqrt y - sqrt x <= sqrt (y - x).
Proof.
  intros x y H. pose proof (sqrt_le_1 x y ltac:(lra) ltac:(lra) ltac:(lra)).
  rewrite <- (sqrt_pow2 (sqrt y - sqrt x)) by lra. apply sqrt_le_1_alt.
  pose proof (pow2_sqrt x ltac:(lra)). pose proof (pow2_sqrt y ltac:(lra)).
  pose proof (sqrt_pos x). pose proof (sqrt_pos y). simpl in *. nra.
Qed.

(** ** Profiles *)
Section P.
Variables v a j : R.
Hypothesis Hv : 0 < v.
Hypothesis Ha : 0 < a.
Hypothesis Hj : 0 < j.

Definition sa := 2 * a * a * a / (j * j).
Definition sv1 := v * 2 * sqrt (v / j).
Definition sv2 := v * (v / a + a / j).
Definition P24 d := 4 * cbrt (d / (2 * j)).
Definition P13 d := 2 * sqrt (v / j) + d / v.
Definition P6 d := a / j + sqrt ((4 * d * j * j + a * a * a) / (a * j * j)).
Definition P5 d := a / j + v / a + d / v.

Lemma slow_iff : v * j < a * a <-> v < a * a / j.
Proof.
  split; intros H.
  - apply (Rmult_lt_reg_r j); [lra|]. unfold Rdiv. rewrite Rmult_assoc, Rinv_l; lra.
  - apply (Rmult_lt_compat_r j) in H; [|lra]. unfold Rdiv in H. rewrite Rmult_assoc, Rinv_l in H; lra.
Qed.
Lemma sa_pos : 0 < sa.
Proof. unfold sa. apply Rdiv_lt_0_compat; [|nra]. repeat apply Rmult_lt_0_compat; lra. Qed.
Lemma sqvj : sqrt (v / j) * sqrt (v / j) = v / j.
Proof. apply sqrt_sqrt. apply Rlt_le, Rdiv_lt_0_compat; lra. Qed.
Lemma sqvj_pos : 0 < sqrt (v / j).
Proof. apply sqrt_lt_R0. apply Rdiv_lt_0_compat; lra. Qed.
Lemma aj_pos : 0 < a / j. Proof. apply Rdiv_lt_0_compat; lra. Qed.
Lemma va_pos : 0 < v / a. Proof. apply Rdiv_lt_0_compat; lra. Qed.
Lemma sv1_pos : 0 < sv1.
Proof. unfold sv1. pose proof sqvj_pos. nra. Qed.
Lemma sv1_lt_sa : v * j < a * a -> sv1 < sa.
Proof.
  intros H. apply slow_iff in H.
  assert (S : sqrt (v / j) < a / j).
  { rewrite <- (sqrt_pow2 (a / j)) by (pose proof aj_pos; lra). apply sqrt_lt_1_alt.
    split; [apply Rlt_le, Rdiv_lt_0_compat; lra|].
    replace ((a / j) ^ 2) with ((a * a / j) * / j) by (field; lra). unfold Rdiv at 1.
    apply Rmult_lt_compat_r; [apply Rinv_0_lt_compat; lra|exact H]. }
  unfold sv1, sa. replace (2 * a * a * a / (j * j)) with (2 * (a * a / j) * (a / j)) by (field; lra).
  pose proof sqvj_pos. pose proof aj_pos. nra.
Qed.
Lemma sa_le_sv2 : a * a <= v * j -> sa <= sv2.
Proof.
  intros H. assert (V : a * a / j <= v).
  { apply Rnot_lt_le. intros K. apply slow_iff in K. lra. }
  assert (V2 : a / j <= v / a).
  { apply (Rmult_le_reg_r a); [lra|]. replace (v / a * a) with v by (field; lra).
    replace (a / j * a) with (a * a / j) by (field; lra). exact V. }
  unfold sa, sv2. replace (2 * a * a * a / (j * j)) with ((a * a / j) * (a / j + a / j)) by (field; lra).
  pose proof aj_pos. apply Rmult_le_compat; nra.
Qed.

(** The profile chosen, in two regimes. *)
Lemma jerk_slow : v * j < a * a -> forall d,
  jerk1 d v a j = Some (if Rlt_dec d sv1 then P24 d else P13 d).
Proof.
  intros H d. pose proof (sv1_lt_sa H) as L. pose proof (proj1 slow_iff H) as K.
  unfold jerk1, traj_case. fold sa. destruct (Rlt_dec (v * j) (a * a)); [|lra]. fold sv1.
  unfold Rltb, Rleb.
  repeat match goal with |- context [Rlt_dec ?x ?y] => destruct (Rlt_dec x y); try lra
                       | |- context [Rle_dec ?x ?y] => destruct (Rle_dec x y); try lra end;
  cbn [andb calc_times option_map total]; f_equal; unfold P24, P13; try lra.
Qed.
Lemma jerk_fast : a * a <= v * j -> forall d,
  jerk1 d v a j = Some (if Rlt_dec d sa then P24 d else if Rlt_dec d sv2 then P6 d else P5 d).
Proof.
  intros H d. pose proof (sa_le_sv2 H) as L.
  assert (K : a * a / j <= v) by (apply Rnot_lt_le; intros K; apply slow_iff in K; lra).
  unfold jerk1, traj_case. fold sa. destruct (Rlt_dec (v * j) (a * a)); [lra|]. fold sv2.
  unfold Rltb, Rleb.
  repeat match goal with |- context [Rlt_dec ?x ?y] => destruct (Rlt_dec x y); try lra
                       | |- context [Rle_dec ?x ?y] => destruct (Rle_dec x y); try lra end;
  cbn [andb calc_times option_map total]; f_equal; unfold P24, P6, P5; try lra.
Qed.

(** Values at the boundaries. *)
Lemma glue_slow : P24 sv1 = P13 sv1.
Proof.
  unfold P24, P13. rewrite (cbrt_unique _ (sqrt (v / j))).
  - unfold sv1. field. lra.
  - pose proof sqvj_pos. lra.
  - unfold sv1. replace (v * 2 * sqrt (v / j) / (2 * j)) with (sqrt (v / j) * (v / j)) by (field; lra).
    replace (sqrt (v / j) ^ 3) with (sqrt (v / j) * (sqrt (v / j) * sqrt (v / j))) by ring.
    now rewrite sqvj.
Qed.
Lemma glue_sa : P24 sa = P6 sa.
Proof.
  unfold P24, P6. rewrite (cbrt_unique _ (a / j)).
  - replace ((4 * sa * j * j + a * a * a) / (a * j * j)) with ((3 * (a / j)) ^ 2) by (unfold sa; field; lra).
    rewrite sqrt_pow2 by (pose proof aj_pos; lra). ring.
  - pose proof aj_pos; lra.
  - unfold sa. field. lra.
Qed.
Lemma glue_sv2 : P6 sv2 = P5 sv2.
Proof.
  unfold P6, P5.
  replace ((4 * sv2 * j * j + a * a * a) / (a * j * j)) with ((2 * (v / a) + a / j) ^ 2) by (unfold sv2; field; lra).
  rewrite sqrt_pow2 by (pose proof aj_pos; pose proof va_pos; lra). unfold sv2. field. lra.
Qed.

(** Bounds on growth of each profile. *)
Lemma P24_grow : forall x y, 0 <= x <= y -> 0 <= P24 y - P24 x <= 4 * cbrt ((y - x) / (2 * j)).
Proof.
  intros x y H. unfold P24. assert (I : 0 < / (2 * j)) by (apply Rinv_0_lt_compat; lra).
  assert (G : 0 <= x / (2 * j) <= y / (2 * j)).
  { unfold Rdiv. split; [apply Rmult_le_pos; lra|apply Rmult_le_compat_r; lra]. }
  pose proof (cbrt_le _ _ G). pose proof (cbrt_sub _ _ G) as S.
  replace ((y - x) / (2 * j)) with (y / (2 * j) - x / (2 * j)) by (field; lra). lra.
Qed.
Lemma P6_grow : forall x y, 0 <= x <= y -> 0 <= P6 y - P6 x <= 2 * sqrt ((y - x) / a).
Proof.
  intros x y H. unfold P6.
  set (X := (4 * x * j * j + a * a * a) / (a * j * j)). set (Y := (4 * y * j * j + a * a * a) / (a * j * j)).
  assert (EX : X = 4 * (x / a) + (a / j) ^ 2) by (unfold X; field; lra).
  assert (EY : Y = 4 * (y / a) + (a / j) ^ 2) by (unfold Y; field; lra).
  assert (I : 0 < / a) by (apply Rinv_0_lt_compat; lra).
  assert (G : 0 <= x / a <= y / a).
  { unfold Rdiv. split; [apply Rmult_le_pos; lra|apply Rmult_le_compat_r; lra]. }
  assert (GX : 0 <= X <= Y) by (rewrite EX, EY; pose proof (pow2_ge_0 (a / j)); lra).
  pose proof (sqrt_le_1 X Y ltac:(lra) ltac:(lra) ltac:(lra)). pose proof (sqrt_sub X Y GX) as S.
  replace (Y - X) with (2 ^ 2 * ((y - x) / a)) in S by (rewrite EX, EY; field; lra).
  assert (0 <= (y - x) / a) by (unfold Rdiv in *; apply Rmult_le_pos; lra).
  rewrite sqrt_mult, sqrt_pow2 in S by lra. lra.
Qed.
Lemma lin_grow : forall x y, x <= y -> 0 <= (y - x) / v.
Proof. intros. unfold Rdiv. apply Rmult_le_pos; [lra|]. apply Rlt_le, Rinv_0_lt_compat. lra. Qed.

Definition omega (h : R) : R := 4 * cbrt (h / (2 * j)) + 2 * sqrt (h / a) + h / v.

Lemma cbrt_mono_div : forall x y, 0 <= x <= y -> cbrt (x / (2 * j)) <= cbrt (y / (2 * j)).
Proof.
  intros. apply cbrt_le. assert (0 < / (2 * j)) by (apply Rinv_0_lt_compat; lra). unfold Rdiv.
  split; [apply Rmult_le_pos; lra|apply Rmult_le_compat_r; lra].
Qed.
Lemma sqrt_mono_div : forall x y, 0 <= x <= y -> sqrt (x / a) <= sqrt (y / a).
Proof.
  intros. assert (0 < / a) by (apply Rinv_0_lt_compat; lra). apply sqrt_le_1_alt. unfold Rdiv.
  apply Rmult_le_compat_r; lra.
Qed.
Lemma lin_mono : forall x y, x <= y -> x / v <= y / v.
Proof. intros. apply Rmult_le_compat_r; [apply Rlt_le, Rinv_0_lt_compat; lra|lra]. Qed.

(** Duration as a total function. *)
Definition T (d : R) : R :=
  if Rlt_dec (v * j) (a * a) then (if Rlt_dec d sv1 then P24 d else P13 d)
  else (if Rlt_dec d sa then P24 d else if Rlt_dec d sv2 then P6 d else P5 d).
Lemma jerk_T : forall d, jerk1 d v a j = Some (T d).
Proof.
  intros. unfold T. destruct (Rlt_dec (v * j) (a * a)); [now apply jerk_slow|apply jerk_fast; lra].
Qed.
Lemma P13_diff : forall x y, P13 y - P13 x = (y - x) / v.
Proof. intros. unfold P13. field. lra. Qed.
Lemma P5_diff : forall x y, P5 y - P5 x = (y - x) / v.
Proof. intros. unfold P5. field. lra. Qed.

Lemma T_grow : forall x y, 0 <= x <= y -> 0 <= T y - T x <= omega (y - x).
Proof.
  intros x y H. unfold T, omega.
  assert (C0 : forall h, 0 <= 4 * cbrt (h / (2 * j))) by (intros; pose proof (cbrt_nonneg (h / (2 * j))); lra).
  assert (S0 : forall h, 0 <= 2 * sqrt (h / a)) by (intros; pose proof (sqrt_pos (h / a)); lra).
  pose proof (lin_grow x y (proj2 H)) as L0.
  destruct (Rlt_dec (v * j) (a * a)) as [W|W].
  - pose proof glue_slow as G. pose proof sv1_pos.
    destruct (Rlt_dec y sv1), (Rlt_dec x sv1); try lra.
    + pose proof (P24_grow x y H). pose proof (S0 (y - x)). lra.
    + pose proof (P24_grow x sv1 ltac:(lra)). pose proof (P13_diff sv1 y).
      pose proof (lin_grow sv1 y ltac:(lra)). pose proof (S0 (y - x)).
      pose proof (cbrt_mono_div (sv1 - x) (y - x) ltac:(lra)). pose proof (lin_mono (y - sv1) (y - x) ltac:(lra)). lra.
    + pose proof (P13_diff x y). pose proof (S0 (y - x)). pose proof (C0 (y - x)). lra.
  - pose proof glue_sa as G1. pose proof glue_sv2 as G2. pose proof (sa_le_sv2 ltac:(lra)). pose proof sa_pos.
    pose proof (S0 (y - x)). pose proof (C0 (y - x)).
    destruct (Rlt_dec y sa), (Rlt_dec x sa); try lra.
    + pose proof (P24_grow x y H). lra.
    + pose proof (P24_grow x sa ltac:(lra)). pose proof (cbrt_mono_div (sa - x) (y - x) ltac:(lra)).
      destruct (Rlt_dec y sv2).
      * pose proof (P6_grow sa y ltac:(lra)). pose proof (sqrt_mono_div (y - sa) (y - x) ltac:(lra)). lra.
      * pose proof (P6_grow sa sv2 ltac:(lra)). pose proof (sqrt_mono_div (sv2 - sa) (y - x) ltac:(lra)).
        pose proof (P5_diff sv2 y). pose proof (lin_grow sv2 y ltac:(lra)). pose proof (lin_mono (y - sv2) (y - x) ltac:(lra)). lra.
    + destruct (Rlt_dec y sv2), (Rlt_dec x sv2); try lra.
      * pose proof (P6_grow x y H). lra.
      * pose proof (P6_grow x sv2 ltac:(lra)). pose proof (sqrt_mono_div (sv2 - x) (y - x) ltac:(lra)).
        pose proof (P5_diff sv2 y). pose proof (lin_grow sv2 y ltac:(lra)). pose proof (lin_mono (y - sv2) (y - x) ltac:(lra)). lra.
      * pose proof (P5_diff x y). lra.
Qed.
Lemma T_zero : T 0 = 0.
Proof.
  assert (Z : P24 0 = 0). { unfold P24. rewrite (cbrt_unique _ 0); [ring|lra|]. field. lra. }
  unfold T. pose proof sv1_pos. pose proof sa_pos.
  destruct (Rlt_dec (v * j) (a * a)); [destruct (Rlt_dec 0 sv1)|destruct (Rlt_dec 0 sa)]; lra.
Qed.
Lemma T_nonneg : forall d, 0 <= d -> 0 <= T d.
Proof. intros. pose proof (T_grow 0 d ltac:(lra)). rewrite T_zero in *. lra. Qed.

(** Small distances need small times. *)
Lemma omega_small : forall e, 0 < e -> exists h, 0 < h /\ forall x, 0 <= x <= h -> omega x < e.
Proof.
  intros e He. set (e4 := e / 4).
  set (h1 := 2 * j * (e4 / 4) ^ 3). set (h2 := a * (e4 / 2) ^ 2). set (h3 := v * e4).
  assert (0 < e4) by (unfold e4; lra).
  assert (0 < h1) by (unfold h1; apply Rmult_lt_0_compat; [lra|apply pow_lt; lra]).
  assert (0 < h2) by (unfold h2; apply Rmult_lt_0_compat; [lra|apply pow_lt; lra]).
  assert (0 < h3) by (unfold h3; nra).
  exists (Rmin h1 (Rmin h2 h3)). split; [repeat apply Rmin_pos; assumption|].
  intros x [X0 X1]. pose proof (Rmin_l h1 (Rmin h2 h3)). pose proof (Rmin_r h1 (Rmin h2 h3)).
  pose proof (Rmin_l h2 h3). pose proof (Rmin_r h2 h3). unfold omega.
  pose proof (cbrt_mono_div x h1 ltac:(lra)) as A1. pose proof (sqrt_mono_div x h2 ltac:(lra)) as A2.
  pose proof (lin_mono x h3 ltac:(lra)) as A3.
  rewrite (cbrt_unique (h1 / (2 * j)) (e4 / 4)) in A1 by (try lra; unfold h1; field; lra).
  replace (h2 / a) with ((e4 / 2) ^ 2) in A2 by (unfold h2; field; lra). rewrite sqrt_pow2 in A2 by lra.
  replace (h3 / v) with e4 in A3 by (unfold h3; field; lra). unfold e4 in *. lra.
Qed.

End P.

(** ** acc_time *)
Section A.
Variables v a : R.
Hypothesis Hv : 0 < v.
Hypothesis Ha : 0 < a.
Lemma acc_grow : forall x y, 0 <= x <= y ->
  0 <= acc_time y v a - acc_time x v a <= 2 * sqrt ((y - x) / a) + (y - x) / v.
Proof.
  intros x y H. unfold acc_time. set (dm := v ^ 2 / a).
  assert (0 < dm) by (unfold dm; apply Rdiv_lt_0_compat; [apply pow_lt; lra|lra]).
  assert (G : 2 * sqrt (dm / a) = 2 * v / a + (dm - dm) / v).
  { replace (dm / a) with ((v / a) ^ 2) by (unfold dm; field; lra).
    rewrite sqrt_pow2 by (apply Rlt_le, Rdiv_lt_0_compat; lra). unfold dm. field. lra. }
  assert (I : 0 < / a) by (apply Rinv_0_lt_compat; lra).
  assert (Q : forall p q, 0 <= p <= q -> 0 <= sqrt (q / a) - sqrt (p / a) <= sqrt ((q - p) / a)).
  { intros p q K. assert (K2 : 0 <= p / a <= q / a).
    { unfold Rdiv. split; [apply Rmult_le_pos; lra|apply Rmult_le_compat_r; lra]. }
    pose proof (sqrt_sub _ _ K2) as S. pose proof (sqrt_le_1_alt _ _ (proj2 K2)).
    replace ((q - p) / a) with (q / a - p / a) by (field; lra). lra. }
  assert (L : forall p q, p <= q -> 0 <= (q - p) / v).
  { intros. unfold Rdiv. apply Rmult_le_pos; [lra|apply Rlt_le, Rinv_0_lt_compat; lra]. }
  assert (D : forall p q, (q - dm) / v - (p - dm) / v = (q - p) / v) by (intros; field; lra).
  pose proof (L x y ltac:(lra)). pose proof (sqrt_pos ((y - x) / a)).
  destruct (Rlt_dec y dm), (Rlt_dec x dm); try lra.
  - pose proof (Q x y H). lra.
  - pose proof (Q x dm ltac:(lra)). pose proof (D dm y). pose proof (L dm y ltac:(lra)).
    assert (sqrt ((dm - x) / a) <= sqrt ((y - x) / a)).
    { apply sqrt_le_1_alt. unfold Rdiv. apply Rmult_le_compat_r; lra. }
    assert ((y - dm) / v <= (y - x) / v).
    { unfold Rdiv. apply Rmult_le_compat_r; [apply Rlt_le, Rinv_0_lt_compat; lra|lra]. }
    lra.
Qed.
Lemma acc_zero : acc_time 0 v a = 0.
Proof.
  unfold acc_time. assert (0 < v ^ 2 / a) by (apply Rdiv_lt_0_compat; [apply pow_lt; lra|lra]).
  destruct (Rlt_dec 0 (v ^ 2 / a)); [|lra]. replace (0 / a) with 0 by (field; lra). rewrite sqrt_0. ring.
Qed.
End A.

(** ** Arrays *)
Lemma seqo_some : forall A (l : list (option A)) r, seqo l = Some r <-> l = map Some r.
Proof.
  induction l as [|x l IH]; intros r; cbn.
  - split; [intros [= <-]; reflexivity|]. destruct r; [reflexivity|discriminate].
  - fold (@seqo A l). destruct x as [x|].
    + destruct (seqo l) as [r'|] eqn:E.
      * split.
        -- intros [= <-]. cbn. f_equal. now apply IH.
        -- destruct r as [|y r]; [discriminate|]. intros K. injection K as -> K. apply IH in K. injection K as ->. reflexivity.
      * split; [discriminate|]. destruct r as [|y r]; [discriminate|]. intros K. injection K as -> K. apply IH in K. discriminate.
    + split; [discriminate|]. destruct r; discriminate.
Qed.
Lemma traj_case_le : forall d v a j, (traj_case d v a j <= 6)%nat.
Proof.
  intros. unfold traj_case.
  repeat match goal with |- context [if ?b then _ else _] => destruct b end; lia.
Qed.
Lemma uniq_in : forall l c, (forall x, In x l -> (x <= 6)%nat) -> In c (uniq l) <-> In c l.
Proof.
  intros l c H. unfold uniq. rewrite filter_In, in_seq, existsb_exists. split.
  - intros (_ & x & Hx & E). apply Nat.eqb_eq in E. now subst.
  - intros Hc. split; [apply H in Hc; lia|]. exists c. split; [exact Hc|apply Nat.eqb_refl].
Qed.

(** The array version is the scalar version element by element. *)
Lemma jerk_time_map : forall ds v a j, 0 < v -> 0 < a -> 0 < j ->
  jerk_time ds v a (Some j) = Some (map (T v a j) ds).
Proof.
  intros ds v a j Hv Ha Hj.
  assert (SC : forall d, option_map total (calc_times d v a j (traj_case d v a j)) = Some (T v a j d)).
  { intros d. exact (jerk_T v a j Hv Ha Hj d). }
  unfold jerk_time. set (cs := map (fun d => traj_case d v a j) ds).
  assert (U : forall c, In c (uniq cs) <-> In c cs).
  { intros c. apply uniq_in. intros x Hx. apply in_map_iff in Hx. destruct Hx as (d & <- & _). apply traj_case_le. }
  (* general form: profile by profile *)
  assert (GEN : forall us done r,
     NoDup (done ++ us) ->
     (forall d, In d ds -> In (traj_case d v a j) (done ++ us)) ->
     r = map (fun d => if existsb (Nat.eqb (traj_case d v a j)) done then T v a j d else 0) ds ->
     fold_left (fun res c => match res with
        | None => None
        | Some r => seqo (map (fun p : R * (R * nat) => let '(old, (d, cd)) := p in
             if Nat.eqb cd c then option_map total (calc_times d v a j c) else Some old)
             (combine r (combine ds cs))) end) us (Some r) = Some (map (T v a j) ds)).
  { induction us as [|c us IH]; intros dn r ND CO ->.
    - cbn. f_equal. apply map_ext_in. intros d Hd. specialize (CO d Hd). rewrite app_nil_r in CO.
      assert (E : existsb (Nat.eqb (traj_case d v a j)) dn = true).
      { apply existsb_exists. eexists. split; [exact CO|apply Nat.eqb_refl]. }
      now rewrite E.
    - cbn [fold_left].
      match goal with |- fold_left _ _ ?X = _ =>
        replace X with (Some (map (fun d => if existsb (Nat.eqb (traj_case d v a j)) (dn ++ [c]) then T v a j d else 0) ds)) end.
      + apply (IH (dn ++ [c])); [now rewrite <- app_assoc| |reflexivity].
        intros d Hd. rewrite <- app_assoc. exact (CO d Hd).
      + symmetry. apply seqo_some. unfold cs. clear -SC ND.
        assert (Nc : ~ In c dn).
        { apply NoDup_remove_2 in ND. intros K. apply ND, in_or_app. now left. }
        induction ds as [|d r IH]; [reflexivity|]. cbn [map combine]. f_equal; [|exact IH].
        rewrite existsb_app. cbn. rewrite orb_false_r.
        destruct (Nat.eqb_spec (traj_case d v a j) c) as [E|E].
        * rewrite orb_true_r. rewrite <- E. apply SC.
        * now rewrite orb_false_r. }
  assert (ND : NoDup (uniq cs)) by (apply NoDup_filter, seq_NoDup).
  assert (CO : forall d, In d ds -> In (traj_case d v a j) (uniq cs)).
  { intros d Hd. apply U. unfold cs. apply in_map_iff. eauto. }
  assert (MANY : forall z, z = map (fun _ => 0) ds ->
    fold_left (fun res c => match res with
        | None => None
        | Some r => seqo (map (fun p : R * (R * nat) => let '(old, (d, cd)) := p in
             if Nat.eqb cd c then option_map total (calc_times d v a j c) else Some old)
             (combine r (combine ds cs))) end) (uniq cs) (Some z) = Some (map (T v a j) ds)).
  { intros z ->. apply (GEN (uniq cs) []); auto. }
  specialize (MANY _ eq_refl).
  destruct (uniq cs) as [|c [|c2 us]] eqn:EU; try exact MANY.
  apply seqo_some. clear MANY GEN. rewrite <- (map_map (T v a j) Some) || rewrite map_map.
  rewrite ?map_map. apply map_ext_in. intros d Hd. specialize (CO d Hd). destruct CO as [->|[]]. apply SC.
Qed.

(** ** The motion behind the duration *)
(** Position, velocity and acceleration after moving for [t] with constant jerk. *)
Definition move (jk t : R) (s : R * R * R) : R * R * R :=
  let '(x, u, b) := s in
  (x + u * t + b * t ^ 2 / 2 + jk * t ^ 3 / 6, u + b * t + jk * t ^ 2 / 2, b + jk * t).
Definition vel (s : R * R * R) := snd (fst s).
Definition acc (s : R * R * R) := snd s.
Fixpoint moves (ph : list (R * R)) (s : R * R * R) : R * R * R :=
  match ph with [] => s | (jk, t) :: r => moves r (move jk t s) end.
Definition duration (ph : list (R * R)) : R := fold_right (fun p s => snd p + s) 0 ph.
(** All phases have non-negative length, jerk within [j], and at every instant
    the speed is within [0, v] and the acceleration within [-a, a]. *)
Fixpoint within (v a j : R) (ph : list (R * R)) (s : R * R * R) : Prop :=
  match ph with
  | [] => True
  | (jk, t) :: r =>
      0 <= t /\ Rabs jk <= j /\
      (forall u, 0 <= u <= t -> 0 <= vel (move jk u s) <= v /\ - a <= acc (move jk u s) <= a) /\
      within v a j r (move jk t s)
  end.
(** The seven phases with times (tj, ta, tv). *)
Definition seven (j : R) (t : R * R * R) : list (R * R) :=
  let '(tj, ta, tv) := t in
  [(j, tj); (0, ta - tj); (- j, tj); (0, tv - ta - tj); (- j, tj); (0, ta - tj); (j, tj)].

Lemma seven_ok : forall v a j tj ta tv, 0 < j -> 0 <= tj <= ta -> ta + tj <= tv ->
  j * tj <= a -> j * tj * ta <= v ->
  moves (seven j (tj, ta, tv)) (0, 0, 0) = (j * tj * ta * tv, 0, 0) /\
  duration (seven j (tj, ta, tv)) = tv + tj + ta /\
  within v a j (seven j (tj, ta, tv)) (0, 0, 0).
Proof.
  intros v a j tj ta tv Hj [H0 H1] H2 H3 H4.
  assert (A0 : 0 <= j * tj) by nra.
  assert (B0 : 0 <= j * tj * tj) by nra.
  assert (B1 : j * tj * tj <= j * tj * ta) by nra.
  split; [|split].
  - cbn. f_equal; [f_equal|]; field.
  - cbn. ring.
  - cbn -[Rabs]. unfold vel, acc. cbn [fst snd].
    rewrite ?Rabs_R0, ?Rabs_Ropp, ?(Rabs_pos_eq j) by lra.
    repeat split; try lra; try (intros; match goal with H : 0 <= ?u <= _ |- _ => destruct H as [U0 U1];
      pose proof (Rmult_le_compat_l (j * tj) u _ A0 U1); pose proof (Rmult_le_pos _ u A0 U0);
      assert (0 <= j * u) by nra; assert (0 <= j * u * u) by nra end);
      try nra.
Qed.

Lemma jerk_motion : forall d v a j, 0 <= d -> 0 < v -> 0 < a -> 0 < j ->
  exists ph, moves ph (0, 0, 0) = (d, 0, 0) /\ Some (duration ph) = jerk1 d v a j /\ within v a j ph (0, 0, 0).
Proof.
  intros d v a j Hd Hv Ha Hj.
  assert (K : exists tj ta tv, calc_times d v a j (traj_case d v a j) = Some (tj, ta, tv) /\
     0 <= tj <= ta /\ ta + tj <= tv /\ j * tj <= a /\ j * tj * ta <= v /\ j * tj * ta * tv = d).
  { assert (CB : forall w, w * w * w * 2 * j = d -> 0 <= w -> cbrt (d / (2 * j)) = w).
    { intros w E W. apply cbrt_unique; [exact W|]. rewrite <- E. field. lra. }
    pose proof (cbrt_nonneg (d / (2 * j))) as C0.
    assert (C3 : 2 * j * cbrt (d / (2 * j)) ^ 3 = d).
    { rewrite cbrt_pow; [field; lra|]. apply Rmult_le_pos; [lra|apply Rlt_le, Rinv_0_lt_compat; lra]. }
    pose proof (aj_pos a j Ha Hj) as AJ. pose proof (va_pos v a Hv Ha) as VA.
    pose proof (sqvj v j Hv Hj) as SQ. pose proof (sqvj_pos v j Hv Hj) as SP.
    assert (EJ : j * (a / j) = a) by (field; lra).
    assert (EV : j * (v / j) = v) by (field; lra).
    unfold traj_case. fold (sa a j). destruct (Rlt_dec (v * j) (a * a)) as [W|W].
    - fold (sv1 v j). pose proof (sv1_lt_sa v a j Hv Ha Hj W) as L. pose proof (proj1 (slow_iff v a j Hj) W) as KV.
      assert (SA : sqrt (v / j) <= a / j).
      { apply Rsqr_incr_0; unfold Rsqr; [|lra|lra]. rewrite SQ. apply (Rmult_le_reg_l (j * j)); [nra|].
        replace (j * j * (v / j)) with (v * j) by (field; lra). replace (j * j * (a / j * (a / j))) with (a * a) by (field; lra). lra. }
      destruct (Rlt_dec d (sv1 v j)) as [D|D].
      + assert (E : traj_case d v a j = 4%nat).
        { unfold traj_case. fold (sa a j). destruct (Rlt_dec (v * j) (a * a)); [|lra]. fold (sv1 v j). unfold Rltb, Rleb.
          repeat match goal with |- context [Rlt_dec ?x ?y] => destruct (Rlt_dec x y); try lra
                       | |- context [Rle_dec ?x ?y] => destruct (Rle_dec x y); try lra end; reflexivity. }
        unfold traj_case in E. fold (sa a j) in E. destruct (Rlt_dec (v * j) (a * a)); [|lra]. fold (sv1 v j) in E.
        rewrite E. cbn [calc_times]. set (w := cbrt (d / (2 * j))) in *. exists w, w, (2 * w). split; [reflexivity|].
        assert (WL : w <= sqrt (v / j)).
        { apply cube_le; [lra|lra|]. apply (Rmult_le_reg_l (2 * j)); [lra|]. rewrite C3.
          unfold sv1 in D. replace (2 * j * sqrt (v / j) ^ 3) with (2 * j * ((sqrt (v / j) * sqrt (v / j)) * sqrt (v / j))) by ring.
          rewrite SQ. replace (2 * j * (v / j * sqrt (v / j))) with (v * 2 * sqrt (v / j)) by (field; lra). lra. }
        split; [lra|]. split; [|split; [|split]].
        * lra.
        * assert (j * w <= j * (a / j)) by (apply Rmult_le_compat_l; lra). lra.
        * assert (w * w <= sqrt (v / j) * sqrt (v / j)) by nra. rewrite SQ in *.
          assert (j * (w * w) <= j * (v / j)) by (apply Rmult_le_compat_l; lra). lra.
        * rewrite <- C3. ring.
      + assert (E : traj_case d v a j = 1%nat \/ traj_case d v a j = 3%nat).
        { unfold traj_case. fold (sa a j). destruct (Rlt_dec (v * j) (a * a)); [|lra]. fold (sv1 v j). unfold Rltb, Rleb.
          repeat match goal with |- context [Rlt_dec ?x ?y] => destruct (Rlt_dec x y); try lra
                       | |- context [Rle_dec ?x ?y] => destruct (Rle_dec x y); try lra end; auto. }
        unfold traj_case in E. fold (sa a j) in E. destruct (Rlt_dec (v * j) (a * a)); [|lra]. fold (sv1 v j) in E.
        exists (sqrt (v / j)), (sqrt (v / j)), (d / v). split; [destruct E as [E|E]; rewrite E; reflexivity|].
        assert (DV : v * (d / v) = d) by (field; lra).
        split; [lra|]. split; [|split; [|split]].
        * apply (Rmult_le_reg_l v); [lra|]. rewrite DV. unfold sv1 in D. nra.
        * assert (j * sqrt (v / j) <= j * (a / j)) by (apply Rmult_le_compat_l; lra). lra.
        * rewrite Rmult_assoc, SQ. lra.
        * replace (j * sqrt (v / j) * sqrt (v / j)) with (j * (sqrt (v / j) * sqrt (v / j))) by ring. rewrite SQ, EV. exact DV.
    - fold (sv2 v a j). pose proof (sa_le_sv2 v a j Ha Hj ltac:(lra)) as L.
      assert (KV : a * a / j <= v) by (apply Rnot_lt_le; intros K; apply (slow_iff v a j Hj) in K; lra).
      assert (AV : a / j <= v / a).
      { apply (Rmult_le_reg_r a); [lra|]. replace (v / a * a) with v by (field; lra).
        replace (a / j * a) with (a * a / j) by (field; lra). exact KV. }
      assert (EC : traj_case d v a j = if Rlt_dec d (sa a j) then 2%nat else if Rlt_dec d (sv2 v a j) then 6%nat else 5%nat).
      { unfold traj_case. fold (sa a j). destruct (Rlt_dec (v * j) (a * a)); [lra|]. fold (sv2 v a j). unfold Rltb, Rleb.
          repeat match goal with |- context [Rlt_dec ?x ?y] => destruct (Rlt_dec x y); try lra
                       | |- context [Rle_dec ?x ?y] => destruct (Rle_dec x y); try lra end; reflexivity. }
      unfold traj_case in EC. fold (sa a j) in EC. destruct (Rlt_dec (v * j) (a * a)); [lra|]. fold (sv2 v a j) in EC.
      rewrite EC. clear EC. assert (EA : a * (v / a) = v) by (field; lra).
      destruct (Rlt_dec d (sa a j)) as [D|D]; [|destruct (Rlt_dec d (sv2 v a j)) as [D2|D2]]; cbn [calc_times].
      + set (w := cbrt (d / (2 * j))) in *. exists w, w, (2 * w). split; [reflexivity|].
        assert (WL : w <= a / j).
        { apply cube_le; [lra|lra|]. apply (Rmult_le_reg_l (2 * j)); [lra|]. rewrite C3. unfold sa in D.
          replace (2 * j * (a / j) ^ 3) with (2 * a * a * a / (j * j)) by (field; lra). lra. }
        assert (JW : j * w <= a) by (assert (j * w <= j * (a / j)) by (apply Rmult_le_compat_l; lra); lra).
        split; [lra|]. split; [|split; [|split]].
        * lra.
        * lra.
        * assert (j * w * w <= a * w) by (apply Rmult_le_compat_r; lra).
          assert (a * w <= a * (v / a)) by (apply Rmult_le_compat_l; lra). lra.
        * rewrite <- C3. ring.
      + set (r := sqrt _). set (ta := 0.5 * (r - a / j)). exists (a / j), ta, (ta + a / j). split; [reflexivity|].
        assert (R2 : r * r = 4 * (d / a) + (a / j) * (a / j)).
        { unfold r. rewrite sqrt_sqrt; [field; lra|]. apply Rmult_le_pos; [|apply Rlt_le, Rinv_0_lt_compat; repeat apply Rmult_lt_0_compat; lra].
          assert (0 <= 4 * d * j * j) by (repeat apply Rmult_le_pos; lra). assert (0 <= a * a * a) by (repeat apply Rmult_le_pos; lra). lra. }
        assert (R0 : 0 <= r) by apply sqrt_pos.
        assert (DA : 2 * (a / j) * (a / j) <= d / a).
        { apply (Rmult_le_reg_l a); [lra|]. replace (a * (d / a)) with d by (field; lra).
          replace (a * (2 * (a / j) * (a / j))) with (sa a j) by (unfold sa; field; lra). lra. }
        assert (DA2 : d / a <= (v / a) * (v / a + a / j)).
        { apply (Rmult_le_reg_l a); [lra|]. replace (a * (d / a)) with d by (field; lra).
          replace (a * (v / a * (v / a + a / j))) with (sv2 v a j) by (unfold sv2; field; lra). lra. }
        assert (RL : 3 * (a / j) <= r) by (apply Rsqr_incr_0; unfold Rsqr; nra).
        assert (RU : r <= 2 * (v / a) + a / j) by (apply Rsqr_incr_0; unfold Rsqr; nra).
        assert (TA : a / j <= ta <= v / a) by (unfold ta; lra).
        split; [lra|]. split; [|split; [|split]].
        * lra.
        * lra.
        * rewrite EJ. assert (a * ta <= a * (v / a)) by (apply Rmult_le_compat_l; lra). lra.
        * rewrite EJ. assert (TT : ta * (ta + a / j) = d / a) by (unfold ta; nra).
          rewrite Rmult_assoc, TT. field. lra.
      + exists (a / j), (v / a), (d / v). split; [reflexivity|].
        assert (DV : v * (d / v) = d) by (field; lra).
        split; [lra|]. split; [|split; [|split]].
        * apply (Rmult_le_reg_l v); [lra|]. rewrite DV. unfold sv2 in D2. lra.
        * lra.
        * rewrite EJ, EA. lra.
        * rewrite EJ, EA. exact DV. }
  destruct K as (tj & ta & tv & E & K1 & K2 & K3 & K4 & K5).
  exists (seven j (tj, ta, tv)). destruct (seven_ok v a j tj ta tv Hj K1 K2 K3 K4) as (M1 & M2 & M3).
  split; [now rewrite M1, K5|]. split; [|exact M3]. unfold jerk1. rewrite E, M2. reflexivity.
Qed.
