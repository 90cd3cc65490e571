(** Proofs about slew durations under different limits. *)
From Coq Require Import List Reals Lra Psatz.
From Verif Require Import Jerk Jerk_proofs.
Import ListNotations.
Open Scope R_scope.

(** Time from rest to speed [w] under acceleration [a] and jerk [jm]. *)
Definition ramp (a : R) (jm : option R) (w : R) : R :=
  match jm with
  | None => w / a
  | Some j => if Rlt_dec (w * j) (a * a) then 2 * sqrt (w / j) else w / a + a / j
  end.
Definition lag (jm : option R) (b : R) : R := match jm with None => 0 | Some j => b / j end.
Definition jpos (jm : option R) : Prop := match jm with None => True | Some j => 0 < j end.
(** No jerk given means no limit on it. *)
Definition jle (x y : option R) : Prop :=
  match x, y with _, None => True | None, Some _ => False | Some i, Some j => i <= j end.

Lemma div_le : forall x y k, 0 < k -> x <= y -> x / k <= y / k.
Proof. intros. apply Rmult_le_compat_r; [apply Rlt_le, Rinv_0_lt_compat; lra|lra]. Qed.
Lemma div_anti : forall x k l, 0 <= x -> 0 < k -> k <= l -> x / l <= x / k.
Proof. intros. apply Rmult_le_compat_l; [lra|]. apply Rinv_le_contravar; lra. Qed.
Lemma mul_div : forall x k, 0 < k -> x / k * k = x.
Proof. intros. field. lra. Qed.

Lemma ramp_wit : forall a jm w, 0 < a -> jpos jm -> 0 < w ->
  exists b, 0 < b <= a /\ ramp a jm w = w / b + lag jm b.
Proof.
  intros a [j|] w Ha Hj Hw; cbn [ramp lag jpos] in *.
  - destruct (Rlt_dec (w * j) (a * a)) as [L|L].
    + exists (j * sqrt (w / j)).
      assert (P : 0 < w / j) by (apply Rdiv_lt_0_compat; lra).
      pose proof (sqrt_lt_R0 _ P) as S0. pose proof (sqrt_sqrt (w / j) (Rlt_le _ _ P)) as SS.
      assert (E : w = j * (sqrt (w / j) * sqrt (w / j))) by (rewrite SS; field; lra).
      set (s := sqrt (w / j)) in *. split; [split|].
      * nra.
      * apply Rnot_lt_le. intros K. nra.
      * rewrite E at 1. field. lra.
    + exists a. split; [lra|]. reflexivity.
  - exists a. split; [lra|]. ring.
Qed.
Lemma ramp_le : forall a jm w b, jpos jm -> 0 < w -> 0 < b <= a -> ramp a jm w <= w / b + lag jm b.
Proof.
  intros a [j|] w b Hj Hw Hb; cbn [ramp lag jpos] in *.
  - destruct (Rlt_dec (w * j) (a * a)) as [L|L].
    + assert (P : 0 < w / j) by (apply Rdiv_lt_0_compat; lra).
      pose proof (sqrt_lt_R0 _ P) as S0. pose proof (sqrt_sqrt (w / j) (Rlt_le _ _ P)) as SS.
      assert (E : w = j * (sqrt (w / j) * sqrt (w / j))) by (rewrite SS; field; lra).
      set (s := sqrt (w / j)) in *.
      apply (Rmult_le_reg_r (b * j)); [nra|].
      replace ((w / b + b / j) * (b * j)) with (w * j + b * b) by (field; lra).
      rewrite E. pose proof (Rle_0_sqr (j * s - b)). unfold Rsqr in *. nra.
    + apply (Rmult_le_reg_r (a * b * j)); [repeat apply Rmult_lt_0_compat; lra|].
      replace ((w / a + a / j) * (a * b * j)) with (b * (w * j) + a * a * b) by (field; lra).
      replace ((w / b + b / j) * (a * b * j)) with (a * (w * j) + b * b * a) by (field; lra).
      assert (0 <= (a - b) * (w * j - a * b)); [|nra].
      apply Rmult_le_pos; [lra|]. assert (a * b <= a * a) by nra. lra.
  - pose proof (div_anti w b a). lra.
Qed.
Lemma lag_nonneg : forall jm b, jpos jm -> 0 < b -> 0 <= lag jm b.
Proof. intros [j|] b Hj Hb; cbn in *; [|lra]. apply Rlt_le, Rdiv_lt_0_compat; lra. Qed.
Lemma ramp_pos : forall a jm w, 0 < a -> jpos jm -> 0 < w -> 0 < ramp a jm w.
Proof.
  intros. destruct (ramp_wit a jm w) as (b & Hb & ->); auto. pose proof (lag_nonneg jm b).
  assert (0 < w / b) by (apply Rdiv_lt_0_compat; lra). intuition lra.
Qed.
Lemma ramp_grow : forall a jm w u, 0 < a -> jpos jm -> 0 < w -> w <= u -> ramp a jm w <= ramp a jm u.
Proof.
  intros a jm w u Ha Hj Hw L. destruct (ramp_wit a jm u) as (b & Hb & ->); auto; [lra|].
  pose proof (ramp_le a jm w b Hj Hw Hb). pose proof (div_le w u b). lra.
Qed.
Lemma ramp_slack : forall a jm w u, 0 < a -> jpos jm -> 0 < w -> w <= u -> w * ramp a jm u <= u * ramp a jm w.
Proof.
  intros a jm w u Ha Hj Hw L. destruct (ramp_wit a jm w) as (b & Hb & ->); auto.
  pose proof (ramp_le a jm u b Hj ltac:(lra) Hb). pose proof (lag_nonneg jm b Hj ltac:(lra)).
  assert (w * ramp a jm u <= w * (u / b + lag jm b)) by (apply Rmult_le_compat_l; lra).
  assert (w * (u / b) = u * (w / b)) by (field; lra). nra.
Qed.
Lemma lag_limits : forall jm jm' b, jpos jm -> jle jm jm' -> 0 < b -> lag jm' b <= lag jm b.
Proof.
  intros [i|] [j|] b Hi L Hb; cbn in *; try lra.
  - apply div_anti; lra.
  - apply Rlt_le, Rdiv_lt_0_compat; lra.
Qed.
Lemma jle_pos : forall jm jm', jpos jm -> jle jm jm' -> jpos jm'.
Proof. intros [i|] [j|]; cbn; intros; try lra; auto. Qed.
Lemma ramp_limits : forall a a' jm jm' w, 0 < a -> a <= a' -> jpos jm -> jle jm jm' -> 0 < w ->
  ramp a' jm' w <= ramp a jm w.
Proof.
  intros a a' jm jm' w Ha L Hj J Hw. destruct (ramp_wit a jm w) as (b & Hb & ->); auto.
  pose proof (ramp_le a' jm' w b (jle_pos _ _ Hj J) Hw ltac:(lra)).
  pose proof (lag_limits jm jm' b Hj J ltac:(lra)). lra.
Qed.
Lemma ramp_units : forall k a jm w, 0 < k -> 0 < a -> jpos jm -> 0 < w ->
  ramp (k * a) (option_map (Rmult k) jm) (k * w) = ramp a jm w.
Proof.
  intros k a [j|] w Hk Ha Hj Hw; cbn [ramp option_map jpos] in *; [|field; lra].
  replace (k * w / (k * j)) with (w / j) by (field; lra).
  assert (0 < k * k) by nra.
  destruct (Rlt_dec (k * w * (k * j)) (k * a * (k * a))), (Rlt_dec (w * j) (a * a)); auto; try (exfalso; nra).
  field. lra.
Qed.

(** The duration as a function: T of Jerk_proofs, or acc_time without a jerk. *)
Definition dur (v a : R) (jm : option R) (d : R) : R :=
  match jm with None => acc_time d v a | Some j => T v a j d end.
Lemma dur_spec : forall v a jm ds, 0 < v -> 0 < a -> jpos jm -> jerk_time ds v a jm = Some (map (dur v a jm) ds).
Proof. intros v a [j|] ds Hv Ha Hj; cbn [dur]; [now apply jerk_time_map|reflexivity]. Qed.
Lemma dur_zero : forall v a jm, 0 < v -> 0 < a -> jpos jm -> dur v a jm 0 = 0.
Proof. intros v a [j|] Hv Ha Hj; [now apply T_zero|now apply acc_zero]. Qed.
Lemma dur_nonneg : forall v a jm d, 0 < v -> 0 < a -> jpos jm -> 0 <= d -> 0 <= dur v a jm d.
Proof.
  intros v a [j|] d Hv Ha Hj Hd; [now apply T_nonneg|]. cbn.
  pose proof (acc_grow v a Hv Ha 0 d ltac:(lra)). rewrite acc_zero in *; lra.
Qed.

(** Every motion has a top speed, either the limit or the one at which it has to brake. *)
Lemma peak : forall v a jm d, 0 < v -> 0 < a -> jpos jm -> 0 < d ->
  exists w, 0 < w <= v /\ w * ramp a jm w <= d /\ (w = v \/ w * ramp a jm w = d) /\
    dur v a jm d = d / w + ramp a jm w.
Proof.
  intros v a jm d Hv Ha Hj Hd.
  (* short motions: speed [w] with w * ramp w = d, twice the ramp *)
  assert (SH : forall w, 0 < w -> w * ramp a jm w = d -> d < v * ramp a jm v -> dur v a jm d = 2 * ramp a jm w ->
    exists w, 0 < w <= v /\ w * ramp a jm w <= d /\ (w = v \/ w * ramp a jm w = d) /\
      dur v a jm d = d / w + ramp a jm w).
  { intros w Hw E L D. exists w. split; [split; [exact Hw|]|split; [lra|split; [now right|]]].
    - apply Rnot_lt_le. intros K. pose proof (ramp_grow a jm v w Ha Hj Hv ltac:(lra)).
      pose proof (ramp_pos a jm v Ha Hj Hv). nra.
    - rewrite D, <- E. field. lra. }
  assert (LG : v * ramp a jm v <= d -> dur v a jm d = d / v + ramp a jm v ->
    exists w, 0 < w <= v /\ w * ramp a jm w <= d /\ (w = v \/ w * ramp a jm w = d) /\
      dur v a jm d = d / w + ramp a jm w).
  { intros L D. exists v. split; [lra|]. split; [lra|]. split; [now left|exact D]. }
  destruct jm as [j|]; cbn [jpos dur] in *.
  2: { unfold acc_time in *. cbn [ramp] in *. assert (DM : v ^ 2 / a = v * (v / a)) by (field; lra).
       destruct (Rlt_dec d (v ^ 2 / a)) as [L|L].
       - assert (P : 0 < d / a) by (apply Rdiv_lt_0_compat; lra).
         pose proof (sqrt_lt_R0 _ P) as S0. pose proof (sqrt_sqrt (d / a) (Rlt_le _ _ P)) as SS.
         set (s := sqrt (d / a)) in *. apply (SH (a * s)); [nra| |lra|].
         + replace (a * s * (a * s / a)) with (a * (s * s)) by (field; lra). rewrite SS. field. lra.
         + field. lra.
       - apply LG; [lra|]. field. lra. }
  (* the profile without constant acceleration *)
  assert (CUBE : forall c, c = cbrt (d / (2 * j)) -> c * j <= a -> d < v * ramp a (Some j) v ->
            T v a j d = 4 * c -> exists w, 0 < w <= v /\ w * ramp a (Some j) w <= d /\
              (w = v \/ w * ramp a (Some j) w = d) /\ T v a j d = d / w + ramp a (Some j) w).
  { intros c Ec Lc L D. assert (P : 0 < d / (2 * j)) by (apply Rdiv_lt_0_compat; lra).
    pose proof (cbrt_pow (d / (2 * j)) (Rlt_le _ _ P)) as C3. rewrite <- Ec in C3.
    assert (C0 : 0 < c). { pose proof (cbrt_nonneg (d / (2 * j))). rewrite <- Ec in *.
      destruct (Rle_lt_or_eq_dec 0 c); auto. subst c. rewrite <- e in C3. cbn in C3. lra. }
    assert (DC : d = 2 * j * c ^ 3) by (rewrite C3; field; lra).
    assert (RW : ramp a (Some j) (j * c * c) = 2 * c).
    { cbn [ramp]. destruct (Rlt_dec (j * c * c * j) (a * a)) as [K|K].
      - replace (j * c * c / j) with (c ^ 2) by (field; lra). rewrite sqrt_pow2; lra.
      - assert (Ea : a = c * j).
        { destruct (Rlt_le_dec (c * j) a) as [M|M]; [exfalso|lra]. apply K.
          replace (j * c * c * j) with ((c * j) * (c * j)) by ring. assert (0 < c * j) by nra.
          apply Rmult_le_0_lt_compat; lra. }
        rewrite Ea. field. lra. }
    apply (SH (j * c * c)); rewrite ?RW; [repeat apply Rmult_lt_0_compat; lra| |exact L|lra].
    rewrite DC. ring. }
  unfold T in *. cbn [ramp] in *. pose proof (aj_pos a j Ha Hj) as AJ.
  destruct (Rlt_dec (v * j) (a * a)) as [Sl|Sl].
  - assert (EV : sv1 v j = v * (2 * sqrt (v / j))) by (unfold sv1; ring).
    destruct (Rlt_dec d (sv1 v j)) as [L|L].
    + eapply CUBE; [reflexivity| |lra|reflexivity].
      assert (X : cbrt (d / (2 * j)) <= a / j).
      { apply cube_le; [apply cbrt_nonneg|lra|]. rewrite cbrt_pow by (apply Rlt_le, Rdiv_lt_0_compat; lra).
        pose proof (sv1_lt_sa v a j Hv Ha Hj Sl). apply (Rmult_le_reg_r (2 * j)); [lra|].
        rewrite mul_div by lra. replace ((a / j) ^ 3 * (2 * j)) with (sa a j) by (unfold sa; field; lra). lra. }
      apply (Rmult_le_compat_r j) in X; [|lra]. rewrite mul_div in X; lra.
    + apply LG; [lra|]. unfold P13. ring.
  - assert (EV : sv2 v a j = v * (v / a + a / j)) by reflexivity.
    pose proof (sa_le_sv2 v a j Ha Hj ltac:(lra)) as SS.
    destruct (Rlt_dec d (sa a j)) as [L|L].
    + eapply CUBE; [reflexivity| |lra|reflexivity].
      assert (X : cbrt (d / (2 * j)) <= a / j).
      { apply cube_le; [apply cbrt_nonneg|lra|]. rewrite cbrt_pow by (apply Rlt_le, Rdiv_lt_0_compat; lra).
        apply (Rmult_le_reg_r (2 * j)); [lra|].
        rewrite mul_div by lra. replace ((a / j) ^ 3 * (2 * j)) with (sa a j) by (unfold sa; field; lra). lra. }
      apply (Rmult_le_compat_r j) in X; [|lra]. rewrite mul_div in X; lra.
    + destruct (Rlt_dec d (sv2 v a j)) as [L2|L2].
      * set (X := (4 * d * j * j + a * a * a) / (a * j * j)).
        assert (EX : X = 4 * (d / a) + (a / j) ^ 2) by (unfold X; field; lra).
        assert (DA : 0 < d / a) by (apply Rdiv_lt_0_compat; lra).
        assert (XP : 0 <= X) by (rewrite EX; nra).
        pose proof (sqrt_sqrt X XP) as SQ. pose proof (sqrt_pos X) as SP.
        assert (S3 : 3 * (a / j) <= sqrt X).
        { apply Rnot_lt_le. intros K. assert (2 * (a / j) ^ 2 <= d / a).
          { apply (Rmult_le_reg_r a); [lra|]. rewrite mul_div by lra.
            replace (2 * (a / j) ^ 2 * a) with (sa a j) by (unfold sa; field; lra). lra. }
          nra. }
        set (t := (sqrt X - a / j) / 2). assert (ES : sqrt X = 2 * t + a / j) by (unfold t; lra).
        assert (TQ : t * t + t * (a / j) = d / a) by nra.
        assert (TA : a / j <= t) by (unfold t; lra).
        assert (RW : ramp a (Some j) (a * t) = t + a / j).
        { cbn [ramp]. apply (Rmult_le_compat_r j) in TA; [|lra]. rewrite mul_div in TA by lra.
          destruct (Rlt_dec (a * t * j) (a * a)) as [K|K]; [exfalso; nra|]. field. lra. }
        cbn [ramp] in RW.
        apply (SH (a * t)); [nra| |lra|]; rewrite RW.
        -- replace d with (d / a * a) by (apply mul_div; lra). rewrite <- TQ. ring.
        -- unfold P6. fold X. rewrite ES. ring.
      * apply LG; [lra|]. unfold P5. ring.
Qed.

(** No feasible top speed is better than the one the motion takes. *)
Lemma best : forall v a jm d u, 0 < v -> 0 < a -> jpos jm -> 0 < d ->
  0 < u <= v -> u * ramp a jm u <= d -> dur v a jm d <= d / u + ramp a jm u.
Proof.
  intros v a jm d u Hv Ha Hj Hd Hu F.
  destruct (peak v a jm d Hv Ha Hj Hd) as (w & Hw & Fw & B & ->).
  assert (L : u <= w).
  { destruct B as [->|B]; [lra|]. apply Rnot_lt_le. intros K.
    pose proof (ramp_grow a jm w u Ha Hj ltac:(lra) ltac:(lra)). pose proof (ramp_pos a jm w Ha Hj ltac:(lra)). nra. }
  pose proof (ramp_slack a jm u w Ha Hj ltac:(lra) L) as SL. pose proof (ramp_pos a jm w Ha Hj ltac:(lra)) as RP.
  set (rw := ramp a jm w) in *. set (ru := ramp a jm u) in *.
  apply (Rmult_le_reg_r (u * w)); [nra|].
  replace ((d / w + rw) * (u * w)) with (d * u + rw * u * w) by (field; lra).
  replace ((d / u + ru) * (u * w)) with (d * w + ru * u * w) by (field; lra).
  (* d (w-u) >= w rw (w-u) and w ru >= u rw *)
  assert (A1 : w * rw * (w - u) <= d * (w - u)) by (apply Rmult_le_compat_r; lra).
  assert (A2 : u * rw * u <= w * ru * u) by (apply Rmult_le_compat_r; lra).
  assert (A3 : 0 <= rw * ((w - u) * (w - u))) by (apply Rmult_le_pos; [lra|apply Rle_0_sqr]). nra.
Qed.

Lemma dur_limits : forall v a jm v' a' jm' d, 0 < v -> v <= v' -> 0 < a -> a <= a' -> jpos jm -> jle jm jm' ->
  0 <= d -> dur v' a' jm' d <= dur v a jm d.
Proof.
  intros v a jm v' a' jm' d Hv Lv Ha La Hj Lj Hd. pose proof (jle_pos _ _ Hj Lj) as Hj'.
  destruct (Rle_lt_or_eq_dec 0 d Hd) as [P|<-]; [|rewrite !dur_zero; auto; lra].
  destruct (peak v a jm d Hv Ha Hj P) as (w & Hw & Fw & _ & ->).
  pose proof (ramp_limits a a' jm jm' w Ha La Hj Lj ltac:(lra)) as RL.
  pose proof (best v' a' jm' d w ltac:(lra) ltac:(lra) Hj' P ltac:(lra)) as B.
  assert (w * ramp a' jm' w <= d); [|specialize (B H); lra].
  apply Rle_trans with (w * ramp a jm w); [apply Rmult_le_compat_l; lra|exact Fw].
Qed.

Lemma jpos_units : forall k jm, 0 < k -> jpos jm -> jpos (option_map (Rmult k) jm).
Proof. intros k [j|] Hk Hj; cbn in *; auto. nra. Qed.
Lemma dur_units_le : forall k v a jm d, 0 < k -> 0 < v -> 0 < a -> jpos jm -> 0 < d ->
  dur (k * v) (k * a) (option_map (Rmult k) jm) (k * d) <= dur v a jm d.
Proof.
  intros k v a jm d Hk Hv Ha Hj Hd. destruct (peak v a jm d Hv Ha Hj Hd) as (w & Hw & Fw & _ & ->).
  pose proof (ramp_units k a jm w Hk Ha Hj ltac:(lra)) as RU.
  pose proof (best (k * v) (k * a) (option_map (Rmult k) jm) (k * d) (k * w)
    ltac:(nra) ltac:(nra) (jpos_units _ _ Hk Hj) ltac:(nra) ltac:(nra)) as B.
  rewrite RU in B. replace (k * d / (k * w)) with (d / w) in B by (field; lra). apply B. nra.
Qed.
Lemma dur_units : forall k v a jm d, 0 < k -> 0 < v -> 0 < a -> jpos jm -> 0 <= d ->
  dur (k * v) (k * a) (option_map (Rmult k) jm) (k * d) = dur v a jm d.
Proof.
  intros k v a jm d Hk Hv Ha Hj Hd.
  destruct (Rle_lt_or_eq_dec 0 d Hd) as [P|<-];
    [|rewrite Rmult_0_r, !dur_zero; auto; try nra; now apply jpos_units].
  apply Rle_antisym; [now apply dur_units_le|].
  assert (Hi : 0 < / k) by now apply Rinv_0_lt_compat.
  pose proof (dur_units_le (/ k) (k * v) (k * a) (option_map (Rmult k) jm) (k * d)
    Hi ltac:(nra) ltac:(nra) (jpos_units _ _ Hk Hj) ltac:(nra)) as B.
  assert (C : forall x, / k * (k * x) = x) by (intros; field; lra).
  rewrite !C in B. replace (option_map (Rmult (/ k)) (option_map (Rmult k) jm)) with jm in B; [exact B|].
  destruct jm; cbn; [now rewrite C|reflexivity].
Qed.

(** Never faster than the top speed over the whole way. *)
Lemma dur_speed : forall v a jm d, 0 < v -> 0 < a -> jpos jm -> 0 <= d -> d <= v * dur v a jm d.
Proof.
  intros v a jm d Hv Ha Hj Hd. destruct (Rle_lt_or_eq_dec 0 d Hd) as [P|<-]; [|rewrite dur_zero; auto; lra].
  destruct (peak v a jm d Hv Ha Hj P) as (w & Hw & Fw & _ & ->). pose proof (ramp_pos a jm w Ha Hj ltac:(lra)).
  pose proof (div_anti d w v ltac:(lra) ltac:(lra) ltac:(lra)) as B.
  apply (Rmult_le_compat_l v) in B; [|lra]. replace (v * (d / v)) with d in B by (field; lra). nra.
Qed.
