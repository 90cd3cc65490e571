(** The motion without a limit on the jerk: phases of constant acceleration, read off
    as the lower two derivatives of phases of constant jerk ([acc] is the speed,
    [vel] the position). *)
From Coq Require Import List Reals Lra Psatz.
From Verif Require Import Jerk Jerk_proofs Percent_proofs Quickest_proofs Quickest_phases.
Import ListNotations.
Open Scope R_scope.

Lemma at_acc : forall v a j ph s, 0 <= a -> within v a j ph s -> acc (moves ph s) = 0 ->
  forall t, 0 <= t -> - a <= acc (at_time ph s t) <= a.
Proof.
  intros v a j ph. induction ph as [|[k l] r IH]; intros s Ha W M t Ht; cbn [at_time].
  - cbn in M. destruct s as [[x u] b]. cbn in *. subst b. lra.
  - cbn [within] in W. destruct W as (Hl & Hk & B & W). destruct (Rle_dec t l) as [A|A].
    + destruct (B t ltac:(lra)). lra.
    + apply (IH (move k l s)); auto. lra.
Qed.
Lemma at_stop : forall ph s d, lasting ph -> vel (moves ph s) = d -> acc (moves ph s) = 0 ->
  forall t, duration ph <= t -> vel (at_time ph s t) = d /\ acc (at_time ph s t) = 0.
Proof.
  induction ph as [|[k l] r IH]; intros s d L M N t Ht; cbn [at_time moves] in *.
  - destruct s as [[x u] b]. cbn in *. subst. split; field.
  - destruct L as [Hl L]. unfold duration in Ht. cbn in Ht. fold (duration r) in Ht.
    pose proof (lasting_duration r L) as Dr. specialize (IH _ _ L M N). destruct (Rle_dec t l) as [A|A].
    + assert (t = l) by lra. subst t. specialize (IH 0 ltac:(lra)). now rewrite at0 in IH.
    + apply IH. lra.
Qed.

(** Up to the speed [a * s], on at that speed for [m], and down again. *)
Definition ramps (a s m : R) : list (R * R) := [(0, 0); (a, s); (0, m); (- a, s)].

Section Ramps.
Variables v a s m : R.
Hypothesis Hv : 0 < v.
Hypothesis Ha : 0 < a.
Hypothesis Hs : 0 <= s.
Hypothesis Hm : 0 <= m.
Hypothesis Peak : a * s <= v.
Let z : R * R * R := (0, 0, 0).
Lemma ramps_within : within (a * s * (s + m)) v a (ramps a s m) z.
Proof.
  assert (0 <= a * s) by nra. assert (0 <= a * s * m) by nra. assert (0 <= a * s * s) by nra.
  cbn [within ramps]. unfold z, move, vel, acc. cbn [fst snd].
  split; [lra|]. split; [rewrite Rabs_R0; lra|]. split; [intros; nra|].
  split; [lra|]. split; [rewrite Rabs_pos_eq; lra|]. split.
  { intros y Hy. assert (a * y <= a * s) by nra. assert (0 <= a * y) by nra. split; [|lra].
    assert (0 <= a * y * y) by nra. assert (a * y * y <= a * s * s) by nra. split; [nra|]. nra. }
  split; [lra|]. split; [rewrite Rabs_R0; lra|]. split.
  { intros y Hy. split; [|nra]. assert (0 <= a * s * y) by nra. assert (a * s * y <= a * s * m) by nra. split; nra. }
  split; [lra|]. split; [rewrite Rabs_Ropp, Rabs_pos_eq; lra|]. split; [|exact I].
  intros y Hy. assert (a * y <= a * s) by nra. assert (0 <= a * y) by nra. split; [|nra].
  assert (0 <= a * (s - y) * (s - y)) by nra. assert (0 <= a * y * (s - y)) by nra. assert (0 <= a * y * y) by nra.
  split; nra.
Qed.
Lemma ramps_end : vel (moves (ramps a s m) z) = a * s * (s + m) /\ acc (moves (ramps a s m) z) = 0.
Proof. unfold z. cbn. split; field. Qed.
Lemma ramps_duration : duration (ramps a s m) = 2 * s + m.
Proof. unfold duration. cbn. ring. Qed.

Lemma ramps_motion : exists x u : R -> R,
  (forall t, derivable_pt_lim x t (u t)) /\ (forall p q, Rabs (u q - u p) <= a * Rabs (q - p)) /\
  (forall t, - v <= u t <= v) /\ (forall t, t <= 0 \/ 2 * s + m <= t -> u t = 0) /\
  x (2 * s + m) - x 0 = a * s * (s + m).
Proof.
  pose proof ramps_within as W. pose proof (within_lasting _ _ _ _ _ W) as L. destruct ramps_end as [E1 E2].
  assert (Z : forall t, move 0 t z = z) by (intros t; unfold move, z; f_equal; [f_equal|]; field).
  assert (Neg : forall t, t <= 0 -> at_time (ramps a s m) z t = z).
  { intros t Ht. cbn [at_time ramps]. destruct (Rle_dec t 0); [apply Z|lra]. }
  pose proof (at_stop _ z _ L E1 E2) as End. rewrite ramps_duration in End.
  exists (fun t => vel (at_time (ramps a s m) z t)), (fun t => acc (at_time (ramps a s m) z t)).
  split; [intros t; apply qe_der; now apply (at_qe vel acc vel_one)|]. split; [|split; [|split]].
  - intros p q. destruct (Rle_dec p q) as [K|K].
    + rewrite (Rabs_pos_eq (q - p)) by lra. apply (at_lip (a * s * (s + m)) v a); auto; lra.
    + rewrite Rabs_minus_sym, (Rabs_minus_sym q p), (Rabs_pos_eq (p - q)) by lra.
      apply (at_lip (a * s * (s + m)) v a); auto; lra.
  - intros t. destruct (Rle_dec t 0) as [K|K]; [rewrite Neg by auto; cbn; lra|].
    apply (at_acc (a * s * (s + m)) v a _ z); auto; lra.
  - intros t [K|K]; [rewrite Neg by auto; reflexivity|]. now apply End.
  - destruct (End (2 * s + m) ltac:(lra)) as [-> _]. rewrite Neg by lra. unfold z, vel. cbn. ring.
Qed.
End Ramps.

Lemma acc_attained : forall v a d, 0 < v -> 0 < a -> 0 <= d -> exists x u : R -> R,
  (forall t, derivable_pt_lim x t (u t)) /\ (forall p q, Rabs (u q - u p) <= a * Rabs (q - p)) /\
  (forall t, - v <= u t <= v) /\ (forall t, t <= 0 \/ acc_time d v a <= t -> u t = 0) /\
  x (acc_time d v a) - x 0 = d.
Proof.
  intros v a d Hv Ha Hd. unfold acc_time. destruct (Rlt_dec d (v ^ 2 / a)) as [A|A].
  - assert (Q : 0 <= d / a) by (apply Rmult_le_pos; [lra|left; now apply Rinv_0_lt_compat]).
    pose proof (sqrt_pos (d / a)) as S. pose proof (sqrt_sqrt _ Q) as SS. set (s := sqrt (d / a)) in *.
    assert (DA : a * s * s = d) by (rewrite Rmult_assoc, SS; field; lra).
    assert (P : a * s <= v).
    { destruct (Rle_dec (a * s) v) as [B|B]; [exact B|]. exfalso. apply Rnot_le_lt in B.
      assert (d * a < v * v).
      { apply (Rmult_lt_compat_r a) in A; [|lra]. replace (v ^ 2 / a * a) with (v * v) in A by (field; lra). lra. }
      assert (v * v < a * s * (a * s)) by (apply Rmult_le_0_lt_compat; lra). nra. }
    destruct (ramps_motion v a s 0 Hv Ha S (Rle_refl 0) P) as (x & u & H1 & H2 & H3 & H4 & H5).
    rewrite Rplus_0_r in *. exists x, u. repeat split; auto; try apply H3. rewrite H5. lra.
  - apply Rnot_lt_le in A.
    assert (M : 0 <= (d - v ^ 2 / a) / v) by (apply Rmult_le_pos; [lra|left; now apply Rinv_0_lt_compat]).
    assert (S : 0 <= v / a) by (left; now apply Rdiv_lt_0_compat).
    assert (P : a * (v / a) <= v) by (right; field; lra).
    destruct (ramps_motion v a (v / a) _ Hv Ha S M P) as (x & u & H1 & H2 & H3 & H4 & H5).
    replace (2 * v / a) with (2 * (v / a)) by (field; lra).
    exists x, u. repeat split; auto; try apply H3. rewrite H5. field. lra.
Qed.
