(** Slew duration (C22). *)
From Coq Require Import List Reals Lra.
From Verif Require Import Jerk Jerk_proofs.
Import ListNotations.
Open Scope R_scope.

(** Every non-negative distance gets a profile; the duration of an array of
    distances is non-negative and element by element non-decreasing in the
    distance, also across profile boundaries; distance 0 takes no time. *)
Theorem C22_duration_monotone :
  forall v a, 0 < v -> 0 < a -> forall jm, match jm with None => True | Some j => 0 < j end ->
  exists f : R -> R,
    (forall ds, (forall d, In d ds -> 0 <= d) -> jerk_time ds v a jm = Some (map f ds)) /\
    f 0 = 0 /\ (forall d, 0 <= d -> 0 <= f d) /\
    (forall x y, 0 <= x -> x <= y -> f x <= f y).
Proof.
  intros v a Hv Ha [j|] Hj.
  - exists (T v a j). split; [intros; now apply jerk_time_map|]. split; [now apply T_zero|].
    split; [intros; now apply T_nonneg|]. intros x y Hx Hy. pose proof (T_grow v a j Hv Ha Hj x y (conj Hx Hy)). lra.
  - exists (fun d => acc_time d v a). split; [reflexivity|]. split; [now apply acc_zero|].
    assert (M : forall x y, 0 <= x -> x <= y -> acc_time x v a <= acc_time y v a).
    { intros x y Hx Hy. pose proof (acc_grow v a Hv Ha x y (conj Hx Hy)). lra. }
    split; [|exact M]. intros d Hd. pose proof (M 0 d (Rle_refl 0) Hd). rewrite acc_zero in * by assumption. lra.
Qed.
Print Assumptions C22_duration_monotone.

(** Continuity: arbitrarily small changes of the distance change the duration
    arbitrarily little. *)
Theorem C22_duration_continuous :
  forall v a j, 0 < v -> 0 < a -> 0 < j -> forall e, 0 < e -> exists h, 0 < h /\
  forall x y, 0 <= x -> 0 <= y -> Rabs (y - x) <= h ->
  exists tx ty, jerk_time [x; y] v a (Some j) = Some [tx; ty] /\ Rabs (ty - tx) < e.
Proof.
  intros v a j Hv Ha Hj e He. destruct (omega_small v a j Hv Ha Hj e He) as (h & Hh & K).
  exists h. split; [exact Hh|]. intros x y Hx Hy Hd. exists (T v a j x), (T v a j y).
  split; [now apply (jerk_time_map [x; y])|].
  destruct (Rle_dec x y) as [L|L].
  - pose proof (T_grow v a j Hv Ha Hj x y (conj Hx L)). rewrite Rabs_pos_eq in Hd by lra.
    specialize (K (y - x) ltac:(lra)). rewrite Rabs_pos_eq; lra.
  - pose proof (T_grow v a j Hv Ha Hj y x ltac:(lra)). rewrite Rabs_left in Hd by lra.
    specialize (K (x - y) ltac:(lra)). rewrite Rabs_minus_sym, Rabs_pos_eq; lra.
Qed.
Print Assumptions C22_duration_continuous.

(** The duration is that of an actual rest-to-rest motion over exactly that
    distance whose speed, acceleration and jerk never exceed the limits. *)
Theorem C22_duration_is_feasible_motion :
  forall d v a j, 0 <= d -> 0 < v -> 0 < a -> 0 < j ->
  exists phases, moves phases (0, 0, 0) = (d, 0, 0) /\ within v a j phases (0, 0, 0) /\
    jerk_time [d] v a (Some j) = Some [duration phases].
Proof.
  intros d v a j Hd Hv Ha Hj. destruct (jerk_motion d v a j Hd Hv Ha Hj) as (ph & M & D & W).
  exists ph. split; [exact M|]. split; [exact W|]. rewrite jerk_time_map by assumption. cbn.
  rewrite (jerk_T v a j Hv Ha Hj d) in D. congruence.
Qed.
Print Assumptions C22_duration_is_feasible_motion.

(** A motion within the limits over distance 2 with v = a = j = 1: profile 5 at
    the boundary, four seconds. *)
Example C22_example : jerk_time [2] 1 1 (Some 1) = Some [4].
Proof.
  rewrite jerk_time_map by lra. cbn. unfold T, sa, sv2, P5.
  destruct (Rlt_dec (1 * 1) (1 * 1)); [lra|]. destruct (Rlt_dec 2 (2 * 1 * 1 * 1 / (1 * 1))); [lra|].
  destruct (Rlt_dec 2 (1 * (1 / 1 + 1 / 1))); [lra|]. do 2 f_equal. lra.
Qed.
