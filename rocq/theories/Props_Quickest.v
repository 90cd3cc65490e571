(** The slew duration is the shortest one within the limits (C152). *)
From Coq Require Import List Reals Lra Psatz.
From Verif Require Import Jerk Jerk_proofs Percent_proofs Quickest_proofs Quickest_phases Quickest_ramp.
Import ListNotations.
Open Scope R_scope.

(** Of all motions from rest to rest over the distance, made of any number of phases
    of constant jerk and within the limits on speed, acceleration and jerk, none is
    quicker than jerk_time, and one is as quick. *)
Theorem C152_shortest :
  forall d v a j, 0 <= d -> 0 < v -> 0 < a -> 0 < j ->
  exists t, jerk_time [d] v a (Some j) = Some [t] /\
    (exists ph, moves ph (0, 0, 0) = (d, 0, 0) /\ within v a j ph (0, 0, 0) /\ duration ph = t) /\
    (forall ph, moves ph (0, 0, 0) = (d, 0, 0) -> within v a j ph (0, 0, 0) -> t <= duration ph).
Proof.
  intros d v a j Hd Hv Ha Hj. exists (dur v a (Some j) d). split; [now rewrite dur_spec|]. split.
  - destruct (jerk_motion d v a j Hd Hv Ha Hj) as (ph & M & D & W). exists ph. split; [exact M|]. split; [exact W|].
    rewrite (jerk_T v a j Hv Ha Hj d) in D. cbn. congruence.
  - intros ph M W. now apply quick_phases.
Qed.
Print Assumptions C152_shortest.

(** Nor is any other motion, and the quickest is one of them: position [x], speed [u]
    and acceleration [g] at all times, at rest before 0 and after [tau], with an
    acceleration that changes by at most [j] in a unit of time.  The speed may also go
    backwards. *)
Theorem C152_any_motion :
  forall v a j d, 0 < v -> 0 < a -> 0 < j -> 0 <= d ->
  let motion tau (x u g : R -> R) :=
    (forall t, derivable_pt_lim x t (u t)) /\ (forall t, derivable_pt_lim u t (g t)) /\
    (forall s t, Rabs (g t - g s) <= j * Rabs (t - s)) /\
    (forall t, u t <= v) /\ (forall t, - a <= g t <= a) /\
    (forall t, t <= 0 \/ tau <= t -> u t = 0 /\ g t = 0) /\ x tau - x 0 = d in
  exists t, jerk_time [d] v a (Some j) = Some [t] /\ 0 <= t /\ (exists x u g, motion t x u g) /\
    (forall tau x u g, 0 <= tau -> motion tau x u g -> t <= tau).
Proof.
  intros v a j d Hv Ha Hj Hd motion. exists (dur v a (Some j) d). split; [now rewrite dur_spec|].
  split; [apply dur_nonneg; cbn; auto|]. split.
  - destruct (jerk_motion d v a j Hd Hv Ha Hj) as (ph & M & D & W).
    rewrite (jerk_T v a j Hv Ha Hj d) in D. injection D as D. cbn [dur]. rewrite <- D.
    exact (phases_motion v a j d ph Hv Ha Hj W M).
  - intros tau x u g Ht (H1 & H2 & H3 & H4 & H5 & H6 & H7). now apply (quick v a j d tau x u g).
Qed.
Print Assumptions C152_any_motion.

(** Without a limit on the jerk, position [x] and speed [u] at all times: no motion
    from rest to rest whose speed stays within [v] and changes by at most [a] in a unit
    of time is quicker, not even one that may go backwards at any speed, and one is as
    quick. *)
Theorem C152_no_jerk :
  forall v a d, 0 < v -> 0 < a -> 0 <= d ->
  exists t, jerk_time [d] v a None = Some [t] /\ 0 <= t /\
  (exists x u : R -> R,
    (forall y, derivable_pt_lim x y (u y)) /\ (forall p q, Rabs (u q - u p) <= a * Rabs (q - p)) /\
    (forall y, - v <= u y <= v) /\ (forall y, y <= 0 \/ t <= y -> u y = 0) /\ x t - x 0 = d) /\
  (forall tau (x u : R -> R), 0 <= tau ->
    (forall y, derivable_pt_lim x y (u y)) -> (forall p q, Rabs (u q - u p) <= a * Rabs (q - p)) ->
    (forall y, u y <= v) -> (forall y, y <= 0 \/ tau <= y -> u y = 0) -> x tau - x 0 = d -> t <= tau).
Proof.
  intros v a d Hv Ha Hd. exists (dur v a None d). split; [reflexivity|].
  split; [apply dur_nonneg; cbn; auto|]. split; [now apply acc_attained|].
  intros tau x u Ht Dx Lu Uv Rest Xd. now apply (quick_acc v a d tau x u).
Qed.
Print Assumptions C152_no_jerk.

(** Two slews are never quicker than one over the sum of their distances. *)
Theorem C152_stop :
  forall d1 d2 v a j, 0 <= d1 -> 0 <= d2 -> 0 < v -> 0 < a -> 0 < j ->
  exists t1 t2 t, jerk_time [d1; d2; d1 + d2] v a (Some j) = Some [t1; t2; t] /\ t <= t1 + t2.
Proof.
  intros d1 d2 v a j H1 H2 Hv Ha Hj.
  exists (dur v a (Some j) d1), (dur v a (Some j) d2), (dur v a (Some j) (d1 + d2)).
  split; [now rewrite dur_spec|].
  destruct (jerk_motion d1 v a j H1 Hv Ha Hj) as (p1 & M1 & D1 & W1).
  destruct (jerk_motion d2 v a j H2 Hv Ha Hj) as (p2 & M2 & D2 & W2).
  rewrite jerk_T in D1, D2 by assumption.
  assert (DA : duration (p1 ++ p2) = duration p1 + duration p2).
  { unfold duration. clear. induction p1 as [|[k l] r IH]; cbn; [ring|]. rewrite IH. ring. }
  assert (MA : forall p q s, moves (p ++ q) s = moves q (moves p s)).
  { clear. induction p as [|[k l] r IH]; intros q s; cbn; auto. }
  assert (MS : forall k l s c, move k l (pos s + c, vel s, acc s) = (pos (move k l s) + c, vel (move k l s), acc (move k l s))).
  { clear. intros k l [[x u] b] c. unfold pos, vel, acc. cbn. do 2 f_equal. field. }
  assert (SH : forall p s c, moves p (pos s + c, vel s, acc s) =
                 (pos (moves p s) + c, vel (moves p s), acc (moves p s))).
  { clear - MS. induction p as [|[k l] r IH]; intros s c; [reflexivity|]. cbn [moves]. now rewrite MS, IH. }
  assert (SW : forall p s c, within v a j p s -> within v a j p (pos s + c, vel s, acc s)).
  { clear - MS. induction p as [|[k l] r IH]; intros s c; [auto|]. cbn [within].
    intros (A & B & C & D). split; [exact A|]. split; [exact B|]. split; [|rewrite MS; now apply IH].
    intros y Hy. rewrite MS. exact (C y Hy). }
  assert (WA : forall p q s, within v a j p s -> within v a j q (moves p s) -> within v a j (p ++ q) s).
  { clear. induction p as [|[k l] r IH]; intros q s W K; cbn in *; auto. intuition. }
  assert (L : dur v a (Some j) (d1 + d2) <= duration (p1 ++ p2)).
  { apply quick_phases; auto; [lra| |].
    - apply WA; [exact W1|]. rewrite M1. pose proof (SW p2 (0, 0, 0) d1 W2) as Q. unfold pos, vel, acc in Q. cbn in Q.
      now rewrite Rplus_0_l in Q.
    - rewrite MA, M1. pose proof (SH p2 (0, 0, 0) d1) as Q. rewrite M2 in Q. unfold pos, vel, acc in Q. cbn in Q.
      rewrite Rplus_0_l in Q. rewrite Q. now rewrite (Rplus_comm d2). }
  cbn [dur] in *. rewrite DA in L. injection D1 as D1. injection D2 as D2. lra.
Qed.
Print Assumptions C152_stop.

(** A motion over distance 2 within speed, acceleration and jerk 1 that takes eight
    seconds; jerk_time gives four. *)
Example C152_example :
  let ph := [(1 / 8, 2); (- (1 / 8), 4); (1 / 8, 2)] in
  moves ph (0, 0, 0) = (2, 0, 0) /\ within 1 1 1 ph (0, 0, 0) /\ duration ph = 8 /\
  jerk_time [2] 1 1 (Some 1) = Some [4].
Proof.
  split; [cbn; f_equal; [f_equal|]; field|]. split.
  - cbn [within]. unfold move, vel, acc. cbn [fst snd].
    split; [lra|]. split; [rewrite Rabs_pos_eq; lra|]. split; [intros; nra|].
    split; [lra|]. split; [rewrite Rabs_Ropp, Rabs_pos_eq; lra|]. split; [intros; nra|].
    split; [lra|]. split; [rewrite Rabs_pos_eq; lra|]. split; [intros; nra|exact I].
  - split; [unfold duration; cbn; lra|].
    rewrite jerk_time_map by lra. cbn. unfold T. destruct (Rlt_dec (1 * 1) (1 * 1)); [lra|].
    assert (S1 : sa 1 1 = 2) by (unfold sa; field). assert (S2 : sv2 1 1 1 = 2) by (unfold sv2; field).
    rewrite S1, S2. destruct (Rlt_dec 2 2); [lra|]. unfold P5. repeat f_equal. field.
Qed.
