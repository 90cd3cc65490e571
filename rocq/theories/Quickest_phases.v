(** Motions of phases of constant jerk as functions of time. *)
From Coq Require Import List Reals Lra Psatz.
From Verif Require Import Jerk Jerk_proofs Percent_proofs Quickest_proofs.
Import ListNotations.
Open Scope R_scope.

Notation state := (R * R * R)%type.
Definition pos (s : state) : R := fst (fst s).
(** The state at time [t]; after the last phase without jerk. *)
Fixpoint at_time (ph : list (R * R)) (s : state) (t : R) : state :=
  match ph with
  | [] => move 0 t s
  | (k, l) :: r => if Rle_dec t l then move k t s else at_time r (move k l s) (t - l)
  end.
Fixpoint lasting (ph : list (R * R)) : Prop := match ph with [] => True | (_, l) :: r => 0 <= l /\ lasting r end.

Lemma move0 : forall k s, move k 0 s = s.
Proof. intros k [[x u] b]. unfold move. f_equal; [f_equal|]; field. Qed.
Lemma at0 : forall ph s, lasting ph -> at_time ph s 0 = s.
Proof. intros [|[k l] r] s H; cbn in *; [apply move0|]. destruct (Rle_dec 0 l); [apply move0|lra]. Qed.
Lemma within_lasting : forall v a j ph s, within v a j ph s -> lasting ph.
Proof. induction ph as [|[k l] r IH]; cbn; auto. intros s (H & _ & _ & W). split; [auto|]. now apply (IH (move k l s)). Qed.
Lemma lasting_duration : forall ph, lasting ph -> 0 <= duration ph.
Proof. induction ph as [|[k l] r IH]; cbn; [lra|]. intros (H & L). specialize (IH L). unfold duration in IH. lra. Qed.

Lemma qe_shift : forall f c t l, qe f (t - c) l -> qe (fun s => f (s - c)) t l.
Proof.
  intros f c t l (M & e & He & B). exists M, e. split; [exact He|]. intros h Hh.
  replace (t + h - c) with (t - c + h) by ring. auto.
Qed.
Lemma abs_bound : forall h e, Rabs h <= e -> - e <= h <= e.
Proof. intros h e H. pose proof (Rle_abs h). pose proof (Rle_abs (- h)). rewrite Rabs_Ropp in *. lra. Qed.

Section Smooth.
Variables f f' : state -> R.
Hypothesis one : forall k s t, qe (fun y => f (move k y s)) t (f' (move k t s)).
Lemma at_qe : forall ph s, lasting ph -> forall t, qe (fun y => f (at_time ph s y)) t (f' (at_time ph s t)).
Proof.
  induction ph as [|[k l] r IH]; intros s L t; [apply one|]. destruct L as [Hl L].
  specialize (IH (move k l s) L). cbn [at_time].
  destruct (Rtotal_order t l) as [A|[A|A]].
  - destruct (Rle_dec t l) as [B|B]; [|lra].
    apply (qe_local _ (fun y => f (move k y s)) t _ (l - t)); [lra| |apply one].
    intros h Hh. apply abs_bound in Hh. destruct (Rle_dec (t + h) l); [reflexivity|lra].
  - subst t. destruct (Rle_dec l l) as [B|B]; [|lra].
    apply (qe_local _ (fun y => if Rle_dec y l then f (move k y s) else f (at_time r (move k l s) (y - l))) l _ 1); [lra| |].
    + intros h _. destruct (Rle_dec (l + h) l); reflexivity.
    + apply (qe_glue (fun y => f (move k y s)) (fun y => f (at_time r (move k l s) (y - l)))).
      * replace (l - l) with 0 by ring. now rewrite at0.
      * apply one.
      * apply (qe_shift (fun y => f (at_time r (move k l s) y))).
        specialize (IH (l - l)). replace (l - l) with 0 in * by ring. now rewrite (at0 r) in IH by exact L.
  - destruct (Rle_dec t l) as [B|B]; [lra|].
    apply (qe_local _ (fun y => f (at_time r (move k l s) (y - l))) t _ ((t - l) / 2)); [lra| |].
    + intros h Hh. apply abs_bound in Hh. destruct (Rle_dec (t + h) l); [lra|reflexivity].
    + apply (qe_shift (fun y => f (at_time r (move k l s) y))). apply IH.
Qed.
End Smooth.

Lemma pos_one : forall k s t, qe (fun y => pos (move k y s)) t (vel (move k t s)).
Proof.
  intros k [[x u] b] t. replace (vel (move k t (x, u, b))) with (u + b * (t - 0) + k * (t - 0) ^ 2 / 2) by (cbn; field).
  apply (qe_local _ (cub x u b k 0) t _ 1); [lra| |apply qe_cub].
  intros h _. unfold pos, cub. cbn. field.
Qed.
Lemma vel_one : forall k s t, qe (fun y => vel (move k y s)) t (acc (move k t s)).
Proof.
  intros k [[x u] b] t. replace (acc (move k t (x, u, b))) with (b + k * (t - 0) + 0 * (t - 0) ^ 2 / 2) by (cbn; field).
  apply (qe_local _ (cub u b k 0 0) t _ 1); [lra| |apply qe_cub].
  intros h _. unfold cub. cbn. field.
Qed.

Lemma acc_move : forall k s y z, acc (move k z s) - acc (move k y s) = k * (z - y).
Proof. intros k [[x u] b] y z. cbn. ring. Qed.
Lemma at_lip : forall v a j ph s, 0 <= j -> within v a j ph s -> forall y z, y <= z ->
  Rabs (acc (at_time ph s z) - acc (at_time ph s y)) <= j * (z - y).
Proof.
  intros v a j ph. induction ph as [|[k l] r IH]; intros s Hj W y z L; cbn [at_time].
  - rewrite acc_move, Rmult_0_l, Rabs_R0. nra.
  - cbn [within] in W. destruct W as (Hl & Hk & _ & W). pose proof (within_lasting _ _ _ _ _ W) as La.
    specialize (IH (move k l s) Hj W).
    assert (ONE : forall p q, p <= q -> Rabs (acc (move k q s) - acc (move k p s)) <= j * (q - p)).
    { intros p q K. rewrite acc_move, Rabs_mult, (Rabs_pos_eq (q - p)) by lra. apply Rmult_le_compat_r; lra. }
    destruct (Rle_dec z l), (Rle_dec y l); [now apply ONE|lra| |].
    + specialize (IH 0 (z - l) ltac:(lra)). rewrite at0 in IH by exact La. specialize (ONE y l ltac:(lra)).
      apply abs_bound in IH, ONE. apply Rabs_le. lra.
    + specialize (IH (y - l) (z - l) ltac:(lra)). replace (z - l - (y - l)) with (z - y) in IH by ring. exact IH.
Qed.
Lemma at_end : forall ph s d, lasting ph -> moves ph s = (d, 0, 0) -> forall t, duration ph <= t ->
  at_time ph s t = (d, 0, 0).
Proof.
  induction ph as [|[k l] r IH]; intros s d L M t Ht; cbn [at_time moves] in *.
  - subst s. unfold move. f_equal; [f_equal|]; field.
  - destruct L as [Hl L]. unfold duration in Ht. cbn in Ht. fold (duration r) in Ht.
    pose proof (lasting_duration r L) as Dr. specialize (IH _ _ L M). destruct (Rle_dec t l) as [A|A].
    + assert (t = l) by lra. subst t. specialize (IH 0 ltac:(lra)). now rewrite at0 in IH.
    + apply IH. lra.
Qed.
Lemma at_bounds : forall v a j ph s d, 0 <= v -> 0 <= a -> within v a j ph s -> moves ph s = (d, 0, 0) ->
  forall t, 0 <= t -> vel (at_time ph s t) <= v /\ - a <= acc (at_time ph s t) <= a.
Proof.
  intros v a j ph. induction ph as [|[k l] r IH]; intros s d Hv Ha W M t Ht; cbn [at_time].
  - cbn in M. subst s. cbn. lra.
  - cbn [within] in W. destruct W as (Hl & Hk & B & W). destruct (Rle_dec t l) as [A|A].
    + destruct (B t ltac:(lra)). lra.
    + apply (IH (move k l s) d); auto. lra.
Qed.

(** Phases from rest to rest make a motion at all times. *)
Lemma phases_motion : forall v a j d ph, 0 < v -> 0 < a -> 0 < j ->
  within v a j ph (0, 0, 0) -> moves ph (0, 0, 0) = (d, 0, 0) -> exists x u g : R -> R,
  (forall t, derivable_pt_lim x t (u t)) /\ (forall t, derivable_pt_lim u t (g t)) /\
  (forall s t, Rabs (g t - g s) <= j * Rabs (t - s)) /\
  (forall t, u t <= v) /\ (forall t, - a <= g t <= a) /\
  (forall t, t <= 0 \/ duration ph <= t -> u t = 0 /\ g t = 0) /\ x (duration ph) - x 0 = d.
Proof.
  intros v a j d ph Hv Ha Hj W M. pose proof (within_lasting _ _ _ _ _ W) as L.
  set (ph' := (0, 0) :: ph). assert (L' : lasting ph') by (cbn; split; [lra|exact L]).
  assert (Z : forall t, move 0 t (0, 0, 0) = (0, 0, 0)) by (intros t; unfold move; f_equal; [f_equal|]; field).
  assert (W' : within v a j ph' (0, 0, 0)).
  { cbn [within ph']. split; [lra|]. split; [rewrite Rabs_R0; lra|]. split; [|now rewrite Z].
    intros y Hy. rewrite Z. cbn. lra. }
  assert (M' : moves ph' (0, 0, 0) = (d, 0, 0)) by (cbn [moves ph']; now rewrite Z).
  assert (D' : duration ph' = duration ph) by (unfold duration; cbn; ring).
  pose proof (lasting_duration ph L) as Dp.
  assert (Neg : forall t, t <= 0 -> at_time ph' (0, 0, 0) t = (0, 0, 0)).
  { intros t Ht. cbn [at_time ph']. destruct (Rle_dec t 0); [apply Z|lra]. }
  pose proof (at_end ph' (0, 0, 0) d L' M') as End. rewrite D' in End.
  exists (fun t => pos (at_time ph' (0, 0, 0) t)), (fun t => vel (at_time ph' (0, 0, 0) t)),
    (fun t => acc (at_time ph' (0, 0, 0) t)).
  split; [intros t; apply qe_der; now apply (at_qe pos vel pos_one)|].
  split; [intros t; apply qe_der; now apply (at_qe vel acc vel_one)|].
  split; [|split; [|split; [|split]]].
  - intros s t. destruct (Rle_dec s t) as [K|K].
    + rewrite (Rabs_pos_eq (t - s)) by lra. apply (at_lip v a j); auto; lra.
    + rewrite Rabs_minus_sym, (Rabs_minus_sym t s), (Rabs_pos_eq (s - t)) by lra. apply (at_lip v a j); auto; lra.
  - intros t. destruct (Rle_dec t 0) as [K|K]; [rewrite Neg by auto; cbn; lra|].
    apply (at_bounds v a j ph' (0, 0, 0) d); auto; lra.
  - intros t. destruct (Rle_dec t 0) as [K|K]; [rewrite Neg by auto; cbn; lra|].
    apply (at_bounds v a j ph' (0, 0, 0) d); auto; lra.
  - intros t [K|K]; [rewrite Neg by auto|rewrite End by auto]; cbn; auto.
  - rewrite End, Neg by lra. cbn. ring.
Qed.

Lemma quick_phases : forall v a j d ph, 0 < v -> 0 < a -> 0 < j -> 0 <= d ->
  within v a j ph (0, 0, 0) -> moves ph (0, 0, 0) = (d, 0, 0) -> dur v a (Some j) d <= duration ph.
Proof.
  intros v a j d ph Hv Ha Hj Hd W M. pose proof (lasting_duration ph (within_lasting _ _ _ _ _ W)) as Dp.
  destruct (phases_motion v a j d ph Hv Ha Hj W M) as (x & u & g & H1 & H2 & H3 & H4 & H5 & H6 & H7).
  now apply (quick v a j d (duration ph) x u g).
Qed.
