(** Proofs about VaryExptDetailer. *)
From Coq Require Import List Bool String ZArith Reals Lra Lia.
From Verif Require Import Base VaryExpt.
Import ListNotations.
Local Open Scope string_scope.
Open Scope list_scope.
Open Scope R_scope.

Lemma int_part_bounds : forall x, IZR (Int_part x) <= x < IZR (Int_part x) + 1.
Proof. intro x. destruct (base_Int_part x). split; lra. Qed.
Lemma rround_near : forall x, Rabs (IZR (rround x) - x) <= 1 / 2.
Proof.
  intro x. pose proof (int_part_bounds x) as B. unfold rround. set (f := Int_part x) in *.
  destruct (Rlt_dec (x - IZR f) (1 / 2)); [apply Rabs_le; lra|].
  destruct (Rlt_dec (1 / 2) (x - IZR f)); [rewrite plus_IZR; apply Rabs_le; lra|].
  destruct (Z.even f); [|rewrite plus_IZR]; apply Rabs_le; lra.
Qed.
(** Ties go to the even neighbour. *)
Lemma rround_tie : forall x, Rabs (IZR (rround x) - x) = 1 / 2 -> Z.even (rround x) = true.
Proof.
  intros x. pose proof (int_part_bounds x) as B. unfold rround. set (f := Int_part x) in *.
  destruct (Rlt_dec (x - IZR f) (1 / 2)).
  { intro H. rewrite Rabs_minus_sym, Rabs_right in H by lra. lra. }
  destruct (Rlt_dec (1 / 2) (x - IZR f)).
  { rewrite plus_IZR. intro H. rewrite Rabs_right in H by lra. lra. }
  intros _. destruct (Z.even f) eqn:E; [exact E|]. rewrite Z.add_1_r, Z.even_succ. rewrite <- Z.negb_even, E. reflexivity.
Qed.
Lemma rround_unique : forall x k, Rabs (IZR k - x) <= 1 / 2 -> (Rabs (IZR k - x) = 1 / 2 -> Z.even k = true) -> rround x = k.
Proof.
  intros x k H E. pose proof (rround_near x) as N. pose proof (rround_tie x) as T. set (m := rround x) in *.
  assert (A : IZR m - x <= 1/2 /\ x - IZR m <= 1/2) by (split; revert N; unfold Rabs; destruct Rcase_abs; lra).
  assert (A' : IZR k - x <= 1/2 /\ x - IZR k <= 1/2) by (split; revert H; unfold Rabs; destruct Rcase_abs; lra).
  assert (D : (-1 <= m - k <= 1)%Z) by (split; apply le_IZR; rewrite minus_IZR; lra).
  assert (m = k \/ m = k + 1 \/ k = m + 1)%Z as [|[G|G]] by lia; [assumption| |].
  - exfalso. rewrite G, plus_IZR in A. 
    assert (Z.even k = true) by (apply E; unfold Rabs; destruct Rcase_abs; lra).
    assert (Z.even m = true) by (apply T; rewrite G, plus_IZR; unfold Rabs; destruct Rcase_abs; lra).
    rewrite G, Z.add_1_r, Z.even_succ, <- Z.negb_even, H0 in H1. discriminate.
  - exfalso. rewrite G, plus_IZR in A'. 
    assert (Z.even k = true) by (apply E; rewrite G, plus_IZR; unfold Rabs; destruct Rcase_abs; lra).
    assert (Z.even m = true) by (apply T; unfold Rabs; destruct Rcase_abs; lra).
    rewrite G, Z.add_1_r, Z.even_succ, <- Z.negb_even, H1 in H0. discriminate.
Qed.
Lemma rround_int : forall k, rround (IZR k) = k.
Proof. intro k. apply rround_unique; rewrite Rminus_diag_eq by reflexivity; rewrite Rabs_R0; lra. Qed.
Lemma rround_mono : forall x y, x <= y -> (rround x <= rround y)%Z.
Proof.
  intros x y H. destruct (Z_le_gt_dec (rround x) (rround y)) as [L|G]; [exact L|exfalso].
  pose proof (rround_near x) as Nx. pose proof (rround_near y) as Ny.
  assert (IZR (rround x) >= IZR (rround y) + 1) by (rewrite <- plus_IZR; apply Rle_ge, IZR_le; lia).
  assert (IZR (rround x) - x <= 1/2) by (revert Nx; unfold Rabs; destruct Rcase_abs; lra).
  assert (y - IZR (rround y) <= 1/2) by (revert Ny; unfold Rabs; destruct Rcase_abs; lra).
  assert (E : x = y) by lra. subst y. lra.
Qed.
Lemma clip_mono : forall x y lo hi, x <= y -> clip x lo hi <= clip y lo hi.
Proof. intros x y lo hi H. unfold clip, Rmin, Rmax. repeat destruct Rle_dec; lra. Qed.
Lemma clip_range : forall x lo hi, lo <= hi -> lo <= clip x lo hi <= hi.
Proof. intros x lo hi H. unfold clip, Rmin, Rmax. repeat destruct Rle_dec; lra. Qed.
Lemma clip_id : forall x lo hi, lo <= x <= hi -> clip x lo hi = x.
Proof. intros x lo hi H. unfold clip, Rmin, Rmax. repeat destruct Rle_dec; lra. Qed.
Lemma clip_low : forall x lo hi, x <= lo -> lo <= hi -> clip x lo hi = lo.
Proof. intros x lo hi H L. unfold clip, Rmin, Rmax. repeat destruct Rle_dec; lra. Qed.
Lemma clip_high : forall x lo hi, hi <= x -> clip x lo hi = hi.
Proof. intros x lo hi H. unfold clip, Rmin, Rmax. repeat destruct Rle_dec; lra. Qed.

Lemma mapM_spec : forall {A B} (f : A -> res B) l,
  match mapM f l with
  | Ok ys => Forall2 (fun x y => f x = Ok y) l ys
  | Raise e => exists x, In x l /\ f x = Raise e
  end.
Proof.
  intros A B f l. induction l as [|x l IH]; cbn; [constructor|].
  destruct (f x) as [y|e] eqn:E; cbn; [|exists x; split; [left; reflexivity|exact E]].
  destruct (mapM f l) as [ys|e]; cbn; [constructor; assumption|].
  destruct IH as [z [H1 H2]]. exists z. split; [right; exact H1|exact H2].
Qed.

(** ** The depth of a pointing, and the time that reaches the target *)
(** The pixel [i] of the map, counting from the end for negative [i]. *)
Definition value_at {A} (m : list A) (i : Z) (x : A) : Prop :=
  ((0 <= i)%Z /\ nth_error m (Z.to_nat i) = Some x) \/
  ((i < 0)%Z /\ (0 <= Z.of_nat (List.length m) + i)%Z /\ nth_error m (Z.to_nat (Z.of_nat (List.length m) + i)) = Some x).
Lemma at_pix_spec : forall {A} (m : list A) i x, at_pix m i = Ok x <-> value_at m i x.
Proof.
  intros A m i x. unfold at_pix, value_at. destruct (Z.ltb_spec i 0) as [L|L].
  - destruct (Z.ltb_spec (Z.of_nat (List.length m) + i) 0); cbn.
    + split; [discriminate|]. intros [[H1 _]|[_ [H1 _]]]; lia.
    + destruct (Z.leb_spec (Z.of_nat (List.length m)) (Z.of_nat (List.length m) + i)); [lia|].
      destruct nth_error eqn:E.
      * split; [intro H1; injection H1 as <-; right; repeat split; auto|]. intros [[H1 _]|[_ [_ H1]]]; [lia|congruence].
      * split; [discriminate|]. intros [[H1 _]|[_ [_ H1]]]; [lia|congruence].
  - destruct (Z.ltb_spec i 0); [lia|]. cbn. destruct (Z.leb_spec (Z.of_nat (List.length m)) i).
    + split; [discriminate|]. intros [[_ H1]|[H1 _]]; [|lia].
      assert (Z.to_nat i < List.length m)%nat by (apply nth_error_Some; congruence). lia.
    + destruct nth_error eqn:E.
      * split; [intro H1; injection H1 as <-; left; split; auto|]. intros [[_ H1]|[H1 _]]; [congruence|lia].
      * split; [discriminate|]. intros [[_ H1]|[H1 _]]; [congruence|lia].
Qed.
(** The depth used for a pixel: its own, or the mean over its unmasked neighbours. *)
Definition mean_of (l : list R) (d : R) : Prop := l <> [] /\ d * INR (List.length l) = fold_right Rplus 0 l.
Definition unmasked (vals : list (option R)) (l : list R) : Prop :=
  map Some l = filter (fun v => match v with Some _ => true | None => false end) vals.
Definition depth_of (k : sky) (m : list (option R)) (p : Z) (d : R) : Prop :=
  value_at m p (Some d) \/
  (value_at m p None /\ exists vals l, Forall2 (value_at m) (s_near k p) vals /\ unmasked vals l /\ mean_of l d).
Lemma finite_spec : forall v, unmasked v (finite_vals v).
Proof. unfold unmasked. induction v as [|[x|] v IH]; cbn; [reflexivity|rewrite IH; reflexivity|exact IH]. Qed.
Lemma Forall2_impl2 : forall {A B} (P Q : A -> B -> Prop) l l', (forall x y, P x y -> Q x y) -> Forall2 P l l' -> Forall2 Q l l'.
Proof. intros A B P Q l l' H F. induction F; constructor; auto. Qed.
Lemma value_fun : forall {A} (m : list A) i x y, value_at m i x -> value_at m i y -> x = y.
Proof. intros A m i x y H1 H2. apply at_pix_spec in H1. apply at_pix_spec in H2. congruence. Qed.
Lemma depth_spec : forall k m p,
  match depth k m p with
  | Ok d => depth_of k m p d
  | Raise ValueError => value_at m p None /\ exists vals, Forall2 (value_at m) (s_near k p) vals /\ forall v, In v vals -> v = None
  | Raise e => e = IndexError
  end.
Proof.
  intros k m p. unfold depth.
  destruct (at_pix m p) as [[x|]|e] eqn:E; cbn [bind].
  - left. apply at_pix_spec. exact E.
  - pose proof (mapM_spec (at_pix m) (s_near k p)) as M. destruct (mapM (at_pix m) (s_near k p)) as [vals|e]; cbn [bind].
    + assert (V : Forall2 (value_at m) (s_near k p) vals).
      { eapply Forall2_impl2; [|exact M]. intros a b H. apply at_pix_spec. exact H. }
      pose proof (finite_spec vals) as F. destruct (finite_vals vals) as [|y l] eqn:El.
      * split; [apply at_pix_spec; exact E|]. exists vals. split; [exact V|]. intros v Hv. destruct v as [v|]; [exfalso|reflexivity].
        unfold unmasked in F. cbn in F. assert (I : In (Some v) (filter (fun v => match v with Some _ => true | None => false end) vals)) by (apply filter_In; auto).
        rewrite <- F in I. exact I.
      * right. split; [apply at_pix_spec; exact E|]. exists vals, (y :: l). split; [exact V|]. split; [exact F|].
        split; [discriminate|]. unfold rsum. field. apply not_0_INR. discriminate.
    + destruct M as [z [_ M]]. unfold at_pix in M. destruct (_ || _)%bool in M; [injection M as <-; reflexivity|].
      destruct nth_error in M; [discriminate|injection M as <-; reflexivity].
  - unfold at_pix in E. destruct (_ || _)%bool in E; [injection E as <-; reflexivity|].
    destruct nth_error in E; [discriminate|injection E as <-; reflexivity].
Qed.

(** The time that reaches depth [t] where [t0] reaches [d]: magnitudes go as 1.25 log10 of time. *)
Definition log10 (x : R) : R := ln x / ln 10.
Definition reaches (t0 d t e : R) : Prop := 0 < e /\ d + 5 / 4 * log10 (e / t0) = t.
Lemma ln10 : 0 < ln 10.
Proof. rewrite <- ln_1. apply ln_increasing; lra. Qed.
Lemma reaches_unique : forall t0 d t e e', 0 < t0 -> reaches t0 d t e -> reaches t0 d t e' -> e = e'.
Proof.
  intros t0 d t e e' P [H1 H2] [H3 H4]. pose proof ln10 as L. unfold log10 in *.
  assert (ln (e / t0) / ln 10 = ln (e' / t0) / ln 10) by lra.
  assert (E : ln (e / t0) = ln (e' / t0)).
  { apply (Rmult_eq_reg_r (/ ln 10)); [exact H|]. apply Rinv_neq_0_compat. lra. }
  apply ln_inv in E; [|apply Rdiv_lt_0_compat; lra|apply Rdiv_lt_0_compat; lra].
  apply (Rmult_eq_reg_r (/ t0)); [exact E|]. apply Rinv_neq_0_compat. lra.
Qed.
Lemma power_reaches : forall t0 d t, 0 < t0 -> reaches t0 d t (t0 * Rpower 10 ((t - d) / (5 / 4))).
Proof.
  intros t0 d t P. pose proof ln10 as L. split.
  - apply Rmult_lt_0_compat; [exact P|]. unfold Rpower. apply exp_pos.
  - unfold log10. replace (t0 * Rpower 10 ((t - d) / (5 / 4)) / t0) with (Rpower 10 ((t - d) / (5 / 4))) by (field; lra).
    unfold Rpower. rewrite ln_exp. field. lra.
Qed.
Lemma log10_le : forall x y, 0 < x -> x <= y -> log10 x <= log10 y.
Proof.
  intros x y P H. unfold log10. pose proof ln10. apply Rmult_le_compat_r; [left; apply Rinv_0_lt_compat; lra|].
  destruct (Req_dec x y) as [->|]; [lra|]. left. apply ln_increasing; lra.
Qed.
Lemma log10_div : forall x y, 0 < x -> 0 < y -> log10 (x / y) = log10 x - log10 y.
Proof.
  intros x y P Q. pose proof ln10. unfold log10, Rdiv. rewrite ln_mult by (try apply Rinv_0_lt_compat; lra). rewrite ln_Rinv by lra. field. lra.
Qed.
(** Rounding to a second moves the depth by little. *)
Lemma rounding_error : forall t0 d t e n, 0 < t0 -> reaches t0 d t e -> 1 <= n -> Rabs (n - e) <= 1 / 2 ->
  Rabs (d + 5 / 4 * log10 (n / t0) - t) <= 5 / 4 * log10 (n / (n - 1 / 2)).
Proof.
  intros t0 d t e n P [H1 H2] N A.
  assert (A1 : e <= n + 1 / 2 /\ n - 1 / 2 <= e) by (revert A; unfold Rabs; destruct Rcase_abs; lra).
  rewrite <- H2. rewrite !log10_div by lra.
  replace (d + 5 / 4 * (log10 n - log10 t0) - (d + 5 / 4 * (log10 e - log10 t0))) with (5 / 4 * (log10 n - log10 e)) by ring.
  assert (L1 : log10 (n - 1 / 2) <= log10 e) by (apply log10_le; lra).
  assert (L2 : log10 (e / n) <= log10 (n / (n - 1 / 2))).
  { apply log10_le; [apply Rdiv_lt_0_compat; lra|]. apply (Rmult_le_reg_r (n * (n - 1 / 2))); [apply Rmult_lt_0_compat; lra|].
    replace (e / n * (n * (n - 1 / 2))) with (e * (n - 1 / 2)) by (field; lra).
    replace (n / (n - 1 / 2) * (n * (n - 1 / 2))) with (n * n) by (field; lra).
    apply Rle_trans with ((n + 1 / 2) * (n - 1 / 2)); [apply Rmult_le_compat_r; lra|]. lra. }
  rewrite !log10_div in L2 by lra. apply Rabs_le. lra.
Qed.
