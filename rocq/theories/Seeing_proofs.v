(** Proofs about delivered seeing and depth. *)
From Coq Require Import List String Reals Lra Lia.
From Verif Require Import Base Seeing.
Import ListNotations.
Open Scope R_scope.

Lemma ln10_pos : 0 < ln 10.
Proof. rewrite <- ln_1. apply ln_increasing; lra. Qed.
Lemma log10_lt : forall x y, 0 < x -> x < y -> log10 x < log10 y.
Proof. intros x y H L. unfold log10, Rdiv. apply Rmult_lt_compat_r; [apply Rinv_0_lt_compat, ln10_pos|apply ln_increasing; assumption]. Qed.
Lemma log10_le : forall x y, 0 < x -> x <= y -> log10 x <= log10 y.
Proof. intros x y H [L|L]; [left; apply log10_lt; assumption|right; subst; reflexivity]. Qed.
Lemma log10_mult : forall x y, 0 < x -> 0 < y -> log10 (x * y) = log10 x + log10 y.
Proof. intros x y H L. unfold log10. rewrite ln_mult by assumption. field. pose proof ln10_pos. lra. Qed.
Lemma log10_div : forall x y, 0 < x -> 0 < y -> log10 (x / y) = log10 x - log10 y.
Proof.
  intros x y H L. unfold Rdiv. rewrite log10_mult; [|assumption|apply Rinv_0_lt_compat; assumption].
  unfold log10. rewrite ln_Rinv by assumption. field. pose proof ln10_pos. lra.
Qed.
Lemma log10_pow : forall y, log10 (np_power 10 y) = y.
Proof. intros y. unfold log10, np_power, Rpower. rewrite ln_exp. field. pose proof ln10_pos. lra. Qed.
Lemma np_power_pos : forall x p, 0 < np_power x p.
Proof. intros. unfold np_power, Rpower. apply exp_pos. Qed.
Lemma pow10_mono : forall x y, x <= y -> np_power 10 x <= np_power 10 y.
Proof. intros x y H. unfold np_power. apply Rle_Rpower; lra. Qed.
Lemma pow10_lt : forall x y, x < y -> np_power 10 x < np_power 10 y.
Proof. intros x y H. unfold np_power. apply Rpower_lt; lra. Qed.
Lemma np_power_lt : forall x y p, 0 < p -> 0 < x < y -> np_power x p < np_power y p.
Proof. intros x y p P H. unfold np_power. apply Rlt_Rpower_l; assumption. Qed.
Lemma np_power_le : forall x y p, 0 < p -> 0 < x -> x <= y -> np_power x p <= np_power y p.
Proof. intros x y p P H [L|L]; [left; apply np_power_lt; lra|subst; right; reflexivity]. Qed.
Lemma np_power_sq : forall x p, (np_power x p)^2 = np_power x (p + p).
Proof. intros. unfold np_power. rewrite Rpower_plus. ring. Qed.
Lemma np_power_1 : forall p, np_power 1 p = 1.
Proof. intros p. unfold np_power, Rpower. rewrite ln_1, Rmult_0_r, exp_0. reflexivity. Qed.

(** ** Seeing *)
Lemma combine_scale : forall s a c, 0 <= c -> combine_fwhm (s * c) (a * c) = c * combine_fwhm s a.
Proof.
  intros s a c C. unfold combine_fwhm. replace ((s * c)^2 + 104 / 100 * (a * c)^2) with (c^2 * (s^2 + 104 / 100 * a^2)) by ring.
  rewrite sqrt_mult; [|nra|nra]. rewrite sqrt_pow2 by exact C. ring.
Qed.
Lemma combine_lt : forall s a a', 0 <= a < a' -> combine_fwhm s a < combine_fwhm s a'.
Proof. intros s a a' H. unfold combine_fwhm. apply Rmult_lt_compat_l; [lra|]. apply sqrt_lt_1; nra. Qed.
Lemma combine_pos : forall s a, 0 < s \/ 0 < a -> 0 < combine_fwhm s a.
Proof. intros s a H. unfold combine_fwhm. apply Rmult_lt_0_compat; [lra|]. apply sqrt_lt_R0. destruct H; nra. Qed.

Definition eff_at (m : smodel) (w fz x : R) : R := combine_fwhm (system_zenith m * np_power x (6 / 10)) (fz * np_power (sm_raw m / w) (3 / 10) * np_power x (6 / 10)).
Lemma scalar_nth : forall m fz x i, nth_error (fst (call_scalar m fz x)) i = option_map (fun w => eff_at m w fz x) (nth_error (sm_waves m) i).
Proof. intros. unfold call_scalar. cbn [fst]. rewrite nth_error_map. reflexivity. Qed.
Lemma eff_scale : forall m w fz x, eff_at m w fz x = np_power x (6 / 10) * combine_fwhm (system_zenith m) (fz * np_power (sm_raw m / w) (3 / 10)).
Proof. intros. unfold eff_at. apply combine_scale. left. apply np_power_pos. Qed.

(** ** Depth *)
(** Signal-to-noise factor: [u] is how much fainter the sky is, [K] the read noise. *)
Definition G (K e u : R) : R := u * e^2 / (e + K * u).
Lemma G_pos : forall K e u, 0 <= K -> 0 < e -> 0 < u -> 0 < G K e u.
Proof. intros K e u HK He Hu. unfold G. apply Rdiv_lt_0_compat; [apply Rmult_lt_0_compat; [exact Hu|nra]|nra]. Qed.
Lemma frac_le : forall a b c d, 0 < b -> 0 < d -> a * d <= c * b -> a / b <= c / d.
Proof.
  intros a b c d B D H. apply (Rmult_le_reg_r (b * d)); [apply Rmult_lt_0_compat; assumption|].
  replace (a / b * (b * d)) with (a * d) by (field; lra). replace (c / d * (b * d)) with (c * b) by (field; lra). exact H.
Qed.
Lemma frac_lt : forall a b c d, 0 < b -> 0 < d -> a * d < c * b -> a / b < c / d.
Proof.
  intros a b c d B D H. apply (Rmult_lt_reg_r (b * d)); [apply Rmult_lt_0_compat; assumption|].
  replace (a / b * (b * d)) with (a * d) by (field; lra). replace (c / d * (b * d)) with (c * b) by (field; lra). exact H.
Qed.
Lemma G_e_lt : forall K e e' u, 0 <= K -> 0 < e < e' -> 0 < u -> G K e u < G K e' u.
Proof.
  intros K e e' u HK [H1 H2] Hu. assert (P : 0 <= K * u) by (apply Rmult_le_pos; lra). unfold G. apply frac_lt; [lra|lra|].
  replace (u * e^2 * (e' + K * u)) with (u * (e * e * e' + e * e * (K * u))) by ring.
  replace (u * e'^2 * (e + K * u)) with (u * (e * e' * e' + e' * e' * (K * u))) by ring. apply Rmult_lt_compat_l; [exact Hu|].
  assert (A : e * e * e' < e * e' * e'). { replace (e * e * e') with (e * e' * e) by ring. apply Rmult_lt_compat_l; [apply Rmult_lt_0_compat; lra|exact H2]. }
  assert (B : e * e * (K * u) <= e' * e' * (K * u)) by (apply Rmult_le_compat_r; [exact P|apply Rmult_le_compat; lra]). lra.
Qed.
Lemma G_u_lt : forall K e u u', 0 <= K -> 0 < e -> 0 < u < u' -> G K e u < G K e u'.
Proof.
  intros K e u u' HK He [H1 H2]. unfold G. assert (0 <= K * u) by (apply Rmult_le_pos; lra). assert (0 <= K * u') by (apply Rmult_le_pos; lra).
  apply frac_lt; [lra|lra|].
  replace (u * e^2 * (e + K * u')) with (e^2 * (u * e) + e^2 * (K * u * u')) by ring. replace (u' * e^2 * (e + K * u)) with (e^2 * (u' * e) + e^2 * (K * u * u')) by ring.
  apply Rplus_lt_compat_r. apply Rmult_lt_compat_l; [nra|]. apply Rmult_lt_compat_r; lra.
Qed.
Lemma G_stretch : forall K e u k, 0 <= K -> 0 < e -> 0 < u -> 1 <= k -> k * G K e u <= G K (k * e) u <= k^2 * G K e u.
Proof.
  intros K e u k HK He Hu Hk. assert (P : 0 <= K * u) by (apply Rmult_le_pos; lra). assert (0 < k * e) by (apply Rmult_lt_0_compat; lra).
  assert (Q : 0 < u * e^2) by (apply Rmult_lt_0_compat; nra). unfold G. split.
  - replace (k * (u * e^2 / (e + K * u))) with (k * (u * e^2) / (e + K * u)) by (field; lra). apply frac_le; [lra|lra|].
    replace (k * (u * e^2) * (k * e + K * u)) with ((k * (u * e^2)) * (k * e + 1 * (K * u))) by ring.
    replace (u * (k * e)^2 * (e + K * u)) with ((k * (u * e^2)) * (k * e + k * (K * u))) by ring.
    apply Rmult_le_compat_l; [nra|]. apply Rplus_le_compat_l. apply Rmult_le_compat_r; lra.
  - replace (k^2 * (u * e^2 / (e + K * u))) with (k^2 * (u * e^2) / (e + K * u)) by (field; lra). apply frac_le; [lra|lra|].
    replace (u * (k * e)^2 * (e + K * u)) with ((k^2 * (u * e^2)) * (1 * e + K * u)) by ring.
    apply Rmult_le_compat_l; [nra|]. apply Rplus_le_compat_r. apply Rmult_le_compat_r; lra.
Qed.
Lemma G_split : forall K e u n, 0 <= K -> 0 < e -> 0 < u -> 1 <= n -> n * G K (e / n) u <= G K e u.
Proof.
  intros K e u n HK He Hu Hn. assert (P : 0 <= K * u) by (apply Rmult_le_pos; lra). unfold G.
  assert (0 < e / n) by (apply Rdiv_lt_0_compat; lra).
  replace (n * (u * (e / n)^2 / (e / n + K * u))) with (u * e^2 / (e + n * (K * u))).
  - apply frac_le; [nra|lra|]. apply Rmult_le_compat_l; [left; apply Rmult_lt_0_compat; nra|].
    apply Rplus_le_compat_l. rewrite <- (Rmult_1_l (K * u)) at 1. apply Rmult_le_compat_r; lra.
  - field. assert (0 <= n * (K * u)) by (apply Rmult_le_pos; lra). repeat split; try lra.
Qed.

(** Depth of one exposure as that factor. *)
Lemma core_G : forall e X f s dark cm d k tau base, 0 < e -> 0 < base -> 0 < f -> 0 <= d ->
  let K := (np_power 10 (8 / 10 * d) - 1) * base in let u := np_power 10 (4 / 10 * (s - dark)) in
  0 <= K /\
  m5_scale e 1 X f s dark cm d k tau base =
    cm + d + 5 / 10 * (dark - 21) + 125 / 100 * (log10 (G K e u) - log10 30) + 25 / 10 * (log10 (7 / 10) - log10 f) - k * (X - 1) - 11 / 10 * tau.
Proof.
  intros e X f s dark cm d k tau base He Hb Hf Hd K u.
  assert (C : 1 <= np_power 10 (8 / 10 * d)). { rewrite <- (Rpower_O 10) at 1 by lra. apply pow10_mono. lra. }
  assert (HK : 0 <= K) by (unfold K; apply Rmult_le_pos; lra). split; [exact HK|].
  unfold m5_scale. cbn [Nat.ltb Nat.leb]. set (c := np_power 10 (8 / 10 * d)) in *.
  assert (Hu : 0 < u) by apply np_power_pos.
  assert (U : np_power 10 (- (4 / 10) * (s - dark)) = / u).
  { unfold u, np_power. rewrite <- Rpower_Ropp. f_equal. ring. }
  rewrite U. assert (LU : log10 u = 4 / 10 * (s - dark)) by (unfold u; apply log10_pow).
  replace (1 + (c - 1) / (e / base * / u)) with ((e + K * u) / e) by (unfold K; field; lra).
  assert (P : 0 < e + K * u). { assert (0 <= K * u) by (apply Rmult_le_pos; lra). lra. }
  rewrite !log10_div by lra. unfold G. rewrite log10_div; [|apply Rmult_lt_0_compat; nra|exact P].
  replace (u * e^2) with (u * (e * e)) by ring. rewrite log10_mult; [|exact Hu|nra]. rewrite log10_mult by assumption.
  replace (50 / 100 * (s - 21)) with (5 / 10 * (dark - 21) + 125 / 100 * log10 u) by (rewrite LU; clear; lra). clearbody u K. lra.
Qed.
Lemma scale_n : forall n e X f s dark cm d k tau base, (1 <= n)%nat ->
  m5_scale e n X f s dark cm d k tau base = m5_scale e 1 X f s dark cm d k tau base + 125 / 100 * log10 (INR n).
Proof.
  intros n e X f s dark cm d k tau base Hn. unfold m5_scale. change (Nat.ltb 1 1) with false. cbv iota. set (m := cm + _ + _ + _ + _ - _ - _). clearbody m. destruct (Nat.ltb 1 n) eqn:E.
  - apply Nat.ltb_lt in E. rewrite log10_mult; [|apply lt_0_INR; lia|apply np_power_pos]. rewrite log10_pow. lra.
  - apply Nat.ltb_ge in E. assert (n = 1%nat) by lia. subst n. cbn [INR]. unfold log10. rewrite ln_1. field. pose proof ln10_pos. lra.
Qed.
Lemma flat_scale : forall band v s f e X n tau, sev band = Some v ->
  m5_flat_sed band s f e X n tau = Ok (m5_scale e n X f s (b_sky v) (b_cm v) (b_dcm v) (b_k v) tau sev_exptime).
Proof. intros band v s f e X n tau H. unfold m5_flat_sed. rewrite H. reflexivity. Qed.
Lemma sev_good : forall band v, sev band = Some v -> 0 < b_dcm v /\ 0 < b_k v /\ 0 < b_wave v.
Proof.
  intros band v. unfold sev. repeat (destruct (String.eqb _ _); [intros H; inversion H; subst; cbn; repeat split; lra|]). discriminate.
Qed.

(** All the ways to lose depth, together. *)
Lemma m5_mono : forall v e e' n n' X X' f f' s s' tau tau', 0 < b_dcm v -> 0 < b_k v ->
  0 < e <= e' -> (1 <= n <= n')%nat -> X' <= X -> 0 < f' <= f -> s <= s' -> tau' <= tau ->
  let D := m5_scale e n X f s (b_sky v) (b_cm v) (b_dcm v) (b_k v) tau sev_exptime in
  let D' := m5_scale e' n' X' f' s' (b_sky v) (b_cm v) (b_dcm v) (b_k v) tau' sev_exptime in
  D <= D' /\ (e < e' \/ (n < n')%nat \/ X' < X \/ f' < f \/ s < s' \/ tau' < tau -> D < D').
Proof.
  intros v e e' n n' X X' f f' s s' tau tau' Hd Hk [He1 He2] [Hn1 Hn2] HX [Hf1 Hf2] Hs Ht D D'. unfold D, D'.
  rewrite (scale_n n), (scale_n n') by lia.
  destruct (core_G e X f s (b_sky v) (b_cm v) (b_dcm v) (b_k v) tau sev_exptime) as [HK E]; [lra|unfold sev_exptime; lra|lra|lra|]. rewrite E. clear E.
  destruct (core_G e' X' f' s' (b_sky v) (b_cm v) (b_dcm v) (b_k v) tau' sev_exptime) as [_ E]; [lra|unfold sev_exptime; lra|lra|lra|]. rewrite E. clear E.
  set (K := (np_power 10 (8 / 10 * b_dcm v) - 1) * sev_exptime) in *. set (u := np_power 10 (4 / 10 * (s - b_sky v))). set (u' := np_power 10 (4 / 10 * (s' - b_sky v))).
  assert (Hu : 0 < u) by apply np_power_pos. assert (Hu' : 0 < u') by apply np_power_pos.
  assert (Uu : u <= u') by (apply pow10_mono; lra).
  assert (G1 : log10 (G K e u) <= log10 (G K e' u) /\ (e < e' -> log10 (G K e u) < log10 (G K e' u))).
  { destruct He2 as [L|L]; [|subst; split; [right; reflexivity|lra]]. pose proof (log10_lt _ _ (G_pos K e u HK He1 Hu) (G_e_lt K e e' u HK ltac:(lra) Hu)). split; [lra|auto]. }
  assert (G2 : log10 (G K e' u) <= log10 (G K e' u') /\ (s < s' -> log10 (G K e' u) < log10 (G K e' u'))).
  { assert (P : 0 < e') by lra. split; [apply log10_le; [apply G_pos; assumption|]; destruct Uu as [L|L]; [left; apply G_u_lt; lra|rewrite L; right; reflexivity]|].
    intros L. apply log10_lt; [apply G_pos; assumption|]. apply G_u_lt; [assumption|assumption|]. split; [assumption|]. apply pow10_lt. lra. }
  assert (F : log10 f' <= log10 f /\ (f' < f -> log10 f' < log10 f)) by (split; [apply log10_le; lra|intros; apply log10_lt; lra]).
  assert (N : log10 (INR n) <= log10 (INR n') /\ ((n < n')%nat -> log10 (INR n) < log10 (INR n'))).
  { assert (0 < INR n) by (apply lt_0_INR; lia). split; [apply log10_le; [assumption|apply le_INR; lia]|intros L; apply log10_lt; [assumption|apply lt_INR; lia]]. }
  assert (Xk : b_k v * (X' - 1) <= b_k v * (X - 1) /\ (X' < X -> b_k v * (X' - 1) < b_k v * (X - 1))).
  { split; [apply Rmult_le_compat_l; lra|intros; apply Rmult_lt_compat_l; lra]. }
  destruct G1 as [G1 G1'], G2 as [G2 G2'], F as [F F'], N as [N N'], Xk as [Xk Xk'].
  set (lg1 := log10 (G K e u)) in *. set (lg2 := log10 (G K e' u)) in *. set (lg3 := log10 (G K e' u')) in *. set (lf := log10 f) in *. set (lf' := log10 f') in *.
  set (ln := log10 (INR n)) in *. set (ln' := log10 (INR n')) in *. set (kx := b_k v * (X - 1)) in *. set (kx' := b_k v * (X' - 1)) in *.
  clearbody lg1 lg2 lg3 lf lf' ln ln' kx kx'. clear D D'. split; [lra|].
  intros [H|[H|[H|[H|[H|H]]]]]; [specialize (G1' H)|specialize (N' H)|specialize (Xk' H)|specialize (F' H)|specialize (G2' H)|]; lra.
Qed.
