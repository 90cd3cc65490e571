(** C91: delivered seeing and depth follow the conditions. *)
From Coq Require Import List String Reals Lra Lia.
From Verif Require Import Base Seeing Seeing_proofs.
Import ListNotations.
Open Scope R_scope.

(** Good settings: positive wavelengths, some contribution of the system. *)
Definition good_model (m : smodel) : Prop := 0 < sm_raw m /\ (forall w, In w (sm_waves m) -> 0 < w) /\ 0 < (sm_tel m)^2 + (sm_opt m)^2 + (sm_cam m)^2.
Lemma sys_sq : forall m, (system_zenith m)^2 = (sm_tel m)^2 + (sm_opt m)^2 + (sm_cam m)^2.
Proof. intros m. unfold system_zenith. rewrite <- Rsqr_pow2. apply Rsqr_sqrt. nra. Qed.
Lemma sys_pos : forall m, good_model m -> 0 < system_zenith m.
Proof. intros m (_ & _ & H). unfold system_zenith. apply sqrt_lt_R0. exact H. Qed.

(** The value of a band is the positive root of the quadrature law, and the two
    sizes convert into each other. *)
Theorem C91_seeing_law : forall m fz x i w, good_model m -> 0 < x -> 0 <= fz -> nth_error (sm_waves m) i = Some w ->
  exists e g, nth_error (fst (call_scalar m fz x)) i = Some e /\ nth_error (snd (call_scalar m fz x)) i = Some g /\ 0 < e /\
    e^2 = (116 / 100)^2 * Rpower x (12 / 10) * ((sm_tel m)^2 + (sm_opt m)^2 + (sm_cam m)^2 + 104 / 100 * fz^2 * Rpower (sm_raw m / w) (6 / 10)) /\
    geom_to_eff g = e /\ eff_to_geom e = g /\ 822 * e + 52 = 1000 * g.
Proof.
  intros m fz x i w Hm Hx Hf Hw. pose proof (sys_pos m Hm) as Sp. pose proof (scalar_nth m fz x i) as E. rewrite Hw in E. cbn [option_map] in E.
  exists (eff_at m w fz x), (eff_to_geom (eff_at m w fz x)). split; [exact E|]. split.
  - unfold call_scalar in *. cbn [fst snd] in *. rewrite nth_error_map, E. reflexivity.
  - split; [|split; [|split; [|split]]].
    + rewrite eff_scale. apply Rmult_lt_0_compat; [apply np_power_pos|]. apply combine_pos. left. exact Sp.
    + rewrite eff_scale. unfold combine_fwhm. rewrite !Rpow_mult_distr. rewrite <- (Rsqr_pow2 (sqrt _)), Rsqr_sqrt; [|nra].
      rewrite !np_power_sq, sys_sq. replace (6 / 10 + 6 / 10) with (12 / 10) by lra.
      replace (3 / 10 + 3 / 10) with (6 / 10) by lra. unfold np_power. ring.
    + unfold geom_to_eff, eff_to_geom. field.
    + reflexivity.
    + unfold eff_to_geom. field.
Qed.
Print Assumptions C91_seeing_law.
Definition sm_r : smodel := mkSM ["r"%string; "y"%string] [622; 975] (25 / 100) (8 / 100) (30 / 100) 500.
Example C91_seeing_law_ex : good_model sm_r /\ call_scalar (mkSM ["b"%string] [500] (3 / 10) 0 (4 / 10) 500) 0 1 = ([58 / 100], [52876 / 100000]).
Proof.
  split.
  - split; [cbn; lra|]. split; [|cbn; lra]. intros w [H|[H|[]]]; subst; lra.
  - unfold call_scalar, combine_fwhm, system_zenith. cbn [sm_tel sm_opt sm_cam sm_waves sm_raw map]. rewrite np_power_1.
    replace ((3 / 10)^2 + 0^2 + (4 / 10)^2) with ((1 / 2)^2) by lra. rewrite sqrt_pow2 by lra.
    replace ((1 / 2 * 1)^2 + 104 / 100 * (0 * np_power (500 / 500) (3 / 10) * 1)^2) with ((1 / 2)^2) by (field_simplify; lra).
    rewrite sqrt_pow2 by lra. unfold eff_to_geom. f_equal; f_equal; lra.
Qed.

(** Worse at higher airmass and with worse seeing; scaling with airmass^0.6. *)
Theorem C91_seeing_worse : forall m fz fz' x x' i e e', good_model m -> 0 < x <= x' -> 0 <= fz <= fz' ->
  nth_error (fst (call_scalar m fz x)) i = Some e -> nth_error (fst (call_scalar m fz' x')) i = Some e' ->
  e <= e' /\ (x < x' \/ fz < fz' -> e < e') /\ (fz = fz' -> e' = Rpower (x' / x) (6 / 10) * e).
Proof.
  intros m fz fz' x x' i e e' Hm [X1 X2] [F1 F2] E E'. pose proof (sys_pos m Hm) as Sp. rewrite scalar_nth in E, E'.
  destruct (nth_error (sm_waves m) i) as [w|]; [|discriminate]. cbn [option_map] in E, E'. inversion E; inversion E'; subst e e'. clear E E'.
  rewrite !eff_scale. set (q := np_power (sm_raw m / w) (3 / 10)). assert (Q : 0 < q) by apply np_power_pos.
  set (c := combine_fwhm (system_zenith m) (fz * q)). set (c' := combine_fwhm (system_zenith m) (fz' * q)).
  assert (C : 0 < c) by (apply combine_pos; left; exact Sp). assert (C' : 0 < c') by (apply combine_pos; left; exact Sp).
  assert (CC : c <= c' /\ (fz < fz' -> c < c')).
  { assert (L : fz < fz' -> c < c'). { intros L. apply combine_lt. split; [apply Rmult_le_pos; lra|apply Rmult_lt_compat_r; lra]. }
    split; [|exact L]. destruct F2 as [L'|L']; [left; auto|subst fz'; right; reflexivity]. }
  assert (P : 0 < np_power x (6 / 10)) by apply np_power_pos. assert (P' : 0 < np_power x' (6 / 10)) by apply np_power_pos.
  assert (PP : np_power x (6 / 10) <= np_power x' (6 / 10) /\ (x < x' -> np_power x (6 / 10) < np_power x' (6 / 10))).
  { split; [apply np_power_le; lra|intros; apply np_power_lt; lra]. }
  destruct CC as [CC CC'], PP as [PP PP']. split; [apply Rmult_le_compat; lra|]. split.
  - intros [L|L]; [specialize (PP' L)|specialize (CC' L)].
    + apply Rlt_le_trans with (np_power x' (6 / 10) * c); [apply Rmult_lt_compat_r; lra|apply Rmult_le_compat_l; lra].
    + apply Rlt_le_trans with (np_power x (6 / 10) * c'); [apply Rmult_lt_compat_l; lra|apply Rmult_le_compat_r; lra].
  - intros Ez. subst fz'. fold c in c'. change c' with c. rewrite <- Rmult_assoc. f_equal. unfold np_power.
    rewrite Rpower_mult_distr; [|apply Rdiv_lt_0_compat; lra|lra]. f_equal. field. lra.
Qed.
Print Assumptions C91_seeing_worse.

(** Better in redder bands, though by less than the 0.3 power of the wavelength. *)
Theorem C91_wavelength : forall m fz x i j w w' e e', good_model m -> 0 < x -> 0 < fz ->
  nth_error (sm_waves m) i = Some w -> nth_error (sm_waves m) j = Some w' -> w < w' ->
  nth_error (fst (call_scalar m fz x)) i = Some e -> nth_error (fst (call_scalar m fz x)) j = Some e' ->
  e' < e /\ e < Rpower (w' / w) (3 / 10) * e'.
Proof.
  intros m fz x i j w w' e e' Hm Hx Hf Hw Hw' L E E'. pose proof (sys_pos m Hm) as Sp. destruct Hm as (Hr & Hp & _).
  pose proof (Hp w (nth_error_In _ _ Hw)) as W. pose proof (Hp w' (nth_error_In _ _ Hw')) as W'.
  rewrite scalar_nth, Hw in E. rewrite scalar_nth, Hw' in E'. cbn [option_map] in E, E'. inversion E; inversion E'; subst e e'. clear E E'.
  rewrite !eff_scale. assert (P : 0 < np_power x (6 / 10)) by apply np_power_pos.
  set (q := np_power (sm_raw m / w) (3 / 10)). set (q' := np_power (sm_raw m / w') (3 / 10)).
  assert (Q' : 0 < q') by apply np_power_pos. assert (R1 : 0 < sm_raw m / w') by (apply Rdiv_lt_0_compat; lra).
  assert (QQ : q' < q). { apply np_power_lt; [lra|]. split; [exact R1|]. unfold Rdiv. apply Rmult_lt_compat_l; [lra|]. apply Rinv_lt_contravar; [apply Rmult_lt_0_compat; lra|exact L]. }
  set (r := Rpower (w' / w) (3 / 10)). assert (Er : q = r * q').
  { unfold q, r, q', np_power. rewrite Rpower_mult_distr; [|apply Rdiv_lt_0_compat; lra|exact R1]. f_equal. field. lra. }
  assert (R0 : 1 < r). { apply (Rmult_lt_reg_r q'); [exact Q'|]. rewrite <- Er. lra. }
  split.
  - apply Rmult_lt_compat_l; [exact P|]. apply combine_lt. split; [apply Rmult_le_pos; lra|apply Rmult_lt_compat_l; lra].
  - rewrite <- Rmult_assoc, (Rmult_comm r), Rmult_assoc. apply Rmult_lt_compat_l; [exact P|]. rewrite Er. clearbody r q'. clear Er QQ q.
    rewrite <- (combine_scale _ _ r) by lra. unfold combine_fwhm. apply Rmult_lt_compat_l; [lra|]. replace (fz * q' * r) with (fz * (r * q')) by ring.
    assert (0 <= (fz * (r * q'))^2) by apply pow2_ge_0. assert ((system_zenith m)^2 < (system_zenith m * r)^2).
    { rewrite Rpow_mult_distr. rewrite <- (Rmult_1_r ((system_zenith m)^2)) at 1. apply Rmult_lt_compat_l; nra. }
    apply sqrt_lt_1; nra.
Qed.
Print Assumptions C91_wavelength.

(** The array call is the scalar call at every airmass: a row per band, a column
    per airmass. *)
Lemma outer_nth : forall u v i a, nth_error u i = Some a -> nth_error (outer u v) i = Some (map (fun b => a * b) v).
Proof. intros u v i a H. unfold outer. rewrite nth_error_map, H. reflexivity. Qed.
Lemma combine_nth_error : forall A B (a : list A) (b : list B) i, nth_error (List.combine a b) i =
  match nth_error a i, nth_error b i with Some x, Some y => Some (x, y) | _, _ => None end.
Proof. intros A B. induction a as [|x a IH]; intros [|y b] [|i]; cbn; try reflexivity; try (destruct (nth_error a i); reflexivity). apply IH. Qed.
Lemma array_row : forall m fz xs i w, nth_error (sm_waves m) i = Some w ->
  nth_error (fst (call_array m fz xs)) i = Some (map (fun x => eff_at m w fz x) xs).
Proof.
  intros m fz xs i w H. unfold call_array, zip2. cbn [fst]. rewrite nth_error_map, combine_nth_error, !nth_error_map.
  rewrite (outer_nth _ _ i 1) by (rewrite !nth_error_map, H; reflexivity).
  rewrite (outer_nth _ _ i (np_power (sm_raw m / w) (3 / 10))) by (rewrite nth_error_map, H; reflexivity).
  cbn [option_map fst snd]. f_equal. induction xs as [|x xs IH]; [reflexivity|]. cbn. rewrite IH. f_equal. unfold eff_at. rewrite Rmult_1_l, Rmult_assoc. reflexivity.
Qed.
Lemma array_rows : forall m fz xs, List.length (fst (call_array m fz xs)) = List.length (sm_waves m).
Proof. intros. unfold call_array, zip2, outer. cbn [fst]. rewrite map_length, combine_length, !map_length. apply Nat.min_id. Qed.
Theorem C91_array : forall m fz xs, let a := call_array m fz xs in
  List.length (fst a) = List.length (sm_waves m) /\ List.length (snd a) = List.length (sm_waves m) /\
  (forall i w, nth_error (sm_waves m) i = Some w -> exists r g, nth_error (fst a) i = Some r /\ nth_error (snd a) i = Some g /\
     List.length r = List.length xs /\ List.length g = List.length xs /\
     forall j x, nth_error xs j = Some x ->
       nth_error r j = nth_error (fst (call_scalar m fz x)) i /\ nth_error g j = nth_error (snd (call_scalar m fz x)) i /\ nth_error r j <> None).
Proof.
  intros m fz xs a. unfold a. split; [apply array_rows|]. split.
  { unfold call_array. cbn [snd]. rewrite map_length. apply (array_rows m fz xs). }
  intros i w H. exists (map (fun x => eff_at m w fz x) xs), (map eff_to_geom (map (fun x => eff_at m w fz x) xs)).
  split; [apply array_row; exact H|]. split.
  - pose proof (array_row m fz xs i w H) as A. unfold call_array in *. cbn [fst snd] in *. rewrite nth_error_map, A. reflexivity.
  - split; [apply map_length|]. split; [rewrite !map_length; reflexivity|]. intros j x Hx.
    pose proof (scalar_nth m fz x i) as E. rewrite H in E. cbn [option_map] in E.
    rewrite !nth_error_map, Hx. cbn [option_map]. rewrite E. split; [reflexivity|]. split; [|discriminate].
    unfold call_scalar in *. cbn [fst snd] in *. rewrite nth_error_map, E. reflexivity.
Qed.
Print Assumptions C91_array.
Example C91_array_ex : List.length (fst (call_array sm_r 1 [1; 2; 3])) = 2%nat.
Proof. reflexivity. Qed.

(** ** Depth *)
(** The shipped bands, and no others, have a depth. *)
Theorem C91_bands : forall band s f e x n t,
  (In band ["u"; "g"; "r"; "i"; "z"; "y"]%string -> exists d, m5_flat_sed band s f e x n t = Ok d) /\
  (~ In band ["u"; "g"; "r"; "i"; "z"; "y"]%string -> m5_flat_sed band s f e x n t = Raise KeyError).
Proof.
  intros band s f e x n t. unfold m5_flat_sed, sev.
  repeat match goal with |- context [String.eqb band ?c] => destruct (String.eqb_spec band c);
    [split; [intros _; eexists; reflexivity|intros N; exfalso; apply N; subst; cbn; tauto]|] end.
  split; [|reflexivity]. intros H. cbn in H. exfalso. intuition congruence.
Qed.
Print Assumptions C91_bands.

(** Deeper with a darker sky, sharper images, longer or more exposures, lower
    airmass and less cloud; strictly when one of these is better. *)
Theorem C91_depth_better : forall band s s' f f' e e' x x' n n' t t' d d',
  s <= s' -> 0 < f' <= f -> 0 < e <= e' -> x' <= x -> (1 <= n <= n')%nat -> t' <= t ->
  m5_flat_sed band s f e x n t = Ok d -> m5_flat_sed band s' f' e' x' n' t' = Ok d' ->
  d <= d' /\ (s < s' \/ f' < f \/ e < e' \/ x' < x \/ (n < n')%nat \/ t' < t -> d < d').
Proof.
  intros band s s' f f' e e' x x' n n' t t' d d' Hs Hf He Hx Hn Ht E E'. destruct (sev band) as [v|] eqn:V; [|unfold m5_flat_sed in E; rewrite V in E; discriminate].
  rewrite (flat_scale _ v) in E, E' by exact V. inversion E; inversion E'; subst d d'. destruct (sev_good _ _ V) as (D & K & _).
  destruct (m5_mono v e e' n n' x x' f f' s s' t t' D K He Hn Hx Hf Hs Ht) as [A B]. split; [exact A|]. intros H. apply B. tauto.
Qed.
Print Assumptions C91_depth_better.
Example C91_depth_better_ex : exists d d', m5_flat_sed "r" 20 1 30 2 1 0 = Ok d /\ m5_flat_sed "r" 21 (8 / 10) 30 1 2 0 = Ok d' /\ d < d'.
Proof.
  destruct (proj1 (C91_bands "r" 20 1 30 2 1 0)) as [d E]; [cbn; tauto|]. destruct (proj1 (C91_bands "r" 21 (8 / 10) 30 1 2 0)) as [d' E']; [cbn; tauto|].
  exists d, d'. split; [exact E|]. split; [exact E'|]. destruct (C91_depth_better "r" 20 21 1 (8 / 10) 30 30 2 1 1 2 0 0 d d') as [_ L]; try lra; try lia; try assumption.
Qed.

(** At the reference conditions: exactly the tabulated value. *)
Theorem C91_reference : forall band v, sev band = Some v -> m5_flat_sed band (b_sky v) (7 / 10) 30 1 1 0 = Ok (b_cm v + 1 / 2 * (b_sky v - 21)).
Proof.
  intros band v V. rewrite (flat_scale _ v) by exact V. f_equal. unfold m5_scale. change (Nat.ltb 1 1) with false. cbv iota. unfold sev_exptime.
  replace (30 / 30) with 1 by lra. replace (- (4 / 10) * (b_sky v - b_sky v)) with 0 by lra.
  replace (np_power 10 0) with 1 by (unfold np_power; rewrite Rpower_O by lra; reflexivity).
  replace (1 + (np_power 10 (8 / 10 * b_dcm v) - 1) / (1 * 1)) with (np_power 10 (8 / 10 * b_dcm v)) by lra. rewrite log10_pow.
  replace (7 / 10 / (7 / 10)) with 1 by lra. replace (log10 1) with 0 by (unfold log10; rewrite ln_1; unfold Rdiv; ring). lra.
Qed.
Print Assumptions C91_reference.
Example C91_reference_ex : m5_flat_sed "r" (21197579 / 1000000) (7 / 10) 30 1 1 0 = Ok (24602134 / 1000000 + 1 / 2 * (21197579 / 1000000 - 21)).
Proof. apply (C91_reference "r" _ eq_refl). Qed.

(** [n] exposures gain 1.25 log10 n over one of the same length. *)
Theorem C91_exposures : forall band s f e x n t d, (1 <= n)%nat -> m5_flat_sed band s f e x 1 t = Ok d ->
  m5_flat_sed band s f e x n t = Ok (d + 5 / 4 * (ln (INR n) / ln 10)).
Proof.
  intros band s f e x n t d Hn E. destruct (sev band) as [v|] eqn:V; [|unfold m5_flat_sed in E; rewrite V in E; discriminate].
  rewrite (flat_scale _ v) in E |- * by exact V. inversion E; subst d. f_equal. rewrite scale_n by exact Hn. unfold log10. lra.
Qed.
Print Assumptions C91_exposures.

(** Time multiplied by [k] gains between 1.25 log10 k and twice that; the same
    time in [n] exposures is never deeper. *)
Theorem C91_time : forall band s f e x t k d d', 0 < f -> 0 < e -> 1 <= k ->
  m5_flat_sed band s f e x 1 t = Ok d -> m5_flat_sed band s f (k * e) x 1 t = Ok d' ->
  5 / 4 * (ln k / ln 10) <= d' - d <= 5 / 2 * (ln k / ln 10).
Proof.
  intros band s f e x t k d d' Hf He Hk E E'. destruct (sev band) as [v|] eqn:V; [|unfold m5_flat_sed in E; rewrite V in E; discriminate].
  rewrite (flat_scale _ v) in E, E' by exact V. inversion E; inversion E'; subst d d'. clear E E'. destruct (sev_good _ _ V) as (D & _ & _).
  assert (0 < k * e) by (apply Rmult_lt_0_compat; lra).
  destruct (core_G e x f s (b_sky v) (b_cm v) (b_dcm v) (b_k v) t sev_exptime) as [HK E]; [lra|unfold sev_exptime; lra|lra|lra|]. rewrite E. clear E.
  destruct (core_G (k * e) x f s (b_sky v) (b_cm v) (b_dcm v) (b_k v) t sev_exptime) as [_ E]; [lra|unfold sev_exptime; lra|lra|lra|]. rewrite E. clear E.
  set (K := (np_power 10 (8 / 10 * b_dcm v) - 1) * sev_exptime) in *. set (u := np_power 10 (4 / 10 * (s - b_sky v))).
  assert (Hu : 0 < u) by apply np_power_pos. destruct (G_stretch K e u k HK He Hu Hk) as [A B]. pose proof (G_pos K e u HK He Hu) as P.
  assert (A' : log10 k + log10 (G K e u) <= log10 (G K (k * e) u)). { rewrite <- log10_mult by lra. apply log10_le; [apply Rmult_lt_0_compat; lra|exact A]. }
  assert (B' : log10 (G K (k * e) u) <= log10 k + log10 k + log10 (G K e u)).
  { rewrite <- log10_mult by lra. rewrite <- log10_mult by nra. apply log10_le; [apply G_pos; assumption|]. replace (k * k) with (k^2) by ring. exact B. }
  fold (log10 k). lra.
Qed.
Print Assumptions C91_time.
Theorem C91_split : forall band s f e x t n d d', 0 < f -> 0 < e -> (1 <= n)%nat ->
  m5_flat_sed band s f (e / INR n) x n t = Ok d -> m5_flat_sed band s f e x 1 t = Ok d' -> d <= d'.
Proof.
  intros band s f e x t n d d' Hf He Hn E E'. destruct (sev band) as [v|] eqn:V; [|unfold m5_flat_sed in E; rewrite V in E; discriminate].
  rewrite (flat_scale _ v) in E, E' by exact V. inversion E; inversion E'; subst d d'. clear E E'. destruct (sev_good _ _ V) as (D & _ & _).
  rewrite scale_n by exact Hn. assert (N : 1 <= INR n) by (change 1 with (INR 1); apply le_INR; exact Hn).
  assert (Q : 0 < e / INR n) by (apply Rdiv_lt_0_compat; lra).
  destruct (core_G e x f s (b_sky v) (b_cm v) (b_dcm v) (b_k v) t sev_exptime) as [HK E]; [lra|unfold sev_exptime; lra|lra|lra|]. rewrite E. clear E.
  destruct (core_G (e / INR n) x f s (b_sky v) (b_cm v) (b_dcm v) (b_k v) t sev_exptime) as [_ E]; [lra|unfold sev_exptime; lra|lra|lra|]. rewrite E. clear E.
  set (K := (np_power 10 (8 / 10 * b_dcm v) - 1) * sev_exptime) in *. set (u := np_power 10 (4 / 10 * (s - b_sky v))).
  assert (Hu : 0 < u) by apply np_power_pos. pose proof (G_split K e u (INR n) HK He Hu N) as A. pose proof (G_pos K (e / INR n) u HK Q Hu) as P.
  assert (A' : log10 (INR n) + log10 (G K (e / INR n) u) <= log10 (G K e u)). { rewrite <- log10_mult by lra. apply log10_le; [apply Rmult_lt_0_compat; lra|exact A]. }
  lra.
Qed.
Print Assumptions C91_split.
Example C91_split_ex : exists d d', m5_flat_sed "u" 23 1 (30 / INR 2) 1 2 0 = Ok d /\ m5_flat_sed "u" 23 1 30 1 1 0 = Ok d' /\ d <= d'.
Proof.
  destruct (proj1 (C91_bands "u" 23 1 (30 / INR 2) 1 2 0)) as [d E]; [cbn; tauto|]. destruct (proj1 (C91_bands "u" 23 1 30 1 1 0)) as [d' E']; [cbn; tauto|].
  exists d, d'. split; [exact E|]. split; [exact E'|]. apply (C91_split "u" 23 1 30 1 0 2 d d'); try lra; try lia; assumption.
Qed.

(** [m5_scale] on the shipped values is the same depth when told their exposure
    time of 30 s; its default of 15 s gives another, deeper one. *)
Theorem C91_scale_agrees : forall band v s f e x n t, sev band = Some v ->
  m5_flat_sed band s f e x n t = Ok (m5_scale e n x f s (b_sky v) (b_cm v) (b_dcm v) (b_k v) t 30).
Proof. intros. apply flat_scale. assumption. Qed.
Print Assumptions C91_scale_agrees.
Lemma G_K_lt : forall K K' e u, 0 <= K < K' -> 0 < e -> 0 < u -> G K' e u < G K e u.
Proof.
  intros K K' e u [H1 H2] He Hu. unfold G. assert (0 <= K * u) by (apply Rmult_le_pos; lra). assert (K * u < K' * u) by (apply Rmult_lt_compat_r; lra).
  apply frac_lt; [lra|lra|]. apply Rmult_lt_compat_l; [apply Rmult_lt_0_compat; nra|lra].
Qed.
Theorem C91_scale_default_differs : forall band v s f e x t, sev band = Some v -> 0 < e -> 0 < f ->
  forall d, m5_flat_sed band s f e x 1 t = Ok d -> d < m5_scale e 1 x f s (b_sky v) (b_cm v) (b_dcm v) (b_k v) t 15.
Proof.
  intros band v s f e x t V He Hf d E. rewrite (flat_scale _ v) in E by exact V. inversion E; subst d. clear E. destruct (sev_good _ _ V) as (D & _ & _).
  destruct (core_G e x f s (b_sky v) (b_cm v) (b_dcm v) (b_k v) t sev_exptime) as [HK E]; [lra|unfold sev_exptime; lra|lra|lra|]. rewrite E. clear E.
  destruct (core_G e x f s (b_sky v) (b_cm v) (b_dcm v) (b_k v) t 15) as [HK' E]; [lra|lra|lra|lra|]. rewrite E. clear E.
  assert (C : 1 < np_power 10 (8 / 10 * b_dcm v)). { rewrite <- (Rpower_O 10) at 1 by lra. apply pow10_lt. lra. }
  pose proof (np_power_pos 10 (4 / 10 * (s - b_sky v))) as Hu. set (u := np_power 10 (4 / 10 * (s - b_sky v))) in *.
  set (c := np_power 10 (8 / 10 * b_dcm v)) in *. clearbody u c.
  pose proof (G_K_lt ((c - 1) * 15) ((c - 1) * sev_exptime) e u ltac:(unfold sev_exptime in *; lra) He Hu) as L.
  pose proof (log10_lt _ _ (G_pos _ _ _ HK He Hu) L). lra.
Qed.
Print Assumptions C91_scale_default_differs.

(** ** Depth on the sky *)
(** The altitude of a pixel from its declination and hour angle. *)
Definition at_alt (dec lat ha alt : R) : Prop := - (PI / 2) <= alt <= PI / 2 /\ sin alt = sin dec * sin lat + cos dec * cos lat * cos ha.
Definition on_sky (dec lat : R) : Prop := - (PI / 2) <= dec <= PI / 2 /\ - (PI / 2) <= lat <= PI / 2.

Lemma transit_best : forall dec lat ha alt, on_sky dec lat -> at_alt dec lat ha alt -> 0 < alt ->
  0 < sin alt <= cos (Rabs (dec - lat)).
Proof.
  intros dec lat ha alt [[D1 D2] [L1 L2]] [[A1 A2] A] P. split; [apply sin_gt_0; pose proof PI_RGT_0; lra|].
  assert (E : cos (Rabs (dec - lat)) = cos dec * cos lat + sin dec * sin lat).
  { rewrite <- cos_minus. unfold Rabs. destruct (Rcase_abs (dec - lat)); [apply cos_neg|reflexivity]. }
  rewrite E, A. pose proof (cos_ge_0 dec ltac:(lra) ltac:(lra)). pose proof (cos_ge_0 lat ltac:(lra) ltac:(lra)). pose proof (COS_bound ha) as [_ C].
  assert (0 <= cos dec * cos lat) by (apply Rmult_le_pos; assumption).
  assert (cos dec * cos lat * cos ha <= cos dec * cos lat * 1) by (apply Rmult_le_compat_l; assumption). lra.
Qed.
Lemma airmass_sin : forall alt, pixel_airmass alt = 1 / sin alt.
Proof. intros alt. unfold pixel_airmass. rewrite cos_shift. reflexivity. Qed.
Lemma default_one : forall band v, sev band = Some v -> default_model [band] = Ok (mkSM [band] [b_wave v] (25 / 100) (8 / 100) (30 / 100) 500).
Proof. intros band v V. unfold default_model, sev_waves. rewrite V. reflexivity. Qed.
Lemma default_good : forall band v, sev band = Some v -> good_model (mkSM [band] [b_wave v] (25 / 100) (8 / 100) (30 / 100) 500).
Proof.
  intros band v V. destruct (sev_good _ _ V) as (_ & _ & W). split; [cbn; lra|]. split; [|cbn; lra]. intros w [H|[]]. subst. exact W.
Qed.

(** The reward for depth is never above zero while sky, seeing and clouds are no
    better than the fiducial ones, wherever the pixel is; it is zero on the
    meridian in fiducial conditions. *)
Theorem C91_reward : forall band v ds sky dec lat ha alt fid fwhm ext, sev band = Some v -> on_sky dec lat -> at_alt dec lat ha alt -> 0 < alt ->
  sky <= ds -> 0 < fid <= fwhm -> (forall x, ext = Some x -> 0 <= x) ->
  exists depth dark r, pixel_depth band sky fwhm 30 alt = Ok depth /\ dark_m5 ds dec band lat fid 30 1 = Ok (Some dark) /\
    m5diff depth (Some dark) ext = Some r /\ r <= 0 /\
    (cos ha = 1 -> sky = ds -> fwhm = fid -> ext = None -> r = 0) /\
    (cos ha < 1 -> 0 < cos dec -> 0 < cos lat -> r < 0).
Proof.
  intros band v ds sky dec lat ha alt fid fwhm ext V Sky Alt Pos Hs [F1 F2] Hx.
  destruct (transit_best _ _ _ _ Sky Alt Pos) as [S1 S2]. set (am := 1 / cos (Rabs (dec - lat))). set (ap := 1 / sin alt).
  assert (A0 : 0 < am) by (apply Rdiv_lt_0_compat; lra).
  assert (AA : am <= ap). { unfold am, ap. apply frac_le; lra. }
  unfold pixel_depth, dark_m5. rewrite (default_one _ _ V), airmass_sin. fold am ap. cbn [bind]. set (m := mkSM [band] [b_wave v] (25 / 100) (8 / 100) (30 / 100) 500).
  destruct (Rlt_dec am 0) as [C|_]; [lra|].
  pose proof (scalar_nth m fwhm ap 0) as Ep. pose proof (scalar_nth m fid am 0) as Em. cbn [sm_waves m nth_error option_map] in Ep, Em.
  destruct (C91_seeing_worse m fid fwhm am ap 0 _ _ (default_good _ _ V) ltac:(lra) ltac:(lra) Em Ep) as (W & Wx & _).
  assert (Pe : 0 < eff_at m (b_wave v) fid am). { rewrite eff_scale. apply Rmult_lt_0_compat; [apply np_power_pos|]. apply combine_pos. left. apply sys_pos, (default_good _ _ V). }
  destruct (fst (call_scalar m fwhm ap)) as [|ep rp] eqn:Lp; [discriminate|]. destruct (fst (call_scalar m fid am)) as [|em rm] eqn:Lm; [discriminate|].
  cbn [nth_error] in Ep, Em. inversion Ep; inversion Em. subst ep em. clear Ep Em.
  rewrite !(flat_scale _ v) by exact V. cbn [bind]. eexists. eexists. eexists. split; [reflexivity|]. split; [reflexivity|]. split; [reflexivity|].
  destruct (sev_good _ _ V) as (D & K & _).
  destruct (m5_mono v 30 30 1 1 ap am (eff_at m (b_wave v) fwhm ap) (eff_at m (b_wave v) fid am) sky ds 0 0 D K) as [M M']; try lra; try lia.
  assert (X : forall x, ext = Some x -> 0 <= x) by exact Hx. split; [|split].
  - destruct ext as [x|]; [specialize (X x eq_refl)|]; lra.
  - intros C1 C2 C3 C4. subst ext sky fwhm. assert (Eq : ap = am).
    { unfold ap, am. f_equal. destruct Alt as [_ Al]. rewrite Al, C1. unfold Rabs. destruct (Rcase_abs (dec - lat)); rewrite ?cos_neg, cos_minus; ring. }
    rewrite Eq. lra.
  - intros C1 C2 C3. assert (Lt : am < ap).
    { unfold am, ap. apply frac_lt; [lra|lra|]. rewrite !Rmult_1_l. destruct Alt as [_ Al]. rewrite Al.
      assert (E : cos (Rabs (dec - lat)) = cos dec * cos lat + sin dec * sin lat). { rewrite <- cos_minus. unfold Rabs. destruct (Rcase_abs (dec - lat)); [apply cos_neg|reflexivity]. }
      rewrite E. assert (0 < cos dec * cos lat) by (apply Rmult_lt_0_compat; assumption).
      assert (cos dec * cos lat * cos ha < cos dec * cos lat * 1) by (apply Rmult_lt_compat_l; assumption). lra. }
    specialize (M' ltac:(right; right; left; exact Lt)). destruct ext as [x|]; [specialize (X x eq_refl)|]; lra.
Qed.
Print Assumptions C91_reward.
Example C91_reward_ex : on_sky (-1 / 2) (-1 / 2) /\ at_alt (-1 / 2) (-1 / 2) 0 (PI / 2) /\ 0 < PI / 2.
Proof.
  pose proof PI_RGT_0. pose proof PI2_1. unfold PI2 in *. split; [split; lra|]. split; [|lra]. split; [lra|]. rewrite sin_PI2, cos_0, Rmult_1_r.
  pose proof (sin2_cos2 (-1 / 2)) as E. unfold Rsqr in E. lra.
Qed.

(** The depth written to a visit is at most what the conditions promised for its
    pixel, and exactly that for one exposure without clouds; it falls with
    airmass. *)
Theorem C91_visit : forall band v sky fwhm e alt n ext, sev band = Some v -> 0 < e -> 0 < alt < PI -> 0 <= fwhm -> (1 <= n)%nat -> (forall x, ext = Some x -> 0 <= x) ->
  exists d p, visit_depth band sky fwhm e alt n ext = Ok d /\ pixel_depth band sky fwhm e alt = Ok p /\ d <= p /\
    (n = 1%nat -> ext = None -> d = p).
Proof.
  intros band v sky fwhm e alt n ext V He Ha Hf Hn Hx. unfold visit_depth, pixel_depth. rewrite (default_one _ _ V). cbn [bind].
  set (m := mkSM [band] [b_wave v] (25 / 100) (8 / 100) (30 / 100) 500). set (ap := pixel_airmass alt).
  pose proof (scalar_nth m fwhm ap 0) as Ep. cbn [sm_waves m nth_error option_map] in Ep.
  destruct (fst (call_scalar m fwhm ap)) as [|ep rp] eqn:Lp; [discriminate|]. cbn [nth_error] in Ep. inversion Ep. subst ep. clear Ep.
  set (f := eff_at m (b_wave v) fwhm ap). assert (Pf : 0 < f). { unfold f. rewrite eff_scale. apply Rmult_lt_0_compat; [apply np_power_pos|]. apply combine_pos. left. apply sys_pos, (default_good _ _ V). }
  assert (E1 : exists d, m5_flat_sed band sky f (e / INR n) ap n 0 = Ok d) by (eexists; apply (flat_scale _ v); exact V).
  assert (E2 : exists d, m5_flat_sed band sky f e ap 1 0 = Ok d) by (eexists; apply (flat_scale _ v); exact V).
  destruct E1 as [d E1], E2 as [p E2]. rewrite E1, E2. cbn [bind]. eexists. exists p. split; [reflexivity|]. split; [reflexivity|].
  pose proof (C91_split band sky f e ap 0 n d p Pf He Hn E1 E2) as L. split.
  - destruct ext as [x|]; [specialize (Hx x eq_refl)|]; lra.
  - intros N X. subst n ext. cbn [INR] in E1. unfold Rdiv in E1. rewrite Rinv_1, Rmult_1_r in E1. rewrite E1 in E2. inversion E2. reflexivity.
Qed.
Print Assumptions C91_visit.
Theorem C91_airmass : forall band v sky fwhm e alt alt' p p', sev band = Some v -> 0 < e -> 0 < alt < alt' -> alt' <= PI / 2 -> 0 <= fwhm ->
  pixel_depth band sky fwhm e alt = Ok p -> pixel_depth band sky fwhm e alt' = Ok p' -> p < p'.
Proof.
  intros band v sky fwhm e alt alt' p p' V He [A1 A2] A3 Hf E E'. unfold pixel_depth in *. rewrite (default_one _ _ V) in E, E'. cbn [bind] in E, E'. rewrite airmass_sin in E, E'.
  set (m := mkSM [band] [b_wave v] (25 / 100) (8 / 100) (30 / 100) 500) in *. set (x := 1 / sin alt) in *. set (x' := 1 / sin alt') in *.
  pose proof PI_RGT_0. assert (S1 : 0 < sin alt) by (apply sin_gt_0; lra). assert (S2 : sin alt < sin alt') by (apply sin_increasing_1; lra).
  assert (X0 : 0 < x') by (apply Rdiv_lt_0_compat; lra). assert (X : x' < x) by (apply frac_lt; lra).
  pose proof (scalar_nth m fwhm x 0) as Ep. pose proof (scalar_nth m fwhm x' 0) as Em. cbn [sm_waves m nth_error option_map] in Ep, Em.
  destruct (C91_seeing_worse m fwhm fwhm x' x 0 _ _ (default_good _ _ V) ltac:(lra) ltac:(lra) Em Ep) as (_ & W & _). specialize (W (or_introl X)).
  assert (Pe : 0 < eff_at m (b_wave v) fwhm x'). { rewrite eff_scale. apply Rmult_lt_0_compat; [apply np_power_pos|]. apply combine_pos. left. apply sys_pos, (default_good _ _ V). }
  destruct (fst (call_scalar m fwhm x)) as [|ep rp] eqn:Lp; [discriminate|]. destruct (fst (call_scalar m fwhm x')) as [|em rm] eqn:Lm; [discriminate|].
  cbn [nth_error] in Ep, Em. inversion Ep; inversion Em. subst ep em. clear Ep Em.
  destruct (C91_depth_better band sky sky _ _ e e _ _ 1 1 0 0 _ _ ltac:(lra) (conj Pe (Rlt_le _ _ W)) ltac:(lra) (Rlt_le _ _ X) ltac:(lia) ltac:(lra) E E') as [_ B].
  apply B. right. left. exact W.
Qed.
Print Assumptions C91_airmass.
