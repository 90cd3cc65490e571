(** C110: random places on the sphere and on patches of it. *)
From Coq Require Import List Bool Reals Lra Lia ZArith.
From Verif Require Import Base Sphere Sampling.
Import ListNotations.
Open Scope R_scope.

Lemma acos_le : forall w t, -1 <= w <= 1 -> 0 <= t <= PI -> (acos w <= t <-> cos t <= w).
Proof.
  intros w t W T. assert (B := acos_bound w). split; intros H.
  - rewrite <- (cos_acos w W). apply cos_decr_1; lra.
  - destruct (Rle_dec (acos w) t) as [L|L]; [exact L|]. assert (C : cos (acos w) < cos t) by (apply cos_decreasing_1; lra). rewrite cos_acos in C by exact W. lra.
Qed.
Lemma le_acos : forall w t, -1 <= w <= 1 -> 0 <= t <= PI -> (t <= acos w <-> w <= cos t).
Proof.
  intros w t W T. assert (B := acos_bound w). split; intros H.
  - rewrite <- (cos_acos w W). apply cos_decr_1; lra.
  - destruct (Rle_dec t (acos w)) as [L|L]; [exact L|]. assert (C : cos t < cos (acos w)) by (apply cos_decreasing_1; lra). rewrite cos_acos in C by exact W. lra.
Qed.
Lemma deg_le : forall a d, degrees a <= d <-> a <= radians d.
Proof.
  intros a d. assert (P := PI_RGT_0). unfold degrees, radians. assert (E : a = a * 180 / PI * PI / 180) by (field; lra). set (q := a * 180 / PI) in *. clearbody q. subst a. split; intros H.
  - unfold Rdiv. rewrite 2!(Rmult_assoc _ PI). apply Rmult_le_compat_r; [|exact H]. lra.
  - apply (Rmult_le_reg_r (PI / 180)); [lra|]. unfold Rdiv in *. lra.
Qed.
Lemma le_deg : forall a d, d <= degrees a <-> radians d <= a.
Proof.
  intros a d. assert (P := PI_RGT_0). unfold degrees, radians. assert (E : a = a * 180 / PI * PI / 180) by (field; lra). set (q := a * 180 / PI) in *. clearbody q. subst a. split; intros H.
  - unfold Rdiv. rewrite 2!(Rmult_assoc _ PI). apply Rmult_le_compat_r; [|exact H]. lra.
  - apply (Rmult_le_reg_r (PI / 180)); [lra|]. unfold Rdiv in *. lra.
Qed.
Lemma rad_le : forall a b, a <= b <-> radians a <= radians b.
Proof. intros a b. assert (P := PI_RGT_0). unfold radians. split; intros H; [unfold Rdiv; rewrite 2!(Rmult_assoc _ PI); apply Rmult_le_compat_r; lra|]. apply (Rmult_le_reg_r (PI / 180)); [lra|]. unfold Rdiv in *. lra. Qed.
Lemma rad_90 : radians 90 = PI / 2.
Proof. unfold radians. field. Qed.

Lemma draws : forall stream seed g n, exists g', uniform stream n (seed_rng seed g) = (map (stream seed) (seq 0 n), g') /\
  exists g'', uniform stream n g' = (map (fun k => stream seed (n + k)%nat) (seq 0 n), g'') /\ g'' = Rng seed (n + n).
Proof. intros. unfold uniform, seed_rng. cbn [r_seed r_drawn]. eexists. split; [reflexivity|]. cbn [r_seed r_drawn]. eexists. split; [reflexivity|reflexivity]. Qed.
Lemma paired : forall (f h : nat -> R) (F : R * R -> R * R) n k0 k, (k < n)%nat ->
  nth_error (map F (combine (map f (seq k0 n)) (map h (seq k0 n)))) k = Some (F (f (k0 + k)%nat, h (k0 + k)%nat)).
Proof.
  intros f h F n. induction n as [|n IH]; intros k0 k H; [lia|]. cbn [seq map combine]. destruct k as [|k]; cbn [nth_error]; [now rewrite Nat.add_0_r|]. rewrite IH by lia. now rewrite !Nat.add_succ_r.
Qed.
Lemma paired_length : forall (f h : nat -> R) (F : R * R -> R * R) n k0, List.length (map F (combine (map f (seq k0 n)) (map h (seq k0 n)))) = n.
Proof. intros. rewrite map_length, combine_length, !map_length, seq_length. lia. Qed.

(** numpy's numbers are in [0, 1). *)
Definition unit_stream (stream : Z -> nat -> R) : Prop := forall seed k, 0 <= stream seed k < 1.

(** uniform_sphere: as many points as asked for, all with right ascension in [0, 360) and declination
    in [-90, 90]; the right ascension is a number drawn times 360; and the declination is at most [d]
    exactly for the numbers drawn from [(1 - sin d) / 2] up - the share of the sphere's area below [d]. *)
Theorem C110_sphere : forall stream n seed g, unit_stream stream -> let l := fst (uniform_sphere stream n seed g) in
  List.length l = n /\ forall k, (k < n)%nat -> exists ra dec, nth_error l k = Some (ra, dec) /\ 0 <= ra < 360 /\ -90 <= dec <= 90 /\
  ra = 360 * stream seed k /\
  forall d, -90 <= d <= 90 -> (dec <= d <-> (1 - sin (radians d)) / 2 <= stream seed (n + k)%nat).
Proof.
  intros stream n seed g US. unfold uniform_sphere. destruct (draws stream seed g n) as (g1 & -> & g2 & -> & _). cbv zeta. cbn [fst]. split; [apply paired_length|].
  intros k K. rewrite paired by exact K. cbn [Nat.add fst snd]. unfold sphere_point. set (u := stream seed k). set (v := stream seed (n + k)%nat). assert (U : 0 <= u < 1) by apply US. assert (W : 0 <= v < 1) by apply US. assert (P := PI_RGT_0).
  assert (RA : degrees (2 * PI * u) = 360 * u) by (unfold degrees; field; lra). do 2 eexists. split; [reflexivity|]. split; [rewrite RA; lra|]. assert (B := acos_bound (2 * v - 1)).
  split; [|split; [exact RA|]].
  - assert (R1 : radians (-90) = - (PI / 2)) by (unfold radians; field). split; [apply le_deg; rewrite R1; lra|apply deg_le; rewrite rad_90; lra].
  - intros d D. assert (R1 : radians (-90) = - (PI / 2)) by (unfold radians; field). assert (RD : - (PI / 2) <= radians d <= PI / 2) by (rewrite <- R1, <- rad_90; split; apply (proj1 (rad_le _ _)); lra).
    rewrite deg_le. replace (acos (2 * v - 1) - PI / 2 <= radians d) with (acos (2 * v - 1) - PI / 2 <= radians d) by reflexivity. split; intros H.
    + assert (Q : acos (2 * v - 1) <= PI / 2 + radians d) by lra. apply acos_le in Q; [|lra|lra]. rewrite cos_plus, cos_PI2, sin_PI2 in Q. lra.
    + enough (Q : acos (2 * v - 1) <= PI / 2 + radians d) by lra. apply acos_le; [lra|lra|]. rewrite cos_plus, cos_PI2, sin_PI2. lra.
Qed.
Print Assumptions C110_sphere.

(** sample_patch_on_sphere raises exactly for a patch over a pole. *)
Theorem C110_pole : forall stream phi theta delta n seed g, 0 <= delta ->
  (exists l, fst (sample_patch_on_sphere stream phi theta delta n seed g) = Ok l) <-> -90 <= theta - delta /\ theta + delta <= 90.
Proof.
  intros stream phi theta delta n seed g D. unfold sample_patch_on_sphere. destruct (draws stream seed g n) as (g1 & -> & g2 & -> & _). cbv zeta. assert (P := PI_RGT_0).
  assert (A : PI / 2 - radians theta + radians delta <= PI <-> -90 <= theta - delta) by (rewrite (rad_le (-90)); unfold radians; split; intros; lra).
  assert (B : 0 <= PI / 2 - radians theta - radians delta <-> theta + delta <= 90) by (rewrite (rad_le (theta + delta)); unfold radians; split; intros; lra).
  destruct (Rlt_dec PI _) as [L|L]; [|destruct (Rlt_dec _ 0) as [M|M]]; cbn [fst].
  - split; [intros (l & E); discriminate|]. intros (Q & _). apply A in Q. lra.
  - split; [intros (l & E); discriminate|]. intros (_ & Q). apply B in Q. lra.
  - split; [|intros; eexists; reflexivity]. intros _. split; [apply A; lra|apply B; lra].
Qed.
Print Assumptions C110_pole.

(** Every point is on the patch, and declinations follow its area: the declination is at most [d]
    exactly for the numbers from the share of the patch above [d] up. *)
Theorem C110_patch : forall stream phi theta delta n seed g, unit_stream stream -> 0 < delta -> -90 <= theta - delta -> theta + delta <= 90 ->
  exists l, fst (sample_patch_on_sphere stream phi theta delta n seed g) = Ok l /\ List.length l = n /\
  forall k, (k < n)%nat -> exists ra dec, nth_error l k = Some (ra, dec) /\
  theta - delta <= dec <= theta + delta /\
  (exists turn, (turn = 0 \/ turn = 360) /\ ra = phi + (2 * stream seed k - 1) * delta + turn /\ (turn = 360 <-> phi + (2 * stream seed k - 1) * delta < 0)) /\
  (forall d, theta - delta <= d <= theta + delta ->
     (dec <= d <-> (sin (radians (theta + delta)) - sin (radians d)) / (sin (radians (theta + delta)) - sin (radians (theta - delta))) <= stream seed (n + k)%nat)).
Proof.
  intros stream phi theta delta n seed g US D LO HI. assert (OK := proj2 (C110_pole stream phi theta delta n seed g ltac:(lra)) (conj LO HI)). destruct OK as (l & OK). exists l. split; [exact OK|].
  unfold sample_patch_on_sphere in OK. destruct (draws stream seed g n) as (g1 & E1 & g2 & E2 & _). rewrite E1, E2 in OK. cbv zeta in OK.
  destruct (Rlt_dec PI _) as [L|L]; [discriminate|]. destruct (Rlt_dec _ 0) as [M|M]; [discriminate|]. injection OK as <-. split; [apply paired_length|].
  intros k K. rewrite paired by exact K. cbn [Nat.add fst snd]. unfold patch_point. set (u := stream seed k). set (v := stream seed (n + k)%nat). assert (U : 0 <= u < 1) by apply US. assert (W : 0 <= v < 1) by apply US. assert (P := PI_RGT_0).
  set (tn := PI / 2 - radians theta - radians delta) in *. set (tx := PI / 2 - radians theta + radians delta) in *.
  assert (DP : 0 < radians delta) by (unfold radians; apply Rmult_lt_0_compat; [|lra]; apply Rmult_lt_0_compat; lra).
  assert (CN : cos tn = sin (radians (theta + delta))) by (unfold tn; rewrite <- (sin_shift (_ - _)); f_equal; unfold radians; field).
  assert (CX : cos tx = sin (radians (theta - delta))) by (unfold tx; rewrite <- (sin_shift (_ + _)); f_equal; unfold radians; field).
  assert (GAP : cos tx < cos tn) by (apply cos_decreasing_1; unfold tn, tx in *; lra). assert (BN := COS_bound tn). assert (BX := COS_bound tx).
  set (w := - v * (cos tn - cos tx) + cos tn).
  assert (WB : cos tx <= w <= cos tn).
  { unfold w. assert (0 <= v * (cos tn - cos tx)) by (apply Rmult_le_pos; lra). assert (v * (cos tn - cos tx) <= 1 * (cos tn - cos tx)) by (apply Rmult_le_compat_r; lra). lra. }
  do 2 eexists. split; [reflexivity|]. split; [|split].
  - split.
    + apply le_deg. enough (Q : acos w <= tx) by (unfold tx in Q; unfold radians in *; lra). apply acos_le; [lra|unfold tn, tx in *; lra|lra].
    + apply deg_le. enough (Q : tn <= acos w) by (unfold tn in Q; unfold radians in *; lra). apply le_acos; [lra|unfold tn, tx in *; lra|lra].
  - set (x := 2 * radians delta * u + (radians phi - radians delta)). assert (XE : x = radians (phi + (2 * u - 1) * delta)) by (unfold x, radians; field).
    assert (DX : degrees x = phi + (2 * u - 1) * delta) by (rewrite XE; unfold degrees, radians; field; lra).
    assert (X0 : 0 <= x <-> 0 <= phi + (2 * u - 1) * delta) by (rewrite (rad_le 0 (phi + _)), <- XE; unfold radians; rewrite Rmult_0_l; unfold Rdiv; rewrite Rmult_0_l; tauto).
    destruct (Rle_dec 0 x) as [G|G].
    + exists 0. split; [now left|]. split; [lra|]. apply X0 in G. split; intros; lra.
    + exists 360. split; [now right|]. split; [|split; [|reflexivity]].
      * rewrite <- DX. unfold degrees. field. lra.
      * intros _. apply Rnot_le_lt. intros Q. apply G, X0, Q.
  - intros d DB. rewrite deg_le. set (t := PI / 2 - radians d). assert (CT : cos t = sin (radians d)) by (unfold t; apply cos_shift).
    assert (TB : tn <= t <= tx) by (unfold tn, tx, t; unfold radians in *; assert (theta * (PI / 180) - delta * (PI / 180) <= d * (PI / 180)) by (rewrite <- Rmult_minus_distr_r; apply Rmult_le_compat_r; lra); assert (d * (PI / 180) <= theta * (PI / 180) + delta * (PI / 180)) by (rewrite <- Rmult_plus_distr_r; apply Rmult_le_compat_r; lra); lra).
    rewrite <- CN, <- CX, <- CT. set (a := cos tn - cos tx) in *. assert (A : 0 < a) by (unfold a; lra).
    transitivity (t <= acos w); [unfold t; split; intros; lra|]. rewrite le_acos by (try lra; unfold tn, tx in *; lra). unfold w. split; intros H.
    + apply (Rmult_le_reg_r a); [exact A|]. unfold Rdiv. rewrite Rmult_assoc, Rinv_l, Rmult_1_r by lra. lra.
    + apply (Rmult_le_compat_r a) in H; [|lra]. unfold Rdiv in H. rewrite Rmult_assoc, Rinv_l, Rmult_1_r in H by lra. lra.
Qed.
Print Assumptions C110_patch.

(** The same seed gives the same points, whatever was drawn before. *)
Theorem C110_seed : forall stream n seed phi theta delta g g',
  uniform_sphere stream n seed g = uniform_sphere stream n seed g' /\
  sample_patch_on_sphere stream phi theta delta n seed g = sample_patch_on_sphere stream phi theta delta n seed g'.
Proof. intros. split; reflexivity. Qed.
Print Assumptions C110_seed.

(** Refuted: that the numbers a caller draws afterwards are those it would have drawn.  The shared
    generator is seeded again, even where the patch is refused. *)
Theorem C110_shared_refuted : exists stream g, unit_stream stream /\
  fst (uniform stream 1 (snd (uniform_sphere stream 0 42 g))) <> fst (uniform stream 1 g) /\
  fst (sample_patch_on_sphere stream 0 90 1 0 1 g) = Raise ValueError /\
  fst (uniform stream 1 (snd (sample_patch_on_sphere stream 0 90 1 0 1 g))) <> fst (uniform stream 1 g).
Proof.
  exists (fun seed _ => if Z.eqb seed 7 then 1 / 2 else 0), (Rng 7 0). split; [intros seed k; destruct (Z.eqb seed 7); lra|]. split; [cbn; intros E; injection E; lra|].
  assert (E : fst (sample_patch_on_sphere (fun seed _ => if Z.eqb seed 7 then 1 / 2 else 0) 0 90 1 0 1 (Rng 7 0)) = Raise ValueError).
  { destruct (fst (sample_patch_on_sphere (fun seed _ => if Z.eqb seed 7 then 1 / 2 else 0) 0 90 1 0 1 (Rng 7 0))) as [l|e] eqn:E.
    - assert (H := proj1 (C110_pole _ 0 90 1 0 1 (Rng 7 0) ltac:(lra)) (ex_intro _ l E)). lra.
    - revert E. unfold sample_patch_on_sphere. cbn [uniform seed_rng]. destruct (Rlt_dec PI _); [cbn; congruence|]. destruct (Rlt_dec _ 0); cbn; congruence. }
  split; [exact E|]. revert E. unfold sample_patch_on_sphere. cbn [uniform seed_rng]. destruct (Rlt_dec PI _); [intros _; cbn; intros E; injection E; lra|]. destruct (Rlt_dec _ 0); [intros _; cbn; intros E; injection E; lra|discriminate].
Qed.
Print Assumptions C110_shared_refuted.

(** Refuted: that right ascensions are below 360 degrees. *)
Theorem C110_wrap_refuted : exists stream phi theta delta seed g ra dec, unit_stream stream /\ 0 <= phi < 360 /\ 0 < delta /\
  fst (sample_patch_on_sphere stream phi theta delta 1 seed g) = Ok [(ra, dec)] /\ 360 <= ra.
Proof.
  set (stream := fun (_ : Z) (_ : nat) => 9 / 10). assert (US : unit_stream stream) by (intros s k; unfold stream; lra).
  destruct (C110_patch stream 359 0 10 1 1 (Rng 0 0) US ltac:(lra) ltac:(lra) ltac:(lra)) as (l & E & L & H). destruct (H 0%nat ltac:(lia)) as (ra & dec & N & _ & (turn & T & RA & TT) & _).
  destruct l as [|p [|q l]]; try discriminate. injection N as ->. exists stream, 359, 0, 10, 1%Z, (Rng 0 0), ra, dec. split; [exact US|]. split; [lra|]. split; [lra|]. split; [exact E|]. unfold stream in *. destruct T as [T|T]; rewrite T in *; lra.
Qed.
Print Assumptions C110_wrap_refuted.

Example C110_ex : unit_stream (fun _ k => / INR (S (S k))) /\ 0 < 10 /\ -90 <= 45 - 10 /\ 45 + 10 <= 90.
Proof. split; [|lra]. intros s k. assert (0 <= INR k) by apply pos_INR. rewrite !S_INR. split; [left; apply Rinv_0_lt_compat; lra|]. apply (Rmult_lt_reg_r (INR k + 1 + 1)); [lra|]. rewrite Rinv_l; lra. Qed.
