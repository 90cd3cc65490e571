(** C114: Zernike polynomials. *)
From Coq Require Import List Bool Reals Lra Lia ZArith.
From Verif Require Import Base Angles Sphere Sphere_proofs Zernike Zernike_proofs.
Import ListNotations.
Open Scope R_scope.

(** The radial polynomial of the definition cited in the code, for n - m even. *)
Definition radial (n m : nat) (r : R) : R :=
  sum_f_R0 (fun k => (-1) ^ k * INR (fact (n - k)) / (INR (fact k) * INR (fact ((n + m) / 2 - k)) * INR (fact ((n - m) / 2 - k))) * r ^ (n - 2 * k)) ((n - m) / 2).
(** Valid orders: |m| <= n, n - m even. *)
Definition orders_ok (n m : Z) : Prop := (Z.abs m <= n)%Z /\ ((n - m) mod 2 = 0)%Z.
(** The polynomial as the code has it: cos(m phi) for m >= 0, sin(m phi) for m < 0. *)
Definition zern (n m : Z) (r phi : R) : R :=
  radial (Z.to_nat n) (Z.to_nat (Z.abs m)) r * (if Z_le_dec 0 m then cos (IZR m * phi) else sin (IZR m * phi)).

Lemma upto_sum : forall f n, sum_f_R0 f n = upto (S n) f.
Proof. intros f n. induction n as [|n IH]; [unfold upto; cbn; ring|]. cbn [sum_f_R0]. rewrite IH, (upto_S (S n)). reflexivity. Qed.
Lemma radial_rad : forall p q r, (q <= p)%nat -> radial (p + q) (p - q) r = rad p q r.
Proof.
  intros p q r Q. unfold radial. replace ((p + q + (p - q)) / 2)%nat with p by (apply (Nat.div_unique _ _ _ 0); lia). replace ((p + q - (p - q)) / 2)%nat with q by (apply (Nat.div_unique _ _ _ 0); lia). rewrite upto_sum. reflexivity.
Qed.
Lemma orders_pq : forall n m, orders_ok n m -> exists p q, (q <= p)%nat /\ n = Z.of_nat (p + q) /\ Z.abs m = Z.of_nat (p - q).
Proof.
  intros n m (A & B). destruct (orders n (Z.abs m)) as [O|H]; [lia| |exact H]. exfalso. pose proof (Z.div_mod (n - m) 2 ltac:(lia)). pose proof (Z.div_mod (n - Z.abs m) 2 ltac:(lia)). lia.
Qed.
Lemma zern_rad : forall p q m r phi, (q <= p)%nat -> Z.abs m = Z.of_nat (p - q) -> zern (Z.of_nat (p + q)) m r phi = rad p q r * angular m phi.
Proof.
  intros p q m r phi Q M. unfold zern, angular. rewrite M, !Nat2Z.id, radial_rad by auto. destruct (Z_le_dec 0 m), (Z.leb_spec 0 m); try lia; reflexivity.
Qed.

Lemma radial_2_0 : forall r, radial 2 0 r = 2 * r ^ 2 - 1.
Proof. intros r. unfold radial. change ((2 - 0) / 2)%nat with 1%nat. change ((2 + 0) / 2)%nat with 1%nat. simpl. field. Qed.
Lemma radial_1_1 : forall r, radial 1 1 r = r.
Proof. intros r. unfold radial. change ((1 - 1) / 2)%nat with 0%nat. change ((1 + 1) / 2)%nat with 1%nat. simpl. field. Qed.

(** After any calls the factorials are right. *)
Theorem C114_factorial : forall nums num, (0 <= num)%Z -> fst (fac_evaluate num (fold_left (fun f k => snd (fac_evaluate k f)) nums fac_init)) = Ok (Z.of_nat (fact (Z.to_nat num))).
Proof.
  intros nums num N. assert (G : forall f, fgood f -> fgood (fold_left (fun f k => snd (fac_evaluate k f)) nums f)).
  { induction nums as [|k nums IH]; intros f F; [exact F|]. cbn [fold_left]. apply IH. destruct (Z_lt_dec k 0) as [L|L]; [unfold fac_evaluate; destruct (Z.ltb_spec k 0); [exact F|lia]|]. destruct (fac_evaluate_ok k f F ltac:(lia)) as (f' & E & F'). rewrite E. exact F'. }
  destruct (fac_evaluate_ok num _ (G _ fgood_init) N) as (f' & E & _). rewrite E. reflexivity.
Qed.
Print Assumptions C114_factorial.

Example C114_factorial_ex : fst (fac_evaluate 6 (fold_left (fun f k => snd (fac_evaluate k f)) [3; -2; 9; 4]%Z fac_init)) = Ok 720%Z.
Proof. reflexivity. Qed.

(** Inside the unit disk a number has the polynomial's value whatever was evaluated before, outside it
    nan. *)
Theorem C114_value : forall calls n m r phi, orders_ok n m ->
  fst (evaluate (Number r) (Number phi) n m (after calls)) = Ok (VNumber (if Rlt_dec 1 r then None else Some (zern n m r phi))).
Proof.
  intros calls n m r phi O. destruct (orders_pq n m O) as (p & q & Q & -> & M). unfold evaluate. rewrite M. destruct (evaluate_radial_ok (Number r) p q (after calls) Q (after_good calls)) as (g & E & _). rewrite E. cbn [fst].
  rewrite radial_number_ok by auto. rewrite (zern_rad p q) by auto. destruct (Rlt_dec 1 r); reflexivity.
Qed.
Print Assumptions C114_value.

(** Orders with n - m odd give 0, orders with |m| > n raise. *)
Theorem C114_orders : forall calls n m r phi,
  ((Z.abs m <= n)%Z -> ((n - m) mod 2 = 1)%Z -> fst (evaluate (Number r) (Number phi) n m (after calls)) = Ok (VNumber (Some 0))) /\
  ((n < Z.abs m)%Z <-> fst (evaluate (Number r) (Number phi) n m (after calls)) = Raise RuntimeError) /\ ((n < Z.abs m)%Z <-> norm n m = Raise RuntimeError).
Proof.
  intros calls n m r phi. assert (ODD : (Z.abs m <= n)%Z -> ((n - m) mod 2 = 1)%Z -> fst (evaluate (Number r) (Number phi) n m (after calls)) = Ok (VNumber (Some 0))).
  { intros A B. unfold evaluate. rewrite evaluate_radial_odd; [cbn; do 3 f_equal; ring|lia|]. pose proof (Z.div_mod (n - m) 2 ltac:(lia)). destruct (Z_le_dec 0 m); [rewrite Z.abs_eq by lia; exact B|]. rewrite Z.abs_neq by lia. symmetry. apply (Z.mod_unique _ _ ((n - m) / 2 + m)); lia. }
  split; [exact ODD|]. split; split.
  - intros L. unfold evaluate. rewrite evaluate_radial_bad by lia. reflexivity.
  - intros E. destruct (Z_lt_dec n (Z.abs m)) as [|L]; [auto|]. exfalso. pose proof (Z.mod_pos_bound (n - m) 2 ltac:(lia)). destruct (Z.eq_dec ((n - m) mod 2) 1) as [O|O]; [rewrite ODD in E by (auto; lia); discriminate|]. rewrite C114_value in E by (split; lia). discriminate.
  - intros L. unfold norm, validate_nm. destruct (Z.ltb_spec n 0); [reflexivity|]. destruct (Z.ltb_spec (Z.abs m) 0); [reflexivity|]. destruct (Z.ltb_spec n (Z.abs m)); [reflexivity|lia].
  - intros E. destruct (Z_lt_dec n (Z.abs m)) as [|L]; [auto|]. exfalso. unfold norm, validate_nm in E. destruct (Z.ltb_spec n 0); [lia|]. destruct (Z.ltb_spec (Z.abs m) 0); [lia|]. destruct (Z.ltb_spec n (Z.abs m)); [lia|]. discriminate.
Qed.
Print Assumptions C114_orders.

(** Defocus, 2 r^2 - 1, after another polynomial was evaluated. *)
Example C114_value_ex : fst (evaluate (Number (1 / 2)) (Number 3) 2 0 (after [Call (Array [1 / 4]) (Number 0) 4 2])) = Ok (VNumber (Some (- (1 / 2)))).
Proof.
  rewrite C114_value by (split; [cbn; lia|reflexivity]). destruct (Rlt_dec 1 (1 / 2)); [lra|]. do 3 f_equal. unfold zern. change (Z.to_nat 2) with 2%nat. change (Z.to_nat (Z.abs 0)) with 0%nat. rewrite radial_2_0.
  destruct (Z_le_dec 0 0); [|lia]. rewrite Rmult_0_l, cos_0. field.
Qed.

(** Every radial polynomial is 1 at the edge. *)
Theorem C114_one : forall n m, orders_ok n m -> radial (Z.to_nat n) (Z.to_nat (Z.abs m)) 1 = 1.
Proof.
  intros n m O. destruct (orders_pq n m O) as (p & q & Q & -> & M). rewrite M, !Nat2Z.id, radial_rad by auto. unfold rad. rewrite (upto_ext _ _ (coef p q)); [now apply coef_one|]. intros k _. rewrite pow1. ring.
Qed.
Print Assumptions C114_one.

Example C114_one_ex : radial 6 2 1 = 1.
Proof. apply (C114_one 6 2). split; [cbn; lia|reflexivity]. Qed.

(** Different polynomials are orthogonal over the unit disk and the square of each has the integral
    norm gives: iterated integrals, each the difference of an antiderivative. *)
Theorem C114_orthogonal : forall n m n' m', orders_ok n m -> orders_ok n' m' ->
  exists a b F G I, (forall r phi, zern n m r phi * zern n' m' r phi * r = a r * b phi) /\
  (forall r, derivable_pt_lim F r (a r)) /\ (forall phi, derivable_pt_lim G phi (b phi)) /\ norm n m = Ok I /\ 0 < I /\
  (F 1 - F 0) * (G (2 * PI) - G 0) = if (Z.eq_dec n n') then if Z.eq_dec m m' then I else 0 else 0.
Proof.
  intros n m n' m' O O'. destruct (orders_pq n m O) as (p & q & Q & -> & M). destruct (orders_pq n' m' O') as (p' & q' & Q' & -> & M').
  assert (N : norm (Z.of_nat (p + q)) m = Ok ((if (Z.eqb m 0) then 2 * PI else PI) / (2 * INR (p + q) + 2))).
  { unfold norm, validate_nm. destruct (Z.ltb_spec (Z.of_nat (p + q)) 0); [lia|]. destruct (Z.ltb_spec (Z.abs m) 0); [lia|]. destruct (Z.ltb_spec (Z.of_nat (p + q)) (Z.abs m)); [lia|]. cbn [fst snd]. f_equal.
    rewrite plus_IZR, mult_IZR, <- INR_IZR_INZ. pose proof (pos_INR (p + q)). destruct (Z.eqb_spec m 0), (Z.eqb_spec (Z.abs m) 0); try lia; field; lra. }
  destruct (angular_int m m') as (G & DG & VG). assert (IP : 0 < (if (Z.eqb m 0) then 2 * PI else PI) / (2 * INR (p + q) + 2)).
  { pose proof (pos_INR (p + q)). pose proof PI_RGT_0. apply Rmult_lt_0_compat; [destruct (Z.eqb m 0); lra|apply Rinv_0_lt_compat; lra]. }
  destruct (Z.eq_dec m m') as [<-|NM].
  - destruct (radial_int p q p' q' Q Q' ltac:(lia)) as (F & DF & VF). exists (fun r => rad p q r * rad p' q' r * r), (fun t => angular m t * angular m t), F, G. eexists. split; [|split; [exact DF|split; [exact DG|split; [exact N|split; [exact IP|]]]]].
    + intros r phi. rewrite (zern_rad p q), (zern_rad p' q') by auto. ring.
    + rewrite VF, VG, Z.eqb_refl. pose proof (pos_INR (p + q)). destruct (Nat.eqb_spec q q') as [EQ|NQ]; destruct (Z.eq_dec (Z.of_nat (p + q)) (Z.of_nat (p' + q'))); try (exfalso; lia); destruct (Z.eqb_spec m 0); try (field; lra); destruct (Z.eq_dec m m); try contradiction; try ring; field; lra.
  - exists (fun r => rad p q r * rad p' q' r * r), (fun t => angular m t * angular m' t), (both p q p' q'), G. eexists. split; [|split; [intros r; apply both_derive|split; [exact DG|split; [exact N|split; [exact IP|]]]]].
    + intros r phi. rewrite (zern_rad p q), (zern_rad p' q') by auto. ring.
    + rewrite VG. destruct (Z.eqb_spec m m'); [contradiction|]. rewrite Rmult_0_r. destruct (Z.eq_dec (Z.of_nat (p + q)) (Z.of_nat (p' + q'))); reflexivity.
Qed.
Print Assumptions C114_orthogonal.

(** Tilt: the integral of (r cos phi)^2 is pi / 4. *)
Example C114_orthogonal_ex : norm 1 1 = Ok (1 * PI / 4) /\ norm 2 0 = Ok (2 * PI / 6) /\ orders_ok 1 1 /\ orders_ok 3 1.
Proof. split; [reflexivity|]. split; [reflexivity|]. split; split; cbn; (lia || reflexivity). Qed.

(** For positions in the plane: the polynomial of the position's polar coordinates, whichever these
    are. *)
Theorem C114_xy : forall calls n m r phi, orders_ok n m -> 0 <= r <= 1 ->
  fst (evaluate_xy (r * cos phi) (r * sin phi) n m (after calls)) = Ok (VNumber (Some (zern n m r phi))).
Proof.
  intros calls n m r phi O R. unfold evaluate_xy. assert (E : sqrt ((r * cos phi) ^ 2 + (r * sin phi) ^ 2) = r).
  { replace ((r * cos phi) ^ 2 + (r * sin phi) ^ 2) with (r * r * ((sin phi)² + (cos phi)²)) by (unfold Rsqr; ring). rewrite sin2_cos2, Rmult_1_r. apply sqrt_square. lra. }
  unfold polar. rewrite E. destruct (Rlt_dec 0 r) as [P|P].
  - set (t := if Rle_dec 0 (r * sin phi) then _ else _). rewrite C114_value by auto. destruct (Rlt_dec 1 r); [lra|]. do 3 f_equal.
    assert (T : congr (2 * PI) t phi).
    { assert (CP : r * cos phi / r = cos phi) by (field; lra). unfold t. rewrite CP. pose proof (COS_bound phi) as CB. pose proof (cos_acos (cos phi) CB) as CA. pose proof (sin_acos (cos phi) CB) as SA.
      assert (S2 : sqrt (1 - (cos phi)²) = Rabs (sin phi)) by (rewrite <- sin2, <- sqrt_Rsqr_abs; reflexivity).
      destruct (Rle_dec 0 (r * sin phi)) as [L|L].
      - apply angle_congr; [exact CA|]. rewrite SA, S2. apply Rabs_pos_eq. nra.
      - apply angle_congr; replace (0 - acos (cos phi)) with (- acos (cos phi)) by ring; [rewrite cos_neg; exact CA|]. rewrite sin_neg, SA, S2. rewrite Rabs_left by nra. ring. }
    clearbody t. destruct T as (k & T). unfold zern. f_equal. assert (TT : congr (2 * PI) (IZR m * t) (IZR m * phi)) by (exists (m * k)%Z; rewrite T, mult_IZR; ring).
    destruct (Z_le_dec 0 m); [now apply cos_congr|now apply sin_congr].
  - assert (r = 0) by lra. subst r. rewrite C114_value by auto. destruct (Rlt_dec 1 0); [lra|]. do 3 f_equal. destruct (Z.eq_dec m 0) as [->|N].
    + unfold zern. f_equal. destruct (Z_le_dec 0 0); [|lia]. now rewrite !Rmult_0_l.
    + destruct (orders_pq n m O) as (p & q & Q & -> & M). rewrite !(zern_rad p q) by auto. assert (Z0 : rad p q 0 = 0) by (unfold rad; apply upto_0; intros k K; rewrite pow_i by lia; ring). rewrite Z0. ring.
Qed.
Print Assumptions C114_xy.

(** (1, 1) is x: at (0.3, 0.4) it is 0.3. *)
Example C114_xy_ex : exists phi, 3 / 10 = 1 / 2 * cos phi /\ fst (evaluate_xy (1 / 2 * cos phi) (1 / 2 * sin phi) 1 1 gen_init) = Ok (VNumber (Some (3 / 10))).
Proof.
  exists (acos (3 / 5)). rewrite cos_acos by lra. split; [lra|]. rewrite <- (cos_acos (3 / 5)) at 1 by lra. rewrite (C114_xy [] 1 1 (1 / 2)) by (try split; try lra; try lia; reflexivity). do 3 f_equal.
  unfold zern. change (Z.to_nat 1) with 1%nat. change (Z.to_nat (Z.abs 1)) with 1%nat. rewrite !radial_1_1. destruct (Z_le_dec 0 1); [|lia]. rewrite Rmult_1_l, cos_acos by lra. field.
Qed.

(** An array inside the disk is evaluated as its numbers are. *)
Theorem C114_arrays : forall calls n m l phi, orders_ok n m -> (forall r, In r l -> 0 <= r < 1) ->
  fst (evaluate (Array l) (Number phi) n m (after calls)) = Ok (VArray (map (fun r => Some (zern n m r phi)) l)).
Proof.
  intros calls n m l phi O H. destruct (orders_pq n m O) as (p & q & Q & -> & M). unfold evaluate. rewrite M. destruct (evaluate_radial_ok (Array l) p q (after calls) Q (after_good calls)) as (g & E & _). rewrite E. cbn [fst]. do 2 f_equal. rewrite map_map. apply map_ext_in. intros r I. specialize (H r I).
  rewrite radial_array_ok by (auto; lra). destruct (Rlt_dec r 1); [|lra]. cbn [option_map]. now rewrite (zern_rad p q).
Qed.
Print Assumptions C114_arrays.

Example C114_arrays_ex : fst (evaluate (Array [0; 1 / 2]) (Number 0) 1 1 gen_init) = Ok (VArray [Some 0; Some (1 / 2)]).
Proof.
  rewrite (C114_arrays [] 1 1) by (try (split; [cbn; lia|reflexivity]); intros r [<-|[<-|[]]]; lra). cbn [map]. unfold zern. change (Z.to_nat 1) with 1%nat. change (Z.to_nat (Z.abs 1)) with 1%nat. rewrite !radial_1_1. destruct (Z_le_dec 0 1); [|lia]. rewrite Rmult_0_r, cos_0. do 2 f_equal. f_equal; [f_equal; field|f_equal; f_equal; field].
Qed.

(** At the edge an array has nan where a number has the value. *)
Theorem C114_edge_refuted : forall calls n m phi, orders_ok n m ->
  fst (evaluate (Array [1]) (Number phi) n m (after calls)) = Ok (VArray [None]) /\ fst (evaluate (Number 1) (Number phi) n m (after calls)) = Ok (VNumber (Some (zern n m 1 phi))).
Proof.
  intros calls n m phi O. split.
  - destruct (orders_pq n m O) as (p & q & Q & -> & M). unfold evaluate. rewrite M. destruct (evaluate_radial_ok (Array [1]) p q (after calls) Q (after_good calls)) as (g & E & _). rewrite E. cbn [fst map]. rewrite radial_array_ok by (auto; lra). destruct (Rlt_dec 1 1); [lra|]. reflexivity.
  - rewrite C114_value by auto. destruct (Rlt_dec 1 1); [lra|]. reflexivity.
Qed.
Print Assumptions C114_edge_refuted.

(** With n - m odd the value outside the disk is 0, not nan. *)
Theorem C114_outside_refuted : forall calls n m r phi, (Z.abs m <= n)%Z -> ((n - m) mod 2 = 1)%Z -> 1 < r -> fst (evaluate (Number r) (Number phi) n m (after calls)) = Ok (VNumber (Some 0)).
Proof. intros calls n m r phi A B _. apply C114_orders; auto. Qed.
Print Assumptions C114_outside_refuted.

(** For negative m the sign is not that of the definition cited, R(r) sin(|m| phi). *)
Theorem C114_sign_refuted : forall calls n m r phi, orders_ok n m -> (m < 0)%Z -> r <= 1 ->
  fst (evaluate (Number r) (Number phi) n m (after calls)) = Ok (VNumber (Some (- (radial (Z.to_nat n) (Z.to_nat (Z.abs m)) r * sin (IZR (Z.abs m) * phi))))).
Proof.
  intros calls n m r phi O M R. rewrite C114_value by auto. destruct (Rlt_dec 1 r); [lra|]. do 3 f_equal. unfold zern. destruct (Z_le_dec 0 m); [lia|]. assert (E : IZR (Z.abs m) * phi = - (IZR m * phi)) by (rewrite Z.abs_neq by lia; rewrite opp_IZR; ring). rewrite E, sin_neg. ring.
Qed.
Print Assumptions C114_sign_refuted.

(** (1, -1) is -y. *)
Example C114_sign_ex : fst (evaluate (Number 1) (Number (PI / 2)) 1 (-1) gen_init) = Ok (VNumber (Some (-1))).
Proof.
  rewrite (C114_sign_refuted [] 1 (-1)) by (try split; try lra; try lia; reflexivity). rewrite (C114_one 1 (-1)) by (split; [cbn; lia|reflexivity]). cbn [Z.abs]. rewrite !Rmult_1_l, sin_PI2. reflexivity.
Qed.
