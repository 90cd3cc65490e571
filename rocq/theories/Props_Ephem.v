(** C142: where the sun, the moon and the planets are. *)
From Coq Require Import List Sorted Reals Lra Lia.
From Verif Require Import Base Angles Sphere Sphere_proofs Ephem.
Import ListNotations.
Open Scope R_scope.

Definition rising (ts : list R) : Prop := StronglySorted Rlt ts.
Definition inside (ts : list R) (t : R) : Prop := exists a z, hd_error ts = Some a /\ last ts a = z /\ a <= t <= z.
(** A rule passes through the rows of the table when, at the time of a row, that row alone counts. *)
Definition passes (k : rule) (ts : list R) : Prop := forall i t, nth_error ts i = Some t ->
  forall y, length y = length ts -> nth_error y i = Some (weigh (k ts t) y).

(** ** Interpolation *)
Lemma interp_inside : forall k ts y t, inside ts t -> interp1d k ts y t = Ok (weigh (k ts t) y).
Proof.
  intros k ts y t (a & z & A & Z1 & L). unfold interp1d. destruct ts as [|t0 r]; [discriminate|]. injection A as ->.
  destruct (Rlt_dec t a); [lra|]. destruct (Rlt_dec (last (a :: r) a) t); [rewrite Z1 in *; lra|reflexivity].
Qed.
(** Outside the table the almanac says so. *)
Theorem C142_outside : forall k ts th t, ~ inside ts t -> simple k ts th t = Raise ValueError /\ longitude k ts th t = Raise ValueError.
Proof.
  intros k ts th t N. assert (E : forall y, interp1d k ts y t = Raise ValueError).
  { intros y. unfold interp1d. destruct ts as [|t0 r]; [reflexivity|]. destruct (Rlt_dec t t0) as [|A]; [reflexivity|]. destruct (Rlt_dec (last (t0 :: r) t0) t) as [|B]; [reflexivity|].
    exfalso. apply N. exists t0, (last (t0 :: r) t0). split; [reflexivity|]. split; [reflexivity|]. split; apply Rnot_lt_le; assumption. }
  unfold simple, longitude. rewrite !E. split; reflexivity.
Qed.
Print Assumptions C142_outside.

Lemma last_ge : forall l (a : R) x, rising (a :: l) -> In x (a :: l) -> a <= x <= last (a :: l) a.
Proof.
  induction l as [|b l IH]; intros a x S I.
  - destruct I as [->|[]]. cbn. lra.
  - inversion S as [|? ? S' F]; subst. inversion F as [|? ? F1 F2]; subst. change (last (a :: b :: l) a) with (last (b :: l) a).
    assert (Lst : last (b :: l) a = last (b :: l) b) by (clear; revert b; induction l as [|c l IH]; intros b; [reflexivity|]; change (last (c :: l) a = last (c :: l) b); clear IH; revert c; induction l as [|d l IH]; intros c; [reflexivity|]; change (last (d :: l) a = last (d :: l) b); apply IH).
    rewrite Lst. destruct I as [->|I].
    + destruct (IH b b S' (or_introl eq_refl)). lra.
    + destruct (IH b x S' I). lra.
Qed.
Lemma row_inside : forall ts i t, rising ts -> nth_error ts i = Some t -> inside ts t.
Proof.
  intros [|a l] i t S N; [destruct i; discriminate|]. exists a, (last (a :: l) a). split; [reflexivity|]. split; [reflexivity|]. apply last_ge; [exact S|]. apply nth_error_In with i. exact N.
Qed.
Lemma weigh_zero : forall q y, weigh (map (fun _ : R => 0) q) y = 0.
Proof. induction q as [|c q IH]; intros [|v y]; try reflexivity. cbn. unfold weigh in IH. rewrite IH. ring. Qed.
Lemma weigh_cons : forall w r v y, weigh (w :: r) (v :: y) = w * v + weigh r y.
Proof. reflexivity. Qed.
(** Between two rows kind "linear" is on the straight line. *)
Lemma linear_value : forall ts y i a b u v t, rising ts -> length y = length ts -> nth_error ts i = Some a -> nth_error ts (S i) = Some b -> nth_error y i = Some u -> nth_error y (S i) = Some v ->
  a <= t <= b -> weigh (linear ts t) y = u + (t - a) / (b - a) * (v - u).
Proof.
  induction ts as [|c [|d q] IH]; intros y i a b u v t S L A B U V T; [destruct i; discriminate|destruct i as [|[|i]]; discriminate|].
  destruct y as [|v0 [|v1 y]]; [discriminate|discriminate|]. inversion S as [|? ? S' F]; subst. inversion F as [|? ? F1 F2]; subst.
  change (linear (c :: d :: q) t) with (if Rle_dec t d then (1 - (t - c) / (d - c)) :: ((t - c) / (d - c)) :: map (fun _ => 0) q else 0 :: linear (d :: q) t).
  destruct i as [|i].
  - injection A as ->. injection B as ->. injection U as ->. injection V as ->. destruct (Rle_dec t b); [|lra]. rewrite !weigh_cons, weigh_zero. field. lra.
  - cbn [nth_error] in A, B, U, V. destruct (Rle_dec t d) as [G|G].
    + assert (a = d /\ t = d /\ u = v1) as (-> & -> & ->).
      { destruct i as [|i]; [injection A as ->; injection U as ->; split; [reflexivity|]; split; [lra|reflexivity]|]. exfalso.
        cbn [nth_error] in A. apply nth_error_In in A. inversion S' as [|? ? S2 F3]; subst. rewrite Forall_forall in F3. specialize (F3 a A). lra. }
      rewrite !weigh_cons, weigh_zero. assert (d < b).
      { inversion S' as [|? ? S2 F3]; subst. rewrite Forall_forall in F3. apply F3. cbn [nth_error] in B. apply nth_error_In with i. exact B. }
      replace ((d - d) / (b - d)) with 0 by (field; lra). replace ((d - c) / (d - c)) with 1 by (field; lra). ring.
    + rewrite weigh_cons. rewrite (IH (v1 :: y) i a b u v t S' ltac:(cbn in *; lia) A B U V T). ring.
Qed.
(** Kind "linear" passes through its rows, and so does the parabola. *)
Theorem C142_linear : forall ts, rising ts -> (2 <= length ts)%nat -> passes linear ts.
Proof.
  intros ts S L i t N y Ly. destruct (nth_error y i) as [u|] eqn:U; [|apply nth_error_None in U; rewrite Ly in U; assert (nth_error ts i <> None) as K by congruence; apply nth_error_Some in K; lia].
  f_equal. assert (I : (i < length ts)%nat) by (apply nth_error_Some; congruence). destruct (Nat.eq_dec (Datatypes.S i) (length ts)) as [E|E].
  - destruct i as [|j]; [lia|]. destruct (nth_error ts j) as [a|] eqn:A; [|apply nth_error_None in A; lia]. destruct (nth_error y j) as [v|] eqn:V; [|apply nth_error_None in V; lia].
    assert (a < t). { clear - S A N. revert j A N. induction ts as [|c q IH]; intros [|j] A N; try discriminate; inversion S as [|? ? S' F]; subst. - injection A as ->. rewrite Forall_forall in F. apply F. apply nth_error_In with O. exact N. - apply (IH S' j); assumption. }
    rewrite (linear_value ts y j a t v u t S Ly A N V U ltac:(lra)). field. lra.
  - destruct (nth_error ts (Datatypes.S i)) as [b|] eqn:B; [|apply nth_error_None in B; lia]. destruct (nth_error y (Datatypes.S i)) as [v|] eqn:V; [|apply nth_error_None in V; lia].
    assert (t < b). { clear - S B N. revert i B N. induction ts as [|c q IH]; intros [|j] A N; try discriminate; inversion S as [|? ? S' F]; subst. - injection N as ->. rewrite Forall_forall in F. apply F. apply nth_error_In with O. exact A. - apply (IH S' j); assumption. }
    rewrite (linear_value ts y i t b u v t S Ly N B U V ltac:(lra)). field. lra.
Qed.
Print Assumptions C142_linear.
Theorem C142_parabola : forall a b c, a < b < c -> passes parabola [a; b; c].
Proof.
  intros a b c [A B] i t N y Ly. destruct y as [|u [|v [|w [|x y]]]]; try discriminate Ly. unfold parabola. rewrite !weigh_cons. unfold weigh. cbn [combine map fold_right].
  destruct i as [|[|[|i]]]; cbn [nth_error] in N |- *; try (injection N as <-); [f_equal; field; lra|f_equal; field; lra|f_equal; field; lra|destruct i; discriminate].
Qed.
Print Assumptions C142_parabola.

(** ** Longitudes *)
Lemma angle_range : forall x y, 0 <= angle x y < 2 * PI.
Proof. intros x y. unfold angle. pose proof (atan2_range y x). pose proof PI_RGT_0. destruct (Rlt_dec (atan2 y x) 0); lra. Qed.
Lemma angle_atan : forall x y, congr (2 * PI) (angle x y) (atan2 y x).
Proof. intros x y. unfold angle. destruct (Rlt_dec (atan2 y x) 0); [exists 1%Z; cbn; lra|apply congr_refl]. Qed.
Lemma angle_polar : forall r t x y, 0 < r -> x = r * cos t -> y = r * sin t -> congr (2 * PI) (angle x y) t.
Proof. intros r t x y P -> ->. apply congr_trans with (atan2 (r * sin t) (r * cos t)); [apply angle_atan|apply atan2_polar; exact P]. Qed.
Lemma longitude_inside : forall k ts th t, inside ts t -> longitude k ts th t = Ok (angle (weigh (k ts t) (map cos th)) (weigh (k ts t) (map sin th))).
Proof. intros k ts th t I. unfold longitude. rewrite !(interp_inside k ts _ t I). reflexivity. Qed.
(** At the time of a row, the position of the row: longitudes between 0 and a full turn. *)
Theorem C142_row : forall k ts th alt i t a h, rising ts -> passes k ts -> length th = length ts -> length alt = length ts ->
  nth_error ts i = Some t -> nth_error th i = Some a -> nth_error alt i = Some h ->
  simple k ts alt t = Ok h /\ exists l, longitude k ts th t = Ok l /\ congr (2 * PI) l a.
Proof.
  intros k ts th alt i t a h S P L La N A H. pose proof (row_inside _ _ _ S N) as I. split.
  - unfold simple. rewrite (interp_inside _ _ _ _ I). pose proof (P i t N alt La) as E. rewrite H in E. injection E as <-. reflexivity.
  - rewrite (longitude_inside _ _ _ _ I). eexists. split; [reflexivity|].
    pose proof (P i t N (map cos th) ltac:(rewrite map_length; exact L)) as C. pose proof (P i t N (map sin th) ltac:(rewrite map_length; exact L)) as D.
    rewrite (map_nth_error cos i th A) in C. rewrite (map_nth_error sin i th A) in D. injection C as C. injection D as D. apply (angle_polar 1); [lra|lra|lra].
Qed.
Print Assumptions C142_row.
Theorem C142_range : forall k ts th t, inside ts t -> exists l, longitude k ts th t = Ok l /\ 0 <= l < 2 * PI.
Proof. intros k ts th t I. rewrite (longitude_inside _ _ _ _ I). eexists. split; [reflexivity|apply angle_range]. Qed.
Print Assumptions C142_range.
(** Full turns in the table make no difference, nor where the count of longitudes begins: with all of
    the table turned, the answer is turned. *)
Theorem C142_wrap : forall k ts th th' t, Forall2 (congr (2 * PI)) th th' -> longitude k ts th t = longitude k ts th' t.
Proof.
  intros k ts th th' t F. unfold longitude. assert (E : map cos th = map cos th' /\ map sin th = map sin th').
  { induction F as [|a b l m C F [IH1 IH2]]; [split; reflexivity|]. cbn [map]. rewrite IH1, IH2, (cos_congr a b C), (sin_congr a b C). split; reflexivity. }
  destruct E as [-> ->]. reflexivity.
Qed.
Print Assumptions C142_wrap.
Lemma weigh_turn : forall c th w, weigh w (map cos (map (Rplus c) th)) = cos c * weigh w (map cos th) - sin c * weigh w (map sin th) /\
  weigh w (map sin (map (Rplus c) th)) = sin c * weigh w (map cos th) + cos c * weigh w (map sin th).
Proof.
  intros c th. induction th as [|a th IH]; intros [|x w]; try (unfold weigh; cbn; split; ring). cbn [map]. rewrite !weigh_cons. destruct (IH w) as [E1 E2]. rewrite E1, E2, cos_plus, sin_plus. split; ring.
Qed.
Theorem C142_turn : forall k ts th t c, inside ts t -> ~ (weigh (k ts t) (map cos th) = 0 /\ weigh (k ts t) (map sin th) = 0) ->
  exists l l', longitude k ts th t = Ok l /\ longitude k ts (map (Rplus c) th) t = Ok l' /\ congr (2 * PI) l' (l + c).
Proof.
  intros k ts th t c I N. rewrite !(longitude_inside _ _ _ _ I). eexists. eexists. split; [reflexivity|]. split; [reflexivity|].
  destruct (weigh_turn c th (k ts t)) as [E1 E2]. rewrite E1, E2. set (x := weigh (k ts t) (map cos th)) in *. set (y := weigh (k ts t) (map sin th)) in *. clearbody x y. clear E1 E2.
  destruct (atan2_spec y x) as [X Y]. set (r := sqrt (x * x + y * y)) in *. assert (P : 0 < r).
  { destruct (sqrt_pos (x * x + y * y)) as [G|G]; [exact G|]. exfalso. apply N. fold r in G. rewrite <- G in X, Y. lra. }
  apply congr_trans with (atan2 y x + c).
  - clearbody r. revert X Y. generalize (atan2 y x). intros e X Y. apply (angle_polar r); [exact P| |].
    + rewrite cos_plus. rewrite X, Y. ring.
    + rewrite sin_plus. rewrite X, Y. ring.
  - apply congr_add; [apply congr_sym, angle_atan|apply congr_refl].
Qed.
Print Assumptions C142_turn.

(** ** Between two rows *)
Lemma arc : forall u d, 0 <= u <= 1 -> 0 <= d < PI -> exists r e, 0 < r /\ 0 <= e <= d /\ (1 - u) + u * cos d = r * cos e /\ u * sin d = r * sin e /\ (0 < u < 1 -> 0 < d -> 0 < e < d).
Proof.
  intros u d U D. pose proof PI_RGT_0. destruct (Req_dec d 0) as [->|Nz].
  { exists 1, 0. rewrite cos_0, sin_0. repeat split; try lra. }
  assert (Sd : 0 < sin d) by (apply sin_gt_0; lra). set (x := (1 - u) + u * cos d). set (y := u * sin d). destruct (atan2_spec y x) as [X Y]. pose proof (atan2_range y x) as Rg.
  set (r := sqrt (x * x + y * y)) in *. set (e := atan2 y x) in *. clearbody e.
  assert (Q : r * sin (d - e) = (1 - u) * sin d). { rewrite sin_minus. replace (r * (sin d * cos e - cos d * sin e)) with (sin d * (r * cos e) - cos d * (r * sin e)) by ring. rewrite <- X, <- Y. unfold x, y. ring. }
  assert (P : 0 < r). { destruct (sqrt_pos (x * x + y * y)) as [G|G]; [exact G|]. exfalso. fold r in G. rewrite <- G in Y, Q. unfold y in Y. assert (u * sin d = 0) by lra. assert ((1 - u) * sin d = 0) by lra. nra. }
  assert (S1 : 0 <= sin e). { assert (0 <= r * sin e) by (rewrite <- Y; unfold y; nra). nra. }
  assert (S2 : 0 <= sin (d - e)). { assert (0 <= r * sin (d - e)) by (rewrite Q; nra). nra. }
  assert (E0 : 0 <= e). { destruct (Rle_or_lt 0 e) as [|G]; [assumption|]. exfalso. assert (sin e < 0) by (apply sin_lt_0_var; lra). lra. }
  assert (E1 : e <= d). { destruct (Rle_or_lt e d) as [|G]; [assumption|]. exfalso. assert (sin (d - e) < 0) by (apply sin_lt_0_var; lra). lra. }
  exists r, e. split; [exact P|]. split; [lra|]. split; [exact X|]. split; [exact Y|]. intros [U0 U1] D0. split.
  - destruct E0 as [E0|E0]; [assumption|]. exfalso. rewrite <- E0, sin_0 in Y. unfold y in Y. nra.
  - destruct E1 as [E1|E1]; [assumption|]. exfalso. rewrite E1 in Q. replace (d - d) with 0 in Q by ring. rewrite sin_0 in Q. nra.
Qed.
(** Kind "linear": from a row to the next, less than half a turn away, the longitude goes the short way. *)
Theorem C142_arc : forall ts th i a b p q d t, rising ts -> length th = length ts ->
  nth_error ts i = Some a -> nth_error ts (S i) = Some b -> nth_error th i = Some p -> nth_error th (S i) = Some q ->
  congr (2 * PI) q (p + d) -> - PI < d < PI -> a <= t <= b ->
  exists l e, longitude linear ts th t = Ok l /\ congr (2 * PI) l (p + e) /\ (0 <= e <= d \/ d <= e <= 0) /\ (a < t < b -> d <> 0 -> 0 < e < d \/ d < e < 0).
Proof.
  intros ts th i a b p q d t S L A B P Q C D T.
  assert (I : inside ts t). { pose proof (row_inside _ _ _ S A) as (a0 & z & H1 & H2 & H3). pose proof (row_inside _ _ _ S B) as (a1 & z1 & G1 & G2 & G3). rewrite H1 in G1. injection G1 as <-. exists a0, z. split; [exact H1|]. split; [exact H2|]. lra. }
  rewrite (longitude_inside _ _ _ _ I).
  assert (Ltc : length (map cos th) = length ts) by (rewrite map_length; exact L). assert (Lts : length (map sin th) = length ts) by (rewrite map_length; exact L).
  rewrite (linear_value ts (map cos th) i a b (cos p) (cos q) t S Ltc A B (map_nth_error cos i th P) (map_nth_error cos (Datatypes.S i) th Q) T).
  rewrite (linear_value ts (map sin th) i a b (sin p) (sin q) t S Lts A B (map_nth_error sin i th P) (map_nth_error sin (Datatypes.S i) th Q) T).
  rewrite (cos_congr _ _ C), (sin_congr _ _ C). clear Q C Ltc Lts. set (u := (t - a) / (b - a)).
  assert (AB : a < b). { clear - S A B. revert i A B. induction ts as [|c l IH]; intros [|j] A B; try discriminate; inversion S as [|? ? S' F]; subst. - injection A as ->. rewrite Forall_forall in F. apply F. apply nth_error_In with O. exact B. - apply (IH S' j); assumption. }
  assert (U : 0 <= u <= 1 /\ (a < t < b -> 0 < u < 1)).
  { unfold u. split; [split|].
    - apply Rle_mult_inv_pos; lra.
    - apply (Rmult_le_reg_r (b - a)); [lra|]. replace ((t - a) / (b - a) * (b - a)) with (t - a) by (field; lra). lra.
    - intros G. split; [apply Rdiv_lt_0_compat; lra|]. apply (Rmult_lt_reg_r (b - a)); [lra|]. replace ((t - a) / (b - a) * (b - a)) with (t - a) by (field; lra). lra. }
  destruct U as [U U']. clearbody u. destruct (Rle_dec 0 d) as [G|G].
  - destruct (arc u d U ltac:(lra)) as (r & e & R0 & E & X & Y & St). eexists. exists e. split; [reflexivity|]. split; [|split; [left; exact E|intros H N; left; apply St; [apply U'; exact H|lra]]].
    apply (angle_polar r); [exact R0| |].
    + rewrite cos_plus, (cos_plus p e). replace (r * (cos p * cos e - sin p * sin e)) with (cos p * (r * cos e) - sin p * (r * sin e)) by ring. rewrite <- X, <- Y. ring.
    + rewrite sin_plus, (sin_plus p e). replace (r * (sin p * cos e + cos p * sin e)) with (sin p * (r * cos e) + cos p * (r * sin e)) by ring. rewrite <- X, <- Y. ring.
  - destruct (arc u (- d) U ltac:(lra)) as (r & e & R0 & E & X & Y & St). eexists. exists (- e). split; [reflexivity|]. split; [|split; [right; lra|intros H N; right; destruct St as [St1 St2]; [apply U'; exact H|lra|lra]]].
    rewrite cos_neg in X. rewrite sin_neg in Y. apply (angle_polar r); [exact R0| |].
    + rewrite cos_plus, (cos_plus p (- e)), cos_neg, sin_neg. replace (r * (cos p * cos e - sin p * - sin e)) with (cos p * (r * cos e) + sin p * (r * sin e)) by ring. rewrite <- X, <- Y. ring.
    + rewrite sin_plus, (sin_plus p (- e)), cos_neg, sin_neg. replace (r * (sin p * cos e + cos p * - sin e)) with (sin p * (r * cos e) - cos p * (r * sin e)) by ring. rewrite <- X, <- Y. ring.
Qed.
Print Assumptions C142_arc.
(** The other columns, such as altitudes, stay between the values of the two rows. *)
Theorem C142_between : forall ts y i a b u v t, rising ts -> length y = length ts ->
  nth_error ts i = Some a -> nth_error ts (S i) = Some b -> nth_error y i = Some u -> nth_error y (S i) = Some v -> a <= t <= b ->
  exists w, simple linear ts y t = Ok w /\ Rmin u v <= w <= Rmax u v /\ (w - u) * (b - a) = (t - a) * (v - u).
Proof.
  intros ts y i a b u v t S L A B U V T.
  assert (I : inside ts t). { pose proof (row_inside _ _ _ S A) as (a0 & z & H1 & H2 & H3). pose proof (row_inside _ _ _ S B) as (a1 & z1 & G1 & G2 & G3). rewrite H1 in G1. injection G1 as <-. exists a0, z. split; [exact H1|]. split; [exact H2|]. lra. }
  assert (AB : a < b). { clear - S A B. revert i A B. induction ts as [|c l IH]; intros [|j] A B; try discriminate; inversion S as [|? ? S' F]; subst. - injection A as ->. rewrite Forall_forall in F. apply F. apply nth_error_In with O. exact B. - apply (IH S' j); assumption. }
  unfold simple. rewrite (interp_inside _ _ _ _ I). eexists. split; [reflexivity|]. rewrite (linear_value ts y i a b u v t S L A B U V T).
  assert (W : 0 <= (t - a) / (b - a) <= 1). { split; [apply Rle_mult_inv_pos; lra|]. apply (Rmult_le_reg_r (b - a)); [lra|]. replace ((t - a) / (b - a) * (b - a)) with (t - a) by (field; lra). lra. }
  split; [|field; lra]. set (w := (t - a) / (b - a)) in *. clearbody w. unfold Rmin, Rmax. destruct (Rle_dec u v); nra.
Qed.
Print Assumptions C142_between.

(** Moving more than half a turn between two rows, as the sun may in azimuth over the day that is left
    out of the table, the longitude given is nowhere on the way gone. *)
Theorem C142_gap_refuted : forall ts th i a b p q d t l, rising ts -> length th = length ts ->
  nth_error ts i = Some a -> nth_error ts (S i) = Some b -> nth_error th i = Some p -> nth_error th (S i) = Some q ->
  congr (2 * PI) q (p + d) -> PI < d < 2 * PI -> a < t < b -> longitude linear ts th t = Ok l ->
  forall s, 0 <= s <= d -> ~ congr (2 * PI) l (p + s).
Proof.
  intros ts th i a b p q d t l S L A B P Q C D T H s Hs [k K]. pose proof PI_RGT_0.
  assert (C' : congr (2 * PI) q (p + (d - 2 * PI))) by (destruct C as [j J]; exists (j + 1)%Z; rewrite plus_IZR; lra).
  destruct (C142_arc ts th i a b p q (d - 2 * PI) t S L A B P Q C' ltac:(lra) ltac:(lra)) as (l' & e & E & [j J] & _ & F). rewrite H in E. injection E as <-.
  destruct (F T ltac:(lra)) as [G|G]; [lra|].
  assert (Z1 : s = e + IZR (j - k) * (2 * PI)) by (rewrite minus_IZR; lra).
  assert (0 < IZR (j - k) * (2 * PI) < 1 * (2 * PI)) as [G1 G2] by lra.
  apply Rmult_lt_reg_r in G2; [|lra]. assert (0 < IZR (j - k)) by nra. apply lt_IZR in G2. apply (lt_IZR 0) in H1. lia.
Qed.
Print Assumptions C142_gap_refuted.
Example C142_gap_ex : rising [0; 1/2] /\ congr (2 * PI) (PI / 2 + 7 / 6 * PI) (PI / 2 + 7 / 6 * PI) /\ PI < 7 / 6 * PI < 2 * PI /\
  exists l, longitude linear [0; 1/2] [PI / 2; PI / 2 + 7 / 6 * PI] (1 / 4) = Ok l.
Proof.
  pose proof PI_RGT_0. split; [repeat constructor; lra|]. split; [apply congr_refl|]. split; [lra|].
  destruct (C142_range linear [0; 1/2] [PI / 2; PI / 2 + 7 / 6 * PI] (1 / 4)) as (l & E & _); [|exists l; exact E]. exists 0, (1/2). split; [reflexivity|]. split; [reflexivity|lra].
Qed.
(** On the way the pace is not even: a quarter of the time is not a quarter of the way. *)
Theorem C142_pace_refuted : exists ts th t l, rising ts /\ ts = [0; 1] /\ th = [0; PI / 2] /\ t = 1 / 4 /\ longitude linear ts th t = Ok l /\ l <> PI / 2 * t.
Proof.
  pose proof PI_RGT_0. assert (I : inside [0; 1] (1 / 4)) by (exists 0, 1; split; [reflexivity|]; split; [reflexivity|lra]).
  exists [0; 1], [0; PI / 2], (1 / 4). rewrite (longitude_inside _ _ _ _ I). eexists. split; [repeat constructor; lra|]. do 3 (split; [reflexivity|]). split; [reflexivity|].
  rewrite (linear_value [0; 1] (map cos [0; PI / 2]) 0 0 1 (cos 0) (cos (PI / 2))) by (try reflexivity; try lra; repeat constructor; lra).
  rewrite (linear_value [0; 1] (map sin [0; PI / 2]) 0 0 1 (sin 0) (sin (PI / 2))) by (try reflexivity; try lra; repeat constructor; lra).
  rewrite cos_0, sin_0, cos_PI2, sin_PI2. set (x := 1 + _). set (y := 0 + _). assert (Hx : x = 3 / 4) by (unfold x; field). assert (Hy : y = 1 / 4) by (unfold y; field). clearbody x y. intros E.
  destruct (atan2_spec y x) as [X Y]. assert (K : congr (2 * PI) (atan2 y x) (PI / 8)). { apply congr_trans with (angle x y); [apply congr_sym, angle_atan|]. rewrite E. replace (PI / 2 * (1 / 4)) with (PI / 8) by field. apply congr_refl. }
  rewrite (cos_congr _ _ K) in X. rewrite (sin_congr _ _ K) in Y. set (r := sqrt _) in *. clearbody r.
  assert (D : 2 * x * y = r * r * sin (2 * (PI / 8))) by (rewrite sin_2a; rewrite X, Y; ring).
  assert (F : x * x - y * y = r * r * cos (2 * (PI / 8))) by (rewrite cos_2a; rewrite X, Y; ring).
  replace (2 * (PI / 8)) with (PI / 4) in D, F by field. rewrite sin_cos_PI4 in D. rewrite <- F in D. rewrite Hx, Hy in D. lra.
Qed.
Print Assumptions C142_pace_refuted.
(** With the default kind a phase can be negative although none in the table is. *)
Theorem C142_phase_refuted : exists ts y t v, rising ts /\ passes parabola ts /\ Forall (fun p => 0 <= p <= 100) y /\ simple parabola ts y t = Ok v /\ v < 0.
Proof.
  exists [0; 1; 2], [0; 0; 1], (1 / 2), (- (1 / 8)). split; [repeat constructor; lra|]. split; [apply C142_parabola; lra|]. split; [repeat constructor; lra|].
  split; [|lra]. unfold simple. rewrite interp_inside by (exists 0, 2; split; [reflexivity|]; split; [reflexivity|lra]). f_equal. unfold parabola, weigh. cbn [combine map fold_right fst snd]. field.
Qed.
Print Assumptions C142_phase_refuted.

(** Over the end of the circle, from 350 to 10 degrees: never back through the south. *)
Example C142_arc_ex : let ts := [0; 1; 2] in let th := [PI; 35 / 18 * PI; PI / 18] in rising ts /\ congr (2 * PI) (PI / 18) (35 / 18 * PI + PI / 9) /\
  (exists l, longitude linear ts th 2 = Ok l /\ congr (2 * PI) l (PI / 18)) /\ longitude linear ts th 3 = Raise ValueError /\
  ~ (weigh (linear ts 1) (map cos th) = 0 /\ weigh (linear ts 1) (map sin th) = 0).
Proof.
  cbv zeta. pose proof PI_RGT_0. assert (S : rising [0; 1; 2]) by (repeat constructor; lra). split; [exact S|]. split; [exists (-1)%Z; cbn; lra|]. split.
  - destruct (C142_row linear [0; 1; 2] [PI; 35 / 18 * PI; PI / 18] [0; 0; 0] 2 2 (PI / 18) 0 S (C142_linear _ S ltac:(cbn; lia)) eq_refl eq_refl eq_refl eq_refl eq_refl) as [_ K]. exact K.
  - split.
    + apply (proj2 (C142_outside linear [0; 1; 2] [PI; 35 / 18 * PI; PI / 18] 3 ltac:(intros (a & z & A & B & C); injection A as <-; cbn in B; lra))).
    + pose proof (C142_linear _ S ltac:(cbn; lia) 1%nat 1 eq_refl) as P. intros [C D].
      pose proof (P (map cos [PI; 35 / 18 * PI; PI / 18]) eq_refl) as P1. pose proof (P (map sin [PI; 35 / 18 * PI; PI / 18]) eq_refl) as P2. rewrite C in P1. rewrite D in P2. cbn [map nth_error] in P1, P2. injection P1 as P1. injection P2 as P2.
      pose proof (sin2_cos2 (35 / 18 * PI)) as Q. unfold Rsqr in Q. rewrite P1, P2 in Q. lra.
Qed.
