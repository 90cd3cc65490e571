(** Proofs about the evolution of footprints. *)
From Coq Require Import List ZArith QArith Qround Qabs Qfield Bool Lia Lqa Permutation.
From Verif Require Import Base VaryExpt Foot.
Import ListNotations.
Open Scope nat_scope.

(** ** Remainders *)
Lemma qrem_spec : forall x per, (0 < per)%Q -> (0 <= qrem x per < per)%Q /\ (x == per * inject_Z (Qfloor (x / per)) + qrem x per)%Q.
Proof.
  intros x per P. unfold qrem. pose proof (Qfloor_le (x / per)) as A. pose proof (Qlt_floor (x / per)) as B. rewrite inject_Z_plus in B. change (inject_Z 1) with 1%Q in B.
  set (n := inject_Z (Qfloor (x / per))) in *. clearbody n.
  assert (E : (per * (x / per) == x)%Q) by (field; lra). set (y := (x / per)%Q) in *. clearbody y. split; [|ring]. rewrite <- E. split; nra.
Qed.
Lemma floor_unique : forall x n, (inject_Z n <= x < inject_Z n + 1)%Q -> Qfloor x = n.
Proof.
  intros x n [A B]. pose proof (Qfloor_le x) as C. pose proof (Qlt_floor x) as D. rewrite inject_Z_plus in D. change (inject_Z 1) with 1%Q in D.
  assert (X : (inject_Z (Qfloor x) < inject_Z (n + 1))%Q) by (rewrite inject_Z_plus; change (inject_Z 1) with 1%Q; lra).
  assert (Y : (inject_Z n < inject_Z (Qfloor x + 1))%Q) by (rewrite inject_Z_plus; change (inject_Z 1) with 1%Q; lra).
  rewrite <- Zlt_Qlt in X, Y. lia.
Qed.
Lemma qrem_unique : forall x per n r, (0 < per)%Q -> (0 <= r < per)%Q -> (x == per * inject_Z n + r)%Q -> Qfloor (x / per) = n /\ (qrem x per == r)%Q.
Proof.
  intros x per n r P [R1 R2] E. assert (F : Qfloor (x / per) = n).
  { apply floor_unique. rewrite E. setoid_replace ((per * inject_Z n + r) / per)%Q with (inject_Z n + r / per)%Q by (field; lra).
    assert (0 <= r / per)%Q by (apply Qle_shift_div_l; lra). assert (r / per < 1)%Q by (apply Qlt_shift_div_r; lra). lra. }
  split; [exact F|]. unfold qrem. rewrite F, E. ring.
Qed.
Lemma floor_mono : forall x y, (x <= y)%Q -> (Qfloor x <= Qfloor y)%Z.
Proof. intros. apply Qfloor_resp_le. assumption. Qed.
Lemma floor_nonneg : forall x, (0 <= x)%Q -> (0 <= Qfloor x)%Z.
Proof. intros x H. change 0%Z with (Qfloor 0). apply floor_mono. exact H. Qed.

(** ** A plateau in the first half of each period, then a ramp to the next *)
Definition ramp (per r : Q) : Q := if Qltb (per / 2) r then ((r - per / 2) / ((1 # 2) * per))%Q else 0%Q.
Lemma ramp_range : forall per r, (0 < per)%Q -> (0 <= r < per)%Q -> (0 <= ramp per r < 1)%Q.
Proof.
  intros per r P [A B]. unfold ramp. assert (H : (per / 2 == (1 # 2) * per)%Q) by field. destruct (Qltb (per / 2) r) eqn:E; [|lra]. apply Qltb_lt in E. rewrite H in *.
  split; [apply Qle_shift_div_l; lra|apply Qlt_shift_div_r; lra].
Qed.
Lemma ramp_mono : forall per r r', (0 < per)%Q -> (r <= r')%Q -> (ramp per r <= ramp per r')%Q.
Proof.
  intros per r r' P L. unfold ramp. assert (H : (per / 2 == (1 # 2) * per)%Q) by field.
  assert (G : forall z z', (z <= z')%Q -> (z / ((1 # 2) * per) <= z' / ((1 # 2) * per))%Q).
  { intros z z' Z. apply Qle_shift_div_l; [lra|]. setoid_replace (z / ((1 # 2) * per) * ((1 # 2) * per))%Q with z by (field; lra). exact Z. }
  destruct (Qltb (per / 2) r) eqn:E, (Qltb (per / 2) r') eqn:E'; rewrite ?Qltb_lt, ?Qltb_false in *; rewrite ?H in *; try lra.
  - apply G. lra.
  - apply Qle_shift_div_l; lra.
Qed.
(** not steeper than two per period *)
Lemma ramp_slope : forall per r r', (0 < per)%Q -> (r <= r')%Q -> (ramp per r' - ramp per r <= 2 * (r' - r) / per)%Q.
Proof.
  intros per r r' P L. unfold ramp. assert (H : (per / 2 == (1 # 2) * per)%Q) by field.
  assert (G : forall z, (z / ((1 # 2) * per) == 2 * z / per)%Q) by (intro z; field; lra).
  assert (K : forall z, (0 <= z)%Q -> (0 <= 2 * z / per)%Q) by (intros z Z; apply Qle_shift_div_l; lra).
  assert (A : forall a b, (2 * (a - b) / per == 2 * a / per - 2 * b / per)%Q) by (intros; field; lra).
  destruct (Qltb (per / 2) r) eqn:E, (Qltb (per / 2) r') eqn:E'; rewrite ?Qltb_lt, ?Qltb_false in *; rewrite ?G, ?H in *.
  - rewrite !A. lra.
  - lra.
  - pose proof (K ((1 # 2) * per - r)%Q ltac:(lra)) as X. rewrite !A in *. lra.
  - pose proof (K (r' - r)%Q ltac:(lra)). lra.
Qed.
(** steepest part: not steeper, so before the ramp is over some of the period is left *)
Lemma ramp_low : forall per r, (0 < per)%Q -> (0 <= r)%Q -> (ramp per r <= 2 * r / per)%Q.
Proof.
  intros per r P R. pose proof (ramp_slope per 0 r P R) as H. unfold ramp at 2 in H. assert (E : (per / 2 == (1 # 2) * per)%Q) by field. rewrite (proj2 (Qltb_false _ _)) in H by lra.
  setoid_replace (2 * (r - 0) / per)%Q with (2 * r / per)%Q in H by (field; lra). lra.
Qed.
Lemma ramp_high : forall per r, (0 < per)%Q -> (2 * r / per - 1 <= ramp per r)%Q.
Proof.
  intros per r P. unfold ramp. assert (H : (per / 2 == (1 # 2) * per)%Q) by field. destruct (Qltb (per / 2) r) eqn:E; rewrite ?Qltb_lt, ?Qltb_false in *.
  - setoid_replace ((r - per / 2) / ((1 # 2) * per))%Q with (2 * r / per - 1)%Q by (field; lra). lra.
  - rewrite H in E. assert (2 * r / per <= 1)%Q by (apply Qle_shift_div_r; lra). lra.
Qed.

Section Stair.
Variables (per : Q) (P s : Z -> Q).
Hypothesis per_pos : (0 < per)%Q.
Hypothesis climb : forall n, (0 <= n)%Z -> (P (n + 1) == P n + s (n + 1))%Q.
Definition stair (x : Q) : Q := (P (Qfloor (x / per)) + s (Qfloor (x / per) + 1) * ramp per (qrem x per))%Q.
Lemma P_mono : forall n m, (forall k, (0 < k)%Z -> (0 <= s k)%Q) -> (0 <= n <= m)%Z -> (P n <= P m)%Q.
Proof.
  intros n m Sg [N M]. replace m with (n + Z.of_nat (Z.to_nat (m - n)))%Z by lia. induction (Z.to_nat (m - n)) as [|k IH]; [rewrite Z.add_0_r; lra|].
  replace (n + Z.of_nat (S k))%Z with (n + Z.of_nat k + 1)%Z by lia. rewrite climb by lia. pose proof (Sg (n + Z.of_nat k + 1)%Z ltac:(lia)). lra.
Qed.
Lemma P_slope : forall n m c, (forall k, (0 < k)%Z -> (s k <= c)%Q) -> (0 <= n <= m)%Z -> (P m - P n <= c * inject_Z (m - n))%Q.
Proof.
  intros n m c Sg [N M].
  assert (G : forall k : nat, (P (n + Z.of_nat k) - P n <= c * inject_Z (Z.of_nat k))%Q).
  { induction k as [|k IH]; [rewrite Z.add_0_r; change (inject_Z (Z.of_nat 0)) with 0%Q; lra|].
    replace (n + Z.of_nat (S k))%Z with (n + Z.of_nat k + 1)%Z by lia. rewrite climb by lia. pose proof (Sg (n + Z.of_nat k + 1)%Z ltac:(lia)).
    replace (Z.of_nat (S k)) with (Z.of_nat k + 1)%Z by lia. rewrite inject_Z_plus. change (inject_Z 1) with 1%Q. lra. }
  specialize (G (Z.to_nat (m - n))). rewrite Z2Nat.id in G by lia. replace (n + (m - n))%Z with m in G by lia. exact G.
Qed.
Lemma stair_mono : (forall k, (0 < k)%Z -> (0 <= s k)%Q) -> forall x y, (0 <= x)%Q -> (x <= y)%Q -> (stair x <= stair y)%Q.
Proof.
  intros Sg x y X L. unfold stair. destruct (qrem_spec x per per_pos) as [Rx Ex], (qrem_spec y per per_pos) as [Ry Ey].
  pose proof (ramp_range per _ per_pos Rx) as Ax. pose proof (ramp_range per _ per_pos Ry) as Ay.
  assert (D : (x / per <= y / per)%Q) by (apply Qle_shift_div_l; [lra|]; setoid_replace (x / per * per)%Q with x by (field; lra); lra).
  assert (N : (0 <= Qfloor (x / per))%Z) by (apply floor_nonneg, Qle_shift_div_l; lra). pose proof (floor_mono _ _ D) as F.
  set (n := Qfloor (x / per)) in *. set (m := Qfloor (y / per)) in *. clearbody n m.
  destruct (Z.eq_dec n m) as [->|Hn].
  - assert (M : (ramp per (qrem x per) <= ramp per (qrem y per))%Q) by (apply ramp_mono; [exact per_pos|lra]).
    pose proof (Sg (m + 1)%Z ltac:(lia)). nra.
  - pose proof (P_mono (n + 1) m Sg ltac:(lia)) as Q1. rewrite climb in Q1 by lia. pose proof (Sg (n + 1)%Z ltac:(lia)). pose proof (Sg (m + 1)%Z ltac:(lia)). nra.
Qed.
Lemma stair_slope : forall c, (forall k, (0 < k)%Z -> (0 <= s k <= c)%Q) -> forall x y, (0 <= x)%Q -> (x <= y)%Q -> (stair y - stair x <= 2 * c * (y - x) / per)%Q.
Proof.
  intros c Sg x y X L. unfold stair. destruct (qrem_spec x per per_pos) as [Rx Ex], (qrem_spec y per per_pos) as [Ry Ey].
  pose proof (ramp_range per _ per_pos Rx) as Ax. pose proof (ramp_range per _ per_pos Ry) as Ay.
  assert (D : (x / per <= y / per)%Q) by (apply Qle_shift_div_l; [lra|]; setoid_replace (x / per * per)%Q with x by (field; lra); lra).
  assert (N : (0 <= Qfloor (x / per))%Z) by (apply floor_nonneg, Qle_shift_div_l; lra). pose proof (floor_mono _ _ D) as F.
  pose proof (ramp_high per (qrem x per) per_pos) as Hx. pose proof (ramp_low per (qrem y per) per_pos ltac:(lra)) as Ly.
  pose proof (fun H => ramp_slope per (qrem x per) (qrem y per) per_pos H) as Sl.
  pose proof (fun H => ramp_mono per (qrem x per) (qrem y per) per_pos H) as Mo.
  set (n := Qfloor (x / per)) in *. set (m := Qfloor (y / per)) in *. set (rx := qrem x per) in *. set (ry := qrem y per) in *. set (ax := ramp per rx) in *. set (ay := ramp per ry) in *.
  assert (E : (2 * c * (y - x) / per == c * (2 * inject_Z (m - n) + 2 * ry / per - 2 * rx / per))%Q).
  { unfold Z.sub. rewrite inject_Z_plus, inject_Z_opp, Ex, Ey. field. lra. }
  rewrite E. clearbody n m ax ay. assert (A2 : (2 * (ry - rx) / per == 2 * ry / per - 2 * rx / per)%Q) by (field; lra).
  set (u := (2 * rx / per)%Q) in *. set (v := (2 * ry / per)%Q) in *. clearbody u v.
  destruct (Z.eq_dec n m) as [->|Hn].
  - rewrite Z.sub_diag. change (inject_Z 0) with 0%Q. assert (Lr : (rx <= ry)%Q) by (rewrite Ex, Ey in L; lra). specialize (Sl Lr). rewrite A2 in Sl.
    destruct (Sg (m + 1)%Z ltac:(lia)) as [S1 S2].
    specialize (Mo Lr). nra.
  - pose proof (P_slope (n + 1) m c (fun k K => proj2 (Sg k K)) ltac:(lia)) as Q1. rewrite climb in Q1 by lia.
    replace (m - (n + 1))%Z with (m - n + - (1))%Z in Q1 by lia. rewrite inject_Z_plus in Q1. change (inject_Z (- (1))) with (-1)%Q in Q1.
    assert (Q2 : (1 <= inject_Z (m - n))%Q) by (change 1%Q with (inject_Z 1); rewrite <- Zle_Qle; lia). set (d := inject_Z (m - n)) in *. clearbody d.
    destruct (Sg (n + 1)%Z ltac:(lia)) as [S1 S2]. destruct (Sg (m + 1)%Z ltac:(lia)) as [S3 S4].
    set (a := s (n + 1)) in *. set (b := s (m + 1)) in *. set (p := P n) in *. set (q := P m) in *. clearbody a b p q.
    assert (B1 : (b * ay <= c * v)%Q) by nra. assert (B2 : (a * (1 - ax) <= c * (1 - ax))%Q) by nra. assert (B3 : (c * (1 - ax) <= c * (d - u + 1))%Q) by nra. lra.
Qed.
End Stair.

(** ** The two evolutions are stairs *)
Definition line_plat (rise : Q) (n : Z) : Q := (inject_Z n * rise)%Q.
Definition line_step (rise : Q) (n : Z) : Q := rise.
Lemma line_climb : forall rise n, (0 <= n)%Z -> (line_plat rise (n + 1) == line_plat rise n + line_step rise (n + 1))%Q.
Proof. intros. unfold line_plat, line_step. rewrite inject_Z_plus. change (inject_Z 1) with 1%Q. ring. Qed.
Lemma line_stair : forall per rise t0 t ph, (0 < per)%Q -> (0 <= t + ph - t0)%Q -> (line_at per rise t0 t ph == stair per (line_plat rise) (line_step rise) (t + ph - t0))%Q.
Proof.
  intros per rise t0 t ph P X. unfold line_at, stair, ramp, line_plat, line_step. cbv zeta. rewrite (proj2 (Qltb_false _ _)) by exact X.
  destruct (Qltb (per / 2) (qrem (t + ph - t0) per)); [field; lra|ring].
Qed.
Definition plat (steps : list Q) (n : Z) : Q := (qsum (firstn (Z.to_nat n + 1) steps) - hd 0 steps)%Q.
Definition step_of (steps : list Q) (n : Z) : Q := nth (Z.to_nat n) steps 0%Q.
Lemma qsum_app : forall a b, (qsum (a ++ b) == qsum a + qsum b)%Q.
Proof. unfold qsum. induction a as [|x a IH]; intro b; cbn [app fold_right]; [ring|]. rewrite IH. ring. Qed.
Lemma firstn_step : forall (l : list Q) k, (qsum (firstn (S k) l) == qsum (firstn k l) + nth k l 0)%Q.
Proof.
  induction l as [|x l IH]; intro k; [rewrite !firstn_nil; destruct k; cbn; reflexivity|]. destruct k as [|k]; [unfold qsum; cbn; ring|].
  change (firstn (S (S k)) (x :: l)) with (x :: firstn (S k) l). change (firstn (S k) (x :: l)) with (x :: firstn k l). unfold qsum in *. cbn [fold_right nth]. rewrite IH. ring.
Qed.
Lemma plat_climb : forall steps n, (0 <= n)%Z -> (plat steps (n + 1) == plat steps n + step_of steps (n + 1))%Q.
Proof.
  intros steps n N. unfold plat, step_of. replace (Z.to_nat (n + 1) + 1) with (S (Z.to_nat n + 1)) by lia. rewrite firstn_step. replace (Z.to_nat (n + 1)) with (Z.to_nat n + 1) by lia. ring.
Qed.
Lemma cumsum_nth : forall l s k, k < List.length l -> exists y, nth_error (cumsum_from s l) k = Some y /\ (y == s + qsum (firstn (k + 1) l))%Q.
Proof.
  induction l as [|x l IH]; intros s k K; cbn in K; [lia|]. destruct k as [|k].
  - exists (s + x)%Q. split; [reflexivity|]. unfold qsum. cbn. ring.
  - destruct (IH (s + x)%Q k) as (y & Y1 & Y2); [lia|]. exists y. split; [exact Y1|]. rewrite Y2. cbn [plus firstn]. unfold qsum. cbn [fold_right]. ring.
Qed.
Lemma cumsum_len : forall l s, List.length (cumsum_from s l) = List.length l.
Proof. induction l as [|x l IH]; intro s; cbn; [reflexivity|]. now rewrite IH. Qed.
Lemma py_nth_in : forall l i, (0 <= i < Z.of_nat (List.length l))%Z -> py_nth l i = Ok (nth (Z.to_nat i) l 0%Q).
Proof.
  intros l i I. unfold py_nth. replace (i <? 0)%Z with false by lia. replace (i <? 0)%Z with false by lia.
  rewrite (nth_error_nth' l 0%Q) by lia. reflexivity.
Qed.
Lemma py_nth_out : forall l i, (Z.of_nat (List.length l) <= i)%Z -> py_nth l i = Raise IndexError.
Proof.
  intros l i I. unfold py_nth. replace (i <? 0)%Z with false by lia. replace (i <? 0)%Z with false by lia.
  rewrite (proj2 (nth_error_None l (Z.to_nat i))) by lia. reflexivity.
Qed.
Lemma slopes_stair : forall per steps t0 t ph, (0 < per)%Q -> (0 <= t + ph - t0)%Q -> (Qfloor ((t + ph - t0) / per) + 1 < Z.of_nat (List.length steps))%Z ->
  exists v, slopes_at per steps t0 t ph = Ok v /\ (v == stair per (plat steps) (step_of steps) (t + ph - t0))%Q.
Proof.
  intros per steps t0 t ph P X L. unfold slopes_at. cbv zeta. set (x := (t + ph - t0)%Q) in *.
  assert (N : (0 <= Qfloor (x / per))%Z) by (apply floor_nonneg, Qle_shift_div_l; lra). set (n := Qfloor (x / per)) in *.
  rewrite py_nth_in by (unfold plateaus; rewrite map_length, cumsum_len; lia). cbn [bind]. rewrite py_nth_in by lia. cbn [bind]. eexists. split; [reflexivity|].
  rewrite (proj2 (Qltb_false _ _)) by exact X. unfold stair, ramp. fold n.
  assert (F : (nth (Z.to_nat n) (plateaus steps) 0 == plat steps n)%Q).
  { unfold plateaus, plat. destruct (cumsum_nth steps 0%Q (Z.to_nat n)) as (y & Y1 & Y2); [lia|].
    erewrite nth_error_nth; [|apply map_nth_error; exact Y1]. rewrite Y2. ring. }
  unfold step_of. destruct (Qltb (per / 2) (qrem x per)); rewrite F; [field; lra|ring].
Qed.
(** past the last season the footprint cannot be asked for *)
Lemma slopes_past : forall per steps t0 t ph, (0 < per)%Q -> (0 <= t + ph - t0)%Q -> (Z.of_nat (List.length steps) <= Qfloor ((t + ph - t0) / per) + 1)%Z ->
  slopes_at per steps t0 t ph = Raise IndexError.
Proof.
  intros per steps t0 t ph P X L. unfold slopes_at. cbv zeta. set (x := (t + ph - t0)%Q) in *. set (n := Qfloor (x / per)) in *.
  assert (N : (0 <= n)%Z) by (apply floor_nonneg, Qle_shift_div_l; lra). destruct (Z.eq_dec n (Z.of_nat (List.length steps) - 1)) as [E|E].
  - destruct (py_nth (plateaus steps) n) as [a|e] eqn:A.
    + cbn [bind]. rewrite py_nth_out by lia. reflexivity.
    + unfold py_nth in A. destruct ((if (n <? 0)%Z then _ else _) <? 0)%Z; [injection A as <-; reflexivity|]. destruct (nth_error _ _); [discriminate|injection A as <-; reflexivity].
  - rewrite py_nth_out by (unfold plateaus; rewrite map_length, cumsum_len; lia). reflexivity.
Qed.

(** ** Rolls *)
Lemma roll_perm : forall {A} (l : list A) k, Permutation (np_roll l k) l.
Proof. intros A l k. unfold np_roll. set (j := List.length l - _). clearbody j. rewrite <- (firstn_skipn j l) at 3. apply Permutation_app_comm. Qed.
Lemma swap_perm : forall l, 2 <= List.length l -> Permutation (swap_ends l) l.
Proof.
  intros [|x [|y l]] H; cbn in H; try lia. assert (E : y :: l <> []) by discriminate. change (swap_ends (x :: y :: l)) with (last (x :: y :: l) 0%Q :: removelast (y :: l) ++ [x]).
  change (last (x :: y :: l) 0%Q) with (last (y :: l) 0%Q). rewrite (app_removelast_last 0%Q E) at 3.
  set (a := last (y :: l) 0%Q). set (b := removelast (y :: l)). clearbody a b. change (a :: b ++ [x]) with ([a] ++ (b ++ [x])).
  rewrite (Permutation_app_comm [a]). rewrite <- app_assoc. cbn [app]. rewrite (Permutation_middle b [a] x). reflexivity.
Qed.
Lemma qsum_perm : forall a b, Permutation a b -> (qsum a == qsum b)%Q.
Proof. unfold qsum. induction 1; cbn [fold_right]; lra. Qed.
Lemma qsum_repeat : forall x n, (qsum (repeat x n) == x * inject_Z (Z.of_nat n))%Q.
Proof.
  intros x n. induction n as [|n IH]; [unfold qsum; cbn; ring|]. cbn [repeat]. unfold qsum in *. cbn [fold_right]. rewrite IH.
  replace (Z.of_nat (S n)) with (Z.of_nat n + 1)%Z by lia. rewrite inject_Z_plus. change (inject_Z 1) with 1%Q. ring.
Qed.
Lemma roll_sum : forall nslice scale order, 1 <= nslice -> (qsum (roll_of nslice scale order) == inject_Z (Z.of_nat nslice))%Q.
Proof.
  intros nslice scale order N. unfold roll_of. rewrite (qsum_perm _ _ (roll_perm _ _)).
  set (U := (inject_Z (Z.of_nat nslice) - (1 - scale) * (inject_Z (Z.of_nat nslice) - 1))%Q). change (qsum (U :: repeat (1 - scale)%Q (nslice - 1))) with (U + qsum (repeat (1 - scale)%Q (nslice - 1)))%Q.
  rewrite qsum_repeat. unfold U. replace (Z.of_nat (nslice - 1)) with (Z.of_nat nslice + - (1))%Z by lia. rewrite inject_Z_plus. change (inject_Z (- (1))) with (-1)%Q. ring.
Qed.
Lemma roll_len : forall nslice scale order, 1 <= nslice -> List.length (roll_of nslice scale order) = nslice.
Proof. intros. unfold roll_of. rewrite (Permutation_length (roll_perm _ _)). cbn [List.length]. rewrite repeat_length. lia. Qed.
Definition cycle_len (nslice : nat) (uniform : bool) : nat := nslice + if uniform then 1 else 0.
Lemma cycle_length : forall nslice scale order uniform i, 1 <= nslice -> List.length (slice_cycle nslice scale order uniform i) = cycle_len nslice uniform.
Proof. intros. unfold slice_cycle, cycle_len. rewrite app_length, (Permutation_length (roll_perm _ _)), roll_len by assumption. destruct uniform; reflexivity. Qed.
Lemma cycle_sum : forall nslice scale order uniform i, 1 <= nslice -> (qsum (slice_cycle nslice scale order uniform i) == inject_Z (Z.of_nat (cycle_len nslice uniform)))%Q.
Proof.
  intros. unfold slice_cycle, cycle_len. rewrite qsum_app, (qsum_perm _ _ (roll_perm _ _)), roll_sum by assumption. destruct uniform; unfold qsum; cbn [fold_right].
  - replace (Z.of_nat (nslice + 1)) with (Z.of_nat nslice + 1)%Z by lia. rewrite inject_Z_plus. change (inject_Z 1) with 1%Q. ring.
  - replace (nslice + 0) with nslice by lia. ring.
Qed.

(** Cycles of mean one leave the sum of steps where a constant footprint has it. *)
Lemma cycles_len : forall n l, List.length (cycles n l) = n * List.length l.
Proof. induction n as [|n IH]; intro l; [reflexivity|]. unfold cycles in *. cbn [repeat List.concat]. rewrite app_length, IH. cbn. reflexivity. Qed.
Lemma cycles_sum : forall n l c, (qsum l == inject_Z (Z.of_nat c))%Q -> (qsum (cycles n l) == inject_Z (Z.of_nat (n * c)))%Q.
Proof.
  induction n as [|n IH]; intros l c H; [reflexivity|]. unfold cycles in *. cbn [repeat List.concat]. rewrite qsum_app, H, (IH l c H). rewrite <- inject_Z_plus. replace (Z.of_nat c + Z.of_nat (n * c))%Z with (Z.of_nat (S n * c)) by lia. reflexivity.
Qed.
Lemma firstn_repeat : forall {A} (x : A) n k, k <= n -> firstn k (repeat x n) = repeat x k.
Proof. induction n as [|n IH]; intros k K; [replace k with 0 by lia; reflexivity|]. destruct k as [|k]; [reflexivity|]. cbn. f_equal. apply IH. lia. Qed.
Section Ones.
Variables (n_start n_end n_cycles : nat) (cycle : list Q).
Hypothesis mean : (qsum cycle == inject_Z (Z.of_nat (List.length cycle)))%Q.
Let sl := one_slopes n_start n_end n_cycles cycle.
Let rolled := n_cycles * List.length cycle.
Lemma one_len : List.length sl = n_start + rolled + n_end.
Proof. unfold sl, one_slopes, rolled. rewrite !app_length, !repeat_length, cycles_len. lia. Qed.
Lemma ones_before : forall k, k < n_start -> nth k sl 0%Q = 1%Q.
Proof. intros k K. unfold sl, one_slopes. rewrite app_nth1 by (rewrite repeat_length; exact K). erewrite nth_indep; [apply nth_repeat|rewrite repeat_length; exact K]. Qed.
Lemma ones_after : forall k, n_start + rolled <= k -> k < n_start + rolled + n_end -> nth k sl 0%Q = 1%Q.
Proof.
  intros k K1 K2. unfold sl, one_slopes. rewrite app_nth2 by (rewrite repeat_length; lia). rewrite repeat_length. rewrite app_nth2 by (rewrite cycles_len; unfold rolled in *; lia).
  rewrite cycles_len. erewrite nth_indep; [apply nth_repeat|rewrite repeat_length; unfold rolled in *; lia].
Qed.
Lemma sum_before : forall k, k <= n_start -> (qsum (firstn k sl) == inject_Z (Z.of_nat k))%Q.
Proof.
  intros k K. unfold sl, one_slopes. rewrite firstn_app, repeat_length. replace (k - n_start) with 0 by lia. cbn [firstn]. rewrite app_nil_r, firstn_repeat, qsum_repeat by exact K. ring.
Qed.
(** after [c] cycles *)
Lemma cycles_split : forall c, c <= n_cycles -> cycles n_cycles cycle = cycles c cycle ++ cycles (n_cycles - c) cycle.
Proof. intros c C. unfold cycles. rewrite <- concat_app, <- repeat_app. do 2 f_equal. lia. Qed.
Lemma sum_cycles : forall c, c <= n_cycles -> (qsum (firstn (n_start + c * List.length cycle) sl) == inject_Z (Z.of_nat (n_start + c * List.length cycle)))%Q.
Proof.
  intros c C. unfold sl, one_slopes. rewrite (cycles_split c C). rewrite <- app_assoc, app_assoc. rewrite firstn_app, app_length, repeat_length, cycles_len.
  replace (n_start + c * List.length cycle - (n_start + c * List.length cycle)) with 0 by lia. cbn [firstn]. rewrite app_nil_r.
  rewrite firstn_all2 by (rewrite app_length, repeat_length, cycles_len; lia). rewrite qsum_app, qsum_repeat, (cycles_sum c cycle _ mean). rewrite Nat2Z.inj_add, inject_Z_plus. ring.
Qed.
Lemma sum_after : forall k, n_start + rolled <= k <= n_start + rolled + n_end -> (qsum (firstn k sl) == inject_Z (Z.of_nat k))%Q.
Proof.
  intros k K. unfold sl, one_slopes. rewrite app_assoc, firstn_app. rewrite app_length, repeat_length, cycles_len. fold rolled.
  rewrite firstn_all2 by (rewrite app_length, repeat_length, cycles_len; fold rolled; lia). rewrite firstn_repeat by lia. rewrite !qsum_app, !qsum_repeat, (cycles_sum _ cycle _ mean). fold rolled.
  setoid_replace (1 * inject_Z (Z.of_nat n_start) + inject_Z (Z.of_nat rolled) + 1 * inject_Z (Z.of_nat (k - (n_start + rolled))))%Q with (inject_Z (Z.of_nat n_start) + inject_Z (Z.of_nat rolled) + inject_Z (Z.of_nat (k - (n_start + rolled))))%Q by ring.
  rewrite <- !inject_Z_plus. replace (Z.of_nat n_start + Z.of_nat rolled + Z.of_nat (k - (n_start + rolled)))%Z with (Z.of_nat k) by lia. reflexivity.
Qed.
(** Before and after rolling the slopes are those of a constant footprint. *)
Lemma slopes_line : forall per t0 t ph, (0 < per)%Q -> 1 <= n_start -> (0 <= t + ph - t0)%Q ->
  let n := Qfloor ((t + ph - t0) / per) in
  (n + 1 < Z.of_nat n_start \/ Z.of_nat (n_start + rolled) <= n + 1 < Z.of_nat (n_start + rolled + n_end))%Z ->
  exists v, slopes_at per sl t0 t ph = Ok v /\ (v == line_at per 1 t0 t ph)%Q.
Proof.
  intros per t0 t ph P S X n N. destruct (slopes_stair per sl t0 t ph P X) as (v & V1 & V2); [fold n; rewrite one_len; lia|].
  exists v. split; [exact V1|]. rewrite V2, line_stair by assumption. unfold stair. fold n.
  assert (N0 : (0 <= n)%Z) by (apply floor_nonneg, Qle_shift_div_l; lra).
  assert (E1 : (step_of sl (n + 1) == line_step 1 (n + 1))%Q).
  { unfold step_of, line_step. destruct N as [N|N]; [rewrite ones_before by lia|rewrite ones_after by lia]; reflexivity. }
  assert (H1 : hd 0%Q sl = 1%Q) by (unfold sl, one_slopes; destruct n_start; [lia|reflexivity]).
  assert (E2 : (plat sl n == line_plat 1 n)%Q).
  { unfold plat, line_plat. rewrite H1. assert (E : (qsum (firstn (Z.to_nat n + 1) sl) == inject_Z (Z.of_nat (Z.to_nat n + 1)))%Q) by (destruct N as [N|N]; [apply sum_before; lia|apply sum_after; lia]).
    rewrite E. replace (Z.of_nat (Z.to_nat n + 1)) with (n + 1)%Z by lia. rewrite inject_Z_plus. change (inject_Z 1) with 1%Q. ring. }
  rewrite E1, E2. reflexivity.
Qed.
(** At the end of every cycle too, while the pixel is out of season. *)
Lemma slopes_line_cycle : forall per t0 t ph c, (0 < per)%Q -> 1 <= n_start -> (0 <= t + ph - t0)%Q -> c <= n_cycles -> 0 < n_end ->
  Qfloor ((t + ph - t0) / per) = (Z.of_nat (n_start + c * List.length cycle) - 1)%Z -> (qrem (t + ph - t0) per <= per / 2)%Q ->
  exists v, slopes_at per sl t0 t ph = Ok v /\ (v == line_at per 1 t0 t ph)%Q.
Proof.
  intros per t0 t ph c P S X C E N R. assert (M : c * List.length cycle <= rolled) by (unfold rolled; apply Nat.mul_le_mono_r; exact C).
  destruct (slopes_stair per sl t0 t ph P X) as (v & V1 & V2); [rewrite one_len; lia|].
  exists v. split; [exact V1|]. rewrite V2, line_stair by assumption. unfold stair, ramp. rewrite N. rewrite (proj2 (Qltb_false _ _)) by exact R. unfold plat, line_plat.
  assert (H1 : hd 0%Q sl = 1%Q) by (unfold sl, one_slopes; destruct n_start; [lia|reflexivity]). rewrite H1.
  replace (Z.to_nat (Z.of_nat (n_start + c * List.length cycle) - 1) + 1) with (n_start + c * List.length cycle) by lia. rewrite sum_cycles by exact C.
  unfold Z.sub. rewrite inject_Z_plus. change (inject_Z (- (1))) with (-1)%Q. ring.
Qed.
End Ones.

(** ** Every season the slices share the same amount *)
Definition roll_idx (n k i : nat) : nat := if k <? i then n - i + k else k - i.
Lemma roll_nth : forall (l : list Q) i k, i < List.length l -> k < List.length l -> nth k (np_roll l (Z.of_nat i)) 0%Q = nth (roll_idx (List.length l) k i) l 0%Q.
Proof.
  intros l i k I K. unfold np_roll, roll_idx. rewrite Z.mod_small by lia. rewrite Nat2Z.id. set (n := List.length l) in *.
  destruct (Nat.ltb_spec k i) as [H|H].
  - rewrite app_nth1 by (rewrite skipn_length; fold n; lia). rewrite <- (firstn_skipn (n - i) l) at 2. rewrite app_nth2 by (rewrite firstn_length; fold n; lia).
    rewrite firstn_length. fold n. f_equal. lia.
  - rewrite app_nth2 by (rewrite skipn_length; fold n; lia). rewrite skipn_length. fold n. rewrite <- (firstn_skipn (n - i) l) at 2.
    replace (k - (n - (n - i))) with (k - i) by lia. rewrite app_nth1 by (rewrite firstn_length; fold n; lia). reflexivity.
Qed.
Lemma nodup_map_in : forall {A B} (f : A -> B) l, (forall x y, In x l -> In y l -> f x = f y -> x = y) -> NoDup l -> NoDup (map f l).
Proof.
  induction l as [|x l IH]; intros F N; cbn; constructor; inversion N as [|? ? N1 N2]; subst.
  - intro I. apply in_map_iff in I. destruct I as (y & Y1 & Y2). apply N1. rewrite <- (F y x); [exact Y2|now right|now left|exact Y1].
  - apply IH; [|exact N2]. intros a b A1 B1. apply F; now right.
Qed.
Lemma map_nth_seq : forall (l : list Q), map (fun i => nth i l 0%Q) (seq 0 (List.length l)) = l.
Proof.
  intro l. apply nth_ext with (d := 0%Q) (d' := 0%Q); [rewrite map_length, seq_length; reflexivity|]. intros k K. rewrite map_length, seq_length in K.
  rewrite (nth_indep _ 0%Q (nth 0 l 0%Q)) by (rewrite map_length, seq_length; exact K). rewrite (map_nth (fun i => nth i l 0%Q)), seq_nth by exact K. reflexivity.
Qed.
Lemma roll_share : forall (l : list Q) k, k < List.length l -> (qsum (map (fun i => nth k (np_roll l (Z.of_nat i)) 0%Q) (seq 0 (List.length l))) == qsum l)%Q.
Proof.
  intros l k K. apply qsum_perm. set (n := List.length l) in *.
  rewrite (map_ext_in _ (fun i => nth (roll_idx n k i) l 0%Q)) by (intros i I; apply in_seq in I; apply roll_nth; fold n; lia).
  rewrite <- (map_map (roll_idx n k) (fun i => nth i l 0%Q)). apply Permutation_trans with (map (fun i => nth i l 0%Q) (seq 0 n)); [|unfold n; rewrite map_nth_seq; reflexivity]. apply Permutation_map.
  apply NoDup_Permutation_bis; [|rewrite map_length, !seq_length; reflexivity|].
  - apply nodup_map_in; [|apply seq_NoDup]. intros x y X Y. apply in_seq in X, Y. unfold roll_idx. destruct (Nat.ltb_spec k x), (Nat.ltb_spec k y); lia.
  - intros x X. apply in_map_iff in X. destruct X as (i & <- & I). apply in_seq in I. apply in_seq. unfold roll_idx. destruct (Nat.ltb_spec k i); lia.
Qed.

(** ** Slices *)
Lemma splits_nth : forall nslice m i, i <= nslice * 2 -> nth i (splits nslice m) 0 = m * i / (nslice * 2).
Proof.
  intros nslice m i I. unfold splits. destruct i as [|i]; [rewrite Nat.mul_0_r; destruct (nslice * 2); reflexivity|]. cbn [nth].
  rewrite (nth_indep _ 0 ((fun k => m * (k + 1) / (nslice * 2)) 0)) by (rewrite map_length, seq_length; lia). rewrite (map_nth (fun k => m * (k + 1) / (nslice * 2))), seq_nth by lia.
  f_equal. lia.
Qed.
Lemma splits_mono : forall nslice m i j, i <= j -> m * i / (nslice * 2) <= m * j / (nslice * 2).
Proof.
  intros nslice m i j H. destruct (Nat.eq_dec (nslice * 2) 0) as [->|E]; [reflexivity|]. apply Nat.div_le_mono; [exact E|]. apply Nat.mul_le_mono_l. exact H.
Qed.
Lemma nth_firstn_lt : forall (l : list nat) k q, q < k -> nth q (firstn k l) 0 = nth q l 0.
Proof. induction l as [|x l IH]; intros k q H; [rewrite firstn_nil; destruct q; reflexivity|]. destruct k as [|k]; [lia|]. destruct q as [|q]; [reflexivity|]. cbn. apply IH. lia. Qed.
Lemma in_slice : forall (l : list nat) a b p, b <= List.length l -> (In p (py_slice l a b) <-> exists q, a <= q < b /\ nth q l 0 = p).
Proof.
  intros l a b p B. unfold py_slice. split.
  - intro I. destruct (In_nth _ _ 0 I) as (q & Q1 & Q2). rewrite firstn_length, skipn_length in Q1. rewrite nth_firstn_lt in Q2 by lia. exists (a + q). split; [lia|].
    rewrite <- Q2. rewrite <- (firstn_skipn a l) at 1. rewrite app_nth2 by (rewrite firstn_length; lia). f_equal. rewrite firstn_length. lia.
  - intros (q & Q1 & <-). assert (E : nth q l 0 = nth (q - a) (firstn (b - a) (skipn a l)) 0).
    { rewrite nth_firstn_lt by lia. rewrite <- (firstn_skipn a l) at 1. rewrite app_nth2 by (rewrite firstn_length; lia). f_equal. rewrite firstn_length. lia. }
    rewrite E. apply nth_In. rewrite firstn_length, skipn_length. lia.
Qed.
Lemma in_piece : forall nslice indx i p, 1 <= i <= nslice * 2 ->
  (In p (piece nslice indx i) <-> exists q, List.length indx * (i - 1) / (nslice * 2) <= q < List.length indx * i / (nslice * 2) /\ nth q indx 0 = p).
Proof.
  intros nslice indx i p I. unfold piece. rewrite !splits_nth by lia. apply in_slice. apply Nat.div_le_upper_bound; [lia|]. nia.
Qed.
(** Each of the pixels is in exactly one piece. *)
Lemma piece_one : forall nslice indx p, 1 <= nslice -> NoDup indx -> In p indx ->
  exists i, (1 <= i <= nslice * 2 /\ In p (piece nslice indx i)) /\ forall i', 1 <= i' <= nslice * 2 -> In p (piece nslice indx i') -> i' = i.
Proof.
  intros nslice indx p N D I. destruct (In_nth _ _ 0 I) as (q & Q1 & Q2). set (m := List.length indx) in *. set (s := fun i => m * i / (nslice * 2)).
  assert (Ex : exists i, 1 <= i <= nslice * 2 /\ s (i - 1) <= q < s i).
  { assert (G : forall j, j <= nslice * 2 -> q < s j -> exists i, 1 <= i <= j /\ s (i - 1) <= q < s i).
    { induction j as [|j IH]; intros J H; [unfold s in H; rewrite Nat.mul_0_r, Nat.div_0_l in H by lia; lia|].
      destruct (Nat.lt_ge_cases q (s j)) as [L|L]; [destruct (IH ltac:(lia) L) as (i & I1 & I2); exists i; split; [lia|exact I2]|].
      exists (S j). split; [lia|]. replace (S j - 1) with j by lia. split; [exact L|exact H]. }
    apply G; [lia|]. unfold s. rewrite Nat.div_mul by lia. exact Q1. }
  destruct Ex as (i & I1 & I2). exists i. split.
  - split; [exact I1|]. apply in_piece; [exact I1|]. exists q. auto.
  - intros i' I' P. apply in_piece in P; [|exact I']. destruct P as (q' & P1 & P2). fold m in P1.
    assert (L' : q' < m) by (assert (m * i' / (nslice * 2) <= m) by (apply Nat.div_le_upper_bound; [lia|nia]); lia).
    assert (E : q' = q) by (apply (proj1 (NoDup_nth indx 0) D); [exact L'|exact Q1|congruence]). subst q'.
    destruct (Nat.lt_trichotomy i' i) as [H|[H|H]]; [|exact H|].
    + pose proof (splits_mono nslice m i' (i - 1) ltac:(lia)). unfold s in I2. lia.
    + pose proof (splits_mono nslice m i (i' - 1) ltac:(lia)). unfold s in I2. lia.
Qed.
Lemma slice_one : forall nslice north wfd p, 1 <= nslice -> NoDup wfd -> In p wfd ->
  exists j, (j < nslice /\ In p (slice_indx nslice north wfd j)) /\ forall j', j' < nslice -> In p (slice_indx nslice north wfd j') -> j' = j.
Proof.
  intros nslice north wfd p N D I.
  assert (G : exists side, (side = filter north wfd \/ side = filter (fun q => negb (north q)) wfd) /\ In p side /\
    forall j, In p (slice_indx nslice north wfd j) <-> In p (piece nslice side (j + 1)) \/ In p (piece nslice side (j + 1 + nslice))).
  { assert (Pin : forall l i, In p (piece nslice l i) -> In p l).
    { intros l i H. unfold piece, py_slice in H. assert (H' : In p (skipn (nth (i - 1) (splits nslice (List.length l)) 0) l)) by (rewrite <- (firstn_skipn (nth i (splits nslice (List.length l)) 0 - nth (i - 1) (splits nslice (List.length l)) 0)); apply in_or_app; left; exact H).
      rewrite <- (firstn_skipn (nth (i - 1) (splits nslice (List.length l)) 0) l). apply in_or_app. right. exact H'. }
    assert (Sl : forall j, In p (slice_indx nslice north wfd j) <-> (In p (piece nslice (filter north wfd) (j + 1)) \/ In p (piece nslice (filter (fun q => negb (north q)) wfd) (j + 1))) \/
      (In p (piece nslice (filter north wfd) (j + 1 + nslice)) \/ In p (piece nslice (filter (fun q => negb (north q)) wfd) (j + 1 + nslice)))).
    { intro j. unfold slice_indx. cbn [flat_map]. rewrite app_nil_r, !in_app_iff. reflexivity. }
    destruct (north p) eqn:E.
    - exists (filter north wfd). split; [now left|]. split; [apply filter_In; auto|]. intro j. rewrite Sl.
      assert (Z : forall i, ~ In p (piece nslice (filter (fun q => negb (north q)) wfd) i)) by (intros i H; apply Pin, filter_In in H; rewrite E in H; destruct H; discriminate).
      pose proof (Z (j + 1)). pose proof (Z (j + 1 + nslice)). tauto.
    - exists (filter (fun q => negb (north q)) wfd). split; [now right|]. split; [apply filter_In; rewrite E; auto|]. intro j. rewrite Sl.
      assert (Z : forall i, ~ In p (piece nslice (filter north wfd) i)) by (intros i H; apply Pin, filter_In in H; rewrite E in H; destruct H; discriminate).
      pose proof (Z (j + 1)). pose proof (Z (j + 1 + nslice)). tauto. }
  destruct G as (side & Sd & Ip & H). assert (Ds : NoDup side) by (destruct Sd as [->| ->]; apply NoDup_filter; exact D).
  destruct (piece_one nslice side p N Ds Ip) as (i & [I1 I2] & I3).
  exists (if i <=? nslice then i - 1 else i - 1 - nslice). split.
  - destruct (Nat.leb_spec i nslice) as [L|L]; (split; [lia|]); apply H; [left; replace (i - 1 + 1) with i by lia; exact I2|right; replace (i - 1 - nslice + 1 + nslice) with i by lia; exact I2].
  - intros j' J' P. apply H in P. destruct P as [P|P]; apply I3 in P; try lia; destruct (Nat.leb_spec i nslice); lia.
Qed.
(** Sizes of slices *)
Lemma piece_size : forall nslice indx i, 1 <= nslice -> 1 <= i <= nslice * 2 ->
  List.length indx / (nslice * 2) <= List.length (piece nslice indx i) <= List.length indx / (nslice * 2) + 1.
Proof.
  intros nslice indx i N I. unfold piece, py_slice. rewrite !splits_nth by lia. rewrite firstn_length, skipn_length. set (m := List.length indx). set (d := nslice * 2).
  assert (Hd : 0 < d) by (unfold d; lia). assert (A : m * i / d <= m) by (apply Nat.div_le_upper_bound; [lia|unfold d; nia]). rewrite Nat.min_l by lia.
  assert (E : m * i = m * (i - 1) + m) by nia.
  pose proof (Nat.div_mod m d ltac:(lia)) as D1. pose proof (Nat.div_mod (m * (i - 1)) d ltac:(lia)) as D2. pose proof (Nat.div_mod (m * i) d ltac:(lia)) as D3.
  pose proof (Nat.mod_upper_bound m d ltac:(lia)). pose proof (Nat.mod_upper_bound (m * (i - 1)) d ltac:(lia)). pose proof (Nat.mod_upper_bound (m * i) d ltac:(lia)).
  set (a := m / d) in *. set (b := m * (i - 1) / d) in *. set (c := m * i / d) in *. nia.
Qed.

(** ** Ranges of right ascension *)
Lemma in_range_halves : forall ra sun, (0 <= ra < 1)%Q -> ~ (ra == qrem (sun + (1 # 4)) 1)%Q -> ~ (ra == qrem (sun + (3 # 4)) 1)%Q ->
  in_ra_range ra (sun + (1 # 4)) (sun + (3 # 4)) = negb (in_ra_range ra (sun + (3 # 4)) (sun + (1 # 4))).
Proof.
  intros ra sun R N1 N2. unfold in_ra_range. cbv zeta. set (l := qrem (sun + (1 # 4)) 1) in *. set (h := qrem (sun + (3 # 4)) 1) in *.
  assert (C : forall a b, Qle_bool a b = negb (Qltb b a)) by (intros; unfold Qltb; rewrite negb_involutive; reflexivity).
  assert (F : ~ (l == h)%Q).
  { unfold l, h. destruct (qrem_spec (sun + (1 # 4)) 1 ltac:(lra)) as [A1 A2], (qrem_spec (sun + (3 # 4)) 1 ltac:(lra)) as [B1 B2]. intro E. rewrite E in A2.
    set (x := Qfloor ((sun + (1 # 4)) / 1)) in *. set (y := Qfloor ((sun + (3 # 4)) / 1)) in *.
    assert (K : (inject_Z (y - x) == 1 # 2)%Q) by (unfold Z.sub; rewrite inject_Z_plus, inject_Z_opp; lra).
    unfold inject_Z, Qeq in K. cbn in K. lia. }
  clearbody l h. destruct (Qle_bool l h) eqn:E1, (Qle_bool h l) eqn:E2.
  - exfalso. apply F. apply Qle_bool_iff in E1, E2. lra.
  - destruct (Qle_bool l ra) eqn:X1, (Qle_bool ra h) eqn:X2, (Qle_bool h ra) eqn:X3, (Qle_bool ra l) eqn:X4; try reflexivity; exfalso;
      repeat match goal with H : Qle_bool _ _ = true |- _ => apply Qle_bool_iff in H | H : Qle_bool _ _ = false |- _ => apply Qle_bool_false in H end; first [lra | apply N1; lra | apply N2; lra].
  - destruct (Qle_bool l ra) eqn:X1, (Qle_bool ra h) eqn:X2, (Qle_bool h ra) eqn:X3, (Qle_bool ra l) eqn:X4; try reflexivity; exfalso;
      repeat match goal with H : Qle_bool _ _ = true |- _ => apply Qle_bool_iff in H | H : Qle_bool _ _ = false |- _ => apply Qle_bool_false in H end; first [lra | apply N1; lra | apply N2; lra].
  - exfalso. apply Qle_bool_false in E1, E2. lra.
Qed.
