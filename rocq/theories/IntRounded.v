(** Model of [IntRounded], the rounding comparison helper.
    /repo/rubin_scheduler/scheduler/utils/utils.py lines 151-267. *)
From Coq Require Import List ZArith QArith Qround Qpower Qabs Bool Lia Lqa.
From Verif Require Import Base.
Import ListNotations.
Open Scope Q_scope.

(** Integer decimal logarithm of a positive integer, by repeated division;
    helper for [om10]. *)
Fixpoint zlog10_fuel (fuel : nat) (z : Z) : Z :=
  match fuel with
  | O => 0%Z
  | S f => if (z <? 10)%Z then 0%Z else (1 + zlog10_fuel f (z / 10))%Z
  end.
Definition zlog10 (z : Z) : Z := zlog10_fuel (Z.to_nat (Z.log2_up z) + 1) z.

(** [np.floor(np.log10(np.abs(x)))] for nonzero [x], utils.py lines 205-210.
    Exact arithmetic: float error of log10 at powers of ten is not modelled. *)
Definition om10 (x : Q) : Z :=
  let n := Z.abs (Qnum x) in
  let d := Zpos (Qden x) in
  if (d <=? n)%Z then zlog10 (n / d)
  else (* |x| < 1: minus the least m with d/n <= 10^m *)
    let c := ((d + n - 1) / n)%Z in
    if (10 ^ zlog10 c =? c)%Z then (- zlog10 c)%Z else (- (zlog10 c + 1))%Z.

(** [np.round]: round half to even. *)
Definition Qround_even (x : Q) : Z :=
  let f := Qfloor x in
  let r := x - inject_Z f in
  if Qltb r (1#2) then f
  else if Qltb (1#2) r then (f + 1)%Z
  else if Z.even f then f else (f + 1)%Z.

Definition nonzero (x : Q) : bool := negb (Qeq_bool x 0).

(** minimum of a list of integers, with the head as start *)
Definition zmin_list (z : Z) (l : list Z) : Z := fold_left Z.min l z.

Definition ir_scale : Q := inject_Z 1000000.
Definition ir_limit : Q := 1 # 1000000000.

(** [check_limit] lines 188-220, on already broadcast pairs of elements.
    The precedence of [v1 - floor * self.scale] (lines 218-219) is kept as
    written: the difference is not multiplied by the scale. *)
Definition order_of_mag (ps : list (Q * Q)) : option Z :=
  let v1 := filter nonzero (map fst ps) in
  let v2 := filter nonzero (map snd ps) in
  match map om10 v1, map om10 v2 with
  | [], _ | _, [] => None
  | a :: l1, b :: l2 => Some (Z.min (zmin_list a l1) (zmin_list b l2))
  end.

Definition is_close (om : Z) (p : Q * Q) : bool :=
  let sf := Qpower (inject_Z 10) om in
  Qle_bool (Qabs (fst p / sf - snd p / sf)) ir_limit.

Definition Qminb (a b : Q) : Q := if Qle_bool a b then a else b.

Definition round_pair (p : Q * Q) : Q * Q :=
  let fl := inject_Z (Qfloor (Qminb (fst p) (snd p))) in
  (inject_Z (Qround_even (fst p - fl * ir_scale)),
   inject_Z (Qround_even (snd p - fl * ir_scale))).

Definition check_limit (ps : list (Q * Q)) : list (Q * Q) :=
  match order_of_mag ps with
  | None => ps
  | Some om => if existsb (is_close om) ps then map round_pair ps else ps
  end.

(** numpy broadcasting of one-dimensional operands ([np.atleast_1d]). *)
Definition bcast (v1 v2 : list Q) : res (list (Q * Q)) :=
  match v1, v2 with
  | [a], _ => Ok (map (fun b => (a, b)) v2)
  | _, [b] => Ok (map (fun a => (a, b)) v1)
  | _, _ => if Nat.eqb (length v1) (length v2) then Ok (combine v1 v2)
            else Raise ValueError
  end.

(** The six comparisons, lines 222-244. *)
Definition ir_cmp (cmp : Q -> Q -> bool) (v1 v2 : list Q) : res (list bool) :=
  bind (bcast v1 v2) (fun ps => Ok (map (fun p => cmp (fst p) (snd p)) (check_limit ps))).
Definition ir_le := ir_cmp Qle_bool.
Definition ir_lt := ir_cmp Qltb.
Definition ir_ge := ir_cmp (fun a b => Qle_bool b a).
Definition ir_gt := ir_cmp (fun a b => Qltb b a).
Definition ir_eq := ir_cmp Qeq_bool.
Definition ir_ne := ir_cmp (fun a b => negb (Qeq_bool a b)).

(** ** Facts *)

Lemma Qfloor_bounds : forall x, inject_Z (Qfloor x) <= x /\ x < inject_Z (Qfloor x) + 1.
Proof.
  intros x. split; [apply Qfloor_le|].
  pose proof (Qlt_floor x) as H. rewrite inject_Z_plus in H.
  unfold inject_Z at 2 in H. exact H.
Qed.

Lemma round_even_bounds : forall x,
  x - (1#2) <= inject_Z (Qround_even x) /\ inject_Z (Qround_even x) <= x + (1#2).
Proof.
  intros x. unfold Qround_even. destruct (Qfloor_bounds x) as [H1 H2].
  destruct (Qltb (x - inject_Z (Qfloor x)) (1#2)) eqn:E1.
  { apply Qltb_lt in E1. split; lra. }
  apply Qltb_false in E1.
  destruct (Qltb (1#2) (x - inject_Z (Qfloor x))) eqn:E2.
  { apply Qltb_lt in E2. rewrite inject_Z_plus. change (inject_Z 1) with 1. split; lra. }
  apply Qltb_false in E2.
  destruct (Z.even (Qfloor x)).
  - split; lra.
  - rewrite inject_Z_plus. change (inject_Z 1) with 1. split; lra.
Qed.

Lemma Qfloor_mono : forall x y, x <= y -> (Qfloor x <= Qfloor y)%Z.
Proof. intros. now apply Qfloor_resp_le. Qed.

Lemma inject_Z_le_iff : forall a b, inject_Z a <= inject_Z b <-> (a <= b)%Z.
Proof. intros. unfold inject_Z, Qle. simpl. lia. Qed.
Lemma inject_Z_lt_iff : forall a b, inject_Z a < inject_Z b <-> (a < b)%Z.
Proof. intros. unfold inject_Z, Qlt. simpl. lia. Qed.

Lemma Qfloor_eq_lt : forall x y, x <= y -> Qfloor x <> Qfloor y ->
  (Qfloor x + 1 <= Qfloor y)%Z.
Proof. intros x y H N. pose proof (Qfloor_mono _ _ H). lia. Qed.

Lemma round_even_mono : forall x y, x <= y -> (Qround_even x <= Qround_even y)%Z.
Proof.
  intros x y Hxy. destruct (Z.eq_dec (Qfloor x) (Qfloor y)) as [E|N].
  - unfold Qround_even. rewrite <- E.
    destruct (Qltb (x - inject_Z (Qfloor x)) (1#2)) eqn:A1;
    destruct (Qltb (y - inject_Z (Qfloor x)) (1#2)) eqn:B1; try lia.
    + destruct (Qltb (1 # 2) (y - inject_Z (Qfloor x))); [lia|].
      destruct (Z.even (Qfloor x)); lia.
    + apply Qltb_false in A1. apply Qltb_lt in B1. lra.
    + destruct (Qltb (1#2) (x - inject_Z (Qfloor x))) eqn:A2;
      destruct (Qltb (1#2) (y - inject_Z (Qfloor x))) eqn:B2; try lia.
      * apply Qltb_lt in A2. apply Qltb_false in B2. lra.
      * destruct (Z.even (Qfloor x)); lia.
  - pose proof (Qfloor_eq_lt _ _ Hxy N) as H.
    assert (Ha : forall z, (Qfloor z <= Qround_even z <= Qfloor z + 1)%Z).
    { intros z. unfold Qround_even. destruct (Qltb (z - inject_Z (Qfloor z)) (1#2)); [lia|].
      destruct (Qltb (1 # 2) (z - inject_Z (Qfloor z))); [lia|].
      destruct (Z.even (Qfloor z)); lia. }
    pose proof (Ha x). pose proof (Ha y). lia.
Qed.

Lemma Qround_even_compat : forall x y, x == y -> Qround_even x = Qround_even y.
Proof.
  intros x y H. apply Z.le_antisymm; apply round_even_mono; rewrite H; apply Qle_refl.
Qed.

Lemma round_pair_mono : forall p, fst p <= snd p -> fst (round_pair p) <= snd (round_pair p).
Proof.
  intros [a b] H. unfold round_pair; cbn [fst snd] in *.
  apply inject_Z_le_iff. apply round_even_mono. lra.
Qed.
Lemma round_pair_mono' : forall p, snd p <= fst p -> snd (round_pair p) <= fst (round_pair p).
Proof.
  intros [a b] H. unfold round_pair; cbn [fst snd] in *.
  apply inject_Z_le_iff. apply round_even_mono. lra.
Qed.

(** The rounded values stay within half a unit of the shifted originals. *)
Lemma round_pair_le_bound : forall p,
  fst (round_pair p) <= snd (round_pair p) -> fst p <= snd p + 1.
Proof.
  intros [a b] H. unfold round_pair in H; cbn [fst snd] in *.
  set (k := inject_Z (Qfloor (Qminb a b)) * ir_scale) in *.
  pose proof (round_even_bounds (a - k)). pose proof (round_even_bounds (b - k)). lra.
Qed.
Lemma round_pair_lt_bound : forall p,
  fst (round_pair p) < snd (round_pair p) -> fst p < snd p.
Proof.
  intros p H. destruct (Qlt_le_dec (fst p) (snd p)) as [L|L]; [exact L|].
  apply round_pair_mono' in L. exfalso. apply (Qlt_not_le _ _ H L).
Qed.

(** Every pair produced by [check_limit] is the original pair or its rounding. *)
Lemma check_limit_cases : forall ps,
  check_limit ps = ps \/ check_limit ps = map round_pair ps.
Proof.
  intros ps. unfold check_limit. destruct (order_of_mag ps) as [om|]; auto.
  destruct (existsb (is_close om) ps); auto.
Qed.

Lemma check_limit_length : forall ps, length (check_limit ps) = length ps.
Proof.
  intros ps. destruct (check_limit_cases ps) as [->| ->]; [reflexivity|apply map_length].
Qed.

(** ** Correctness of the decimal order of magnitude *)

Lemma zlog10_fuel_spec : forall fuel z,
  (1 <= z)%Z -> (z < 2 ^ Z.of_nat fuel)%Z ->
  (0 <= zlog10_fuel fuel z)%Z /\
  (10 ^ zlog10_fuel fuel z <= z < 10 ^ (zlog10_fuel fuel z + 1))%Z.
Proof.
  induction fuel as [|f IH]; intros z H1 H2.
  - simpl in H2. lia.
  - cbn [zlog10_fuel]. destruct (Z.ltb_spec z 10) as [L|L].
    + change (10 ^ 0)%Z with 1%Z. change (10 ^ (0 + 1))%Z with 10%Z. lia.
    + assert (Hd : (1 <= z / 10)%Z) by (apply Z.div_le_lower_bound; lia).
      assert (Hb : (z / 10 < 2 ^ Z.of_nat f)%Z).
      { apply Z.div_lt_upper_bound; [lia|].
        rewrite Nat2Z.inj_succ, Z.pow_succ_r in H2 by lia. nia. }
      destruct (IH _ Hd Hb) as [Hn [Ha Hc]].
      set (k := zlog10_fuel f (z / 10)) in *.
      split; [lia|].
      replace (1 + k)%Z with (Z.succ k) by lia. replace (Z.succ k + 1)%Z with (Z.succ (k + 1)) by lia.
      rewrite !Z.pow_succ_r by lia.
      pose proof (Z.mul_div_le z 10 ltac:(lia)).
      pose proof (Z.mod_pos_bound z 10 ltac:(lia)). pose proof (Z.div_mod z 10 ltac:(lia)).
      split; nia.
Qed.

Lemma zlog10_spec : forall z, (1 <= z)%Z ->
  (0 <= zlog10 z)%Z /\ (10 ^ zlog10 z <= z < 10 ^ (zlog10 z + 1))%Z.
Proof.
  intros z H. unfold zlog10. apply zlog10_fuel_spec; [exact H|].
  rewrite Nat2Z.inj_add, Z2Nat.id by apply Z.log2_up_nonneg.
  change (Z.of_nat 1) with 1%Z.
  destruct (Z.eq_dec z 1) as [->|N]; [cbn; lia|].
  pose proof (Z.log2_up_spec z ltac:(lia)) as [_ Hu].
  replace (Z.log2_up z + 1)%Z with (Z.succ (Z.log2_up z)) by lia.
  rewrite Z.pow_succ_r by apply Z.log2_up_nonneg. lia.
Qed.

Lemma Qabs_frac : forall x : Q, Qabs x = (Z.abs (Qnum x) # Qden x).
Proof. intros [n d]. reflexivity. Qed.

(** [om10] is the decimal order of magnitude. *)
Lemma om10_spec : forall x, ~ x == 0 ->
  Qpower (inject_Z 10) (om10 x) <= Qabs x /\
  Qabs x < Qpower (inject_Z 10) (om10 x + 1).
Proof.
  intros x Hx. rewrite !Qabs_frac. unfold om10.
  set (n := Z.abs (Qnum x)). set (d := Zpos (Qden x)).
  assert (Hn : (1 <= n)%Z).
  { unfold n. destruct (Z.eq_dec (Qnum x) 0) as [E|E]; [|lia].
    exfalso. apply Hx. unfold Qeq. rewrite E. reflexivity. }
  assert (Hd : (1 <= d)%Z) by (unfold d; lia).
  destruct (Z.leb_spec d n) as [L|L].
  - assert (Hq : (1 <= n / d)%Z) by (apply Z.div_le_lower_bound; lia).
    destruct (zlog10_spec _ Hq) as (H0 & H1 & H2). set (k := zlog10 (n / d)) in *.
    rewrite <- !Zpower_Qpower by lia.
    pose proof (Z.mul_div_le n d ltac:(lia)).
    pose proof (Z.mod_pos_bound n d ltac:(lia)). pose proof (Z.div_mod n d ltac:(lia)).
    unfold Qle, Qlt, inject_Z; cbn [Qnum Qden]. fold d. rewrite Z.mul_1_r. split; nia.
  - set (c := ((d + n - 1) / n)%Z).
    assert (Hc1 : (d <= c * n)%Z).
    { unfold c. pose proof (Z.mod_pos_bound (d + n - 1) n ltac:(lia)).
      pose proof (Z.div_mod (d + n - 1) n ltac:(lia)). nia. }
    assert (Hc2 : (c * n < d + n)%Z).
    { unfold c. pose proof (Z.mul_div_le (d + n - 1) n ltac:(lia)). nia. }
    assert (Hc : (1 <= c)%Z) by nia.
    destruct (zlog10_spec _ Hc) as (H0 & H1 & H2).
    destruct (Z.eqb_spec (10 ^ zlog10 c) c) as [E|E].
    + set (k := zlog10 c) in *.
      assert (Hk : (0 < k)%Z).
      { destruct (Z.eq_dec k 0) as [K|K]; [|lia]. rewrite K in E. cbn in E. nia. }
      replace (- k + 1)%Z with (- (k - 1))%Z by lia.
      rewrite !Qpower_opp. rewrite <- !Zpower_Qpower by lia.
      assert (Ep : (10 ^ k = 10 * 10 ^ (k - 1))%Z).
      { rewrite <- Z.pow_succ_r by lia. f_equal. lia. }
      assert (Hp : (0 < 10 ^ (k - 1))%Z) by (apply Z.pow_pos_nonneg; lia).
      set (p := (10 ^ (k - 1))%Z) in *. rewrite Ep in *.
      destruct p as [|p|p]; try lia.
      unfold Qle, Qlt, inject_Z, Qinv; cbn [Qnum Qden Z.mul]. fold d.
      split; nia.
    + set (k := zlog10 c) in *.
      replace (- (k + 1) + 1)%Z with (- k)%Z by lia.
      rewrite !Qpower_opp. rewrite <- !Zpower_Qpower by lia.
      assert (Ep : (10 ^ (k + 1) = 10 * 10 ^ k)%Z).
      { rewrite <- Z.pow_succ_r by lia. f_equal. }
      assert (Hp : (0 < 10 ^ k)%Z) by (apply Z.pow_pos_nonneg; lia).
      set (p := (10 ^ k)%Z) in *. rewrite Ep in *.
      destruct p as [|p|p]; try lia.
      unfold Qle, Qlt, inject_Z, Qinv; cbn [Qnum Qden Z.mul]. fold d.
      split; nia.
Qed.

(** ** Comparison facts at one index *)

Lemma ir_cmp_nth : forall cmp v1 v2 bs i b,
  ir_cmp cmp v1 v2 = Ok bs -> nth_error bs i = Some b ->
  exists ps x y, bcast v1 v2 = Ok ps /\ nth_error ps i = Some (x, y) /\
    ((check_limit ps = ps /\ b = cmp x y) \/
     (check_limit ps = map round_pair ps /\
      b = cmp (fst (round_pair (x, y))) (snd (round_pair (x, y))))).
Proof.
  intros cmp v1 v2 bs i b H Hb. unfold ir_cmp, bind in H.
  destruct (bcast v1 v2) as [ps|e] eqn:E; [|discriminate].
  injection H as <-. rewrite nth_error_map in Hb.
  destruct (check_limit_cases ps) as [C|C]; rewrite C in Hb.
  - destruct (nth_error ps i) as [[x y]|] eqn:P; [|discriminate].
    cbn in Hb. injection Hb as <-. exists ps, x, y. auto.
  - rewrite nth_error_map in Hb.
    destruct (nth_error ps i) as [[x y]|] eqn:P; [|discriminate].
    cbn [option_map] in Hb. injection Hb as <-. exists ps, x, y. auto.
Qed.

(** closeness, spelled out without division: |a-b| <= 1e-9 * 10^om *)
Lemma is_close_spec : forall om a b,
  is_close om (a, b) = true <-> Qabs (a - b) <= ir_limit * Qpower (inject_Z 10) om.
Proof.
  intros om a b. unfold is_close; cbn [fst snd]. rewrite Qle_bool_iff.
  set (sf := Qpower (inject_Z 10) om).
  assert (Hsf : 0 < sf) by (apply Qpower_0_lt; reflexivity).
  assert (E : a / sf - b / sf == (a - b) / sf) by (field; lra).
  rewrite E. unfold Qdiv. rewrite Qabs_Qmult.
  assert (Ei : Qabs (/ sf) == / sf).
  { apply Qabs_pos. apply Qlt_le_weak, Qinv_lt_0_compat, Hsf. }
  rewrite Ei. split; intros H.
  - apply (Qmult_le_compat_r _ _ sf) in H; [|lra].
    rewrite <- Qmult_assoc in H. rewrite (Qmult_comm (/ sf) sf) in H.
    rewrite Qmult_inv_r in H by lra. lra.
  - apply (Qmult_le_compat_r _ _ (/ sf)) in H; [|apply Qlt_le_weak, Qinv_lt_0_compat, Hsf].
    rewrite <- Qmult_assoc in H. rewrite Qmult_inv_r in H by lra. lra.
Qed.

Lemma zmin_list_le : forall l z, (zmin_list z l <= z)%Z /\ forall a, In a l -> (zmin_list z l <= a)%Z.
Proof.
  unfold zmin_list. induction l as [|x r IH]; intros z; simpl; [split; [lia|contradiction]|].
  destruct (IH (Z.min z x)) as [H1 H2]. split; [lia|].
  intros a [->|Ha]; [lia|]. now apply H2.
Qed.

Lemma order_of_mag_le : forall ps om z,
  order_of_mag ps = Some om -> (In z (map fst ps) \/ In z (map snd ps)) -> ~ z == 0 ->
  (om <= om10 z)%Z.
Proof.
  intros ps om z H Hin Hz. unfold order_of_mag in H.
  assert (Hnz : nonzero z = true).
  { unfold nonzero. rewrite negb_true_iff. destruct (Qeq_bool z 0) eqn:E; [|reflexivity].
    apply Qeq_bool_iff in E. contradiction. }
  assert (Hin' : In (om10 z) (map om10 (filter nonzero (map fst ps))) \/
                 In (om10 z) (map om10 (filter nonzero (map snd ps)))).
  { destruct Hin as [Hi|Hi]; [left|right]; apply in_map; apply filter_In; auto. }
  destruct (map om10 (filter nonzero (map fst ps))) as [|a l1]; [discriminate|].
  destruct (map om10 (filter nonzero (map snd ps))) as [|b l2]; [discriminate|].
  injection H as <-.
  destruct (zmin_list_le l1 a) as [A1 A2]. destruct (zmin_list_le l2 b) as [B1 B2].
  destruct Hin' as [[->|Hi]|[->|Hi]]; try lia.
  - specialize (A2 _ Hi). lia.
  - specialize (B2 _ Hi). lia.
Qed.

Lemma Qpower_10_mono : forall a b, (a <= b)%Z -> Qpower (inject_Z 10) a <= Qpower (inject_Z 10) b.
Proof.
  intros a b H. apply Qpower_le_compat_l; [exact H|]. unfold Qle; cbn; lia.
Qed.

(** No near tie (measured against any nonzero entry): nothing is rounded. *)
Lemma check_limit_exact : forall ps z,
  (In z (map fst ps) \/ In z (map snd ps)) -> ~ z == 0 ->
  (forall a b, In (a, b) ps -> ir_limit * Qabs z < Qabs (a - b)) ->
  check_limit ps = ps.
Proof.
  intros ps z Hin Hz Hfar. unfold check_limit.
  destruct (order_of_mag ps) as [om|] eqn:E; [|reflexivity].
  destruct (existsb (is_close om) ps) eqn:X; [|reflexivity].
  apply existsb_exists in X. destruct X as [[a b] [Hp Hc]].
  apply is_close_spec in Hc. specialize (Hfar _ _ Hp).
  pose proof (order_of_mag_le _ _ _ E Hin Hz) as Hom.
  apply Qpower_10_mono in Hom. destruct (om10_spec z Hz) as [Hl _].
  exfalso. unfold ir_limit in *.
  assert (Qpower (inject_Z 10) om <= Qabs z) by (eapply Qle_trans; eauto). lra.
Qed.

Lemma check_limit_zero : forall ps,
  (forall a, In a (map fst ps) -> a == 0) -> check_limit ps = ps.
Proof.
  intros ps H. unfold check_limit, order_of_mag.
  replace (filter nonzero (map fst ps)) with (@nil Q); [reflexivity|].
  induction (map fst ps) as [|x r IH]; [reflexivity|]. simpl.
  assert (nonzero x = false) as ->.
  { unfold nonzero. rewrite negb_false_iff. apply Qeq_bool_iff. apply H. now left. }
  apply IH. intros a Ha. apply H. now right.
Qed.
