(** Lemmas for Zernike polynomials: finite differences, sums and integrals of polynomials. *)
From Coq Require Import List Bool Reals Lra Lia ZArith.
From Verif Require Import Base Angles Zernike.
Import ListNotations.
Open Scope R_scope.

(** ** Sums *)
Fixpoint rsum (l : list R) : R := match l with [] => 0 | x :: l => x + rsum l end.
Lemma rsum_fold : forall l, fold_right Rplus 0 l = rsum l.
Proof. intros l. induction l as [|x l IH]; cbn; [reflexivity|]. now rewrite IH. Qed.
Definition upto (n : nat) (f : nat -> R) : R := rsum (map f (seq 0 n)).
Lemma rsum_app : forall l l', rsum (l ++ l') = rsum l + rsum l'.
Proof. intros l l'. induction l as [|x l IH]; cbn; [ring|]. rewrite IH. ring. Qed.
Lemma upto_S : forall n f, upto (S n) f = upto n f + f n.
Proof. intros n f. unfold upto. rewrite seq_S, map_app, rsum_app. cbn. ring. Qed.
Lemma upto_cons : forall n f, upto (S n) f = f 0%nat + upto n (fun k => f (S k)).
Proof. intros n f. unfold upto. cbn [seq map]. rewrite <- seq_shift, map_map. reflexivity. Qed.
Lemma upto_ext : forall n f g, (forall k, (k < n)%nat -> f k = g k) -> upto n f = upto n g.
Proof. intros n f g H. induction n as [|n IH]; [reflexivity|]. rewrite !upto_S, IH, H by (auto; intros; apply H; lia). reflexivity. Qed.
Lemma upto_plus : forall n f g, upto n (fun k => f k + g k) = upto n f + upto n g.
Proof. intros n f g. induction n as [|n IH]; [unfold upto; cbn; ring|]. rewrite !upto_S, IH. ring. Qed.
Lemma upto_scal : forall n c f, upto n (fun k => c * f k) = c * upto n f.
Proof. intros n c f. induction n as [|n IH]; [unfold upto; cbn; ring|]. rewrite !upto_S, IH. ring. Qed.
Lemma upto_0 : forall n f, (forall k, (k < n)%nat -> f k = 0) -> upto n f = 0.
Proof. intros n f H. induction n as [|n IH]; [reflexivity|]. rewrite upto_S, IH, H by (auto; intros; apply H; lia). ring. Qed.

(** ** Binomial coefficients and differences *)
Fixpoint bin (n k : nat) : nat :=
  match n, k with _, O => 1 | O, S _ => 0 | S n, S k => bin n k + bin n (S k) end.
Lemma bin_0 : forall n, bin n 0 = 1%nat. Proof. intros [|n]; reflexivity. Qed.
Lemma bin_S : forall n k, bin (S n) (S k) = (bin n k + bin n (S k))%nat. Proof. reflexivity. Qed.
Lemma bin_over : forall n k, (n < k)%nat -> bin n k = 0%nat.
Proof. intros n. induction n as [|n IH]; intros [|k] L; try lia; [reflexivity|]. rewrite bin_S, !IH by lia. reflexivity. Qed.
Lemma bin_fact : forall n k, (k <= n)%nat -> INR (bin n k) * INR (fact k) * INR (fact (n - k)) = INR (fact n).
Proof.
  intros n. induction n as [|n IH]; intros [|k] L; try lia; [cbn; ring|rewrite bin_0, Nat.sub_0_r; cbn [fact]; change (INR 1) with 1; ring|].
  rewrite bin_S, plus_INR. replace (S n - S k)%nat with (n - k)%nat by lia. destruct (Nat.eq_dec k n) as [->|N].
  - rewrite (bin_over n (S n)) by lia. replace (n - n)%nat with 0%nat by lia. assert (H := IH n (le_n n)). replace (n - n)%nat with 0%nat in H by lia. change (INR (fact 0)) with 1 in *. change (INR 0) with 0. rewrite (fact_simpl n), mult_INR. rewrite <- H at 2. ring.
  - assert (H := IH k ltac:(lia)). assert (G := IH (S k) ltac:(lia)). replace (n - k)%nat with (S (n - S k)) in * by lia.
    rewrite (fact_simpl n), mult_INR. rewrite (fact_simpl k), mult_INR in *. rewrite (fact_simpl (n - S k)), mult_INR in *.
    replace (INR (S n)) with (INR (S k) + INR (S (n - S k))) by (rewrite <- plus_INR; f_equal; lia). match type of H with ?h = _ => match type of G with ?g = _ => transitivity (INR (S k) * h + INR (S (n - S k)) * g); [ring|rewrite H, G; ring] end end.
Qed.
Definition sg (k : nat) : R := (-1) ^ k.
Fixpoint diff (n : nat) (f : nat -> R) : R :=
  match n with O => f 0%nat | S n => diff n (fun k => f k - f (S k)) end.
Lemma diff_ext : forall n f g, (forall k, (k <= n)%nat -> f k = g k) -> diff n f = diff n g.
Proof. intros n. induction n as [|n IH]; intros f g H; [apply H; lia|]. cbn [diff]. apply IH. intros k K. rewrite !H by lia. reflexivity. Qed.
Lemma diff_plus : forall n f g, diff n (fun k => f k + g k) = diff n f + diff n g.
Proof. intros n. induction n as [|n IH]; intros f g; [reflexivity|]. cbn [diff]. rewrite <- IH. apply diff_ext. intros. ring. Qed.
Lemma diff_scal : forall n c f, diff n (fun k => c * f k) = c * diff n f.
Proof. intros n. induction n as [|n IH]; intros c f; [reflexivity|]. cbn [diff]. rewrite <- IH. apply diff_ext. intros. ring. Qed.
Lemma diff_shift : forall n f, diff (S n) f = diff n f - diff n (fun k => f (S k)).
Proof.
  intros n f. cbn [diff]. replace (diff n f - diff n (fun k => f (S k))) with (diff n f + (-1) * diff n (fun k => f (S k))) by ring. rewrite <- diff_scal, <- diff_plus. apply diff_ext. intros. ring.
Qed.
Lemma alternating : forall q f, upto (S q) (fun k => sg k * INR (bin q k) * f k) = diff q f.
Proof.
  intros q. induction q as [|q IH]; intros f; [unfold upto, sg; cbn; ring|]. rewrite diff_shift, <- !IH. rewrite upto_cons.
  rewrite (upto_ext (S q) (fun k => sg (S k) * INR (bin (S q) (S k)) * f (S k)) (fun k => sg (S k) * INR (bin q (S k)) * f (S k) + (-1) * (sg k * INR (bin q k) * f (S k)))).
  2:{ intros k _. rewrite bin_S, plus_INR. unfold sg. cbn [pow]. ring. }
  rewrite upto_plus, upto_scal. assert (E := upto_cons (S q) (fun k => sg k * INR (bin q k) * f k)). cbv beta in E. rewrite upto_S in E. rewrite (bin_over q (S q)) in E by lia. cbn [INR] in E. rewrite !bin_0 in *. 
  match goal with |- ?a + (?b + ?c) = ?d - ?e => replace d with (a + b) by (rewrite <- E; ring); ring end.
Qed.

(** ** Polynomials vanish under enough differences *)
Fixpoint deg_lt (d : nat) (f : nat -> R) : Prop :=
  match d with O => forall k, f k = 0 | S d => deg_lt d (fun k => f k - f (S k)) end.
Lemma deg_ext : forall d f g, (forall k, f k = g k) -> deg_lt d f -> deg_lt d g.
Proof. intros d. induction d as [|d IH]; intros f g E H; cbn in *; [intros k; rewrite <- E; apply H|]. eapply IH; [|exact H]. intros k. cbn. now rewrite !E. Qed.
Lemma deg_plus : forall d f g, deg_lt d f -> deg_lt d g -> deg_lt d (fun k => f k + g k).
Proof. intros d. induction d as [|d IH]; intros f g F G; cbn in *; [intros k; rewrite F, G; ring|]. eapply deg_ext; [|exact (IH _ _ F G)]. intros k. cbn. ring. Qed.
Lemma deg_scal : forall d c f, deg_lt d f -> deg_lt d (fun k => c * f k).
Proof. intros d. induction d as [|d IH]; intros c f F; cbn in *; [intros k; rewrite F; ring|]. eapply deg_ext; [|exact (IH c _ F)]. intros k. cbn. ring. Qed.
Lemma deg_shift : forall d f, deg_lt d f -> deg_lt d (fun k => f (S k)).
Proof. intros d. induction d as [|d IH]; intros f F; cbn in *; [intros k; apply F|]. exact (IH _ F). Qed.
Lemma deg_up : forall d f, deg_lt d f -> deg_lt (S d) f.
Proof. intros d f F. cbn. eapply deg_ext with (f := fun k => f k + (-1) * f (S k)); [intros; ring|]. apply deg_plus; [auto|]. now apply deg_scal, deg_shift. Qed.
Lemma deg_factor : forall d a f, deg_lt d f -> deg_lt (S d) (fun k => (a - INR k) * f k).
Proof.
  intros d. induction d as [|d IH]; intros a f F.
  - intros k. cbn [deg_lt] in F. rewrite !F. ring.
  - change (deg_lt (S d) (fun k => (a - INR k) * f k - (a - INR (S k)) * f (S k))). apply (deg_ext (S d) (fun k => (a - INR k) * (f k - f (S k)) + f (S k))); [intros k; rewrite (S_INR k); ring|].
    apply (deg_plus (S d) (fun k => (a - INR k) * (f k - f (S k))) (fun k => f (S k))); [now apply IH|]. exact (deg_shift (S d) f F).
Qed.
Lemma diff_deg : forall d f, deg_lt d f -> diff d f = 0.
Proof. intros d. induction d as [|d IH]; intros f F; cbn in *; [apply F|]. now apply IH. Qed.

(** Products of linear factors. *)
Fixpoint prod (l : list R) (x : R) : R := match l with [] => 1 | a :: l => (a - x) * prod l x end.
Lemma prod_deg : forall l, deg_lt (S (length l)) (fun k => prod l (INR k)).
Proof. intros l. induction l as [|a l IH]; [cbn; intros k; ring|]. cbn [length prod]. exact (deg_factor _ a _ IH). Qed.
Lemma prod_app : forall l l' x, prod (l ++ l') x = prod l x * prod l' x.
Proof. intros l l' x. induction l as [|a l IH]; cbn; [ring|]. rewrite IH. ring. Qed.
Lemma prod_div : forall l x, exists g, deg_lt (length l) g /\ forall k, prod l (INR k) = prod l x + (x - INR k) * g k.
Proof.
  intros l x. induction l as [|a l (g & G & E)]; [exists (fun _ => 0); split; [cbn; auto|intros k; cbn; ring]|].
  exists (fun k => (a - x) * g k + prod l (INR k)). split.
  - apply deg_plus; [apply deg_up, deg_scal; exact G|]. exact (prod_deg l).
  - intros k. cbn [prod]. rewrite E. ring.
Qed.
(** p+q, ..., p+1 *)
Fixpoint run (p q : nat) : list R := match q with O => [] | S q' => INR (p + q) :: run p q' end.
Lemma run_length : forall p q, length (run p q) = q. Proof. intros p q. induction q; cbn; auto. Qed.
Lemma run_fact : forall p q k, (k <= p)%nat -> INR (fact (p + q - k)) = INR (fact (p - k)) * prod (run p q) (INR k).
Proof.
  intros p q k K. induction q as [|q IH]; [rewrite Nat.add_0_r; cbn; ring|]. cbn [run prod].
  replace (p + S q - k)%nat with (S (p + q - k)) by lia. rewrite fact_simpl, mult_INR, IH. replace (S (p + q - k)) with (p + S q - k)%nat by lia. rewrite minus_INR by lia. ring.
Qed.
Lemma run_in : forall p q j, (j < q)%nat -> exists l1 l2, run p q = l1 ++ INR (p + S j) :: l2 /\ length (l1 ++ l2) = (q - 1)%nat.
Proof.
  intros p q. induction q as [|q IH]; intros j L; [lia|]. destruct (Nat.eq_dec j q) as [->|N].
  - exists [], (run p q). split; [reflexivity|]. cbn. rewrite run_length. lia.
  - destruct (IH j ltac:(lia)) as (l1 & l2 & E & H). exists (INR (p + S q) :: l1), l2. cbn [run]. rewrite E. split; [reflexivity|]. cbn [length app]. rewrite H. lia.
Qed.
(** The product of a run at one more than its greatest. *)
Lemma run_top : forall p q, prod (run p q) (INR (p + q + 1)) = sg q * INR (fact q).
Proof.
  intros p q. assert (G : forall q d, prod (run p q) (INR (p + q + d)) * INR (fact (d - 1)) = sg q * INR (fact (q + d - 1)) \/ d = 0%nat).
  { clear q. intros q. induction q as [|q IH]; intros d; [left; unfold sg; cbn; ring|]. destruct d as [|d]; [now right|]. left. destruct (IH (S (S d))) as [E|]; [|lia]. cbn [run prod].
    replace (p + S q + S d)%nat with (p + q + S (S d))%nat by lia. replace (S d - 1)%nat with d by lia. replace (S (S d) - 1)%nat with (S d) in E by lia. rewrite fact_simpl, mult_INR in E. replace (S q + S d - 1)%nat with (q + S (S d) - 1)%nat by lia.
    unfold sg in *. cbn [pow]. replace (-1 * (-1) ^ q * INR (fact (q + S (S d) - 1))) with (-1 * ((-1) ^ q * INR (fact (q + S (S d) - 1)))) by ring. rewrite <- E. rewrite !plus_INR, !S_INR. ring. }
  destruct (G q 1%nat) as [E|]; [|lia]. cbn [Nat.sub fact INR] in E. replace (q + 1 - 1)%nat with q in E by lia. rewrite <- E. ring.
Qed.

(** ** The coefficients *)
Definition coef (p q k : nat) : R := sg k * INR (fact (p + q - k)) / (INR (fact k) * INR (fact (p - k)) * INR (fact (q - k))).
Lemma fact_pos : forall n, 0 < INR (fact n). Proof. intros n. apply lt_0_INR, lt_O_fact. Qed.
Lemma coef_bin : forall p q k, (k <= q)%nat -> (q <= p)%nat -> coef p q k = sg k * INR (bin q k) * (prod (run p q) (INR k) / INR (fact q)).
Proof.
  intros p q k K Q. unfold coef. rewrite (run_fact p q k) by lia. rewrite <- (bin_fact q k K). pose proof (fact_pos k). pose proof (fact_pos (p - k)). pose proof (fact_pos (q - k)). pose proof (bin_fact q k K) as B. pose proof (fact_pos q).
  assert (INR (bin q k) <> 0) by (intros Z; rewrite Z in B; lra). field. repeat split; lra.
Qed.
(** At 1. *)
Lemma coef_one : forall p q, (q <= p)%nat -> upto (S q) (coef p q) = 1.
Proof.
  intros p q Q. rewrite (upto_ext _ _ (fun k => sg k * INR (bin q k) * (prod (run p q) (INR k) / INR (fact q)))) by (intros k K; apply coef_bin; lia).
  rewrite alternating. clear Q. pose (w := fun s => fun k : nat => prod (run p q) (INR k + s) / INR (fact q)).
  assert (G : forall q s, diff q (fun k => prod (run p q) (INR k + s) / INR (fact q)) = 1).
  { clear. intros q. induction q as [|q IH]; intros s; [cbn; field|]. cbn [diff]. rewrite <- (IH s). apply diff_ext. intros k _.
    rewrite fact_simpl, mult_INR. pose proof (fact_pos q). pose proof (pos_INR q). rewrite (S_INR k). 
    assert (T : forall x, prod (run p (S q)) x - prod (run p (S q)) (x + 1) = INR (S q) * prod (run p q) x).
    { clear. intros x. assert (E : prod (run p (S q)) (x + 1) = (INR p - x) * prod (run p q) x).
      { induction q as [|q IH]; [cbn [run prod]; rewrite plus_INR; cbn; ring|]. change (prod (run p (S (S q))) (x + 1)) with ((INR (p + S (S q)) - (x + 1)) * prod (run p (S q)) (x + 1)). rewrite IH. change (prod (run p (S q)) x) with ((INR (p + S q) - x) * prod (run p q) x). rewrite !plus_INR, !S_INR. ring. }
      rewrite E. change (prod (run p (S q)) x) with ((INR (p + S q) - x) * prod (run p q) x). rewrite plus_INR. ring. }
    specialize (T (INR k + s)). replace (INR k + 1 + s) with (INR k + s + 1) by ring. apply (Rmult_eq_reg_r (INR (S q) * INR (fact q))); [|rewrite S_INR; nra].
    transitivity (prod (run p (S q)) (INR k + s) - prod (run p (S q)) (INR k + s + 1)); [field|rewrite T; field]; rewrite ?S_INR; repeat split; lra. }
  rewrite <- (G q 0). apply diff_ext. intros k _. rewrite Rplus_0_r. reflexivity.
Qed.
(** Integrals against lower powers. *)
Lemma moment_low : forall p q j, (q <= p)%nat -> (j < q)%nat -> upto (S q) (fun k => coef p q k / (2 * (INR p - INR k + INR j + 1))) = 0.
Proof.
  intros p q j Q J. destruct (run_in p q j J) as (l1 & l2 & E & L).
  rewrite (upto_ext _ _ (fun k => sg k * INR (bin q k) * (prod (l1 ++ l2) (INR k) / (2 * INR (fact q))))).
  - rewrite alternating. assert (D : deg_lt q (fun k => prod (l1 ++ l2) (INR k))) by (replace q with (S (length (l1 ++ l2))) by lia; apply prod_deg).
    rewrite (diff_ext _ _ (fun k => / (2 * INR (fact q)) * prod (l1 ++ l2) (INR k))) by (intros; unfold Rdiv; ring). rewrite diff_scal, (diff_deg _ _ D). ring.
  - intros k K. rewrite coef_bin by lia. rewrite E, !prod_app. cbn [prod]. rewrite plus_INR, S_INR. pose proof (fact_pos q). assert (0 <= INR p - INR k) by (rewrite <- minus_INR by lia; apply pos_INR). pose proof (pos_INR j). field. split; lra.
Qed.
Lemma reciprocal : forall q x, (forall i, (i <= q)%nat -> x - INR i <> 0) -> diff q (fun k => / (x - INR k)) = sg q * INR (fact q) / prod (map (fun i => x - INR i) (seq 0 (S q))) 0.
Proof.
  intros q x H. pose (pr := fun d k => prod (map (fun i => x - INR i) (seq 0 (S d))) (INR k)).
  assert (PR : forall d k, pr (S d) k = pr d k * (x - INR (S d) - INR k)).
  { intros d k. unfold pr. rewrite (seq_S (S d) 0), map_app, prod_app. cbn [map prod Nat.add]. ring. }
  assert (PL : forall d k, pr (S d) k = (x - INR k) * pr d (S k)).
  { intros d k. induction d as [|d IH]; [unfold pr; cbn [seq map prod]; rewrite !S_INR; cbn; ring|]. rewrite PR, IH, (PR d (S k)). rewrite !S_INR. ring. }
  assert (NZ : forall d k, (d + k <= q)%nat -> pr d k <> 0).
  { intros d. induction d as [|d IH]; intros k L; [unfold pr; cbn [seq map prod]; cbn [INR]; replace ((x - 0 - INR k) * 1) with (x - INR k) by ring; apply H; lia|]. rewrite PR. apply Rmult_integral_contrapositive. split; [apply IH; lia|]. replace (x - INR (S d) - INR k) with (x - INR (S d + k)) by (rewrite plus_INR; ring). apply H. lia. }
  assert (G : forall n d, (n + d = q)%nat -> diff n (fun k => / pr d k) = sg n * INR (fact q) / INR (fact d) / pr q 0%nat).
  { intros n. induction n as [|n IH]; intros d E.
    - assert (d = q) by lia. subst d. cbn [diff]. unfold sg. cbn [pow]. pose proof (fact_pos q). pose proof (NZ q 0%nat ltac:(lia)). field. repeat split; auto; lra.
    - cbn [diff]. rewrite (diff_ext _ _ (fun k => (- INR (S d)) * / pr (S d) k)).
      + rewrite diff_scal, (IH (S d)) by lia. unfold sg. cbn [pow]. rewrite fact_simpl, mult_INR. pose proof (fact_pos d). pose proof (NZ q 0%nat ltac:(lia)). pose proof (pos_INR d). rewrite S_INR. field. repeat split; auto; lra.
      + intros k K. pose proof (NZ d k ltac:(lia)) as A. pose proof (NZ d (S k) ltac:(lia)) as B. pose proof (NZ (S d) k ltac:(lia)) as Cc. pose proof (PR d k) as P1. pose proof (PL d k) as P2.
        assert (x - INR k <> 0) by (apply H; lia). assert (x - INR (S d) - INR k <> 0) by (replace (x - INR (S d) - INR k) with (x - INR (S d + k)) by (rewrite plus_INR; ring); apply H; lia).
        replace (/ pr d k) with ((x - INR (S d) - INR k) / pr (S d) k) by (rewrite P1; field; auto). replace (/ pr d (S k)) with ((x - INR k) / pr (S d) k) by (rewrite P2; field; auto). field. auto. }
  assert (F := G q 0%nat ltac:(lia)). rewrite (diff_ext _ _ (fun k => / pr 0%nat k)).
  - rewrite F. cbn [fact INR]. unfold pr. cbn [INR]. field. apply (NZ q 0%nat). lia.
  - intros k _. unfold pr. cbn [seq map prod INR]. f_equal. ring.
Qed.
Lemma prod_down : forall p q, prod (map (fun i => INR (p + q + 1) - INR i) (seq 0 (S q))) 0 * INR (fact p) = INR (fact (p + q + 1)).
Proof.
  intros p q. revert p. induction q as [|q IH]; intros p.
  - replace (p + 0 + 1)%nat with (S p) by lia. rewrite fact_simpl, mult_INR. cbn [seq map prod]. change (INR 0) with 0. ring.
  - rewrite seq_S, map_app, prod_app. cbn [map prod Nat.add]. replace (p + S q + 1)%nat with (S p + q + 1)%nat by lia. rewrite <- (IH (S p)). rewrite (fact_simpl p), mult_INR.
    replace (INR (S p + q + 1) - INR (S q) - 0) with (INR (S p)) by (rewrite <- (Rplus_0_r (INR (S p))); rewrite !plus_INR, !S_INR; cbn [INR]; ring). ring.
Qed.
Lemma moment_top : forall p q, (q <= p)%nat -> upto (S q) (fun k => coef p q k / (2 * (INR p - INR k + INR q + 1))) = INR (fact q) * INR (fact p) / (2 * INR (fact (p + q + 1))).
Proof.
  intros p q Q. set (x := INR (p + q + 1)). destruct (prod_div (run p q) x) as (g & G & E). rewrite run_length in G.
  assert (X : forall k, (k <= q)%nat -> x - INR k <> 0).
  { intros k K. unfold x. rewrite <- minus_INR by lia. apply not_0_INR. lia. }
  rewrite (upto_ext _ _ (fun k => sg k * INR (bin q k) * (/ (2 * INR (fact q)) * (prod (run p q) x * / (x - INR k) + g k)))).
  - rewrite alternating, diff_scal, diff_plus, diff_scal, (diff_deg _ _ G), (reciprocal q x X). unfold x at 1. rewrite run_top. unfold x. pose proof (prod_down p q) as PD.
    set (w := prod (map (fun i => INR (p + q + 1) - INR i) (seq 0 (S q))) 0) in *. clearbody w. rewrite <- PD. pose proof (fact_pos q). pose proof (fact_pos p). pose proof (fact_pos (p + q + 1)).
    assert (w <> 0) by (intros Z; rewrite Z in PD; lra). assert (S2 : sg q * sg q = 1) by (unfold sg; rewrite <- Rpow_mult_distr; replace (-1 * -1) with 1 by ring; apply pow1).
    transitivity (sg q * sg q * INR (fact q) / (2 * w)); [field; repeat split; auto; lra|]. rewrite S2. field. repeat split; auto; lra.
  - intros k K. rewrite coef_bin by lia. rewrite E. replace (INR p - INR k + INR q + 1) with (x - INR k) by (unfold x; rewrite !plus_INR; cbn; ring). pose proof (X k ltac:(lia)). pose proof (fact_pos q). field. repeat split; auto; lra.
Qed.

(** ** Factorials as the generator keeps them *)
Definition fz (i : Z) : Z := Z.of_nat (fact (Z.to_nat i)).
Lemma fz_S : forall i, (0 <= i)%Z -> (fz i * (i + 1))%Z = fz (i + 1).
Proof. intros i I. unfold fz. replace (Z.to_nat (i + 1)) with (S (Z.to_nat i)) by lia. rewrite fact_simpl. lia. Qed.
Definition look (values : list (Z * Z)) (i : Z) : option Z := fac_get (Factorials values 0) i.
Lemma look_cons : forall j v values i, look ((j, v) :: values) i = if (j =? i)%Z then Some v else look values i.
Proof. intros j v values i. unfold look, fac_get. cbn. destruct (j =? i)%Z; reflexivity. Qed.
Lemma grow_look : forall c ii values i, (0 <= ii)%Z ->
  look (fac_grow c ii (fz ii) values) i = if ((ii <? i) && (i <=? ii + Z.of_nat c))%Z then Some (fz i) else look values i.
Proof.
  intros c. induction c as [|c IH]; intros ii values i I.
  - cbn [fac_grow]. destruct (Z.ltb_spec ii i), (Z.leb_spec i (ii + Z.of_nat 0)); cbn; try reflexivity. lia.
  - cbn [fac_grow]. rewrite fz_S by lia. rewrite IH by lia. rewrite look_cons. destruct (Z.eqb_spec (ii + 1) i) as [<-|N].
    + destruct (Z.ltb_spec (ii + 1) (ii + 1)); [lia|]. cbn [andb]. destruct (Z.ltb_spec ii (ii + 1)); [|lia]. destruct (Z.leb_spec (ii + 1) (ii + Z.of_nat (S c))); [|lia]. reflexivity.
    + destruct (Z.ltb_spec (ii + 1) i), (Z.ltb_spec ii i), (Z.leb_spec i (ii + 1 + Z.of_nat c)), (Z.leb_spec i (ii + Z.of_nat (S c))); cbn [andb]; try reflexivity; lia.
Qed.
Definition fgood (f : factorials) : Prop := (1 <= f_max f)%Z /\ forall i, fac_get f i = if ((0 <=? i) && (i <=? f_max f))%Z then Some (fz i) else None.
Lemma fgood_init : fgood fac_init.
Proof.
  split; [cbn; lia|]. intros i. change (fac_get fac_init i) with (look [(0, 1); (1, 1)]%Z i). rewrite !look_cons. cbn [f_max fac_init]. destruct (Z.eqb_spec 0 i) as [<-|]; [reflexivity|]. destruct (Z.eqb_spec 1 i) as [<-|]; [reflexivity|].
  change (look [] i) with (@None Z). destruct (Z.leb_spec 0 i), (Z.leb_spec i 1); try reflexivity. lia.
Qed.
Lemma fac_evaluate_ok : forall num f, fgood f -> (0 <= num)%Z -> exists f', fac_evaluate num f = (Ok (fz num), f') /\ fgood f'.
Proof.
  intros num f (M & G) N. unfold fac_evaluate. destruct (Z.ltb_spec num 0); [lia|]. rewrite (G num). destruct (Z.leb_spec 0 num); [|lia]. cbn [andb]. destruct (Z.leb_spec num (f_max f)) as [L|L].
  - exists f. split; [reflexivity|]. split; auto.
  - rewrite (G (f_max f)). destruct (Z.leb_spec 0 (f_max f)); [|lia]. destruct (Z.leb_spec (f_max f) (f_max f)); [|lia]. cbn [andb].
    set (f' := Factorials _ num). assert (GF : forall i, fac_get f' i = if ((0 <=? i) && (i <=? num))%Z then Some (fz i) else None).
    { intros i. change (fac_get f' i) with (look (fac_grow (Z.to_nat (num - f_max f)) (f_max f) (fz (f_max f)) (f_values f)) i). rewrite grow_look by lia. rewrite Z2Nat.id by lia. change (look (f_values f) i) with (fac_get f i). rewrite (G i).
      destruct (Z.ltb_spec (f_max f) i), (Z.leb_spec i (f_max f + (num - f_max f))), (Z.leb_spec 0 i), (Z.leb_spec i (f_max f)), (Z.leb_spec i num); cbn [andb]; try reflexivity; lia. }
    exists f'. split; [|split; [cbn; lia|exact GF]]. rewrite (GF num). destruct (Z.leb_spec 0 num); [|lia]. destruct (Z.leb_spec num num); [|lia]. reflexivity.
Qed.

(** ** The polynomials it makes *)
Definition terms (p q : nat) : list (R * Z) := map (fun k => (coef p q k, (Z.of_nat (p + q) - 2 * Z.of_nat k)%Z)) (seq 0 (S q)).
Lemma sg_mod : forall k, (if (Z.of_nat k mod 2 =? 0)%Z then 1 else -1) = sg k.
Proof.
  intros k. induction k as [|k IH]; [reflexivity|]. unfold sg in *. cbn [pow]. rewrite <- IH. rewrite Nat2Z.inj_succ. pose proof (Z.mod_pos_bound (Z.of_nat k) 2 ltac:(lia)). pose proof (Z.mod_pos_bound (Z.succ (Z.of_nat k)) 2 ltac:(lia)).
  pose proof (Z.div_mod (Z.of_nat k) 2 ltac:(lia)). pose proof (Z.div_mod (Z.succ (Z.of_nat k)) 2 ltac:(lia)). destruct (Z.eqb_spec (Z.of_nat k mod 2) 0), (Z.eqb_spec (Z.succ (Z.of_nat k) mod 2) 0); try ring; lia.
Qed.
Lemma make_term_ok : forall p q k f, (q <= p)%nat -> (k <= q)%nat -> fgood f ->
  exists f', make_term (Z.of_nat (p + q)) (Z.of_nat (p - q)) (Z.of_nat k) f = (Ok (coef p q k, (Z.of_nat (p + q) - 2 * Z.of_nat k)%Z), f') /\ fgood f'.
Proof.
  intros p q k f Q K F. unfold make_term. rewrite sg_mod. replace ((Z.of_nat (p + q) + Z.of_nat (p - q)) / 2)%Z with (Z.of_nat p) by (apply (Z.div_unique _ _ _ 0); lia). replace ((Z.of_nat (p + q) - Z.of_nat (p - q)) / 2)%Z with (Z.of_nat q) by (apply (Z.div_unique _ _ _ 0); lia).
  destruct (fac_evaluate_ok (Z.of_nat (p + q) - Z.of_nat k) f F ltac:(lia)) as (f1 & E1 & F1). rewrite E1. destruct (fac_evaluate_ok (Z.of_nat k) f1 F1 ltac:(lia)) as (f2 & E2 & F2). rewrite E2.
  destruct (fac_evaluate_ok (Z.of_nat p - Z.of_nat k) f2 F2 ltac:(lia)) as (f3 & E3 & F3). rewrite E3. destruct (fac_evaluate_ok (Z.of_nat q - Z.of_nat k) f3 F3 ltac:(lia)) as (f4 & E4 & F4). rewrite E4.
  exists f4. split; [|exact F4]. do 3 f_equal. unfold fz, coef. replace (Z.to_nat (Z.of_nat (p + q) - Z.of_nat k)) with (p + q - k)%nat by lia. replace (Z.to_nat (Z.of_nat k)) with k by lia. replace (Z.to_nat (Z.of_nat p - Z.of_nat k)) with (p - k)%nat by lia. replace (Z.to_nat (Z.of_nat q - Z.of_nat k)) with (q - k)%nat by lia.
  rewrite !mult_IZR, <- !INR_IZR_INZ. reflexivity.
Qed.
Lemma make_terms_ok : forall p q ks f, (q <= p)%nat -> (forall k, In k ks -> (k <= q)%nat) -> fgood f ->
  exists f', make_terms (Z.of_nat (p + q)) (Z.of_nat (p - q)) (map Z.of_nat ks) f = (Ok (map (fun k => (coef p q k, (Z.of_nat (p + q) - 2 * Z.of_nat k)%Z)) ks), f') /\ fgood f'.
Proof.
  intros p q ks. induction ks as [|k ks IH]; intros f Q K F; [exists f; split; [reflexivity|exact F]|]. cbn [map make_terms].
  destruct (make_term_ok p q k f Q (K k (or_introl eq_refl)) F) as (f1 & E1 & F1). rewrite E1. destruct (IH f1 Q (fun j J => K j (or_intror J)) F1) as (f2 & E2 & F2). rewrite E2. exists f2. split; [reflexivity|exact F2].
Qed.
Definition ggood (g : generator) : Prop := fgood (g_fac g) /\ forall n m poly, poly_get g (n, m) = Some poly -> exists p q, (q <= p)%nat /\ n = Z.of_nat (p + q) /\ m = Z.of_nat (p - q) /\ poly = terms p q.
Lemma ggood_init : ggood gen_init. Proof. split; [exact fgood_init|]. intros n m poly E. discriminate. Qed.
Lemma make_polynomial_ok : forall p q g, (q <= p)%nat -> ggood g ->
  exists g', make_polynomial (Z.of_nat (p + q)) (Z.of_nat (p - q)) g = (Ok tt, g') /\ ggood g' /\ poly_get g' (Z.of_nat (p + q), Z.of_nat (p - q)) = Some (terms p q).
Proof.
  intros p q g Q (F & P). unfold make_polynomial. replace (Z.to_nat (1 + (Z.of_nat (p + q) - Z.of_nat (p - q)) / 2)) with (S q).
  2:{ replace ((Z.of_nat (p + q) - Z.of_nat (p - q)) / 2)%Z with (Z.of_nat q) by (apply (Z.div_unique _ _ _ 0); lia). lia. }
  destruct (make_terms_ok p q (seq 0 (S q)) (g_fac g) Q) as (f & E & G); [intros k I; apply in_seq in I; lia|exact F|]. rewrite E. eexists. split; [reflexivity|]. split.
  - split; [exact G|]. intros n m poly L. unfold poly_get in L. cbn [g_poly find fst snd] in L. destruct ((Z.of_nat (p + q) =? n) && (Z.of_nat (p - q) =? m))%Z eqn:B.
    + injection L as <-. apply Bool.andb_true_iff in B as (B1 & B2). apply Z.eqb_eq in B1, B2. exists p, q. auto.
    + apply (P n m poly). exact L.
  - unfold poly_get. cbn [g_poly find fst snd]. rewrite !Z.eqb_refl. reflexivity.
Qed.

Lemma evaluate_radial_ok : forall r p q g, (q <= p)%nat -> ggood g ->
  exists g', evaluate_radial r (Z.of_nat (p + q)) (Z.of_nat (p - q)) g =
    (Ok (match r with Number r => VNumber (radial_number r (terms p q)) | Array l => VArray (map (fun r => radial_array_at r (terms p q)) l) end), g') /\ ggood g'.
Proof.
  intros r p q g Q G. unfold evaluate_radial, validate_nm. destruct (Z.ltb_spec (Z.of_nat (p + q)) 0); [lia|]. destruct (Z.ltb_spec (Z.of_nat (p - q)) 0); [lia|]. destruct (Z.ltb_spec (Z.of_nat (p + q)) (Z.of_nat (p - q))); [lia|]. cbn [fst snd].
  replace ((Z.of_nat (p + q) - Z.of_nat (p - q)) mod 2)%Z with 0%Z by (apply (Z.mod_unique _ _ (Z.of_nat q)); lia). change (0 =? 1)%Z with false. cbv iota.
  destruct (poly_get g (Z.of_nat (p + q), Z.of_nat (p - q))) as [poly|] eqn:E.
  - rewrite E. exists g. split; [|exact G]. destruct (proj2 G _ _ _ E) as (p' & q' & Q' & N & M & ->). assert (p' = p) by lia. assert (q' = q) by lia. subst p' q'. reflexivity.
  - destruct (make_polynomial_ok p q g Q G) as (g' & EM & G' & PG). rewrite EM, PG. exists g'. split; [reflexivity|exact G'].
Qed.
Lemma evaluate_radial_odd : forall r n m g, (0 <= m <= n)%Z -> ((n - m) mod 2 = 1)%Z ->
  evaluate_radial r n m g = (Ok (match r with Number _ => VNumber (Some 0) | Array l => VArray (map (fun _ => Some 0) l) end), g).
Proof.
  intros r n m g V O. unfold evaluate_radial, validate_nm. destruct (Z.ltb_spec n 0); [lia|]. destruct (Z.ltb_spec m 0); [lia|]. destruct (Z.ltb_spec n m); [lia|]. cbn [fst snd]. rewrite O. reflexivity.
Qed.
Lemma evaluate_radial_bad : forall r n m g, ~ (0 <= m <= n)%Z -> evaluate_radial r n m g = (Raise RuntimeError, g).
Proof.
  intros r n m g V. unfold evaluate_radial, validate_nm. destruct (Z.ltb_spec n 0); [reflexivity|]. destruct (Z.ltb_spec m 0); [reflexivity|]. destruct (Z.ltb_spec n m); [reflexivity|]. lia.
Qed.
(** The three kinds of orders. *)
Lemma orders : forall n m, (0 <= m <= n)%Z -> ((n - m) mod 2 = 1)%Z \/ exists p q, (q <= p)%nat /\ n = Z.of_nat (p + q) /\ m = Z.of_nat (p - q).
Proof.
  intros n m V. pose proof (Z.mod_pos_bound (n - m) 2 ltac:(lia)). destruct (Z.eq_dec ((n - m) mod 2) 1) as [E|E]; [now left|right]. pose proof (Z.div_mod (n - m) 2 ltac:(lia)).
  exists (Z.to_nat (m + (n - m) / 2)), (Z.to_nat ((n - m) / 2)). assert (0 <= (n - m) / 2)%Z by (apply Z.div_pos; lia). repeat split; lia.
Qed.
Lemma evaluate_radial_good : forall r n m g, ggood g -> ggood (snd (evaluate_radial r n m g)).
Proof.
  intros r n m g G. destruct (Z_le_dec 0 m) as [A|A]; [|rewrite evaluate_radial_bad by lia; exact G]. destruct (Z_le_dec m n) as [B|B]; [|rewrite evaluate_radial_bad by lia; exact G].
  destruct (orders n m (conj A B)) as [O|(p & q & Q & -> & ->)]; [rewrite evaluate_radial_odd by (auto; lia); exact G|]. destruct (evaluate_radial_ok r p q g Q G) as (g' & E & G'). rewrite E. exact G'.
Qed.
Lemma evaluate_good : forall r phi n m g, ggood g -> ggood (snd (evaluate r phi n m g)).
Proof. intros r phi n m g G. unfold evaluate. pose proof (evaluate_radial_good r n (Z.abs m) g G) as H. destruct (evaluate_radial r n (Z.abs m) g) as ([v|e], g'); exact H. Qed.
Lemma after_good : forall calls, ggood (after calls).
Proof.
  intros calls. unfold after. assert (G : forall g, ggood g -> ggood (fold_left (fun g c => let '(Call r phi n m) := c in snd (evaluate r phi n m g)) calls g)).
  { induction calls as [|(r, phi, n, m) calls IH]; intros g H; [exact H|]. cbn [fold_left]. apply IH. now apply evaluate_good. }
  apply G, ggood_init.
Qed.

(** ** Values *)
Definition rad (p q : nat) (r : R) : R := upto (S q) (fun k => coef p q k * r ^ (p + q - 2 * k)).
Lemma radial_number_ok : forall p q r, (q <= p)%nat -> radial_number r (terms p q) = if Rlt_dec 1 r then None else Some (rad p q r).
Proof.
  intros p q r Q. unfold radial_number. destruct (Rlt_dec 1 r); [reflexivity|]. f_equal. rewrite rsum_fold. unfold terms, rad. rewrite map_map. apply upto_ext with (n := S q). intros k K. cbn [fst snd]. do 2 f_equal. lia.
Qed.
Lemma radial_array_ok : forall p q r, (q <= p)%nat -> 0 <= r -> radial_array_at r (terms p q) = if Rlt_dec r 1 then Some (rad p q r) else None.
Proof.
  intros p q r Q P. unfold radial_array_at. destruct (Rlt_dec r 1); [|reflexivity]. f_equal. rewrite rsum_fold. unfold terms, rad. rewrite map_map. apply upto_ext with (n := S q). intros k K. cbn [fst snd]. rewrite Rmult_comm. f_equal.
  replace (Z.of_nat (p + q) - 2 * Z.of_nat k)%Z with (Z.of_nat (p + q - 2 * k)) by lia. set (e := (p + q - 2 * k)%nat). destruct (Rlt_dec 0 r) as [L|L].
  - rewrite <- (Rpower_pow e r L). unfold Rpower. rewrite INR_IZR_INZ. f_equal. ring.
  - replace r with 0 by lra. destruct (Z.eqb_spec (Z.of_nat e) 0) as [Z0'|N]; [replace e with 0%nat by lia; reflexivity|]. rewrite pow_i by lia. reflexivity.
Qed.

(** ** Integrals *)
Lemma derive_sum : forall A (f : A -> R -> R) (f' : A -> R) x ks, (forall k, In k ks -> derivable_pt_lim (f k) x (f' k)) ->
  derivable_pt_lim (fun r => rsum (map (fun k => f k r) ks)) x (rsum (map f' ks)).
Proof.
  intros A f f' x ks. induction ks as [|k ks IH]; intros H; [apply derivable_pt_lim_const|]. apply (derivable_pt_lim_plus (f k) (fun r => rsum (map (fun k => f k r) ks))); [apply H; now left|]. apply IH. intros j J. apply H. now right.
Qed.
Lemma derive_upto : forall n (f : nat -> R -> R) (f' : nat -> R) x, (forall k, (k < n)%nat -> derivable_pt_lim (f k) x (f' k)) -> derivable_pt_lim (fun r => upto n (fun k => f k r)) x (upto n f').
Proof. intros n f f' x H. apply derive_sum. intros k I. apply H. apply in_seq in I. lia. Qed.
Lemma derive_mono : forall c e x, derivable_pt_lim (fun r => c / INR (S e) * r ^ S e) x (c * x ^ e).
Proof.
  intros c e x. replace (c * x ^ e) with (c / INR (S e) * (INR (S e) * x ^ pred (S e))) by (cbn [pred]; field; apply not_0_INR; lia).
  apply (derivable_pt_lim_scal (fun r => r ^ S e)). apply derivable_pt_lim_pow.
Qed.
Definition both (p q p' q' : nat) (r : R) : R :=
  upto (S q') (fun l => upto (S q) (fun k => let e := (p + q - 2 * k + (p' + q' - 2 * l) + 1)%nat in coef p q k * coef p' q' l / INR (S e) * r ^ S e)).
Lemma both_derive : forall p q p' q' r, derivable_pt_lim (both p q p' q') r (rad p q r * rad p' q' r * r).
Proof.
  intros p q p' q' r. replace (rad p q r * rad p' q' r * r) with (upto (S q') (fun l => upto (S q) (fun k => coef p q k * coef p' q' l * r ^ (p + q - 2 * k + (p' + q' - 2 * l) + 1)))).
  - apply (derive_upto (S q') (fun l r => upto (S q) (fun k => let e := (p + q - 2 * k + (p' + q' - 2 * l) + 1)%nat in coef p q k * coef p' q' l / INR (S e) * r ^ S e))). intros l _.
    apply (derive_upto (S q) (fun k r => let e := (p + q - 2 * k + (p' + q' - 2 * l) + 1)%nat in coef p q k * coef p' q' l / INR (S e) * r ^ S e)). intros k _. apply derive_mono.
  - unfold rad. rewrite (Rmult_comm (upto _ _) (upto _ _)), Rmult_assoc, (Rmult_comm (upto (S q') _)). rewrite <- upto_scal. apply upto_ext. intros l _. rewrite (Rmult_comm (upto (S q) _)), Rmult_assoc, (Rmult_comm (upto (S q) _)), <- Rmult_assoc, <- upto_scal. apply upto_ext. intros k _. rewrite !pow_add, pow_1. ring.
Qed.
Lemma both_0 : forall p q p' q', both p q p' q' 0 = 0.
Proof. intros. unfold both. apply upto_0. intros l _. apply upto_0. intros k _. cbv zeta. rewrite pow_i by lia. ring. Qed.
Lemma both_1 : forall p q p' q', (q <= p)%nat -> (q' <= q)%nat -> (p + q' = p' + q)%nat -> both p q p' q' 1 = if Nat.eqb q q' then / (2 * INR (p + q) + 2) else 0.
Proof.
  intros p q p' q' Q L E. unfold both.
  rewrite (upto_ext _ _ (fun l => coef p' q' l * (if Nat.eqb (q' - l) q then INR (fact q) * INR (fact p) / (2 * INR (fact (p + q + 1))) else 0))).
  - destruct (Nat.eqb_spec q q') as [<-|N].
    + assert (p' = p) by lia. subst p'. rewrite upto_cons. rewrite Nat.sub_0_r, Nat.eqb_refl. rewrite (upto_0 q). 2:{ intros k K. destruct (Nat.eqb_spec (q - S k) q); [lia|]. ring. }
      unfold coef, sg. rewrite !Nat.sub_0_r. cbn [pow]. change (INR (fact 0)) with 1. replace (p + q + 1)%nat with (S (p + q)) by lia. rewrite (fact_simpl (p + q)), mult_INR, S_INR. pose proof (fact_pos p). pose proof (fact_pos q). pose proof (fact_pos (p + q)). pose proof (pos_INR (p + q)). field. repeat split; lra.
    + apply upto_0. intros l K. destruct (Nat.eqb_spec (q' - l) q); [lia|]. ring.
  - intros l K. rewrite (upto_ext _ _ (fun k => coef p' q' l * (coef p q k / (2 * (INR p - INR k + INR (q' - l) + 1))))).
    + rewrite upto_scal. f_equal. destruct (Nat.eqb_spec (q' - l) q) as [->|N]; [now apply moment_top|]. apply moment_low; lia.
    + intros k J. cbv zeta. rewrite pow1. replace (INR (S (p + q - 2 * k + (p' + q' - 2 * l) + 1))) with (2 * (INR p - INR k + INR (q' - l) + 1)); [|].
      * assert (0 <= INR p - INR k) by (rewrite <- minus_INR by lia; apply pos_INR). pose proof (pos_INR (q' - l)). field. lra.
      * rewrite <- minus_INR by lia. replace (S (p + q - 2 * k + (p' + q' - 2 * l) + 1)) with (2 * (p - k + (q' - l) + 1))%nat by lia. rewrite mult_INR, !plus_INR. cbn [INR]. ring.
Qed.
Lemma radial_int : forall p q p' q', (q <= p)%nat -> (q' <= p')%nat -> (p + q' = p' + q)%nat ->
  exists F, (forall r, derivable_pt_lim F r (rad p q r * rad p' q' r * r)) /\ F 1 - F 0 = if Nat.eqb q q' then / (2 * INR (p + q) + 2) else 0.
Proof.
  intros p q p' q' Q Q' E. destruct (le_lt_dec q' q) as [L|L].
  - exists (both p q p' q'). split; [intros r; apply both_derive|]. rewrite both_0, both_1 by auto. ring.
  - exists (both p' q' p q). split; [intros r; replace (rad p q r * rad p' q' r * r) with (rad p' q' r * rad p q r * r) by ring; apply both_derive|]. rewrite both_0, both_1 by lia. destruct (Nat.eqb_spec q' q), (Nat.eqb_spec q q'); try lia. ring.
Qed.

Lemma turn : forall c : Z, cos (IZR c * (2 * PI)) = 1 /\ sin (IZR c * (2 * PI)) = 0.
Proof. intros c. split; [rewrite <- cos_0; apply cos_congr|rewrite <- sin_0; apply sin_congr]; exists c; ring. Qed.
Lemma derive_lin : forall c x, derivable_pt_lim (fun t => c * t) x c.
Proof. intros c x. pose proof (derivable_pt_lim_scal (fun t => t) c x 1 (derivable_pt_lim_id x)) as H. rewrite Rmult_1_r in H. exact H. Qed.
Lemma cos_int : forall c : Z, exists G, (forall t, derivable_pt_lim G t (cos (IZR c * t))) /\ G (2 * PI) - G 0 = if (c =? 0)%Z then 2 * PI else 0.
Proof.
  intros c. destruct (Z.eqb_spec c 0) as [->|N].
  - exists (fun t => 1 * t). split; [|ring]. intros t. rewrite Rmult_0_l, cos_0. apply derive_lin.
  - assert (IZR c <> 0) by (apply not_0_IZR; auto). exists (fun t => / IZR c * sin (IZR c * t)). split.
    + intros t. replace (cos (IZR c * t)) with (/ IZR c * (cos (IZR c * t) * IZR c)) by (field; auto). apply (derivable_pt_lim_scal (fun t => sin (IZR c * t))). apply (derivable_pt_lim_comp (fun t => IZR c * t) sin); [apply derive_lin|apply derivable_pt_lim_sin].
    + rewrite (proj2 (turn c)). replace (IZR c * 0) with 0 by ring. rewrite sin_0. ring.
Qed.
Lemma sin_int : forall c : Z, exists G, (forall t, derivable_pt_lim G t (sin (IZR c * t))) /\ G (2 * PI) - G 0 = 0.
Proof.
  intros c. destruct (Z.eq_dec c 0) as [->|N].
  - exists (fun t => 0). split; [|ring]. intros t. rewrite Rmult_0_l, sin_0. apply derivable_pt_lim_const.
  - assert (IZR c <> 0) by (apply not_0_IZR; auto). exists (fun t => - / IZR c * cos (IZR c * t)). split.
    + intros t. replace (sin (IZR c * t)) with (- / IZR c * (- sin (IZR c * t) * IZR c)) by (field; auto). apply (derivable_pt_lim_scal (fun t => cos (IZR c * t))). apply (derivable_pt_lim_comp (fun t => IZR c * t) cos); [apply derive_lin|apply derivable_pt_lim_cos].
    + rewrite (proj1 (turn c)). replace (IZR c * 0) with 0 by ring. rewrite cos_0. ring.
Qed.
Lemma derive_two : forall f g f' g' a b, (forall t, derivable_pt_lim f t (f' t)) -> (forall t, derivable_pt_lim g t (g' t)) ->
  forall t, derivable_pt_lim (fun t => a * f t + b * g t) t (a * f' t + b * g' t).
Proof. intros f g f' g' a b F G t. apply (derivable_pt_lim_plus (fun t => a * f t) (fun t => b * g t)); [apply (derivable_pt_lim_scal f)|apply (derivable_pt_lim_scal g)]; auto. Qed.
Lemma angular_int : forall m m', exists G, (forall t, derivable_pt_lim G t (angular m t * angular m' t)) /\ G (2 * PI) - G 0 = if (m =? m')%Z then (if (m =? 0)%Z then 2 * PI else PI) else 0.
Proof.
  intros m m'. destruct (cos_int (m - m')) as (C1 & D1 & V1), (cos_int (m + m')) as (C2 & D2 & V2), (sin_int (m - m')) as (S1 & E1 & W1), (sin_int (m + m')) as (S2 & E2 & W2).
  assert (TM : forall t, IZR (m - m') * t = IZR m * t - IZR m' * t) by (intros; rewrite minus_IZR; ring). assert (TP : forall t, IZR (m + m') * t = IZR m * t + IZR m' * t) by (intros; rewrite plus_IZR; ring).
  unfold angular. destruct (Z.leb_spec 0 m), (Z.leb_spec 0 m').
  - exists (fun t => 1 / 2 * C1 t + 1 / 2 * C2 t). split.
    + intros t. replace (cos (IZR m * t) * cos (IZR m' * t)) with (1 / 2 * cos (IZR (m - m') * t) + 1 / 2 * cos (IZR (m + m') * t)) by (rewrite TM, TP, cos_minus, cos_plus; field). exact (derive_two _ _ _ _ _ _ D1 D2 t).
    + replace (1 / 2 * C1 (2 * PI) + 1 / 2 * C2 (2 * PI) - (1 / 2 * C1 0 + 1 / 2 * C2 0)) with (1 / 2 * (C1 (2 * PI) - C1 0) + 1 / 2 * (C2 (2 * PI) - C2 0)) by ring. rewrite V1, V2.
      destruct (Z.eqb_spec (m - m') 0), (Z.eqb_spec (m + m') 0), (Z.eqb_spec m m'), (Z.eqb_spec m 0); try lia; field.
  - exists (fun t => 1 / 2 * S2 t + (- (1 / 2)) * S1 t). split.
    + intros t. replace (cos (IZR m * t) * sin (IZR m' * t)) with (1 / 2 * sin (IZR (m + m') * t) + - (1 / 2) * sin (IZR (m - m') * t)) by (rewrite TM, TP, sin_minus, sin_plus; field). exact (derive_two _ _ _ _ _ _ E2 E1 t).
    + destruct (Z.eqb_spec m m'); [lia|]. lra.
  - exists (fun t => 1 / 2 * S2 t + (1 / 2) * S1 t). split.
    + intros t. replace (sin (IZR m * t) * cos (IZR m' * t)) with (1 / 2 * sin (IZR (m + m') * t) + 1 / 2 * sin (IZR (m - m') * t)) by (rewrite TM, TP, sin_minus, sin_plus; field). exact (derive_two _ _ _ _ _ _ E2 E1 t).
    + destruct (Z.eqb_spec m m'); [lia|]. lra.
  - exists (fun t => 1 / 2 * C1 t + (- (1 / 2)) * C2 t). split.
    + intros t. replace (sin (IZR m * t) * sin (IZR m' * t)) with (1 / 2 * cos (IZR (m - m') * t) + - (1 / 2) * cos (IZR (m + m') * t)) by (rewrite TM, TP, cos_minus, cos_plus; field). exact (derive_two _ _ _ _ _ _ D1 D2 t).
    + replace (1 / 2 * C1 (2 * PI) + - (1 / 2) * C2 (2 * PI) - (1 / 2 * C1 0 + - (1 / 2) * C2 0)) with (1 / 2 * (C1 (2 * PI) - C1 0) - 1 / 2 * (C2 (2 * PI) - C2 0)) by ring. rewrite V1, V2.
      destruct (Z.eqb_spec (m - m') 0), (Z.eqb_spec (m + m') 0), (Z.eqb_spec m m'), (Z.eqb_spec m 0); try lia; field.
Qed.
