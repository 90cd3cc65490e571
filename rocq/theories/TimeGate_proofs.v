(** Proofs about the gates on time and conditions. *)
From Coq Require Import List ZArith QArith Qround Qabs Bool String Lia Lqa Permutation.
From Verif Require Import Base IntRounded IntRounded_proofs Script Script_proofs TimeGate.
Import ListNotations.
Open Scope nat_scope.

Lemma qmin_spec : forall l x, In (qmin_list x l) (x :: l) /\ forall y, In y (x :: l) -> (qmin_list x l <= y)%Q.
Proof.
  induction l as [|a l IH]; intro x; cbn [qmin_list fold_left].
  - split; [left; reflexivity|]. intros y [<-|[]]. apply Qle_refl.
  - fold (qmin_list (if Qltb a x then a else x) l). destruct (IH (if Qltb a x then a else x)) as [A B]. split.
    + destruct A as [A|A]; [|right; right; exact A]. rewrite <- A. destruct (Qltb a x); [right; left|left]; reflexivity.
    + assert (M : (qmin_list (if Qltb a x then a else x) l <= (if Qltb a x then a else x))%Q) by (apply B; left; reflexivity).
      intros y [<-|[<-|I]]; [| |apply B; right; exact I]; destruct (Qltb a x) eqn:E;
        [apply Qltb_lt in E; lra|exact M|exact M|apply Qltb_false in E; lra].
Qed.
Lemma qmax_spec : forall l x, In (qmax_list x l) (x :: l) /\ forall y, In y (x :: l) -> (y <= qmax_list x l)%Q.
Proof.
  induction l as [|a l IH]; intro x; cbn [qmax_list fold_left].
  - split; [left; reflexivity|]. intros y [<-|[]]. apply Qle_refl.
  - fold (qmax_list (if Qltb x a then a else x) l). destruct (IH (if Qltb x a then a else x)) as [A B]. split.
    + destruct A as [A|A]; [|right; right; exact A]. rewrite <- A. destruct (Qltb x a); [right; left|left]; reflexivity.
    + assert (M : ((if Qltb x a then a else x) <= qmax_list (if Qltb x a then a else x) l)%Q) by (apply B; left; reflexivity).
      intros y [<-|[<-|I]]; [| |apply B; right; exact I]; destruct (Qltb x a) eqn:E;
        [apply Qltb_lt in E; lra|exact M|exact M|apply Qltb_false in E; lra].
Qed.
Lemma np_min_ok : forall l, l <> [] -> exists m, np_min l = Ok m /\ In m l /\ forall y, In y l -> (m <= y)%Q.
Proof. intros [|x l] H; [contradiction|]. exists (qmin_list x l). split; [reflexivity|]. apply qmin_spec. Qed.
Lemma np_max_ok : forall l, l <> [] -> exists m, np_max l = Ok m /\ In m l /\ forall y, In y l -> (y <= m)%Q.
Proof. intros [|x l] H; [contradiction|]. exists (qmax_list x l). split; [reflexivity|]. apply qmax_spec. Qed.

Definition around (w : list Q) (t : Q) : Prop := exists x y, In x w /\ In y w /\ (x <= t <= y)%Q.
Lemma in_windows_spec : forall ws t r, (forall w, In w ws -> w <> []) ->
  exists b, in_windows ws t r = Ok b /\ (b = true <-> r = true \/ exists w, In w ws /\ around w t).
Proof.
  induction ws as [|w ws IH]; intros t r H; cbn [in_windows].
  - exists r. split; [reflexivity|]. split; [tauto|]. intros [E|[w [[] _]]]. exact E.
  - destruct (np_min_ok w (H w (or_introl eq_refl))) as [lo [E1 [I1 B1]]]. destruct (np_max_ok w (H w (or_introl eq_refl))) as [hi [E2 [I2 B2]]].
    rewrite E1, E2. cbn [bind]. destruct (IH t (if Qle_bool lo t && Qle_bool t hi then true else r)) as [b [E3 B3]]; [intros v Hv; apply H; right; exact Hv|].
    exists b. split; [exact E3|]. rewrite B3.
    assert (A : Qle_bool lo t && Qle_bool t hi = true <-> around w t).
    { rewrite andb_true_iff, !Qle_bool_iff. split.
      - intros [P Q1]. exists lo, hi. auto.
      - intros [x [y [Ix [Iy [P Q1]]]]]. pose proof (B1 x Ix). pose proof (B2 y Iy). split; lra. }
    split.
    + intros [C|[v [Iv Av]]]; [|right; exists v; split; [right; exact Iv|exact Av]].
      destruct (Qle_bool lo t && Qle_bool t hi); [right; exists w; split; [left; reflexivity|apply A; reflexivity]|left; exact C].
    + intros [C|[v [[<-|Iv] Av]]]; [left; destruct (_ && _); [reflexivity|exact C]|left; rewrite (proj2 A Av); reflexivity|right; exists v; auto].
Qed.

Lemma band_loaded_spec : forall bands mounted r, (bands <> [] \/ r = Some true) ->
  exists b, band_loaded_from bands mounted r = Ok b /\ (b = true <-> incl bands mounted).
Proof.
  induction bands as [|x bands IH]; intros mounted r H; cbn [band_loaded_from].
  - destruct H as [H| ->]; [contradiction|]. exists true. split; [reflexivity|]. split; [intros _ y []|reflexivity].
  - destruct (existsb (String.eqb x) mounted) eqn:E; cbn [negb].
    + destruct (IH mounted (Some true)) as [b [E1 B]]; [right; reflexivity|]. exists b. split; [exact E1|]. rewrite B.
      apply existsb_exists in E. destruct E as [y [Iy Ey]]. apply String.eqb_eq in Ey. subst y. split.
      * intros I z [<-|Iz]; [exact Iy|apply I; exact Iz].
      * intros I z Iz. apply I. right. exact Iz.
    + exists false. split; [reflexivity|]. split; [discriminate|]. intro I. exfalso.
      assert (T : existsb (String.eqb x) mounted = true) by (apply existsb_exists; exists x; split; [apply I; left; reflexivity|apply String.eqb_refl]). congruence.
Qed.

(** Scalar comparisons through IntRounded. *)
Lemma truth_lt_sound : forall a b, truth (ir_lt [a] [b]) = true -> (a < b)%Q.
Proof.
  intros a b H. assert (C : compatible [a] [b]) by (left; reflexivity).
  destruct (bpair [a] [b] 0 a b C) as (ps & E & N); [cbn; lia|reflexivity|reflexivity|].
  destruct (cmp_total Qle_bool [a] [b] C) as (les & E1 & _). destruct (cmp_total Qltb [a] [b] C) as (lts & E2 & L2).
  destruct (ir_one_sided [a] [b] ps les lts 0 a b E N E1 E2) as [_ [S _]]. apply S. cbn in L2.
  unfold ir_lt in H. rewrite E2 in H. destruct lts as [|x [|]]; try discriminate L2. cbn in H |- *. congruence.
Qed.
Definition apart (a b : Q) : Prop := exists z, (z = a \/ z = b) /\ ~ (z == 0)%Q /\ ((1 # 1000000000) * Qabs z < Qabs (a - b))%Q.
Lemma truth_exact : forall (cmp : Q -> Q -> bool) a b, apart a b -> truth (ir_cmp cmp [a] [b]) = cmp a b.
Proof.
  intros cmp a b [z [Z [N A]]]. assert (C : compatible [a] [b]) by (left; reflexivity).
  destruct (cmp_exact_args cmp [a] [b] z C) as (bs & E & L & X).
  - destruct Z as [-> | ->]; [left|right]; left; reflexivity.
  - exact N.
  - intros i x y Hx Hy. cbn in Hx, Hy. injection Hx as <-. injection Hy as <-. exact A.
  - destruct (X 0) as (x & y & Hx & Hy & Hn); [cbn; lia|]. cbn in Hx, Hy. injection Hx as <-. injection Hy as <-.
    rewrite E. cbn in L. destruct bs as [|q [|]]; try discriminate L. cbn in Hn |- *. congruence.
Qed.
Lemma truth_lt_exact : forall a b, apart a b -> (truth (ir_lt [a] [b]) = true <-> (a < b)%Q).
Proof. intros a b A. unfold ir_lt. rewrite (truth_exact Qltb a b A). apply Qltb_lt. Qed.
Lemma truth_gt_exact : forall a b, apart a b -> (truth (ir_gt [a] [b]) = true <-> (b < a)%Q).
Proof. intros a b A. unfold ir_gt. rewrite (truth_exact _ a b A). apply Qltb_lt. Qed.

(** The hour angle modulo a day. *)
Lemma Qmod_shift : forall x m, (0 < m)%Q -> exists k : Z, (Qmod x m == x + inject_Z k * m)%Q.
Proof. intros x m M. exists (- Qfloor (x / m))%Z. unfold Qmod. rewrite inject_Z_opp. ring. Qed.
Lemma Qmod_unique : forall x m k, (0 < m)%Q -> (0 <= x + inject_Z k * m)%Q -> (x + inject_Z k * m < m)%Q -> (Qmod x m == x + inject_Z k * m)%Q.
Proof.
  intros x m k M L U. destruct (Qmod_range x m M) as [A B]. destruct (Qmod_shift x m M) as [j J]. rewrite J in *.
  assert (E : j = k).
  { destruct (Z.lt_trichotomy j k) as [C|[C|C]]; [exfalso| exact C|exfalso].
    - assert (H : (inject_Z j + 1 <= inject_Z k)%Q) by (change 1%Q with (inject_Z 1); rewrite <- inject_Z_plus, <- Zle_Qle; lia).
      assert ((inject_Z j + 1) * m <= inject_Z k * m)%Q by (apply Qmult_le_compat_r; [exact H|lra]). lra.
    - assert (H : (inject_Z k + 1 <= inject_Z j)%Q) by (change 1%Q with (inject_Z 1); rewrite <- inject_Z_plus, <- Zle_Qle; lia).
      assert ((inject_Z k + 1) * m <= inject_Z j * m)%Q by (apply Qmult_le_compat_r; [exact H|lra]). lra. }
  rewrite E. apply Qeq_refl.
Qed.

(** Consecutive nights run through the pattern. *)
Lemma residues : forall n a, 0 < n -> Permutation (map (fun i => Z.to_nat ((a + Z.of_nat i) mod Z.of_nat n)) (seq 0 n)) (seq 0 n).
Proof.
  intros n a N. apply NoDup_Permutation_bis.
  - assert (G : forall l, NoDup l -> (forall i, In i l -> i < n) -> NoDup (map (fun i => Z.to_nat ((a + Z.of_nat i) mod Z.of_nat n)) l)).
    { intros l. induction l as [|x l IH]; intros ND B; [constructor|]. inversion ND as [|? ? ND1 ND2]; subst. cbn. constructor.
      - intro I. apply in_map_iff in I. destruct I as [y [E Iy]]. assert (X : x < n) by (apply B; left; reflexivity). assert (Y : y < n) by (apply B; right; exact Iy).
        assert (E' : ((a + Z.of_nat y) mod Z.of_nat n = (a + Z.of_nat x) mod Z.of_nat n)%Z).
        { pose proof (Z.mod_pos_bound (a + Z.of_nat y) (Z.of_nat n)). pose proof (Z.mod_pos_bound (a + Z.of_nat x) (Z.of_nat n)). lia. }
        assert (x = y); [|subst; contradiction].
        pose proof (Z.div_mod (a + Z.of_nat y) (Z.of_nat n) ltac:(lia)) as D1. pose proof (Z.div_mod (a + Z.of_nat x) (Z.of_nat n) ltac:(lia)) as D2.
        set (q1 := ((a + Z.of_nat y) / Z.of_nat n)%Z) in *. set (q2 := ((a + Z.of_nat x) / Z.of_nat n)%Z) in *.
        assert (F : (Z.of_nat y - Z.of_nat x = Z.of_nat n * (q1 - q2))%Z) by lia.
        assert (q1 - q2 = 0)%Z by nia. lia.
      - apply IH; [exact ND2|intros i Ii; apply B; right; exact Ii]. }
    apply G; [apply seq_NoDup|]. intros i Ii. apply in_seq in Ii. lia.
  - rewrite map_length, seq_length. lia.
  - intros y I. apply in_map_iff in I. destruct I as [x [<- _]]. apply in_seq. pose proof (Z.mod_pos_bound (a + Z.of_nat x) (Z.of_nat n)). lia.
Qed.
Lemma map_nth_seq : forall (l : list bool) d, map (fun i => nth i l d) (seq 0 (List.length l)) = l.
Proof.
  intros l d. apply nth_ext with d d; [rewrite map_length, seq_length; reflexivity|]. intros i H. rewrite map_length, seq_length in H.
  rewrite (nth_indep _ d (nth (List.length l) l d)) by (rewrite map_length, seq_length; exact H).
  rewrite (map_nth (fun i => nth i l d)). rewrite seq_nth by exact H. reflexivity.
Qed.
