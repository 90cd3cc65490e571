(** Proofs about the shadow mask. *)
From Coq Require Import List ZArith QArith Qround Qabs Qfield Bool Lia Lqa.
From Verif Require Import Base Shadow.
Import ListNotations.
Open Scope Q_scope.

Lemma fmod_range : forall x m, 0 < m -> 0 <= fmod x m /\ fmod x m < m.
Proof.
  intros x m Hm. unfold fmod.
  pose proof (Qfloor_le (x / m)) as H1. pose proof (Qlt_floor (x / m)) as H2.
  rewrite inject_Z_plus in H2.
  assert (E : x == m * (x / m)) by (field; lra).
  set (f := inject_Z (Qfloor (x / m))) in *. set (y := x / m) in *. change (inject_Z 1) with 1 in H2.
  split.
  - assert (m * f <= m * y) by (apply Qmult_le_l; auto). lra.
  - assert (m * y < m * (f + 1)) by (apply Qmult_lt_l; auto). lra.
Qed.
Lemma turns_unique : forall m (a b : Z) x, 0 < m ->
  0 <= x + inject_Z a * m -> x + inject_Z a * m < m -> 0 <= x + inject_Z b * m -> x + inject_Z b * m < m -> a = b.
Proof.
  intros m a b x Hm A1 A2 B1 B2.
  destruct (Z.lt_trichotomy a b) as [L|[E|L]]; [exfalso|exact E|exfalso].
  - assert (inject_Z a + 1 <= inject_Z b) by (change 1 with (inject_Z 1); rewrite <- inject_Z_plus, <- Zle_Qle; lia).
    assert (m * (inject_Z a + 1) <= m * inject_Z b) by (apply Qmult_le_l; auto). lra.
  - assert (inject_Z b + 1 <= inject_Z a) by (change 1 with (inject_Z 1); rewrite <- inject_Z_plus, <- Zle_Qle; lia).
    assert (m * (inject_Z b + 1) <= m * inject_Z a) by (apply Qmult_le_l; auto). lra.
Qed.
Lemma fmod_unique : forall x m (k : Z), 0 < m -> 0 <= x + inject_Z k * m -> x + inject_Z k * m < m ->
  fmod x m == x + inject_Z k * m.
Proof.
  intros x m k Hm A B. destruct (fmod_range x m Hm) as [C D]. unfold fmod in *.
  assert (E : k = (- Qfloor (x / m))%Z).
  { apply (turns_unique m _ _ x Hm); auto; rewrite inject_Z_opp; lra. }
  rewrite E, inject_Z_opp. lra.
Qed.

(** Turning from [lo] upwards, [z] is reached no later than [hi]. *)
Definition within (tp lo hi z : Q) : Prop :=
  exists k j : Z, lo <= z + inject_Z k * tp /\ z + inject_Z k * tp <= hi + inject_Z j * tp /\
                  hi + inject_Z j * tp < lo + tp.
Lemma within_fmod : forall tp lo hi z, 0 < tp ->
  (Qltb (fmod (hi - lo) tp) (fmod (z - lo) tp) = false <-> within tp lo hi z).
Proof.
  intros tp lo hi z Hm. split.
  - intro H. apply Qltb_false in H. unfold within.
    destruct (fmod_range (hi - lo) tp Hm) as [A B]. destruct (fmod_range (z - lo) tp Hm) as [C D].
    unfold fmod in *. exists (- Qfloor ((z - lo) / tp))%Z, (- Qfloor ((hi - lo) / tp))%Z.
    rewrite !inject_Z_opp. repeat split; lra.
  - intros (k & j & A & B & C).
    assert (E1 : fmod (z - lo) tp == z - lo + inject_Z k * tp) by (apply fmod_unique; lra).
    assert (E2 : fmod (hi - lo) tp == hi - lo + inject_Z j * tp) by (apply fmod_unique; lra).
    destruct (Qltb _ _) eqn:E; [|reflexivity]. apply Qltb_lt in E. lra.
Qed.
(** A range of a full turn or more excludes nothing. *)
Definition az_in (tp lo hi z : Q) : Prop := tp <= Qabs (hi - lo) \/ within tp lo hi z.
Lemma az_bad_spec : forall tp lo hi a b, 0 < tp ->
  (az_bad tp lo hi a b = false <-> az_in tp lo hi a /\ az_in tp lo hi b).
Proof.
  intros tp lo hi a b Hm. unfold az_bad, az_in.
  pose proof (within_fmod tp lo hi a Hm) as Wa. pose proof (within_fmod tp lo hi b Hm) as Wb.
  destruct (Qltb (Qabs (hi - lo)) tp) eqn:E; cbn [andb].
  - apply Qltb_lt in E. rewrite orb_false_iff. split.
    + intros [A B]. tauto.
    + intros [[A|A] [B|B]]; try (exfalso; lra). tauto.
  - apply Qltb_false in E. split; auto.
Qed.

Section Mask.
Variable lt : Q -> Q -> bool.
Variable tp : Q.
Variable now : list (Q * Q).
Variable fut : Q -> list (Q * Q).
Variable L : limits.
Variable alim : Q * Q.
Hypothesis fut_len : forall t, length (fut t) = length now.

Notation mask_step := (mask_step lt tp now fut L alim).

Fixpoint good_run (p : nat) (ts : list Q) (z : Q * Q) : Prop :=
  match ts with
  | [] => True
  | t :: r => (forall n f, nth_error now p = Some n -> nth_error (fut t) p = Some f ->
                 pix_bad lt tp L alim z (n, f) = false) /\ good_run p r (last (sky_az L) z)
  end.
Lemma nth_combine_ex : forall A B (l : list A) (l' : list B) p a b, nth_error l p = Some a -> nth_error l' p = Some b ->
  nth_error (combine l l') p = Some (a, b).
Proof.
  induction l as [|x l IH]; intros l' p a b H H'; destruct p; cbn in *; try discriminate.
  - destruct l'; [discriminate|]. cbn in *. congruence.
  - destruct l'; [discriminate|]. cbn in *. auto.
Qed.
Lemma step_len : forall m z t, length m = length now -> length (fst (mask_step (m, z) t)) = length now.
Proof. intros m z t H. cbn. rewrite map_length, !combine_length, H, fut_len. lia. Qed.
Lemma step_nth : forall m z t p b n, length m = length now -> nth_error m p = Some b -> nth_error now p = Some n ->
  exists f, nth_error (fut t) p = Some f /\
  nth_error (fst (mask_step (m, z) t)) p = Some (b || pix_bad lt tp L alim z (n, f)).
Proof.
  intros m z t p b n Hl Hm Hn.
  destruct (nth_error (fut t) p) as [f|] eqn:F.
  - exists f. split; [reflexivity|]. cbn.
    rewrite nth_error_map. rewrite (nth_combine_ex _ _ _ _ _ _ _ Hm (nth_combine_ex _ _ _ _ _ _ _ Hn F)). reflexivity.
  - apply nth_error_None in F. assert (p < length now)%nat by (apply nth_error_Some; congruence). rewrite fut_len in F. lia.
Qed.
Lemma fold_nth : forall ts m z p b n, length m = length now -> nth_error m p = Some b -> nth_error now p = Some n ->
  exists c, nth_error (fst (fold_left mask_step ts (m, z))) p = Some c /\
            (c = false <-> b = false /\ good_run p ts z).
Proof.
  induction ts as [|t ts IH]; intros m z p b n Hl Hm Hn.
  - cbn. exists b. tauto.
  - destruct (step_nth m z t p b n Hl Hm Hn) as (f & F & N).
    cbn [fold_left]. destruct (mask_step (m, z) t) as [m1 z1] eqn:E.
    assert (Z1 : z1 = last (sky_az L) z) by (cbn in E; congruence).
    pose proof (step_len m z t Hl) as L1. rewrite E in L1. cbn [fst] in L1, N.
    destruct (IH m1 z1 p _ n L1 N Hn) as (c & C & I). exists c. split; [exact C|]. rewrite I. cbn [good_run].
    rewrite orb_false_iff, Z1. split.
    + intros [[A B] G]. repeat split; auto. intros n' f' N' F'. congruence.
    + intros [A [B G]]. repeat split; auto.
Qed.
Lemma loop_nth : forall ts z p n, nth_error now p = Some n ->
  exists c, nth_error (mask_loop lt tp now fut L alim z ts) p = Some c /\ (c = false <-> good_run p ts z).
Proof.
  intros ts z p n N. unfold mask_loop.
  destruct (fold_nth ts (map (fun _ => false) now) z p false n) as (c & C & I); auto.
  - apply map_length.
  - rewrite nth_error_map, N. reflexivity.
  - exists c. split; [exact C|]. tauto.
Qed.
Lemma loop_len : forall ts z, length (mask_loop lt tp now fut L alim z ts) = length now.
Proof.
  intros ts z. unfold mask_loop.
  assert (G : forall ts m z, length m = length now -> length (fst (fold_left mask_step ts (m, z))) = length now).
  { induction ts0 as [|t ts0 IH]; intros m z0 Hl; [exact Hl|]. cbn [fold_left].
    destruct (mask_step (m, z0) t) as [m1 z1] eqn:E. apply IH.
    pose proof (step_len m z0 t Hl) as L1. rewrite E in L1. exact L1. }
  apply G. apply map_length.
Qed.
End Mask.

Lemma set_mask_nth : forall m ix p, nth_error (set_mask m ix) p = Some false -> nth_error m p = Some false.
Proof.
  intros m ix p H. unfold set_mask in H. rewrite nth_error_map in H.
  destruct (nth_error (combine (seq 0 (length m)) m) p) as [[q b]|] eqn:E; [|discriminate].
  cbn in H. injection H as H. apply orb_false_iff in H. destruct H as [-> _].
  revert E. generalize 0%nat. revert p. induction m as [|x m IH]; intros p s E; destruct p; cbn in *; try discriminate.
  - congruence.
  - eauto.
Qed.

(** The sampled times. *)
Lemma times_shape : forall shadow step, 0 < step -> step <= shadow ->
  exists n : nat, (0 < n)%nat /\ inject_Z (Z.of_nat n) * step <= shadow < inject_Z (Z.of_nat (S n)) * step /\
  shadow_times shadow step = map (fun k => inject_Z (Z.of_nat k) * step) (seq 0 n) ++ [shadow].
Proof.
  intros shadow step Hs Hle. unfold shadow_times.
  set (f := Qfloor (shadow / step)).
  assert (E : shadow == step * (shadow / step)) by (field; lra).
  pose proof (Qfloor_le (shadow / step)) as H1. pose proof (Qlt_floor (shadow / step)) as H2. fold f in H1, H2.
  assert (F : (1 <= f)%Z).
  { unfold f. rewrite <- (Qfloor_Z 1). apply Qfloor_resp_le.
    change (inject_Z 1) with 1. apply Qle_shift_div_l; lra. }
  assert (B : (0 <? f)%Z = true) by (apply Z.ltb_lt; lia). rewrite B.
  exists (Z.to_nat f). split; [lia|].
  assert (B1 : inject_Z f * step <= shadow).
  { rewrite E at 1. rewrite (Qmult_comm (inject_Z f)). apply Qmult_le_l; auto. }
  assert (B2 : shadow < inject_Z (f + 1) * step).
  { rewrite E at 1. rewrite (Qmult_comm (inject_Z (f + 1))). apply Qmult_lt_l; auto. }
  split.
  - replace (Z.of_nat (S (Z.to_nat f))) with (f + 1)%Z by lia. rewrite Z2Nat.id by lia. split; auto.
  - destruct (existsb _ _) eqn:X; [|reflexivity]. exfalso. apply existsb_exists in X. destruct X as (t & T & Q).
    apply in_map_iff in T. destruct T as (k & <- & K). apply in_seq in K. apply Qeq_bool_iff in Q.
    assert (inject_Z (Z.of_nat k) + 1 <= inject_Z f)
      by (change 1 with (inject_Z 1); rewrite <- inject_Z_plus, <- Zle_Qle; lia).
    assert (step * (inject_Z (Z.of_nat k) + 1) <= step * inject_Z f) by (apply Qmult_le_l; auto). lra.
Qed.
Lemma times_short : forall shadow step, 0 < step -> shadow < step -> 0 <= shadow -> shadow_times shadow step = [shadow].
Proof.
  intros shadow step Hs Hlt H0. unfold shadow_times.
  assert (F : Qfloor (shadow / step) = 0%Z).
  { assert (A : (Qfloor 0 <= Qfloor (shadow / step))%Z) by (apply Qfloor_resp_le, Qle_shift_div_l; lra).
    change (Qfloor 0) with 0%Z in A.
    pose proof (Qfloor_le (shadow / step)) as B.
    assert (C : shadow / step < 1) by (apply Qlt_shift_div_r; lra).
    assert (D : inject_Z (Qfloor (shadow / step)) < inject_Z 1) by (change (inject_Z 1) with 1; lra).
    rewrite <- Zlt_Qlt in D. lia. }
  rewrite F. reflexivity.
Qed.

(** The call cache. *)
Section CacheP.
Variables K V E : Type.
Variable keq : K -> K -> bool.
Hypothesis keq_eq : forall a b, keq a b = true <-> a = b.
Variable compute : K -> E -> V.
Lemma cfind_in : forall c k v, cfind K V keq c k = Some v -> In (k, v) c.
Proof.
  induction c as [|[a w] c IH]; intros k v H; cbn in H; [discriminate|].
  destruct (keq a k) eqn:Q; [left; apply keq_eq in Q; congruence|right; auto].
Qed.
Lemma call_ok : forall size c k e,
  (forall k' v', In (k', v') c -> k' = k -> v' = compute k e) ->
  snd (call K V E keq compute size c k e) = compute k e /\
  forall k' v', In (k', v') (fst (call K V E keq compute size c k e)) -> In (k', v') c \/ k' = k /\ v' = compute k e.
Proof.
  intros size c k e H. unfold call. destruct (cfind K V keq c k) as [v|] eqn:F.
  - assert (EV : v = compute k e) by (apply (H k); auto; apply cfind_in; exact F).
    cbn. split; [exact EV|]. intros k' v' [X|X]; [injection X as <- <-; auto|].
    left. unfold cdel in X. apply filter_In in X. tauto.
  - cbn [fst snd]. split; [reflexivity|]. intros k' v' X.
    assert (Y : In (k', v') ((k, compute k e) :: c)).
    { rewrite <- (firstn_skipn size). apply in_or_app. left. exact X. }
    destruct Y as [Y|Y]; [injection Y as <- <-; auto|auto].
Qed.
Lemma calls_ok : forall size h c,
  (forall k e e', In (k, e) h -> In (k, e') h -> compute k e = compute k e') ->
  (forall k v e, In (k, v) c -> In (k, e) h -> v = compute k e) ->
  calls K V E keq compute size c h = map (fun p => compute (fst p) (snd p)) h.
Proof.
  intros size. induction h as [|[k e] h IH]; intros c H C; [reflexivity|].
  destruct (call_ok size c k e) as [R I].
  { intros k' v' X ->. apply (C k v' e X). left. reflexivity. }
  cbn. destruct (call K V E keq compute size c k e) as [c1 v]. cbn in R, I. subst v. f_equal.
  apply IH.
  - intros k' e1 e2 A B. apply H; right; assumption.
  - intros k' v' e' X Y. destruct (I k' v' X) as [Z|[-> ->]].
    + apply (C k' v' e' Z). right. exact Y.
    + apply H; [left; reflexivity|right; exact Y].
Qed.
End CacheP.
