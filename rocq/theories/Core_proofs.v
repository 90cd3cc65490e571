(** Proofs about the core scheduler model. *)
From Coq Require Import List ZArith QArith Bool String Lia Permutation Sorted.
From Verif Require Import Base IntRounded Obs Queue Core.
Import ListNotations.
Open Scope nat_scope.

(** ** Stamping *)
Fixpoint zseq (c : Z) (n : nat) : list Z :=
  match n with O => [] | S n => c :: zseq (c + 1)%Z n end.

Lemma stamp_tids : forall l c, map o_tid (stamp c l) = zseq c (List.length l).
Proof. induction l as [|o r IH]; intros c; cbn; [reflexivity|]. now rewrite IH. Qed.

Lemma zseq_bounds : forall n c t, In t (zseq c n) -> (c <= t < c + Z.of_nat n)%Z.
Proof.
  induction n as [|n IH]; intros c t H; cbn [zseq] in H; [contradiction|].
  destruct H as [<-|H]; [lia|]. apply IH in H. lia.
Qed.

Lemma zseq_nodup : forall n c, NoDup (zseq c n).
Proof.
  induction n as [|n IH]; intros c; cbn [zseq]; constructor; auto.
  intros H. apply zseq_bounds in H. lia.
Qed.

Lemma fill_filters_tids : forall d l l', fill_filters d l = Ok l' -> map o_tid l' = map o_tid l.
Proof.
  induction l as [|o r IH]; intros l' H; cbn in H.
  - injection H as <-. reflexivity.
  - destruct (String.eqb (o_filter o) "").
    + destruct (assoc (o_band o) d); [|discriminate].
      destruct (fill_filters d r) as [r'|]; cbn in H; [|discriminate].
      injection H as <-. cbn. f_equal. now apply IH.
    + destruct (fill_filters d r) as [r'|]; cbn in H; [|discriminate].
      injection H as <-. cbn. f_equal. now apply IH.
Qed.

Lemma band_to_filter_tids : forall d l l', band_to_filter d l = Ok l' -> map o_tid l' = map o_tid l.
Proof.
  intros [|p d] l l' H; unfold band_to_filter in H.
  - injection H as <-. reflexivity.
  - eapply fill_filters_tids; eauto.
Qed.

Lemma in_q_set : forall l o b, In (o, b) (q_set l) -> b = true /\ In o l.
Proof.
  intros l o b H. unfold q_set in H. apply in_map_iff in H.
  destruct H as [x [E H]]. injection E as -> <-. auto.
Qed.

Lemma in_tid : forall (l : list obs) o, In o l -> In (o_tid o) (map o_tid l).
Proof. intros. now apply in_map. Qed.

(** ** NaN-ignoring maximum *)
Definition is_best (l : list er) (m : er) : Prop :=
  In m l /\ er_isnan m = false /\ forall x, In x l -> er_isnan x = false -> er_le x m.

Lemma nanmax2_fold : forall l acc,
  (er_isnan acc = true /\ fold_left nanmax2 l acc = nanmax l /\ nanmax l = ENaN /\ (forall x, In x l -> er_isnan x = true))
  \/ (er_isnan (fold_left nanmax2 l acc) = false /\
      is_best (acc :: l) (fold_left nanmax2 l acc)).
Proof.
  assert (Hn : forall acc, er_isnan acc = true -> acc = ENaN) by (intros []; simpl; congruence).
  induction l as [|x r IH]; intros acc.
  - cbn. destruct (er_isnan acc) eqn:E.
    + left. rewrite (Hn _ E). repeat split; auto.
    + right. split; [reflexivity|]. split; [now left|]. split; [exact E|].
      intros y [<-|[]] Hy. now apply er_le_refl.
  - cbn [fold_left]. destruct (er_isnan acc) eqn:Ea.
    + assert (nanmax2 acc x = x) as -> by (unfold nanmax2; now rewrite Ea).
      rewrite (Hn _ Ea).
      assert (Eq : nanmax (x :: r) = fold_left nanmax2 r x) by reflexivity.
      destruct (IH x) as [(A & B & C & D)|(A & B1 & B2 & B3)].
      * left. split; [reflexivity|]. rewrite Eq. split; [reflexivity|]. split; [congruence|].
        intros y [<-|Hy]; auto.
      * right. split; [exact A|]. split; [now right|]. split; [exact A|].
        intros y [<-|Hy] Hyn; [discriminate|]. apply B3; auto.
    + destruct (er_isnan x) eqn:Ex.
      * assert (nanmax2 acc x = acc) as -> by (unfold nanmax2; now rewrite Ea, Ex).
        destruct (IH acc) as [(A & _)|(A & B1 & B2 & B3)]; [congruence|].
        right. split; [exact A|]. split.
        { destruct B1 as [B1|B1]; [now left|right; now right]. }
        split; [exact A|]. intros y [<-|[<-|Hy]] Hyn; [apply B3; auto; now left|congruence|].
        apply B3; auto. now right.
      * set (a' := nanmax2 acc x).
        assert (Ha : er_isnan a' = false /\ er_le acc a' /\ er_le x a' /\ (a' = acc \/ a' = x)).
        { unfold a', nanmax2. rewrite Ea, Ex. destruct (er_ltb acc x) eqn:L.
          - repeat split; auto; [now apply er_ltb_true_le|now apply er_le_refl].
          - repeat split; auto; [now apply er_le_refl|now apply er_ltb_false_le]. }
        destruct Ha as (N & H1 & H2 & H3).
        destruct (IH a') as [(A & _)|(A & B1 & B2 & B3)]; [congruence|].
        right. split; [exact A|].
        assert (Hm : er_le a' (fold_left nanmax2 r a')) by (apply B3; [now left|exact N]).
        split.
        { destruct B1 as [B1|B1]; [|right; now right].
          destruct H3 as [H3|H3]; [left|right; left]; congruence. }
        split; [exact A|]. intros y [<-|[<-|Hy]] Hyn.
        -- eapply er_le_trans; eauto.
        -- eapply er_le_trans; eauto.
        -- apply B3; auto. now right.
Qed.

Lemma nanmax_spec : forall l,
  (nanmax l = ENaN /\ forall x, In x l -> er_isnan x = true) \/ is_best l (nanmax l).
Proof.
  intros l. destruct (nanmax2_fold l ENaN) as [(A & B & C & D)|(A & B1 & B2 & B3)].
  - left. split; [exact C|exact D].
  - right. unfold nanmax. split.
    + destruct B1 as [B1|B1]; [|exact B1]. rewrite <- B1 in A. discriminate.
    + split; [exact A|]. intros x Hx Hn. apply B3; auto. now right.
Qed.

Lemma nanmax_nonnan : forall l, er_isnan (nanmax l) = false -> is_best l (nanmax l).
Proof. intros l H. destruct (nanmax_spec l) as [[E _]|S]; [rewrite E in H; discriminate|exact S]. Qed.

(** [x] is a usable reward: a number above -inf. *)
Definition above_ninf (x : er) : Prop := match x with EFin _ | EPInf => True | _ => False end.

Lemma above_ltb : forall x, above_ninf x <-> er_ltb ENInf x = true.
Proof. intros [| |q|]; cbn; split; auto; try discriminate; contradiction. Qed.

(** ** Specification of the choice made by a refill, over the reward arrays of
    all surveys of all tiers. *)
Definition no_usable (a : list er) : Prop := forall x, In x a -> ~ above_ninf x.

Definition chosen (RR : list (list (list er))) (t i : nat) : Prop :=
  (forall t' tier a, t' < t -> nth_error RR t' = Some tier -> In a tier -> no_usable a) /\
  exists tier a m,
    nth_error RR t = Some tier /\ nth_error tier i = Some a /\ is_best a m /\ above_ninf m /\
    (forall j a' x, nth_error tier j = Some a' -> In x a' -> er_isnan x = false -> er_le x m) /\
    (forall j a' x, j < i -> nth_error tier j = Some a' -> In x a' -> ~ er_le m x).

Section Facts.
Context {W X : Type}.
Variable B : behav W X.
Variable shape : list nat.
Variable b2f : list (string * string).
Variable too_flush : bool.
Notation core := (core W X).

(** Reward arrays in evaluation order, all tiers evaluated. *)
Fixpoint tier_arrays (w : W) (t : nat) (is : list nat) (c : cond X) : W * list (list er) :=
  match is with
  | [] => (w, [])
  | i :: r => let '(w1, a) := sv_reward B w t i c in
              let '(w2, l) := tier_arrays w1 t r c in (w2, a :: l)
  end.
Fixpoint all_arrays (w : W) (t : nat) (sh : list nat) (c : cond X) : list (list (list er)) :=
  match sh with
  | [] => []
  | n :: r => let '(w1, l) := tier_arrays w t (seq 0 n) c in l :: all_arrays w1 (S t) r c
  end.
(** World after evaluating tiers 0..k-1. *)
Fixpoint world_after (w : W) (t : nat) (sh : list nat) (k : nat) (c : cond X) : W :=
  match k, sh with
  | S k, n :: r => world_after (fst (tier_arrays w t (seq 0 n) c)) (S t) r k c
  | _, _ => w
  end.

Lemma tier_rewards_arrays : forall is w t c,
  tier_rewards B w t is c =
  (fst (tier_arrays w t is c), map nanmax (snd (tier_arrays w t is c))).
Proof.
  induction is as [|i r IH]; intros w t c; cbn; [reflexivity|].
  destruct (sv_reward B w t i c) as [w1 a]. rewrite IH.
  destruct (tier_arrays w1 t r c) as [w2 l]. reflexivity.
Qed.

Lemma no_usable_nanmax : forall a, er_ltb ENInf (nanmax a) = false -> no_usable a.
Proof.
  intros a H x Hx Ha. destruct (nanmax_spec a) as [[E D]|(S1 & S2 & S3)].
  - specialize (D _ Hx). destruct x; cbn in *; try contradiction; discriminate.
  - assert (Hl : er_le x (nanmax a)) by (apply S3; auto; destruct x; cbn in *; auto; contradiction).
    destruct (nanmax a), x; cbn in *; try discriminate; auto.
Qed.

Lemma tier_no_usable : forall (tier : list (list er)),
  er_ltb ENInf (nanmax (map nanmax tier)) = false ->
  forall a, In a tier -> no_usable a.
Proof.
  intros tier H a Ha. apply no_usable_nanmax.
  destruct (er_ltb ENInf (nanmax a)) eqn:E; [|reflexivity].
  exfalso. apply above_ltb in E.
  exact (no_usable_nanmax _ H (nanmax a) (in_map nanmax _ _ Ha) E).
Qed.

Lemma tier_loop_spec : forall sh w t c last w' r,
  tier_loop B w t sh c last = (w', Ok r) ->
  (exists k tier, fst r = Some (t + k) /\ nth_error (all_arrays w t sh c) k = Some tier /\
     snd r = map nanmax tier /\ er_ltb ENInf (nanmax (snd r)) = true /\
     w' = world_after w t sh (S k) c /\
     forall t' tier' a, t' < k -> nth_error (all_arrays w t sh c) t' = Some tier' -> In a tier' -> no_usable a)
  \/ (fst r = None /\ (forall tier a, In tier (all_arrays w t sh c) -> In a tier -> no_usable a) /\
      w' = world_after w t sh (List.length sh) c /\
      ((exists l, last = Some l /\ sh = [] /\ snd r = l) \/ er_ltb ENInf (nanmax (snd r)) = false)).
Proof.
  induction sh as [|n sh IH]; intros w t c last w' r H; cbn [tier_loop] in H.
  - right. destruct last as [l|]; [|discriminate]. injection H as <- <-. cbn.
    repeat split; auto.
    { intros tier a []. }
    left. exists l. auto.
  - rewrite tier_rewards_arrays in H.
    destruct (tier_arrays w t (seq 0 n) c) as [w1 tier] eqn:ET. cbn [fst snd] in H.
    cbn [all_arrays world_after]. rewrite ET. cbn [fst].
    destruct (map nanmax tier) as [|r0 rs] eqn:EM; [discriminate|].
    destruct (er_ltb ENInf (nanmax (r0 :: rs))) eqn:EL.
    + injection H as <- <-. left. exists 0, tier. cbn [fst snd nth_error].
      rewrite Nat.add_0_r. split; [reflexivity|]. split; [reflexivity|]. split; [congruence|].
      split; [exact EL|]. split; [destruct sh; reflexivity|]. intros t' ? ? Hlt; lia.
    + rewrite <- EM in EL. pose proof (tier_no_usable _ EL) as HN.
      apply IH in H. destruct H as [(k & tier' & H1 & H2 & H3 & H4 & H5 & H6)|(H1 & H2 & H3 & H4)].
      * left. exists (S k), tier'. cbn [nth_error]. repeat split; auto.
        { rewrite H1. f_equal. lia. }
        intros [|t'] tr a Hlt Hn Ha; cbn in Hn; [injection Hn as <-; auto|]. eapply H6; eauto. lia.
      * right. split; [exact H1|]. split.
        { intros tr a [<-|Ht] Ha; eauto. }
        split; [exact H3|]. right. destruct H4 as [(l & E1 & E2 & E3)|H4]; [|exact H4].
        injection E1 as <-. rewrite E3, <- EM. exact EL.
Qed.

Lemma map_nan_to_ninf_max : forall rs,
  er_isnan (nanmax rs) = false -> er_ltb ENInf (nanmax rs) = true ->
  er_eqb (nanmax (map nan_to_ninf rs)) (nanmax rs) = true.
Proof.
  intros rs H Hl. destruct (nanmax_nonnan _ H) as (S1 & S2 & S3).
  assert (Hin : In (nanmax rs) (map nan_to_ninf rs)).
  { apply in_map_iff. exists (nanmax rs). split; [|exact S1]. unfold nan_to_ninf. now rewrite H. }
  destruct (nanmax_spec (map nan_to_ninf rs)) as [[E D]|(T1 & T2 & T3)].
  - specialize (D _ Hin). congruence.
  - apply er_le_antisym.
    + apply in_map_iff in T1. destruct T1 as [x [E Hx]]. rewrite <- E.
      unfold nan_to_ninf. destruct (er_isnan x) eqn:En.
      * destruct (nanmax rs); cbn in *; auto; discriminate.
      * now apply S3.
    + now apply T3.
Qed.

Lemma where_from_first : forall A (p : A -> bool) l i k,
  hd_error (where_from p i l) = Some k ->
  exists j x, k = i + j /\ nth_error l j = Some x /\ p x = true /\
    forall j' y, j' < j -> nth_error l j' = Some y -> p y = false.
Proof.
  induction l as [|x r IH]; intros i k H; cbn in H; [discriminate|].
  destruct (p x) eqn:E.
  - cbn in H. injection H as <-. exists 0, x. repeat split; auto. intros j' y Hj; lia.
  - apply IH in H. destruct H as (j & y & H1 & H2 & H3 & H4). exists (S j), y.
    repeat split; auto; [lia|]. intros [|j'] z Hj Hz; cbn in Hz; [congruence|]. eapply H4; eauto. lia.
Qed.

Lemma er_eqb_trans_le : forall x y z, er_eqb x y = true -> er_eqb y z = true -> er_le z x /\ er_le x z.
Proof.
  intros x y z H1 H2. apply er_eqb_le in H1. apply er_eqb_le in H2. destruct H1, H2.
  split; eapply er_le_trans; eauto.
Qed.

Lemma first_argmax_spec : forall rs i,
  er_ltb ENInf (nanmax rs) = true -> first_argmax rs = Some i ->
  exists m, nth_error rs i = Some m /\ above_ninf m /\
    (forall x, In x rs -> er_isnan x = false -> er_le x m) /\
    (forall j x, j < i -> nth_error rs j = Some x -> er_isnan x = false -> ~ er_le m x).
Proof.
  intros rs i Hl H. unfold first_argmax, np_where in H.
  assert (Hnn : er_isnan (nanmax rs) = false) by (destruct (nanmax rs); cbn in *; auto; discriminate).
  pose proof (map_nan_to_ninf_max _ Hnn Hl) as Hm.
  destruct (nanmax_nonnan _ Hnn) as (S1 & S2 & S3).
  apply where_from_first in H. destruct H as (j & x & H1 & H2 & H3 & H4). cbn in H1. subst j.
  rewrite nth_error_map in H2. destruct (nth_error rs i) as [m|] eqn:Em; [|discriminate].
  cbn in H2. injection H2 as E2.
  destruct (er_eqb_trans_le _ _ _ H3 Hm) as [G1 G2].
  assert (Hmn : er_isnan m = false).
  { destruct (er_isnan m) eqn:En; [|reflexivity]. unfold nan_to_ninf in E2. rewrite En in E2. subst x.
    destruct (nanmax rs); cbn in *; try discriminate; contradiction. }
  assert (x = m) by (unfold nan_to_ninf in E2; rewrite Hmn in E2; congruence). subst x.
  rewrite H in *.
  exists m. split; [reflexivity|]. split.
  { apply above_ltb. destruct (nanmax rs), m; cbn in *; try discriminate; try contradiction; auto. }
  split.
  { intros y Hy Hyn. eapply er_le_trans; [|exact G1]. now apply S3. }
  intros j y Hj Hn Hyn Hle.
  assert (Hf : er_eqb (nan_to_ninf y) (nanmax (map nan_to_ninf rs)) = false).
  { apply H4 with j; [exact Hj|]. rewrite nth_error_map, Hn. reflexivity. }
  assert (Hny : nan_to_ninf y = y) by (unfold nan_to_ninf; now rewrite Hyn). rewrite Hny in Hf.
  assert (er_eqb y (nanmax (map nan_to_ninf rs)) = true); [|congruence].
  apply er_eqb_le in Hm. destruct Hm as [M1 M2].
  apply er_le_antisym.
  - eapply er_le_trans; [|exact M2]. apply S3; auto. eapply nth_error_In; eauto.
  - eapply er_le_trans; [exact M1|]. eapply er_le_trans; eauto.
Qed.

Lemma first_argmax_some : forall rs, er_ltb ENInf (nanmax rs) = true -> first_argmax rs <> None.
Proof.
  intros rs Hl H. unfold first_argmax in H.
  assert (Hnn : er_isnan (nanmax rs) = false) by (destruct (nanmax rs); cbn in *; auto; discriminate).
  pose proof (map_nan_to_ninf_max _ Hnn Hl) as Hm.
  destruct (nanmax_spec (map nan_to_ninf rs)) as [[E D]|(T1 & T2 & T3)].
  { rewrite E in Hm. discriminate. }
  destruct (In_nth_error _ _ T1) as [k Hk].
  assert (Hin : In k (np_where (fun x => er_eqb x (nanmax (map nan_to_ninf rs))) (map nan_to_ninf rs))).
  { apply np_where_spec. exists (nanmax (map nan_to_ninf rs)). split; [exact Hk|].
    apply er_le_antisym; now apply er_le_refl. }
  destruct (np_where _ _); [contradiction|discriminate].
Qed.

(** ** What a refill does *)
Lemma fill_queue_spec : forall (s : core) c s',
  fill_queue B shape b2f s c = (s', Ok tt) ->
  let RR := all_arrays (c_w s) 0 shape c in
  (exists t i w1 l l2, chosen RR t i /\
      sv_gen B (world_after (c_w s) 0 shape (S t) c) t i c = (w1, GArr l) /\
      band_to_filter b2f (stamp (c_ctr s) l) = Ok l2 /\
      c_q s' = q_set l2 /\ c_w s' = w1 /\ c_sidx s' = (Some t, Some i) /\
      c_ctr s' = (c_ctr s + Z.of_nat (List.length l))%Z /\
      c_issued s' = c_issued s ++ map o_tid l2)
  \/ ((forall tier a, In tier RR -> In a tier -> no_usable a) /\
      c_q s' = [] /\ c_ctr s' = c_ctr s /\ c_sidx s' = (None, None) /\ c_issued s' = c_issued s).
Proof.
  intros s c s' H. cbn zeta. unfold fill_queue in H.
  destruct (tier_loop B (c_w s) 0 shape c None) as [w [[ot rs]|e]] eqn:EL; [|discriminate].
  apply tier_loop_spec in EL. cbn [fst snd] in EL.
  destruct EL as [(k & tier & E1 & E2 & E3 & E4 & E5 & E6)|(E1 & E2 & E3 & E4)].
  - cbn in E1. subst ot.
    assert (Hc : er_eqb (nanmax rs) ENInf || er_isnan (nanmax rs) = false)
      by (destruct (nanmax rs); cbn in *; auto; discriminate).
    rewrite Hc in H. destruct (first_argmax rs) as [i|] eqn:EA; [|discriminate].
    destruct (sv_gen B w k i c) as [w1 g] eqn:EG. destruct g as [l| |e]; try discriminate.
    destruct (band_to_filter b2f (stamp (c_ctr s) l)) as [l2|e] eqn:EB; [|discriminate].
    injection H as <-. left. exists k, i, w1, l, l2.
    destruct (first_argmax_spec _ _ E4 EA) as (m & M1 & M2 & M3 & M4).
    split.
    { split; [exact E6|]. rewrite E3 in M1. rewrite nth_error_map in M1.
      destruct (nth_error tier i) as [a|] eqn:Ea; [|discriminate]. cbn in M1. injection M1 as M1.
      assert (Ham : er_isnan m = false) by (destruct m; cbn in *; auto; contradiction).
      assert (Hb : is_best a m) by (rewrite <- M1 in *; now apply nanmax_nonnan).
      exists tier, a, m. repeat split; auto; try apply Hb.
      - intros j a' x Hj Hx Hn. destruct (nanmax_spec a') as [[E D]|(S1 & S2 & S3)].
        + specialize (D _ Hx). congruence.
        + eapply er_le_trans; [apply S3; eauto|]. apply M3; [|exact S2].
          rewrite E3. apply in_map. eapply nth_error_In; eauto.
      - intros j a' x Hj Ha Hx Hle.
        assert (Hxn : er_isnan x = false) by (destruct m, x; cbn in *; auto; contradiction).
        destruct (nanmax_spec a') as [[E D]|(S1 & S2 & S3)]; [specialize (D _ Hx); congruence|].
        apply (M4 j (nanmax a')); auto.
        + rewrite E3, nth_error_map, Ha. reflexivity.
        + eapply er_le_trans; eauto. }
    rewrite <- E5. repeat split; auto.
    cbn. f_equal. now rewrite (band_to_filter_tids _ _ _ EB).
  - subst ot. assert (Hf : er_ltb ENInf (nanmax rs) = false).
    { destruct E4 as [(l & F & _)|E4]; [discriminate|exact E4]. }
    assert (Hc : er_eqb (nanmax rs) ENInf || er_isnan (nanmax rs) = true)
      by (destruct (nanmax rs); cbn in *; auto; discriminate).
    rewrite Hc in H. injection H as <-. right. split; [exact E2|]. cbn. auto.
Qed.

(** With non-empty tiers and surveys that return arrays nothing is raised. *)
Lemma tier_arrays_length : forall is w t c, List.length (snd (tier_arrays w t is c)) = List.length is.
Proof.
  induction is as [|i r IH]; intros w t c; cbn; [reflexivity|].
  destruct (sv_reward B w t i c) as [w1 a]. specialize (IH w1 t c).
  destruct (tier_arrays w1 t r c). cbn in *. now rewrite IH.
Qed.

Lemma tier_loop_ok : forall sh w t c last, Forall (fun n => n <> 0) sh ->
  (sh <> [] \/ last <> None) -> exists w' r, tier_loop B w t sh c last = (w', Ok r).
Proof.
  induction sh as [|n sh IH]; intros w t c last H Hl; cbn [tier_loop].
  - destruct last as [l|]; [eauto|]. destruct Hl; congruence.
  - inversion H; subst. rewrite tier_rewards_arrays.
    pose proof (tier_arrays_length (seq 0 n) w t c) as L. rewrite seq_length in L.
    destruct (tier_arrays w t (seq 0 n) c) as [w1 tier]. cbn [fst snd] in *.
    destruct tier as [|a tier]; cbn in L; [congruence|]. cbn [map].
    destruct (er_ltb ENInf (nanmax (nanmax a :: map nanmax tier))); [eauto|].
    apply IH; [assumption|]. right. discriminate.
Qed.

Lemma fill_queue_ok : forall (s : core) c,
  shape <> [] -> Forall (fun n => n <> 0) shape -> b2f = [] ->
  (forall w t i, exists l, snd (sv_gen B w t i c) = GArr l) ->
  snd (fill_queue B shape b2f s c) = Ok tt.
Proof.
  intros s c H1 H2 Hb H3. unfold fill_queue.
  destruct (tier_loop_ok shape (c_w s) 0 c None H2 (or_introl H1)) as (w & [ot rs] & EL).
  rewrite EL. apply tier_loop_spec in EL. cbn [fst snd] in EL.
  destruct EL as [(k & tier & E1 & E2 & E3 & E4 & E5 & E6)|(E1 & E2 & E3 & E4)].
  - cbn in E1. subst ot.
    assert (Hc : er_eqb (nanmax rs) ENInf || er_isnan (nanmax rs) = false)
      by (destruct (nanmax rs); cbn in *; auto; discriminate).
    rewrite Hc. destruct (first_argmax rs) as [i|] eqn:EA; [|now apply first_argmax_some in EA].
    destruct (H3 w k i) as [l Hl]. destruct (sv_gen B w k i c) as [w1 g]. cbn in Hl. subst g.
    rewrite Hb. reflexivity.
  - assert (Hf : er_ltb ENInf (nanmax rs) = false).
    { destruct E4 as [(l & F & _)|E4]; [discriminate|exact E4]. }
    assert (Hc : er_eqb (nanmax rs) ENInf || er_isnan (nanmax rs) = true)
      by (destruct (nanmax rs); cbn in *; auto; discriminate).
    rewrite Hc. reflexivity.
Qed.

(** ** Monotone counters *)
Record mono (s s' : core) : Prop := mkMono {
  m_ctr : (c_ctr s <= c_ctr s')%Z;
  m_iss : exists new, c_issued s' = c_issued s ++ new /\ NoDup new /\
            forall n, In n new -> (c_ctr s <= n < c_ctr s')%Z;
  m_rep : exists rep, c_reported s' = c_reported s ++ rep /\
            forall r, In r rep -> (r < c_ctr s')%Z }.

Lemma mono_refl_fields : forall s s' : core,
  c_ctr s' = c_ctr s -> c_issued s' = c_issued s -> c_reported s' = c_reported s -> mono s s'.
Proof.
  intros s s' H1 H2 H3. constructor; [lia| |].
  - exists []. rewrite app_nil_r. split; [auto|]. split; [constructor|intros n []].
  - exists []. rewrite app_nil_r. split; auto. intros n [].
Qed.

Lemma mono_trans : forall a b c : core, mono a b -> mono b c -> mono a c.
Proof.
  intros a b c [A1 (n1 & A2 & A3 & A4) (r1 & A5 & A6)] [B1 (n2 & B2 & B3 & B4) (r2 & B5 & B6)].
  constructor; [lia| |].
  - exists (n1 ++ n2). rewrite B2, A2, app_assoc. split; [reflexivity|]. split.
    + apply NoDup_app_intro; auto. intros x H1 H2. apply A4 in H1. apply B4 in H2. lia.
    + intros n Hn. apply in_app_iff in Hn. destruct Hn as [Hn|Hn]; [apply A4 in Hn|apply B4 in Hn]; lia.
  - exists (r1 ++ r2). rewrite B5, A5, app_assoc. split; [reflexivity|].
    intros r Hr. apply in_app_iff in Hr. destruct Hr as [Hr|Hr]; [apply A6 in Hr|apply B6 in Hr]; lia.
Qed.

Lemma fill_mono : forall (s : core) c, mono s (fst (fill_queue B shape b2f s c)).
Proof.
  intros s c. unfold fill_queue.
  destruct (tier_loop B (c_w s) 0 shape c None) as [w [[ot rs]|e]]; [|now apply mono_refl_fields].
  destruct (er_eqb (nanmax rs) ENInf || er_isnan (nanmax rs)); [now apply mono_refl_fields|].
  destruct (match ot with Some t => Some t | None => fst (c_sidx s) end) as [t'|];
    [|now apply mono_refl_fields].
  destruct (first_argmax rs) as [i|]; [|now apply mono_refl_fields].
  destruct (sv_gen B w t' i c) as [w1 g].
  assert (Hs : forall l, mono s (upd_fill s w1 (c_ctr s + Z.of_nat (List.length l)) (Some t', Some i)
                           (map o_tid (stamp (c_ctr s) l)))).
  { intros l. rewrite stamp_tids. constructor; cbn; [lia| |].
    - exists (zseq (c_ctr s) (List.length l)). split; [reflexivity|]. split; [apply zseq_nodup|].
      intros n Hn. apply zseq_bounds in Hn. lia.
    - exists []. rewrite app_nil_r. split; auto. intros r []. }
  destruct g as [l| |e]; try (apply mono_refl_fields; cbn; rewrite ?app_nil_r; reflexivity).
  destruct (band_to_filter b2f (stamp (c_ctr s) l)) as [l2|e]; cbn [fst]; [|apply Hs].
  apply (mono_trans _ _ _ (Hs l)). now apply mono_refl_fields.
Qed.

Lemma qm_request_fields : forall (s : core) c whole,
  let s' := fst (qm_request B s c whole) in
  c_q s' = c_q s /\ c_ctr s' = c_ctr s /\ c_issued s' = c_issued s /\ c_reported s' = c_reported s
  /\ c_seen s' = c_seen s /\ c_cond s' = c_cond s.
Proof.
  intros s c whole. cbn zeta. unfold qm_request.
  destruct (q_request _ _ _ _) as [|o r]; [cbn; auto 10|].
  destruct (qm_det B (c_w s) (o :: r) c); cbn; auto 10.
Qed.

Lemma request_mono : forall (s : core) m w, mono s (fst (request B shape b2f s m w)).
Proof.
  intros s m whole. unfold request. destruct (c_cond s) as [c|]; [|now apply mono_refl_fields].
  assert (H1 : mono s (fst (if Nat.eqb (q_count (c_q s)) 0 then fill_queue B shape b2f s c else (s, Ok tt)))).
  { destruct (Nat.eqb (q_count (c_q s)) 0); [apply fill_mono|now apply mono_refl_fields]. }
  destruct (if Nat.eqb (q_count (c_q s)) 0 then fill_queue B shape b2f s c else (s, Ok tt)) as [s1 [u|e]];
    cbn [fst] in *; [|exact H1].
  destruct (Nat.eqb (q_count (c_q s1)) 0); [exact H1|].
  pose proof (qm_request_fields s1 c whole) as HF. destruct (qm_request B s1 c whole) as [s2 l]. cbn [fst] in HF.
  destruct HF as (F1 & F2 & F3 & F4 & _).
  assert (H2 : mono s s2) by (apply (mono_trans _ _ _ H1); now apply mono_refl_fields).
  destruct l as [|o l]; [|exact H2].
  pose proof (fill_mono (upd_q s2 q_flush) c) as H3.
  assert (H4 : mono s (fst (fill_queue B shape b2f (upd_q s2 q_flush) c))).
  { apply (mono_trans _ _ _ H2). apply (mono_trans _ (upd_q s2 q_flush)); [now apply mono_refl_fields|exact H3]. }
  destruct (fill_queue B shape b2f (upd_q s2 q_flush) c) as [s3 [u3|e]]; cbn [fst] in *; [|exact H4].
  pose proof (qm_request_fields s3 c whole) as HF. destruct (qm_request B s3 c whole) as [s4 l']. cbn [fst] in HF.
  destruct HF as (G1 & G2 & G3 & G4 & _).
  assert (H5 : mono s s4) by (apply (mono_trans _ _ _ H4); now apply mono_refl_fields).
  destruct l'; exact H5.
Qed.

Lemma bump_spec : forall c m, (c <= bump c m)%Z /\ (m < bump c m)%Z.
Proof. intros c m. unfold bump. destruct (Z.leb_spec c m); lia. Qed.

Lemma zmax_list_ge : forall l z, (z <= zmax_list z l)%Z /\ forall a, In a l -> (a <= zmax_list z l)%Z.
Proof.
  unfold zmax_list. induction l as [|x r IH]; intros z; cbn; [split; [lia|contradiction]|].
  destruct (IH (Z.max z x)) as [H1 H2]. split; [lia|]. intros a [->|Ha]; [lia|]. now apply H2.
Qed.

Lemma add_obs_mono : forall (s : core) o, mono s (add_obs B shape s o).
Proof.
  intros s o. unfold add_obs. constructor; cbn.
  - apply bump_spec.
  - exists []. rewrite app_nil_r. split; [auto|]. split; [constructor|intros n []].
  - exists [o_tid (backfill_band o)]. split; [reflexivity|]. intros r [<-|[]]. apply bump_spec.
Qed.

Lemma add_arr_mono : forall (s : core) l, mono s (fst (add_arr B shape s l)).
Proof.
  intros s l. unfold add_arr.
  assert (Hmany : forall l : list obs,
    mono s (fst (let l0 := o_sort (map backfill_band l) in
      let hp := flatten_hp (fp_norot B) l0 in
      let w1 := fold_left (fun w p => sv_add_arr B w (fst p) (snd p) l0 hp) (all_idx shape) (c_w s) in
      match map o_tid l0 with
      | [] => (upd_w s w1, Raise ValueError)
      | t :: ts =>
          let ctr := bump (c_ctr s) (zmax_list t ts) in
          let '(q, w2) := match c_q s with
                          | [] => ([], w1)
                          | _ => (q_mark_many (map o_tid l0) (c_q s), qm_add_arr B w1 l0 hp)
                          end in
          (mkCore w2 q ctr (c_seen s) (c_sidx s) (c_cond s) (c_issued s)
                  (c_reported s ++ map o_tid l0), Ok tt)
      end))).
  { clear l. intros l. cbn zeta. set (l0 := o_sort (map backfill_band l)).
    destruct (map o_tid l0) as [|t ts] eqn:E; [now apply mono_refl_fields|].
    destruct (match c_q s with [] => _ | _ => _ end) as [q w2].
    destruct (bump_spec (c_ctr s) (zmax_list t ts)) as [B1 B2].
    destruct (zmax_list_ge ts t) as [Z1 Z2].
    constructor; cbn.
    - exact B1.
    - exists []. rewrite app_nil_r. split; [auto|]. split; [constructor|intros n []].
    - exists (t :: ts). split; [reflexivity|]. intros r [<-|Hr]; [lia|]. specialize (Z2 _ Hr). lia. }
  destruct l as [|o [|o2 l]]; [apply (Hmany [])|apply add_obs_mono|apply (Hmany (o :: o2 :: l))].
Qed.

Lemma flush_mono : forall s : core, mono s (flush_queue s).
Proof. intros. now apply mono_refl_fields. Qed.

Lemma update_mono : forall (s : core) c, mono s (update_conditions B shape too_flush s c).
Proof.
  intros s c. unfold update_conditions, too_part. destruct too_flush.
  - destruct (existsb t_flush (too_new (c_seen s) (cd_toos c))); now apply mono_refl_fields.
  - now apply mono_refl_fields.
Qed.

Definition no_setctr (o : op (X := X)) : Prop := match o with OpSetCtr _ => False | _ => True end.

Lemma step_mono : forall (s : core) o, no_setctr o ->
  mono s (fst (step B shape b2f too_flush s o)).
Proof.
  intros s o H. destruct o as [c|m w|o|l| |l|t|z]; cbn [step fst].
  - apply update_mono.
  - apply request_mono.
  - apply add_obs_mono.
  - pose proof (add_arr_mono s l) as K. destruct (add_arr B shape s l) as [s' r]. exact K.
  - apply flush_mono.
  - now apply mono_refl_fields.
  - now apply mono_refl_fields.
  - contradiction.
Qed.

Lemma run_mono : forall ops (s : core), Forall no_setctr ops ->
  mono s (fst (run B shape b2f too_flush s ops)).
Proof.
  induction ops as [|o r IH]; intros s H; cbn [run]; [now apply mono_refl_fields|].
  inversion H; subst. pose proof (step_mono s o H2) as H1.
  destruct (step B shape b2f too_flush s o) as [s1 x]. cbn [fst] in H1.
  specialize (IH s1 H3). destruct (run B shape b2f too_flush s1 r) as [s2 xs]. cbn [fst] in *.
  eapply mono_trans; eauto.
Qed.

(** Ids known at any reachable state are below the counter. *)
Lemma run_below : forall ops w ctr, Forall no_setctr ops ->
  let s := fst (run B shape b2f too_flush (init w ctr) ops) in
  NoDup (c_issued s) /\ forall t, In t (c_issued s ++ c_reported s) -> (t < c_ctr s)%Z.
Proof.
  intros ops w ctr H. cbn zeta. pose proof (run_mono ops (init w ctr) H) as [_ (new & E1 & E2 & E3) (rep & E4 & E5)].
  cbn in E1, E4. rewrite E1, E4. split; [exact E2|]. intros t Ht. apply in_app_iff in Ht.
  destruct Ht as [Ht|Ht]; [apply E3 in Ht; lia|now apply E5].
Qed.

Lemma run_app : forall a b (s : core),
  run B shape b2f too_flush s (a ++ b) =
  (fst (run B shape b2f too_flush (fst (run B shape b2f too_flush s a)) b),
   snd (run B shape b2f too_flush s a) ++
   snd (run B shape b2f too_flush (fst (run B shape b2f too_flush s a)) b)).
Proof.
  induction a as [|o r IH]; intros b s; cbn [app run].
  - destruct (run B shape b2f too_flush s b) eqn:ER; cbn [fst snd app]; rewrite ER; reflexivity.
  - destruct (step B shape b2f too_flush s o) as [s1 x]. rewrite IH.
    destruct (run B shape b2f too_flush s1 r) as [s2 xs]. reflexivity.
Qed.

Lemma target_ids_fresh : forall w ctr h1 h2,
  Forall no_setctr h1 -> Forall no_setctr h2 ->
  let s1 := fst (run B shape b2f too_flush (init w ctr) h1) in
  let s2 := fst (run B shape b2f too_flush s1 h2) in
  NoDup (c_issued s2) /\
  exists new, c_issued s2 = c_issued s1 ++ new /\
    forall n old, In n new -> In old (c_issued s1 ++ c_reported s1) -> (old < n)%Z.
Proof.
  intros w ctr h1 h2 H1 H2. cbn zeta.
  pose proof (run_below h1 w ctr H1) as [_ A].
  pose proof (run_below (h1 ++ h2) w ctr) as K. rewrite run_app in K. cbn [fst] in K.
  destruct K as [N _]. { now apply Forall_app. }
  split; [exact N|].
  destruct (run_mono h2 (fst (run B shape b2f too_flush (init w ctr) h1)) H2) as [_ (new & E1 & _ & E3) _].
  exists new. split; [exact E1|]. intros n old Hn Ho. apply E3 in Hn. apply A in Ho. lia.
Qed.

(** ** Outstanding ids *)

(** Detailers of the queue manager keep target ids. *)
Definition det_keeps_ids : Prop := forall w l c o,
  In o (snd (qm_det B w l c)) -> In (o_tid o) (map o_tid l).

Lemma fill_queue_ids : forall (s : core) c o b,
  In (o, b) (c_q (fst (fill_queue B shape b2f s c))) ->
  In (o, b) (c_q s) \/
  (b = true /\ (c_ctr s <= o_tid o)%Z /\ In (o_tid o) (c_issued (fst (fill_queue B shape b2f s c)))).
Proof.
  intros s c o b. unfold fill_queue.
  destruct (tier_loop B (c_w s) 0 shape c None) as [w [[ot rs]|e]]; [|now left].
  destruct (er_eqb (nanmax rs) ENInf || er_isnan (nanmax rs)); [intros []|].
  destruct (match ot with Some t => Some t | None => fst (c_sidx s) end) as [t'|]; [|now left].
  destruct (first_argmax rs) as [i|]; [|now left].
  destruct (sv_gen B w t' i c) as [w1 [l| |e]]; try (now left).
  destruct (band_to_filter b2f (stamp (c_ctr s) l)) as [l2|e] eqn:E; [|now left].
  cbn. intros H. right. apply in_q_set in H. destruct H as [-> H].
  apply in_tid in H. rewrite (band_to_filter_tids _ _ _ E) in H.
  split; [reflexivity|]. split; [|apply in_app_iff; now right].
  rewrite stamp_tids in H. apply zseq_bounds in H. lia.
Qed.

Lemma qm_request_in : det_keeps_ids -> forall (s : core) c whole o,
  In o (snd (qm_request B s c whole)) -> exists o', In (o', true) (c_q s) /\ o_tid o' = o_tid o.
Proof.
  intros D s c whole o H. unfold qm_request in H.
  destruct (q_request (cd_mjd c) (qm_ok B (c_w s) c) whole (c_q s)) as [|x r] eqn:E; [contradiction|].
  destruct (qm_det B (c_w s) (x :: r) c) as [w l] eqn:ED. cbn [snd] in H.
  pose proof (D (c_w s) (x :: r) c o) as K. rewrite ED in K. specialize (K H).
  apply in_map_iff in K. destruct K as [o' [E1 H']]. rewrite <- E in H'.
  apply q_request_in, q_valid_in in H'. exists o'. split; [apply H'|exact E1].
Qed.

(** [Done t s]: [t] can no longer be handed out. *)
Definition Done (t : Z) (s : core) : Prop :=
  (t < c_ctr s)%Z /\ forall o, In (o, true) (c_q s) -> o_tid o <> t.

Lemma fill_done : forall t (s : core) c, Done t s -> Done t (fst (fill_queue B shape b2f s c)).
Proof.
  intros t s c [H1 H2]. split.
  - pose proof (m_ctr _ _ (fill_mono s c)). lia.
  - intros o Ho. apply fill_queue_ids in Ho. destruct Ho as [Ho|(_ & Ho & _)]; [now apply H2|lia].
Qed.

Lemma done_fields : forall t (s s' : core), c_q s' = c_q s -> c_ctr s' = c_ctr s -> Done t s -> Done t s'.
Proof. intros t s s' E1 E2 [H1 H2]. split; [now rewrite E2|now rewrite E1]. Qed.

Lemma request_done : det_keeps_ids -> forall t (s : core) m w s' x,
  Done t s -> request B shape b2f s m w = (s', x) ->
  Done t s' /\ forall l o, x = OutObs l -> In o l -> o_tid o <> t.
Proof.
  intros D t s m whole s' x Hd H. unfold request in H.
  destruct (c_cond s) as [c|]; [|injection H as <- <-; split; [exact Hd|congruence]].
  assert (H1 : Done t (fst (if Nat.eqb (q_count (c_q s)) 0 then fill_queue B shape b2f s c else (s, Ok tt)))).
  { destruct (Nat.eqb (q_count (c_q s)) 0); [now apply fill_done|exact Hd]. }
  destruct (if Nat.eqb (q_count (c_q s)) 0 then fill_queue B shape b2f s c else (s, Ok tt)) as [s1 [u|e]];
    cbn [fst] in H1; [|injection H as <- <-; split; [exact H1|congruence]].
  destruct (Nat.eqb (q_count (c_q s1)) 0); [injection H as <- <-; split; [exact H1|congruence]|].
  pose proof (qm_request_fields s1 c whole) as HF. pose proof (qm_request_in D s1 c whole) as HI.
  destruct (qm_request B s1 c whole) as [s2 l]. cbn [fst snd] in HF, HI.
  destruct HF as (F1 & F2 & _).
  assert (H2 : Done t s2) by (eapply done_fields; eauto).
  destruct l as [|o l].
  - assert (H3 : Done t (upd_q s2 q_flush)).
    { destruct H2 as [K1 K2]. split; [exact K1|]. intros o []. }
    apply (fill_done t _ c) in H3.
    destruct (fill_queue B shape b2f (upd_q s2 q_flush) c) as [s3 [u3|e]]; cbn [fst] in H3;
      [|injection H as <- <-; split; [exact H3|congruence]].
    pose proof (qm_request_fields s3 c whole) as HF. pose proof (qm_request_in D s3 c whole) as HI'.
    destruct (qm_request B s3 c whole) as [s4 l']. cbn [fst snd] in HF, HI'.
    destruct HF as (G1 & G2 & _).
    assert (H5 : Done t s4) by (eapply done_fields; eauto).
    destruct l' as [|o' l']; injection H as <- <-; split; auto; try congruence.
    intros l o E Ho. injection E as <-. destruct (HI' o Ho) as [o2 [Ho2 <-]]. now apply H3.
  - injection H as <- <-. split; [exact H2|]. intros l0 o0 E Ho. injection E as <-.
    destruct (HI o0 Ho) as [o2 [Ho2 <-]]. now apply H1.
Qed.

Lemma q_mark_in : forall t q o, In (o, true) (q_mark t q) <-> In (o, true) q /\ o_tid o <> t.
Proof.
  intros t q o. rewrite <- q_mark_many_single, q_mark_many_in. cbn.
  split; intros [A C]; split; auto; intros E; apply C; auto. destruct E as [E|[]]. auto.
Qed.

Lemma add_obs_q : forall (s : core) o, c_q (add_obs B shape s o) = q_mark (o_tid o) (c_q s).
Proof.
  intros s o. unfold add_obs. cbn. rewrite backfill_tid. destruct (c_q s); reflexivity.
Qed.

Lemma o_insert_perm : forall x l, Permutation (o_insert x l) (x :: l).
Proof.
  induction l as [|y r IH]; cbn; [reflexivity|].
  destruct (Qle_bool (o_mjd x) (o_mjd y)); [reflexivity|].
  rewrite IH. apply perm_swap.
Qed.
Lemma o_sort_perm : forall l, Permutation (o_sort l) l.
Proof. induction l as [|x r IH]; cbn; [reflexivity|]. rewrite o_insert_perm. now constructor. Qed.

Lemma sort_tids : forall l, Permutation (map o_tid (o_sort (map backfill_band l))) (map o_tid l).
Proof.
  intros l. rewrite (Permutation_map o_tid (o_sort_perm (map backfill_band l))).
  rewrite map_map. erewrite map_ext; [reflexivity|]. intros o. apply backfill_tid.
Qed.

Lemma add_arr_q : forall (s : core) l, c_q (fst (add_arr B shape s l)) = q_mark_many (map o_tid l) (c_q s).
Proof.
  intros s l. unfold add_arr.
  assert (Hq : forall l : list obs, q_mark_many (map o_tid (o_sort (map backfill_band l))) (c_q s)
             = q_mark_many (map o_tid l) (c_q s)).
  { intros l0. apply q_mark_many_perm. intros t. split; apply Permutation_in;
      [apply sort_tids|symmetry; apply sort_tids]. }
  destruct l as [|o [|o2 l]].
  - cbn. unfold q_mark_many. cbn. symmetry. apply map_id.
  - cbn [fst]. rewrite add_obs_q. cbn. now rewrite q_mark_many_single.
  - set (ll := o :: o2 :: l). specialize (Hq ll).
    destruct (map o_tid (o_sort (map backfill_band ll))) as [|t ts] eqn:E.
    + exfalso. pose proof (sort_tids ll) as P. rewrite E in P. apply Permutation_nil in P. discriminate.
    + destruct (c_q s) as [|e q]; [reflexivity|]. cbn [fst c_q]. exact Hq.
Qed.

Definition op_ok (t : Z) (o : op (X := X)) : Prop :=
  match o with
  | OpSetCtr _ => False
  | OpAppend l => ~ In t (map o_tid l)
  | _ => True
  end.

Lemma step_done : det_keeps_ids -> forall t (s : core) o s' x,
  Done t s -> op_ok t o -> step B shape b2f too_flush s o = (s', x) ->
  Done t s' /\ forall l ob, x = OutObs l -> In ob l -> o_tid ob <> t.
Proof.
  intros D t s o s' x Hd Hok H.
  destruct o as [c|m w|o|l| |l|t0|z]; cbn [step] in H.
  - injection H as <- <-. split; [|congruence].
    destruct Hd as [K1 K2]. unfold update_conditions, too_part. destruct too_flush; [|split; cbn; auto].
    destruct (existsb t_flush (too_new (c_seen s) (cd_toos c))); split; cbn; auto.
  - eapply request_done; eauto.
  - injection H as <- <-. split; [|congruence]. destruct Hd as [K1 K2]. split.
    + pose proof (m_ctr _ _ (add_obs_mono s o)). lia.
    + intros ob Hob. rewrite add_obs_q in Hob. apply q_mark_in in Hob. apply K2, Hob.
  - pose proof (m_ctr _ _ (add_arr_mono s l)) as M. pose proof (add_arr_q s l) as Q.
    destruct (add_arr B shape s l) as [s1 r]. cbn [fst] in M, Q. injection H as <- <-.
    split; [|destruct r; congruence]. destruct Hd as [K1 K2]. split; [lia|].
    intros ob Hob. rewrite Q in Hob. apply q_mark_many_in in Hob. apply K2, Hob.
  - injection H as <- <-. split; [|congruence]. destruct Hd as [K1 K2]. split; [exact K1|]. intros ob [].
  - injection H as <- <-. split; [|congruence]. destruct Hd as [K1 K2]. split; [exact K1|].
    cbn. intros ob Hob. unfold q_append in Hob. apply in_app_iff in Hob. destruct Hob as [Hob|Hob]; [now apply K2|].
    apply in_q_set in Hob. destruct Hob as [_ Hob]. cbn in Hok. intros E. apply Hok. rewrite <- E. now apply in_map.
  - injection H as <- <-. split; [|congruence]. destruct Hd as [K1 K2]. split; [exact K1|].
    intros ob Hob. cbn in Hob. apply q_mark_in in Hob. apply K2, Hob.
  - contradiction.
Qed.

Lemma run_done : det_keeps_ids -> forall t ops (s s' : core) xs,
  Done t s -> Forall (op_ok t) ops -> run B shape b2f too_flush s ops = (s', xs) ->
  forall l ob, In (OutObs l) xs -> In ob l -> o_tid ob <> t.
Proof.
  intros D t. induction ops as [|o r IH]; intros s s' xs Hd Hok H l ob Hin Hob; cbn [run] in H.
  - injection H as <- <-. contradiction.
  - destruct (step B shape b2f too_flush s o) as [s1 x] eqn:ES.
    destruct (run B shape b2f too_flush s1 r) as [s2 ys] eqn:ER. injection H as <- <-.
    inversion Hok; subst. destruct (step_done D _ _ _ _ _ Hd H1 ES) as [Hd' Hx].
    destruct Hin as [->|Hin]; [now apply (Hx l)|]. eapply IH; eauto.
Qed.

Lemma add_obs_done : forall (s : core) o, Done (o_tid o) (add_obs B shape s o).
Proof.
  intros s o. split.
  - unfold add_obs. cbn. rewrite backfill_tid. apply bump_spec.
  - intros ob Hob. rewrite add_obs_q in Hob. apply q_mark_in in Hob. apply Hob.
Qed.

Lemma add_arr_done : forall (s : core) l o, In o l -> Done (o_tid o) (fst (add_arr B shape s l)).
Proof.
  intros s l o Ho. split.
  - destruct l as [|o1 [|o2 l]]; [contradiction| |].
    + destruct Ho as [->|[]]. cbn [fst add_arr]. apply add_obs_done.
    + unfold add_arr. set (ll := o1 :: o2 :: l) in *. set (l0 := o_sort (map backfill_band ll)).
      assert (Hin : In (o_tid o) (map o_tid l0)).
      { apply (Permutation_in _ (Permutation_sym (sort_tids ll))). now apply in_map. }
      cbn zeta. fold l0. destruct (map o_tid l0) as [|t ts] eqn:E; [contradiction|].
      destruct (match c_q s with [] => _ | _ => _ end) as [q w2].
      cbn [fst c_ctr]. destruct (bump_spec (c_ctr s) (zmax_list t ts)) as [B1 B2].
      destruct (zmax_list_ge ts t) as [Z1 Z2]. destruct Hin as [<-|Hin]; [lia|]. specialize (Z2 _ Hin). lia.
  - intros ob Hob. rewrite add_arr_q in Hob. apply q_mark_many_in in Hob. destruct Hob as [_ N].
    intros E. apply N. rewrite E. now apply in_map.
Qed.

Lemma completed_never_again : det_keeps_ids -> forall t o (s s' : core) ops xs,
  (o = OpAdd (X := X) t \/ exists l, o = OpAddArr l /\ In t l) ->
  Forall (op_ok (o_tid t)) ops ->
  run B shape b2f too_flush (fst (step B shape b2f too_flush s o)) ops = (s', xs) ->
  forall l ob, In (OutObs l) xs -> In ob l -> o_tid ob <> o_tid t.
Proof.
  intros D t o s s' ops xs Ho Hok H. eapply run_done; eauto.
  destruct Ho as [->|[l [-> Hl]]]; cbn [step fst].
  - apply add_obs_done.
  - pose proof (add_arr_done s l t Hl) as K. destruct (add_arr B shape s l). exact K.
Qed.

(** Ids handed out were stamped by a refill (when nothing is appended by hand). *)
Definition Known (s : core) : Prop := forall o, In (o, true) (c_q s) -> In (o_tid o) (c_issued s).

Lemma issued_incl : forall s s' : core, mono s s' -> forall t, In t (c_issued s) -> In t (c_issued s').
Proof.
  intros s s' [_ (new & E & _) _] t H. rewrite E. apply in_app_iff. now left.
Qed.

Lemma fill_known : forall (s : core) c, Known s -> Known (fst (fill_queue B shape b2f s c)).
Proof.
  intros s c K o Ho. apply fill_queue_ids in Ho. destruct Ho as [Ho|(_ & _ & Ho)]; [|exact Ho].
  apply (issued_incl s); [apply fill_mono|now apply K].
Qed.

Lemma request_known : det_keeps_ids -> forall (s : core) m w s' x,
  Known s -> request B shape b2f s m w = (s', x) ->
  Known s' /\ forall l o, x = OutObs l -> In o l -> In (o_tid o) (c_issued s').
Proof.
  intros D s m whole s' x Hd H. unfold request in H.
  destruct (c_cond s) as [c|]; [|injection H as <- <-; split; [exact Hd|congruence]].
  assert (H1 : Known (fst (if Nat.eqb (q_count (c_q s)) 0 then fill_queue B shape b2f s c else (s, Ok tt)))).
  { destruct (Nat.eqb (q_count (c_q s)) 0); [now apply fill_known|exact Hd]. }
  destruct (if Nat.eqb (q_count (c_q s)) 0 then fill_queue B shape b2f s c else (s, Ok tt)) as [s1 [u|e]];
    cbn [fst] in H1; [|injection H as <- <-; split; [exact H1|congruence]].
  destruct (Nat.eqb (q_count (c_q s1)) 0); [injection H as <- <-; split; [exact H1|congruence]|].
  pose proof (qm_request_fields s1 c whole) as HF. pose proof (qm_request_in D s1 c whole) as HI.
  destruct (qm_request B s1 c whole) as [s2 l]. cbn [fst snd] in HF, HI.
  destruct HF as (F1 & F2 & F3 & _).
  assert (H2 : Known s2) by (intros o; rewrite F1, F3; apply H1).
  destruct l as [|o l].
  - assert (H3 : Known (upd_q s2 q_flush)) by (intros o []).
    apply (fill_known _ c) in H3.
    destruct (fill_queue B shape b2f (upd_q s2 q_flush) c) as [s3 [u3|e]]; cbn [fst] in H3;
      [|injection H as <- <-; split; [exact H3|congruence]].
    pose proof (qm_request_fields s3 c whole) as HF. pose proof (qm_request_in D s3 c whole) as HI'.
    destruct (qm_request B s3 c whole) as [s4 l']. cbn [fst snd] in HF, HI'.
    destruct HF as (G1 & G2 & G3 & _).
    assert (H5 : Known s4) by (intros o; rewrite G1, G3; apply H3).
    destruct l' as [|o' l']; injection H as <- <-; split; auto; try congruence.
    intros l o E Ho. injection E as <-. destruct (HI' o Ho) as [o2 [Ho2 <-]]. rewrite G3. now apply H3.
  - injection H as <- <-. split; [exact H2|]. intros l0 o0 E Ho. injection E as <-.
    destruct (HI o0 Ho) as [o2 [Ho2 <-]]. rewrite F3. now apply H1.
Qed.

Definition no_append (o : op (X := X)) : Prop :=
  match o with OpAppend _ | OpSetCtr _ => False | _ => True end.

Lemma step_known : det_keeps_ids -> forall (s : core) o s' x,
  Known s -> no_append o -> step B shape b2f too_flush s o = (s', x) ->
  Known s' /\ forall l ob, x = OutObs l -> In ob l -> In (o_tid ob) (c_issued s').
Proof.
  intros D s o s' x K Hok H.
  destruct o as [c|m w|o|l| |l|t0|z]; cbn [step] in H; try contradiction.
  - injection H as <- <-. split; [|congruence]. intros ob Hob.
    apply (issued_incl s); [apply update_mono|]. apply K.
    revert Hob. unfold update_conditions, too_part. destruct too_flush; [|auto].
    destruct (existsb t_flush (too_new (c_seen s) (cd_toos c))); cbn; auto. intros [].
  - eapply request_known; eauto.
  - injection H as <- <-. split; [|congruence]. intros ob Hob. rewrite add_obs_q in Hob.
    apply q_mark_in in Hob. apply K, Hob.
  - pose proof (add_arr_mono s l) as M. pose proof (add_arr_q s l) as Q.
    destruct (add_arr B shape s l) as [s1 r]. cbn [fst] in M, Q. injection H as <- <-.
    split; [|destruct r; congruence]. intros ob Hob. rewrite Q in Hob. apply q_mark_many_in in Hob.
    apply (issued_incl s); [exact M|]. apply K, Hob.
  - injection H as <- <-. split; [|congruence]. intros ob [].
  - injection H as <- <-. split; [|congruence]. intros ob Hob. cbn in Hob. apply q_mark_in in Hob. apply K, Hob.
Qed.

Lemma run_known : det_keeps_ids -> forall ops (s s' : core) xs,
  Known s -> Forall no_append ops -> run B shape b2f too_flush s ops = (s', xs) ->
  Known s' /\ forall l ob, In (OutObs l) xs -> In ob l -> In (o_tid ob) (c_issued s').
Proof.
  intros D. induction ops as [|o r IH]; intros s s' xs K Hok H; cbn [run] in H.
  - injection H as <- <-. split; [exact K|]. intros l ob [].
  - destruct (step B shape b2f too_flush s o) as [s1 x] eqn:ES.
    destruct (run B shape b2f too_flush s1 r) as [s2 ys] eqn:ER. injection H as <- <-.
    inversion Hok; subst. destruct (step_known D _ _ _ _ K H1 ES) as [K' Hx].
    destruct (IH _ _ _ K' H2 ER) as [K2 Hy]. split; [exact K2|].
    intros l ob [->|Hin] Hob; [|eapply Hy; eauto].
    assert (Hns : Forall no_setctr r).
    { eapply Forall_impl; [|exact H2]. intros []; cbn; auto. }
    pose proof (run_mono r s1 Hns) as M. rewrite ER in M. cbn [fst] in M.
    apply (issued_incl _ _ M). now apply (Hx l).
Qed.

(** ** ToO flushes *)
Definition op_too_ids (o : op (X := X)) : list Z :=
  match o with OpUpdate c => map t_id (cd_toos c) | _ => [] end.

Lemma fill_seen : forall (s : core) c, c_seen (fst (fill_queue B shape b2f s c)) = c_seen s.
Proof.
  intros s c. unfold fill_queue.
  destruct (tier_loop B (c_w s) 0 shape c None) as [w [[ot rs]|e]]; [|reflexivity].
  destruct (er_eqb (nanmax rs) ENInf || er_isnan (nanmax rs)); [reflexivity|].
  destruct (match ot with Some t => Some t | None => fst (c_sidx s) end) as [t'|]; [|reflexivity].
  destruct (first_argmax rs) as [i|]; [|reflexivity].
  destruct (sv_gen B w t' i c) as [w1 [l| |e]]; try reflexivity.
  destruct (band_to_filter b2f (stamp (c_ctr s) l)); reflexivity.
Qed.

Lemma request_seen : forall (s : core) m w, c_seen (fst (request B shape b2f s m w)) = c_seen s.
Proof.
  intros s m whole. unfold request. destruct (c_cond s) as [c|]; [|reflexivity].
  assert (H1 : c_seen (fst (if Nat.eqb (q_count (c_q s)) 0 then fill_queue B shape b2f s c else (s, Ok tt))) = c_seen s).
  { destruct (Nat.eqb (q_count (c_q s)) 0); [apply fill_seen|reflexivity]. }
  destruct (if Nat.eqb (q_count (c_q s)) 0 then fill_queue B shape b2f s c else (s, Ok tt)) as [s1 [u|e]];
    cbn [fst] in *; [|exact H1].
  destruct (Nat.eqb (q_count (c_q s1)) 0); [exact H1|].
  pose proof (qm_request_fields s1 c whole) as HF. destruct (qm_request B s1 c whole) as [s2 l]. cbn [fst] in HF.
  destruct HF as (_ & _ & _ & _ & F5 & _).
  destruct l as [|o l]; [|cbn; congruence].
  pose proof (fill_seen (upd_q s2 q_flush) c) as H3.
  destruct (fill_queue B shape b2f (upd_q s2 q_flush) c) as [s3 [u3|e]]; cbn [fst] in *; [|cbn in H3; congruence].
  pose proof (qm_request_fields s3 c whole) as HF. destruct (qm_request B s3 c whole) as [s4 l']. cbn [fst] in HF.
  destruct HF as (_ & _ & _ & _ & G5 & _). cbn in H3.
  destruct l'; cbn; congruence.
Qed.

Lemma step_seen : too_flush = true -> forall (s : core) o t,
  In t (c_seen (fst (step B shape b2f too_flush s o))) <-> In t (c_seen s) \/ In t (op_too_ids o).
Proof.
  intros HT s o t. destruct o as [c|m w|o|l| |l|t0|z]; cbn [step fst op_too_ids].
  2: rewrite request_seen; cbn; tauto.
  2: cbn; tauto.
  3-6: cbn; tauto.
  - unfold update_conditions, too_part. rewrite HT.
    set (nw := too_new (c_seen s) (cd_toos c)). cbn [c_seen].
    assert (E : c_seen (if existsb t_flush nw then flush_queue s else s) = c_seen s)
      by (destruct (existsb t_flush nw); reflexivity).
    rewrite E, in_app_iff, nodup_In. split.
    + intros [H|H]; [now left|right]. apply in_map_iff in H. destruct H as [x [<- H]].
      unfold nw, too_new in H. apply filter_In in H. now apply in_map.
    + intros [H|H]; [now left|]. destruct (in_dec Z.eq_dec t (c_seen s)) as [I|I]; [now left|].
      right. apply in_map_iff in H. destruct H as [x [E1 H]]. apply in_map_iff. exists x. split; [exact E1|].
      unfold nw, too_new. apply filter_In. split; [exact H|]. rewrite negb_true_iff.
      destruct (existsb (Z.eqb (t_id x)) (c_seen s)) eqn:EX; [|reflexivity].
      apply existsb_exists in EX. destruct EX as [y [Hy Ey]]. apply Z.eqb_eq in Ey. congruence.
  - unfold add_arr. destruct l as [|o1 [|o2 l]]; [cbn; tauto|cbn; tauto|].
    destruct (map o_tid (o_sort (map backfill_band (o1 :: o2 :: l)))); [cbn; tauto|].
    destruct (match c_q s with [] => _ | _ => _ end). cbn. tauto.
Qed.

Lemma run_seen : too_flush = true -> forall ops (s : core) t,
  In t (c_seen (fst (run B shape b2f too_flush s ops))) <->
  In t (c_seen s) \/ In t (flat_map op_too_ids ops).
Proof.
  intros HT. induction ops as [|o r IH]; intros s t; cbn [run flat_map]; [cbn; tauto|].
  pose proof (step_seen HT s o t) as HS. destruct (step B shape b2f too_flush s o) as [s1 x]. cbn [fst] in HS.
  specialize (IH s1 t). destruct (run B shape b2f too_flush s1 r) as [s2 xs]. cbn [fst] in *.
  rewrite IH, HS, in_app_iff. tauto.
Qed.

Lemma too_flush_once : too_flush = true -> forall w ctr h c,
  let s := fst (run B shape b2f too_flush (init w ctr) h) in
  let s' := fst (step B shape b2f too_flush s (OpUpdate c)) in
  ((exists a, In a (cd_toos c) /\ t_flush a = true /\ ~ In (t_id a) (flat_map op_too_ids h)) ->
     c_q s' = [] /\ c_sidx s' = (None, None)) /\
  (~ (exists a, In a (cd_toos c) /\ t_flush a = true /\ ~ In (t_id a) (flat_map op_too_ids h)) ->
     c_q s' = c_q s /\ c_sidx s' = c_sidx s).
Proof.
  intros HT w ctr h c. cbn zeta. set (s := fst (run B shape b2f too_flush (init w ctr) h)).
  assert (Hseen : forall t, In t (c_seen s) <-> In t (flat_map op_too_ids h)).
  { intros t. unfold s. rewrite (run_seen HT). cbn. tauto. }
  cbn [step fst]. unfold update_conditions, too_part. rewrite HT.
  set (nw := too_new (c_seen s) (cd_toos c)).
  assert (Hnw : forall a, In a nw <-> In a (cd_toos c) /\ ~ In (t_id a) (flat_map op_too_ids h)).
  { intros a. unfold nw, too_new. rewrite filter_In, negb_true_iff. rewrite <- Hseen.
    split; intros [H1 H2]; split; auto.
    - intros I. assert (existsb (Z.eqb (t_id a)) (c_seen s) = true); [|congruence].
      apply existsb_exists. exists (t_id a). split; [exact I|apply Z.eqb_refl].
    - destruct (existsb (Z.eqb (t_id a)) (c_seen s)) eqn:EX; [|reflexivity].
      apply existsb_exists in EX. destruct EX as [y [Hy Ey]]. apply Z.eqb_eq in Ey. congruence. }
  cbn [c_q c_sidx]. destruct (existsb t_flush nw) eqn:EX; split; intros H.
  - split; reflexivity.
  - exfalso. apply H. apply existsb_exists in EX. destruct EX as [a [Ha Hf]]. apply Hnw in Ha.
    exists a. tauto.
  - exfalso. destruct H as [a (H1 & H2 & H3)].
    assert (existsb t_flush nw = true); [|congruence]. apply existsb_exists. exists a. split; [|exact H2].
    apply Hnw. auto.
  - split; reflexivity.
Qed.

(** ** Scheduled observation list *)
Lemma q_insert_perm : forall x l, Permutation (q_insert x l) (x :: l).
Proof.
  induction l as [|y r IH]; cbn; [reflexivity|].
  destruct (Qle_bool x y); [reflexivity|]. rewrite IH. apply perm_swap.
Qed.
Lemma q_sort_perm : forall l, Permutation (q_sort l) l.
Proof. induction l as [|x r IH]; cbn; [reflexivity|]. rewrite q_insert_perm. now constructor. Qed.

Lemma q_insert_sorted : forall x l, StronglySorted Qle l -> StronglySorted Qle (q_insert x l).
Proof.
  induction l as [|y r IH]; intros H; cbn; [repeat constructor|].
  inversion H; subst. destruct (Qle_bool x y) eqn:E.
  - apply Qle_bool_iff in E. constructor; [exact H|]. constructor; [exact E|].
    eapply Forall_impl; [|exact H3]. intros a Ha. eapply Qle_trans; eauto.
  - apply Qle_bool_false in E. constructor; [now apply IH|].
    assert (HP : Permutation (q_insert x r) (x :: r)) by apply q_insert_perm.
    apply (Permutation_Forall (Permutation_sym HP)). constructor; [now apply Qlt_le_weak|exact H3].
Qed.
Lemma q_sort_sorted : forall l, StronglySorted Qle (q_sort l).
Proof. induction l as [|x r IH]; cbn; [constructor|]. now apply q_insert_sorted. Qed.

Lemma filter_sorted : forall (p : Q -> bool) l, StronglySorted Qle l -> StronglySorted Qle (filter p l).
Proof.
  induction l as [|x r IH]; intros H; cbn; [constructor|]. inversion H; subst.
  destruct (p x); [|now apply IH]. constructor; [now apply IH|].
  apply Forall_forall. intros y Hy. apply filter_In in Hy. rewrite Forall_forall in H3. apply H3, Hy.
Qed.

Lemma idx_from_in : forall sh t0 t i,
  In (t, i) (idx_from t0 sh) <-> t0 <= t /\ exists n, nth_error sh (t - t0) = Some n /\ i < n.
Proof.
  induction sh as [|n r IH]; intros t0 t i; cbn [idx_from].
  - cbn. split; [contradiction|]. intros [_ [n [H _]]]. destruct (t - t0); discriminate.
  - rewrite in_app_iff, in_map_iff, IH. split.
    + intros [[j [E H]]|[H1 [m [H2 H3]]]].
      * injection E as <- <-. apply in_seq in H. split; [lia|]. exists n. rewrite Nat.sub_diag. cbn. split; [reflexivity|lia].
      * split; [lia|]. exists m. replace (t - t0) with (S (t - S t0)) by lia. cbn. auto.
    + intros [H1 [m [H2 H3]]]. destruct (Nat.eq_dec t t0) as [->|N].
      * left. rewrite Nat.sub_diag in H2. cbn in H2. injection H2 as ->. exists i. split; [reflexivity|]. apply in_seq. lia.
      * right. split; [lia|]. exists m. replace (t - t0) with (S (t - S t0)) in H2 by lia. cbn in H2. auto.
Qed.

Lemma all_idx_in : forall t i, In (t, i) (all_idx shape) <-> exists n, nth_error shape t = Some n /\ i < n.
Proof.
  intros t i. unfold all_idx. rewrite idx_from_in, Nat.sub_0_r. split; [now intros [_ H]|]. intros H. split; [lia|exact H].
Qed.

Lemma idx_from_nodup : forall sh t0, NoDup (idx_from t0 sh).
Proof.
  induction sh as [|n r IH]; intros t0; cbn [idx_from]; [constructor|].
  apply NoDup_app_intro; [|apply IH|].
  - apply FinFun.Injective_map_NoDup; [|apply seq_NoDup]. intros a b E. now injection E.
  - intros [a b] H1 H2. apply in_map_iff in H1. destruct H1 as [j [E _]]. injection E as <- <-.
    apply idx_from_in in H2. lia.
Qed.

Lemma scheduled_spec : forall (s : core) c,
  let s' := update_conditions B shape too_flush s c in
  exists c', c_cond s' = Some c' /\ cd_mjd c' = cd_mjd c /\
    StronglySorted Qle (cd_sched c') /\
    Permutation (cd_sched c')
      (filter (fun t => Qle_bool (cd_mjd c) t)
         (flat_map (fun p => match sv_sched B (c_w s') (fst p) (snd p) with
                             | None => [] | Some l => l end) (all_idx shape))).
Proof.
  intros s c. cbn zeta. unfold update_conditions. cbn [c_cond c_w].
  eexists. split; [reflexivity|]. split; [reflexivity|]. cbn [cd_sched]. unfold sched_list. split.
  - apply filter_sorted, q_sort_sorted.
  - apply Permutation_filter, q_sort_perm.
Qed.

(** ** Batch against single reports *)
Lemma fold_add_q : forall l (s : core), c_q (fold_left (add_obs B shape) l s) = q_mark_many (map o_tid l) (c_q s).
Proof.
  intros l s. rewrite <- fold_mark. revert s. induction l as [|o r IH]; intros s; cbn [fold_left map]; [reflexivity|].
  rewrite IH, add_obs_q. reflexivity.
Qed.

Lemma batch_equals_single_queue : forall (s : core) l l', Permutation l l' ->
  c_q (fst (add_arr B shape s l)) = c_q (fold_left (add_obs B shape) l' s).
Proof.
  intros s l l' P. rewrite add_arr_q, fold_add_q. apply q_mark_many_perm. intros t.
  apply (Permutation_map o_tid) in P. split; apply Permutation_in; [exact P|now symmetry].
Qed.

Lemma bump_max : forall c m, bump c m = Z.max c (m + 1).
Proof. intros. unfold bump. destruct (Z.leb_spec c m); lia. Qed.

Lemma fold_add_ctr : forall l (s : core),
  c_ctr (fold_left (add_obs B shape) l s) = fold_left (fun c o => Z.max c (o_tid o + 1)) l (c_ctr s).
Proof.
  induction l as [|o r IH]; intros s; cbn [fold_left]; [reflexivity|].
  rewrite IH. f_equal. unfold add_obs. cbn. rewrite bump_max, backfill_tid. reflexivity.
Qed.

Lemma fold_max_spec : forall l c m,
  fold_left (fun c t => Z.max c (t + 1)) l c = m <->
  (c <= m)%Z /\ (forall t, In t l -> (t < m)%Z) /\ (m = c \/ exists t, In t l /\ m = (t + 1)%Z).
Proof.
  induction l as [|x r IH]; intros c m; cbn [fold_left].
  - split; [intros <-; split; [lia|]; split; [intros ? []|now left]|].
    intros (H1 & _ & [H|[t [[] _]]]). lia.
  - rewrite IH. split.
    + intros (H1 & H2 & H3). split; [lia|]. split.
      * intros t [<-|Ht]; [lia|auto].
      * destruct H3 as [H3|[t [H3 H4]]]; [|right; exists t; split; [now right|exact H4]].
        destruct (Z.max_spec c (x + 1)) as [[_ E]|[_ E]]; rewrite E in H3; [right; exists x; split; [now left|exact H3]|now left].
    + intros (H1 & H2 & H3). assert (x < m)%Z by (apply H2; now left).
      split; [lia|]. split; [intros t Ht; apply H2; now right|].
      destruct H3 as [H3|[t [[<-|Ht] H4]]]; [left; lia|left; lia|right; eauto].
Qed.

Lemma batch_equals_single_ctr : forall (s : core) l l', l <> [] -> Permutation l l' ->
  c_ctr (fst (add_arr B shape s l)) = c_ctr (fold_left (add_obs B shape) l' s).
Proof.
  intros s l l' Hne P. rewrite fold_add_ctr.
  assert (Hf : forall (l0 : list obs) c, fold_left (fun c o => Z.max c (o_tid o + 1)) l0 c =
               fold_left (fun c t => Z.max c (t + 1)) (map o_tid l0) c).
  { induction l0 as [|o r IH]; intros c; cbn; auto. }
  rewrite Hf. symmetry.
  assert (Hm : forall m, ((c_ctr s <= m)%Z /\ (forall t, In t (map o_tid l) -> (t < m)%Z) /\
              (m = c_ctr s \/ exists t, In t (map o_tid l) /\ m = (t + 1)%Z)) ->
              fold_left (fun c t => Z.max c (t + 1)) (map o_tid l') (c_ctr s) = m).
  { intros m (H1 & H2 & H3). apply fold_max_spec. apply (Permutation_map o_tid) in P.
    split; [exact H1|]. split.
    - intros t Ht. apply H2. apply (Permutation_in _ (Permutation_sym P)). exact Ht.
    - destruct H3 as [H3|[t [H3 H4]]]; [now left|right]. exists t. split; [|exact H4]. now apply (Permutation_in _ P). }
  apply Hm. destruct l as [|o1 [|o2 l]]; [congruence| |].
  - cbn. rewrite bump_max, backfill_tid. split; [lia|]. split; [intros t [<-|[]]; lia|].
    destruct (Z.max_spec (c_ctr s) (o_tid o1 + 1)) as [[_ ->]|[_ ->]]; [right; eauto|now left].
  - unfold add_arr. set (ll := o1 :: o2 :: l) in *. set (l0 := o_sort (map backfill_band ll)). cbn zeta. fold l0.
    pose proof (sort_tids ll) as PS. fold l0 in PS.
    destruct (map o_tid l0) as [|t ts] eqn:E.
    { apply Permutation_nil in PS. discriminate. }
    destruct (match c_q s with [] => _ | _ => _ end) as [q w2]. cbn [fst c_ctr].
    rewrite bump_max. destruct (zmax_list_ge ts t) as [Z1 Z2].
    assert (HIN : In (zmax_list t ts) (t :: ts)).
    { clear. unfold zmax_list. revert t. induction ts as [|x r IH]; intros t; [now left|].
      cbn [fold_left]. destruct (IH (Z.max t x)) as [H|H].
      - rewrite <- H. destruct (Z.max_spec t x) as [[_ ->]|[_ ->]]; [right; now left|now left].
      - right. now right. }
    split; [lia|]. split.
    + intros u Hu. apply (Permutation_in _ (Permutation_sym PS)) in Hu. destruct Hu as [<-|Hu]; [lia|]. specialize (Z2 _ Hu). lia.
    + destruct (Z.max_spec (c_ctr s) (zmax_list t ts + 1)) as [[_ ->]|[_ ->]]; [right|now left].
      exists (zmax_list t ts). split; [|reflexivity]. now apply (Permutation_in _ PS).
Qed.

(** ** Requests *)
Lemma q_valid_nil_count : forall now ok q, q_count q = 0 -> q_valid now ok q = [].
Proof.
  intros now ok q H. unfold q_valid.
  replace (filter _ (combine (mjd_flags now q) q)) with (@nil (bool * (obs * bool))); [reflexivity|].
  symmetry. generalize (mjd_flags now q). clear now. induction q as [|[o n] r IH]; intros [|b bs]; cbn; auto.
  unfold q_count in *. cbn in H. destruct n; [discriminate|]. rewrite andb_false_r. cbn. now apply IH.
Qed.

Lemma qm_request_nil_count : forall (s : core) c whole, q_count (c_q s) = 0 ->
  qm_request B s c whole = (s, []).
Proof.
  intros s c whole H. unfold qm_request, q_request. rewrite (q_valid_nil_count _ _ _ H).
  destruct whole; reflexivity.
Qed.

Lemma request_none : forall (s : core) c m whole s',
  c_cond s = Some c -> request B shape b2f s m whole = (s', OutNone) ->
  exists s0 sf, c_ctr s0 = c_ctr s /\ (s0 = s \/ c_q s0 = []) /\
    fill_queue B shape b2f s0 c = (sf, Ok tt) /\ snd (qm_request B sf c whole) = [].
Proof.
  intros s c m whole s' Hc H. unfold request in H. rewrite Hc in H.
  destruct (Nat.eqb (q_count (c_q s)) 0) eqn:E0.
  - destruct (fill_queue B shape b2f s c) as [s1 [[]|e]] eqn:EF; [|discriminate].
    destruct (Nat.eqb (q_count (c_q s1)) 0) eqn:E1.
    + exists s, s1. apply Nat.eqb_eq in E1. rewrite (qm_request_nil_count _ _ _ E1). repeat split; auto.
    + pose proof (qm_request_fields s1 c whole) as HF.
      destruct (qm_request B s1 c whole) as [s2 l] eqn:EQ. destruct l as [|o l]; [|discriminate].
      exists s, s1. rewrite EQ. repeat split; auto.
  - destruct (Nat.eqb (q_count (c_q s)) 0) eqn:E1; [discriminate|].
    pose proof (qm_request_fields s c whole) as HF.
    destruct (qm_request B s c whole) as [s2 l] eqn:EQ. destruct l as [|o l]; [|discriminate].
    destruct (fill_queue B shape b2f (upd_q s2 q_flush) c) as [s3 [[]|e]] eqn:EF; [|discriminate].
    destruct (qm_request B s3 c whole) as [s4 l'] eqn:EQ'. destruct l' as [|o' l']; [|discriminate].
    exists (upd_q s2 q_flush), s3. cbn [fst] in HF. rewrite EQ'. destruct HF as (_ & F2 & _).
    repeat split; auto.
Qed.

Lemma request_keeps_queue : forall (s : core) c m whole s2 o l,
  c_cond s = Some c -> qm_request B s c whole = (s2, o :: l) ->
  request B shape b2f s m whole = (s2, OutObs (o :: l)) /\ c_q s2 = c_q s.
Proof.
  intros s c m whole s2 o l Hc HQ.
  assert (E : Nat.eqb (q_count (c_q s)) 0 = false).
  { apply Nat.eqb_neq. intros E. rewrite (qm_request_nil_count _ _ _ E) in HQ. discriminate. }
  unfold request. rewrite Hc, E. cbn. rewrite E, HQ. split; [reflexivity|].
  pose proof (qm_request_fields s c whole) as HF. rewrite HQ in HF. apply HF.
Qed.

Lemma request_ignores_mjd : forall (s : core) m1 m2 whole,
  request B shape b2f s m1 whole = request B shape b2f s m2 whole.
Proof. reflexivity. Qed.

End Facts.
