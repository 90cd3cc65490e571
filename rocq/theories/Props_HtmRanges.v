(** Property C103: sets of ranges of trixel ids.  See /verif/properties.jsonl. *)
From Coq Require Import List Bool ZArith Lia Permutation.
From Verif Require Import Base Htm HtmHalf HtmBounds_proofs.
Import ListNotations.
Open Scope Z_scope.

(** An id is held by some range; ranges run upwards from 0 or more; ranges in order, with at least
    one id left out between each and the next. *)
Definition held (b : list (Z * Z)) (x : Z) : Prop := exists lo hi, In (lo, hi) b /\ lo <= x <= hi.
Definition upward (b : list (Z * Z)) : Prop := forall lo hi, In (lo, hi) b -> 0 <= lo <= hi.
Fixpoint tidy (least : Z) (b : list (Z * Z)) : Prop :=
  match b with [] => True | (lo, hi) :: b => (least <= lo <= hi) /\ tidy (hi + 2) b end.
Lemma held_cov : forall b x, held b x <-> cov b x.
Proof. intros b x. split; [intros (lo & hi & I & H); exists (lo, hi); auto|intros ((lo, hi) & I & H); exists lo, hi; auto]. Qed.
Lemma tidy_spaced : forall b n, tidy n b <-> spaced n b.
Proof. induction b as [|(lo, hi) b IH]; intros n; cbn; [tauto|]. now rewrite IH. Qed.
Lemma up_ok : forall b, upward b -> okb b.
Proof. intros b U (lo, hi) I. exact (U lo hi I). Qed.
Theorem C103_merge : forall b, upward b -> tidy 0 (merge_trixel_bounds b) /\ forall x, held (merge_trixel_bounds b) x <-> held b x.
Proof.
  intros b U. destruct (merge_spec b (up_ok b U)) as (S & C). split; [now apply tidy_spaced|]. intros x. rewrite !held_cov. apply C.
Qed.
Print Assumptions C103_merge.
Example C103_merge_ex : merge_trixel_bounds [(20, 30); (8, 9); (10, 12); (25, 40); (14, 15)] = [(8, 12); (14, 15); (20, 40)].
Proof. reflexivity. Qed.
(** A tidy list is fixed by the ids it holds. *)
Lemma tidy_least : forall b n x, tidy n b -> held b x -> n <= x.
Proof.
  induction b as [|(lo, hi) b IH]; intros n x T (l & h & I & H); [destruct I|]. destruct T as (A & T). destruct I as [E|I].
  - injection E as -> ->. lia.
  - assert (hi + 2 <= x) by (apply (IH _ _ T); exists l, h; auto). lia.
Qed.
Theorem C103_one : forall a b n, tidy n a -> tidy n b -> (forall x, held a x <-> held b x) -> a = b.
Proof.
  assert (HC : forall lo hi b x, held ((lo, hi) :: b) x <-> lo <= x <= hi \/ held b x).
  { intros. split; [intros (l & h & [E|I] & H); [injection E as -> ->; auto|right; exists l, h; auto]|intros [H|(l & h & I & H)]; [exists lo, hi; cbn; auto|exists l, h; cbn; auto]]. }
  induction a as [|(lo, hi) a IH]; intros [|(lo', hi') b] n TA TB E.
  - reflexivity.
  - exfalso. destruct TB as (B & _). assert (H : held ((lo', hi') :: b) lo') by (apply HC; left; lia). apply E in H as (l & h & [] & _).
  - exfalso. destruct TA as (A & _). assert (H : held ((lo, hi) :: a) lo) by (apply HC; left; lia). apply E in H as (l & h & [] & _).
  - destruct TA as (A & TA), TB as (B & TB).
    assert (L1 : held ((lo, hi) :: a) lo) by (apply HC; left; lia). apply E, HC in L1.
    assert (L2 : held ((lo', hi') :: b) lo') by (apply HC; left; lia). apply E, HC in L2.
    assert (ML : lo = lo').
    { destruct L1 as [L1|L1]; [|apply (tidy_least _ _ _ TB) in L1]; destruct L2 as [L2|L2]; try (apply (tidy_least _ _ _ TA) in L2); lia. }
    subst lo'.
    assert (MH : hi = hi').
    { destruct (Z.lt_trichotomy hi hi') as [L|[L|L]]; [exfalso| exact L|exfalso].
      - assert (K : held ((lo, hi') :: b) (hi + 1)) by (apply HC; left; lia). apply E, HC in K as [K|K]; [lia|]. apply (tidy_least _ _ _ TA) in K. lia.
      - assert (K : held ((lo, hi) :: a) (hi' + 1)) by (apply HC; left; lia). apply E, HC in K as [K|K]; [lia|]. apply (tidy_least _ _ _ TB) in K. lia. }
    subst hi'. f_equal. apply (IH b (hi + 2) TA TB). intros x. split; intros H.
    + pose proof (tidy_least _ _ _ TA H) as L. assert (K : held ((lo, hi) :: a) x) by (apply HC; auto). apply E, HC in K as [K|K]; [lia|exact K].
    + pose proof (tidy_least _ _ _ TB H) as L. assert (K : held ((lo, hi) :: b) x) by (apply HC; auto). apply E, HC in K as [K|K]; [lia|exact K].
Qed.
Print Assumptions C103_one.
(** So the order, repetition or cutting up of the ranges given makes no difference, and merging again
    changes nothing. *)
Theorem C103_merge_same : forall a b, upward a -> upward b -> (forall x, held a x <-> held b x) -> merge_trixel_bounds a = merge_trixel_bounds b.
Proof.
  intros a b UA UB E. destruct (C103_merge a UA) as (TA & HA), (C103_merge b UB) as (TB & HB). apply (C103_one _ _ 0 TA TB). intros x. rewrite HA, HB. apply E.
Qed.
Print Assumptions C103_merge_same.
Lemma tidy_up : forall b n, 0 <= n -> tidy n b -> upward b.
Proof.
  induction b as [|(l, h) b IH]; intros n N T lo hi I; [destruct I|]. destruct T as (A & T). destruct I as [E|I]; [injection E as -> ->; lia|]. apply (IH (h + 2)); [lia|exact T|exact I].
Qed.
Theorem C103_merge_fixed : forall b, tidy 0 b -> merge_trixel_bounds b = b.
Proof.
  intros b T. assert (U := tidy_up b 0 ltac:(lia) T). destruct (C103_merge b U) as (TA & HA). exact (C103_one _ _ 0 TA T HA).
Qed.
Print Assumptions C103_merge_fixed.
(** The common part of two sets. *)
Theorem C103_join : forall a b, upward a -> upward b -> a <> [] -> b <> [] ->
  exists o, join_trixel_bound_sets a b = Ok o /\ tidy 0 o /\ (forall x, held o x <-> held a x /\ held b x) /\ join_trixel_bound_sets b a = Ok o.
Proof.
  intros a b UA UB NA NB. destruct (join_spec a b (up_ok a UA) (up_ok b UB) NA NB) as (o & E & S & C). destruct (join_spec b a (up_ok b UB) (up_ok a UA) NB NA) as (o' & E' & S' & C').
  exists o. split; [exact E|]. split; [now apply tidy_spaced|]. split; [intros x; rewrite !held_cov; apply C|]. rewrite E'. f_equal. apply (C103_one _ _ 0); try now apply tidy_spaced.
  intros x. rewrite !held_cov, C, C'. tauto.
Qed.
Print Assumptions C103_join.
Example C103_join_ex : join_trixel_bound_sets [(8, 20); (30, 40); (50, 60)] [(55, 70); (15, 34); (36, 37)] = Ok [(15, 20); (30, 34); (36, 37); (55, 60)] /\
  join_trixel_bound_sets [(8, 9)] [(10, 11)] = Ok [].
Proof. split; reflexivity. Qed.
(** Joining with an empty set, such as the empty answer of an earlier join, is an error instead. *)
Theorem C103_join_refuted : (forall b, join_trixel_bound_sets [] b = Raise IndexError) /\ (forall b, join_trixel_bound_sets b [] = Raise IndexError) /\
  exists a b c o, join_trixel_bound_sets a b = Ok o /\ upward c /\ join_trixel_bound_sets o c = Raise IndexError.
Proof.
  split; [reflexivity|]. split; [intros b; unfold join_trixel_bound_sets; cbv zeta; now destruct (merge_trixel_bounds b)|].
  exists [(8, 9)], [(10, 11)], [(8, 15)], []. split; [reflexivity|]. split; [intros lo hi [E|[]]; injection E as <- <-; lia|reflexivity].
Qed.
Print Assumptions C103_join_refuted.
