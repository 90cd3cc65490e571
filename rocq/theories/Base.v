(** Common vocabulary: extended rewards, exceptions as values, small list
    facts.  Nothing here models a particular function of the code. *)
From Coq Require Import List ZArith QArith Qround Bool Lia Lqa Permutation Sorted.
Import ListNotations.
Open Scope nat_scope.

(** Python exceptions as values. *)
Inductive exn : Type :=
| ValueError | IndexError | KeyError | TypeError | AttributeError
| RuntimeError | UnboundLocalError | ZeroDivisionError | OutOfFuel.

Inductive res (A : Type) : Type :=
| Ok (a : A)
| Raise (e : exn).
Arguments Ok {A} a.
Arguments Raise {A} e.

Definition bind {A B} (x : res A) (f : A -> res B) : res B :=
  match x with Ok a => f a | Raise e => Raise e end.

(** Extended numbers as held in float arrays: NaN, -inf, finite, +inf. *)
Inductive er : Type :=
| ENaN
| ENInf
| EFin (q : Q)
| EPInf.

Definition er_isnan (x : er) : bool :=
  match x with ENaN => true | _ => false end.

(** IEEE [<]: false as soon as one side is NaN. *)
Definition er_ltb (x y : er) : bool :=
  match x, y with
  | ENaN, _ | _, ENaN => false
  | ENInf, ENInf => false
  | ENInf, _ => true
  | EFin _, ENInf => false
  | EFin a, EFin b => negb (Qle_bool b a)
  | EFin _, EPInf => true
  | EPInf, _ => false
  end.

(** IEEE [==]: false as soon as one side is NaN. *)
Definition er_eqb (x y : er) : bool :=
  match x, y with
  | ENInf, ENInf => true
  | EPInf, EPInf => true
  | EFin a, EFin b => Qeq_bool a b
  | _, _ => false
  end.

(** Mathematical order on non-NaN extended numbers, used by specifications. *)
Definition er_le (x y : er) : Prop :=
  match x, y with
  | ENaN, _ | _, ENaN => False
  | ENInf, _ => True
  | EFin a, EFin b => (a <= b)%Q
  | EFin _, EPInf => True
  | EPInf, EPInf => True
  | _, _ => False
  end.

Lemma Qle_bool_false : forall a b, Qle_bool a b = false <-> (b < a)%Q.
Proof.
  intros a b. split; intros H.
  - destruct (Qlt_le_dec b a) as [Hl|Hl]; [exact Hl|].
    apply Qle_bool_iff in Hl. rewrite Hl in H. discriminate.
  - destruct (Qle_bool a b) eqn:E; [|reflexivity].
    apply Qle_bool_iff in E. exfalso. apply (Qlt_not_le _ _ H E).
Qed.

Definition Qltb (a b : Q) : bool := negb (Qle_bool b a).

Lemma Qltb_lt : forall a b, Qltb a b = true <-> (a < b)%Q.
Proof.
  intros. unfold Qltb. rewrite negb_true_iff. apply Qle_bool_false.
Qed.

Lemma Qltb_false : forall a b, Qltb a b = false <-> (b <= a)%Q.
Proof.
  intros. unfold Qltb. rewrite negb_false_iff. apply Qle_bool_iff.
Qed.

Lemma er_ltb_false_le : forall x y,
  er_isnan x = false -> er_isnan y = false -> er_ltb x y = false -> er_le y x.
Proof.
  intros [| |a|] [| |b|] Hx Hy H; simpl in *; try discriminate; auto.
  rewrite negb_false_iff in H. now apply Qle_bool_iff.
Qed.

Lemma er_ltb_true_le : forall x y, er_ltb x y = true -> er_le x y.
Proof.
  intros [| |a|] [| |b|] H; simpl in *; try discriminate; auto.
  apply Qlt_le_weak. now apply Qltb_lt.
Qed.

Lemma er_le_refl : forall x, er_isnan x = false -> er_le x x.
Proof. intros [| |a|] H; simpl in *; try discriminate; auto. apply Qle_refl. Qed.

Lemma er_le_trans : forall x y z, er_le x y -> er_le y z -> er_le x z.
Proof.
  intros [| |a|] [| |b|] [| |c|] H1 H2; simpl in *; auto; try contradiction.
  eapply Qle_trans; eauto.
Qed.

Lemma er_eqb_le : forall x y, er_eqb x y = true -> er_le x y /\ er_le y x.
Proof.
  intros [| |a|] [| |b|] H; simpl in *; try discriminate; auto.
  apply Qeq_bool_iff in H. split; rewrite H; apply Qle_refl.
Qed.

Lemma er_le_antisym : forall x y, er_le x y -> er_le y x -> er_eqb x y = true.
Proof.
  intros [| |a|] [| |b|] H1 H2; simpl in *; try contradiction; auto.
  apply Qeq_bool_iff. now apply Qle_antisym.
Qed.

(** ** List helpers *)

(** Positions (from 0) at which a predicate holds: [np.where(mask)[0]]. *)
Fixpoint where_from {A} (p : A -> bool) (i : nat) (l : list A) : list nat :=
  match l with
  | [] => []
  | x :: r => if p x then i :: where_from p (S i) r else where_from p (S i) r
  end.
Definition np_where {A} (p : A -> bool) (l : list A) : list nat := where_from p 0 l.

Lemma where_from_spec : forall A (p : A -> bool) l i k,
  In k (where_from p i l) <-> exists j x, k = i + j /\ nth_error l j = Some x /\ p x = true.
Proof.
  induction l as [|x r IH]; intros i k; simpl.
  - split; [contradiction|]. intros (j & y & _ & H & _). destruct j; discriminate.
  - destruct (p x) eqn:Hp; simpl; rewrite IH; split.
    + intros [H|(j & y & H1 & H2 & H3)].
      * exists 0, x. split; [lia|]. auto.
      * exists (S j), y. split; [lia|]. auto.
    + intros (j & y & H1 & H2 & H3). destruct j as [|j]; simpl in *.
      * left. lia.
      * right. exists j, y. split; [lia|]. auto.
    + intros (j & y & H1 & H2 & H3). exists (S j), y. split; [lia|]. auto.
    + intros (j & y & H1 & H2 & H3). destruct j as [|j]; simpl in *.
      * inversion H2; subst. congruence.
      * exists j, y. split; [lia|]. auto.
Qed.

Lemma np_where_spec : forall A (p : A -> bool) l k,
  In k (np_where p l) <-> exists x, nth_error l k = Some x /\ p x = true.
Proof.
  intros. unfold np_where. rewrite where_from_spec. split.
  - intros (j & x & H1 & H2 & H3). simpl in H1. subst. eauto.
  - intros (x & H1 & H2). exists k, x. auto.
Qed.

Lemma filter_ext_in_iff : forall A (p q : A -> bool) l,
  (forall x, In x l -> p x = q x) -> filter p l = filter q l.
Proof.
  induction l as [|x r IH]; intros H; simpl; [reflexivity|].
  rewrite (H x) by (now left). destruct (q x); rewrite IH; auto;
    intros y Hy; apply H; now right.
Qed.

Lemma Permutation_filter : forall A (p : A -> bool) l l',
  Permutation l l' -> Permutation (filter p l) (filter p l').
Proof.
  intros A p l l' H. induction H; simpl; auto.
  - destruct (p x); auto.
  - destruct (p x), (p y); auto. apply perm_swap.
  - eapply Permutation_trans; eauto.
Qed.

Lemma NoDup_app_intro : forall A (l1 l2 : list A), NoDup l1 -> NoDup l2 ->
  (forall x, In x l1 -> ~ In x l2) -> NoDup (l1 ++ l2).
Proof.
  induction l1 as [|x l1 IH]; intros l2 N1 N2 D; cbn; [exact N2|].
  inversion N1; subst. constructor.
  - rewrite in_app_iff. intros [?|?]; [contradiction|]. apply (D x); [now left|auto].
  - apply IH; auto. intros y Hy. apply D. now right.
Qed.
