(** [np.searchsorted] as the bisection loop numpy runs for one key
    (numpy/core/src/npysort/binsearch.cpp): [low p a] says entry [a] sorts before
    the key, [a < key] for side="left" and [a <= key] for side="right". *)
From Coq Require Import List Arith Lia Bool.
Import ListNotations.

Section B.
Context {A : Type} (p : A -> bool) (d : A) (l : list A).

Fixpoint bis (fuel lo hi : nat) : nat :=
  match fuel with
  | 0 => lo
  | S f => if Nat.ltb lo hi then
             let mid := lo + Nat.div2 (hi - lo) in
             if p (nth mid l d) then bis f (S mid) hi else bis f lo mid
           else lo
  end.
Definition searchsorted : nat := bis (length l) 0 (length l).

(** On an array where no entry sorts before the key after one that does not. *)
Definition parted : Prop := forall i j x y, i <= j -> nth_error l i = Some x -> nth_error l j = Some y -> p y = true -> p x = true.

Lemma div2_bounds : forall n, 2 * Nat.div2 n <= n < 2 * Nat.div2 n + 2.
Proof. intros n. rewrite Nat.div2_div. pose proof (Nat.div_mod n 2). pose proof (Nat.mod_upper_bound n 2). lia. Qed.

Lemma bis_ok : parted -> forall fuel lo hi, lo <= hi -> hi <= length l -> hi - lo <= fuel ->
  (forall i x, i < lo -> nth_error l i = Some x -> p x = true) ->
  (forall i x, hi <= i -> nth_error l i = Some x -> p x = false) ->
  lo <= bis fuel lo hi <= hi /\
  (forall i x, i < bis fuel lo hi -> nth_error l i = Some x -> p x = true) /\
  (forall i x, bis fuel lo hi <= i -> nth_error l i = Some x -> p x = false).
Proof.
  intros M. induction fuel as [|f IH]; intros lo hi L H F B1 B2; cbn [bis].
  - assert (lo = hi) as -> by lia. auto.
  - destruct (Nat.ltb_spec lo hi) as [C|C]; [|assert (lo = hi) as -> by lia; auto].
    cbv zeta. set (mid := lo + Nat.div2 (hi - lo)).
    assert (Hm : lo <= mid < hi) by (unfold mid; pose proof (div2_bounds (hi - lo)); lia).
    destruct (nth_error l mid) as [m|] eqn:E; [|apply nth_error_None in E; lia].
    rewrite (nth_error_nth _ _ _ E). destruct (p m) eqn:P.
    + destruct (IH (S mid) hi) as (R & R1 & R2); try lia; [|exact B2|].
      * intros i x Hi Hx. exact (M i mid x m ltac:(lia) Hx E P).
      * repeat split; auto; lia.
    + destruct (IH lo mid) as (R & R1 & R2); try lia; [exact B1| |].
      * intros i x Hi Hx. destruct (p x) eqn:Q; [|reflexivity]. rewrite (M mid i m x Hi E Hx Q) in P. discriminate.
      * repeat split; auto; lia.
Qed.

Lemma searchsorted_ok : parted ->
  searchsorted <= length l /\
  (forall i x, i < searchsorted -> nth_error l i = Some x -> p x = true) /\
  (forall i x, searchsorted <= i -> nth_error l i = Some x -> p x = false).
Proof.
  intros M. destruct (bis_ok M (length l) 0 (length l)) as (R & R1 & R2); try lia.
  - intros i x H E. apply nth_error_None in H. congruence.
  - unfold searchsorted. repeat split; auto; lia.
Qed.

(** The position is the number of entries sorting before the key. *)
Lemma searchsorted_unique : parted -> forall k, k <= length l ->
  (forall i x, i < k -> nth_error l i = Some x -> p x = true) ->
  (forall i x, k <= i -> nth_error l i = Some x -> p x = false) -> searchsorted = k.
Proof.
  intros M k K K1 K2. destruct (searchsorted_ok M) as (R & R1 & R2).
  destruct (lt_eq_lt_dec searchsorted k) as [[C|C]|C]; [|exact C|].
  - destruct (nth_error l searchsorted) as [x|] eqn:E; [|apply nth_error_None in E; lia].
    specialize (R2 _ _ (le_n _) E). pose proof (K1 _ _ C E). congruence.
  - destruct (nth_error l k) as [x|] eqn:E; [|apply nth_error_None in E; lia].
    pose proof (K2 _ _ (le_n _) E). pose proof (R1 _ _ C E). congruence.
Qed.
End B.
