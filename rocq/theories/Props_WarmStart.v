(** C144: a scheduler started from past visits. *)
From Coq Require Import List Bool ZArith Lia Permutation Sorted.
From Verif Require Import Base WarmStart.
Import ListNotations.
Open Scope Z_scope.

Lemma lex_refl : forall a, lex a a = true.
Proof. induction a as [|x a IH]; [reflexivity|]. cbn [lex]. rewrite Z.eqb_refl, IH, orb_true_r. reflexivity. Qed.
Lemma lex_total : forall a b, lex a b = false -> lex b a = true.
Proof.
  induction a as [|x a IH]; intros [|y b] H; try discriminate; [reflexivity|]. cbn [lex] in *. apply orb_false_iff in H. destruct H as [H1 H2]. apply Z.ltb_ge in H1. apply orb_true_iff. rewrite Z.ltb_lt.
  destruct (Z.eq_dec x y) as [->|N]; [right|left; lia]. rewrite Z.eqb_refl in *. cbn in *. apply IH. exact H2.
Qed.
Lemma lex_anti : forall a b, lex a b = true -> lex b a = true -> a = b.
Proof.
  induction a as [|x a IH]; intros [|y b] H K; try discriminate; [reflexivity|]. cbn [lex] in *. apply orb_true_iff in H, K. rewrite andb_true_iff, Z.ltb_lt, Z.eqb_eq in H, K.
  destruct H as [H|[<- H]]; [lia|]. destruct K as [K|[_ K]]; [lia|]. f_equal. apply IH; assumption.
Qed.
Lemma lex_trans : forall a b c, lex a b = true -> lex b c = true -> lex a c = true.
Proof.
  induction a as [|x a IH]; intros b c H K; [reflexivity|]. destruct b as [|y b]; [discriminate|]. destruct c as [|z c]; [discriminate|]. cbn [lex] in *. apply orb_true_iff in H, K. apply orb_true_iff. rewrite andb_true_iff, Z.ltb_lt, Z.eqb_eq in *.
  destruct H as [H|[-> H]], K as [K|[-> K]]; try (left; lia). right. split; [reflexivity|apply IH with b; assumption].
Qed.
Lemma before_key : forall k a b, before k a b = true -> nth k a 0 <= nth k b 0.
Proof. intros k a b H. unfold before in H. cbn [lex] in H. apply orb_true_iff in H. rewrite andb_true_iff, Z.ltb_lt, Z.eqb_eq in H. lia. Qed.
Lemma before_anti : forall k a b, before k a b = true -> before k b a = true -> a = b.
Proof. intros k a b H K. pose proof (lex_anti _ _ H K) as E. injection E. auto. Qed.
Definition le (k : nat) (a b : visit) : Prop := before k a b = true.
Lemma place_perm : forall k v l, Permutation (place k v l) (v :: l).
Proof. intros k v l. induction l as [|w r IH]; cbn [place]; [apply Permutation_refl|]. destruct (before k v w); [apply Permutation_refl|]. apply Permutation_trans with (w :: v :: r); [constructor; exact IH|constructor]. Qed.
Lemma order_perm : forall k l, Permutation (in_order k l) l.
Proof. intros k. induction l as [|v l IH]; [constructor|]. apply Permutation_trans with (v :: in_order k l); [apply place_perm|constructor; exact IH]. Qed.
Lemma place_sorted : forall k v l, StronglySorted (le k) l -> StronglySorted (le k) (place k v l).
Proof.
  intros k v l H. induction l as [|w r IH]; cbn [place]; [repeat constructor|]. inversion H as [|? ? S' F]; subst. destruct (before k v w) eqn:B.
  - constructor; [exact H|]. constructor; [exact B|]. rewrite Forall_forall in *. intros z Hz. unfold le, before. apply lex_trans with (nth k w 0 :: w); [exact B|apply F; exact Hz].
  - constructor; [apply IH; exact S'|]. rewrite Forall_forall in *. intros z Hz. apply (Permutation_in z (place_perm k v r)) in Hz. destruct Hz as [<-|Hz]; [apply lex_total; exact B|apply F; exact Hz].
Qed.
Lemma order_sorted : forall k l, StronglySorted (le k) (in_order k l).
Proof. intros k. induction l as [|v l IH]; [constructor|]. apply place_sorted. exact IH. Qed.
Lemma sorted_unique : forall k l m, StronglySorted (le k) l -> StronglySorted (le k) m -> Permutation l m -> l = m.
Proof.
  intros k. induction l as [|a l IH]; intros m H K P; [apply Permutation_nil in P; congruence|]. destruct m as [|b m]; [apply Permutation_sym, Permutation_nil in P; discriminate|].
  inversion H as [|? ? H1 H2]; subst. inversion K as [|? ? K1 K2]; subst. rewrite Forall_forall in *.
  assert (a = b). { assert (Ia : In a (b :: m)) by (apply (Permutation_in a P); left; reflexivity). assert (Ib : In b (a :: l)) by (apply (Permutation_in b (Permutation_sym P)); left; reflexivity).
    destruct Ia as [->|Ia]; [reflexivity|]. destruct Ib as [->|Ib]; [reflexivity|]. apply (before_anti k); [apply H2; exact Ib|apply K2; exact Ia]. }
  subst b. f_equal. apply IH; [exact H1|exact K1|]. apply Permutation_cons_inv with a. exact P.
Qed.
(** The column [k] is the one of that name. *)
Definition column (names : list Z) (key : Z) (k : nat) : Prop := (k < List.length names)%nat /\ nth k names (key + 1) = key /\ forall j, (j < k)%nat -> nth j names (key + 1) <> key.
Lemma find_spec : forall key names n, let find := (fix find (k : nat) (ns : list Z) := match ns with [] => None | n :: r => if Z.eqb n key then Some k else find (S k) r end) in
  match find n names with Some k => exists j, k = (n + j)%nat /\ column names key j | None => ~ In key names end.
Proof.
  intros key. induction names as [|a names IH]; intros n find; [intros []|]. cbn. destruct (Z.eqb_spec a key) as [E|E].
  - exists 0%nat. split; [lia|]. split; [cbn; lia|]. split; [exact E|]. intros j Hj. lia.
  - specialize (IH (S n)). cbn in IH. fold find in IH |- *. destruct (find (S n) names) as [k|].
    + destruct IH as (j & -> & (L & Nt & F)). exists (S j). split; [lia|]. split; [cbn; lia|]. split; [exact Nt|]. intros [|i] Hi; [exact E|]. apply F. lia.
    + intros [H|H]; [exact (E H)|exact (IH H)].
Qed.

Section Scheduler.
Variable St : Type.
Variable add : St -> visit -> St * option exn.
Notation start := (warm_start St add).
Lemma start_form : forall names key k s l, column names key k -> start names key s l = (fst (replay St add s (in_order k l)), in_order k l, snd (replay St add s (in_order k l))).
Proof.
  intros names key k s l (L & E & F). unfold warm_start. pose proof (find_spec key names 0) as H. cbn in H. destruct ((fix find (k : nat) (ns : list Z) := match ns with [] => None | n :: r => if Z.eqb n key then Some k else find (S k) r end) 0%nat names) as [j|].
  - destruct H as (i & -> & (L' & E' & F')). cbn [Nat.add]. assert (i = k). { destruct (Nat.lt_trichotomy i k) as [X|[X|X]]; [destruct (F i X E')|exact X|destruct (F' k X E)]. } subst i. destruct (replay St add s (in_order k l)). reflexivity.
  - destruct H. rewrite <- E. apply nth_In. exact L.
Qed.
(** Past visits as the scheduler sees them: one after the other, until one raises. *)
Inductive seen : St -> list visit -> St -> option exn -> list visit -> Prop :=
| seen_all : forall s, seen s [] s None []
| seen_one : forall s v r s1 s2 e left, add s v = (s1, None) -> seen s1 r s2 e left -> seen s (v :: r) s2 e left
| seen_bad : forall s v r s1 e, add s v = (s1, Some e) -> seen s (v :: r) s1 (Some e) r.
Lemma replay_seen : forall l s, exists left, seen s l (fst (replay St add s l)) (snd (replay St add s l)) left.
Proof.
  induction l as [|v l IH]; intros s; [exists []; constructor|]. cbn [replay]. destruct (add s v) as [s1 [e|]] eqn:E; [exists l; apply seen_bad; exact E|]. destruct (IH s1) as (left & H). exists left. apply seen_one with s1; assumption.
Qed.
(** Every visit once, in the order of time; the array of the caller is left in that order, and a visit that raises ends the call. *)
Theorem C144_replay : forall names key k s l, column names key k -> exists order left s' e, start names key s l = (s', order, e) /\
  Permutation order l /\ StronglySorted (fun a b => nth k a 0 <= nth k b 0) order /\ seen s order s' e left /\ (e = None -> left = []).
Proof.
  intros names key k s l C. destruct (replay_seen (in_order k l) s) as (left & H). exists (in_order k l), left, (fst (replay St add s (in_order k l))), (snd (replay St add s (in_order k l))).
  split; [apply start_form; exact C|]. split; [apply order_perm|]. split; [|split; [exact H|]].
  - pose proof (order_sorted k l) as S. clear - S. induction S as [|a r S IH F]; [constructor|]. constructor; [exact IH|]. rewrite Forall_forall in *. intros z Hz. apply before_key. apply F. exact Hz.
  - clear C. induction H; intros E; [reflexivity|apply IHseen; exact E|discriminate].
Qed.
(** The order of the table given makes no difference, also where visits have the same time. *)
Theorem C144_any_order : forall names key s l m, In key names -> Permutation l m -> start names key s l = start names key s m.
Proof.
  intros names key s l m I P. pose proof (find_spec key names 0) as H. unfold warm_start. cbn in H. destruct ((fix find (k : nat) (ns : list Z) := match ns with [] => None | n :: r => if Z.eqb n key then Some k else find (S k) r end) 0%nat names) as [k|]; [|contradiction].
  assert (E : in_order k l = in_order k m). { apply (sorted_unique k); [apply order_sorted|apply order_sorted|]. apply Permutation_trans with l; [apply order_perm|]. apply Permutation_trans with m; [exact P|apply Permutation_sym, order_perm]. }
  rewrite E. reflexivity.
Qed.
(** A table in two parts, the second after the first: as the whole. *)
Lemma sorted_app : forall k l m, StronglySorted (le k) l -> StronglySorted (le k) m -> (forall a b, In a l -> In b m -> le k a b) -> StronglySorted (le k) (l ++ m).
Proof.
  intros k l m S1 S2 H. induction S1 as [|a r S IH F]; [exact S2|]. cbn [app]. constructor; [apply IH; intros x y Hx Hy; apply H; [right; exact Hx|exact Hy]|]. rewrite Forall_forall in *. intros z Hz. apply in_app_or in Hz. destruct Hz as [Hz|Hz]; [apply F; exact Hz|apply H; [left; reflexivity|exact Hz]].
Qed.
Lemma replay_app : forall l m s s', replay St add s l = (s', None) -> replay St add s (l ++ m) = replay St add s' m.
Proof.
  induction l as [|v l IH]; intros m s s' H; cbn [replay app] in *; [injection H as ->; reflexivity|]. destruct (add s v) as [s1 [e|]]; [discriminate|]. apply IH. exact H.
Qed.
Theorem C144_parts : forall names key k s l m s1 l1, column names key k -> (forall a b, In a l -> In b m -> nth k a 0 < nth k b 0) -> start names key s l = (s1, l1, None) ->
  exists m1 s2 e, start names key s1 m = (s2, m1, e) /\ start names key s (l ++ m) = (s2, l1 ++ m1, e).
Proof.
  intros names key k s l m s1 l1 C H E. rewrite (start_form _ _ k _ _ C) in E. injection E as E1 E2 E3. exists (in_order k m), (fst (replay St add s1 (in_order k m))), (snd (replay St add s1 (in_order k m))). split; [apply start_form; exact C|].
  assert (O : in_order k (l ++ m) = l1 ++ in_order k m).
  { apply (sorted_unique k); [apply order_sorted| |].
    - subst l1. apply sorted_app; [apply order_sorted|apply order_sorted|]. intros a b Ha Hb. apply (Permutation_in a (order_perm k l)) in Ha. apply (Permutation_in b (order_perm k m)) in Hb. specialize (H a b Ha Hb). unfold le, before. cbn [lex]. apply orb_true_iff. left. apply Z.ltb_lt. exact H.
    - apply Permutation_trans with (l ++ m); [apply order_perm|]. subst l1. apply Permutation_app; apply Permutation_sym, order_perm. }
  rewrite (start_form _ _ k _ _ C), O. assert (R : replay St add s l1 = (s1, None)) by (rewrite <- E2; rewrite (surjective_pairing (replay St add s (in_order k l))); congruence). rewrite (replay_app _ _ _ _ R). reflexivity.
Qed.
(** A name that is not a column is refused and nothing is changed. *)
Theorem C144_name : forall names key s l, ~ In key names -> start names key s l = (s, l, Some ValueError).
Proof.
  intros names key s l N. unfold warm_start. pose proof (find_spec key names 0) as H. cbn in H. destruct ((fix find (k : nat) (ns : list Z) := match ns with [] => None | n :: r => if Z.eqb n key then Some k else find (S k) r end) 0%nat names) as [k|]; [|reflexivity].
  destruct H as (j & _ & (L & E & _)). destruct N. rewrite <- E. apply nth_In. exact L.
Qed.
End Scheduler.
Print Assumptions C144_replay.
Print Assumptions C144_any_order.
Print Assumptions C144_parts.
Print Assumptions C144_name.

(** A scheduler that keeps the time and target of the last visit. *)
Definition last_seen (s : list visit) (v : visit) : list visit * option exn := ([v], None).
Definition all_seen (s : list visit) (v : visit) : list visit * option exn := (s ++ [v], if nth 1 v 0 =? 9 then Some KeyError else None).
Example C144_ex : warm_start _ all_seen [7; 5] 5 [] [[1; 30]; [2; 10]; [4; 20]; [3; 20]] = ([[2; 10]; [3; 20]; [4; 20]; [1; 30]], [[2; 10]; [3; 20]; [4; 20]; [1; 30]], None).
Proof. reflexivity. Qed.
Example C144_ex_column : column [7; 5] 5 1.
Proof. split; [cbn; lia|]. split; [reflexivity|]. intros [|j] H; [cbn; lia|lia]. Qed.
Example C144_ex_raise : warm_start _ all_seen [5; 7] 5 [] [[30; 1]; [10; 2]; [20; 9]] = ([[10; 2]; [20; 9]], [[10; 2]; [20; 9]; [30; 1]], Some KeyError).
Proof. reflexivity. Qed.
(** The condition of C144_parts is needed. Two tables given the other way around: the last visit of the scheduler is not the last of the night. *)
Theorem C144_parts_needed : exists (add : list visit -> visit -> list visit * option exn) names key l m s1 s2 s3, (forall s v, snd (add s v) = None) /\
  fst (fst (warm_start _ add names key [] (m ++ l))) = s1 /\ fst (fst (warm_start _ add names key [] m)) = s2 /\ fst (fst (warm_start _ add names key s2 l)) = s3 /\ s1 <> s3.
Proof.
  exists last_seen, [5], 5, [[10]], [[20]], [[20]], [[20]], [[10]]. repeat split. discriminate.
Qed.
Print Assumptions C144_parts_needed.
