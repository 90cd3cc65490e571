(** Model of downtime handling.
    /repo/rubin_scheduler/scheduler/model_observatory/model_observatory.py. *)
From Coq Require Import List ZArith QArith Qminmax Bool Lia Lqa Permutation Sorted.
From Verif Require Import Base.
Import ListNotations.
Open Scope nat_scope.

(** A downtime: start and end (days). *)
Notation down := (Q * Q)%type (only parsing).

(** [np.searchsorted(a, x, side="right")] on a sorted array: number of leading
    entries that are <= x. *)
Fixpoint ss_right (l : list Q) (x : Q) : nat :=
  match l with
  | [] => 0
  | a :: r => if Qle_bool a x then S (ss_right r x) else 0
  end.

(** [check_up] lines 583-598: (up, time). *)
Definition check_up (ds : list down) (mjd : Q) : bool * Q :=
  match ss_right (map fst ds) mjd with
  | 0 => (true, mjd)
  | S i => match nth_error ds i with
           | Some (_, e) => if Qltb mjd e then (false, e) else (true, mjd)
           | None => (true, mjd)
           end
  end.

(** Sorting by start, ties by end, line 250. *)
Definition dle (a b : down) : bool :=
  Qltb (fst a) (fst b) || (Qeq_bool (fst a) (fst b) && Qle_bool (snd a) (snd b)).
Fixpoint d_insert (x : down) (l : list down) : list down :=
  match l with [] => [x] | y :: r => if dle x y then x :: l else y :: d_insert x r end.
Fixpoint d_sort (l : list down) : list down :=
  match l with [] => [] | x :: r => d_insert x (d_sort r) end.

(** One pass of the for loop, lines 256-260.  Rows of a structured array are
    views, so row i is read after the update made at row i-1. *)
Fixpoint pass_from (s e : Q) (r : list down) : list down :=
  match r with
  | [] => [(s, e)]
  | (s2, e2) :: r' =>
      if Qltb s2 e then (s, Qmax e e2) :: pass_from s2 (Qmax e e2) r'
      else (s, e) :: pass_from s2 e2 r'
  end.
Definition pass (l : list down) : list down :=
  match l with [] => [] | (s, e) :: r => pass_from s e r end.

(** Lines 262-263: keep rows whose end differs from the previous row's end;
    [np.roll] compares the first row with the last. *)
Fixpoint dd (prev : Q) (l : list down) : list down :=
  match l with
  | [] => []
  | (s, e) :: r => if Qeq_bool e prev then dd e r else (s, e) :: dd e r
  end.
Definition dedup (l : list down) : list down := dd (snd (last l (0, 0)%Q)) l.

(** Lines 253, 254, 264: some row starts before the previous row ends. *)
Fixpoint overl_from (e : Q) (r : list down) : bool :=
  match r with [] => false | (s2, e2) :: r' => Qltb s2 e || overl_from e2 r' end.
Definition overl (l : list down) : bool :=
  match l with [] => false | (_, e) :: r => overl_from e r end.

(** The while loop, lines 253-264, with fuel.  [np.min] of an empty difference
    array (fewer than two rows) raises ValueError. *)
Fixpoint merge (fuel : nat) (l : list down) : res (list down) :=
  match l with
  | [] | [_] => Raise ValueError
  | _ => if overl l then
           match fuel with
           | 0 => Raise OutOfFuel
           | S f => merge f (dedup (pass l))
           end
         else Ok l
  end.

(** Lines 246-264. *)
Definition setup_downtimes (l : list down) : res (list down) := merge (length l) (d_sort l).

(** ** Specification vocabulary *)
Definition covered (l : list down) (m : Q) : Prop :=
  exists s e, In (s, e) l /\ (s <= m)%Q /\ (m < e)%Q.
Definition real_downs (l : list down) : Prop := Forall (fun d => (fst d < snd d)%Q) l.
(** Sorted and non-overlapping: each row ends before all later rows start. *)
Definition disjoint (l : list down) : Prop :=
  StronglySorted (fun a b : down => (snd a <= fst b)%Q /\ (fst a <= fst b)%Q) l.

(** ** Proofs *)
Lemma ss_right_spec : forall l x, StronglySorted Qle l ->
  (forall i a, nth_error l i = Some a -> (i < ss_right l x <-> (a <= x)%Q)) /\ ss_right l x <= length l.
Proof.
  induction l as [|a r IH]; intros x H; cbn.
  - split; [intros [|i] b Hb; discriminate|lia].
  - inversion H; subst. destruct (IH x H2) as [IH1 IH2]. destruct (Qle_bool a x) eqn:E.
    + apply Qle_bool_iff in E. split; [|lia]. intros [|i] b Hb; cbn in Hb.
      * injection Hb as <-. split; [auto|lia].
      * rewrite <- (IH1 i b Hb). lia.
    + apply Qle_bool_false in E. split; [|lia]. intros i b Hb. split; [lia|]. intros Hle. exfalso.
      destruct i as [|i]; cbn in Hb; [injection Hb as <-; lra|].
      rewrite Forall_forall in H3. specialize (H3 b (nth_error_In _ _ Hb)). lra.
Qed.

Lemma disjoint_starts : forall l, disjoint l -> StronglySorted Qle (map fst l).
Proof.
  induction l as [|a r IH]; intros H; cbn; constructor; inversion H; subst; auto.
  rewrite Forall_forall in *. intros x Hx. apply in_map_iff in Hx. destruct Hx as [d [<- Hd]].
  apply H3, Hd.
Qed.

Lemma sorted_nth : forall A (R : A -> A -> Prop) l i j a b, StronglySorted R l -> i < j ->
  nth_error l i = Some a -> nth_error l j = Some b -> R a b.
Proof.
  intros A R l i j a b H. revert i j. induction H as [|x r Hr IH Hx]; intros i j Hij Ha Hb; [destruct i; discriminate|].
  destruct j as [|j]; [lia|]. destruct i as [|i]; cbn in *.
  - injection Ha as <-. rewrite Forall_forall in Hx. apply Hx. eapply nth_error_In; eauto.
  - apply (IH i j); [lia|exact Ha|exact Hb].
Qed.

Lemma check_up_exact : forall l m, disjoint l ->
  (forall e, check_up l m = (false, e) -> exists s, In (s, e) l /\ (s <= m)%Q /\ (m < e)%Q) /\
  (forall t, check_up l m = (true, t) -> t = m /\ ~ covered l m).
Proof.
  intros l m H. pose proof (disjoint_starts l H) as HS.
  destruct (ss_right_spec _ m HS) as [K1 K2]. unfold check_up.
  destruct (ss_right (map fst l) m) as [|i] eqn:E.
  - split; [intros; discriminate|]. intros t Ht. injection Ht as <-. split; [reflexivity|].
    intros (s & e & Hin & H1 & H2). apply In_nth_error in Hin. destruct Hin as [k Hk].
    assert (k < 0); [|lia]. apply (K1 k s); [|exact H1]. now rewrite nth_error_map, Hk.
  - rewrite map_length in K2. destruct (nth_error l i) as [[s e]|] eqn:EN.
    2:{ apply nth_error_None in EN. lia. }
    assert (Hs : (s <= m)%Q).
    { apply (K1 i s); [now rewrite nth_error_map, EN|lia]. }
    destruct (Qltb m e) eqn:EL.
    + apply Qltb_lt in EL. split; intros x Hx; [|discriminate]. injection Hx as <-.
      exists s. split; [eapply nth_error_In; eauto|auto].
    + apply Qltb_false in EL. split; intros x Hx; [discriminate|]. injection Hx as <-.
      split; [reflexivity|]. intros (s' & e' & Hin & H1 & H2). apply In_nth_error in Hin. destruct Hin as [k Hk].
      assert (k < S i). { apply (K1 k s'); [now rewrite nth_error_map, Hk|exact H1]. }
      destruct (Nat.eq_dec k i) as [->|Hne]; [rewrite EN in Hk; injection Hk as -> ->; lra|].
      assert (k < i) by lia. pose proof (sorted_nth _ _ _ _ _ _ _ H H3 Hk EN) as [K _]. cbn in K. lra.
Qed.

(** *** Sorting *)
Lemma d_insert_perm : forall x l, Permutation (d_insert x l) (x :: l).
Proof.
  induction l as [|y r IH]; cbn; [reflexivity|]. destruct (dle x y); [reflexivity|].
  rewrite IH. apply perm_swap.
Qed.
Lemma d_sort_perm : forall l, Permutation (d_sort l) l.
Proof. induction l as [|x r IH]; cbn; [reflexivity|]. rewrite d_insert_perm. now constructor. Qed.

Definition by_start (a b : down) : Prop := (fst a <= fst b)%Q.
Lemma dle_true : forall a b, dle a b = true -> by_start a b.
Proof.
  intros a b H. unfold dle in H. unfold by_start. apply orb_true_iff in H. destruct H as [H|H].
  - apply Qltb_lt in H. lra.
  - apply andb_true_iff in H. destruct H as [H _]. apply Qeq_bool_iff in H. lra.
Qed.
Lemma dle_false : forall a b, dle a b = false -> by_start b a.
Proof.
  intros a b H. unfold dle in H. unfold by_start. apply orb_false_iff in H. destruct H as [H _].
  apply Qltb_false in H. exact H.
Qed.
Lemma d_insert_sorted : forall x l, StronglySorted by_start l -> StronglySorted by_start (d_insert x l).
Proof.
  induction l as [|y r IH]; intros H; cbn; [repeat constructor|].
  inversion H; subst. destruct (dle x y) eqn:E.
  - apply dle_true in E. constructor; [exact H|]. constructor; [exact E|].
    eapply Forall_impl; [|exact H3]. intros a Ha. unfold by_start in *. lra.
  - apply dle_false in E. constructor; [now apply IH|].
    apply (Permutation_Forall (Permutation_sym (d_insert_perm x r))). constructor; auto.
Qed.
Lemma d_sort_sorted : forall l, StronglySorted by_start (d_sort l).
Proof. induction l as [|x r IH]; cbn; [constructor|]. now apply d_insert_sorted. Qed.

Lemma covered_perm : forall l l' m, Permutation l l' -> covered l m -> covered l' m.
Proof. intros l l' m P (s & e & H & K). exists s, e. split; [eapply Permutation_in; eauto|exact K]. Qed.

Lemma covered_cons : forall s e l m, covered ((s, e) :: l) m <-> ((s <= m)%Q /\ (m < e)%Q) \/ covered l m.
Proof.
  intros s e l m. split.
  - intros (s' & e' & [H|H] & K); [injection H as <- <-; now left|right; exists s', e'; auto].
  - intros [K|(s' & e' & H & K)]; [exists s, e; split; [now left|exact K]|exists s', e'; split; [now right|exact K]].
Qed.

(** *** One pass *)
Lemma pass_from_covered : forall r s e m, StronglySorted by_start ((s, e) :: r) ->
  (covered (pass_from s e r) m <-> covered ((s, e) :: r) m).
Proof.
  induction r as [|[s2 e2] r IH]; intros s e m H; cbn [pass_from]; [reflexivity|].
  assert (H2 : StronglySorted by_start ((s2, e2) :: r)) by (inversion H; auto).
  assert (Hs : (s <= s2)%Q) by (inversion H as [|? ? ? F]; inversion F; auto).
  assert (H3 : forall x, StronglySorted by_start ((s2, x) :: r)).
  { intros x. inversion H2 as [|? ? ? F]; subst. constructor; auto. }
  destruct (Qltb s2 e) eqn:E.
  - apply Qltb_lt in E. rewrite covered_cons, IH, !covered_cons by apply H3.
    destruct (Q.max_spec e e2) as [[L M]|[L M]]; rewrite M.
    + split; [|intros [K|[K|K]]; [left; lra|left; lra|auto]]. intros [K|[K|K]]; [|right; left; lra|auto].
      destruct (Qlt_le_dec m e); [left; lra|right; left; lra].
    + split; intros [K|[K|K]]; auto; try (left; lra).
  - rewrite covered_cons, IH, (covered_cons s e) by apply H2. reflexivity.
Qed.

(** Ends are non-decreasing after a pass; starts stay sorted, rows stay real. *)
Definition mono_rows (l : list down) : Prop :=
  StronglySorted (fun a b : down => (fst a <= fst b)%Q /\ (snd a <= snd b)%Q) l.

Lemma pass_from_head : forall r s e, exists e' t, pass_from s e r = (s, e') :: t /\ (e <= e')%Q.
Proof.
  intros [|[s2 e2] r] s e; cbn; [exists e, []; split; [reflexivity|apply Qle_refl]|].
  destruct (Qltb s2 e); eexists; eexists; split; try reflexivity; [apply Q.le_max_l|apply Qle_refl].
Qed.

Lemma StronglySorted_cons_head : forall A (R : A -> A -> Prop) x y r,
  (forall a b c, R a b -> R b c -> R a c) -> StronglySorted R (y :: r) -> R x y -> StronglySorted R (x :: y :: r).
Proof.
  intros A R x y r T H Hxy. constructor; [exact H|]. constructor; [exact Hxy|].
  inversion H; subst. eapply Forall_impl; [|exact H3]. intros a Ha. eapply T; eauto.
Qed.

Lemma pass_from_mono : forall r s e, StronglySorted by_start ((s, e) :: r) -> real_downs ((s, e) :: r) ->
  mono_rows (pass_from s e r) /\ real_downs (pass_from s e r) /\ length (pass_from s e r) = S (length r).
Proof.
  assert (T : forall a b c : down, ((fst a <= fst b)%Q /\ (snd a <= snd b)%Q) -> ((fst b <= fst c)%Q /\ (snd b <= snd c)%Q) ->
     ((fst a <= fst c)%Q /\ (snd a <= snd c)%Q)) by (intros; lra).
  induction r as [|[s2 e2] r IH]; intros s e H R; cbn [pass_from].
  - split; [repeat constructor|]. auto.
  - assert (H2 : StronglySorted by_start ((s2, e2) :: r)) by (inversion H; auto).
    assert (Hs : (s <= s2)%Q) by (inversion H as [|? ? ? F]; inversion F; auto).
    assert (H3 : forall x, StronglySorted by_start ((s2, x) :: r)).
    { intros x. inversion H2 as [|? ? ? F]; subst. constructor; auto. }
    inversion R as [|? ? R1 R2]; subst. inversion R2 as [|? ? R3 R4]; subst. cbn in R1, R3.
    destruct (Qltb s2 e) eqn:E.
    + apply Qltb_lt in E.
      assert (RM : real_downs ((s2, Qmax e e2) :: r)).
      { constructor; [cbn; pose proof (Q.le_max_r e e2); lra|exact R4]. }
      destruct (IH s2 (Qmax e e2) (H3 _) RM) as (M1 & M2 & M3).
      destruct (pass_from_head r s2 (Qmax e e2)) as (e' & t & E1 & E2). rewrite E1 in *.
      split; [apply StronglySorted_cons_head; auto|]. split; [|cbn in *; lia].
      constructor; [cbn; pose proof (Q.le_max_l e e2); lra|exact M2].
    + apply Qltb_false in E. destruct (IH s2 e2 H2 R2) as (M1 & M2 & M3).
      destruct (pass_from_head r s2 e2) as (e' & t & E1 & E2). rewrite E1 in *.
      split; [apply StronglySorted_cons_head; auto; cbn; lra|]. split; [|cbn in *; lia].
      constructor; auto.
Qed.

(** *** Dropping rows *)
Lemma dd_incl : forall l p x, In x (dd p l) -> In x l.
Proof.
  induction l as [|[s e] r IH]; intros p x H; cbn in *; [contradiction|].
  destruct (Qeq_bool e p); [right; eapply IH; eauto|]. destruct H as [H|H]; [now left|right; eapply IH; eauto].
Qed.
Lemma dd_length : forall l p, length (dd p l) <= length l.
Proof.
  induction l as [|[s e] r IH]; intros p; cbn; [lia|]. specialize (IH e). destruct (Qeq_bool e p); cbn; lia.
Qed.
Lemma dd_sorted : forall (R : down -> down -> Prop) l p, StronglySorted R l -> StronglySorted R (dd p l).
Proof.
  intros R. induction l as [|[s e] r IH]; intros p H; cbn; [constructor|]. inversion H; subst.
  destruct (Qeq_bool e p); [now apply IH|]. constructor; [now apply IH|].
  rewrite Forall_forall in *. intros x Hx. apply H3. eapply dd_incl; eauto.
Qed.

(** Coverage after dropping, given that an earlier row with end [p] is kept. *)
Lemma dd_covered_after : forall l s0 p m, mono_rows ((s0, p) :: l) ->
  (covered ((s0, p) :: dd p l) m <-> covered ((s0, p) :: l) m).
Proof.
  induction l as [|[s e] r IH]; intros s0 p m H; cbn [dd]; [reflexivity|].
  assert (Hs : (s0 <= s)%Q /\ (p <= e)%Q) by (inversion H as [|? ? ? F]; inversion F; auto).
  assert (H2 : mono_rows ((s, e) :: r)) by (inversion H; auto).
  destruct (Qeq_bool e p) eqn:E.
  - apply Qeq_bool_iff in E.
    assert (H3 : mono_rows ((s0, e) :: r)).
    { inversion H as [|? ? Hr Fr]; subst. inversion Hr; subst. constructor; auto.
      inversion Fr; subst. rewrite Forall_forall in *. intros x Hx. cbn. specialize (H6 x Hx). cbn in H6. lra. }
    specialize (IH s0 e m H3). rewrite !covered_cons in IH. rewrite !covered_cons.
    assert (K : forall a, (a <= m /\ m < e)%Q <-> (a <= m /\ m < p)%Q) by (intros; split; lra).
    rewrite K in IH. rewrite (K s). rewrite IH. split; [intros [A|A]; auto|].
    intros [A|[A|A]]; auto. left; lra.
  - rewrite !(covered_cons s0), IH by exact H2. reflexivity.
Qed.

Lemma mono_last : forall l d, mono_rows l -> l <> [] -> forall x, In x l -> (snd x <= snd (last l d))%Q.
Proof.
  induction l as [|a r IH]; intros d H Hne x Hx; [contradiction|]. inversion H; subst.
  destruct r as [|b r]; [destruct Hx as [->|[]]; apply Qle_refl|].
  change (last (a :: b :: r) d) with (last (b :: r) d).
  destruct Hx as [<-|Hx]; [|now apply IH].
  inversion H3; subst. assert (snd b <= snd (last (b :: r) d))%Q by (apply IH; auto; [discriminate|now left]). lra.
Qed.

Lemma dd_all_equal : forall l p, (forall x, In x l -> (snd x == p)%Q) -> dd p l = [].
Proof.
  induction l as [|[s e] r IH]; intros p H; cbn; [reflexivity|].
  assert (E : (e == p)%Q) by (apply (H (s, e)); now left).
  assert (EB : Qeq_bool e p = true) by now apply Qeq_bool_iff. rewrite EB.
  apply IH. intros x Hx. rewrite E. apply H. now right.
Qed.

(** After a pass, dropping either keeps coverage or removes everything, and the
    latter happens only when all rows form one block. *)
Lemma dedup_cases : forall l, mono_rows l -> l <> [] ->
  (dedup l <> [] /\ (forall m, covered (dedup l) m <-> covered l m)) \/
  (dedup l = [] /\ exists a b, forall m, covered l m <-> ((a <= m)%Q /\ (m < b)%Q)).
Proof.
  intros [|[s e] r] H Hne; [congruence|]. unfold dedup. set (le := snd (last ((s, e) :: r) (0, 0)%Q)).
  cbn [dd]. destruct (Qeq_bool e le) eqn:E.
  - right. apply Qeq_bool_iff in E.
    assert (A : forall x, In x ((s, e) :: r) -> (snd x == e)%Q).
    { intros x Hx. pose proof (mono_last _ (0, 0)%Q H Hne x Hx) as L. fold le in L.
      destruct Hx as [<-|Hx]; [reflexivity|]. inversion H as [|? ? _ F]; subst. rewrite Forall_forall in F.
      specialize (F x Hx). cbn in F. lra. }
    split; [apply dd_all_equal; intros x Hx; apply A; now right|].
    exists s, e. intros m. rewrite covered_cons. split; [|auto]. intros [K|(s' & e' & Hin & K)]; [exact K|].
    specialize (A (s', e') (or_intror Hin)). cbn in A. inversion H as [|? ? _ F]; subst. rewrite Forall_forall in F.
    specialize (F _ Hin). cbn in F. lra.
  - left. split; [discriminate|]. intros m. now apply dd_covered_after.
Qed.

(** *** Progress *)
Fixpoint adj_eq (l : list down) : Prop :=
  match l with
  | (_, e) :: (((_, e2) :: _) as r) => (e == e2)%Q \/ adj_eq r
  | _ => False
  end.

Lemma pass_from_adj : forall r s e, overl_from e r = true -> adj_eq (pass_from s e r).
Proof.
  induction r as [|[s2 e2] r IH]; intros s e H; cbn [overl_from] in H; [discriminate|]. cbn [pass_from].
  destruct (Qltb s2 e) eqn:E.
  - clear H. destruct (overl_from (Qmax e e2) r) eqn:EO.
    + specialize (IH s2 _ EO). destruct (pass_from_head r s2 (Qmax e e2)) as (e' & t & E1 & _). rewrite E1 in *.
      cbn [adj_eq]. right. exact IH.
    + destruct r as [|[s3 e3] r]; cbn [pass_from]; [cbn; left; reflexivity|].
      cbn [overl_from] in EO. apply orb_false_iff in EO. destruct EO as [EO _]. rewrite EO. cbn. left. reflexivity.
  - cbn [orb] in H. specialize (IH s2 _ H).
    destruct (pass_from_head r s2 e2) as (e' & t & E1 & _). rewrite E1 in *. cbn [adj_eq]. right. exact IH.
Qed.

Lemma dd_adj_length : forall l p, adj_eq l -> length (dd p l) < length l.
Proof.
  induction l as [|[s e] r IH]; intros p H; [contradiction|]. destruct r as [|[s2 e2] r]; [contradiction|].
  cbn [adj_eq] in H. cbn [dd]. destruct (Qeq_bool e p).
  - pose proof (dd_length ((s2, e2) :: r) e) as L. cbn [dd] in L. cbn [length] in *. lia.
  - destruct H as [H|H].
    + assert (EB : Qeq_bool e2 e = true) by (apply Qeq_bool_iff; now symmetry). rewrite EB.
      pose proof (dd_length r e2). cbn [length]. lia.
    + specialize (IH e H). cbn [dd] in IH. cbn [length] in *. lia.
Qed.

(** *** The loop *)
Lemma overl_disjoint : forall l, overl l = false -> StronglySorted by_start l -> real_downs l -> disjoint l.
Proof.
  assert (T : forall a b c : down, ((snd a <= fst b)%Q /\ (fst a <= fst b)%Q) -> ((snd b <= fst c)%Q /\ (fst b <= fst c)%Q) ->
     ((snd a <= fst c)%Q /\ (fst a <= fst c)%Q)) by (intros; lra).
  induction l as [|[s e] r IH]; intros H S R; [constructor|].
  destruct r as [|[s2 e2] r]; [repeat constructor|].
  cbn in H. apply orb_false_iff in H. destruct H as [H1 H2]. apply Qltb_false in H1.
  inversion S as [|? ? S2 F]; subst. inversion R; subst. inversion F; subst.
  apply StronglySorted_cons_head; [exact T|apply IH; auto|]. split; [exact H1|assumption].
Qed.

Lemma merge_spec : forall fuel l, length l <= fuel -> StronglySorted by_start l -> real_downs l ->
  (exists l', merge fuel l = Ok l' /\ disjoint l' /\ real_downs l' /\ (forall m, covered l' m <-> covered l m)) \/
  (merge fuel l = Raise ValueError /\ exists a b, forall m, covered l m <-> ((a <= m)%Q /\ (m < b)%Q)).
Proof.
  induction fuel as [|fuel IH]; intros l Hl S R.
  - destruct l; [|cbn in Hl; lia]. right. split; [reflexivity|]. exists 0%Q, 0%Q. intros m. split.
    + intros (s & e & [] & _).
    + lra.
  - destruct l as [|[s e] r].
    { right. split; [reflexivity|]. exists 0%Q, 0%Q. intros m. split; [intros (s & e & [] & _)|lra]. }
    destruct r as [|d r].
    { right. split; [reflexivity|]. exists s, e. intros m. rewrite covered_cons. split; [|auto].
      intros [K|(x & y & [] & _)]. exact K. }
    set (l := (s, e) :: d :: r) in *.
    assert (EM : merge (Datatypes.S fuel) l = if overl l then merge fuel (dedup (pass l)) else Ok l) by reflexivity.
    rewrite EM. destruct (overl l) eqn:EO.
    + destruct (pass_from_mono (d :: r) s e S R) as (M1 & M2 & M3).
      change (pass_from s e (d :: r)) with (pass l) in *.
      assert (Hne : pass l <> []) by (intros E; rewrite E in M3; discriminate).
      assert (HA : adj_eq (pass l)) by (apply (pass_from_adj (d :: r) s e); exact EO).
      assert (HC : forall m, covered (pass l) m <-> covered l m) by (intros m; apply (pass_from_covered (d :: r) s e m S)).
      destruct (dedup_cases _ M1 Hne) as [[D1 D2]|[D1 (a & b & D2)]].
      * assert (Hlen : length (dedup (pass l)) <= fuel).
        { pose proof (dd_adj_length (pass l) (snd (last (pass l) (0, 0)%Q)) HA) as L. unfold dedup.
          rewrite M3 in L. unfold l in Hl. cbn [length] in *. lia. }
        assert (HS : StronglySorted by_start (dedup (pass l))).
        { apply dd_sorted. clear -M1. induction M1; constructor; auto.
          eapply Forall_impl; [|exact H]. intros x Hx. apply Hx. }
        assert (HR : real_downs (dedup (pass l))).
        { unfold real_downs in *. rewrite Forall_forall in *. intros x Hx. apply M2. eapply dd_incl; eauto. }
        destruct (IH _ Hlen HS HR) as [(l' & E1 & E2 & E3 & E4)|(E1 & a & b & E2)].
        -- left. exists l'. split; [exact E1|]. split; [exact E2|]. split; [exact E3|].
           intros m. rewrite E4, D2, HC. reflexivity.
        -- right. split; [exact E1|]. exists a, b. intros m. rewrite <- E2, D2, HC. reflexivity.
      * right. rewrite D1. split; [destruct fuel; reflexivity|]. exists a, b. intros m. rewrite <- D2, HC. reflexivity.
    + left. exists l. split; [reflexivity|]. split; [now apply overl_disjoint|]. split; [exact R|]. reflexivity.
Qed.

Lemma setup_spec : forall ds, real_downs ds ->
  (exists l', setup_downtimes ds = Ok l' /\ disjoint l' /\ real_downs l' /\ (forall m, covered l' m <-> covered ds m)) \/
  (setup_downtimes ds = Raise ValueError /\ exists a b, forall m, covered ds m <-> ((a <= m)%Q /\ (m < b)%Q)).
Proof.
  intros ds R. unfold setup_downtimes.
  assert (HC : forall m, covered (d_sort ds) m <-> covered ds m).
  { intros m. split; apply covered_perm; [apply d_sort_perm|symmetry; apply d_sort_perm]. }
  destruct (merge_spec (length ds) (d_sort ds)) as [(l' & E1 & E2 & E3 & E4)|(E1 & a & b & E2)].
  - rewrite (Permutation_length (d_sort_perm ds)). lia.
  - apply d_sort_sorted.
  - unfold real_downs. apply (Permutation_Forall (Permutation_sym (d_sort_perm ds))). exact R.
  - left. exists l'. repeat split; auto; intros K; [apply HC, E4, K|apply E4, HC, K].
  - right. split; [exact E1|]. exists a, b. intros m. rewrite <- HC. apply E2.
Qed.

Lemma setup_check_up : forall ds l' m, real_downs ds -> setup_downtimes ds = Ok l' ->
  (fst (check_up l' m) = false <-> covered ds m) /\
  (fst (check_up l' m) = false -> (m < snd (check_up l' m))%Q /\ ~ covered ds (snd (check_up l' m)) \/
      exists s e, In (s, e) l' /\ (s == snd (check_up l' m))%Q).
Proof.
  intros ds l' m R H. destruct (setup_spec ds R) as [(l2 & E1 & E2 & E3 & E4)|(E1 & _)]; [|congruence].
  rewrite H in E1. injection E1 as <-. destruct (check_up_exact l' m E2) as [K1 K2].
  destruct (check_up l' m) as [[|] t]; cbn [fst snd] in *.
  - split; [split; [discriminate|]|discriminate]. intros C. destruct (K2 t eq_refl) as [_ N]. apply E4 in C. contradiction.
  - destruct (K1 t eq_refl) as (s & Hin & Ks & Ke). split.
    + split; [|auto]. intros _. apply E4. exists s, t. auto.
    + intros _. destruct (check_up_exact l' t E2) as [K3 K4].
      destruct (check_up l' t) as [[|] t2].
      * left. split; [exact Ke|]. destruct (K4 t2 eq_refl) as [_ N]. intros C. apply N, E4, C.
      * right. destruct (K3 t2 eq_refl) as (s2 & Hin2 & A1 & A2). exists s2, t2. split; [exact Hin2|].
        apply Qle_antisym; [exact A1|].
        apply In_nth_error in Hin. apply In_nth_error in Hin2. destruct Hin as [i Hi], Hin2 as [j Hj].
        destruct (lt_eq_lt_dec i j) as [[L|L]|L].
        -- pose proof (sorted_nth _ _ _ _ _ _ _ E2 L Hi Hj) as [A _]. exact A.
        -- subst j. rewrite Hi in Hj. injection Hj as -> ->. lra.
        -- pose proof (sorted_nth _ _ _ _ _ _ _ E2 L Hj Hi) as [A _]. cbn in A. lra.
Qed.

Lemma check_up_iff : forall l m, disjoint l ->
  (forall e, check_up l m = (false, e) <-> exists s, In (s, e) l /\ (s <= m)%Q /\ (m < e)%Q) /\
  (check_up l m = (true, m) <-> ~ covered l m).
Proof.
  intros l m H. destruct (check_up_exact l m H) as [K1 K2]. split.
  - intros e. split; [apply K1|]. intros (s & Hin & A1 & A2). destruct (check_up l m) as [[|] t].
    + exfalso. destruct (K2 t eq_refl) as [_ N]. apply N. exists s, e. auto.
    + destruct (K1 t eq_refl) as (s2 & Hin2 & B1 & B2).
      apply In_nth_error in Hin. apply In_nth_error in Hin2. destruct Hin as [i Hi], Hin2 as [j Hj].
      destruct (lt_eq_lt_dec i j) as [[L|L]|L].
      * pose proof (sorted_nth _ _ _ _ _ _ _ H L Hi Hj) as [A _]. cbn in A. lra.
      * subst j. rewrite Hi in Hj. injection Hj as -> ->. reflexivity.
      * pose proof (sorted_nth _ _ _ _ _ _ _ H L Hj Hi) as [A _]. cbn in A. lra.
  - split; [intros E; now apply (K2 m)|]. intros N. destruct (check_up l m) as [[|] t].
    + now destruct (K2 t eq_refl) as [-> _].
    + exfalso. apply N. destruct (K1 t eq_refl) as (s & A1 & A2). exists s, t. auto.
Qed.
