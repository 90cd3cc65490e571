(** Lemmas about the prescheduling of deep drilling sequences. *)
From Coq Require Import List ZArith QArith Qround Qabs Bool String Lia Lqa Sorted Permutation.
From Verif Require Import Base Bisect IntRounded Blob Blob_proofs Pointings SeasonBf Feat Script TimeGate_proofs Ddf.
Import ListNotations.
Open Scope nat_scope.

(** ** Rises *)
Lemma rises_in : forall l i prev s, In s (rises i prev l) <-> exists k x, s = i + k /\ nth_error l k = Some x /\ (match k with 0%nat => prev | S j => nth j l 0 end < x)%Z.
Proof.
  induction l as [|y l IH]; intros i prev s; cbn [rises].
  - split; [contradiction|]. intros (k & x & _ & H & _). destruct k; discriminate.
  - rewrite in_app_iff, IH. split.
    + intros [H|(k & x & -> & H & L)].
      * destruct (Z.ltb_spec prev y) as [Y|Y]; [|contradiction]. destruct H as [<-|[]]. exists 0, y. split; [lia|]. split; [reflexivity|exact Y].
      * exists (S k), x. split; [lia|]. split; [exact H|]. destruct k; exact L.
    + intros (k & x & -> & H & L). destruct k as [|k].
      * left. cbn in H. injection H as ->. destruct (Z.ltb_spec prev x); [left; lia|lia].
      * right. exists k, x. split; [lia|]. split; [exact H|]. destruct k; exact L.
Qed.
Lemma rises_sorted : forall l i prev, StronglySorted lt (rises i prev l) /\ forall s, In s (rises i prev l) -> i <= s /\ s < i + List.length l.
Proof.
  induction l as [|y l IH]; intros i prev; cbn [rises]; [split; [constructor|contradiction]|]. destruct (IH (S i) y) as [S1 S2].
  destruct (prev <? y)%Z; cbn [app]; split.
  - constructor; [exact S1|]. apply Forall_forall. intros s H. apply S2 in H. lia.
  - intros s [<-|H]; cbn [List.length]; [lia|]. apply S2 in H. lia.
  - exact S1.
  - intros s H. apply S2 in H. cbn [List.length]. lia.
Qed.
(** A curve that does not fall rises at most as often as it rises in total. *)
Lemma rises_le : forall l i prev, (forall k x, nth_error l k = Some x -> (match k with 0%nat => prev | S j => nth j l 0 end <= x)%Z) ->
  (Z.of_nat (List.length (rises i prev l)) <= last l prev - prev)%Z.
Proof.
  induction l as [|y l IH]; intros i prev H; cbn [rises]; [cbn; lia|]. assert (Y := H 0 y eq_refl). cbn in Y.
  assert (I : (Z.of_nat (List.length (rises (S i) y l)) <= last l y - y)%Z) by (apply IH; intros k x E; specialize (H (S k) x E); destruct k; exact H).
  assert (L : last (y :: l) prev = last l y) by (destruct l as [|z l]; [reflexivity|]; cbn [last]; clear; revert z; induction l as [|w l IHl]; intros z; [reflexivity|]; cbn [last] in *; apply IHl).
  rewrite L, app_length. destruct (Z.ltb_spec prev y); cbn [List.length]; lia.
Qed.
Lemma last_cons : forall A (l : list A) y d, last (y :: l) d = last l y.
Proof. intros A l y d. destruct l as [|z l]; [reflexivity|]. cbn [last]. revert z. induction l as [|w l IHl]; intros z; [reflexivity|]. cbn [last] in *. apply IHl. Qed.
Lemma rises_eq : forall l i prev, (forall k x, nth_error l k = Some x -> let p := match k with 0 => prev | S j => nth j l 0%Z end in (p <= x <= p + 1)%Z) ->
  (Z.of_nat (List.length (rises i prev l)) = last l prev - prev)%Z.
Proof.
  induction l as [|y l IH]; intros i prev H; cbn [rises]; [cbn; lia|]. assert (Y := H 0 y eq_refl). cbn in Y.
  assert (I : (Z.of_nat (List.length (rises (S i) y l)) = last l y - y)%Z) by (apply IH; intros k x E; specialize (H (S k) x E); destruct k; exact H).
  rewrite last_cons, app_length. destruct (Z.ltb_spec prev y); cbn [List.length]; lia.
Qed.

(** ** Placement *)
Definition sorted (l : list nat) : Prop := StronglySorted lt l.
Lemma sorted_nth : forall l i j x y, sorted l -> i < j -> nth_error l i = Some x -> nth_error l j = Some y -> x < y.
Proof.
  induction l as [|z l IH]; intros i j x y S L A B; [destruct i; discriminate|]. inversion S as [|z' l' S1 S2]; subst. destruct j as [|j]; [lia|]. cbn in B. destruct i as [|i].
  - cbn in A. injection A as <-. rewrite Forall_forall in S2. apply S2. apply nth_error_In with j. exact B.
  - cbn in A. eapply IH; [exact S1| |exact A|exact B]. lia.
Qed.
Lemma sorted_parted : forall l s, sorted l -> parted (fun a => Nat.ltb a s) l /\ parted (fun a => Nat.leb a s) l.
Proof.
  intros l s S. split; intros i j x y L A B P.
  - apply Nat.ltb_lt in P. apply Nat.ltb_lt. destruct (Nat.eq_dec i j) as [->|N]; [rewrite A in B; injection B as ->; exact P|]. pose proof (sorted_nth l i j x y S ltac:(lia) A B). lia.
  - apply Nat.leb_le in P. apply Nat.leb_le. destruct (Nat.eq_dec i j) as [->|N]; [rewrite A in B; injection B as ->; exact P|]. pose proof (sorted_nth l i j x y S ltac:(lia) A B). lia.
Qed.
(** Distinct numbers at positions: position at most the value. *)
Lemma sorted_ge : forall l i x, sorted l -> nth_error l i = Some x -> i <= x.
Proof.
  intros l i. induction i as [|i IH]; intros x S A; [lia|]. destruct (nth_error l i) as [y|] eqn:E; [|apply nth_error_None in E; assert (Datatypes.S i < List.length l) by (apply nth_error_Some; congruence); lia].
  pose proof (IH y S eq_refl). pose proof (sorted_nth l i (Datatypes.S i) y x S ltac:(lia) E A). lia.
Qed.
(** If position and value agree everything before is there. *)
Lemma sorted_all : forall l i, sorted l -> nth_error l i = Some i -> forall j, j <= i -> nth_error l j = Some j.
Proof.
  intros l i S A j L. destruct (Nat.eq_dec j i) as [->|N]; [exact A|]. destruct (nth_error l j) as [y|] eqn:E; [|apply nth_error_None in E; assert (i < List.length l) by (apply nth_error_Some; congruence); lia].
  pose proof (sorted_ge l j y S E). assert (B : forall d, nth_error l (j + d) <> None -> exists z, nth_error l (j + d) = Some z /\ y + d <= z).
  { induction d as [|d IH]; intros Nn; [exists y; rewrite Nat.add_0_r; split; [exact E|lia]|]. destruct (nth_error l (j + Datatypes.S d)) as [z|] eqn:Ez; [|congruence]. destruct IH as (w & W1 & W2); [apply nth_error_Some; assert (j + Datatypes.S d < List.length l) by (apply nth_error_Some; congruence); lia|].
    exists z. split; [reflexivity|]. pose proof (sorted_nth l (j + d) (j + Datatypes.S d) w z S ltac:(lia) W1 Ez). lia. }
  destruct (B (i - j)) as (z & Z1 & Z2); [replace (j + (i - j)) with i by lia; congruence|]. replace (j + (i - j)) with i in Z1 by lia. rewrite A in Z1. injection Z1 as <-. f_equal. lia.
Qed.
Lemma pick_spec : forall valid s, sorted valid -> valid <> [] -> exists v, nth_error valid (pick valid s) = Some v /\
  ((v = s /\ forall j, j <= s -> In j valid) \/
   (~ (forall j, j <= s -> In j valid) /\ s < v /\ forall j, In j valid -> s < j -> v <= j) \/
   (~ (forall j, j <= s -> In j valid) /\ (forall j, In j valid -> j <= s) /\ forall j, In j valid -> j <= v)).
Proof.
  intros valid s S Ne. destruct (sorted_parted valid s S) as [P1 P2]. destruct (searchsorted_ok _ 0 valid P1) as (A1 & A2 & A3). destruct (searchsorted_ok _ 0 valid P2) as (B1 & B2 & B3). unfold pick.
  set (lf := searchsorted (fun a => Nat.ltb a s) 0 valid) in *. set (rg := searchsorted (fun a => Nat.leb a s) 0 valid) in *. clearbody lf rg. cbv zeta.
  assert (Lf : lf <= s).
  { destruct lf as [|k]; [lia|]. destruct (nth_error valid k) as [x|] eqn:E; [|apply nth_error_None in E; lia]. pose proof (A2 k x ltac:(lia) E) as X. apply Nat.ltb_lt in X. pose proof (sorted_ge valid k x S E). lia. }
  assert (Rg : lf <= rg /\ rg <= lf + 1).
  { split.
    - destruct (Nat.le_gt_cases lf rg) as [X|X]; [exact X|]. destruct (nth_error valid rg) as [x|] eqn:E; [|apply nth_error_None in E; lia]. pose proof (A2 rg x X E) as Y. pose proof (B3 rg x (le_n _) E) as Z. apply Nat.ltb_lt in Y. apply Nat.leb_gt in Z. lia.
    - destruct (Nat.le_gt_cases rg (lf + 1)) as [X|X]; [exact X|]. destruct (nth_error valid lf) as [x|] eqn:E; [|apply nth_error_None in E; lia]. destruct (nth_error valid (lf + 1)) as [y|] eqn:F; [|apply nth_error_None in F; lia].
      pose proof (A3 lf x (le_n _) E) as Y. apply Nat.ltb_ge in Y. pose proof (B2 (lf + 1) y X F) as Z. apply Nat.leb_le in Z. pose proof (sorted_nth valid lf (lf + 1) x y S ltac:(lia) E F). lia. }
  destruct (Z.ltb_spec (Z.of_nat s - Z.of_nat lf) (Z.of_nat rg - Z.of_nat s)) as [C|C].
  - assert (Es : lf = s) by lia. assert (Er : rg = lf + 1) by lia. destruct (nth_error valid lf) as [x|] eqn:E; [|apply nth_error_None in E; lia].
    assert (x = s) by (pose proof (A3 lf x (le_n _) E) as Y; apply Nat.ltb_ge in Y; pose proof (B2 lf x ltac:(lia) E) as Z; apply Nat.leb_le in Z; lia). subst x.
    assert (lf < List.length valid) by (apply nth_error_Some; congruence). destruct (Nat.leb_spec (List.length valid) lf); [lia|]. exists s. split; [exact E|]. left. split; [reflexivity|]. intros j L. apply nth_error_In with j. rewrite Es in E. exact (sorted_all valid s S E j L).
  - assert (Nall : ~ (forall j, j <= s -> In j valid)).
    { intros All. assert (X : forall k, k <= s -> nth_error valid k = Some k).
      { induction k as [k IH] using lt_wf_ind. intros L. destruct (In_nth_error valid k (All k L)) as [m Em]. pose proof (sorted_ge valid m k S Em). destruct (Nat.eq_dec m k) as [->|N]; [exact Em|]. exfalso. pose proof (IH m ltac:(lia) ltac:(lia)) as Y. congruence. }
      pose proof (X s (le_n _)) as Y. assert (Ls : s < List.length valid) by (apply nth_error_Some; congruence).
      assert (lf = s). { destruct (Nat.eq_dec lf s) as [Z|Z]; [exact Z|]. pose proof (X lf ltac:(lia)) as W. pose proof (A3 lf lf (le_n _) W) as V. apply Nat.ltb_ge in V. lia. }
      assert (rg = s + 1). { destruct (Nat.eq_dec rg lf) as [Z|Z]; [|lia]. exfalso. subst lf. rewrite Z in B3. pose proof (B3 s s (le_n _) Y) as V. apply Nat.leb_gt in V. lia. }
      lia. }
    destruct (Nat.leb_spec (List.length valid) rg) as [O|O].
    + assert (Lv : List.length valid <> 0) by (destruct valid; [congruence|discriminate]). destruct (nth_error valid (rg - 1)) as [v|] eqn:E; [|apply nth_error_None in E; lia]. exists v. split; [reflexivity|]. right. right. split; [exact Nall|]. split.
      * intros j I. destruct (In_nth_error valid j I) as [m Em]. assert (m < List.length valid) by (apply nth_error_Some; congruence). pose proof (B2 m j ltac:(lia) Em) as Z. apply Nat.leb_le in Z. exact Z.
      * intros j I. destruct (In_nth_error valid j I) as [m Em]. assert (m < List.length valid) by (apply nth_error_Some; congruence). destruct (Nat.eq_dec m (rg - 1)) as [->|N]; [rewrite E in Em; injection Em as ->; lia|]. pose proof (sorted_nth valid m (rg - 1) j v S ltac:(lia) Em E). lia.
    + destruct (nth_error valid rg) as [v|] eqn:E; [|apply nth_error_None in E; lia]. exists v. split; [reflexivity|]. right. left. split; [exact Nall|]. pose proof (B3 rg v (le_n _) E) as Z. apply Nat.leb_gt in Z. split; [exact Z|].
      intros j I Lj. destruct (In_nth_error valid j I) as [m Em]. destruct (Nat.le_gt_cases rg m) as [X|X].
      * destruct (Nat.eq_dec m rg) as [->|N]; [rewrite E in Em; injection Em as ->; lia|]. pose proof (sorted_nth valid rg m v j S ltac:(lia) E Em). lia.
      * pose proof (B2 m j X Em) as Y. apply Nat.leb_le in Y. lia.
Qed.

Lemma remove_at_in : forall A k (l : list A) v, nth_error l k = Some v -> Permutation l (v :: remove_at k l).
Proof.
  intros A k. induction k as [|k IH]; intros [|x l] v H; try discriminate; cbn in *; [injection H as ->; reflexivity|]. rewrite (IH l v H) at 1. constructor.
Qed.
Lemma remove_at_sorted : forall k l, sorted l -> sorted (remove_at k l).
Proof.
  induction k as [|k IH]; intros [|x l] S; cbn; try exact S; inversion S as [|x' l' S1 S2]; subst; [exact S1|]. constructor; [apply IH; exact S1|]. rewrite Forall_forall in *. intros y I. apply S2.
  clear - I. revert l I. induction k as [|k IHk]; intros [|z l] I; cbn in *; try contradiction; [right; exact I|]. destruct I as [<-|I]; [left; reflexivity|right; apply IHk; exact I].
Qed.
Lemma bump_length : forall k l, List.length (bump k l) = List.length l.
Proof. induction k as [|k IH]; intros [|x l]; cbn; try reflexivity. rewrite IH. reflexivity. Qed.
Lemma bump_nth : forall k l j, j < List.length l -> nth j (bump k l) 0%Z = (nth j l 0 + if Nat.eqb k j then 1 else 0)%Z.
Proof. induction k as [|k IH]; intros [|x l] [|j] L; cbn in *; try lia. apply IH. lia. Qed.

(** How often a night is chosen. *)
Definition occ (j : nat) (l : list nat) : Z := Z.of_nat (count_occ Nat.eq_dec l j).
(** The trace of the placement: the nights chosen for the steps in turn. *)
Inductive placed (nodup : bool) : list nat -> list nat -> list nat -> Prop :=
| placed_nil : forall valid, placed nodup [] valid []
| placed_cons : forall s r valid v chosen, nth_error valid (pick valid s) = Some v -> placed nodup r (if nodup then remove_at (pick valid s) valid else valid) chosen -> placed nodup (s :: r) valid (v :: chosen).
Lemma place_spec : forall nodup steps valid sched out, place nodup steps valid sched = Ok out ->
  exists chosen, placed nodup steps valid chosen /\ List.length out = List.length sched /\ forall j, j < List.length sched -> nth j out 0%Z = (nth j sched 0 + occ j chosen)%Z.
Proof.
  intros nodup. induction steps as [|s r IH]; intros valid sched out H; cbn in H.
  - injection H as <-. exists []. split; [constructor|]. split; [reflexivity|]. intros j L. unfold occ. cbn. lia.
  - destruct (nth_error valid (pick valid s)) as [v|] eqn:E; [|discriminate]. destruct (IH _ _ _ H) as (chosen & C1 & C2 & C3). exists (v :: chosen). split; [constructor; assumption|]. rewrite bump_length in C2, C3. split; [exact C2|].
    intros j L. rewrite (C3 j L), (bump_nth v sched j L). unfold occ. cbn. destruct (Nat.eq_dec v j) as [->|N]; [rewrite Nat.eqb_refl; lia|]. apply Nat.eqb_neq in N. rewrite N. lia.
Qed.
Lemma placed_in : forall nodup steps valid chosen, placed nodup steps valid chosen -> List.length chosen = List.length steps /\ incl chosen valid.
Proof.
  intros nodup. induction 1 as [|s r valid v chosen E P [IH1 IH2]]; [split; [reflexivity|intros x []]|]. split; [cbn; lia|]. intros x [<-|I]; [apply nth_error_In with (pick valid s); exact E|]. apply IH2 in I. destruct nodup; [|exact I].
  apply (Permutation_in x (Permutation_sym (remove_at_in _ _ _ _ E))). right. exact I.
Qed.
Lemma placed_nodup : forall steps valid chosen, placed true steps valid chosen -> NoDup valid -> NoDup chosen.
Proof.
  intros steps valid chosen P. remember true as nd. induction P as [|s r valid v chosen E P IH]; intros N; [constructor|]. subst nd. pose proof (remove_at_in _ _ _ _ E) as Pm. assert (N' : NoDup (v :: remove_at (pick valid s) valid)) by (apply (Permutation_NoDup Pm); exact N).
  inversion N' as [|x l N1 N2]; subst. constructor; [|apply IH; exact N2]. intros I. apply N1. apply (proj2 (placed_in _ _ _ _ P)). exact I.
Qed.
Lemma sorted_nodup : forall l, sorted l -> NoDup l.
Proof. induction 1 as [|x l S IH F]; constructor; [|exact IH]. intros I. rewrite Forall_forall in F. apply F in I. lia. Qed.
Lemma pick_some : forall valid s, sorted valid -> valid <> [] -> exists v, nth_error valid (pick valid s) = Some v.
Proof. intros valid s S N. destruct (pick_spec valid s S N) as (v & E & _). exists v. exact E. Qed.
Lemma place_total : forall steps valid sched, sorted valid -> (List.length steps <= List.length valid -> exists out, place true steps valid sched = Ok out) /\ (List.length valid < List.length steps -> place true steps valid sched = Raise IndexError).
Proof.
  induction steps as [|s r IH]; intros valid sched S; cbn [place List.length]; [split; [intros _; eexists; reflexivity|lia]|]. destruct valid as [|w valid].
  - split; [cbn; lia|]. intros _. assert (X : nth_error (@nil nat) (pick [] s) = None) by (destruct (pick [] s); reflexivity). rewrite X. reflexivity.
  - destruct (pick_some (w :: valid) s S) as [v E]; [discriminate|]. rewrite E. destruct (IH (remove_at (pick (w :: valid) s) (w :: valid)) (bump v sched) (remove_at_sorted _ _ S)) as [I1 I2].
    pose proof (Permutation_length (remove_at_in _ _ _ _ E)) as L. cbn [List.length] in *. split; intros H; [apply I1|apply I2]; lia.
Qed.
Lemma place_total_dup : forall steps valid sched, sorted valid -> valid <> [] -> exists out, place false steps valid sched = Ok out.
Proof.
  induction steps as [|s r IH]; intros valid sched S N; cbn [place]; [eexists; reflexivity|]. destruct (pick_some valid s S N) as [v E]. rewrite E. apply IH; assumption.
Qed.
Lemma where_sorted : forall A (p : A -> bool) l, sorted (np_where p l).
Proof.
  intros A p. unfold np_where. assert (H : forall l k, sorted (where_from p k l) /\ forall i, In i (where_from p k l) -> k <= i).
  { induction l as [|x l IH]; intros k; cbn; [split; [constructor|contradiction]|]. destruct (IH (Datatypes.S k)) as [S1 S2]. destruct (p x).
    - split; [constructor; [exact S1|]; apply Forall_forall; intros i I; apply S2 in I; lia|]. intros i [<-|I]; [lia|]. apply S2 in I. lia.
    - split; [exact S1|]. intros i I. apply S2 in I. lia. }
  intros l. apply H.
Qed.

(** ** Results of [match_cumulative] *)
Definition zsum (l : list Z) : Z := fold_right Z.add 0%Z l.
Lemma zsum_bump : forall l k, k < List.length l -> zsum (bump k l) = (zsum l + 1)%Z.
Proof. unfold zsum. induction l as [|x l IH]; intros [|k] L; cbn in *; try lia. rewrite IH; lia. Qed.
Lemma place_sum : forall nodup steps valid sched out, (forall v, In v valid -> v < List.length sched) -> place nodup steps valid sched = Ok out -> zsum out = (zsum sched + Z.of_nat (List.length steps))%Z.
Proof.
  intros nodup. induction steps as [|s r IH]; intros valid sched out V H; cbn [place List.length] in *; [injection H as <-; lia|]. destruct (nth_error valid (pick valid s)) as [v|] eqn:E; [|discriminate].
  rewrite (IH (if nodup then remove_at (pick valid s) valid else valid) (bump v sched) out); [rewrite zsum_bump; [lia|apply V; apply nth_error_In with (pick valid s); exact E]| |exact H].
  intros w I. rewrite bump_length. apply V. destruct nodup; [|exact I]. apply (Permutation_in w (Permutation_sym (remove_at_in _ _ _ _ E))). right. exact I.
Qed.
Lemma zsum_zero : forall A (l : list A), zsum (map (fun _ => 0%Z) l) = 0%Z.
Proof. unfold zsum. induction l; cbn; [reflexivity|]. rewrite IHl. reflexivity. Qed.
Lemma nth_zero : forall A (l : list A) j, nth j (map (fun _ => 0%Z) l) 0%Z = 0%Z.
Proof. induction l as [|x l IH]; intros [|j]; cbn; try reflexivity. apply IH. Qed.
Lemma match_in : forall mask (j : nat), In j (np_where (fun b : bool => b) mask) <-> nth j mask false = true.
Proof.
  intros mask j. rewrite np_where_spec. split.
  - intros (x & E & ->). apply nth_error_nth with (d := false) in E. exact E.
  - intros H. destruct (nth_error mask j) as [b|] eqn:E; [exists b; split; [reflexivity|]; apply nth_error_nth with (d := false) in E; congruence|]. apply nth_error_None in E. rewrite nth_overflow in H by exact E. discriminate.
Qed.
Lemma match_trace : forall cum mask nodup out, match_cumulative cum mask nodup = Ok out ->
  exists chosen, placed nodup (step_points cum) (np_where (fun b => b) mask) chosen /\ List.length out = List.length cum /\ forall j, j < List.length cum -> nth j out 0%Z = occ j chosen.
Proof.
  intros cum mask nodup out H. unfold match_cumulative in H. destruct (place_spec _ _ _ _ _ H) as (chosen & C1 & C2 & C3). rewrite map_length in C2, C3. exists chosen. split; [exact C1|]. split; [exact C2|]. intros j L. rewrite (C3 j L), nth_zero. lia.
Qed.
Lemma match_total : forall cum mask, List.length mask = List.length cum ->
  (match_cumulative cum mask true = Raise IndexError <-> List.length (np_where (fun b => b) mask) < List.length (step_points cum)) /\
  (List.length (step_points cum) <= List.length (np_where (fun b => b) mask) -> exists out, match_cumulative cum mask true = Ok out).
Proof.
  intros cum mask L. destruct (place_total (step_points cum) (np_where (fun b => b) mask) (map (fun _ => 0%Z) cum) (where_sorted _ _ _)) as [A B]. unfold match_cumulative. split; [|exact A]. split; [|exact B].
  intros H. destruct (Nat.lt_ge_cases (List.length (np_where (fun b => b) mask)) (List.length (step_points cum))) as [X|X]; [exact X|]. destruct (A X) as [out E]. congruence.
Qed.
Lemma match_sum : forall cum mask nodup out, List.length mask = List.length cum -> match_cumulative cum mask nodup = Ok out -> zsum out = Z.of_nat (List.length (step_points cum)).
Proof.
  intros cum mask nodup out L H. assert (V : forall v, In v (np_where (fun b : bool => b) mask) -> v < List.length (map (fun _ : Q => 0%Z) cum)).
  { intros v I. rewrite map_length. apply np_where_spec in I. destruct I as (x & E & _). assert (v < List.length mask) by (apply nth_error_Some; congruence). lia. }
  rewrite (place_sum _ _ _ _ _ V H), zsum_zero. lia.
Qed.
Lemma match_entries : forall cum mask out, List.length mask = List.length cum -> match_cumulative cum mask true = Ok out ->
  forall j, nth j out 0%Z = 0%Z \/ (nth j out 0%Z = 1%Z /\ nth j mask false = true).
Proof.
  intros cum mask out L H j. destruct (match_trace _ _ _ _ H) as (chosen & C1 & C2 & C3). destruct (Nat.lt_ge_cases j (List.length cum)) as [X|X]; [|left; apply nth_overflow; lia]. rewrite (C3 j X). unfold occ.
  destruct (in_dec Nat.eq_dec j chosen) as [I|I].
  - right. split; [|apply match_in; apply (proj2 (placed_in _ _ _ _ C1)); exact I]. pose proof (placed_nodup _ _ _ C1 (sorted_nodup _ (where_sorted _ _ _))) as N. pose proof (proj1 (NoDup_count_occ' Nat.eq_dec chosen) N j I) as Y. lia.
  - left. apply (count_occ_not_In Nat.eq_dec) in I. lia.
Qed.

(** ** Extremes and rounding *)
Lemma qtop_spec : forall l, l <> [] -> In (qtop l) l /\ forall x, In x l -> (x <= qtop l)%Q.
Proof.
  intros [|a l] Ne; [congruence|]. cbn [qtop]. clear Ne. revert a. induction l as [|y l IH]; intros a; cbn [fold_left]; [split; [left; reflexivity|intros x [<-|[]]; lra]|].
  destruct (Qle_bool a y) eqn:E.
  - apply Qle_bool_iff in E. destruct (IH y) as [I1 I2]. split; [right; exact I1|]. pose proof (I2 y (or_introl eq_refl)). intros x [<-|[<-|I]]; [lra|lra|]. apply I2. right. exact I.
  - apply Qle_bool_false in E. destruct (IH a) as [I1 I2]. pose proof (I2 a (or_introl eq_refl)). split; [destruct I1 as [I1|I1]; [left; exact I1|right; right; exact I1]|]. intros x [<-|[<-|I]]; [lra|lra|]. apply I2. right. exact I.
Qed.
Lemma qlow_spec : forall l, l <> [] -> In (qlow l) l /\ forall x, In x l -> (qlow l <= x)%Q.
Proof.
  intros [|a l] Ne; [congruence|]. cbn [qlow]. clear Ne. revert a. induction l as [|y l IH]; intros a; cbn [fold_left]; [split; [left; reflexivity|intros x [<-|[]]; lra]|].
  destruct (Qle_bool a y) eqn:E.
  - apply Qle_bool_iff in E. destruct (IH a) as [I1 I2]. pose proof (I2 a (or_introl eq_refl)). split; [destruct I1 as [I1|I1]; [left; exact I1|right; right; exact I1]|]. intros x [<-|[<-|I]]; [lra|lra|]. apply I2. right. exact I.
  - apply Qle_bool_false in E. destruct (IH y) as [I1 I2]. split; [right; exact I1|]. pose proof (I2 y (or_introl eq_refl)). intros x [<-|[<-|I]]; [lra|lra|]. apply I2. right. exact I.
Qed.
Lemma round_step : forall x y, (x <= y)%Q -> (y < x + 1)%Q -> (Qround_even x <= Qround_even y <= Qround_even x + 1)%Z.
Proof.
  intros x y L H. split; [apply round_even_mono; exact L|]. pose proof (round_even_bounds x) as A. pose proof (round_even_bounds y) as B.
  assert (C : (inject_Z (Qround_even y) < inject_Z (Qround_even x + 2))%Q) by (rewrite inject_Z_plus; change (inject_Z 2) with 2%Q; lra). rewrite <- Zlt_Qlt in C. lia.
Qed.
(** Number of rises of a rounded curve. *)
Lemma nth_map_round : forall l j, nth j (map Qround_even l) 0%Z = Qround_even (nth j l 0%Q).
Proof. intros l j. change 0%Z with (Qround_even 0). apply map_nth. Qed.
Lemma last_map_round : forall l d, last (map Qround_even l) (Qround_even d) = Qround_even (last l d).
Proof. induction l as [|x l IH]; intros d; [reflexivity|]. cbn [map]. rewrite !last_cons. apply IH. Qed.
Lemma steps_le : forall x r, (forall k, S k < List.length (x :: r) -> (nth k (x :: r) 0 <= nth (S k) (x :: r) 0)%Q) ->
  (Z.of_nat (List.length (step_points (x :: r))) <= Qround_even (last (x :: r) 0%Q) - Qround_even x)%Z.
Proof.
  intros x r H. unfold step_points. cbn [map]. rewrite last_cons, <- last_map_round. apply rises_le. intros k z E. destruct (nth_error_split _ _ E) as (l1 & l2 & E1 & E2). assert (L : k < List.length r) by (rewrite <- (map_length Qround_even), E1, app_length; cbn; lia).
  assert (Z0 : z = Qround_even (nth k r 0%Q)) by (apply nth_error_nth with (d := 0%Z) in E; rewrite <- E; apply nth_map_round). subst z. specialize (H k ltac:(cbn; lia)). destruct k as [|k]; cbn [nth] in *; [|rewrite nth_map_round]; apply round_even_mono; exact H.
Qed.
Lemma steps_eq : forall x r, (forall k, S k < List.length (x :: r) -> (nth k (x :: r) 0 <= nth (S k) (x :: r) 0)%Q /\ (nth (S k) (x :: r) 0 < nth k (x :: r) 0 + 1)%Q) ->
  (Z.of_nat (List.length (step_points (x :: r))) = Qround_even (last (x :: r) 0%Q) - Qround_even x)%Z.
Proof.
  intros x r H. unfold step_points. cbn [map]. rewrite last_cons, <- last_map_round. apply rises_eq. intros k z E. destruct (nth_error_split _ _ E) as (l1 & l2 & E1 & E2). assert (L : k < List.length r) by (rewrite <- (map_length Qround_even), E1, app_length; cbn; lia).
  assert (Z0 : z = Qround_even (nth k r 0%Q)) by (apply nth_error_nth with (d := 0%Z) in E; rewrite <- E; apply nth_map_round). subst z. destruct (H k ltac:(cbn; lia)) as [H1 H2]. destruct k as [|k]; cbn [nth] in *; [|rewrite nth_map_round]; apply round_step; assumption.
Qed.

(** ** Lists of results *)
Lemma collect_spec : forall A B (f : A -> res B) l r, collect f l = Ok r -> Forall2 (fun x y => f x = Ok y) l r.
Proof.
  intros A B f. induction l as [|x l IH]; intros r H; cbn in H; [injection H as <-; constructor|]. destruct (f x) as [y|] eqn:E; [|discriminate]. cbn in H. destruct (collect f l) as [ys|] eqn:F; [|discriminate]. cbn in H. injection H as <-. constructor; [exact E|]. apply IH. reflexivity.
Qed.
Lemma collect_total : forall A B (f : A -> res B) l, (forall x, In x l -> exists y, f x = Ok y) -> exists r, collect f l = Ok r.
Proof.
  intros A B f. induction l as [|x l IH]; intros H; cbn; [eexists; reflexivity|]. destruct (H x (or_introl eq_refl)) as [y ->]. cbn. destruct IH as [ys ->]; [intros z I; apply H; right; exact I|]. cbn. eexists. reflexivity.
Qed.
Lemma Forall2_len : forall A B (P : A -> B -> Prop) l r, Forall2 P l r -> List.length l = List.length r.
Proof. induction 1; cbn; congruence. Qed.

(** ** The mask *)
Lemma grow_nth : forall n m i, nth i (grow n m) false = true <-> i < List.length m /\ forall o, o <= n -> i + o < List.length m -> nth (i + o) m false = true.
Proof.
  intros n m i. unfold grow. destruct (Nat.lt_ge_cases i (List.length m)) as [L|L].
  - set (f := fun i => forallb (fun o => nth (i + o) m true) (seq 0 (S n))). rewrite (nth_indep _ false (f 0)) by (rewrite map_length, seq_length; exact L). rewrite map_nth, seq_nth by exact L. unfold f. rewrite forallb_forall. cbn [plus]. split.
    + intros H. split; [exact L|]. intros o Lo Li. specialize (H o). rewrite in_seq in H. rewrite (nth_indep _ false true) by exact Li. apply H. lia.
    + intros [_ H] o I. apply in_seq in I. destruct (Nat.lt_ge_cases (i + o) (List.length m)) as [X|X]; [rewrite (nth_indep _ true false) by exact X; apply H; lia|apply nth_overflow; exact X].
  - rewrite nth_overflow by (rewrite map_length, seq_length; exact L). split; [discriminate|intros [X _]; lia].
Qed.
Section OptProofs.
Variable night : Q -> Z.
Variable ra start : Q.
Variable D : dset.
Variable grid : list gpt.
Let us0 := unique_sorted (nights night grid).
Definition season_at (u : Z) : Q := (calc_season ra (first_mjd night grid u) start - inject_Z (Qfloor (qlow (map (fun u => calc_season ra (first_mjd night grid u) start) us0))))%Q.
Definition used : list Z := filter (fun u => opt (d_only D) (fun o => in_season o (season_at u))) us0.
Lemma mask_safe : forall n i, nth i (big_mask night D grid n) false = true <->
  i < List.length grid /\ forall j g, i <= j <= i + n -> nth_error grid j = Some g -> point_ok D (night (g_mjd g)) g = true.
Proof.
  intros n i. unfold big_mask. rewrite grow_nth, map_length. split; intros [L H]; (split; [exact L|]).
  - intros j g R E. assert (Lj : j < List.length grid) by (apply nth_error_Some; congruence). specialize (H (j - i) ltac:(lia) ltac:(lia)). replace (i + (j - i)) with j in H by lia.
    assert (X : nth_error (map (fun g => point_ok D (night (g_mjd g)) g) grid) j = Some (point_ok D (night (g_mjd g)) g)) by (rewrite nth_error_map, E; reflexivity). apply nth_error_nth with (d := false) in X. congruence.
  - intros o Lo Li. destruct (nth_error grid (i + o)) as [g|] eqn:E; [|apply nth_error_None in E; lia].
    assert (X : nth_error (map (fun g => point_ok D (night (g_mjd g)) g) grid) (i + o) = Some (point_ok D (night (g_mjd g)) g)) by (rewrite nth_error_map, E; reflexivity). apply nth_error_nth with (d := false) in X. rewrite X. apply (H (i + o) g); [lia|exact E].
Qed.
Lemma point_ok_finite : forall v g, point_ok D v g = true -> er_finite (g_m5 g) = true.
Proof. intros v g H. unfold point_ok in H. rewrite !andb_true_iff in H. tauto. Qed.
Lemma table_nights : map (fun r => fst (fst r)) (table night ra start D grid) = used /\ map snd (table night ra start D grid) = map season_at used.
Proof.
  unfold table, used. fold us0. set (base := inject_Z (Qfloor (qlow (map (fun u => calc_season ra (first_mjd night grid u) start) us0)))). 
  assert (E : forall u, season_at u = (calc_season ra (first_mjd night grid u) start - base)%Q) by reflexivity. clearbody us0. clearbody base. induction us0 as [|u l [IH1 IH2]]; [split; reflexivity|]. cbn [map filter]. rewrite <- E. cbn [snd]. destruct (opt (d_only D) (fun o => in_season o (season_at u))); cbn [map fst snd]; rewrite ?IH1, ?IH2; split; reflexivity.
Qed.
Lemma filter_ss : forall A (R : A -> A -> Prop) p l, StronglySorted R l -> StronglySorted R (filter p l).
Proof.
  intros A R p. induction 1 as [|x l S IH F]; cbn; [constructor|]. destruct (p x); [|exact IH]. constructor; [exact IH|]. rewrite Forall_forall in *. intros y I. apply F. apply filter_In in I. apply I.
Qed.
Lemma used_sorted : StronglySorted Z.lt used.
Proof. apply filter_ss. apply unique_sorted_sorted. Qed.
Lemma used_in : forall u, In u used <-> (exists g, In g grid /\ night (g_mjd g) = u) /\ opt (d_only D) (fun o => in_season o (season_at u)) = true.
Proof.
  intros u. unfold used. rewrite filter_In. unfold us0. rewrite unique_sorted_in. unfold nights. rewrite in_map_iff. split; intros [A B]; (split; [|exact B]); destruct A as (g & A1 & A2); exists g; split; assumption.
Qed.

(** ** The time within a night *)
Lemma er_lt_fin : forall a b, er_ltb (EFin a) (EFin b) = true <-> (a < b)%Q.
Proof. intros a b. apply Qltb_lt. Qed.
Lemma fold_top : forall (f : nat -> er) l a, (forall i, In i l -> er_finite (f i) = true) -> (a = ENInf /\ l <> []) \/ (exists q, a = EFin q) ->
  exists q, fold_left (fun a i => if er_ltb a (f i) then f i else a) l a = EFin q /\ (a = EFin q \/ exists i, In i l /\ f i = EFin q) /\
  (forall r, a = EFin r -> (r <= q)%Q) /\ forall i r, In i l -> f i = EFin r -> (r <= q)%Q.
Proof.
  intros f. induction l as [|i l IH]; intros a F A; cbn [fold_left].
  - destruct A as [[_ X]|[q ->]]; [congruence|]. exists q. split; [reflexivity|]. split; [left; reflexivity|]. split; [intros r E; injection E as ->; lra|intros i r []].
  - assert (Fi := F i (or_introl eq_refl)). destruct (f i) as [| |v|] eqn:Ei; try discriminate. assert (F' : forall i, In i l -> er_finite (f i) = true) by (intros j I; apply F; right; exact I).
    destruct (er_ltb a (EFin v)) eqn:T.
    + destruct (IH (EFin v) F' (or_intror (ex_intro _ v eq_refl))) as (q & Q1 & Q2 & Q3 & Q4). exists q. split; [exact Q1|]. pose proof (Q3 v eq_refl) as V. split; [right; destruct Q2 as [Q2|(j & J1 & J2)]; [injection Q2 as ->; exists i; split; [left; reflexivity|exact Ei]|exists j; split; [right; exact J1|exact J2]]|]. split.
      * intros r ->. apply er_lt_fin in T. lra.
      * intros j r [<-|I] E; [rewrite Ei in E; injection E as <-; exact V|apply (Q4 j r I E)].
    + destruct A as [[-> _]|[w ->]]; [discriminate|]. destruct (IH (EFin w) F' (or_intror (ex_intro _ w eq_refl))) as (q & Q1 & Q2 & Q3 & Q4). exists q. split; [exact Q1|]. pose proof (Q3 w eq_refl) as V. split; [destruct Q2 as [Q2|(j & J1 & J2)]; [left; exact Q2|right; exists j; split; [right; exact J1|exact J2]]|]. split; [exact Q3|].
      intros j r [<-|I] E; [rewrite Ei in E; injection E as <-; apply Qltb_false in T; lra|apply (Q4 j r I E)].
Qed.
Lemma find_first : forall (p : nat -> bool) l i, sorted l -> find p l = Some i -> In i l /\ p i = true /\ forall j, In j l -> j < i -> p j = false.
Proof.
  intros p. induction l as [|x l IH]; intros i S H; [discriminate|]. cbn in H. inversion S as [|x' l' S1 S2]; subst. rewrite Forall_forall in S2. destruct (p x) eqn:E.
  - injection H as <-. split; [left; reflexivity|]. split; [exact E|]. intros j [<-|I] L; [lia|]. apply S2 in I. lia.
  - destruct (IH i S1 H) as (A & B & C). split; [right; exact A|]. split; [exact B|]. intros j [<-|I] L; [exact E|]. apply C; assumption.
Qed.
Lemma seq_sorted : forall n k, sorted (seq k n).
Proof. induction n as [|n IH]; intros k; cbn; constructor; [apply IH|]. apply Forall_forall. intros x I. apply in_seq in I. lia. Qed.
Lemma in_night_in : forall mask u i, In i (in_night night grid mask u) <-> exists g, nth_error grid i = Some g /\ night (g_mjd g) = u /\ er_finite (g_m5 g) = true /\ nth i mask false = true.
Proof.
  intros mask u i. unfold in_night. rewrite filter_In, in_seq. split.
  - intros [_ H]. destruct (nth_error grid i) as [g|]; [|discriminate]. exists g. rewrite !andb_true_iff, Z.eqb_eq in H. tauto.
  - intros (g & E & A & B & C). assert (i < List.length grid) by (apply nth_error_Some; congruence). split; [lia|]. rewrite E, A, Z.eqb_refl, B, C. reflexivity.
Qed.
Lemma best_spec : forall mask u t, best_time night grid mask u = Ok t -> exists i g q, nth_error grid i = Some g /\ t = g_mjd g /\ night t = u /\ g_m5 g = EFin q /\ nth i mask false = true /\
  forall j h r, nth_error grid j = Some h -> night (g_mjd h) = u -> g_m5 h = EFin r -> nth j mask false = true -> (r <= q)%Q /\ (j < i -> (r < q)%Q).
Proof.
  intros mask u t H. unfold best_time in H. assert (IN := in_night_in mask u). assert (SO : sorted (in_night night grid mask u)) by (apply filter_ss, seq_sorted). set (l := in_night night grid mask u) in *. clearbody l.
  assert (F : forall i, In i l -> er_finite (m5_at grid i) = true) by (intros i I; apply IN in I; destruct I as (g & E & _ & B & _); unfold m5_at; rewrite E; exact B).
  destruct l as [|i0 l0]; [discriminate|]. set (l := i0 :: l0) in *. assert (Nl : l <> []) by (subst l; discriminate). assert (Nl2 := or_introl (exists q, ENInf = EFin q) (conj (eq_refl ENInf) Nl)). destruct (fold_top (m5_at grid) l ENInf F Nl2) as (q & Q1 & Q2 & _ & Q4). cbv zeta in H. rewrite Q1 in H.
  destruct (find (fun i => er_eqb (m5_at grid i) (EFin q)) l) as [i|] eqn:Fi; [|discriminate]. destruct (find_first _ _ _ SO Fi) as (A & B & C). pose proof (proj1 (IN i) A) as (g & E & N & Fg & M). rewrite E in H. injection H as <-.
  assert (Mi : m5_at grid i = g_m5 g) by (unfold m5_at; rewrite E; reflexivity). rewrite Mi in B. destruct (g_m5 g) as [| |w|] eqn:G; try discriminate. cbn in B. apply Qeq_bool_iff in B. exists i, g, w. split; [exact E|]. split; [reflexivity|]. split; [exact N|]. split; [exact G|]. split; [exact M|].
  intros j h r Ej Nj Hj Mj. assert (I : In j l) by (apply IN; exists h; rewrite Hj; repeat split; assumption). assert (Mr : m5_at grid j = EFin r) by (unfold m5_at; rewrite Ej; exact Hj). pose proof (Q4 j r I Mr) as L1. split; [lra|]. intros Lt. specialize (C j I Lt). cbn beta in C. rewrite Mr in C. cbn in C. apply Qeq_bool_neq in C. destruct (Qlt_le_dec r q) as [X|X]; [lra|]. exfalso. apply C. apply Qle_antisym; assumption.
Qed.
Lemma best_total : forall mask u i g, nth_error grid i = Some g -> night (g_mjd g) = u -> er_finite (g_m5 g) = true -> nth i mask false = true -> exists t, best_time night grid mask u = Ok t.
Proof.
  intros mask u i g E N F M. unfold best_time. assert (IN := in_night_in mask u). set (l := in_night night grid mask u) in *. clearbody l. assert (I : In i l) by (apply IN; exists g; repeat split; assumption).
  assert (Fl : forall i, In i l -> er_finite (m5_at grid i) = true) by (intros k Ik; apply IN in Ik; destruct Ik as (h & Eh & _ & B & _); unfold m5_at; rewrite Eh; exact B).
  destruct l as [|i0 l0]; [contradiction|]. set (l := i0 :: l0) in *. assert (Nl : l <> []) by (subst l; discriminate). assert (Nl2 := or_introl (exists q, ENInf = EFin q) (conj (eq_refl ENInf) Nl)). destruct (fold_top (m5_at grid) l ENInf Fl Nl2) as (q & Q1 & Q2 & _ & Q4). cbv zeta. rewrite Q1. destruct Q2 as [Q2|(k & K1 & K2)]; [discriminate|].
  destruct (find (fun i => er_eqb (m5_at grid i) (EFin q)) l) as [m|] eqn:Fi; [eexists; reflexivity|]. exfalso. pose proof (find_none _ _ Fi k K1) as X. cbn beta in X. rewrite K2 in X. cbn in X. apply Qeq_bool_neq in X. apply X. reflexivity.
Qed.
End OptProofs.

(** ** The wanted curve for one season *)
Fixpoint psums (acc : Q) (l : list Q) : list Q := match l with [] => [] | x :: r => (acc + x)%Q :: psums (acc + x)%Q r end.
Definition qsum (l : list Q) : Q := fold_left Qplus l 0%Q.
Lemma fold_plus : forall l a, (fold_left Qplus l a == a + qsum l)%Q.
Proof. unfold qsum. induction l as [|x l IH]; intros a; cbn; [ring|]. rewrite IH, (IH (0 + x)%Q). ring. Qed.
Lemma psums_last : forall l a, (last (psums a l) a == a + qsum l)%Q.
Proof.
  induction l as [|x l IH]; intros a; [cbn; unfold qsum; cbn; ring|]. cbn [psums]. rewrite last_cons, IH. unfold qsum at 2. cbn [fold_left]. rewrite (fold_plus l (0 + x)%Q). ring.
Qed.
Lemma psums_length : forall l a, List.length (psums a l) = List.length l.
Proof. induction l as [|x l IH]; intros a; cbn; [reflexivity|]. rewrite IH. reflexivity. Qed.
Lemma psums_mono : forall l a, (forall x, In x l -> (0 <= x)%Q) -> forall x, In x (psums a l) -> (a <= x)%Q /\ (x <= last (psums a l) a)%Q.
Proof.
  induction l as [|y l IH]; intros a H x I; [contradiction|]. cbn [psums] in *. rewrite last_cons. pose proof (H y (or_introl eq_refl)) as Y. assert (H' : forall x, In x l -> (0 <= x)%Q) by (intros z Iz; apply H; right; exact Iz). destruct I as [<-|I].
  - split; [lra|]. destruct l as [|z l]; [cbn; lra|]. destruct (IH (a + y)%Q H' (a + y + z)%Q (or_introl eq_refl)) as [A B]. eapply Qle_trans; [exact A|exact B].
  - destruct (IH (a + y)%Q H' x I) as [A B]. split; [lra|exact B].
Qed.
Lemma psums_step : forall l a k, S k < List.length l -> (nth (S k) (psums a l) 0 == nth k (psums a l) 0 + nth (S k) l 0)%Q.
Proof.
  induction l as [|y l IH]; intros a k L; [cbn in L; lia|]. cbn [psums nth]. cbn in L. destruct k as [|k]; [destruct l as [|z l]; [cbn in L; lia|]; cbn; ring|]. apply IH. lia.
Qed.
Lemma last_in : forall A (l : list A) d, l <> [] -> In (last l d) l.
Proof. intros A. induction l as [|x l IH]; intros d N; [congruence|]. destruct l as [|y l]; [left; reflexivity|]. right. apply IH. discriminate. Qed.
Lemma last_indep : forall A (l : list A) d e, l <> [] -> last l d = last l e.
Proof. intros A. induction l as [|x l IH]; intros d e N; [congruence|]. destruct l as [|y l]; [reflexivity|]. apply IH. discriminate. Qed.
(** A list that does not fall has its last as its top. *)
Lemma top_last : forall l d, l <> [] -> (forall x, In x l -> (x <= last l d)%Q) -> (qtop l == last l d)%Q.
Proof. intros l d N H. destruct (qtop_spec l N) as [A B]. apply Qle_antisym; [apply H; exact A|apply B; apply last_in; exact N]. Qed.
Lemma one_value : forall l o, l <> [] -> (forall x : Z, In x l -> x = o) -> unique_sorted l = [o].
Proof.
  intros l o N H. assert (S := unique_sorted_sorted l). assert (I : forall x, In x (unique_sorted l) -> x = o) by (intros x X; apply H; apply unique_sorted_in; exact X). assert (E : In o (unique_sorted l)) by (destruct l as [|x l]; [congruence|]; apply unique_sorted_in; left; exact (H x (or_introl eq_refl))).
  destruct (unique_sorted l) as [|a [|b r]]; [contradiction|f_equal; apply I; left; reflexivity|]. inversion S as [|x y S1 S2]; subst. rewrite Forall_forall in S2. specialize (S2 b (or_introl eq_refl)). rewrite (I a (or_introl eq_refl)), (I b (or_intror (or_introl eq_refl))) in S2. lia.
Qed.
Lemma active_sub : forall raw seas x, In x (active raw seas) -> In x seas.
Proof. intros raw seas x I. unfold active in I. apply in_map_iff in I. destruct I as ([r y] & <- & I). apply filter_In in I. destruct I as [I _]. apply in_combine_r in I. exact I. Qed.
Lemma active_some : forall raw seas, List.length raw = List.length seas -> (0 < qsum raw)%Q -> active raw seas <> [].
Proof.
  intros raw seas L P E. assert (Z0 : forall r, In r raw -> (r == 0)%Q).
  { intros r I. unfold active in E. apply map_eq_nil in E. destruct (In_nth_error raw r I) as [k Ek]. destruct (nth_error seas k) as [x|] eqn:Ex; [|apply nth_error_None in Ex; assert (k < List.length raw) by (apply nth_error_Some; congruence); lia].
    assert (C : In (r, x) (combine raw seas)) by (clear - Ek Ex; revert seas k Ek Ex; induction raw as [|a raw IH]; intros [|b seas] [|k] Ek Ex; try discriminate; cbn in *; [injection Ek as ->; injection Ex as ->; left; reflexivity|right; eapply IH; eassumption]).
    destruct (Qeq_bool r 0) eqn:B; [apply Qeq_bool_iff in B; exact B|]. exfalso. assert (X : In (r, x) (filter (fun p => negb (Qeq_bool (fst p) 0)) (combine raw seas))) by (apply filter_In; split; [exact C|cbn; rewrite B; reflexivity]). rewrite E in X. contradiction. }
  clear - P Z0. assert (X : (qsum raw == 0)%Q).
  { induction raw as [|r raw IH]; [reflexivity|]. unfold qsum. cbn [fold_left]. rewrite fold_plus. destruct (Qlt_le_dec 0 (qsum raw)) as [Y|Y].
    - rewrite IH; [rewrite (Z0 r (or_introl eq_refl)); ring|exact Y|intros z I; apply Z0; right; exact I].
    - unfold qsum in P. cbn [fold_left] in P. rewrite fold_plus, (Z0 r (or_introl eq_refl)) in P. exfalso. lra. }
  lra.
Qed.
Lemma season_sums_one : forall o raw seas acc, List.length raw = List.length seas -> (forall x, In x seas -> Qfloor x = o) -> season_sums o acc raw seas = map Some (psums acc raw).
Proof.
  intros o. induction raw as [|r raw IH]; intros [|x seas] acc L H; try discriminate; cbn [season_sums psums map]; [reflexivity|]. unfold in_season. rewrite (H x (or_introl eq_refl)), Z.eqb_refl. f_equal. apply IH; [cbn in L; lia|]. intros y I. apply H. right. exact I.
Qed.
Lemma somes_map : forall l, somes (map Some l) = l.
Proof. induction l as [|x l IH]; [reflexivity|]. unfold somes in *. cbn [map flat_map app]. rewrite IH. reflexivity. Qed.
Lemma over_map : forall (f : Q -> Q) l b, List.length l = List.length b -> over (map (option_map f) (map Some l)) b = map f l.
Proof. intros f. induction l as [|x l IH]; intros [|y b] L; try discriminate; [reflexivity|]. cbn [map option_map over]. rewrite IH; [reflexivity|cbn in L; lia]. Qed.
Lemma top_zero : forall A (l : list A), (qtop (map (fun _ => 0%Q) l) == 0)%Q.
Proof. intros A l. destruct l as [|x l]; [reflexivity|]. destruct (qtop_spec (map (fun _ => 0%Q) (x :: l))) as [I _]; [discriminate|]. apply in_map_iff in I. destruct I as (y & E & _). rewrite <- E. reflexivity. Qed.
(** The curve: shares of the rounded goal in proportion to the rates so far. *)
Lemma slopes_one : forall raw seas n o, List.length raw = List.length seas -> (forall x, In x seas -> Qfloor x = o) -> (forall r, In r raw -> (0 <= r)%Q) -> (0 < qsum raw)%Q ->
  slopes raw seas n 0 None = Ok None \/
  exists f : Q -> Q, slopes raw seas n 0 None = Ok (Some (map f (psums 0 raw))) /\ forall x, (f x == x / qsum raw * inject_Z (Qround_even n))%Q.
Proof.
  intros raw seas n o L H P S. unfold slopes. cbv zeta. pose proof (active_some raw seas L S) as Na. set (act := active raw seas) in *.
  assert (Ha : forall x, In x act -> Qfloor x = o) by (intros x I; apply H; apply active_sub with raw; exact I).
  rewrite (one_value (map Qfloor act) o); [|destruct act; [congruence|discriminate]|intros x I; apply in_map_iff in I; destruct I as (y & <- & I); apply Ha; exact I]. cbn [map qtop fold_left].
  destruct (Qeq_bool (season_length act o) 0) eqn:T; [left; reflexivity|]. right. apply Qeq_bool_neq in T. unfold add_season. rewrite (season_sums_one o raw seas 0 L H). rewrite somes_map.
  assert (Nr : psums 0 raw <> []) by (intros E; assert (X : List.length (psums 0 raw) = 0) by (rewrite E; reflexivity); rewrite psums_length in X; destruct raw; [unfold qsum in S; cbn in S; lra|discriminate]).
  assert (Tp : (qtop (psums 0 raw) == qsum raw)%Q) by (rewrite (top_last _ 0 Nr); [rewrite psums_last; ring|]; intros x I; apply (psums_mono raw 0 P x I)).
  destruct (Qltb 0 (qtop (psums 0 raw))) eqn:B; [|apply Qltb_false in B; exfalso; lra].
  set (g := inject_Z (Qround_even (season_goal act n 0 None (season_length act o) o))). assert (G : g = inject_Z (Qround_even n)).
  { unfold g. f_equal. apply Qround_even_compat. unfold season_goal. assert (Ln : (0 <= season_length act o)%Q).
    { unfold season_length. set (l := filter (in_season o) act). destruct l as [|x l'] eqn:El; [cbn; lra|]. assert (Nl : x :: l' <> []) by discriminate. destruct (qtop_spec _ Nl) as [_ A1]. destruct (qlow_spec _ Nl) as [A2 _]. specialize (A1 _ A2). lra. }
    destruct (Qltb (season_length act o) (0 / yr)) eqn:C; [apply Qltb_lt in C; exfalso; assert (Y : (0 / yr == 0)%Q) by reflexivity; rewrite Y in C; lra|]. field. exact T. }
  exists (fun x => x / qtop (psums 0 raw) * g + qtop (map (fun _ => 0%Q) raw))%Q. split.
  - do 2 f_equal. apply over_map. rewrite psums_length, map_length. reflexivity.
  - intros x. rewrite G, top_zero, Tp. ring.
Qed.

(** ** The whole of [optimize_ddf_times] *)
Lemma over_length : forall l b, List.length l = List.length b -> List.length (over l b) = List.length b.
Proof. induction l as [|[x|] l IH]; intros [|y b] L; try discriminate; [reflexivity| |]; cbn; rewrite IH; cbn in L; lia. Qed.
Lemma season_sums_length : forall s raw seas acc, List.length raw = List.length seas -> List.length (season_sums s acc raw seas) = List.length raw.
Proof. intros s. induction raw as [|r raw IH]; intros [|x seas] acc L; try discriminate; [reflexivity|]. cbn. destruct (in_season s x); cbn; rewrite IH; cbn in L; lia. Qed.
Lemma add_season_length : forall raw seas goal cum s, List.length raw = List.length seas -> List.length cum = List.length raw -> List.length (add_season raw seas goal cum s) = List.length raw.
Proof.
  intros raw seas goal cum s L C. unfold add_season. destruct (Qltb 0 (qtop (somes (season_sums s 0 raw seas)))); [|exact C]. rewrite over_length; [exact C|]. rewrite map_length, season_sums_length by exact L. symmetry. exact C.
Qed.
Lemma fold_season_length : forall raw seas goal l z, List.length raw = List.length seas -> List.length z = List.length raw -> List.length (fold_left (add_season raw seas goal) l z) = List.length raw.
Proof. intros raw seas goal. induction l as [|x l IH]; intros z L Z0; [exact Z0|]. cbn [fold_left]. apply IH; [exact L|]. apply add_season_length; assumption. Qed.
Lemma slopes_length : forall raw seas n m boost cum, List.length raw = List.length seas -> slopes raw seas n m boost = Ok (Some cum) -> List.length cum = List.length raw.
Proof.
  intros raw seas n m boost cum L H. unfold slopes in H. destruct (unique_sorted (map Qfloor (active raw seas))) as [|s ss]; [discriminate|]. cbv zeta in H. destruct (Qeq_bool (qtop (map (season_length (active raw seas)) (s :: ss))) 0); [discriminate|]. injection H as H.
  rewrite <- H. apply fold_season_length; [exact L|]. apply add_season_length; [exact L|apply map_length].
Qed.
Section OptProofs2.
Variable night : Q -> Z.
Variable ra start : Q.
Variable D : dset.
Variable grid : list gpt.
Notation U := (used night ra start D grid).
Notation seas := (season_at night ra start grid).
Definition is_free (n : nat) (u : Z) : bool := existsb (fun i => match nth_error (nights night grid) i with Some v => (v =? u)%Z && nth i (big_mask night D grid n) false | None => false end) (seq 0 (List.length grid)).
Lemma is_free_iff : forall n u, is_free n u = true <-> exists i g, nth_error grid i = Some g /\ night (g_mjd g) = u /\ nth i (big_mask night D grid n) false = true.
Proof.
  intros n u. unfold is_free. rewrite existsb_exists. split.
  - intros (i & _ & H). destruct (nth_error (nights night grid) i) as [v|] eqn:E; [|discriminate]. rewrite andb_true_iff, Z.eqb_eq in H. destruct H as [-> M]. unfold nights in E. rewrite nth_error_map in E. destruct (nth_error grid i) as [g|] eqn:Eg; [|discriminate]. cbn in E. injection E as E. exists i, g. repeat split; assumption.
  - intros (i & g & E & N & M). exists i. split; [apply in_seq; assert (i < List.length grid) by (apply nth_error_Some; congruence); lia|]. unfold nights. rewrite nth_error_map, E. cbn [option_map]. rewrite N, Z.eqb_refl, M. reflexivity.
Qed.
Definition scaled (n : nat) (cum : list Q) : list Q :=
  let possible := inject_Z (Z.of_nat (List.length (np_where (fun b => b) (map (is_free n) U)))) in
  if Qltb possible (qtop cum) then map (fun x => x / qtop cum * possible)%Q cum else cum.
Definition rates : list Q := map (rate D) (map seas U).
Lemma optimize_eq : optimize night ra start D grid =
  bind (mask_steps D grid) (fun n =>
  if Qltb 0 (qsum rates) then
    bind (slopes rates (map seas U) (d_n D) 0 (d_boost D)) (fun cum =>
    match cum with
    | None => Ok ([], None, map (fun _ => 0%Z) U)
    | Some cum => bind (match_cumulative (scaled n cum) (map (is_free n) U) true) (fun sched =>
        bind (collect (best_time night grid (big_mask night D grid n)) (map fst (filter (fun p => (snd p =? 1)%Z) (combine U sched)))) (fun mjds =>
        Ok (mjds, Some (scaled n cum), sched)))
    end)
  else Ok ([], Some [], [])).
Proof. destruct (table_nights night ra start D grid) as [A B]. unfold optimize, rates, qsum. cbv zeta. rewrite A, B. reflexivity. Qed.
Lemma rates_length : List.length rates = List.length (map seas U).
Proof. unfold rates. apply map_length. Qed.
Lemma scaled_length : forall n cum, List.length (scaled n cum) = List.length cum.
Proof. intros n cum. unfold scaled. destruct (Qltb _ _); [apply map_length|reflexivity]. Qed.
Lemma optimize_inv : forall mjds oc sched, optimize night ra start D grid = Ok (mjds, oc, sched) -> exists n, mask_steps D grid = Ok n /\
  (mjds = [] \/ exists base, (0 < qsum rates)%Q /\ slopes rates (map seas U) (d_n D) 0 (d_boost D) = Ok (Some base) /\ oc = Some (scaled n base) /\
    match_cumulative (scaled n base) (map (is_free n) U) true = Ok sched /\
    Forall2 (fun u t => best_time night grid (big_mask night D grid n) u = Ok t) (map fst (filter (fun p => (snd p =? 1)%Z) (combine U sched))) mjds).
Proof.
  intros mjds oc sched H. rewrite optimize_eq in H. destruct (mask_steps D grid) as [n|]; [|discriminate]. cbn [bind] in H. exists n. split; [reflexivity|]. destruct (Qltb 0 (qsum rates)) eqn:S; [|left; congruence]. apply Qltb_lt in S.
  destruct (slopes rates (map seas U) (d_n D) 0 (d_boost D)) as [[base|]|]; cbn [bind] in H; [|left; congruence|discriminate]. right. exists base. split; [exact S|]. split; [reflexivity|].
  destruct (match_cumulative (scaled n base) (map (is_free n) U) true) as [sc|] eqn:M; cbn [bind] in H; [|discriminate]. destruct (collect (best_time night grid (big_mask night D grid n)) (map fst (filter (fun p => (snd p =? 1)%Z) (combine U sc)))) as [ts|] eqn:C; cbn [bind] in H; [|discriminate].
  assert (ts = mjds /\ Some (scaled n base) = oc /\ sc = sched) as (-> & <- & ->) by (repeat split; congruence). split; [reflexivity|]. split; [reflexivity|]. apply collect_spec. exact C.
Qed.
(** Nights taken from a list with a 0/1 schedule. *)
Lemma taken_in : forall (l : list Z) sched u, In u (map fst (filter (fun p => (snd p =? 1)%Z) (combine l sched))) <-> exists k, nth_error l k = Some u /\ nth_error sched k = Some 1%Z.
Proof.
  induction l as [|x l IH]; intros [|s sched] u; cbn [combine filter map]; try (split; [contradiction|intros ([|k] & A & B); discriminate]).
  cbn [snd]. destruct (Z.eqb_spec s 1) as [->|N]; cbn [map fst In]; rewrite IH; split.
  - intros [->|(k & A & B)]; [exists 0|exists (S k)]; split; try reflexivity; assumption.
  - intros ([|k] & A & B); [left; cbn in A; congruence|right; exists k; split; assumption].
  - intros (k & A & B). exists (S k). split; assumption.
  - intros ([|k] & A & B); [cbn in B; congruence|exists k; split; assumption].
Qed.
Lemma taken_sorted : forall (l : list Z) sched, StronglySorted Z.lt l -> StronglySorted Z.lt (map fst (filter (fun p => (snd p =? 1)%Z) (combine l sched))).
Proof.
  induction l as [|x l IH]; intros [|s sched] S; cbn [combine filter map]; try constructor. inversion S as [|x' l' S1 S2]; subst. cbn [snd]. destruct (s =? 1)%Z; [|apply IH; exact S1]. cbn [map fst]. constructor; [apply IH; exact S1|]. apply Forall_forall. intros y I. apply taken_in in I. destruct I as (k & A & _). rewrite Forall_forall in S2. apply S2. apply nth_error_In with k. exact A.
Qed.
Lemma taken_count : forall (l : list Z) sched, List.length l = List.length sched -> (forall j, nth j sched 0%Z = 0%Z \/ nth j sched 0%Z = 1%Z) ->
  Z.of_nat (List.length (map fst (filter (fun p => (snd p =? 1)%Z) (combine l sched)))) = zsum sched.
Proof.
  induction l as [|x l IH]; intros [|s sched] L H; try discriminate; [reflexivity|]. cbn [combine filter snd]. assert (H' : forall j, nth j sched 0%Z = 0%Z \/ nth j sched 0%Z = 1%Z) by (intros j; apply (H (S j))). specialize (IH sched ltac:(cbn in L; lia) H'). destruct (H 0) as [E|E]; cbn [nth] in E; subst s; cbn [Z.eqb Pos.eqb map List.length zsum fold_right] in *; unfold zsum in *; lia.
Qed.
Lemma free_taken : forall n base sched u, List.length base = List.length U -> match_cumulative (scaled n base) (map (is_free n) U) true = Ok sched ->
  In u (map fst (filter (fun p => (snd p =? 1)%Z) (combine U sched))) -> In u U /\ is_free n u = true.
Proof.
  intros n base sched u L M I. apply taken_in in I. destruct I as (k & A & B). split; [apply nth_error_In with k; exact A|]. assert (L2 : List.length (map (is_free n) U) = List.length (scaled n base)) by (rewrite map_length, scaled_length; symmetry; exact L). destruct (match_entries _ _ _ L2 M k) as [E|[_ E]]; apply nth_error_nth with (d := 0%Z) in B; [congruence|].
  assert (X : nth_error (map (is_free n) U) k = Some (is_free n u)) by (rewrite nth_error_map, A; reflexivity). apply nth_error_nth with (d := false) in X. congruence.
Qed.
Lemma taken_total : forall n base sched, List.length base = List.length U -> match_cumulative (scaled n base) (map (is_free n) U) true = Ok sched ->
  exists ts, collect (best_time night grid (big_mask night D grid n)) (map fst (filter (fun p => (snd p =? 1)%Z) (combine U sched))) = Ok ts.
Proof.
  intros n base sched L M. apply collect_total. intros u I. destruct (free_taken n base sched u L M I) as [_ F]. apply is_free_iff in F. destruct F as (i & g & E & N & B). apply best_total with i g; try assumption. apply point_ok_finite with D (night (g_mjd g)). apply mask_safe in B. apply (proj2 B i g); [lia|exact E].
Qed.
Lemma possible_count : forall n, List.length (np_where (fun b => b) (map (is_free n) U)) = List.length (filter (is_free n) U).
Proof.
  intros n. unfold np_where. generalize 0. induction U as [|u l IH]; intros k; cbn; [reflexivity|]. destruct (is_free n u); cbn; rewrite IH; reflexivity.
Qed.
(** One season: the curve is in proportion to the rates, up to the goal or the number of
    nights with a safe time. *)
Definition most (n : nat) : Z := Z.min (Qround_even (d_n D)) (Z.of_nat (List.length (filter (is_free n) U))).
Lemma only_curve : forall n o base, d_only D = Some o -> d_boost D = None -> (0 <= d_n D)%Q -> (forall r, In r rates -> (0 <= r)%Q) -> (0 < qsum rates)%Q ->
  slopes rates (map seas U) (d_n D) 0 (d_boost D) = Ok (Some base) -> List.length base = List.length U /\
  exists c, (0 <= c)%Q /\ (c * qsum rates == inject_Z (most n))%Q /\ forall k, k < List.length U -> (nth k (scaled n base) 0 == c * nth k (psums 0 rates) 0)%Q.
Proof.
  intros n o base Ho Hb Hn Hr Hs Hsl. assert (L : List.length base = List.length U) by (rewrite (slopes_length _ _ _ _ _ _ rates_length Hsl); unfold rates; rewrite !map_length; reflexivity). split; [exact L|]. rewrite Hb in Hsl.
  destruct (slopes_one rates (map seas U) (d_n D) o rates_length) as [E|(f & E & F)]; try assumption.
  { intros x I. apply in_map_iff in I. destruct I as (u & <- & I). apply used_in in I. destruct I as [_ I]. rewrite Ho in I. cbn in I. unfold in_season in I. apply Z.eqb_eq in I. exact I. }
  { congruence. }
  assert (Eb : base = map f (psums 0 rates)) by congruence. clear E Hsl. set (N := inject_Z (Qround_even (d_n D))) in *. assert (N0 : (0 <= N)%Q).
  { unfold N. change 0%Q with (inject_Z 0). rewrite <- Zle_Qle. pose proof (round_even_mono 0 (d_n D) Hn) as X. change (Qround_even 0) with 0%Z in X. exact X. }
  assert (Lp : List.length (psums 0 rates) = List.length U) by (rewrite psums_length; unfold rates; rewrite !map_length; reflexivity).
  assert (Ne : psums 0 rates <> []) by (intros X; assert (Y : List.length rates = 0) by (rewrite <- (psums_length rates 0), X; reflexivity); destruct rates; [unfold qsum in Hs; cbn in Hs; lra|discriminate]).
  assert (Nb : forall k, k < List.length U -> (nth k base 0 == nth k (psums 0 rates) 0 / qsum rates * N)%Q) by (intros k Lk; rewrite Eb; rewrite (nth_indep _ 0%Q (f 0%Q)) by (rewrite map_length, Lp; exact Lk); rewrite map_nth; apply F).
  assert (Tb : (qtop base == N)%Q).
  { apply Qle_antisym.
    - destruct (qtop_spec base) as [A _]; [rewrite Eb; destruct (psums 0 rates); [congruence|discriminate]|]. rewrite Eb in A at 2. apply in_map_iff in A. destruct A as (x & Ex & I). rewrite <- Ex, F. destruct (psums_mono rates 0 Hr x I) as [B1 B2]. rewrite psums_last in B2.
      assert (x / qsum rates <= 1)%Q by (apply Qle_shift_div_r; [exact Hs|lra]). assert (x / qsum rates * N <= 1 * N)%Q by (apply Qmult_le_compat_r; assumption). lra.
    - destruct (qtop_spec base) as [_ A]; [rewrite Eb; destruct (psums 0 rates); [congruence|discriminate]|]. assert (A2 : (f (last (psums 0 rates) 0) <= qtop base)%Q) by (apply A; rewrite Eb; apply in_map; apply last_in; exact Ne). rewrite F, psums_last in A2. assert (X : (N == (0 + qsum rates) / qsum rates * N)%Q) by (field; lra). rewrite X. exact A2. }
  unfold scaled, most. rewrite possible_count. set (P := Z.of_nat (List.length (filter (is_free n) U))). destruct (Qltb (inject_Z P) (qtop base)) eqn:B.
  - apply Qltb_lt in B. rewrite Tb in B. assert (BZ : (P < Qround_even (d_n D))%Z) by (rewrite Zlt_Qlt; exact B). rewrite Z.min_r by lia. assert (P0 : (0 <= inject_Z P)%Q) by (change 0%Q with (inject_Z 0); rewrite <- Zle_Qle; unfold P; lia). exists (inject_Z P / qsum rates)%Q. split; [apply Qle_shift_div_l; [exact Hs|lra]|]. split; [field; lra|].
    intros k Lk. set (h := fun x => (x / qtop base * inject_Z P)%Q). rewrite (nth_indep _ 0%Q (h 0%Q)) by (rewrite map_length, L; exact Lk). rewrite (map_nth h). unfold h. rewrite (Nb k Lk), Tb. field. split; lra.
  - apply Qltb_false in B. rewrite Tb in B. assert (BZ : (Qround_even (d_n D) <= P)%Z) by (rewrite Zle_Qle; exact B). rewrite Z.min_l by lia. exists (N / qsum rates)%Q. split; [apply Qle_shift_div_l; [exact Hs|lra]|]. split; [unfold N; field; lra|]. intros k Lk. rewrite (Nb k Lk). field. lra.
Qed.
Lemma last_nth : forall l : list Q, l <> [] -> last l 0%Q = nth (List.length l - 1) l 0%Q.
Proof.
  induction l as [|a l IH]; intros N; [congruence|]. destruct l as [|b l]; [reflexivity|]. change (last (a :: b :: l) 0%Q) with (last (b :: l) 0%Q). rewrite IH by discriminate. cbn [List.length].
  replace (S (S (List.length l)) - 1) with (S (S (List.length l) - 1)) by lia. reflexivity.
Qed.
Lemma only_steps : forall n o base, d_only D = Some o -> d_boost D = None -> (0 <= d_n D)%Q -> (forall r, In r rates -> (0 <= r)%Q) -> (0 < qsum rates)%Q ->
  slopes rates (map seas U) (d_n D) 0 (d_boost D) = Ok (Some base) ->
  (Z.of_nat (List.length (step_points (scaled n base))) <= most n)%Z /\
  ((nth 0 (scaled n base) 0 <= 1 # 2)%Q -> (forall k, S k < List.length (scaled n base) -> (nth (S k) (scaled n base) 0 < nth k (scaled n base) 0 + 1)%Q) -> Z.of_nat (List.length (step_points (scaled n base))) = most n).
Proof.
  intros n o base Ho Hb Hn Hr Hs Hsl. destruct (only_curve n o base Ho Hb Hn Hr Hs Hsl) as (L & c & C0 & C1 & C2). assert (Ls := scaled_length n base). assert (Lr : List.length rates = List.length U) by (unfold rates; rewrite !map_length; reflexivity).
  assert (M : forall k, S k < List.length (scaled n base) -> (nth k (scaled n base) 0 <= nth (S k) (scaled n base) 0)%Q).
  { intros k Lk. rewrite (C2 k ltac:(lia)), (C2 (S k) ltac:(lia)), psums_step by lia. assert (0 <= nth (S k) rates 0)%Q by (apply Hr; apply nth_In; lia). assert (0 <= c * nth (S k) rates 0)%Q by (apply Qmult_le_0_compat; assumption). lra. }
  destruct (scaled n base) as [|x r] eqn:E; [cbn in Ls; exfalso; destruct rates; [unfold qsum in Hs; cbn in Hs; lra|cbn in Lr; lia]|].
  assert (La : (last (x :: r) 0 == inject_Z (most n))%Q).
  { assert (Lk := last_nth).
    rewrite Lk by discriminate. rewrite C2 by (cbn [List.length] in *; lia). rewrite <- C1. apply Qmult_comp; [reflexivity|]. assert (Ne : psums 0 rates <> []) by (intros X; assert (Y : List.length rates = 0) by (rewrite <- (psums_length rates 0), X; reflexivity); cbn [List.length] in *; lia). replace (List.length (x :: r) - 1) with (List.length (psums 0 rates) - 1) by (rewrite psums_length; lia). rewrite <- Lk by exact Ne. rewrite psums_last. ring. }
  assert (X0 : (0 <= x)%Q). { pose proof (C2 0 ltac:(cbn [List.length] in *; lia)) as X. cbn [nth] in X. rewrite X. apply Qmult_le_0_compat; [exact C0|]. destruct rates as [|y rs]; [cbn [List.length] in *; lia|]. cbn. specialize (Hr y (or_introl eq_refl)). lra. }
  assert (R0 : (0 <= Qround_even x)%Z) by (pose proof (round_even_mono 0 x X0) as X; exact X). assert (RL : Qround_even (last (x :: r) 0%Q) = most n) by (rewrite (Qround_even_compat _ _ La); clear; assert (X := round_even_bounds (inject_Z (most n))); destruct X as [A B]; assert (A' : (inject_Z (most n) < inject_Z (Qround_even (inject_Z (most n)) + 1))%Q) by (rewrite inject_Z_plus; change (inject_Z 1) with 1%Q; lra); assert (B' : (inject_Z (Qround_even (inject_Z (most n))) < inject_Z (most n + 1))%Q) by (rewrite inject_Z_plus; change (inject_Z 1) with 1%Q; lra); rewrite <- Zlt_Qlt in A', B'; lia).
  split.
  - pose proof (steps_le x r M) as X. lia.
  - intros H0 H1. cbn [nth] in H0. assert (R1 : (Qround_even x <= 0)%Z) by (pose proof (round_even_mono x (1 # 2) H0) as X; exact X). rewrite (steps_eq x r); [lia|]. intros k Lk. split; [apply M; exact Lk|apply H1; exact Lk].
Qed.
Lemma only_total : forall n o, mask_steps D grid = Ok n -> d_only D = Some o -> d_boost D = None -> (0 <= d_n D)%Q -> (0 <= d_rate D)%Q -> exists r, optimize night ra start D grid = Ok r.
Proof.
  intros n o Hm Ho Hb Hn Hd. assert (Hr : forall r, In r rates -> (0 <= r)%Q).
  { intros r I. unfold rates in I. apply in_map_iff in I. destruct I as (s & <- & _). unfold rate. destruct (d_early D); repeat match goal with |- context [if ?b then _ else _] => destruct b end; lra. }
  rewrite optimize_eq, Hm. cbn [bind]. destruct (Qltb 0 (qsum rates)) eqn:S; [|eexists; reflexivity]. apply Qltb_lt in S.
  destruct (slopes rates (map seas U) (d_n D) 0 (d_boost D)) as [[base|]|] eqn:Sl; cbn [bind]; [|eexists; reflexivity|].
  - destruct (only_steps n o base Ho Hb Hn Hr S Sl) as [A _]. destruct (only_curve n o base Ho Hb Hn Hr S Sl) as (L & _). assert (L2 : List.length (map (is_free n) U) = List.length (scaled n base)) by (rewrite map_length, scaled_length; symmetry; exact L).
    destruct (proj2 (match_total _ _ L2)) as [sc Es]; [rewrite possible_count; unfold most in A; lia|]. rewrite Es. cbn [bind]. destruct (taken_total n base sc L Es) as [ts Et]. rewrite Et. cbn [bind]. eexists. reflexivity.
  - exfalso. rewrite Hb in Sl. destruct (slopes_one rates (map seas U) (d_n D) o rates_length) as [E|(f & E & _)]; try assumption; try congruence. intros x I. apply in_map_iff in I. destruct I as (u & <- & I). apply used_in in I. destruct I as [_ I]. rewrite Ho in I. cbn in I. unfold in_season in I. apply Z.eqb_eq in I. exact I.
Qed.
End OptProofs2.
