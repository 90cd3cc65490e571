(** Proofs about downtimes made and looked up. *)
From Coq Require Import List ZArith QArith Bool Lia Lqa Permutation.
From Verif Require Import Base Bisect GateLoop_proofs SiteData_proofs DownGen.
Import ListNotations.
Open Scope nat_scope.

(** Events with at least one night between them, from night [lo] on. *)
Fixpoint spaced (lo len : nat) (l : list (nat * kind)) : Prop :=
  match l with
  | [] => True
  | (n, k) :: r => lo <= n < len /\ k <> Year1 /\ spaced (n + nights_lost k + 1) len r
  end.
Lemma spaced_weak : forall len l a b, a <= b -> spaced b len l -> spaced a len l.
Proof. intros len [|[n k] r] a b H; simpl; [auto|]. intros (A & B & C). repeat split; auto; lia. Qed.
Lemma events_ok : forall fuel u k night len, len - night < fuel -> exists l, events fuel u k night len = Ok l /\ spaced night len l.
Proof.
  induction fuel as [|f IH]; intros u k night len H; [lia|]. cbn [events].
  destruct (Nat.ltb_spec night len) as [L|L]; [|exists []; split; [reflexivity|exact I]].
  assert (Go : forall k' n' kd, n' = night + nights_lost kd + 1 \/ n' = night + nights_lost kd + 2 -> kd <> Year1 ->
    exists l, bind (events f u k' n' len) (fun r => Ok ((night, kd) :: r)) = Ok l /\ spaced night len l).
  { intros k' n' kd E Y. destruct (IH u k' n' len ltac:(lia)) as (l & El & Sl). rewrite El. cbn [bind]. exists ((night, kd) :: l).
    split; [reflexivity|]. cbn [spaced]. repeat split; auto. apply (spaced_weak _ _ _ n'); [lia|exact Sl]. }
  destruct (Qltb (u k) _); [apply Go; [cbn [nights_lost]; lia|discriminate]|].
  destruct (Qltb (u (k + 1)) _); [apply Go; [cbn [nights_lost]; lia|discriminate]|].
  destruct (Qltb (u (k + 2)) _); [apply Go; [cbn [nights_lost]; lia|discriminate]|].
  destruct (Qltb (u (k + 3)) _); [apply Go; [cbn [nights_lost]; lia|discriminate]|].
  destruct (IH u (k + 4) (night + 1) len ltac:(lia)) as (l & El & Sl). exists l. split; [exact El|]. apply (spaced_weak _ _ _ (night + 1)); [lia|exact Sl].
Qed.
Lemma spaced_in : forall len l lo e, spaced lo len l -> In e l -> lo <= fst e < len /\ snd e <> Year1.
Proof.
  induction l as [|[n k] r IH]; intros lo e S H; [contradiction|]. cbn [spaced] in S. destruct S as (A & B & C).
  destruct H as [H|H]; [subst; simpl; auto|]. destruct (IH _ _ C H) as [D E]. split; [lia|exact E].
Qed.
Lemma spaced_pair : forall len l lo i j a b, spaced lo len l -> i < j -> nth_error l i = Some a -> nth_error l j = Some b ->
  fst a + nights_lost (snd a) + 1 <= fst b.
Proof.
  induction l as [|[n k] r IH]; intros lo i j a b S H Ha Hb; [destruct i; discriminate|]. cbn [spaced] in S. destruct S as (A & B & C).
  destruct j as [|j]; [lia|]. cbn [nth_error] in Hb. destruct i as [|i].
  - cbn [nth_error] in Ha. inversion Ha; subst a. cbn [fst snd]. destruct (spaced_in _ _ _ _ C (nth_error_In _ _ Hb)) as [D _]. lia.
  - cbn [nth_error] in Ha. eapply (IH _ i j); eauto. lia.
Qed.
Definition lost (l : list (nat * kind)) : nat := fold_right (fun e t => nights_lost (snd e) + t) 0 l.
Lemma spaced_lost : forall len l lo, spaced lo len l -> l <> [] -> lo + lost l <= len + 13.
Proof.
  induction l as [|[n k] r IH]; intros lo S N; [contradiction|]. cbn [spaced] in S. destruct S as (A & B & C). cbn [lost fold_right snd].
  fold (lost r). destruct r as [|e r'].
  - cbn. destruct k; cbn; lia.
  - specialize (IH _ C ltac:(discriminate)). lia.
Qed.
Lemma total_eq : forall night0 l t, (fold_left (fun t d => (t + (d_end d - d_start d))%Q) (map (row_of night0) l) t == t + inject_Z (Z.of_nat (lost l)))%Q.
Proof.
  induction l as [|[n k] r IH]; intros t; cbn [map fold_left].
  - cbn. ring.
  - rewrite IH. cbn [lost fold_right snd row_of d_start d_end fst]. fold (lost r). rewrite Nat2Z.inj_add, inject_Z_plus. ring.
Qed.

(** Draws not below the greatest chance pass [m] nights without an event. *)
Lemma events_quiet : forall m fuel (u : nat -> Q) (k night len : nat), night + m <= len -> (forall j, j < 4 * m -> Qle (137 # 10000) (u (k + j))) ->
  events (m + fuel) u k night len = events fuel u (k + 4 * m) (night + m) len.
Proof.
  induction m as [|m IH]; intros fuel u k night len H Q.
  - rewrite Nat.mul_0_r, !Nat.add_0_r. reflexivity.
  - cbn [Nat.add]. cbn [events]. destruct (Nat.ltb_spec night len); [|lia].
    pose proof (Q 0 ltac:(lia)) as Q0. pose proof (Q 1 ltac:(lia)) as Q1. pose proof (Q 2 ltac:(lia)) as Q2. pose proof (Q 3 ltac:(lia)) as Q3.
    rewrite Nat.add_0_r in Q0.
    replace (Qltb (u k) (chance Catastrophic)) with false by (symmetry; apply Qltb_false; cbn [chance]; lra).
    replace (Qltb (u (k + 1)) (chance Major)) with false by (symmetry; apply Qltb_false; cbn [chance]; lra).
    replace (Qltb (u (k + 2)) (chance Intermediate)) with false by (symmetry; apply Qltb_false; cbn [chance]; lra).
    replace (Qltb (u (k + 3)) (chance Minor)) with false by (symmetry; apply Qltb_false; cbn [chance]; lra).
    rewrite IH; [|lia|].
    + f_equal; lia.
    + intros j Hj. replace (k + 4 + j) with (k + (4 + j)) by lia. apply Q. lia.
Qed.

(** ** Lookup *)
Definition separated (l : list down) : Prop :=
  (forall d, In d l -> (d_start d < d_end d)%Q) /\
  (forall i j a b, i < j -> nth_error l i = Some a -> nth_error l j = Some b -> (d_end a <= d_start b)%Q).

Lemma ordered_parted_le : forall l t, ordered l -> parted (fun x => Qle_bool x t) l.
Proof.
  intros l t O i j x y Hij Hx Hy E. apply Qle_bool_iff in E. apply Qle_bool_iff. specialize (O i j x y Hij Hx Hy). lra.
Qed.
Lemma sep_starts : forall l, separated l -> ordered (map d_start l).
Proof.
  intros l [P S] i j a b Hij Ha Hb. rewrite nth_error_map in Ha, Hb.
  destruct (nth_error l i) as [x|] eqn:E1; [|discriminate]. destruct (nth_error l j) as [y|] eqn:E2; [|discriminate].
  inversion Ha; inversion Hb; subst. destruct (Nat.eq_dec i j) as [E|E]; [subst; rewrite E1 in E2; inversion E2; subst; lra|].
  specialize (S i j x y ltac:(lia) E1 E2). specialize (P x (nth_error_In _ _ E1)). lra.
Qed.
Lemma sep_ends : forall l, separated l -> ordered (map d_end l).
Proof.
  intros l [P S] i j a b Hij Ha Hb. rewrite nth_error_map in Ha, Hb.
  destruct (nth_error l i) as [x|] eqn:E1; [|discriminate]. destruct (nth_error l j) as [y|] eqn:E2; [|discriminate].
  inversion Ha; inversion Hb; subst. destruct (Nat.eq_dec i j) as [E|E]; [subst; rewrite E1 in E2; inversion E2; subst; lra|].
  specialize (S i j x y ltac:(lia) E1 E2). specialize (P y (nth_error_In _ _ E2)). lra.
Qed.
Lemma ss_map : forall (f : down -> Q) l t, ordered (map f l) ->
  let k := searchsorted (fun x => Qle_bool x t) 0%Q (map f l) in
  k <= length l /\ (forall i d, i < k -> nth_error l i = Some d -> (f d <= t)%Q) /\ (forall i d, k <= i -> nth_error l i = Some d -> (t < f d)%Q).
Proof.
  intros f l t O. destruct (searchsorted_ok _ 0%Q _ (ordered_parted_le _ t O)) as (R & R1 & R2). rewrite map_length in R. cbv zeta.
  split; [exact R|]. split.
  - intros i d H E. apply Qle_bool_iff. apply (R1 i); [exact H|]. rewrite nth_error_map, E. reflexivity.
  - intros i d H E. apply Qle_bool_false. apply (R2 i); [exact H|]. rewrite nth_error_map, E. reflexivity.
Qed.
Lemma skip_filter : forall A (p : A -> bool) l k, (forall i d, i < k -> nth_error l i = Some d -> p d = false) ->
  (forall i d, k <= i -> nth_error l i = Some d -> p d = true) -> skipn k l = filter p l.
Proof.
  intros A p. induction l as [|x r IH]; intros k H1 H2; [destruct k; reflexivity|]. destruct k as [|k].
  - cbn [skipn filter]. rewrite (H2 0 x) by (auto; lia). f_equal. rewrite <- (IH 0); [reflexivity|intros; lia|].
    intros i d _ E. apply (H2 (S i)); [lia|exact E].
  - cbn [skipn filter]. rewrite (H1 0 x) by (auto; lia). apply IH.
    + intros i d Hi E. apply (H1 (S i)); [lia|exact E].
    + intros i d Hi E. apply (H2 (S i)); [lia|exact E].
Qed.

Definition holds (d : down) (t : Q) : Prop := (d_start d <= t < d_end d)%Q.
Lemma status_spec : forall l t, separated l -> exists cur,
  status l t = Ok (cur, filter (fun d => Qltb t (d_start d)) l) /\ forall d, cur = Some d <-> In d l /\ holds d t.
Proof.
  intros l t S. unfold status.
  destruct (ss_map d_start l t (sep_starts l S)) as (A & A1 & A2). destruct (ss_map d_end l t (sep_ends l S)) as (B & B1 & B2).
  set (ns := searchsorted (fun s => Qle_bool s t) 0%Q (map d_start l)) in *. set (ne := searchsorted (fun s => Qle_bool s t) 0%Q (map d_end l)) in *.
  clearbody ns ne.
  assert (F : skipn ns l = filter (fun d => Qltb t (d_start d)) l).
  { apply skip_filter.
    - intros i d H E. apply Qltb_false. eapply A1; eauto.
    - intros i d H E. apply Qltb_lt. eapply A2; eauto. }
  rewrite F. destruct S as [P S].
  assert (Idx : forall d, In d l -> holds d t -> ne < ns /\ nth_error l ne = Some d).
  { intros d Hd [H1 H2]. apply In_nth_error in Hd. destruct Hd as [i Hi].
    assert (i < ns). { destruct (le_lt_dec ns i) as [C|C]; [|exact C]. specialize (A2 i d C Hi). lra. }
    assert (ne <= i). { destruct (le_lt_dec ne i) as [C|C]; [exact C|]. specialize (B1 i d C Hi). lra. }
    split; [lia|]. destruct (Nat.eq_dec ne i) as [E|E]; [subst; exact Hi|]. exfalso.
    destruct (nth_error l ne) as [e|] eqn:En; [|apply nth_error_None in En; lia].
    specialize (B2 ne e (le_n _) En). specialize (S ne i e d ltac:(lia) En Hi). lra. }
  destruct (Nat.ltb_spec ne ns) as [L|L].
  - destruct (nth_error l ne) as [c|] eqn:E; [|apply nth_error_None in E; lia].
    exists (Some c). split; [reflexivity|]. intros d. split.
    + intros H. inversion H; subst. split; [eapply nth_error_In; eauto|]. split; [apply (A1 ne d L E)|apply (B2 ne d (le_n _) E)].
    + intros [Hd Hh]. destruct (Idx d Hd Hh) as [_ G]. congruence.
  - exists None. split; [reflexivity|]. intros d. split; [discriminate|]. intros [Hd Hh]. destruct (Idx d Hd Hh). lia.
Qed.

(** The next start, [self.downtime[next_start]]. *)
Lemma next_spec : forall l t, ordered (map d_start l) ->
  let k := searchsorted (fun x => Qle_bool x t) 0%Q (map d_start l) in
  (forall d, nth_error l k = Some d -> In d l /\ (t < d_start d)%Q /\ forall d', In d' l -> (t < d_start d')%Q -> (d_start d <= d_start d')%Q) /\
  (nth_error l k = None <-> forall d, In d l -> (d_start d <= t)%Q).
Proof.
  intros l t O. destruct (ss_map d_start l t O) as (A & A1 & A2). cbv zeta.
  set (k := searchsorted (fun x => Qle_bool x t) 0%Q (map d_start l)) in *. clearbody k. split.
  - intros d E. split; [eapply nth_error_In; eauto|]. split; [apply (A2 k d (le_n _) E)|]. intros d' H G.
    apply In_nth_error in H. destruct H as [j Hj]. destruct (le_lt_dec k j) as [C|C].
    + apply (O k j); [exact C|rewrite nth_error_map, E; reflexivity|rewrite nth_error_map, Hj; reflexivity].
    + specialize (A1 j d' C Hj). lra.
  - split.
    + intros E d H. apply In_nth_error in H. destruct H as [j Hj]. apply nth_error_None in E.
      assert (j < length l) by (apply nth_error_Some; congruence). apply (A1 j d); [lia|exact Hj].
    + intros H. destruct (nth_error l k) as [d|] eqn:E; [|reflexivity]. specialize (A2 k d (le_n _) E). specialize (H d (nth_error_In _ _ E)). lra.
Qed.

(** ** Year one *)
Lemma y1_night_ok : forall e n s r w d, (s < r)%Q -> (0 <= r_when w <= 1)%Q -> y1_night e n s r w = Some d ->
  n < e /\ (s <= d_start d)%Q /\ (d_start d < d_end d)%Q /\ (d_end d <= r)%Q /\ d_act d = Year1 /\
  ((1 # 24 <= d_end d - d_start d)%Q \/ (d_start d = s /\ d_end d = r /\ (r - s < 1 # 24)%Q)).
Proof.
  intros e n s r w d H W E. unfold y1_night in E. destruct (Nat.ltb_spec n e) as [L|L]; [|discriminate].
  destruct (Qle_bool (r_prob w) _); [|discriminate].
  set (hours := ((r - s) * 24)%Q) in *.
  assert (Hh : (hours == (r - s) * 24)%Q) by reflexivity. clearbody hours.
  set (p1 := if Qle_bool hours (r_hours w) then hours else r_hours w) in *.
  assert (Hp1 : (p1 <= hours)%Q) by (unfold p1; destruct (Qle_bool hours (r_hours w)) eqn:X; [lra|apply Qle_bool_false in X; lra]). clearbody p1.
  set (p := if Qle_bool p1 1 then 1%Q else p1) in *.
  assert (Hp : (1 <= p)%Q /\ ((p <= hours)%Q \/ (p == 1)%Q)).
  { unfold p. destruct (Qle_bool p1 1) eqn:X; [split; [lra|right; reflexivity]|]. apply Qle_bool_false in X. split; lra. } clearbody p.
  destruct Hp as [Hp Hp2].
  assert (Dv : forall x, (x / 24 == x * (1 # 24))%Q) by (intros x; field).
  destruct (Qle_bool (hours - p) 0) eqn:T; inversion E; subst d; cbn [d_start d_end d_act].
  - apply Qle_bool_iff in T. repeat split; auto; try lra.
    destruct (Qlt_le_dec (r - s) (1 # 24)) as [C|C]; [right; auto|left; exact C].
  - apply Qle_bool_false in T.
    assert (W0 : (0 <= r_when w * ((hours - p) / 24))%Q) by (apply Qmult_le_0_compat; [lra|rewrite Dv; lra]).
    assert (W1 : (r_when w * ((hours - p) / 24) <= 1 * ((hours - p) / 24))%Q) by (apply Qmult_le_compat_r; [lra|rewrite Dv; lra]).
    set (q := (r_when w * ((hours - p) / 24))%Q) in *. clearbody q. rewrite Dv in W1.
    pose proof (Dv p) as Dp. set (ph := (p / 24)%Q) in *. clearbody ph.
    repeat split; auto; try lra.
Qed.
Lemma y1_from_in : forall e r nights n d, (forall s x, In (s, x) nights -> (s < x)%Q) -> (forall k, (0 <= r_when (r k) <= 1)%Q) -> In d (y1_from e n nights r) ->
  exists m s x, nth_error nights m = Some (s, x) /\ n + m < e /\ (s <= d_start d)%Q /\ (d_start d < d_end d)%Q /\ (d_end d <= x)%Q /\ d_act d = Year1 /\
    ((1 # 24 <= d_end d - d_start d)%Q \/ (d_start d = s /\ d_end d = x /\ (x - s < 1 # 24)%Q)).
Proof.
  intros e r. induction nights as [|[s x] rest IH]; intros n d P W H; [contradiction|]. cbn [y1_from] in H.
  assert (Rest : In d (y1_from e (S n) rest r) -> exists m s0 x0, nth_error ((s, x) :: rest) m = Some (s0, x0) /\ n + m < e /\ (s0 <= d_start d)%Q /\ (d_start d < d_end d)%Q /\ (d_end d <= x0)%Q /\ d_act d = Year1 /\
    ((1 # 24 <= d_end d - d_start d)%Q \/ (d_start d = s0 /\ d_end d = x0 /\ (x0 - s0 < 1 # 24)%Q))).
  { intros G. destruct (IH (S n) d) as (m & s0 & x0 & A & B & C); [intros; apply P; right; assumption|exact W|exact G|].
    exists (S m), s0, x0. split; [exact A|]. split; [lia|exact C]. }
  destruct (y1_night e n s x (r n)) as [d0|] eqn:E; [|apply Rest; exact H]. destruct H as [H|H]; [|apply Rest; exact H]. subst d0.
  destruct (y1_night_ok _ _ _ _ _ _ (P s x (or_introl eq_refl)) (W n) E) as (A & B). exists 0, s, x. split; [reflexivity|]. split; [lia|exact B].
Qed.
(** Nights in order and apart give downtimes in order and apart. *)
Lemma y1_from_sep : forall e r nights n, (forall s x, In (s, x) nights -> (s < x)%Q) -> (forall k, (0 <= r_when (r k) <= 1)%Q) ->
  (forall i j a b, i < j -> nth_error nights i = Some a -> nth_error nights j = Some b -> (snd a <= fst b)%Q) ->
  separated (y1_from e n nights r).
Proof.
  intros e r. induction nights as [|[s x] rest IH]; intros n P W S; cbn [y1_from].
  - split; [intros d []|]. intros i j a b _ Ha. destruct i; discriminate.
  - assert (Pr : forall s0 x0, In (s0, x0) rest -> (s0 < x0)%Q) by (intros; apply P; right; assumption).
    assert (R : separated (y1_from e (Datatypes.S n) rest r)).
    { apply IH; [exact Pr|exact W|]. intros i j a b Hij Ha Hb. apply (S (Datatypes.S i) (Datatypes.S j)); [lia|exact Ha|exact Hb]. }
    destruct (y1_night e n s x (r n)) as [d0|] eqn:E; [|exact R].
    destruct (y1_night_ok _ _ _ _ _ _ (P s x (or_introl eq_refl)) (W n) E) as (A & B & C & D & _). destruct R as [R1 R2]. split.
    + intros d [H|H]; [subst; exact C|apply R1; exact H].
    + intros i j a b Hij Ha Hb. destruct j as [|j]; [lia|]. cbn [nth_error] in Hb. destruct i as [|i]; cbn [nth_error] in Ha.
      * inversion Ha; subst a. destruct (y1_from_in e r rest (Datatypes.S n) b Pr W (nth_error_In _ _ Hb)) as (m & s0 & x0 & M & _ & M2 & _).
        specialize (S 0 (Datatypes.S m) (s, x) (s0, x0) ltac:(lia) eq_refl M). cbn [fst snd] in S. lra.
      * apply (R2 i j); [lia|exact Ha|exact Hb].
Qed.
Lemma s_insert_perm : forall x l, Permutation (s_insert x l) (x :: l).
Proof.
  induction l as [|y r IH]; simpl; [reflexivity|]. destruct (Qle_bool (d_start x) (d_start y)); [reflexivity|]. rewrite IH. apply perm_swap.
Qed.
Lemma s_sort_perm : forall l, Permutation (s_sort l) l.
Proof. induction l as [|x r IH]; simpl; [constructor|]. rewrite s_insert_perm. constructor. exact IH. Qed.
Lemma s_insert_asc : forall x l, ordered (map d_start l) -> ordered (map d_start (s_insert x l)).
Proof.
  induction l as [|y r IH]; intros O; simpl.
  - apply ordered_cons; [intros z []|exact O].
  - cbn [map] in O. destruct (ordered_inv _ _ O) as [O1 O2]. destruct (Qle_bool (d_start x) (d_start y)) eqn:E; cbn [map].
    + apply ordered_cons; [|exact O]. apply Qle_bool_iff in E. intros z [Hz|Hz]; [subst; exact E|]. specialize (O1 _ Hz). lra.
    + apply ordered_cons; [|apply IH; exact O2]. apply Qle_bool_false in E. intros z Hz.
      apply (Permutation_in _ (Permutation_map d_start (s_insert_perm x r))) in Hz. cbn [map] in Hz. destruct Hz as [Hz|Hz]; [subst; lra|apply O1; exact Hz].
Qed.
Lemma s_sort_asc : forall l, ordered (map d_start (s_sort l)).
Proof.
  induction l as [|x r IH]; simpl.
  - intros i j a b _ Ha. destruct i; discriminate.
  - apply s_insert_asc. exact IH.
Qed.
