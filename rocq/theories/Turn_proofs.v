(** Proofs about rewards that share out turns. *)
From Coq Require Import List ZArith QArith Qround Qabs Bool String Lia Lqa.
From Verif Require Import Base IntRounded IntRounded_proofs Script Feat Feat_proofs GateLoop GateLoop_proofs TimeGate TimeGate_proofs Turn.
Import ListNotations.
Open Scope nat_scope.

Lemma counted_note : forall note h, counted note None h = tally (note_has note) h.
Proof. intros note h. unfold counted. rewrite nc_fold. reflexivity. Qed.
Lemma counted_band : forall b h, counted None (Some b) h = tally (fun v => contains (fv_band v) b) h.
Proof.
  intros b h. unfold counted.
  assert (G : forall s, nn_count (fold_left (nc_one None (Some b) false) h s) = (nn_count s + tally (fun v => contains (fv_band v) b) h)%Z); [|rewrite G; reflexivity].
  induction h as [|v h IH]; intro s; [unfold tally; cbn; lia|]. cbn [fold_left]. rewrite IH. unfold nc_one, tally. cbn [andb nc_note note_has band_in filter].
  destruct (contains (fv_band v) b); cbn [nn_count List.length]; lia.
Qed.
Lemma tally_ext : forall P Q h, (forall v, In v h -> P v = Q v) -> tally P h = tally Q h.
Proof. intros P Q h H. unfold tally. rewrite (filter_ext_in P Q h H). reflexivity. Qed.
Lemma truth_gt_sound : forall a b, truth (ir_gt [a] [b]) = true -> (b < a)%Q.
Proof.
  intros a b H. destruct (Qlt_le_dec b a) as [L|L]; [exact L|exfalso].
  unfold ir_gt, ir_cmp in H. cbn [bcast map bind] in H.
  destruct (check_limit_cases [(a, b)]) as [E|E]; rewrite E in H; cbn [map truth fst snd] in H; apply Qltb_lt in H; [lra|].
  pose proof (round_pair_mono (a, b) L) as M. lra.
Qed.

(** ** Turns taken by the largest reward *)
Section Greedy.
Variable key : fvis -> string.
Variable names : list string.
Definition taken (n : string) (h : list fvis) : Z := tally (fun v => String.eqb (key v) n) h.
Lemma taken_app : forall n h v, taken n (h ++ [v]) = (taken n h + if String.eqb (key v) n then 1 else 0)%Z.
Proof. intros n h v. unfold taken. rewrite tally_app. unfold tally at 2. cbn [filter]. destruct (String.eqb (key v) n); reflexivity. Qed.
Lemma taken_nonneg : forall n h, (0 <= taken n h)%Z.
Proof. intros. apply tally_le. Qed.
(** Whenever a named visit is taken, no name has a larger [better] claim. *)
Definition picks (rank : string -> list fvis -> string -> Prop) (h : list fvis) : Prop :=
  forall a v b, h = a ++ v :: b -> In (key v) names -> forall n, In n names -> rank n a (key v).
Lemma picks_app : forall rank h v, picks rank (h ++ [v]) -> picks rank h /\ (In (key v) names -> forall n, In n names -> rank n h (key v)).
Proof.
  intros rank h v P. split.
  - intros a w b E I n N. apply (P a w (b ++ [v])); [rewrite E, <- app_assoc; reflexivity|exact I|exact N].
  - intros I n N. apply (P h v []); auto.
Qed.
Lemma fair : forall (g : Z -> Z) (rank : string -> list fvis -> string -> Prop) h, (forall z, (z <= g z)%Z) -> (forall y z, (y <= z -> g y <= g z)%Z) ->
  (forall n m a b, h = a ++ b -> In n names -> In m names -> rank m a n -> (g (taken n a) <= g (taken m a))%Z) ->
  picks rank h -> forall n m, In n names -> In m names -> (taken n h <= g (taken m h) + 1)%Z.
Proof.
  intros g rank h G1 G2. induction h as [|v h IH] using rev_ind; intros R P n m N M.
  - unfold taken, tally. cbn. pose proof (G1 0%Z). lia.
  - apply picks_app in P. destruct P as [P1 P2]. rewrite !taken_app.
    assert (K : (taken n h <= g (taken m h) + 1)%Z) by (apply IH; auto; intros a b c d E; apply (R a b c (d ++ [v])); rewrite E, app_assoc; reflexivity).
    assert (Gm : (g (taken m h) <= g (taken m h + (if String.eqb (key v) m then 1 else 0)))%Z) by (apply G2; destruct (String.eqb _ _); lia).
    destruct (String.eqb (key v) n) eqn:E; [|lia]. apply String.eqb_eq in E. subst n.
    pose proof (R (key v) m h [v] eq_refl N M (P2 N m M)). pose proof (G1 (taken (key v) h)). lia.
Qed.
(** A name in the middle of its sequence outranks those that are not. *)
Lemma one_open : forall (k : string -> Z) (rank : string -> list fvis -> string -> Prop) h,
  (forall n m a b, h = a ++ b -> In n names -> In m names -> rank m a n -> (taken m a mod k m <> 0)%Z -> (taken n a mod k n <> 0)%Z) ->
  picks rank h -> forall n m, In n names -> In m names -> (taken n h mod k n <> 0)%Z -> (taken m h mod k m <> 0)%Z -> n = m.
Proof.
  intros k rank h. induction h as [|v h IH] using rev_ind; intros R P n m N M On Om.
  - exfalso. apply On. unfold taken, tally. cbn [filter List.length Z.of_nat]. apply Zmod_0_l.
  - apply picks_app in P. destruct P as [P1 P2]. rewrite taken_app in On, Om.
    assert (R' : forall n m a b, h = a ++ b -> In n names -> In m names -> rank m a n -> (taken m a mod k m <> 0)%Z -> (taken n a mod k n <> 0)%Z)
      by (intros a b c d E; apply (R a b c (d ++ [v])); rewrite E, app_assoc; reflexivity).
    destruct (String.eqb (key v) n) eqn:En, (String.eqb (key v) m) eqn:Em; rewrite ?String.eqb_eq in *; try congruence.
    + subst n. rewrite Z.add_0_r in Om. pose proof (R (key v) m h [v] eq_refl N M (P2 N m M) Om) as O1. exact (IH R' P1 _ _ N M O1 Om).
    + subst m. rewrite Z.add_0_r in On. pose proof (R (key v) n h [v] eq_refl M N (P2 M n N) On) as O1. exact (IH R' P1 _ _ N M On O1).
    + rewrite Z.add_0_r in On, Om. exact (IH R' P1 _ _ N M On Om).
Qed.
End Greedy.

(** Notes told apart *)
Definition clear (names : list string) (h : list fvis) : Prop :=
  forall v n, In v h -> In n names -> within n (fv_note v) -> fv_note v = n.
Lemma counted_clear : forall names h n, clear names h -> In n names -> counted (Some n) None h = taken fv_note n h.
Proof.
  intros names h n C N. rewrite counted_note. apply tally_ext. intros v V. cbn [note_has]. destruct (String.eqb (fv_note v) n) eqn:E.
  - apply String.eqb_eq in E. rewrite E. apply contains_iff. exists EmptyString, EmptyString. clear. cbn. induction n; [reflexivity|]. cbn. f_equal. exact IHn.
  - destruct (contains n (fv_note v)) eqn:K; [|reflexivity]. apply contains_iff in K. rewrite (C v n V N K), String.eqb_refl in E. discriminate.
Qed.
Definition letters (names : list string) (h : list fvis) : Prop :=
  (forall n, In n names -> exists c, n = String c EmptyString) /\ forall v, In v h -> fv_band v <> EmptyString.
Lemma counted_letter : forall names h n, letters names h -> In n names -> counted None (Some n) h = taken fv_band n h.
Proof.
  intros names h n [L1 L2] N. rewrite counted_band. apply tally_ext. intros v V. destruct (L1 n N) as [c ->]. pose proof (L2 v V) as B.
  destruct (fv_band v) as [|d r]; [congruence|]. cbn. rewrite andb_comm. destruct r as [|e r]; cbn; destruct (Ascii.eqb d c); reflexivity.
Qed.
Lemma clear_pre : forall names a b, clear names (a ++ b) -> clear names a.
Proof. intros names a b C v n V. apply C. apply in_or_app. now left. Qed.
Lemma letters_pre : forall names a b, letters names (a ++ b) -> letters names a.
Proof. intros names a b [L1 L2]. split; [exact L1|]. intros v V. apply L2, in_or_app. now left. Qed.
Lemma frac_le : forall a n m, (0 < a)%Q -> (0 < n)%Z -> (0 < m)%Z -> (a / inject_Z m <= a / inject_Z n)%Q -> (n <= m)%Z.
Proof.
  intros a n m A N M H. destruct (Z.le_gt_cases n m) as [L|L]; [exact L|exfalso].
  assert (N' : (0 < inject_Z n)%Q) by (change 0%Q with (inject_Z 0); rewrite <- Zlt_Qlt; exact N).
  assert (M' : (0 < inject_Z m)%Q) by (change 0%Q with (inject_Z 0); rewrite <- Zlt_Qlt; exact M).
  assert (L' : (inject_Z m < inject_Z n)%Q) by (rewrite <- Zlt_Qlt; exact L).
  apply (Qmult_le_compat_r _ _ (inject_Z n * inject_Z m)) in H; [|apply Qmult_le_0_compat; lra].
  setoid_replace (a / inject_Z m * (inject_Z n * inject_Z m))%Q with (a * inject_Z n)%Q in H by (field; lra).
  setoid_replace (a / inject_Z n * (inject_Z n * inject_Z m))%Q with (a * inject_Z m)%Q in H by (field; lra).
  assert (a * inject_Z m < a * inject_Z n)%Q by (apply Qmult_lt_l; assumption). lra.
Qed.
