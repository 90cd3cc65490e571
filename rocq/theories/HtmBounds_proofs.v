(** Proofs about ranges of trixel ids. *)
From Coq Require Import List Bool ZArith Lia Permutation.
From Verif Require Import Base Htm HtmHalf.
Import ListNotations.
Open Scope Z_scope.

(** Some range of the list holds x. *)
Definition cov (b : list bound) (x : Z) : Prop := exists r, In r b /\ fst r <= x <= snd r.
Definition okb (b : list bound) : Prop := forall r, In r b -> 0 <= fst r <= snd r.
(** Ranges in order with at least one id between them. *)
Fixpoint spaced (lo : Z) (b : list bound) : Prop :=
  match b with [] => True | r :: b => lo <= fst r <= snd r /\ spaced (snd r + 2) b end.

Lemma cov_nil : forall x, ~ cov [] x.
Proof. intros x (r & [] & _). Qed.
Lemma cov_cons : forall r b x, cov (r :: b) x <-> fst r <= x <= snd r \/ cov b x.
Proof.
  intros. unfold cov. split.
  - intros (q & [<- | I] & H); [left; exact H|right; exists q; tauto].
  - intros [H | (q & I & H)]; [exists r; cbn; tauto|exists q; cbn; tauto].
Qed.
Lemma cov_app : forall a b x, cov (a ++ b) x <-> cov a x \/ cov b x.
Proof. induction a as [|r a IH]; intros b x; cbn [app]. - split; [right; assumption|intros [H|H]; [destruct (cov_nil _ H)|exact H]]. - rewrite !cov_cons, IH. tauto. Qed.
Lemma cov_perm : forall a b x, Permutation a b -> cov a x -> cov b x.
Proof. intros a b x P (r & I & H). exists r. split; [eapply Permutation_in; eauto|exact H]. Qed.

Lemma insert_perm : forall r l, Permutation (insert r l) (r :: l).
Proof.
  induction l as [|y l IH]; cbn; [apply Permutation_refl|]. destruct (fst r <=? fst y); [apply Permutation_refl|].
  eapply Permutation_trans; [apply perm_skip, IH|apply perm_swap].
Qed.
Lemma sort_perm : forall l, Permutation (sort_bounds l) l.
Proof. induction l as [|r l IH]; cbn; [apply Permutation_refl|]. eapply Permutation_trans; [apply insert_perm|apply perm_skip, IH]. Qed.
Fixpoint ordered (lo : Z) (l : list bound) : Prop :=
  match l with [] => True | r :: l => lo <= fst r /\ ordered (fst r) l end.
Lemma ordered_le : forall l a b, a <= b -> ordered b l -> ordered a l.
Proof. destruct l; cbn; [tauto|]. intros a b' H (A & B). split; [lia|exact B]. Qed.
Lemma insert_ordered : forall r l lo, lo <= fst r -> ordered lo l -> ordered lo (insert r l).
Proof.
  induction l as [|y l IH]; intros lo H O; cbn; [tauto|]. destruct O as (A & B). destruct (Z.leb_spec (fst r) (fst y)); cbn.
  - split; [exact H|]. split; assumption.
  - split; [exact A|]. apply IH; [lia|exact B].
Qed.
Lemma sort_ordered : forall l, okb l -> ordered 0 (sort_bounds l).
Proof.
  induction l as [|r l IH]; intros K; cbn; [exact I|]. apply insert_ordered; [apply (K r); left; reflexivity|].
  apply IH. intros q I. apply K. right. exact I.
Qed.

Lemma spaced_app : forall a lo r, spaced lo a -> (forall q, In q a -> snd q + 2 <= fst r) -> lo <= fst r <= snd r -> spaced lo (a ++ [r]).
Proof.
  induction a as [|q a IH]; intros lo r S F H; cbn in *; [tauto|]. destruct S as (A & B). split; [exact A|].
  apply IH; [exact B|intros; apply F; tauto|]. specialize (F q (or_introl eq_refl)). lia.
Qed.
Lemma spaced_last : forall b r lo q, spaced lo (b ++ [r]) -> In q b -> snd q + 2 <= fst r.
Proof.
  induction b as [|x b IH]; intros r lo q S I; [destruct I|]. cbn in S. destruct S as (A & B). destruct I as [<- | I].
  - clear -B. revert B. generalize (snd x + 2). induction b as [|y b IH]; cbn; intros z B; [lia|]. destruct B as (A & B). specialize (IH _ B). lia.
  - eapply IH; eauto.
Qed.

Lemma merge_loop_spec : forall rows mn mx cm out,
  cm = mx -> 0 <= mn <= mx -> ordered mn rows -> (forall r, In r rows -> fst r <= snd r) ->
  spaced 0 (out ++ [(mn, mx)]) ->
  spaced 0 (merge_loop rows (Some (mn, mx)) cm out) /\
  (forall x, cov (merge_loop rows (Some (mn, mx)) cm out) x <-> cov out x \/ mn <= x <= mx \/ cov rows x).
Proof.
  induction rows as [|(lo, hi) rows IH]; intros mn mx cm out -> M O K S; cbn [merge_loop].
  { split; [exact S|]. intros x. rewrite cov_app, cov_cons. cbn. split; [intros [H|[H|H]]; tauto|intros [H|[H|H]]; try tauto; destruct (cov_nil _ H)]. }
  destruct O as (A & B). cbn [fst snd] in A, B. assert (L := K _ (or_introl eq_refl)). cbn in L.
  replace (Z.min lo hi) with lo by lia. replace (Z.max lo hi) with hi by lia. replace (Z.min mn lo) with mn by lia.
  destruct (Z.leb_spec lo (mx + 1)) as [J|J].
  - replace (if hi >? mx then hi else mx) with (Z.max mx hi) by (rewrite Z.gtb_ltb; destruct (Z.ltb_spec mx hi); lia).
    destruct (IH mn (Z.max mx hi) (Z.max mx hi) out eq_refl) as (S' & C'); try lia.
    + eapply ordered_le; [|exact B]. lia.
    + intros r I. apply K. right. exact I.
    + apply spaced_app.
      * clear -S. revert S. generalize 0. induction out as [|q out IH]; cbn; [tauto|]. intros z (P & Q). split; [exact P|apply IH, Q].
      * intros q I. exact (spaced_last _ _ _ _ S I).
      * cbn. lia.
    + split; [exact S'|]. intros x. rewrite C', cov_cons. cbn. split; [intros [H|[H|H]]; [tauto| |tauto]|intros [H|[H|[H|H]]]; try tauto; right; left; lia].
      destruct (Z_le_gt_dec x mx); [right; left; lia|right; right; left; lia].
  - destruct (IH lo hi hi (out ++ [(mn, mx)]) eq_refl) as (S' & C'); try lia.
    + exact B.
    + intros r I. apply K. right. exact I.
    + apply spaced_app; [exact S| |cbn; lia]. intros q I. apply in_app_or in I. destruct I as [I|[<- | []]]; [|cbn; lia].
      assert (Z := spaced_last _ _ _ _ S I). cbn in *. lia.
    + split; [exact S'|]. intros x. rewrite C', cov_app, !cov_cons. cbn. split.
      * intros [[H|[H|H]]|[H|H]]; try tauto. destruct (cov_nil _ H).
      * tauto.
Qed.
Lemma merge_spec : forall b, okb b -> spaced 0 (merge_trixel_bounds b) /\ (forall x, cov (merge_trixel_bounds b) x <-> cov b x).
Proof.
  intros b K. unfold merge_trixel_bounds. assert (P := sort_perm b). assert (O := sort_ordered b K).
  assert (K' : okb (sort_bounds b)) by (intros r I; apply K; eapply Permutation_in; eauto).
  assert (C : forall x, cov (sort_bounds b) x <-> cov b x) by (intros x; split; apply cov_perm; [exact P|apply Permutation_sym, P]).
  destruct (sort_bounds b) as [|(lo, hi) rows]; cbn [merge_loop].
  { split; [exact I|exact C]. }
  assert (L := K' _ (or_introl eq_refl)). cbn in L. destruct O as (_ & O). cbn [fst] in O.
  replace (Z.min lo hi) with lo by lia. replace (Z.max lo hi) with hi by lia.
  replace (if hi >? -1 then hi else -1) with hi by (rewrite Z.gtb_ltb; destruct (Z.ltb_spec (-1) hi); lia).
  destruct (merge_loop_spec rows lo hi hi [] eq_refl L O) as (S & D).
  - intros r I. apply (K' r). right. exact I.
  - cbn. lia.
  - split; [exact S|]. intros x. rewrite D, <- C, cov_cons. cbn. split; [intros [H|H]; [destruct (cov_nil _ H)|exact H]|right; assumption].
Qed.

Lemma spaced_okb : forall b lo, 0 <= lo -> spaced lo b -> okb b.
Proof.
  induction b as [|r b IH]; intros lo Z S q I; [destruct I|]. destruct S as (A & B). destruct I as [<- | I]; [lia|].
  apply (IH (snd r + 2)); [lia|exact B|exact I].
Qed.
Lemma spaced_ge : forall b lo q, spaced lo b -> In q b -> lo <= fst q <= snd q.
Proof. induction b as [|r b IH]; intros lo q S I; [destruct I|]. destruct S as (A & B). destruct I as [<- | I]; [lia|]. specialize (IH _ q B I). lia. Qed.
Lemma spaced_le : forall b lo, spaced lo b -> forall m, m <= lo -> spaced m b.
Proof. destruct b; cbn; [tauto|]. intros lo (A & B) m' H. split; [lia|exact B]. Qed.
Lemma spaced_filter : forall f b lo, spaced lo b -> spaced lo (filter f b).
Proof.
  induction b as [|r b IH]; intros lo S; [exact I|]. destruct S as (A & B). cbn. destruct (f r).
  - split; [exact A|apply IH, B].
  - apply (spaced_le _ (snd r + 2)); [apply IH, B|lia].
Qed.

Lemma join_loop_spec : forall fuel l1 l2 joint lo1 lo2, (length l1 + length l2 <= fuel)%nat -> 0 <= lo1 -> 0 <= lo2 ->
  spaced lo1 l1 -> spaced lo2 l2 -> okb joint ->
  exists o, join_loop fuel l1 l2 joint = Ok o /\ okb o /\ (forall x, cov o x <-> cov joint x \/ (cov l1 x /\ cov l2 x)).
Proof.
  induction fuel as [|fuel IH]; intros l1 l2 joint lo1 lo2 N P1 P2 S1 S2 K.
  { destruct l1; cbn in N; [|lia]. exists joint. split; [reflexivity|]. split; [exact K|]. intros x. assert (Z := cov_nil x). tauto. }
  destruct l1 as [|r1 k1]; [exists joint; split; [reflexivity|]; split; [exact K|]; intros x; assert (Z := cov_nil x); tauto|].
  destruct l2 as [|r2 k2]; [exists joint; split; [reflexivity|]; split; [exact K|]; intros x; assert (Z := cov_nil x); tauto|].
  assert (G1 : forall x, cov k1 x -> snd r1 + 2 <= x) by (intros x (q & I & H); assert (Z := spaced_ge _ _ q (proj2 S1) I); lia).
  assert (G2 : forall x, cov k2 x -> snd r2 + 2 <= x) by (intros x (q & I & H); assert (Z := spaced_ge _ _ q (proj2 S2) I); lia).
  assert (KA : forall r, 0 <= fst r <= snd r -> okb (joint ++ [r])).
  { intros r H q I. apply in_app_or in I. destruct I as [I|[<- | []]]; [apply K, I|exact H]. }
  cbn [join_loop]. cbn [length] in N. destruct S1 as (A1 & B1), S2 as (A2 & B2).
  assert (Sng : forall r x, cov [r] x <-> fst r <= x <= snd r) by (intros r x; rewrite cov_cons; assert (Z := cov_nil x); tauto).
  destruct ((fst r1 <=? fst r2) && (snd r1 >=? snd r2)) eqn:E1.
  { apply andb_prop in E1. destruct E1 as (E & E'). apply Z.leb_le in E. apply Z.geb_le in E'.
    destruct (IH (r1 :: k1) k2 (joint ++ [r2]) lo1 (snd r2 + 2)) as (o & -> & KO & C); try (cbn; lia); [split; assumption|exact B2|apply KA; lia|].
    exists o. split; [reflexivity|]. split; [exact KO|]. intros x. rewrite C, cov_app, Sng, (cov_cons r2), (cov_cons r1). specialize (G1 x). split.
    - intros [[H|H]|(H & H')]; try tauto. right. split; [left; lia|tauto].
    - intros [H|(H & [H'|H'])]; tauto. }
  destruct ((fst r2 <=? fst r1) && (snd r2 >=? snd r1)) eqn:E2.
  { apply andb_prop in E2. destruct E2 as (E & E'). apply Z.leb_le in E. apply Z.geb_le in E'.
    destruct (IH k1 (r2 :: k2) (joint ++ [r1]) (snd r1 + 2) lo2) as (o & -> & KO & C); try (cbn; lia); [exact B1|split; assumption|apply KA; lia|].
    exists o. split; [reflexivity|]. split; [exact KO|]. intros x. rewrite C, cov_app, Sng, (cov_cons r2), (cov_cons r1). split.
    - intros [[H|H]|(H & H')]; try tauto. right. split; [tauto|left; lia].
    - intros [H|([H|H] & H')]; tauto. }
  set (j := if Z.max (fst r1) (fst r2) <=? Z.min (snd r1) (snd r2) then joint ++ [(Z.max (fst r1) (fst r2), Z.min (snd r1) (snd r2))] else joint).
  assert (Kj : okb j /\ forall x, cov j x <-> cov joint x \/ (fst r1 <= x <= snd r1 /\ fst r2 <= x <= snd r2)).
  { subst j. destruct (Z.leb_spec (Z.max (fst r1) (fst r2)) (Z.min (snd r1) (snd r2))).
    - split; [apply KA; cbn; lia|]. intros x. rewrite cov_app, Sng. cbn. intuition lia.
    - split; [exact K|]. intros x. intuition lia. }
  destruct Kj as (Kj & Cj). destruct (Z.ltb_spec (snd r1) (snd r2)) as [L|L].
  - destruct (IH k1 (r2 :: k2) j (snd r1 + 2) lo2) as (o & -> & KO & C); try (cbn; lia); [exact B1|split; assumption|exact Kj|].
    exists o. split; [reflexivity|]. split; [exact KO|]. intros x. rewrite C, Cj, (cov_cons r1), (cov_cons r2). specialize (G2 x). split; [tauto|].
    intros [H|([H|H] & [H'|H'])]; try tauto. specialize (G2 H'). lia.
  - destruct (IH (r1 :: k1) k2 j lo1 (snd r2 + 2)) as (o & -> & KO & C); try (cbn; lia); [split; assumption|exact B2|exact Kj|].
    exists o. split; [reflexivity|]. split; [exact KO|]. intros x. rewrite C, Cj, (cov_cons r1), (cov_cons r2). specialize (G1 x). split; [tauto|].
    intros [H|([H|H] & [H'|H'])]; try tauto. specialize (G1 H). lia.
Qed.

Lemma cov_filter : forall f b x, cov (filter f b) x <-> exists r, In r b /\ f r = true /\ fst r <= x <= snd r.
Proof. intros. unfold cov. split; intros (r & H); exists r; [|destruct H as (A & B & C)]; rewrite filter_In in *; tauto. Qed.
Lemma spaced_first : forall f b lo x, spaced lo (f :: b) -> cov (f :: b) x -> fst f <= x.
Proof. intros f b lo x S C. apply cov_cons in C. destruct S as (A & B). destruct C as [C|(q & I & H)]; [lia|]. assert (Z := spaced_ge _ _ q B I). lia. Qed.
Lemma spaced_final : forall b f lo x, spaced lo b -> cov b x -> x <= snd (last b f).
Proof.
  induction b as [|r b IH]; intros f lo x S C; [destruct (cov_nil _ C)|]. destruct S as (A & B). apply cov_cons in C.
  destruct b as [|q b]; [cbn; destruct C as [C|C]; [lia|destruct (cov_nil _ C)]|]. change (last (r :: q :: b) f) with (last (q :: b) f).
  destruct C as [C|C]; [|eapply IH; eauto]. destruct B as (D & B). apply Z.le_trans with (fst q); [lia|].
  eapply IH; [split; [exact D|exact B]|]. apply cov_cons. left. lia.
Qed.
Lemma join_spec : forall b1 b2, okb b1 -> okb b2 -> b1 <> [] -> b2 <> [] ->
  exists o, join_trixel_bound_sets b1 b2 = Ok o /\ spaced 0 o /\ (forall x, cov o x <-> cov b1 x /\ cov b2 x).
Proof.
  intros b1 b2 K1 K2 N1 N2. unfold join_trixel_bound_sets.
  destruct (merge_spec b1 K1) as (S1 & C1), (merge_spec b2 K2) as (S2 & C2).
  assert (E1 : merge_trixel_bounds b1 <> []).
  { intros E. destruct b1 as [|r b1]; [congruence|]. rewrite E in C1. apply (cov_nil (fst r)), C1, cov_cons. left. assert (Z := K1 r (or_introl eq_refl)). lia. }
  assert (E2 : merge_trixel_bounds b2 <> []).
  { intros E. destruct b2 as [|r b2]; [congruence|]. rewrite E in C2. apply (cov_nil (fst r)), C2, cov_cons. left. assert (Z := K2 r (or_introl eq_refl)). lia. }
  destruct (merge_trixel_bounds b1) as [|f1 m1]; [congruence|]. destruct (merge_trixel_bounds b2) as [|f2 m2]; [congruence|]. clear E1 E2.
  cbv zeta. set (gmin := Z.max (fst f1) (fst f2)). set (gmax := Z.min (snd (last (f1 :: m1) f1)) (snd (last (f2 :: m2) f2))).
  set (keep := filter _).
  assert (SK1 := spaced_filter (fun r : bound => (fst r <=? gmax) && (snd r >=? gmin)) _ _ S1).
  assert (SK2 := spaced_filter (fun r : bound => (fst r <=? gmax) && (snd r >=? gmin)) _ _ S2). fold keep in SK1, SK2.
  assert (CK : forall x, cov (keep (f1 :: m1)) x /\ cov (keep (f2 :: m2)) x <-> cov b1 x /\ cov b2 x).
  { intros x. rewrite <- C1, <- C2. split.
    - intros (H & H'). unfold keep in H, H'. apply cov_filter in H, H'. destruct H as (r & I & _ & J), H' as (r' & I' & _ & J'). split; [exists r|exists r']; tauto.
    - intros (H & H'). assert (F1 := spaced_first _ _ _ _ S1 H). assert (F2 := spaced_first _ _ _ _ S2 H').
      assert (L1 := spaced_final _ f1 _ _ S1 H). assert (L2 := spaced_final _ f2 _ _ S2 H').
      destruct H as (r & I & J), H' as (r' & I' & J').
      assert (Q : forall r : bound, fst r <= x <= snd r -> (fst r <=? gmax) && (snd r >=? gmin) = true).
      { intros q Hq. apply andb_true_intro. split; [apply Z.leb_le|apply Z.geb_le]; unfold gmin, gmax; lia. }
      split; unfold keep; apply cov_filter; [exists r|exists r']; auto. }
  clear C1 C2. revert SK1 SK2 CK. generalize (keep (f1 :: m1)) (keep (f2 :: m2)). intros k1 k2 SK1 SK2 CK.
  destruct k1 as [|x1 k1]; [exists []; split; [reflexivity|]; split; [exact I|]; intros x; rewrite <- CK; assert (Z := cov_nil x); tauto|].
  destruct k2 as [|x2 k2]; [exists []; split; [reflexivity|]; split; [exact I|]; intros x; rewrite <- CK; assert (Z := cov_nil x); tauto|].
  destruct (join_loop_spec (length (x1 :: k1) + length (x2 :: k2)) (x1 :: k1) (x2 :: k2) [] 0 0) as (o & -> & KO & C); try lia; try assumption.
  { intros r []. }
  cbn [bind]. destruct (merge_spec o KO) as (SO & CO). exists (merge_trixel_bounds o). split; [reflexivity|]. split; [exact SO|].
  intros x. rewrite CO, C, CK. assert (Z := cov_nil x). tauto.
Qed.
