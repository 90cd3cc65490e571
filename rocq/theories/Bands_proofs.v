(** Proofs about the band swap schedulers. *)
From Coq Require Import List ZArith QArith Qabs Bool String Lia Lqa Sorted Permutation.
From Verif Require Import Base IntRounded IntRounded_proofs Bisect Feat_proofs2 Bands.
Import ListNotations.
Open Scope nat_scope.

(** ** Comparison with the illumination limit *)
Lemma brighter_far : forall m x, far m x -> brighter m x = Qltb x m.
Proof.
  intros m x F. unfold brighter, ir_gt. rewrite cmp_scalar by (intros a [<-|[]]; exact F). reflexivity.
Qed.
Lemma brighter_gt : forall m x, brighter m x = true -> (x < m)%Q.
Proof.
  intros m x H. unfold brighter, ir_gt, ir_cmp in H. cbn [bcast map bind] in H.
  destruct (check_limit_cases [(m, x)]) as [E|E]; rewrite E in H; cbn [map fst snd] in H; apply Qltb_lt in H.
  - exact H.
  - destruct (Qlt_le_dec x m) as [L|L]; [exact L|]. exfalso.
    pose proof (round_pair_mono (m, x) L). cbn [fst snd] in *. lra.
Qed.

Lemma bands_eqb_eq : forall a b, bands_eqb a b = true <-> a = b.
Proof.
  induction a as [|x a IH]; intros [|y b]; cbn; split; intros H; try discriminate; auto.
  - apply andb_true_iff in H. destruct H as [H1 H2]. apply String.eqb_eq in H1. apply IH in H2. now subst.
  - injection H as -> ->. rewrite String.eqb_refl. cbn. now apply IH.
Qed.

(** ** Sorting of keys *)
Lemma t_insert_perm : forall x l, Permutation (t_insert x l) (x :: l).
Proof.
  induction l as [|y l IH]; cbn; [auto|]. destruct (Z.leb x y); [auto|].
  rewrite IH. apply perm_swap.
Qed.
Lemma t_sort_perm : forall l, Permutation (t_sort l) l.
Proof. induction l as [|x l IH]; cbn; [auto|]. rewrite t_insert_perm. now constructor. Qed.
Lemma t_insert_sorted : forall x l, StronglySorted Z.le l -> StronglySorted Z.le (t_insert x l).
Proof.
  induction l as [|y l IH]; intros H; cbn; [repeat constructor|]. inversion H; subst.
  destruct (Z.leb_spec x y).
  - constructor; [exact H|]. constructor; [lia|]. rewrite Forall_forall in *. intros z Hz. specialize (H3 z Hz). lia.
  - constructor; [auto|]. rewrite Forall_forall in *. intros z Hz.
    apply (Permutation_in _ (t_insert_perm x l)) in Hz. destruct Hz as [<-|Hz]; [lia|auto].
Qed.
Lemma t_sort_sorted : forall l, StronglySorted Z.le (t_sort l).
Proof. induction l as [|x l IH]; cbn; [constructor|now apply t_insert_sorted]. Qed.
Lemma t_sort_in : forall x l, In x (t_sort l) <-> In x l.
Proof.
  intros x l. split; intros H; [exact (Permutation_in _ (t_sort_perm l) H)|].
  exact (Permutation_in _ (Permutation_sym (t_sort_perm l)) H).
Qed.
Lemma sorted_filter : forall (p : Z -> bool) l, StronglySorted Z.le l -> StronglySorted Z.le (filter p l).
Proof.
  induction l as [|x l IH]; intros H; cbn; [constructor|]. inversion H; subst. destruct (p x); auto.
  constructor; auto. rewrite Forall_forall in *. intros y Hy. apply filter_In in Hy. now apply H3.
Qed.

(** ** Dictionaries *)
Lemma dict_get_in : forall t k v, NoDup (map fst t) -> In (k, v) t -> dict_get k t = Ok v.
Proof.
  induction t as [|[k' v'] t IH]; intros k v N H; [destruct H|]. cbn in *. inversion N; subst.
  destruct H as [[= -> ->]|H]; [now rewrite Z.eqb_refl|].
  destruct (Z.eqb_spec k' k) as [->|E]; [|auto]. exfalso. apply H2. apply in_map_iff. now exists (k, v).
Qed.
Lemma dict_get_ok : forall t k v, dict_get k t = Ok v -> In (k, v) t.
Proof.
  induction t as [|[k' v'] t IH]; intros k v H; cbn in *; [discriminate|].
  destruct (Z.eqb_spec k' k) as [->|E]; [injection H as ->; now left|right; auto].
Qed.
Lemma dict_set_new : forall k v t, ~ In k (map fst t) -> dict_set k v t = t ++ [(k, v)].
Proof.
  induction t as [|[k' v'] t IH]; intros H; cbn in *; [reflexivity|].
  destruct (Z.eqb_spec k' k) as [->|E]; [tauto|]. rewrite IH by tauto. reflexivity.
Qed.
Lemma dict_update_new : forall u t, NoDup (map fst u) -> (forall k, In k (map fst u) -> ~ In k (map fst t)) ->
  dict_update t u = t ++ u.
Proof.
  unfold dict_update. induction u as [|[k v] u IH]; intros t N D; cbn in *; [now rewrite app_nil_r|].
  inversion N; subst. rewrite dict_set_new by auto. rewrite IH; [now rewrite <- app_assoc|exact H2|].
  intros k' Hk. rewrite map_app, in_app_iff. cbn. intros [H|[->|[]]]; [|tauto]. exact (D k' (or_intror Hk) H).
Qed.
Lemma noon_lt : forall a b, Qltb (noon a) (noon b) = true <-> (a < b)%Z.
Proof.
  intros a b. rewrite Qltb_lt. unfold noon. split; intros H.
  - apply inject_Z_lt_iff. lra.
  - apply inject_Z_lt_iff in H. lra.
Qed.

(** The merged table holds the new entries and the past ones before all of them. *)
Lemma date_init_ok : forall prev new t times, NoDup (map fst prev) -> NoDup (map fst new) ->
  date_init prev new = Ok (t, times) ->
  NoDup (map fst t) /\ times = t_sort (map fst t) /\
  forall k v, In (k, v) t <-> In (k, v) new \/ (In (k, v) prev /\ forall k' v', In (k', v') new -> (k < k')%Z).
Proof.
  intros prev new t times Np Nn H. unfold date_init in H.
  pose proof (t_sort_sorted (map fst new)) as S. pose proof (t_sort_in) as I.
  destruct (t_sort (map fst new)) as [|f fs] eqn:E; [discriminate|].
  assert (Hf : forall k v, In (k, v) new -> (f <= k)%Z).
  { intros k v Hk. apply (in_map fst) in Hk. cbn in Hk. apply I in Hk. rewrite E in Hk.
    inversion S; subst. rewrite Forall_forall in H3. destruct Hk as [->|Hk]; [lia|auto]. }
  assert (Hi : exists v, In (f, v) new).
  { assert (Hx : In f (map fst new)) by (apply I; rewrite E; now left).
    apply in_map_iff in Hx. destruct Hx as ([k v] & <- & Hx). now exists v. }
  set (keep := filter (fun k : Z => Qltb (noon k) (noon f)) (t_sort (map fst prev))) in *.
  set (kept := flat_map _ keep) in H.
  assert (Kin : forall k v, In (k, v) kept <-> In (k, v) prev /\ (k < f)%Z).
  { intros k v. unfold kept. rewrite in_flat_map. split.
    - intros (k' & Hk & Hv). unfold keep in Hk. apply filter_In in Hk. destruct Hk as [_ Hk]. apply noon_lt in Hk.
      destruct (dict_get k' prev) as [v'|] eqn:G; [|destruct Hv]. destruct Hv as [[= <- <-]|[]].
      split; [now apply dict_get_ok|exact Hk].
    - intros [Hk L]. exists k. split.
      + unfold keep. apply filter_In. split; [apply I; now apply (in_map fst) in Hk|now apply noon_lt].
      + rewrite (dict_get_in _ _ _ Np Hk). now left. }
  assert (Kd : NoDup (map fst kept)).
  { unfold kept. assert (Nk : NoDup keep).
    { unfold keep. apply NoDup_filter. apply (Permutation_NoDup (Permutation_sym (t_sort_perm _)) Np). }
    clear - Nk. induction keep as [|k r IH]; [constructor|]. inversion Nk; subst. cbn.
    destruct (dict_get k prev) as [v|]; cbn; auto. constructor; auto. intros X. apply H1.
    apply in_map_iff in X. destruct X as ([k' v'] & <- & X). apply in_flat_map in X. destruct X as (k2 & H & X).
    destruct (dict_get k2 prev); [|destruct X]. destruct X as [[= -> ->]|[]]. exact H. }
  assert (D : forall k, In k (map fst new) -> ~ In k (map fst kept)).
  { intros k H1 H2. apply in_map_iff in H1, H2. destruct H1 as ([k1 v1] & <- & H1). destruct H2 as ([k2 v2] & E2 & H2).
    cbn in *. subst k2. apply Kin in H2. apply Hf in H1. lia. }
  injection H as <- <-. rewrite dict_update_new by auto. split; [|split; [reflexivity|]].
  - rewrite map_app. apply NoDup_app_intro; auto. intros x H1 H2. exact (D x H2 H1).
  - intros k v. rewrite in_app_iff, Kin. split.
    + intros [[H1 H2]|H1]; [right|now left]. split; [exact H1|]. intros k' v' H3. apply Hf in H3. lia.
    + intros [H1|[H1 H2]]; [now right|left]. split; [exact H1|]. destruct Hi as [v' Hv]. exact (H2 _ _ Hv).
Qed.

Lemma last_le : forall l x, StronglySorted Z.le (l ++ [x]) -> forall y, In y (l ++ [x]) -> (y <= x)%Z.
Proof.
  induction l as [|a l IH]; intros x S y H; cbn in *.
  - destruct H as [->|[]]. lia.
  - inversion S; subst. destruct H as [->|H]; [|eauto]. rewrite Forall_forall in H3.
    apply H3. apply in_or_app. right. now left.
Qed.

Lemma date_call_ok : forall t times e bk c, NoDup (map fst t) -> times = t_sort (map fst t) -> (bc_mjd c < e)%Q ->
  (forall k v, In (k, v) t -> (noon k <= bc_mjd c)%Q ->
     (forall k' v', In (k', v') t -> (noon k' <= bc_mjd c)%Q -> (k' <= k)%Z) -> date_call t times e bk c = Ok v) /\
  ((forall k v, In (k, v) t -> (bc_mjd c < noon k)%Q) -> date_call t times e bk c = Raise IndexError).
Proof.
  intros t times e bk c N -> L. unfold date_call. rewrite (proj2 (Qltb_lt _ _) L).
  set (g := filter (fun k : Z => Qle_bool (noon k) (bc_mjd c)) (t_sort (map fst t))).
  assert (G : forall k, In k g <-> (exists v, In (k, v) t) /\ (noon k <= bc_mjd c)%Q).
  { intros k. unfold g. rewrite filter_In, t_sort_in, in_map_iff, Qle_bool_iff. split.
    - intros [([k' v] & <- & H1) H2]. split; [now exists v|exact H2].
    - intros [[v H1] H2]. split; [now exists (k, v)|exact H2]. }
  assert (S : StronglySorted Z.le g) by (apply sorted_filter, t_sort_sorted).
  split.
  - intros k v H1 H2 H3. destruct (rev g) as [|m r] eqn:E.
    + exfalso. assert (X : In k g) by (apply G; eauto). apply in_rev in X. rewrite E in X. destruct X.
    + assert (Eg : g = rev r ++ [m]) by (rewrite <- (rev_involutive g), E; reflexivity).
      assert (M : In m g) by (rewrite Eg; apply in_or_app; right; now left).
      destruct (proj1 (G m) M) as [[v' Hm] Hn].
      assert (m = k) as ->.
      { apply Z.le_antisymm; [exact (H3 _ _ Hm Hn)|]. rewrite Eg in S. apply (last_le _ _ S). rewrite <- Eg. apply G. eauto. }
      now apply dict_get_in.
  - intros H. destruct (rev g) as [|m r] eqn:E; [reflexivity|]. exfalso.
    assert (M : In m g) by (apply in_rev; rewrite E; now left). apply G in M. destruct M as [[v Hm] Hn].
    apply H in Hm. lra.
Qed.
