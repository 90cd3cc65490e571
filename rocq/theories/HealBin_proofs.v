(** Proofs about binning. *)
From Coq Require Import List Bool ZArith QArith Lia Permutation Sorted.
From Verif Require Import Base HealBin.
Import ListNotations.
Open Scope Z_scope.

(** Positions in an order that sorts the ids. *)
Definition argsort_ok (argsort : list Z -> list nat) : Prop := forall l,
  Permutation (argsort l) (seq 0 (List.length l)) /\ Sorted Z.le (map (fun i => nth i l 0) (argsort l)).
Definition with_id {A} (u : Z) (ids : list Z) (values : list A) : list A := map snd (filter (fun p => fst p =? u) (combine ids values)).

Lemma gather_ok : forall A (l : list A) d order, (forall i, In i order -> (i < List.length l)%nat) -> gather l order = Ok (map (fun i => nth i l d) order).
Proof.
  induction order as [|i order IH]; intros H; cbn [gather map]; [reflexivity|]. assert (I := H i (or_introl eq_refl)).
  rewrite (nth_error_nth' l d I), IH by (intros; apply H; right; assumption). reflexivity.
Qed.
Lemma map_nth_seq : forall A (l : list A) d, map (fun i => nth i l d) (seq 0 (List.length l)) = l.
Proof.
  induction l as [|x l IH]; intros d; [reflexivity|]. cbn [List.length seq map nth]. f_equal. rewrite <- seq_shift, map_map. apply IH.
Qed.
Lemma combine_map : forall A B C (f : A -> B) (g : A -> C) l, combine (map f l) (map g l) = map (fun x => (f x, g x)) l.
Proof. induction l; cbn; congruence. Qed.
Lemma nth_combine : forall A B (a : list A) (b : list B) da db i, List.length a = List.length b -> nth i (combine a b) (da, db) = (nth i a da, nth i b db).
Proof. intros. now apply combine_nth. Qed.
Lemma sorted_strong : forall l : list Z, Sorted Z.le l -> StronglySorted Z.le l.
Proof. intros l. apply Sorted_StronglySorted. intros x y z. apply Z.le_trans. Qed.
Lemma filter_none : forall A (f : A -> bool) l, (forall x, In x l -> f x = false) -> filter f l = [].
Proof. induction l as [|x l IH]; intros H; cbn; [reflexivity|]. rewrite (H x (or_introl eq_refl)). apply IH. intros; apply H; right; assumption. Qed.
Lemma sorted_split : forall A (l : list (Z * A)) u, StronglySorted Z.le (map fst l) ->
  l = filter (fun p => fst p <? u) l ++ filter (fun p => fst p =? u) l ++ filter (fun p => u <? fst p) l.
Proof.
  induction l as [|(i, x) l IH]; intros u S; [reflexivity|]. cbn [map] in S. apply StronglySorted_inv in S as (S & F). rewrite Forall_forall in F. cbn [fst] in F.
  assert (F' : forall p, In p l -> i <= fst p) by (intros p I; apply F, in_map, I). specialize (IH u S). cbn [filter fst].
  destruct (Z.ltb_spec i u); destruct (Z.eqb_spec i u); destruct (Z.ltb_spec u i); try lia; cbn [app].
  - now rewrite <- IH.
  - rewrite (filter_none _ (fun p => fst p <? u)) in * by (intros p I; apply Z.ltb_ge; specialize (F' p I); lia). cbn [app] in *. now rewrite <- IH.
  - rewrite (filter_none _ (fun p => fst p <? u)) in * by (intros p I; apply Z.ltb_ge; specialize (F' p I); lia).
    rewrite (filter_none _ (fun p => fst p =? u)) in * by (intros p I; apply Z.eqb_neq; specialize (F' p I); lia). cbn [app] in *. now rewrite <- IH.
Qed.
Lemma filter_map_length : forall A (f : Z -> bool) (l : list (Z * A)), List.length (filter f (map fst l)) = List.length (filter (fun p => f (fst p)) l).
Proof. induction l as [|(i, x) l IH]; cbn; [reflexivity|]. destruct (f i); cbn; congruence. Qed.
Lemma le_split : forall A (l : list (Z * A)) u, List.length (filter (fun p => fst p <=? u) l) = Nat.add (List.length (filter (fun p => fst p <? u) l)) (List.length (filter (fun p => fst p =? u) l)).
Proof.
  induction l as [|(i, x) l IH]; intros u; cbn [filter fst]; [reflexivity|]. specialize (IH u).
  destruct (Z.leb_spec i u), (Z.ltb_spec i u), (Z.eqb_spec i u); try lia; cbn [List.length]; lia.
Qed.
Lemma skipn_app_len : forall A (a b : list A), skipn (List.length a) (a ++ b) = b.
Proof. induction a; cbn; auto. Qed.
Lemma firstn_app_len : forall A (a b : list A), firstn (List.length a) (a ++ b) = a.
Proof. induction a; intros; cbn; [reflexivity|now rewrite IHa]. Qed.
Lemma slice_group : forall A (l : list (Z * A)) u, StronglySorted Z.le (map fst l) ->
  slice (map snd l) (left_of (map fst l) u) (right_of (map fst l) u) = map snd (filter (fun p => fst p =? u) l).
Proof.
  intros A l u S. unfold slice, left_of, right_of. rewrite !filter_map_length, le_split.
  assert (E := sorted_split A l u S). set (a := filter (fun p => fst p <? u) l) in *. set (b := filter (fun p => fst p =? u) l) in *. clearbody a b.
  set (c := filter (fun p => u <? fst p) l) in *. clearbody c. subst l. rewrite !map_app. replace (skipn (List.length a) (map snd a ++ map snd b ++ map snd c)) with (map snd b ++ map snd c) by (rewrite <- (map_length snd a); symmetry; apply skipn_app_len).
  replace (List.length a + List.length b - List.length a)%nat with (List.length (map snd b)) by (rewrite map_length; lia).
  apply firstn_app_len.
Qed.
Lemma with_id_perm : forall A (l m : list (Z * A)) u, Permutation l m -> Permutation (map snd (filter (fun p => fst p =? u) l)) (map snd (filter (fun p => fst p =? u) m)).
Proof.
  intros A l m u P. apply Permutation_map. induction P; cbn.
  - apply Permutation_refl.
  - destruct (fst x =? u); [now apply perm_skip|assumption].
  - destruct (fst x =? u), (fst y =? u); try apply Permutation_refl. apply perm_swap.
  - eapply Permutation_trans; eassumption.
Qed.
(** The groups met by the loops. *)
Lemma groups : forall argsort A (ids : list Z) (values : list A), argsort_ok argsort -> List.length ids = List.length values ->
  exists oi ov, gather ids (argsort ids) = Ok oi /\ gather values (argsort ids) = Ok ov /\ Permutation oi ids /\
  forall u, Permutation (slice ov (left_of oi u) (right_of oi u)) (with_id u ids values).
Proof.
  intros argsort A ids values K L. destruct (K ids) as (P & S). destruct values as [|v0 values].
  { destruct ids; [|discriminate]. cbn in P. apply Permutation_sym, Permutation_nil in P. rewrite P. exists [], []. repeat split; constructor. }
  set (V := v0 :: values) in *. set (order := argsort ids) in *.
  assert (R : forall i, In i order -> (i < List.length ids)%nat) by (intros i I; apply (Permutation_in _ P), in_seq in I; lia).
  assert (R' : forall i, In i order -> (i < List.length V)%nat) by (intros i I; rewrite <- L; now apply R).
  exists (map (fun i => nth i ids 0) order), (map (fun i => nth i V v0) order). split; [now apply gather_ok|]. split; [now apply gather_ok|].
  assert (PI : forall B (l : list B) d, List.length l = List.length ids -> Permutation (map (fun i => nth i l d) order) l).
  { intros B l d E. eapply Permutation_trans; [apply Permutation_map, P|]. rewrite <- E, map_nth_seq. apply Permutation_refl. }
  split; [now apply PI|]. intros u. set (l := map (fun i => (nth i ids 0, nth i V v0)) order).
  assert (L1 : map fst l = map (fun i => nth i ids 0) order) by (unfold l; rewrite map_map; reflexivity).
  assert (L2 : map snd l = map (fun i => nth i V v0) order) by (unfold l; rewrite map_map; reflexivity).
  rewrite <- L1, <- L2, slice_group by (rewrite L1; now apply sorted_strong). unfold with_id. apply with_id_perm. unfold l.
  erewrite map_ext; [|intros i; symmetry; apply (nth_combine _ _ ids V 0 v0 i L)]. apply PI. rewrite combine_length, <- L. lia.
Qed.

(** unique *)
Lemma uinsert_in : forall x y l, In y (uinsert x l) <-> y = x \/ In y l.
Proof.
  induction l as [|z l IH]; cbn; [intuition|]. destruct (Z.ltb_spec x z); [cbn; intuition|]. destruct (Z.eqb_spec x z); cbn; [subst; intuition|rewrite IH; intuition].
Qed.
Lemma unique_in : forall l y, In y (unique l) <-> In y l.
Proof. induction l as [|x l IH]; intros y; cbn; [tauto|]. rewrite uinsert_in, IH. intuition. Qed.
Lemma uinsert_sorted : forall x l, StronglySorted Z.lt l -> StronglySorted Z.lt (uinsert x l).
Proof.
  induction l as [|y l IH]; intros S; cbn; [repeat constructor|]. apply StronglySorted_inv in S as (S & F). destruct (Z.ltb_spec x y).
  - constructor; [now constructor|]. constructor; [exact H|]. eapply Forall_impl; [|exact F]. intros z Q. lia.
  - destruct (Z.eqb_spec x y); [now constructor|]. constructor; [now apply IH|]. rewrite Forall_forall in *. intros z I. apply uinsert_in in I as [->|I]; [lia|now apply F].
Qed.
Lemma unique_sorted : forall l, StronglySorted Z.lt (unique l).
Proof. induction l as [|x l IH]; cbn; [constructor|]. now apply uinsert_sorted. Qed.
Lemma sorted_same : forall a b : list Z, StronglySorted Z.lt a -> StronglySorted Z.lt b -> (forall x, In x a <-> In x b) -> a = b.
Proof.
  induction a as [|x a IH]; intros [|y b] SA SB E.
  - reflexivity.
  - exfalso. apply (E y). left. reflexivity.
  - exfalso. apply (E x). left. reflexivity.
  - apply StronglySorted_inv in SA as (SA & FA), SB as (SB & FB). rewrite Forall_forall in FA, FB.
    assert (x = y). { destruct (proj1 (E x) (or_introl eq_refl)) as [->|I]; [reflexivity|]. destruct (proj2 (E y) (or_introl eq_refl)) as [->|J]; [reflexivity|]. specialize (FA _ J). specialize (FB _ I). lia. }
    subst y. f_equal. apply IH; [exact SA|exact SB|]. intros z. split; intros I.
    + destruct (proj1 (E z) (or_intror I)) as [<-|J]; [|exact J]. specialize (FA _ I). lia.
    + destruct (proj2 (E z) (or_intror I)) as [<-|J]; [|exact J]. specialize (FB _ I). lia.
Qed.
Lemma unique_perm : forall a b, Permutation a b -> unique a = unique b.
Proof. intros a b P. apply sorted_same; try apply unique_sorted. intros x. rewrite !unique_in. split; apply Permutation_in; [exact P|now apply Permutation_sym]. Qed.

(** set_nth *)
Lemma set_nth_length : forall A (l : list A) n x, List.length (set_nth n x l) = List.length l.
Proof. induction l as [|y l IH]; intros [|n] x; cbn; auto. Qed.
Lemma set_nth_get : forall A (l : list A) n m x, (n < List.length l)%nat -> nth_error (set_nth n x l) m = if Nat.eqb m n then Some x else nth_error l m.
Proof.
  induction l as [|y l IH]; intros [|n] [|m] x H; cbn in *; try lia; try reflexivity. apply IH. lia.
Qed.
Lemma fold_set : forall A (f : Z -> A) pix l, (forall i, In i pix -> 0 <= i < Z.of_nat (List.length l)) ->
  let r := fold_left (fun m idx => set_nth (Z.to_nat idx) (f idx) m) pix l in List.length r = List.length l /\
  forall p, (p < List.length l)%nat -> nth_error r p = if existsb (fun i => i =? Z.of_nat p) pix then Some (f (Z.of_nat p)) else nth_error l p.
Proof.
  intros A f. induction pix as [|i pix IH]; intros l H; cbn [fold_left]; [split; [reflexivity|intros; reflexivity]|].
  assert (I := H i (or_introl eq_refl)). destruct (IH (set_nth (Z.to_nat i) (f i) l)) as (L & G).
  { intros j J. rewrite set_nth_length. apply H. right. exact J. }
  rewrite set_nth_length in L, G. split; [exact L|]. intros p P. cbn [existsb]. rewrite (G p P). destruct (existsb (fun j => j =? Z.of_nat p) pix).
  - now rewrite orb_true_r.
  - rewrite orb_false_r, set_nth_get by lia. destruct (Nat.eqb_spec p (Z.to_nat i)), (Z.eqb_spec i (Z.of_nat p)); try lia; [now subst i|reflexivity].
Qed.

(** Values alike, with nan alike to itself. *)
Definition alike (a b : option Q) : Prop := match a, b with Some x, Some y => (x == y)%Q | None, None => True | _, _ => False end.
Lemma alike_refl : forall a, alike a a.
Proof. intros [a|]; cbn; [reflexivity|exact I]. Qed.
Lemma alike_trans : forall a b c, alike a b -> alike b c -> alike a c.
Proof. intros [a|] [b|] [c|]; cbn; try tauto. intros -> ->. reflexivity. Qed.
Lemma alike_sym : forall a b, alike a b -> alike b a.
Proof. intros [a|] [b|]; cbn; try tauto. intros ->. reflexivity. Qed.
Definition or_fill (fill v : option Q) : option Q := match v with None => fill | Some _ => v end.
Definition binned (reduce : list (option Q) -> option Q) (fill : option Q) (vs : list (option Q)) : option Q :=
  match vs with [] => fill | _ => or_fill fill (reduce vs) end.
Lemma existsb_in : forall l u, existsb (fun i => i =? u) l = true <-> In u l.
Proof. intros l u. rewrite existsb_exists. split; [intros (x & I & E); apply Z.eqb_eq in E; now subst|intros I; exists u; split; [exact I|apply Z.eqb_refl]]. Qed.
Lemma with_id_nil : forall A ids (values : list A) u, List.length ids = List.length values -> (with_id u ids values = [] <-> ~ In u ids).
Proof.
  intros A. unfold with_id. induction ids as [|i ids IH]; intros [|v values] u L; try discriminate; [cbn; tauto|]. cbn [combine filter fst].
  injection L as L. destruct (Z.eqb_spec i u) as [->|N]; cbn [map]; [split; [discriminate|intros H; exfalso; apply H; now left]|].
  rewrite (IH values u L). cbn. tauto.
Qed.
Lemma healbin_get : forall argsort reduce npix fill ids values, argsort_ok argsort ->
  (forall a b, Permutation a b -> alike (reduce a) (reduce b)) -> List.length ids = List.length values ->
  (forall i, In i ids -> 0 <= i < Z.of_nat npix) ->
  exists m, healbin argsort reduce npix fill ids values = Ok m /\ List.length m = npix /\
  forall p, (p < npix)%nat -> exists v, nth_error m p = Some v /\ alike v (binned reduce fill (with_id (Z.of_nat p) ids values)).
Proof.
  intros argsort reduce npix fill ids values K R L B. destruct (groups argsort _ ids values K L) as (oi & ov & G1 & G2 & P & S).
  unfold healbin. rewrite G1, G2. cbn [bind]. eexists. split; [reflexivity|].
  destruct (fold_set _ (fun idx => reduce (slice ov (left_of oi idx) (right_of oi idx))) (unique oi) (repeat fill npix)) as (LN & G).
  { intros i I. rewrite repeat_length. apply B, (Permutation_in _ P), unique_in, I. }
  rewrite repeat_length in LN, G. rewrite map_length. split; [exact LN|]. intros p Hp. rewrite nth_error_map, (G p Hp).
  destruct (existsb (fun i => i =? Z.of_nat p) (unique oi)) eqn:E.
  - rewrite existsb_in, unique_in in E. eexists. split; [reflexivity|]. apply (Permutation_in _ P) in E.
    assert (N : with_id (Z.of_nat p) ids values <> []) by (intros Q; now apply (with_id_nil _ _ _ _ L) in Q).
    assert (A := R _ _ (S (Z.of_nat p))). unfold binned. destruct (with_id (Z.of_nat p) ids values) as [|x l]; [congruence|].
    destruct (reduce (slice ov _ _)), (reduce (x :: l)); cbn in *; try tauto. apply alike_refl.
  - rewrite (nth_error_nth' _ fill) by (rewrite repeat_length; exact Hp). cbn [option_map]. eexists. split; [reflexivity|].
    replace (with_id (Z.of_nat p) ids values) with (@nil (option Q)).
    + cbn [binned]. rewrite nth_repeat. destruct fill; apply alike_refl.
    + symmetry. apply (with_id_nil _ _ _ _ L). intros I. apply (Permutation_in _ (Permutation_sym P)), unique_in, existsb_in in I. congruence.
Qed.
Lemma nan_add_alike : forall a b c d, alike a b -> alike c d -> alike (nan_add a c) (nan_add b d).
Proof. intros [a|] [b|] [c|] [d|]; cbn; try tauto. intros -> ->. reflexivity. Qed.
Lemma np_sum_perm : forall a b, Permutation a b -> alike (np_sum a) (np_sum b).
Proof.
  intros a b P. induction P; cbn.
  - reflexivity.
  - apply nan_add_alike; [apply alike_refl|assumption].
  - fold (np_sum l). destruct (np_sum l) as [s|], x as [x|], y as [y|]; cbn; try exact I. ring.
  - eapply alike_trans; eassumption.
Qed.

(** The cells of a multi-order map. *)
Lemma cell_decode : forall o p, 0 <= o -> 0 <= p < 12 * 4 ^ o -> order_of (4 * 4 ^ o + p) = o /\ pix_of (4 * 4 ^ o + p) = p.
Proof.
  intros o p O P. assert (E : order_of (4 * 4 ^ o + p) = o).
  { unfold order_of. assert (F : 4 * 4 ^ o = 2 ^ (2 * o + 2)) by (rewrite Z.pow_add_r, Z.pow_mul_r by lia; change (2 ^ 2) with 4; lia).
    assert (L1 : 2 * o + 2 <= Z.log2 (4 * 4 ^ o + p)) by (apply Z.log2_le_pow2; lia).
    assert (L2 : Z.log2 (4 * 4 ^ o + p) < 2 * o + 4).
    { apply Z.log2_lt_pow2; [lia|]. replace (2 * o + 4) with (2 * o + 2 + 2) by lia. rewrite (Z.pow_add_r 2 (2 * o + 2) 2) by lia. change (2 ^ 2) with 4. lia. }
    symmetry. apply Z.div_unique with (r := Z.log2 (4 * 4 ^ o + p) - 2 - 2 * o); lia. }
  split; [exact E|]. unfold pix_of. rewrite E. lia.
Qed.
Lemma cell_encode : forall u, 4 <= u -> 0 <= order_of u /\ 0 <= pix_of u < 12 * 4 ^ order_of u /\ 4 * 4 ^ order_of u + pix_of u = u.
Proof.
  intros u U. assert (O : 0 <= order_of u).
  { unfold order_of. apply Z.div_pos; [|lia]. assert (2 <= Z.log2 u) by (apply Z.log2_le_pow2; cbn; lia). lia. }
  split; [exact O|]. assert (F : 4 * 4 ^ order_of u = 2 ^ (2 * order_of u + 2)) by (rewrite Z.pow_add_r, Z.pow_mul_r by lia; change (2 ^ 2) with 4; lia).
  destruct (Z.log2_spec u ltac:(lia)) as (A & B). unfold pix_of in *. assert (D := Z.div_mod (Z.log2 u - 2) 2 ltac:(lia)). assert (M := Z.mod_pos_bound (Z.log2 u - 2) 2 ltac:(lia)).
  fold (order_of u) in D. set (o := order_of u) in *.
  assert (2 ^ (2 * o + 2) <= 2 ^ Z.log2 u) by (apply Z.pow_le_mono_r; lia).
  assert (2 ^ Z.succ (Z.log2 u) <= 2 ^ (2 * o + 2 + 2)) by (apply Z.pow_le_mono_r; lia). rewrite (Z.pow_add_r 2 (2 * o + 2) 2) in * by lia. change (2 ^ 2) with 4 in *. lia.
Qed.

(** Sums over pixels. *)
Definition total (l : list Q) : Q := fold_right Qplus 0%Q l.
Lemma np_sum_some : forall l, np_sum (map Some l) = Some (total l).
Proof. induction l as [|x l IH]; cbn; [reflexivity|]. unfold np_sum in IH. rewrite IH. reflexivity. Qed.
Lemma with_id_map : forall A B (f : A -> B) u ids values, with_id u ids (map f values) = map f (with_id u ids values).
Proof.
  intros A B f u. unfold with_id. induction ids as [|i ids IH]; intros [|v values]; try reflexivity. cbn [combine map filter fst]. destruct (i =? u); cbn [map snd]; now rewrite IH.
Qed.
Lemma total_add : forall l (f g : nat -> Q), (total (map (fun p => f p + g p) l) == total (map f l) + total (map g l))%Q.
Proof. induction l as [|x l IH]; intros f g; cbn; [reflexivity|]. fold (total (map (fun p => f p + g p)%Q l)) (total (map f l)) (total (map g l)). rewrite IH. ring. Qed.
Lemma total_ext : forall l (f g : nat -> Q), (forall x, In x l -> f x == g x)%Q -> (total (map f l) == total (map g l))%Q.
Proof.
  induction l as [|x l IH]; intros f g H; cbn; [reflexivity|]. fold (total (map f l)) (total (map g l)).
  rewrite (H x (or_introl eq_refl)), (IH f g) by (intros; apply H; right; assumption). reflexivity.
Qed.
Lemma total_single : forall n k (i : nat) x, (k <= i < k + n)%nat -> (total (map (fun p => if Nat.eqb p i then x else 0) (seq k n)) == x)%Q.
Proof.
  induction n as [|n IH]; intros k i x H; [lia|]. cbn [seq map]. unfold total. cbn [fold_right].
  fold (total (map (fun p => if Nat.eqb p i then x else 0%Q) (seq (S k) n))). destruct (Nat.eqb_spec k i) as [<-|N].
  - rewrite (total_ext _ _ (fun _ => 0%Q)).
    + assert (Z0 : forall l : list nat, (total (map (fun _ => 0%Q) l) == 0)%Q) by (induction l as [|y l E]; cbn; [reflexivity|]; fold (total (map (fun _ : nat => 0%Q) l)); rewrite E; reflexivity).
      rewrite Z0. ring.
    + intros y I. apply in_seq in I. destruct (Nat.eqb_spec y k); [lia|reflexivity].
  - rewrite IH by lia. ring.
Qed.
Lemma total_groups : forall npix ids values, List.length ids = List.length values -> (forall i, In i ids -> 0 <= i < Z.of_nat npix) ->
  (total (map (fun p => total (with_id (Z.of_nat p) ids values)) (seq 0 npix)) == total values)%Q.
Proof.
  intros npix. induction ids as [|i ids IH]; intros [|v values] L B; try discriminate.
  - rewrite (total_ext _ _ (fun _ => 0%Q)) by (intros; reflexivity). induction (seq 0 npix) as [|y l E]; cbn; [reflexivity|]. fold (total (map (fun _ : nat => 0%Q) l)). rewrite E. reflexivity.
  - injection L as L. rewrite (total_ext _ _ (fun p => (if Nat.eqb p (Z.to_nat i) then v else 0) + total (with_id (Z.of_nat p) ids values))%Q).
    + rewrite total_add, IH by (auto; intros; apply B; right; assumption). rewrite total_single by (specialize (B i (or_introl eq_refl)); lia). reflexivity.
    + intros p I. unfold with_id. cbn [combine filter fst]. assert (B0 := B i (or_introl eq_refl)). destruct (Z.eqb_spec i (Z.of_nat p)), (Nat.eqb_spec p (Z.to_nat i)); try lia; cbn [map snd total fold_right].
      * fold (with_id (Z.of_nat p) ids values). reflexivity.
      * fold (with_id (Z.of_nat p) ids values). ring.
Qed.
