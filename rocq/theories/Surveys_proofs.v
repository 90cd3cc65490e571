(** Proofs about the base, deep drilling and field surveys. *)
From Coq Require Import List ZArith QArith Bool String Ascii Lia Permutation Sorted SetoidList Setoid.
From Verif Require Import Base IntRounded Obs Queue Core Surveys.
From Verif Require Script.
Import ListNotations.
Open Scope nat_scope.

Lemma prefixb_spec : forall p s, Script.prefixb p s = true <-> exists b, s = (p ++ b)%string.
Proof.
  induction p as [|x p IH]; intros s; cbn.
  - split; [exists s; reflexivity|reflexivity].
  - destruct s as [|y s]; [split; [discriminate|intros (b & E); discriminate]|].
    rewrite andb_true_iff, Ascii.eqb_eq, IH. split.
    + intros (-> & b & ->). now exists b.
    + intros (b & E). injection E as -> ->. split; [reflexivity|now exists b].
Qed.

Lemma contains_spec : forall p s, contains p s = true <-> exists a b, s = (a ++ p ++ b)%string.
Proof.
  intros p. induction s as [|y s IH]; cbn [Script.contains]; rewrite orb_true_iff, prefixb_spec.
  - split.
    + intros [(b & E)|H]; [|discriminate]. now exists ""%string, b.
    + intros (a & b & E). left. destruct a; [now exists b|discriminate].
  - rewrite IH. split.
    + intros [(b & E)|(a & b & E)]; [now exists ""%string, b|]. exists (String y a), b. cbn. now rewrite <- E.
    + intros (a & b & E). destruct a as [|z a]; [left; now exists b|]. right. injection E as _ E. now exists a, b.
Qed.

Section Facts.
Context {W : Type}.

Lemma feasible_iff : forall (bs : list (bfun W)) c,
  feasible bs c = true <-> forall b, In b bs -> bf_feas b c = true.
Proof.
  induction bs as [|b bs IH]; intros c; cbn.
  - split; [intros _ b []|reflexivity].
  - destruct (bf_feas b c) eqn:E.
    + rewrite IH. split; [intros H x [<-|Hx]; auto|intros H x Hx; apply H; now right].
    + split; [discriminate|intros H]. rewrite <- E. apply H. now left.
Qed.

Lemma feasible_false : forall (bs : list (bfun W)) c,
  feasible bs c = false <-> exists b, In b bs /\ bf_feas b c = false.
Proof.
  induction bs as [|b bs IH]; intros c; cbn.
  - split; [discriminate|intros (b & [] & _)].
  - destruct (bf_feas b c) eqn:E.
    + rewrite IH. split; [intros (x & Hx & H); exists x; auto|intros (x & [<-|Hx] & H); [congruence|now exists x]].
    + split; [intros _; exists b; auto|reflexivity].
Qed.

(** ** Sequences *)
Lemma filter_map_comm : forall A B (f : A -> B) (p : B -> bool) (q : A -> bool) l,
  (forall x, p (f x) = q x) -> filter p (map f l) = map f (filter q l).
Proof.
  induction l as [|x l IH]; intros H; cbn; [reflexivity|]. rewrite H. destruct (q x); cbn; now rewrite IH.
Qed.

Lemma partition_perm : forall A (p : A -> bool) l, Permutation (filter p l ++ filter (fun x => negb (p x)) l) l.
Proof.
  induction l as [|x l IH]; cbn; [reflexivity|]. destruct (p x); cbn; [now constructor|].
  symmetry. apply Permutation_cons_app. now symmetry.
Qed.

Lemma filter_sorted : forall A (R : A -> A -> Prop) (p : A -> bool) l, StronglySorted R l -> StronglySorted R (filter p l).
Proof.
  induction 1 as [|x l S IH F]; cbn; [constructor|]. destruct (p x); [|exact IH]. constructor; [exact IH|].
  apply Forall_forall. intros y Hy. apply filter_In in Hy. rewrite Forall_forall in F. now apply F.
Qed.

Lemma Qsum_perm : forall l l', Permutation l l' -> (Qsum l == Qsum l')%Q.
Proof.
  induction 1; cbn; [reflexivity| |ring|now rewrite IHPermutation1].
  unfold Qsum in *. cbn. now rewrite IHPermutation.
Qed.

Lemma n_bands_spec : forall l bl, NoDup bl -> (forall b, In b bl <-> exists o, In o l /\ o_band o = b) ->
  n_bands l = List.length bl.
Proof.
  intros l bl N H. unfold n_bands. apply Permutation_length, NoDup_Permutation; [apply NoDup_nodup|exact N|].
  intros b. rewrite nodup_In, in_map_iff, H. split; intros (o & A & B); exists o; auto.
Qed.

End Facts.

(** ** Sorting by band *)
Definition band_le (a b : obs) : Prop := String.compare (o_band a) (o_band b) <> Gt.
Definition sorts (order : list obs -> list obs) : Prop :=
  forall l, Permutation (order l) l /\ StronglySorted band_le (order l).

(** An insertion sort, to show that sorting functions exist. *)
Fixpoint band_ins (o : obs) (l : list obs) : list obs :=
  match l with
  | [] => [o]
  | x :: r => match String.compare (o_band o) (o_band x) with Gt => x :: band_ins o r | _ => o :: l end
  end.
Definition band_sort (l : list obs) : list obs := fold_right band_ins [] l.

Lemma scompare_refl : forall s, String.compare s s = Eq.
Proof.
  induction s as [|a s IH]; cbn; [reflexivity|].
  assert (E : Ascii.compare a a = Eq).
  { unfold Ascii.compare. apply N.compare_refl. }
  now rewrite E.
Qed.

Lemma acompare_eq : forall a b, Ascii.compare a b = Eq -> a = b.
Proof.
  intros a b H. unfold Ascii.compare in H. apply N.compare_eq in H.
  rewrite <- (ascii_N_embedding a), <- (ascii_N_embedding b). now rewrite H.
Qed.

Lemma scompare_trans : forall s t u c, String.compare s t = c -> String.compare t u = c -> String.compare s u = c.
Proof.
  induction s as [|a s IH]; intros [|b t] [|d u] c H1 H2; cbn in *; try congruence.
  destruct (Ascii.compare a b) eqn:E1; destruct (Ascii.compare b d) eqn:E2; subst; try congruence.
  - rewrite (acompare_eq _ _ E1), E2. eapply IH; eauto.
  - now rewrite (acompare_eq _ _ E1), E2.
  - now rewrite (acompare_eq _ _ E1), E2.
  - now rewrite <- (acompare_eq _ _ E2), E1.
  - unfold Ascii.compare in *. rewrite N.compare_lt_iff in E1, E2.
    assert (L : (N_of_ascii a < N_of_ascii d)%N) by lia. rewrite <- N.compare_lt_iff in L. now rewrite L.
  - now rewrite <- (acompare_eq _ _ E2), E1.
  - unfold Ascii.compare in *. rewrite N.compare_gt_iff in E1, E2.
    assert (L : (N_of_ascii d < N_of_ascii a)%N) by lia. rewrite <- N.compare_gt_iff in L. now rewrite L.
Qed.

Lemma band_le_trans : forall a b c, band_le a b -> band_le b c -> band_le a c.
Proof.
  unfold band_le. intros a b c H1 H2 H3.
  destruct (String.compare (o_band a) (o_band b)) eqn:E1; [| |now apply H1].
  - apply String.compare_eq_iff in E1. rewrite E1 in H3. contradiction.
  - destruct (String.compare (o_band b) (o_band c)) eqn:E2; [| |now apply H2].
    + apply String.compare_eq_iff in E2. rewrite E2 in E1. congruence.
    + assert (String.compare (o_band a) (o_band c) = Lt) by (eapply scompare_trans; eauto). congruence.
Qed.

Lemma band_ins_perm : forall o l, Permutation (band_ins o l) (o :: l).
Proof.
  induction l as [|x l IH]; cbn; [reflexivity|]. destruct (String.compare _ _); try reflexivity.
  transitivity (x :: o :: l); [now constructor|constructor].
Qed.

Lemma band_ins_sorted : forall o l, StronglySorted band_le l -> StronglySorted band_le (band_ins o l).
Proof.
  induction 1 as [|x l S IH F]; cbn; [repeat constructor|].
  destruct (String.compare (o_band o) (o_band x)) eqn:E.
  1,2: constructor; [now constructor|]; constructor; [unfold band_le; congruence|];
    eapply Forall_impl; [|exact F]; intros y Hy; eapply band_le_trans; [|exact Hy]; unfold band_le; congruence.
  constructor; [exact IH|]. apply Forall_forall. intros y Hy.
  apply (Permutation_in _ (band_ins_perm o l)) in Hy. destruct Hy as [<-|Hy].
  - unfold band_le. rewrite String.compare_antisym, E. discriminate.
  - rewrite Forall_forall in F. now apply F.
Qed.

Lemma band_sort_sorts : sorts band_sort.
Proof.
  intros l. induction l as [|x l [P S]]; cbn; [split; constructor|]. split.
  - rewrite band_ins_perm. now constructor.
  - now apply band_ins_sorted.
Qed.

(** Rows with the same band that are equal leave only one sorted arrangement. *)
Lemma sorted_unique : forall l l', (forall a b, In a l -> In b l -> o_band a = o_band b -> a = b) ->
  Permutation l l' -> StronglySorted band_le l -> StronglySorted band_le l' -> l = l'.
Proof.
  induction l as [|x l IH]; intros l' U P S S'.
  - apply Permutation_nil in P. now subst.
  - destruct l' as [|y l']; [apply Permutation_sym, Permutation_nil in P; discriminate|].
    assert (E : x = y).
    { apply U; [now left| |].
      - apply (Permutation_in _ (Permutation_sym P)). now left.
      - inversion S as [|? ? S1 F1]; subst. inversion S' as [|? ? S2 F2]; subst.
        assert (A : In y (x :: l)) by (apply (Permutation_in _ (Permutation_sym P)); now left).
        assert (B : In x (y :: l')) by (apply (Permutation_in _ P); now left).
        rewrite Forall_forall in F1, F2. destruct A as [->|A]; [reflexivity|]. destruct B as [->|B]; [reflexivity|].
        apply F1 in A. apply F2 in B. unfold band_le in *. rewrite String.compare_antisym in B.
        destruct (String.compare (o_band x) (o_band y)) eqn:E; cbn in *; try congruence.
        now apply String.compare_eq_iff. }
    subst y. f_equal. inversion S; inversion S'; subst. apply IH; auto.
    + intros a b Ha Hb. apply U; now right.
    + eapply Permutation_cons_inv; eauto.
Qed.

Lemma dd_expand_uniform : forall ra dec t u nexp name nvis bands a b,
  In a (dd_expand ra dec t u nexp name nvis bands) -> In b (dd_expand ra dec t u nexp name nvis bands) ->
  o_band a = o_band b -> a = b.
Proof.
  intros ra dec t u nexp name nvis bands a b Ha Hb E. unfold dd_expand in *. apply in_flat_map in Ha, Hb.
  destruct Ha as ((n1 & b1) & _ & Ha). destruct Hb as ((n2 & b2) & _ & Hb).
  apply repeat_spec in Ha, Hb. subst. cbn in E. now subst.
Qed.

(** ** Ignored notes *)
Lemma good_note_iff : forall ig o, good_note ig o = true <->
  forall i, In i ig -> ~ exists a b, o_note o = (a ++ i ++ b)%string.
Proof.
  intros ig o. unfold good_note. rewrite negb_true_iff, <- not_true_iff_false, existsb_exists. split.
  - intros H i Hi (a & b & E). apply H. exists i. split; [exact Hi|]. apply contains_spec. now exists a, b.
  - intros H (i & Hi & E). apply contains_spec in E. now apply (H i).
Qed.

Lemma filter_filter : forall A (p q : A -> bool) l, filter p (filter q l) = filter (fun x => q x && p x) l.
Proof.
  induction l as [|x l IH]; cbn; [reflexivity|]. destruct (q x) eqn:E; cbn; [destruct (p x)|]; now rewrite IH.
Qed.

Lemma filter_all : forall A (p : A -> bool) l, (forall x, p x = true) -> filter p l = l.
Proof. induction l as [|x l IH]; intros H; cbn; [reflexivity|]. now rewrite H, IH. Qed.

Lemma sub_batch_fold : forall ig l lp,
  fold_left (fun (acc : list obs * list (obs * Z)) i =>
    (filter (fun o => negb (contains i (o_note o))) (fst acc),
     filter (fun p => negb (contains i (o_note (fst p)))) (snd acc))) ig (l, lp) =
  (filter (good_note ig) l, filter (fun p => good_note ig (fst p)) lp).
Proof.
  induction ig as [|i ig IH]; intros l lp; cbn [fold_left].
  - f_equal; now rewrite filter_all.
  - cbn [fst snd]. rewrite IH, !filter_filter. f_equal; apply filter_ext; intros x; unfold good_note; cbn [existsb];
      now rewrite negb_orb.
Qed.

(** ** The weighted sum, pixel by pixel *)
(** The value at a pixel; a scalar has it everywhere. *)
Definition at_pix (v : val) (i : nat) : er :=
  match v with VS x => x | VM l => nth i l ENaN end.
(** Maps have [n] pixels. *)
Definition shaped (n : nat) (v : val) : Prop :=
  match v with VS _ => True | VM l => List.length l = n end.
Definition is_map (v : val) : bool := match v with VS _ => false | VM _ => true end.

Lemma zip_add_ok : forall l m, List.length l = List.length m ->
  exists r, zip_add l m = Ok r /\ List.length r = List.length l /\
    forall i, i < List.length l -> nth i r ENaN = er_add (nth i l ENaN) (nth i m ENaN).
Proof.
  induction l as [|x l IH]; intros [|y m] H; try discriminate; cbn.
  - exists []. split; [reflexivity|]. split; [reflexivity|]. intros i Hi. lia.
  - injection H as H. destruct (IH m H) as (r & -> & L & N). exists (er_add x y :: r). cbn. split; [reflexivity|].
    split; [now rewrite L|]. intros [|i] Hi; [reflexivity|]. apply N. lia.
Qed.

Lemma nth_map_er : forall (f : er -> er) l i, i < List.length l -> nth i (map f l) ENaN = f (nth i l ENaN).
Proof. intros f l i H. rewrite (nth_indep _ ENaN (f ENaN)) by (now rewrite map_length). apply map_nth. Qed.

Lemma vadd_ok : forall n a b, shaped n a -> shaped n b -> exists v, vadd a b = Ok v /\ shaped n v /\
  is_map v = is_map a || is_map b /\ forall i, i < n -> at_pix v i = er_add (at_pix a i) (at_pix b i).
Proof.
  intros n [x|l] [y|m] Ha Hb; cbn in *.
  - eexists. split; [reflexivity|]. auto.
  - eexists. split; [reflexivity|]. cbn. rewrite map_length. split; [exact Hb|]. split; [reflexivity|].
    intros i Hi. apply nth_map_er. lia.
  - eexists. split; [reflexivity|]. cbn. rewrite map_length. split; [exact Ha|]. split; [reflexivity|].
    intros i Hi. apply (nth_map_er (fun x => er_add x y)). lia.
  - destruct (zip_add_ok l m) as (r & -> & L & N); [lia|]. cbn. eexists. split; [reflexivity|]. cbn. split; [lia|].
    split; [reflexivity|]. intros i Hi. apply N. lia.
Qed.

Lemma vscale_ok : forall n v w, shaped n v -> shaped n (vscale v w) /\ is_map (vscale v w) = is_map v /\
  forall i, i < n -> at_pix (vscale v w) i = er_scale (at_pix v i) w.
Proof.
  intros n [x|l] w H; cbn in *; [auto|]. rewrite map_length. split; [exact H|]. split; [reflexivity|].
  intros i Hi. apply (nth_map_er (fun x => er_scale x w)). lia.
Qed.

(** The sum at one pixel. *)
Definition pixel_sum {W} (a : er) (l : list (bfun W * Q)) (c : scond W) (i : nat) : er :=
  fold_left (fun a p => er_add a (er_scale (at_pix (bf_val (fst p) c) i) (snd p))) l a.

Lemma wsum_ok : forall W n (l : list (bfun W * Q)) c acc,
  shaped n acc -> (forall b w, In (b, w) l -> shaped n (bf_val b c)) ->
  exists v, wsum acc l c = Ok v /\ shaped n v /\
    is_map v = is_map acc || existsb (fun p => is_map (bf_val (fst p) c)) l /\
    forall i, i < n -> at_pix v i = pixel_sum (at_pix acc i) l c i.
Proof.
  intros W n. induction l as [|(b & w) l IH]; intros c acc Ha Hl; cbn [wsum].
  - exists acc. cbn. rewrite orb_false_r. auto.
  - destruct (vscale_ok n (bf_val b c) w) as (S1 & M1 & V1); [apply (Hl b w); now left|].
    destruct (vadd_ok n acc (vscale (bf_val b c) w) Ha S1) as (v & -> & S2 & M2 & V2). cbn [bind].
    destruct (IH c v S2) as (v' & -> & S3 & M3 & V3); [intros b0 w0 Hb0; apply (Hl b0 w0); now right|].
    exists v'. split; [reflexivity|]. split; [exact S3|]. split.
    + rewrite M3, M2, M1. cbn. now rewrite orb_assoc.
    + intros i Hi. rewrite V3, V2, V1 by assumption. reflexivity.
Qed.
