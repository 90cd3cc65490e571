(** Proofs about the Markov decision surveys. *)
From Coq Require Import List ZArith QArith Qround Bool String Lia Lqa Permutation Sorted.
From Verif Require Import Base IntRounded Obs Queue Core Core_proofs Surveys Surveys_proofs Blob.
Import ListNotations.
Open Scope nat_scope.

(** ** Maxima *)
Lemma er_eqb_refl : forall x, er_isnan x = false -> er_eqb x x = true.
Proof. intros [| |q|] H; cbn in *; try discriminate; auto. apply Qeq_bool_iff. reflexivity. Qed.

Lemma hd_where_from : forall A (p : A -> bool) l i k, hd_error (where_from p i l) = Some k ->
  exists j x, k = i + j /\ nth_error l j = Some x /\ p x = true /\
    forall j' y, j' < j -> nth_error l j' = Some y -> p y = false.
Proof.
  induction l as [|x l IH]; intros i k H; cbn in H; [discriminate|]. destruct (p x) eqn:E.
  - cbn in H. injection H as <-. exists 0, x. split; [lia|]. split; [reflexivity|]. split; [exact E|]. intros j' y Hj. lia.
  - destruct (IH (S i) k H) as (j & y & -> & N & P & F). exists (S j), y. split; [lia|]. split; [exact N|]. split; [exact P|].
    intros [|j'] z Hj Hz; [cbn in Hz; injection Hz as <-; exact E|]. apply (F j' z); [lia|exact Hz].
Qed.

Lemma hd_where_none : forall A (p : A -> bool) l i, hd_error (where_from p i l) = None -> forall x, In x l -> p x = false.
Proof.
  induction l as [|x l IH]; intros i H y Hy; [contradiction|]. cbn in H. destruct (p x) eqn:E; [discriminate|].
  destruct Hy as [<-|Hy]; [exact E|]. eapply IH; eauto.
Qed.

(** The first maximum of a list: its position. *)
Lemma argmax_spec : forall l k, hd_error (np_where (fun x => er_eqb x (nanmax l)) l) = Some k ->
  exists x, nth_error l k = Some x /\ er_isnan x = false /\ (forall y, In y l -> er_isnan y = false -> er_le y x) /\
    forall j y, j < k -> nth_error l j = Some y -> ~ er_le x y.
Proof.
  intros l k H. apply hd_where_from in H. destruct H as (j & x & -> & N & P & F). cbn [plus] in *.
  exists x. split; [exact N|].
  destruct (nanmax_spec l) as [(E & _)|(I & NN & B)]; [rewrite E in P; destruct x; discriminate|].
  assert (NX : er_isnan x = false) by (destruct x; [discriminate| | |]; reflexivity).
  split; [exact NX|]. apply er_eqb_le in P. destruct P as [P1 P2]. split.
  - intros y Hy Hn. eapply er_le_trans; [apply B; auto|exact P2].
  - intros i y Hi Hy L. specialize (F i y Hi Hy). rewrite <- not_true_iff_false in F. apply F.
    apply er_le_antisym; [|eapply er_le_trans; eauto].
    apply B; [eapply nth_error_In; eauto|]. now destruct y; destruct x.
Qed.

Lemma argmax_none : forall l, hd_error (np_where (fun x => er_eqb x (nanmax l)) l) = None ->
  forall x, In x l -> er_isnan x = true.
Proof.
  intros l H x Hx. destruct (nanmax_spec l) as [(_ & A)|(I & NN & B)]; [auto|].
  pose proof (hd_where_none _ _ _ _ H _ I) as K. cbn in K. rewrite er_eqb_refl in K by exact NN. discriminate.
Qed.

Lemma get_pix_nth : forall m i x, nth_error m i = Some x -> get_pix m i = x.
Proof. intros. unfold get_pix. now apply nth_error_nth. Qed.

Lemma get_pix_over : forall m i, List.length m <= i -> get_pix m i = ENaN.
Proof. intros. unfold get_pix. now apply nth_overflow. Qed.

Lemma get_pix_in : forall m i, er_isnan (get_pix m i) = false -> i < List.length m /\ In (get_pix m i) m.
Proof.
  intros m i H. destruct (le_lt_dec (List.length m) i) as [L|L]; [rewrite get_pix_over in H by exact L; discriminate|].
  split; [exact L|]. apply nth_In. exact L.
Qed.

(** [p] is the first pixel with the largest reward. *)
Definition is_peak (m : list er) (p : nat) : Prop :=
  p < List.length m /\ er_isnan (get_pix m p) = false /\
  (forall i, er_isnan (get_pix m i) = false -> er_le (get_pix m i) (get_pix m p)) /\
  (forall i, i < p -> ~ er_le (get_pix m p) (get_pix m i)).

Lemma peak_spec : forall m p, peak m = Some p -> is_peak m p.
Proof.
  intros m p H. apply argmax_spec in H. destruct H as (x & N & NN & B & F).
  pose proof (get_pix_nth _ _ _ N) as G. unfold is_peak. rewrite G. split; [apply nth_error_Some; congruence|].
  split; [exact NN|]. split.
  - intros i Hi. apply get_pix_in in Hi as Hi'. apply B; [apply Hi'|exact Hi].
  - intros i Hi. apply (F i); [exact Hi|]. unfold get_pix. apply nth_error_nth'.
    assert (p < List.length m) by (apply nth_error_Some; congruence). lia.
Qed.

Lemma peak_none : forall m, peak m = None -> forall x, In x m -> er_isnan x = true.
Proof. intros m H. now apply argmax_none. Qed.

Lemma peak_ex : forall m, (exists i, er_isnan (get_pix m i) = false) -> exists p, peak m = Some p.
Proof.
  intros m (i & Hi). destruct (peak m) as [p|] eqn:E; [now exists p|]. exfalso.
  pose proof (peak_none m E (get_pix m i)) as K. rewrite K in Hi; [discriminate|]. now apply get_pix_in.
Qed.

Lemma peak_unique : forall m p q, is_peak m p -> is_peak m q -> p = q.
Proof.
  intros m p q (Lp & Np & Bp & Fp) (Lq & Nq & Bq & Fq). destruct (lt_eq_lt_dec p q) as [[L|E]|L]; [|exact E|].
  - exfalso. apply (Fq p L). now apply Bp.
  - exfalso. apply (Fp q L). now apply Bq.
Qed.

(** ** Rewards *)
Section Rewards.
Context {W : Type}.
Variable near : nat -> nat -> bool.
Variable pixdeg conv : Q.

Lemma bf_loop_false : forall (l : list (bfun W * Q)) b w c, In (b, w) l -> bf_feas b c = false -> bf_loop (map fst l) c = Some false.
Proof.
  intros l b w c Hb Hf. unfold bf_loop. destruct l as [|x l]; [contradiction|]. cbn [map].
  f_equal. change (feasible (map fst (x :: l)) c = false). apply feasible_false. exists b. split; [|exact Hf].
  apply in_map_iff. now exists (b, w).
Qed.

(** Whatever the survey, its reward is -inf or the weighted sum. *)
Lemma markov_reward_cases : forall area (l : list (bfun W * Q)) c v, markov_reward near pixdeg conv area l c = Ok v ->
  v = VS ENInf \/ basic_reward l c = Ok v.
Proof.
  intros area l c v H. unfold markov_reward in H.
  destruct (markov_feasible near pixdeg conv false area l c) as [[|]|]; cbn in H; try discriminate; [|left; congruence].
  destruct (basic_reward l c) as [u|]; cbn in H; [|discriminate]. destruct area as [a|]; [|right; congruence].
  destruct u as [x|m]; [discriminate|]. destruct (Qltb _ _); [left; congruence|right; congruence].
Qed.
Lemma blob_reward_cases : forall area (l : list (bfun W * Q)) c v, blob_reward near pixdeg conv area l c = Ok v ->
  v = VS ENInf \/ (basic_reward l c = Ok v /\ forall a, area = Some a -> exists m p, v = VM m /\ peak m = Some p /\
    (a * conv <= inject_Z (Z.of_nat (List.length (filter (near p) (good_pix m)))) * (pixdeg * conv))%Q).
Proof.
  intros area l c v H. unfold blob_reward in H.
  destruct (markov_feasible near pixdeg conv true area l c) as [[|]|]; cbn [bind] in H; try discriminate; [|left; congruence].
  destruct (basic_reward l c) as [u|]; cbn [bind] in H; [|discriminate]. destruct area as [a|].
  - destruct u as [x|m]; [discriminate|]. destruct (peak m) as [p|] eqn:P; [|left; congruence]. cbv zeta in H.
    destruct (Qltb _ _) eqn:Q; [left; congruence|]. right. injection H as <-. split; [reflexivity|].
    intros a' [= <-]. exists m, p. split; [reflexivity|]. split; [exact P|]. now apply Qltb_false.
  - right. split; [congruence|]. intros a [=].
Qed.
Lemma pairs_reward_cases : forall area extra (l : list (bfun W * Q)) c v, pairs_reward near pixdeg conv area extra l c = Ok v ->
  v = VS ENInf \/ basic_reward l c = Ok v.
Proof.
  intros area extra l c v H. unfold pairs_reward in H.
  destruct (pairs_feasible near pixdeg conv area extra l c) as [[|]|]; cbn in H; try discriminate; [right; exact H|left; congruence].
Qed.

Lemma infeasible_rewards : forall area extra (l : list (bfun W * Q)) b w c, In (b, w) l -> bf_feas b c = false ->
  markov_reward near pixdeg conv area l c = Ok (VS ENInf) /\ blob_reward near pixdeg conv area l c = Ok (VS ENInf) /\
  pairs_reward near pixdeg conv area extra l c = Ok (VS ENInf).
Proof.
  intros area extra l b w c Hb Hf. pose proof (bf_loop_false _ _ _ _ Hb Hf) as E.
  unfold markov_reward, blob_reward, pairs_reward, markov_feasible, pairs_feasible. rewrite E. auto.
Qed.

End Rewards.

(** ** Rounding *)
Lemma round_even_bound : forall q, (inject_Z (round_even q) - (1 # 2) <= q <= inject_Z (round_even q) + (1 # 2))%Q.
Proof.
  intros q. unfold round_even. pose proof (Qfloor_le q) as L. pose proof (Qlt_floor q) as U.
  rewrite inject_Z_plus in U. change (inject_Z 1) with 1%Q in U.
  set (f := Qfloor q) in *. cbv zeta. destruct (Qltb _ _) eqn:E1.
  - apply Qltb_lt in E1. split; lra.
  - apply Qltb_false in E1. destruct (Qltb (1 # 2) _) eqn:E2.
    + apply Qltb_lt in E2. rewrite inject_Z_plus. change (inject_Z 1) with 1%Q. split; lra.
    + apply Qltb_false in E2. destruct (Z.even f).
      * split; lra.
      * rewrite inject_Z_plus. change (inject_Z 1) with 1%Q. split; lra.
Qed.

Lemma Qmin_list_spec : forall l d, (Qmin_list d l <= d)%Q /\ (forall x, In x l -> (Qmin_list d l <= x)%Q) /\ (Qmin_list d l = d \/ In (Qmin_list d l) l).
Proof.
  unfold Qmin_list. induction l as [|x l IH]; intros d; cbn [fold_left].
  - split; [apply Qle_refl|]. split; [intros x []|now left].
  - destruct (Qltb x d) eqn:E; destruct (IH (if Qltb x d then x else d)) as (A & B & C); rewrite E in A, B, C.
    + apply Qltb_lt in E. split; [eapply Qle_trans; [exact A|now apply Qlt_le_weak]|]. split.
      * intros y [<-|Hy]; auto.
      * destruct C as [C|C]; [right; left; congruence|right; now right].
    + apply Qltb_false in E. split; [exact A|]. split.
      * intros y [<-|Hy]; [eapply Qle_trans; eauto|auto].
      * destruct C as [C|C]; [now left|right; now right].
Qed.

(** ** Sorting *)
Lemma er_sort_le_total : forall x y, er_sort_le x y = false -> er_sort_le y x = true.
Proof.
  intros [| |a|] [| |b|] H; cbn in *; try discriminate; auto. apply Qle_bool_iff. apply Qle_bool_false in H. now apply Qlt_le_weak.
Qed.
Lemma er_sort_le_trans : forall x y z, er_sort_le x y = true -> er_sort_le y z = true -> er_sort_le x z = true.
Proof.
  intros [| |a|] [| |b|] [| |c|] H1 H2; cbn in *; try discriminate; auto.
  apply Qle_bool_iff in H1, H2. apply Qle_bool_iff. eapply Qle_trans; eauto.
Qed.
Lemma er_sort_le_er : forall x y, er_isnan y = false -> er_sort_le x y = true -> er_le x y.
Proof. intros [| |a|] [| |b|] N H; cbn in *; try discriminate; auto. now apply Qle_bool_iff. Qed.

Section KeySort.
Context {A : Type}.
Variable key : A -> er.
Definition kle (a b : A) : Prop := er_sort_le (key a) (key b) = true.

Lemma key_ins_perm : forall x l, Permutation (key_ins key x l) (x :: l).
Proof.
  induction l as [|y l IH]; cbn; [reflexivity|]. destruct (er_sort_le _ _); [reflexivity|].
  transitivity (y :: x :: l); [now constructor|constructor].
Qed.
Lemma key_sort_perm : forall l, Permutation (key_sort key l) l.
Proof. induction l as [|x l IH]; cbn; [reflexivity|]. rewrite key_ins_perm. now constructor. Qed.
Lemma key_ins_sorted : forall x l, StronglySorted kle l -> StronglySorted kle (key_ins key x l).
Proof.
  induction 1 as [|y l S IH F]; cbn; [repeat constructor|]. destruct (er_sort_le (key x) (key y)) eqn:E.
  - constructor; [now constructor|]. constructor; [exact E|]. eapply Forall_impl; [|exact F].
    intros z Hz. unfold kle in *. eapply er_sort_le_trans; eauto.
  - constructor; [exact IH|]. apply Forall_forall. intros z Hz. apply (Permutation_in _ (key_ins_perm x l)) in Hz.
    destruct Hz as [<-|Hz]; [now apply er_sort_le_total|]. rewrite Forall_forall in F. now apply F.
Qed.
Lemma key_sort_sorted : forall l, StronglySorted kle (key_sort key l).
Proof. induction l as [|x l IH]; cbn; [constructor|]. now apply key_ins_sorted. Qed.
End KeySort.

Lemma sorted_app : forall A (R : A -> A -> Prop) l1 l2, StronglySorted R (l1 ++ l2) <->
  StronglySorted R l1 /\ StronglySorted R l2 /\ forall a b, In a l1 -> In b l2 -> R a b.
Proof.
  induction l1 as [|x l1 IH]; intros l2; cbn.
  - split; [intros H; repeat split; [constructor|exact H|intros a b []]|tauto].
  - split.
    + intros H. inversion H as [|? ? S F]; subst. apply IH in S. destruct S as (S1 & S2 & S3). rewrite Forall_app in F.
      destruct F as [F1 F2]. split; [now constructor|]. split; [exact S2|]. intros a b [<-|Ha] Hb; [|auto].
      rewrite Forall_forall in F2. auto.
    + intros (S1 & S2 & S3). inversion S1 as [|? ? S F]; subst. constructor.
      * apply IH. repeat split; auto.
      * apply Forall_app. split; [exact F|]. apply Forall_forall. auto.
Qed.

Lemma sorted_rev : forall A (R : A -> A -> Prop) l, StronglySorted R l -> StronglySorted (fun a b => R b a) (rev l).
Proof.
  induction 1 as [|x l S IH F]; cbn; [constructor|]. apply sorted_app. split; [exact IH|]. split; [repeat constructor|].
  intros a b Ha [<-|[]]. apply in_rev in Ha. rewrite Forall_forall in F. auto.
Qed.

(** Sets of field ids. *)
Lemma zins_in : forall z l x, In x (zins z l) <-> x = z \/ In x l.
Proof.
  intros z. induction l as [|y l IH]; intros x; cbn; [intuition|].
  destruct (z <? y)%Z; [cbn; intuition|]. destruct (Z.eqb_spec z y); [subst; cbn; intuition|].
  cbn. rewrite IH. intuition.
Qed.
Lemma unique_sorted_in : forall l x, In x (unique_sorted l) <-> In x l.
Proof. induction l as [|y l IH]; intros x; cbn; [reflexivity|]. rewrite zins_in, IH. intuition. Qed.
Lemma zins_sorted : forall z l, StronglySorted Z.lt l -> StronglySorted Z.lt (zins z l).
Proof.
  intros z. induction 1 as [|y l S IH F]; cbn; [repeat constructor|].
  destruct (Z.ltb_spec z y); [|destruct (Z.eqb_spec z y)].
  - constructor; [now constructor|]. constructor; [assumption|]. eapply Forall_impl; [|exact F]. cbn. intros; lia.
  - now constructor.
  - constructor; [exact IH|]. apply Forall_forall. intros x Hx. apply zins_in in Hx. rewrite Forall_forall in F.
    destruct Hx as [->|Hx]; [lia|auto].
Qed.
Lemma unique_sorted_sorted : forall l, StronglySorted Z.lt (unique_sorted l).
Proof. induction l as [|y l IH]; cbn; [constructor|]. now apply zins_sorted. Qed.
Lemma sorted_lt_nodup : forall l, StronglySorted Z.lt l -> NoDup l.
Proof.
  induction 1 as [|x l S IH F]; constructor; [|exact IH]. intros Hx. rewrite Forall_forall in F. apply F in Hx. lia.
Qed.
Lemma unique_sorted_nodup : forall l, NoDup (unique_sorted l).
Proof. intros. apply sorted_lt_nodup, unique_sorted_sorted. Qed.
Lemma unique_sorted_length : forall l, List.length (unique_sorted l) <= List.length l.
Proof.
  induction l as [|y l IH]; cbn; [lia|].
  assert (H : forall z k, List.length (zins z k) <= S (List.length k)).
  { intros z. induction k as [|x k IHk]; cbn; [lia|]. destruct (z <? x)%Z; [cbn; lia|]. destruct (z =? x)%Z; cbn; lia. }
  specialize (H y (unique_sorted l)). unfold unique_sorted in *. lia.
Qed.

Lemma nodup_app_l : forall A (l1 l2 : list A), NoDup (l1 ++ l2) -> NoDup l1.
Proof.
  induction l1 as [|x l1 IH]; intros l2 H; [constructor|]. cbn in H. inversion H; subst. constructor; [|eapply IH; eauto].
  intros K. apply H2. apply in_or_app. now left.
Qed.

(** ** Greedy pointing choice *)
Lemma greedy_pix_spec : forall m block,
  let sel := greedy_pix m block in
  NoDup sel /\ List.length sel = Nat.min block (List.length (filter er_isfin m)) /\
  (forall i, In i sel -> er_isfin (get_pix m i) = true) /\
  (forall i j, In i sel -> ~ In j sel -> er_isfin (get_pix m j) = true -> er_le (get_pix m j) (get_pix m i)).
Proof.
  intros m block sel. unfold sel, greedy_pix. cbv zeta.
  set (srt := key_sort (get_pix m) (seq 0 (List.length m))).
  set (fin := filter (fun i => er_isfin (get_pix m i)) (rev srt)).
  assert (P : Permutation (rev srt) (seq 0 (List.length m))) by (rewrite <- Permutation_rev; apply key_sort_perm).
  assert (Nfin : NoDup fin).
  { apply NoDup_filter. eapply Permutation_NoDup; [symmetry; exact P|apply seq_NoDup]. }
  assert (Hfin : forall i, In i fin <-> er_isfin (get_pix m i) = true).
  { intros i. unfold fin. rewrite filter_In. split; [tauto|]. intros H. split; [|exact H].
    apply (Permutation_in _ (Permutation_sym P)). apply in_seq. cbn.
    assert (K : er_isnan (get_pix m i) = false) by (destruct (get_pix m i); try discriminate; reflexivity).
    apply get_pix_in in K. lia. }
  assert (Sfin : StronglySorted (fun a b => kle (get_pix m) b a) fin).
  { apply filter_sorted, sorted_rev, key_sort_sorted. }
  assert (Lfin : List.length fin = List.length (filter er_isfin m)).
  { unfold fin. rewrite (Permutation_length (Permutation_filter _ _ _ _ P)).
    assert (G : forall k d, List.length (filter (fun i => er_isfin (nth (i - d) k ENaN)) (seq d (List.length k))) = List.length (filter er_isfin k)).
    { induction k as [|x k IH]; intros d; cbn [List.length seq filter]; [reflexivity|].
      rewrite Nat.sub_diag. cbn [nth]. rewrite (filter_ext_in_iff _ _ (fun i => er_isfin (nth (i - S d) k ENaN)) (seq (S d) _)).
      - destruct (er_isfin x); cbn; now rewrite IH.
      - intros i Hi. apply in_seq in Hi. replace (i - d) with (S (i - S d)) by lia. reflexivity. }
    rewrite <- (G m 0). f_equal. apply filter_ext. intros i. unfold get_pix. now rewrite Nat.sub_0_r. }
  assert (D : firstn block fin ++ skipn block fin = fin) by apply firstn_skipn.
  split; [|split; [|split]].
  - rewrite <- D in Nfin. now apply nodup_app_l in Nfin.
  - now rewrite firstn_length, Lfin.
  - intros i Hi. apply Hfin. rewrite <- D. apply in_or_app. now left.
  - intros i j Hi Hj Fj. assert (Hj' : In j (skipn block fin)).
    { apply Hfin in Fj. rewrite <- D in Fj. apply in_app_or in Fj. tauto. }
    rewrite <- D in Sfin. apply sorted_app in Sfin. destruct Sfin as (_ & _ & S3).
    specialize (S3 i j Hi Hj'). unfold kle in S3. apply er_sort_le_er; [|exact S3].
    assert (In i fin) by (rewrite <- D; apply in_or_app; now left). apply Hfin in H. destruct (get_pix m i); try discriminate; reflexivity.
Qed.

(** ** Fallback sort *)
(** Largest finite reward over the pixels of a field. *)
Definition field_best (hp2f : nat -> Z) (m : list er) (f : Z) (x : er) : Prop :=
  (exists i, hp2f i = f /\ er_isfin (get_pix m i) = true /\ get_pix m i = x) /\
  forall i, hp2f i = f -> er_isfin (get_pix m i) = true -> er_le (get_pix m i) x.

Lemma fin_pix_in : forall m i, In i (filter (fun i => er_isfin (get_pix m i)) (seq 0 (List.length m))) <-> er_isfin (get_pix m i) = true.
Proof.
  intros m i. rewrite filter_In, in_seq. split; [tauto|]. intros H. split; [|exact H]. cbn. split; [lia|].
  apply (get_pix_in m i). destruct (get_pix m i); try discriminate; reflexivity.
Qed.

Lemma binned_spec : forall hp2f m f x,
  In (f, x) (binned_max hp2f m (filter (fun i => er_isfin (get_pix m i)) (seq 0 (List.length m)))) -> field_best hp2f m f x.
Proof.
  intros hp2f m f x H. unfold binned_max in H. apply in_map_iff in H. destruct H as (u & E & Hu).
  injection E as -> E. apply (proj1 (unique_sorted_in _ _)) in Hu. apply in_map_iff in Hu. destruct Hu as (i0 & Ei & Hi0).
  set (pix := filter (fun i => er_isfin (get_pix m i)) (seq 0 (List.length m))) in *. assert (Hp : forall i, In i pix <-> er_isfin (get_pix m i) = true) by apply fin_pix_in.
  destruct (nanmax_spec (map (get_pix m) (filter (fun i => (hp2f i =? f)%Z) pix))) as [(_ & A)|(I & NN & B)].
  - exfalso. specialize (A (get_pix m i0)). rewrite Hp in Hi0. destruct (get_pix m i0) eqn:G; try discriminate.
    discriminate A. apply in_map_iff. exists i0. split; [exact G|]. apply filter_In. split; [apply Hp; now rewrite G|now apply Z.eqb_eq].
  - rewrite E in *. split.
    + apply in_map_iff in I. destruct I as (i & Gi & Hi). apply filter_In in Hi. destruct Hi as [Hi Ef].
      exists i. split; [now apply Z.eqb_eq|]. split; [now apply Hp|exact Gi].
    + intros i Hf Hi. apply B.
      * apply in_map_iff. exists i. split; [reflexivity|]. apply filter_In. split; [now apply Hp|now apply Z.eqb_eq].
      * destruct (get_pix m i); try discriminate; reflexivity.
Qed.

Lemma binned_fst : forall hp2f m pix, map fst (binned_max hp2f m pix) = unique_sorted (map hp2f pix).
Proof. intros. unfold binned_max. rewrite map_map. cbn. apply map_id. Qed.

Lemma field_best_fin : forall hp2f m f x, field_best hp2f m f x -> er_isfin x = true.
Proof. intros hp2f m f x ((i & _ & F & <-) & _). exact F. Qed.

Lemma simple_sort_spec : forall hp2f m nvisit,
  let sel := simple_sort hp2f m nvisit in
  NoDup sel /\ List.length sel <= nvisit /\
  (forall f, In f sel -> exists i, hp2f i = f /\ er_isfin (get_pix m i) = true) /\
  (List.length sel < nvisit -> forall i, er_isfin (get_pix m i) = true -> In (hp2f i) sel) /\
  (forall f x j, In f sel -> field_best hp2f m f x -> er_isfin (get_pix m j) = true -> ~ In (hp2f j) sel -> er_le (get_pix m j) x).
Proof.
  intros hp2f m nvisit sel. unfold sel, simple_sort. cbv zeta.
  set (pix := filter _ (seq 0 (List.length m))).
  set (bm := binned_max hp2f m pix).
  assert (Ff : filter (fun p => er_isfin (snd p)) bm = bm).
  { assert (G : forall p, In p bm -> er_isfin (snd p) = true).
    { intros (f & x) Hp. cbn. eapply field_best_fin, binned_spec. exact Hp. }
    clear -G. induction bm as [|p l IH]; cbn; [reflexivity|]. rewrite (G p) by now left. f_equal. apply IH. intros q Hq. apply G. now right. }
  rewrite Ff. set (srt := rev (key_sort snd bm)).
  assert (P : Permutation srt bm) by (unfold srt; rewrite <- Permutation_rev; apply key_sort_perm).
  assert (S : StronglySorted (fun a b => kle snd b a) srt) by (apply sorted_rev, key_sort_sorted).
  assert (N : NoDup (map fst srt)).
  { eapply Permutation_NoDup; [symmetry; apply Permutation_map; exact P|]. unfold bm. rewrite binned_fst. apply unique_sorted_nodup. }
  assert (In1 : forall f, In f (map fst srt) <-> exists i, hp2f i = f /\ er_isfin (get_pix m i) = true).
  { intros f. split.
    - intros H. apply (Permutation_in _ (Permutation_map fst P)) in H. unfold bm in H. rewrite binned_fst in H. apply (proj1 (unique_sorted_in _ _)) in H.
      apply in_map_iff in H. destruct H as (i & E & Hi). exists i. split; [exact E|]. now apply fin_pix_in.
    - intros (i & E & Hi). apply (Permutation_in _ (Permutation_sym (Permutation_map fst P))). unfold bm. rewrite binned_fst.
      apply unique_sorted_in. apply in_map_iff. exists i. split; [exact E|]. now apply fin_pix_in. }
  assert (D : firstn nvisit srt ++ skipn nvisit srt = srt) by apply firstn_skipn.
  rewrite firstn_map.
  split; [|split; [|split; [|split]]].
  - rewrite <- D, map_app in N. now apply nodup_app_l in N.
  - rewrite map_length, firstn_length. lia.
  - intros f Hf. apply In1. rewrite <- D, map_app. apply in_or_app. now left.
  - intros L i Hi. rewrite map_length, firstn_length in L.
    rewrite firstn_all2 by lia. apply In1. now exists i.
  - intros f x j Hf Hb Hj Hn.
    apply in_map_iff in Hf. destruct Hf as ((f' & x') & E & Hf). cbn in E. subst f'.
    assert (Hjs : In (hp2f j) (map fst (skipn nvisit srt))).
    { assert (K : In (hp2f j) (map fst srt)) by (apply In1; now exists j). rewrite <- D, map_app in K. apply in_app_or in K. tauto. }
    apply in_map_iff in Hjs. destruct Hjs as ((fj & y) & E & Hjs). cbn in E. subst fj.
    rewrite <- D in S. apply sorted_app in S. destruct S as (_ & _ & S3). specialize (S3 _ _ Hf Hjs). unfold kle in S3. cbn in S3.
    assert (B1 : field_best hp2f m f x').
    { apply binned_spec. apply (Permutation_in _ P). rewrite <- D. apply in_or_app. now left. }
    assert (B2 : field_best hp2f m (hp2f j) y).
    { apply binned_spec. apply (Permutation_in _ P). rewrite <- D. apply in_or_app. now right. }
    assert (K1 : er_le (get_pix m j) y) by (apply B2; [reflexivity|exact Hj]).
    assert (K2 : er_le y x') by (apply er_sort_le_er; [|exact S3]; apply field_best_fin in B1; destruct x'; try discriminate; reflexivity).
    assert (K3 : er_le x' x).
    { destruct B1 as ((i & Ei & Fi & <-) & _). apply Hb; auto. }
    eapply er_le_trans; [exact K1|]. eapply er_le_trans; eauto.
Qed.

(** ** Block size *)
Definition passes (s : bset) : Z := if b_paired s then 2 else 1.
(** Days taken by a block of [n] visits, all passes. *)
Definition block_days (s : bset) (n : Z) : Q := (inject_Z (passes s * n) * visit_time s / 86400)%Q.

Record bset_ok (s : bset) : Prop := mkOk {
  ok_visit : (0 < visit_time s)%Q;
  ok_ideal : (0 < b_ideal s)%Q;
  ok_change : (0 <= b_change s)%Q }.

Lemma time_needed_ge : forall s, bset_ok s -> (0 < time_needed s)%Q /\ (inject_Z (passes s) * b_ideal s / 1440 <= time_needed s)%Q.
Proof.
  intros s [V I C]. unfold time_needed, time_for, passes. clear V. destruct (b_paired s).
  - change (inject_Z 2) with 2%Q.
    set (ch := if b_same s then 0%Q else b_change s).
    assert (Hc : (0 <= ch)%Q) by (unfold ch; destruct (b_same s); [apply Qle_refl|exact C]).
    assert (E : ((b_ideal s * 2 + ch / 60) / 60 / 24 == b_ideal s * (2 # 1440) + ch * (1 # 86400))%Q) by field.
    assert (E1 : (2 * b_ideal s / 1440 == b_ideal s * (2 # 1440))%Q) by field. clearbody ch.
    rewrite E, E1. split; lra.
  - change (inject_Z 1) with 1%Q. assert (E : (b_ideal s / 24 / 60 == b_ideal s * (1 # 1440))%Q) by field.
    assert (E1 : (1 * b_ideal s / 1440 == b_ideal s * (1 # 1440))%Q) by field.
    rewrite E, E1. split; lra.
Qed.

Lemma floor_mul : forall x y, (0 < y)%Q -> (inject_Z (Qfloor (x / y)) * y <= x)%Q.
Proof.
  intros x y H. pose proof (Qfloor_le (x / y)) as L.
  apply (Qmult_le_compat_r _ _ y) in L; [|now apply Qlt_le_weak].
  assert (E : (x / y * y == x)%Q) by (field; intros K; rewrite K in H; apply (Qlt_irrefl 0); exact H).
  now rewrite E in L.
Qed.

Lemma floor_half : forall n, (2 * inject_Z (Qfloor (inject_Z n / 2)) <= inject_Z n)%Q.
Proof. intros n. pose proof (floor_mul (inject_Z n) 2 eq_refl). lra. Qed.

(** A block of ideal size fits in the time needed; a stretched or shortened block
    fits in the time available. *)
Lemma block_size_cases : forall s k n, bset_ok s -> block_size s k = Ok n -> (1 <= n)%Z /\
  (n = 1%Z \/
   (2 <= fst (block_state s k))%Z /\ (block_days s n <= time_needed s)%Q \/
   (fst (block_state s k) < 2)%Z /\ exists a, snd (block_state s k) = Some a /\ (block_days s n <= a)%Q).
Proof.
  intros s k n OK H. unfold block_size in H. cbv zeta in H. destruct (time_needed_ge s OK) as [Tp Tn].
  destruct OK as [V I C].
  destruct (Z.leb_spec 2 (fst (block_state s k))) as [L|L].
  - cbn [bind] in H. set (f := Qfloor (b_ideal s * 60 / visit_time s)) in H.
    destruct (Z.leb_spec f 0) as [F|F]; injection H as <-; [split; [lia|now left]|].
    split; [lia|]. right. left. split; [exact L|]. eapply Qle_trans; [|exact Tn].
    unfold block_days. rewrite inject_Z_mult.
    pose proof (floor_mul (b_ideal s * 60) (visit_time s) V) as K. fold f in K.
    assert (P : (0 < inject_Z (passes s))%Q) by (unfold passes; destruct (b_paired s); reflexivity).
    assert (E : (inject_Z (passes s) * inject_Z f * visit_time s / 86400 == inject_Z (passes s) * (inject_Z f * visit_time s * (1 # 86400)))%Q) by field.
    rewrite E. assert (E2 : (inject_Z (passes s) * b_ideal s / 1440 == inject_Z (passes s) * (b_ideal s * (1 # 1440)))%Q) by field. rewrite E2.
    apply Qmult_le_l; [exact P|]. lra.
  - destruct (snd (block_state s k)) as [a|]; [|discriminate]. cbn [bind] in H.
    set (best := if Qle_bool a (max_time_needed s) then a else (a / 2)%Q) in H.
    set (f := Qfloor (best * 3600 * 24 / visit_time s)) in H.
    set (g := if b_paired s then Qfloor (inject_Z f / 2) else f) in H.
    destruct (Z.leb_spec g 0) as [F|F]; injection H as <-; [split; [lia|now left]|].
    split; [lia|]. right. right. split; [exact L|]. exists a. split; [reflexivity|].
    assert (G : (inject_Z (passes s * g) <= inject_Z f)%Q).
    { rewrite inject_Z_mult. unfold g, passes. destruct (b_paired s); [apply floor_half|]. change (inject_Z 1) with 1%Q. lra. }
    pose proof (floor_mul (best * 3600 * 24) (visit_time s) V) as K. fold f in K.
    assert (Gv : (inject_Z (passes s * g) * visit_time s <= best * 3600 * 24)%Q).
    { eapply Qle_trans; [|exact K]. apply Qmult_le_compat_r; [exact G|now apply Qlt_le_weak]. }
    assert (Pos : (0 < inject_Z (passes s * g) * visit_time s)%Q).
    { apply Qmult_lt_0_compat; [|exact V]. rewrite <- Zlt_Qlt with (x := 0%Z) || (change 0%Q with (inject_Z 0); rewrite <- Zlt_Qlt).
      unfold passes. destruct (b_paired s); lia. }
    unfold block_days. assert (B : (best <= a)%Q).
    { unfold best in *. destruct (Qle_bool a (max_time_needed s)); [apply Qle_refl|].
      assert (Ea : (a / 2 == a * (1 # 2))%Q) by field. rewrite Ea in *. lra. }
    apply (Qmult_le_l _ _ 86400); [reflexivity|].
    assert (E : (86400 * (inject_Z (passes s * g) * visit_time s / 86400) == inject_Z (passes s * g) * visit_time s)%Q) by field.
    rewrite E. lra.
Qed.

Lemma block_size_ok : forall s k, exists n, block_size s k = Ok n.
Proof.
  intros s k. unfold block_size. cbv zeta. destruct (Z.leb_spec 2 (fst (block_state s k))) as [L|L]; [eexists; reflexivity|].
  destruct (snd (block_state s k)) as [a|] eqn:E; [eexists; reflexivity|]. exfalso. revert L E.
  unfold block_state. cbv zeta. destruct (b_in_twilight s); [discriminate|].
  destruct (b_twilight_scale s); destruct (b_check_sched s); cbn [fst snd]; try (intros; discriminate); try (intros; lia);
    destruct (k_sched k); cbn [fst snd]; try (intros; discriminate); try (intros; lia);
    destruct (_ <? _)%Z; cbn [fst snd]; try (intros; discriminate); intros; lia.
Qed.

(** Two times that round to block counts in order are at most one block apart. *)
Lemma round_lt : forall x y T, (0 < T)%Q -> (round_even (x / T) < round_even (y / T))%Z -> (x <= y)%Q.
Proof.
  intros x y T HT H. pose proof (round_even_bound (x / T)) as [_ A]. pose proof (round_even_bound (y / T)) as [B _].
  assert (K : (inject_Z (round_even (x / T)) + 1 <= inject_Z (round_even (y / T)))%Q).
  { change 1%Q with (inject_Z 1). rewrite <- inject_Z_plus, <- Zle_Qle. lia. }
  assert (D : (x / T <= y / T)%Q) by lra. apply (Qmult_le_compat_r _ _ T) in D; [|now apply Qlt_le_weak].
  assert (NZ : ~ (T == 0)%Q) by (intros Z; rewrite Z in HT; now apply Qlt_irrefl in HT).
  assert (E1 : (x / T * T == x)%Q) by now field. assert (E2 : (y / T * T == y)%Q) by now field. now rewrite E1, E2 in D.
Qed.
Lemma round_le : forall x y T, (0 < T)%Q -> (round_even (x / T) <= round_even (y / T))%Z -> (x <= y + T)%Q.
Proof.
  intros x y T HT H. pose proof (round_even_bound (x / T)) as [_ A]. pose proof (round_even_bound (y / T)) as [B _].
  rewrite Zle_Qle in H. assert (D : (x / T <= y / T + 1)%Q) by lra.
  apply (Qmult_le_compat_r _ _ T) in D; [|now apply Qlt_le_weak].
  assert (NZ : ~ (T == 0)%Q) by (intros Z; rewrite Z in HT; now apply Qlt_irrefl in HT).
  assert (E1 : (x / T * T == x)%Q) by now field. assert (E2 : ((y / T + 1) * T == y + T)%Q) by now field. now rewrite E1, E2 in D.
Qed.
Lemma round_two : forall x T, (0 < T)%Q -> (2 <= round_even (x / T))%Z -> (T <= x)%Q.
Proof.
  intros x T HT H. pose proof (round_even_bound (x / T)) as [A _]. rewrite Zle_Qle in H. change (inject_Z 2) with 2%Q in H.
  assert (D : (1 <= x / T)%Q) by lra. apply (Qmult_le_compat_r _ _ T) in D; [|now apply Qlt_le_weak].
  assert (NZ : ~ (T == 0)%Q) by (intros Z; rewrite Z in HT; now apply Qlt_irrefl in HT).
  assert (E1 : (x / T * T == x)%Q) by now field. rewrite E1 in D. lra.
Qed.
