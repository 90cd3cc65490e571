(** Proofs about the reordering and cutting detailers. *)
From Coq Require Import List ZArith QArith Qround Qabs Bool String Ascii Lia Lqa Permutation.
From Verif Require Import Base DetOrder.
Import ListNotations.
Local Open Scope string_scope.
Open Scope list_scope.
Open Scope nat_scope.

Lemma fold_min_spec : forall r i, (fold_left Nat.min r i = i \/ In (fold_left Nat.min r i) r) /\
  fold_left Nat.min r i <= i /\ forall x, In x r -> fold_left Nat.min r i <= x.
Proof.
  induction r as [|y r IH]; intros i; cbn; [split; [auto|split; [auto|intros x []]]|].
  destruct (IH (Nat.min i y)) as (A & B & C). split; [|split].
  - destruct A as [A|A]; [|auto]. rewrite A. destruct (Nat.min_spec i y) as [[_ ->]|[_ ->]]; auto.
  - lia.
  - intros x [<-|X]; [lia|auto].
Qed.
Lemma fold_maxn_spec : forall r i, (fold_left Nat.max r i = i \/ In (fold_left Nat.max r i) r) /\
  i <= fold_left Nat.max r i /\ forall x, In x r -> x <= fold_left Nat.max r i.
Proof.
  induction r as [|y r IH]; intros i; cbn; [split; [auto|split; [auto|intros x []]]|].
  destruct (IH (Nat.max i y)) as (A & B & C). split; [|split].
  - destruct A as [A|A]; [|auto]. rewrite A. destruct (Nat.max_spec i y) as [[_ ->]|[_ ->]]; auto.
  - lia.
  - intros x [<-|X]; [lia|auto].
Qed.
Lemma np_where_min : forall A (p : A -> bool) l i r, np_where p l = i :: r ->
  let m := fold_left Nat.min r i in
  (exists x, nth_error l m = Some x /\ p x = true) /\
  forall j x, nth_error l j = Some x -> p x = true -> m <= j.
Proof.
  intros A p l i r E m. destruct (fold_min_spec r i) as (H1 & H2 & H3). fold m in H1, H2, H3.
  assert (I : In m (np_where p l)) by (rewrite E; destruct H1 as [->|H1]; [left; reflexivity|right; exact H1]).
  split; [apply np_where_spec in I; exact I|].
  intros j x J P. assert (K : In j (np_where p l)) by (apply np_where_spec; eauto).
  rewrite E in K. destruct K as [<-|K]; auto.
Qed.
Lemma np_where_max : forall A (p : A -> bool) l i r, np_where p l = i :: r ->
  let m := fold_left Nat.max r i in
  (exists x, nth_error l m = Some x /\ p x = true) /\
  forall j x, nth_error l j = Some x -> p x = true -> j <= m.
Proof.
  intros A p l i r E m. destruct (fold_maxn_spec r i) as (H1 & H2 & H3). fold m in H1, H2, H3.
  assert (I : In m (np_where p l)) by (rewrite E; destruct H1 as [->|H1]; [left; reflexivity|right; exact H1]).
  split; [apply np_where_spec in I; exact I|].
  intros j x J P. assert (K : In j (np_where p l)) by (apply np_where_spec; eauto).
  rewrite E in K. destruct K as [<-|K]; auto.
Qed.
Lemma np_where_nil : forall A (p : A -> bool) l, np_where p l = [] -> forall x, In x l -> p x = false.
Proof.
  intros A p l E x X. destruct (p x) eqn:P; [|reflexivity]. exfalso.
  apply In_nth_error in X. destruct X as [j J].
  assert (I : In j (np_where p l)) by (apply np_where_spec; eauto). rewrite E in I. destruct I.
Qed.
Lemma skipn_nth : forall A (l : list A) k x, nth_error l k = Some x -> exists r, skipn k l = x :: r.
Proof.
  induction l as [|y l IH]; intros k x H; destruct k; cbn in *; try discriminate; [injection H as ->; eauto|eauto].
Qed.

Section P.
Variable A : Type.
Variable band : A -> string.
Notation is b := (fun o => String.eqb (band o) b).

Lemma roll_band_spec : forall cur l,
  exists u v, l = u ++ v /\ roll_band A band cur l = v ++ u /\
    (forall o, In o u -> band o <> cur) /\
    ((exists o, In o l /\ band o = cur) -> exists o r, v = o :: r /\ band o = cur).
Proof.
  intros cur l. unfold roll_band. destruct (np_where (is cur) l) as [|i r] eqn:E.
  - exists [], l. split; [reflexivity|]. split; [now rewrite app_nil_r|]. split; [intros o []|].
    intros (o & O & B). pose proof (np_where_nil _ _ _ E o O) as N. cbn in N. rewrite B, String.eqb_refl in N. discriminate.
  - destruct (np_where_min _ _ _ _ _ E) as ((x & X & P) & M). set (m := fold_left Nat.min r i) in *.
    exists (firstn m l), (skipn m l). split; [symmetry; apply firstn_skipn|]. split; [reflexivity|]. split.
    + intros o O B. apply In_nth_error in O. destruct O as [j J].
      assert (Jm : j < m) by (assert (nth_error (firstn m l) j <> None) as H by congruence; apply nth_error_Some in H; rewrite firstn_length in H; lia).
      assert (J' : nth_error l j = Some o).
      { rewrite <- (firstn_skipn m l). rewrite nth_error_app1; [exact J|]. apply nth_error_Some. congruence. }
      assert (m <= j) by (apply (M j o J'); cbn; now rewrite B, String.eqb_refl). lia.
    + intros _. destruct (skipn_nth _ _ _ _ X) as [t T]. exists x, t. split; [exact T|]. apply String.eqb_eq. exact P.
Qed.

Lemma argmin_spec : forall (f : A -> Q) r p,
  let m := fold_left (fun b q => if Qltb (f (snd q)) (f (snd b)) then q else b) r p in
  In m (p :: r) /\ forall q : nat * A, In q (p :: r) -> (f (snd m) <= f (snd q))%Q.
Proof.
  intros f. induction r as [|y r IH]; intros p; cbn zeta; cbn [fold_left].
  - split; [left; reflexivity|]. intros q [<-|[]]. apply Qle_refl.
  - specialize (IH (if Qltb (f (snd y)) (f (snd p)) then y else p)). cbn zeta in IH. destruct IH as [I1 I2].
    set (m := fold_left _ r _) in *. destruct (Qltb (f (snd y)) (f (snd p))) eqn:E.
    + apply Qltb_lt in E. split; [destruct I1 as [<-|I1]; [right; left; reflexivity|right; right; exact I1]|].
      intros q [<-|[<-|Q]].
      * pose proof (I2 y (or_introl eq_refl)). lra.
      * apply I2. left. reflexivity.
      * apply I2. right. exact Q.
    + apply Qltb_false in E. split; [destruct I1 as [<-|I1]; [left; reflexivity|right; right; exact I1]|].
      intros q [<-|[<-|Q]].
      * apply I2. left. reflexivity.
      * pose proof (I2 p (or_introl eq_refl)). lra.
      * apply I2. right. exact Q.
Qed.
Lemma number_in : forall (l : list A) i o k, In (i, o) (combine (seq k (List.length l)) l) <-> exists j, i = k + j /\ nth_error l j = Some o.
Proof.
  induction l as [|x l IH]; intros i o k; cbn.
  - split; [intros []|intros (j & _ & H); destruct j; discriminate].
  - rewrite IH. split.
    + intros [H|(j & -> & H)]; [injection H as <- <-; exists 0; split; [lia|reflexivity]|exists (S j); split; [lia|exact H]].
    + intros ([|j] & -> & H); cbn in H; [left; f_equal; [lia|congruence]|right; exists j; split; [lia|exact H]].
Qed.
Lemma close_alt_spec : forall dalt sep le width l, l <> [] ->
  exists u o v, l = u ++ o :: v /\ close_alt A dalt sep le width l = Ok (o :: v ++ u) /\
    ((exists x, In x l /\ le (dalt x) width = true) ->
       le (dalt o) width = true /\ forall x, In x l -> le (dalt x) width = true -> (sep o <= sep x)%Q) /\
    ((forall x, In x l -> le (dalt x) width = false) -> forall x, In x l -> (sep o <= sep x)%Q).
Proof.
  intros dalt sep le width l NE. unfold close_alt.
  set (all := combine (seq 0 (List.length l)) l).
  assert (HA : forall i o, In (i, o) all <-> nth_error l i = Some o).
  { intros i o. unfold all. rewrite number_in. split; [intros (j & -> & H); exact H|intros H; exists i; auto]. }
  set (inb := filter (fun p => le (dalt (snd p)) width) all).
  assert (Go : forall use, use <> [] -> (forall p, In p use -> In p all) ->
    exists i o, first_argmin A sep use = Some i /\ In (i, o) use /\ forall q, In q use -> (sep o <= sep (snd q))%Q).
  { intros use N I. destruct use as [|p r]; [congruence|]. unfold first_argmin.
    destruct (argmin_spec sep r p) as [I1 I2]. set (m := fold_left _ r p) in *. exists (fst m), (snd m).
    split; [reflexivity|]. split; [destruct m; exact I1|exact I2]. }
  assert (All0 : all <> []) by (destruct l; [congruence|discriminate]).
  destruct inb as [|p r] eqn:Einb.
  - destruct (Go all All0 (fun p H => H)) as (i & o & -> & I & M). apply HA in I.
    exists (firstn i l), o. destruct (skipn_nth _ _ _ _ I) as [v V]. exists v.
    split; [rewrite <- V; symmetry; apply firstn_skipn|]. split; [rewrite V; reflexivity|].
    assert (K : forall x, In x l -> le (dalt x) width = false /\ (sep o <= sep x)%Q).
    { intros x X. apply In_nth_error in X. destruct X as [j J]. apply HA in J. split; [|exact (M _ J)].
      destruct (le (dalt x) width) eqn:L; [|reflexivity]. exfalso.
      assert (In (j, x) inb) by (unfold inb; apply filter_In; auto). rewrite Einb in H. destruct H. }
    split; [intros (x & X & L); destruct (K x X); congruence|]. intros _ x X. apply K; exact X.
  - assert (Inb : forall q, In q (p :: r) <-> In q all /\ le (dalt (snd q)) width = true)
      by (intro q; rewrite <- Einb; unfold inb; apply filter_In).
    destruct (Go (p :: r) ltac:(discriminate) (fun q H => proj1 (proj1 (Inb q) H))) as (i & o & -> & I & M).
    apply Inb in I. destruct I as [I L]. apply HA in I.
    exists (firstn i l), o. destruct (skipn_nth _ _ _ _ I) as [v V]. exists v.
    split; [rewrite <- V; symmetry; apply firstn_skipn|]. split; [rewrite V; reflexivity|]. split.
    + intros _. split; [exact L|]. intros x X Lx. apply In_nth_error in X. destruct X as [j J]. apply HA in J.
      apply (M (j, x)). apply Inb. auto.
    + intros F. exfalso. cbn in L. rewrite F in L; [discriminate|]. eapply nth_error_In; exact I.
Qed.

(** ** Sorting by band *)
Lemma letter_inj : forall a b, letter a = letter b -> a = b.
Proof. intros a b H. injection H as ->. reflexivity. Qed.
Definition groups (order : list ascii) (l : list A) : list A :=
  flat_map (fun c => filter (is (letter c)) l) order.
Lemma groups_notin : forall order c l, ~ In c order ->
  groups order (filter (fun o => negb (String.eqb (band o) (letter c))) l) = groups order l.
Proof.
  induction order as [|d order IH]; intros c l N; [reflexivity|]. unfold groups in *. cbn.
  rewrite IH by (intro; apply N; right; assumption). f_equal.
  assert (D : d <> c) by (intros ->; apply N; left; reflexivity).
  clear IH. induction l as [|o l IHl]; [reflexivity|]. cbn.
  destruct (String.eqb (band o) (letter c)) eqn:E; cbn.
  - rewrite IHl. destruct (String.eqb (band o) (letter d)) eqn:F; [|reflexivity].
    apply String.eqb_eq in E, F. exfalso. apply D. apply letter_inj. congruence.
  - rewrite IHl. reflexivity.
Qed.
Lemma filter_split_perm : forall (f : A -> bool) l, Permutation (filter f l ++ filter (fun o => negb (f o)) l) l.
Proof.
  intros f. induction l as [|x l IH]; [constructor|]. cbn. destruct (f x); cbn.
  - constructor. exact IH.
  - rewrite <- Permutation_middle. constructor. exact IH.
Qed.
Lemma groups_perm : forall order l, NoDup order -> (forall o, In o l -> exists c, In c order /\ band o = letter c) ->
  Permutation (groups order l) l.
Proof.
  induction order as [|c order IH]; intros l N C.
  - destruct l as [|o l]; [constructor|]. destruct (C o (or_introl eq_refl)) as (c & [] & _).
  - inversion N; subst. unfold groups. cbn. change (flat_map _ order) with (groups order l).
    rewrite <- (groups_notin order c l H1).
    etransitivity; [apply Permutation_app_head, IH; [assumption|]|apply (filter_split_perm (is (letter c)))].
    intros o O. apply filter_In in O. destruct O as [O B]. destruct (C o O) as (d & [<-|D] & E).
    + rewrite E, String.eqb_refl in B. discriminate.
    + exists d. auto.
Qed.
Lemma filter_filter_ne : forall b c l, b <> c -> filter (is b) (filter (is c) l) = [].
Proof.
  intros b c. induction l as [|o l IH]; intros N; [reflexivity|]. cbn. destruct (String.eqb (band o) c) eqn:E; cbn; [|auto].
  apply String.eqb_eq in E. destruct (String.eqb (band o) b) eqn:F; [apply String.eqb_eq in F; congruence|auto].
Qed.
Lemma filter_twice : forall (f : A -> bool) l, filter f (filter f l) = filter f l.
Proof. intros f. induction l as [|o l IH]; [reflexivity|]. cbn. destruct (f o) eqn:E; cbn; [rewrite E, IH; reflexivity|exact IH]. Qed.
Lemma groups_stable : forall order l c, NoDup order -> In c order ->
  filter (is (letter c)) (groups order l) = filter (is (letter c)) l.
Proof.
  induction order as [|d order IH]; intros l c N C; [destruct C|]. inversion N; subst.
  unfold groups. cbn. change (flat_map _ order) with (groups order l). rewrite filter_app.
  destruct C as [<-|C].
  - rewrite filter_twice.
    assert (Z : filter (is (letter d)) (groups order l) = []).
    { clear IH N. induction order as [|e order IHo]; [reflexivity|]. inversion H2; subst.
      unfold groups. cbn. change (flat_map _ order) with (groups order l). rewrite filter_app.
      rewrite filter_filter_ne by (intro Q; apply letter_inj in Q; subst; apply H1; left; reflexivity).
      apply IHo; [intro; apply H1; right; assumption|assumption]. }
    rewrite Z. apply app_nil_r.
  - rewrite filter_filter_ne by (intro Q; apply letter_inj in Q; subst; contradiction). cbn. apply IH; assumption.
Qed.

(** Number of times the band changes, starting from [prev]. *)
Fixpoint changes (prev : string) (l : list A) : nat :=
  match l with [] => 0 | o :: r => (if String.eqb (band o) prev then 0 else 1) + changes (band o) r end.
Lemma changes_const : forall b g p rest, g <> [] -> (forall o, In o g -> band o = b) ->
  changes p (g ++ rest) = (if String.eqb b p then 0 else 1) + changes b rest.
Proof.
  intros b. induction g as [|o g IH]; intros p rest N C; [congruence|]. cbn.
  assert (B : band o = b) by (apply C; left; reflexivity). rewrite B. f_equal.
  destruct g as [|o' g]; [reflexivity|]. rewrite (IH b rest); [now rewrite String.eqb_refl|discriminate|].
  intros x X. apply C. right. exact X.
Qed.
Lemma changes_groups : forall order l p,
  changes p (groups order l) <= List.length (filter (fun c => existsb (is (letter c)) l) order).
Proof.
  induction order as [|c order IH]; intros l p; [reflexivity|]. unfold groups. cbn [flat_map filter].
  change (flat_map _ order) with (groups order l).
  destruct (filter (is (letter c)) l) as [|o g] eqn:E.
  - cbn [app]. destruct (existsb (is (letter c)) l) eqn:X; cbn [List.length]; specialize (IH l p); lia.
  - rewrite <- E. rewrite (changes_const (letter c)).
    + assert (X : existsb (is (letter c)) l = true).
      { apply existsb_exists. exists o. assert (I : In o (filter (is (letter c)) l)) by (rewrite E; left; reflexivity).
        apply filter_In in I. exact I. }
      rewrite X. specialize (IH l (letter c)). cbn [List.length]. destruct (String.eqb (letter c) p); lia.
    + rewrite E. discriminate.
    + intros x X. apply filter_In in X. apply String.eqb_eq. apply X.
Qed.
Lemma changes_lower : forall l D p, NoDup D -> ~ In p D -> (forall b, In b D -> exists o, In o l /\ band o = b) ->
  List.length D <= changes p l.
Proof.
  induction l as [|o l IH]; intros D p N P C.
  - destruct D as [|b D]; [reflexivity|]. destruct (C b (or_introl eq_refl)) as (o & [] & _).
  - cbn. destruct (String.eqb (band o) p) eqn:E.
    + apply String.eqb_eq in E. rewrite E. cbn. apply IH; auto. intros b B.
      destruct (C b B) as (x & [<-|X] & Y); [congruence|eauto].
    + set (D' := filter (fun b => negb (String.eqb b (band o))) D).
      assert (L : List.length D <= S (List.length D')).
      { clear - N D'. unfold D'. clear D'. induction D as [|b D IHD]; [cbn; lia|]. inversion N; subst. cbn.
        destruct (String.eqb b (band o)) eqn:F; cbn.
        - apply String.eqb_eq in F. subst b.
          assert (G : filter (fun b => negb (String.eqb b (band o))) D = D).
          { clear - H1. induction D as [|b D IHD]; [reflexivity|]. cbn.
            destruct (String.eqb b (band o)) eqn:F; [apply String.eqb_eq in F; subst; exfalso; apply H1; left; reflexivity|].
            cbn. f_equal. apply IHD. intro. apply H1. right. assumption. }
          rewrite G. lia.
        - specialize (IHD H2). lia. }
      assert (K : List.length D' <= changes (band o) l).
      { apply IH.
        - apply NoDup_filter. exact N.
        - intro I. apply filter_In in I. rewrite String.eqb_refl in I. destruct I; discriminate.
        - intros b B. apply filter_In in B. destruct B as [B F]. destruct (C b B) as (x & [<-|X] & Y); [|eauto].
          rewrite Y, String.eqb_refl in F. discriminate. }
      lia.
Qed.

Lemma appear_in : forall l seen b, In b (appear A band seen l) <-> ~ In b seen /\ exists o, In o l /\ band o = b.
Proof.
  induction l as [|o l IH]; intros seen b; cbn.
  - split; [intros []|intros (_ & x & [] & _)].
  - destruct (existsb (String.eqb (band o)) seen) eqn:E.
    + rewrite IH. apply existsb_exists in E. destruct E as (s & S1 & S2). apply String.eqb_eq in S2. subst s. split.
      * intros (N & x & X & B). split; [exact N|]. exists x. auto.
      * intros (N & x & [<-|X] & B); [subst b; contradiction|]. split; [exact N|]. eauto.
    + assert (NS : ~ In (band o) seen).
      { intro I. assert (existsb (String.eqb (band o)) seen = true); [|congruence].
        apply existsb_exists. exists (band o). rewrite String.eqb_refl. auto. }
      cbn. rewrite IH. split.
      * intros [<-|(N & x & X & B)]; [split; [exact NS|]; exists o; auto|].
        split; [intro; apply N; right; assumption|]. exists x. auto.
      * intros (N & x & [<-|X] & B); [left; exact B|].
        destruct (string_dec (band o) b) as [E'|E']; [left; exact E'|]. right. split; [|eauto].
        intros [F|F]; [congruence|contradiction].
Qed.
Lemma appear_nodup : forall l seen, NoDup (appear A band seen l).
Proof.
  induction l as [|o l IH]; intros seen; cbn; [constructor|]. destruct (existsb _ seen); [apply IH|].
  constructor; [|apply IH]. intro I. apply appear_in in I. destruct I as [N _]. apply N. left. reflexivity.
Qed.
Lemma flat_letters : forall us : list string, (forall b, In b us -> exists c, b = letter c) -> NoDup us ->
  NoDup (flat_map list_ascii_of_string us) /\
  forall c, In c (flat_map list_ascii_of_string us) <-> In (letter c) us.
Proof.
  induction us as [|b us IH]; intros L N; [split; [constructor|reflexivity]|]. inversion N; subst.
  destruct IH as [I1 I2]; [intros x X; apply L; right; exact X|assumption|].
  destruct (L b (or_introl eq_refl)) as [c ->]. cbn. split.
  - constructor; [|exact I1]. intro I. apply I2 in I. contradiction.
  - intro d. rewrite I2. split; intros [H|H]; auto; [left; now rewrite H|left]. apply letter_inj. exact H.
Qed.
Lemma remove_letter_in : forall c s x, In x (remove_letter c s) <-> In x s /\ x <> c.
Proof.
  intros c s x. unfold remove_letter. rewrite filter_In. destruct (Ascii.eqb x c) eqn:E; cbn.
  - apply Ascii.eqb_eq in E. split; [intros [_ H]; discriminate|intros [_ H]; contradiction].
  - apply Ascii.eqb_neq in E. tauto.
Qed.
Lemma lead_nodup : forall c s, NoDup s -> NoDup (c :: remove_letter c s).
Proof.
  intros c s N. constructor; [intro I; apply remove_letter_in in I; tauto|]. apply NoDup_filter. exact N.
Qed.
Lemma lead_in : forall c s x, In x (c :: remove_letter c s) <-> x = c \/ In x s.
Proof.
  intros c s x. cbn. rewrite remove_letter_in. destruct (ascii_dec x c) as [->|N].
  - tauto.
  - split; [intros [H|H]; [left; congruence|tauto]|intros [H|H]; [contradiction|tauto]].
Qed.
Lemma by_order_groups : forall order l, order <> [] -> by_order A band order l = Ok (groups order l).
Proof. intros order l N. unfold by_order. destruct order; [congruence|reflexivity]. Qed.

Lemma existsb_ex : forall (f : A -> bool) l, existsb f l = true <-> exists o, In o l /\ f o = true.
Proof. intros. apply existsb_exists. Qed.
Lemma changes_all : forall l b p, l <> [] -> (forall o, In o l -> band o = b) -> changes p l = if String.eqb b p then 0 else 1.
Proof.
  intros l b p N C. rewrite <- (app_nil_r l). rewrite (changes_const b l p []) by assumption. cbn. lia.
Qed.
Lemma lead_min : forall cur s l, NoDup s -> forall l', Permutation l' l ->
  changes (letter cur) (groups (cur :: remove_letter cur s) l) <= changes (letter cur) l'.
Proof.
  intros cur s l N l' P. set (rest := remove_letter cur s).
  assert (NR : NoDup (cur :: rest)) by (apply lead_nodup; exact N). inversion NR; subst.
  assert (U : changes (letter cur) (groups (cur :: rest) l) <= List.length (filter (fun c => existsb (is (letter c)) l) rest)).
  { unfold groups. cbn [flat_map]. change (flat_map _ rest) with (groups rest l).
    destruct (filter (is (letter cur)) l) as [|o g] eqn:E; [apply changes_groups|]. rewrite <- E.
    rewrite (changes_const (letter cur)).
    - rewrite String.eqb_refl. apply changes_groups.
    - rewrite E. discriminate.
    - intros x X. apply filter_In in X. apply String.eqb_eq. apply X. }
  etransitivity; [exact U|].
  rewrite <- (map_length letter). apply changes_lower.
  - apply FinFun.Injective_map_NoDup; [intros a b H; apply letter_inj; exact H|]. apply NoDup_filter. assumption.
  - intro I. apply in_map_iff in I. destruct I as (c & C1 & C2). apply letter_inj in C1. subst c. apply filter_In in C2. tauto.
  - intros b B. apply in_map_iff in B. destruct B as (c & <- & C). apply filter_In in C. destruct C as [_ C].
    apply existsb_ex in C. destruct C as (o & O & C). exists o. split; [|apply String.eqb_eq; exact C].
    eapply Permutation_in; [symmetry; exact P|exact O].
Qed.
Lemma filter_none : forall (f : A -> bool) l, (forall o, In o l -> f o = false) -> filter f l = [].
Proof.
  intros f. induction l as [|o l IH]; intros H; [reflexivity|]. cbn. rewrite (H o (or_introl eq_refl)).
  apply IH. intros x X. apply H. right. exact X.
Qed.
Lemma groups_stable_all : forall order l, NoDup order -> (forall o, In o l -> exists c, In c order /\ band o = letter c) ->
  forall b, filter (is b) (groups order l) = filter (is b) l.
Proof.
  intros order l N C b. destruct (existsb (is b) l) eqn:E.
  - apply existsb_ex in E. destruct E as (o & O & B). apply String.eqb_eq in B. destruct (C o O) as (c & I & L).
    assert (EQ : b = letter c) by congruence. rewrite EQ. apply groups_stable; assumption.
  - assert (F : forall o, In o l -> String.eqb (band o) b = false).
    { intros o O. destruct (String.eqb (band o) b) eqn:F; [|reflexivity]. exfalso.
      assert (existsb (is b) l = true) by (apply existsb_ex; eauto). congruence. }
    rewrite (filter_none _ l F). apply filter_none. intros o O. apply F.
    eapply Permutation_in; [apply groups_perm; eassumption|exact O].
Qed.
Lemma band_sort_spec : forall desired loaded cur l,
  (forall o, In o l -> exists c, band o = letter c) ->
  match desired with None => l <> [] \/ loaded = true | Some s => s <> [] /\ NoDup s /\ forall o, In o l -> exists c, In c s /\ band o = letter c end ->
  exists r, band_sort A band desired loaded cur l = Ok r /\ Permutation r l /\
    (forall b, filter (is b) r = filter (is b) l) /\
    (loaded = true -> forall l', Permutation l' l -> changes (letter cur) r <= changes (letter cur) l').
Proof.
  intros desired loaded cur l L D. unfold band_sort.
  assert (AI : forall b, In b (appear A band [] l) <-> exists o, In o l /\ band o = b).
  { intro b. rewrite appear_in. cbn. tauto. }
  set (us := appear A band [] l) in *.
  assert (One : forall b, us = [b] -> exists r, Ok l = Ok r /\ Permutation r l /\
    (forall b, filter (is b) r = filter (is b) l) /\
    (loaded = true -> forall l', Permutation l' l -> changes (letter cur) r <= changes (letter cur) l')).
  { intros b E. exists l. split; [reflexivity|]. split; [reflexivity|]. split; [reflexivity|]. intros _ l' P.
    assert (C : forall o, In o l -> band o = b).
    { intros o O. assert (I : In (band o) us) by (apply AI; eauto). rewrite E in I. destruct I as [I|[]]. auto. }
    assert (NE : l <> []).
    { intros ->. assert (I : In b us) by (rewrite E; left; reflexivity). apply AI in I. destruct I as (o & [] & _). }
    rewrite (changes_all l b), (changes_all l' b); auto.
    - intros ->. apply NE. apply Permutation_nil. exact P.
    - intros o O. apply C. eapply Permutation_in; eassumption. }
  set (order := match desired with Some s => s | None => flat_map list_ascii_of_string us end).
  assert (OK : NoDup order /\ (forall o, In o l -> exists c, In c order /\ band o = letter c) /\ (loaded = false -> order <> [])).
  { unfold order. destruct desired as [s|].
    - destruct D as (D1 & D2 & D3). split; [assumption|]. split; [exact D3|]. intros _. exact D1.
    - destruct (flat_letters us) as [F1 F2].
      + intros b B. apply AI in B. destruct B as (o & O & <-). apply L. exact O.
      + apply appear_nodup.
      + assert (Cov : forall o, In o l -> exists c, In c (flat_map list_ascii_of_string us) /\ band o = letter c).
        { intros o O. destruct (L o O) as [c C]. exists c. split; [|exact C]. apply F2. rewrite <- C. apply AI. eauto. }
        split; [exact F1|]. split; [exact Cov|]. intros LF. destruct D as [D|D]; [|congruence].
        destruct l as [|o l]; [congruence|]. destruct (Cov o (or_introl eq_refl)) as (c & C & _). intro Z. rewrite Z in C. destruct C. }
  assert (Main : exists r, by_order A band (if loaded then cur :: remove_letter cur order else order) l = Ok r /\ Permutation r l /\
    (forall b, filter (is b) r = filter (is b) l) /\
    (loaded = true -> forall l', Permutation l' l -> changes (letter cur) r <= changes (letter cur) l')).
  { destruct OK as (O1 & O2 & O3). destruct loaded.
    - assert (Cov : forall o, In o l -> exists c, In c (cur :: remove_letter cur order) /\ band o = letter c).
      { intros o O. destruct (O2 o O) as (c & C & B). exists c. split; [apply lead_in; auto|exact B]. }
      pose proof (lead_nodup cur order O1) as ND.
      exists (groups (cur :: remove_letter cur order) l). split; [apply by_order_groups; discriminate|].
      split; [apply groups_perm; assumption|]. split; [apply groups_stable_all; assumption|].
      intros _ l' P. apply lead_min; assumption.
    - exists (groups order l). split; [apply by_order_groups; auto|].
      split; [apply groups_perm; assumption|]. split; [apply groups_stable_all; assumption|]. discriminate. }
  destruct us as [|b [|b' us']] eqn:Eus; [exact Main|eapply One; reflexivity|exact Main].
Qed.

(** ** Truncation *)
Fixpoint qsum (l : list Q) : Q := match l with [] => 0 | x :: r => x + qsum r end.
Definition span (expt : A -> Q) (change over : Q) (prev : string) (k : nat) (l : list A) : Q :=
  let g := firstn k l in
  (qsum (map expt g) / 86400 + inject_Z (Z.of_nat (changes prev g)) * change + inject_Z (Z.of_nat (List.length g)) * over)%Q.
Lemma visit_length : forall expt ch ov l p, List.length (visit_times A band expt ch ov p l) = List.length l.
Proof. induction l as [|o l IH]; intros p; cbn; [reflexivity|]. now rewrite IH. Qed.
Lemma cumsum_length : forall l acc, List.length (cumsum acc l) = List.length l.
Proof. induction l as [|o l IH]; intros p; cbn; [reflexivity|]. now rewrite IH. Qed.
Lemma cumsum_nth : forall l acc j t, nth_error (cumsum acc l) j = Some t -> (t == acc + qsum (firstn (S j) l))%Q.
Proof.
  induction l as [|x l IH]; intros acc j t H; [destruct j; discriminate|]. destruct j; cbn in H.
  - injection H as <-. cbn. ring.
  - apply IH in H. rewrite H. change (firstn (S (S j)) (x :: l)) with (x :: firstn (S j) l). cbn [qsum]. ring.
Qed.
Lemma firstn_visit : forall expt ch ov l p k, firstn k (visit_times A band expt ch ov p l) = visit_times A band expt ch ov p (firstn k l).
Proof.
  induction l as [|o l IH]; intros p k; destruct k; cbn; try reflexivity. now rewrite IH.
Qed.
Lemma inj_S : forall n, (inject_Z (Z.of_nat (S n)) == 1 + inject_Z (Z.of_nat n))%Q.
Proof. intro n. rewrite Nat2Z.inj_succ. unfold Z.succ. rewrite inject_Z_plus. ring. Qed.
Lemma visit_sum : forall expt ch ov l p,
  (qsum (visit_times A band expt ch ov p l) ==
   qsum (map expt l) / 86400 + inject_Z (Z.of_nat (changes p l)) * ch + inject_Z (Z.of_nat (List.length l)) * ov)%Q.
Proof.
  induction l as [|o l IH]; intros p; [cbn; field|].
  cbn [visit_times qsum map changes List.length]. rewrite IH, inj_S.
  destruct (String.eqb (band o) p); cbn [Nat.add]; [|rewrite inj_S]; field.
Qed.
Lemma truncate_spec : forall expt ch ov le cur avail l,
  (forall a b, (a == b)%Q -> le a avail = le b avail) -> l <> [] ->
  exists k, k <= List.length l /\ truncate A band expt ch ov le cur avail l = Ok (firstn k l) /\
    (0 < k -> le (span expt ch ov cur k l) avail = true) /\
    forall j, k < j <= List.length l -> le (span expt ch ov cur j l) avail = false.
Proof.
  intros expt ch ov le cur avail l LE NE. set (cs := cumsum 0 (visit_times A band expt ch ov cur l)).
  assert (CL : List.length cs = List.length l) by (unfold cs; now rewrite cumsum_length, visit_length).
  assert (CN : forall j t, nth_error cs j = Some t -> (t == span expt ch ov cur (S j) l)%Q).
  { intros j t H. apply cumsum_nth in H. rewrite H, firstn_visit, visit_sum. unfold span. ring. }
  assert (CE : forall j, j < List.length l -> exists t, nth_error cs j = Some t).
  { intros j J. destruct (nth_error cs j) eqn:E; [eauto|]. apply nth_error_None in E. lia. }
  assert (Out : (match np_where (fun t => le t avail) cs with [] => Ok [] | i :: r => Ok (firstn (fold_left Nat.max r i + 1) l) end)
    = truncate A band expt ch ov le cur avail l) by (unfold truncate; destruct l; [congruence|reflexivity]).
  rewrite <- Out. clear Out.
  destruct (np_where (fun t => le t avail) cs) as [|i r] eqn:E.
  - exists 0. split; [lia|]. split; [reflexivity|]. split; [lia|]. intros j [J1 J2]. destruct j; [lia|].
    destruct (CE j J2) as [t T]. rewrite <- (LE t) by (apply CN; exact T).
    apply (np_where_nil _ _ _ E). eapply nth_error_In. exact T.
  - destruct (np_where_max _ _ _ _ _ E) as ((t & T & P) & M). set (m := fold_left Nat.max r i) in *.
    assert (ML : m < List.length l) by (rewrite <- CL; apply nth_error_Some; congruence).
    exists (m + 1). split; [lia|]. split; [reflexivity|]. rewrite Nat.add_1_r. split.
    + intros _. rewrite <- (LE t) by (apply CN; exact T). exact P.
    + intros j [J1 J2]. destruct j; [lia|]. destruct (CE j J2) as [t' T']. rewrite <- (LE t') by (apply CN; exact T').
      destruct (le t' avail) eqn:F; [|reflexivity]. pose proof (M j t' T' F). lia.
Qed.

(** ** The twilight triple *)
Lemma triple_spec : forall expt slew n tag l1 l2 l, 0 < n -> l <> [] -> (0 < l1 \/ 0 < l2)%Q ->
  exists k, 1 <= k /\ triple A expt slew n tag l1 l2 l = Ok (flat_map (fun i => map (tag i) (firstn k l)) (seq 0 n)).
Proof.
  intros expt slew n tag l1 l2 l N NE P. unfold triple.
  assert (PM : exists d, positive_min l1 l2 = Ok d).
  { unfold positive_min. cbn [filter]. destruct (Qltb 0 l1) eqn:E1; [eauto|]. destruct (Qltb 0 l2) eqn:E2; [eauto|].
    apply Qltb_false in E1, E2. exfalso. destruct P; lra. }
  destruct PM as [d ->]. cbn [bind].
  assert (TL : List.length (triple_times A expt slew l) = List.length l).
  { unfold triple_times. rewrite map_length, combine_length, seq_length, cumsum_length, map_length. lia. }
  destruct (triple_times A expt slew l) as [|c0 cr]; [destruct l; [congruence|discriminate]|].
  destruct n as [|n]; [lia|]. cbv zeta.
  match goal with |- context [firstn ?k l] => exists k end.
  split; [|reflexivity].
  destruct (Qltb _ _); [|destruct l; [congruence|cbn; lia]].
  destruct (np_where _ _) as [|i r]; [lia|]. destruct (Nat.eqb _ 0) eqn:Z; [lia|]. apply Nat.eqb_neq in Z. lia.
Qed.
Lemma triple_none : forall expt slew n tag l1 l2 l, (l1 <= 0)%Q -> (l2 <= 0)%Q ->
  triple A expt slew n tag l1 l2 l = Raise ValueError.
Proof.
  intros expt slew n tag l1 l2 l H1 H2. unfold triple, positive_min. cbn [filter].
  destruct (Qltb 0 l1) eqn:E1; [apply Qltb_lt in E1; lra|]. destruct (Qltb 0 l2) eqn:E2; [apply Qltb_lt in E2; lra|]. reflexivity.
Qed.

(** ** Chunks by hour angle *)
Lemma roll_perm : forall (l : list A) k, Permutation (skipn k l ++ firstn k l) l.
Proof. intros l k. rewrite Permutation_app_comm, firstn_skipn. reflexivity. Qed.
Lemma ins_desc_perm : forall f (x : A) l, Permutation (ins_desc A f x l) (x :: l).
Proof.
  intros f x. induction l as [|y l IH]; [reflexivity|]. cbn. destruct (Qltb (f y) (f x)); [reflexivity|].
  rewrite IH. apply perm_swap.
Qed.
Lemma sort_desc_perm : forall f l, Permutation (sort_desc A f l) l.
Proof. intros f. induction l as [|x l IH]; [reflexivity|]. cbn. rewrite ins_desc_perm. constructor. exact IH. Qed.
Fixpoint descending (f : A -> Q) (l : list A) : Prop :=
  match l with [] => True | x :: r => (forall y, In y r -> (f y <= f x)%Q) /\ descending f r end.
Lemma ins_desc_sorted : forall f x l, descending f l -> descending f (ins_desc A f x l).
Proof.
  intros f x. induction l as [|y l IH]; intros D; [cbn; split; [intros y []|exact I]|]. destruct D as [D1 D2]. cbn.
  destruct (Qltb (f y) (f x)) eqn:E.
  - apply Qltb_lt in E. split; [|split; [exact D1|exact D2]]. intros z [<-|Z]; [lra|]. pose proof (D1 z Z). lra.
  - apply Qltb_false in E. split; [|auto]. intros z Z. apply (Permutation_in _ (ins_desc_perm f x l)) in Z.
    destruct Z as [<-|Z]; auto.
Qed.
Lemma sort_desc_sorted : forall f l, descending f (sort_desc A f l).
Proof. intros f. induction l as [|x l IH]; [exact I|]. cbn. apply ins_desc_sorted. exact IH. Qed.

Lemma concat_slices_aux : forall (l : list A) k m, List.concat (map (fun i => firstn k (skipn (i * k) l)) (seq 0 m)) = firstn (m * k) l.
Proof.
  intros l k. induction m as [|m IH]; [reflexivity|].
  rewrite seq_S, map_app, concat_app, IH. cbn [map List.concat Nat.add]. rewrite app_nil_r.
  cbn [Nat.mul]. rewrite (Nat.add_comm k). clear IH. generalize (m * k) as a.
  intro a. revert l. induction a as [|a IHa]; intro l; [reflexivity|]. destruct l as [|x l]; cbn.
  - rewrite firstn_nil. reflexivity.
  - f_equal. apply IHa.
Qed.
Lemma concat_slices : forall nb l, List.concat (slices A nb l) = l.
Proof.
  intros nb l. unfold slices. destruct (1 <? nb); [|cbn; apply app_nil_r].
  rewrite concat_app, concat_slices_aux. cbn. rewrite app_nil_r. apply firstn_skipn.
Qed.
Lemma one_band_perm : forall ha spatial g, (forall x, Permutation (spatial x) x) -> Permutation (one_band A ha spatial g) g.
Proof.
  intros ha spatial g S. unfold one_band. destruct g as [|x r]; [constructor|]. cbv zeta.
  destruct (np_where _ (spatial (x :: r))); [apply S|]. unfold roll_to. rewrite roll_perm. apply S.
Qed.
Lemma chunk_groups : forall ha spatial order l, (forall x, Permutation (spatial x) x) ->
  Permutation (chunk A band ha spatial order l) (groups order l).
Proof.
  intros ha spatial order l S. unfold chunk, groups. induction order as [|c order IH]; [constructor|]. cbn.
  apply Permutation_app; [apply one_band_perm; exact S|exact IH].
Qed.
Lemma letters_one : forall c, list_ascii_of_string (letter c) = [c].
Proof. reflexivity. Qed.
(** Each chunk is a permutation of its slice; empty slices are left out. *)
Definition known (s : list ascii) (l : list A) : Prop := forall o, In o l -> exists c, In c s /\ band o = letter c.
Lemma chunks_spec : forall ha spatial orig bs order,
  (forall x, Permutation (spatial x) x) -> NoDup orig -> NoDup order ->
  (forall b, In b bs -> known orig b) -> (forall b, In b bs -> known order b) ->
  exists cs, chunks A band ha spatial orig order bs = Ok cs /\
    Forall2 (@Permutation A) cs (filter (fun b => match b with [] => false | _ => true end) bs).
Proof.
  intros ha spatial orig. induction bs as [|b bs IH]; intros order S NO ND KO KD.
  - exists []. split; [reflexivity|constructor].
  - destruct b as [|o b].
    + cbn. apply IH; auto; intros x X; [apply KO|apply KD]; right; exact X.
    + cbn [chunks]. cbv zeta. set (g := o :: b) in *.
      assert (P : Permutation (chunk A band ha spatial order g) g).
      { rewrite chunk_groups by exact S. apply groups_perm; [exact ND|]. apply KD. left. reflexivity. }
      destruct (rev (chunk A band ha spatial order g)) as [|z rz] eqn:R.
      { exfalso. apply (f_equal (@rev A)) in R. rewrite rev_involutive in R. cbn in R. rewrite R in P.
        apply Permutation_nil in P. discriminate. }
      assert (Z : In z g).
      { eapply Permutation_in; [exact P|]. apply in_rev. rewrite R. left. reflexivity. }
      destruct (KO g (or_introl eq_refl) z Z) as (c & C & B). rewrite B, letters_one.
      destruct (IH (c :: remove_letter c orig)) as (cs & E & F); auto.
      * apply lead_nodup. exact NO.
      * intros x X. apply KO. right. exact X.
      * intros x X y Y. destruct (KO x (or_intror X) y Y) as (d & D1 & D2). exists d. split; [apply lead_in; auto|exact D2].
      * rewrite E. cbn [bind]. exists (chunk A band ha spatial order g :: cs). split; [reflexivity|].
        cbn. constructor; [exact P|exact F].
Qed.
Lemma concat_filter_ne : forall ls : list (list A), List.concat (filter (fun b => match b with [] => false | _ => true end) ls) = List.concat ls.
Proof. induction ls as [|b ls IH]; [reflexivity|]. cbn. destruct b; cbn; [exact IH|]. now rewrite IH. Qed.
Lemma concat_perm2 : forall cs bs, Forall2 (@Permutation A) cs bs -> Permutation (List.concat cs) (List.concat bs).
Proof. induction 1; [constructor|]. cbn. apply Permutation_app; assumption. Qed.
(** Groups in decreasing order of [f]. *)
Fixpoint falling (f : A -> Q) (cs : list (list A)) : Prop :=
  match cs with
  | [] => True
  | c :: r => (forall d, In d r -> forall a b, In a c -> In b d -> (f b <= f a)%Q) /\ falling f r
  end.
Lemma falling_concat : forall f bs, descending f (List.concat bs) -> falling f bs.
Proof.
  intros f. induction bs as [|b bs IH]; intros D; [exact I|]. cbn in D. split.
  - intros d Dn x y X Y. clear IH. induction b as [|z b IHb]; [destruct X|]. cbn in D. destruct D as [D1 D2].
    destruct X as [<-|X]; [|apply IHb; assumption]. apply D1. apply in_or_app. right. apply in_concat. eauto.
  - apply IH. clear IH. induction b as [|z b IHb]; [exact D|]. apply IHb. apply D.
Qed.
Lemma falling_perm : forall f cs bs, Forall2 (@Permutation A) cs bs -> falling f bs -> falling f cs.
Proof.
  intros f cs bs F. induction F as [|c b cs bs P F IH]; intros H; [exact I|]. destruct H as [H1 H2]. split; [|auto].
  intros d D x y X Y.
  assert (E : exists d', In d' bs /\ Permutation d d').
  { clear - F D. induction F as [|c b cs bs P F IH]; [destruct D|]. destruct D as [<-|D]; [exists b; split; [left|]; auto|].
    destruct (IH D) as (d' & D1 & D2). exists d'. split; [right|]; auto. }
  destruct E as (d' & D1 & D2). apply (H1 d' D1); eapply Permutation_in; eassumption.
Qed.
Lemma chunk_by_ha_spec : forall ha high spatial orig order cur n_min width l,
  (forall x, Permutation (spatial x) x) -> NoDup orig -> NoDup order ->
  known orig l -> known (cur :: order) l -> filter high l <> [] ->
  exists r cs, chunk_by_ha A band ha high spatial orig order cur n_min width l = Ok r /\
    r = List.concat cs /\ Permutation r (filter high l) /\ falling ha cs.
Proof.
  intros ha high spatial orig order cur n_min width l S NO ND KO KD NE. unfold chunk_by_ha.
  destruct (filter high l) as [|x r] eqn:EF; [congruence|]. cbv zeta.
  set (s := sort_desc A ha (x :: r)).
  assert (SP : Permutation s (x :: r)) by apply sort_desc_perm.
  assert (SD : descending ha s) by apply sort_desc_sorted.
  destruct (List.length s <=? n_min).
  { exists s, (map (fun o => [o]) s). split; [reflexivity|].
    assert (CE : List.concat (map (fun o : A => [o]) s) = s) by (clear; induction s as [|y s IH]; [reflexivity|]; cbn; now rewrite IH).
    split; [symmetry; exact CE|]. split; [exact SP|]. apply falling_concat. rewrite CE. exact SD. }
  set (bs := slices A _ s).
  assert (IN : forall b o, In b bs -> In o b -> In o l).
  { intros b o B O. assert (I : In o (List.concat bs)) by (apply in_concat; eauto).
    unfold bs in I. rewrite concat_slices in I. apply (Permutation_in _ SP) in I. rewrite <- EF in I. apply filter_In in I. apply I. }
  destruct (chunks_spec ha spatial orig bs (cur :: remove_letter cur order)) as (cs & E & F); auto.
  - apply lead_nodup. exact ND.
  - intros b B o O. apply KO. eapply IN; eassumption.
  - intros b B o O. destruct (KD o (IN b o B O)) as (c & C & L). exists c. split; [|exact L]. apply lead_in.
    destruct C as [->|C]; auto.
  - rewrite E. cbn [bind]. exists (List.concat cs), cs. split; [reflexivity|]. split; [reflexivity|]. split.
    + etransitivity; [apply concat_perm2; exact F|]. rewrite concat_filter_ne. unfold bs. rewrite concat_slices. exact SP.
    + eapply falling_perm; [exact F|]. apply falling_concat. rewrite concat_filter_ne. unfold bs. rewrite concat_slices. exact SD.
Qed.

Lemma qmax_of_spec : forall f (r : list A) x, (exists o, In o (x :: r) /\ (f o == qmax_of A f x r)%Q) /\
  forall o, In o (x :: r) -> (f o <= qmax_of A f x r)%Q.
Proof.
  intros f r x. unfold qmax_of.
  assert (G : forall r v, ((fold_left (fun m y => if Qltb m (f y) then f y else m) r v == v)%Q \/
     exists o, In o r /\ (f o == fold_left (fun m y => if Qltb m (f y) then f y else m) r v)%Q) /\
     (v <= fold_left (fun m y => if Qltb m (f y) then f y else m) r v)%Q /\
     forall o, In o r -> (f o <= fold_left (fun m y => if Qltb m (f y) then f y else m) r v)%Q).
  { clear. induction r as [|y r IH]; intros v; cbn [fold_left].
    - split; [left; reflexivity|]. split; [apply Qle_refl|intros o []].
    - destruct (IH (if Qltb v (f y) then f y else v)) as (I1 & I2 & I3). destruct (Qltb v (f y)) eqn:E.
      + apply Qltb_lt in E. split; [|split].
        * right. destruct I1 as [I1|(o & O & I1)]; [exists y; split; [left; reflexivity|]; symmetry; exact I1|exists o; split; [right|]; assumption].
        * lra.
        * intros o [<-|O]; auto.
      + apply Qltb_false in E. split; [|split].
        * destruct I1 as [I1|(o & O & I1)]; [left; exact I1|right; exists o; split; [right|]; assumption].
        * exact I2.
        * intros o [<-|O]; [lra|auto]. }
  destruct (G r (f x)) as (G1 & G2 & G3). split.
  - destruct G1 as [G1|(o & O & G1)]; [exists x; split; [left; reflexivity|symmetry; exact G1]|exists o; split; [right|]; assumption].
  - intros o [<-|O]; auto.
Qed.
Lemma one_band_head : forall ha spatial g, (forall x, Permutation (spatial x) x) -> g <> [] ->
  exists o t, one_band A ha spatial g = o :: t /\
    ((exists x, In x g /\ 0 < ha x /\ ha x < 12)%Q ->
       (0 < ha o /\ ha o < 12)%Q /\ forall x, In x g -> (0 < ha x /\ ha x < 12)%Q -> (ha x <= ha o)%Q) /\
    ((forall x, In x g -> ~ (0 < ha x /\ ha x < 12)%Q) -> forall x, In x g -> (ha x <= ha o)%Q).
Proof.
  intros ha spatial g S NE. unfold one_band. destruct g as [|x r]; [congruence|]. cbv zeta. set (g := x :: r) in *.
  set (setting := filter _ g).
  assert (SI : forall o, In o setting <-> In o g /\ (0 < ha o /\ ha o < 12)%Q).
  { intro o. unfold setting. rewrite filter_In, andb_true_iff, !Qltb_lt. tauto. }
  set (top := match setting with [] => _ | y :: s => _ end).
  assert (T : exists w, In w g /\ (ha w == top)%Q).
  { unfold top. destruct setting as [|y s].
    - apply (qmax_of_spec ha r x).
    - destruct (qmax_of_spec ha s y) as ((w & W & E) & _). exists w. split; [apply SI; exact W|exact E]. }
  destruct T as (w & W & WE).
  assert (WP : In w (spatial g)) by (eapply Permutation_in; [symmetry; apply S|exact W]).
  destruct (np_where (fun o => Qeq_bool (ha o) top) (spatial g)) as [|i is'] eqn:E.
  - exfalso. pose proof (np_where_nil _ _ _ E w WP) as Z. cbn in Z. apply Qeq_bool_neq in Z. contradiction.
  - assert (I : In i (np_where (fun o => Qeq_bool (ha o) top) (spatial g))) by (rewrite E; left; reflexivity).
    apply np_where_spec in I. destruct I as (o & O & Q). apply Qeq_bool_iff in Q.
    destruct (skipn_nth _ _ _ _ O) as [t Tt]. unfold roll_to. rewrite Tt. exists o, (t ++ firstn i (spatial g)).
    split; [reflexivity|]. clear E WP. unfold top in *. destruct setting as [|y s] eqn:Es.
    + split.
      * intros (v & V1 & V2). exfalso. apply (proj2 (SI v)). auto.
      * intros _ v V. rewrite Q. apply (qmax_of_spec ha r x). exact V.
    + destruct (qmax_of_spec ha s y) as ((u & U & UE) & M). split.
      * intros _. apply SI in U. split; [rewrite Q, <- UE; apply U|]. intros v V VS. rewrite Q. apply M. apply SI. auto.
      * intros Z. exfalso. apply SI in U. apply (Z u); apply U.
Qed.
End P.
