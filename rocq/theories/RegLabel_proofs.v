(** Proofs about the labelling detailers. *)
From Coq Require Import List Bool String Ascii Arith Lia Permutation.
From Verif Require Import Base DetEdit_proofs RegLabel.
Import ListNotations.
Local Open Scope string_scope.
Open Scope list_scope.
Open Scope nat_scope.

Fixpoint has_char (a : ascii) (s : string) : bool :=
  match s with EmptyString => false | String c r => Ascii.eqb a c || has_char a r end.

Lemma prefix_app : forall s t, prefix s (s ++ t)%string = true.
Proof. induction s as [|c s IH]; intro t; [destruct t; reflexivity|]. cbn. destruct (ascii_dec c c); [apply IH|contradiction]. Qed.
Lemma app_assoc_s : forall a b c : string, ((a ++ b) ++ c)%string = (a ++ (b ++ c))%string.
Proof. induction a as [|x a IH]; intros b c; [reflexivity|]. cbn. rewrite IH. reflexivity. Qed.
Lemma app_nil_s : forall a : string, (a ++ "")%string = a.
Proof. induction a as [|x a IH]; [reflexivity|]. cbn. rewrite IH. reflexivity. Qed.

Section Split.
Variables (a : ascii) (rest : string).
Let sep := String a rest.
Lemma split_word : forall w t acc, has_char a w = false ->
  split_go sep (w ++ t)%string 0 acc = split_go sep t 0 (acc ++ w)%string.
Proof.
  induction w as [|c w IH]; intros t acc H; [rewrite app_nil_s; reflexivity|].
  cbn in H. apply orb_false_elim in H. destruct H as [H1 H2]. cbn [append split_go].
  assert (P : prefix sep (String c (w ++ t)) = false).
  { unfold sep. cbn. destruct (ascii_dec a c) as [->|]; [rewrite Ascii.eqb_refl in H1; discriminate|reflexivity]. }
  rewrite P, IH by exact H2. rewrite app_assoc_s. reflexivity.
Qed.
Lemma skip_all : forall r t acc, split_go sep (r ++ t)%string (String.length r) acc = split_go sep t 0 acc.
Proof. induction r as [|c r IH]; intros t acc; [reflexivity|]. cbn. apply IH. Qed.
Lemma split_sep : forall t acc, split_go sep (sep ++ t)%string 0 acc = acc :: split_go sep t 0 "".
Proof.
  intros t acc. unfold sep at 2. cbn [append split_go]. fold sep.
  change (String a (rest ++ t)) with (sep ++ t)%string. rewrite prefix_app. f_equal.
  unfold sep at 2. cbn [String.length]. rewrite Nat.sub_succ, Nat.sub_0_r. apply skip_all.
Qed.
Theorem split_join : forall l, l <> [] -> Forall (fun w => has_char a w = false) l ->
  py_split sep (String.concat sep l) = l.
Proof.
  unfold py_split. intros l N F. destruct l as [|w l]; [contradiction|]. clear N.
  revert w F. induction l as [|v l IH]; intros w F.
  - inversion F; subst. cbn [String.concat]. rewrite <- (app_nil_s w) at 1. rewrite split_word by assumption. reflexivity.
  - inversion F as [|? ? F1 F2]; subst. change (String.concat sep (w :: v :: l)) with (w ++ sep ++ String.concat sep (v :: l))%string.
    rewrite split_word by exact F1. cbn [append]. rewrite split_sep. rewrite IH by exact F2. reflexivity.
Qed.
(** Every piece of a split is free of the separator's first character only if the text was split
    on all of them; what matters below is the pieces of a joined list. *)
End Split.

(** What a label column says: its pieces, without "" and "None". *)
Definition says (sep : string) (column x : string) : Prop := In x (py_split sep column) /\ x <> "" /\ x <> "None".

Lemma kept_iff : forall x, kept x = true <-> x <> "" /\ x <> "None".
Proof.
  intro x. unfold kept. rewrite negb_true_iff, orb_false_iff.
  destruct (String.eqb_spec x ""), (String.eqb_spec x "None"); intuition congruence.
Qed.
Lemma new_values_spec : forall sep append old labels,
  NoDup (new_values sep append old labels) /\
  forall x, In x (new_values sep append old labels) <->
    ((append = true /\ says sep old x) \/ (In x labels /\ x <> "" /\ x <> "None")).
Proof.
  intros sep append old labels. unfold new_values. split; [apply NoDup_filter, NoDup_nodup|].
  intro x. rewrite filter_In, nodup_In, in_app_iff, kept_iff. unfold says.
  destruct append; cbn [In]; intuition congruence.
Qed.
(** The separator's first character is in none of the pieces or labels. *)
Definition clean (sep : string) (l : list string) : Prop :=
  match sep with EmptyString => False | String a _ => Forall (fun w => has_char a w = false) l end.

Theorem relabel_spec : forall ord sep append old labels,
  (forall l, Permutation (ord l) l) ->
  clean sep (new_values sep append old labels) ->
  String.length (String.concat sep (ord (new_values sep append old labels))) <= width ->
  forall x, says sep (relabel ord sep append old labels) x <->
    ((append = true /\ says sep old x) \/ (In x labels /\ x <> "" /\ x <> "None")).
Proof.
  intros ord sep append old labels Ho C W x. unfold relabel. rewrite substring_id by exact W.
  destruct (new_values_spec sep append old labels) as [_ N]. rewrite <- N.
  set (nv := new_values sep append old labels) in *.
  destruct sep as [|a rest]; [contradiction|]. cbn in C.
  assert (KEEP : forall y, In y nv -> y <> "" /\ y <> "None").
  { intros y Hy. apply N in Hy. destruct Hy as [[_ [_ Hy]]|[_ Hy]]; exact Hy. }
  destruct nv as [|v nv'] eqn:E.
  - pose proof (Ho []) as P. apply Permutation_sym, Permutation_nil in P. rewrite P. cbn. unfold says. cbn.
    split; [|contradiction]. intros [[<-|[]] [H _]]. contradiction.
  - assert (NE : ord (v :: nv') <> []).
    { intro X. pose proof (Ho (v :: nv')) as P. rewrite X in P. apply Permutation_nil in P. discriminate. }
    unfold says. rewrite split_join.
    + split.
      * intros [H _]. eapply Permutation_in; [apply Ho|exact H].
      * intro H. split; [eapply Permutation_in; [apply Permutation_sym, Ho|exact H]|apply KEEP; exact H].
    + exact NE.
    + eapply Permutation_Forall; [apply Permutation_sym, Ho|exact C].
Qed.

(** ** The detailers *)
Lemma region_labels_spec : forall under, region_labels under <> [] /\
  forall x, In x (region_labels under) <-> (x <> "" /\ In x under) \/ (x = "OOF" /\ forall y, In y under -> y = "").
Proof.
  intro under. unfold region_labels.
  assert (F : forall x, In x (filter (fun x => negb (String.eqb x "")) under) <-> In x under /\ x <> "").
  { intro x. rewrite filter_In. destruct (String.eqb_spec x ""); cbn; intuition congruence. }
  destruct (filter (fun x => negb (String.eqb x "")) under) as [|y l] eqn:E.
  - split; [discriminate|]. intro x. split.
    + intros [<-|[]]. right. split; [reflexivity|]. intros y Hy. destruct (string_dec y ""); [assumption|].
      exfalso. apply (F y). split; assumption.
    + intros [[H1 H2]|[-> _]]; [exfalso; apply (F x); split; assumption|left; reflexivity].
  - split.
    + intro X. assert (In y (nodup string_dec (y :: l))) by (apply nodup_In; left; reflexivity). rewrite X in H. exact H.
    + intro x. rewrite nodup_In, F. split.
      * intros [H1 H2]. left. split; assumption.
      * intros [[H1 H2]|[-> H]]; [split; assumption|].
        assert (In y (y :: l)) by (left; reflexivity). apply F in H0. destruct H0 as [H0 H1]. exfalso. apply H1. apply H. exact H0.
Qed.

(** ** Room in the column *)
Definition fits (sep : string) (P : string -> Prop) : Prop :=
  forall v, NoDup v -> (forall x, In x v <-> P x) -> clean sep v /\ String.length (String.concat sep v) <= 60.
Fixpoint tot (sep : string) (l : list string) : nat :=
  match l with [] => 0 | w :: r => String.length w + String.length sep + tot sep r end.
Lemma len_app : forall a b : string, String.length (a ++ b)%string = String.length a + String.length b.
Proof. induction a as [|c a IH]; intro b; [reflexivity|]. cbn. rewrite IH. reflexivity. Qed.
Lemma concat_len : forall sep l, String.length (String.concat sep l) = tot sep l - String.length sep.
Proof.
  intros sep l. induction l as [|w l IH]; [reflexivity|]. destruct l as [|v l]; [cbn; lia|].
  change (String.concat sep (w :: v :: l)) with (w ++ sep ++ String.concat sep (v :: l))%string.
  rewrite !len_app, IH. cbn [tot]. lia.
Qed.
Lemma tot_app : forall sep a b, tot sep (a ++ b) = tot sep a + tot sep b.
Proof. intros sep a b. induction a as [|w a IH]; cbn; [reflexivity|]. rewrite IH. lia. Qed.
Lemma tot_incl : forall sep v w, NoDup v -> incl v w -> tot sep v <= tot sep w.
Proof.
  intros sep v. induction v as [|x v IH]; intros w N I; [cbn; lia|]. inversion N as [|? ? N1 N2]; subst.
  destruct (in_split x w (I x (or_introl eq_refl))) as [a [b ->]].
  assert (I2 : incl v (a ++ b)).
  { intros y Hy. pose proof (I y (or_intror Hy)) as H. apply in_app_iff in H. apply in_app_iff.
    destruct H as [H|[H|H]]; [left; exact H|subst; contradiction|right; exact H]. }
  specialize (IH _ N2 I2). rewrite tot_app in *. cbn [tot]. lia.
Qed.
Lemma clean_incl : forall sep v w, incl v w -> clean sep w -> clean sep v.
Proof. intros [|a r] v w I C; [exact C|]. cbn in *. rewrite Forall_forall in *. intros x H. apply C, I, H. Qed.
Lemma fits_sub : forall sep (P P' : string -> Prop) w, NoDup w -> (forall x, In x w <-> P x) ->
  fits sep P -> (forall x, P' x -> P x) -> fits sep P'.
Proof.
  intros sep P P' w N E F S v Nv Ev. destruct (F w N E) as [C L].
  assert (I : incl v w) by (intros x Hx; apply E, S, Ev, Hx).
  split; [eapply clean_incl; eassumption|]. rewrite concat_len in *. pose proof (tot_incl sep v w Nv I). lia.
Qed.
(** The labels a column should say after adding [labels] to (or putting them in place of) [old]. *)
Definition should (sep : string) (append : bool) (old : string) (L : string -> Prop) (x : string) : Prop :=
  (append = true /\ says sep old x) \/ (L x /\ x <> "" /\ x <> "None").
Theorem relabel_fits : forall ord sep append old labels,
  (forall l, Permutation (ord l) l) -> fits sep (should sep append old (fun x => In x labels)) ->
  forall x, says sep (relabel ord sep append old labels) x <-> should sep append old (fun x => In x labels) x.
Proof.
  intros ord sep append old labels Ho F. destruct (new_values_spec sep append old labels) as [N E].
  apply relabel_spec; [exact Ho|apply F; [exact N|exact E]|].
  assert (P := Ho (new_values sep append old labels)).
  apply (F (ord (new_values sep append old labels))).
  - eapply Permutation_NoDup; [apply Permutation_sym, P|exact N].
  - intro x. unfold should. rewrite <- E. split; intro H; eapply Permutation_in; try exact H; [exact P|apply Permutation_sym, P].
Qed.
Lemma fits_ext : forall sep (P P' : string -> Prop), (forall x, P x <-> P' x) -> fits sep P -> fits sep P'.
Proof. intros sep P P' E F v N H. apply F; [exact N|]. intro x. rewrite E. apply H. Qed.
Theorem ddf_fold : forall ord sep names old, (forall l, Permutation (ord l) l) ->
  fits sep (should sep true old (fun x => In x names)) ->
  forall x, says sep (fold_left (fun o n => relabel ord sep true o [n]) names old) x <->
            should sep true old (fun x => In x names) x.
Proof.
  intros ord sep names. induction names as [|n names IH]; intros old Ho F x.
  - cbn. unfold should. cbn. intuition.
  - cbn [fold_left].
    assert (R : forall y, says sep (relabel ord sep true old [n]) y <-> should sep true old (fun x => In x [n]) y).
    { apply relabel_fits; [exact Ho|].
      destruct (new_values_spec sep true old (n :: names)) as [N E].
      eapply fits_sub; [exact N|exact E|exact F|]. intros y H. unfold should in H. cbn [In] in H. cbn [In]. intuition. }
    assert (X : forall y, should sep true (relabel ord sep true old [n]) (fun x => In x names) y <->
                          should sep true old (fun x => In x (n :: names)) y).
    { intro y. unfold should at 1. rewrite R. unfold should. cbn [In]. intuition. }
    rewrite IH; [apply X|exact Ho|]. eapply fits_ext; [|exact F]. intro y. symmetry. apply X.
Qed.

(** The labels of a pointing: those under it, or OOF when there is none. *)
Definition region (under : list string) (x : string) : Prop :=
  (x <> "" /\ In x under) \/ (x = "OOF" /\ forall y, In y under -> y = "").
Lemma region_row : forall ord sep append old under, (forall l, Permutation (ord l) l) ->
  fits sep (should sep append old (region under)) ->
  forall x, says sep (relabel ord sep append old (region_labels under)) x <-> should sep append old (region under) x.
Proof.
  intros ord sep append old under Ho F.
  assert (E : forall x, should sep append old (region under) x <-> should sep append old (fun x => In x (region_labels under)) x).
  { intro x. unfold should. destruct (region_labels_spec under) as [_ E]. rewrite E. unfold region. reflexivity. }
  intro x. rewrite E. apply relabel_fits; [exact Ho|]. eapply fits_ext; [exact E|exact F].
Qed.
Theorem ddf_clobber_last : forall ord sep names old n,
  (forall l, Permutation (ord l) l) -> n <> "" -> n <> "None" -> String.length n <= width ->
  fold_left (fun o m => relabel ord sep false o [m]) (names ++ [n]) old = n.
Proof.
  intros ord sep names old n Ho N1 N2 W. rewrite fold_left_app. cbn [fold_left].
  assert (K : kept n = true) by (apply kept_iff; split; assumption).
  assert (V : forall o, new_values sep false o [n] = [n]).
  { intro o. unfold new_values. cbn [app]. replace (nodup string_dec [n]) with [n] by reflexivity. cbn [filter]. rewrite K. reflexivity. }
  unfold relabel at 1. rewrite V.
  pose proof (Ho [n]) as P. apply Permutation_sym in P. apply Permutation_length_1_inv in P. rewrite P. cbn [String.concat].
  apply substring_id. exact W.
Qed.
