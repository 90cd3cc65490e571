(** Proofs about Restore.v. *)
From Coq Require Import List ZArith QArith Qminmax Bool String Lia Lqa Sorted Permutation.
From Verif Require Import Base Obs Queue Core Core_proofs Downtime Observatory Restore.
Import ListNotations.
Open Scope list_scope.
Open Scope nat_scope.

(** The table of a run: visit numbers and times increase. *)
Definition earlier (a b : row) : Prop := (o_id (r_obs a) < o_id (r_obs b))%Z /\ (o_mjd (r_obs a) < o_mjd (r_obs b))%Q.
Definition in_order (rows : list row) : Prop := StronglySorted earlier rows.

Lemma sorted_app : forall A (R : A -> A -> Prop) l r, StronglySorted R (l ++ r) ->
  StronglySorted R l /\ StronglySorted R r /\ (forall x y, In x l -> In y r -> R x y).
Proof.
  induction l as [|a l IH]; intros r H; cbn in H.
  - split; [constructor|]. split; [exact H|]. intros x y [].
  - inversion H as [|? ? H1 H2]; subst. destruct (IH r H1) as (A1 & A2 & A3). rewrite Forall_forall in H2. split; [|split].
    + constructor; [exact A1|]. apply Forall_forall. intros x Hx. apply H2, in_or_app. now left.
    + exact A2.
    + intros x y [<-|Hx] Hy; [apply H2, in_or_app; now right|now apply A3].
Qed.

Lemma filter_all : forall A (p : A -> bool) l, (forall x, In x l -> p x = true) -> filter p l = l.
Proof. induction l as [|a l IH]; intros H; cbn; [reflexivity|]. rewrite (H a (or_introl eq_refl)), IH; [reflexivity|]. intros x Hx. apply H. now right. Qed.
Lemma filter_none : forall A (p : A -> bool) l, (forall x, In x l -> p x = false) -> filter p l = [].
Proof. induction l as [|a l IH]; intros H; cbn; [reflexivity|]. rewrite (H a (or_introl eq_refl)). apply IH. intros x Hx. apply H. now right. Qed.

Lemma where_none : forall A (p : A -> bool) l i, (forall x, In x l -> p x = false) -> where_from p i l = [].
Proof. induction l as [|a l IH]; intros i H; cbn; [reflexivity|]. rewrite (H a (or_introl eq_refl)). apply IH. intros x Hx. apply H. now right. Qed.
Lemma where_prefix : forall A (p : A -> bool) l r i, (forall x, In x l -> p x = true) -> (forall x, In x r -> p x = false) ->
  where_from p i (l ++ r) = seq i (List.length l).
Proof.
  induction l as [|a l IH]; intros r i H1 H2; cbn [app where_from List.length seq].
  - now apply where_none.
  - rewrite (H1 a (or_introl eq_refl)). f_equal. apply IH; [|exact H2]. intros x Hx. apply H1. now right.
Qed.

Lemma all_some_seq : forall A (l : list A) k i, i + k <= List.length l ->
  all_some (map (fun j => nth_error l j) (seq i k)) = Some (firstn k (skipn i l)).
Proof.
  induction k as [|k IH]; intros i H; cbn [seq map all_some]; [reflexivity|].
  destruct (nth_error l i) as [x|] eqn:E.
  - rewrite IH by lia. assert (K : skipn i l = x :: skipn (S i) l).
    { clear IH H k. revert i E. induction l as [|a l IHl]; intros [|i] E; cbn in *; try discriminate; [now inversion E|now apply IHl]. }
    rewrite K. reflexivity.
  - apply nth_error_None in E. lia.
Qed.

Lemma zmax_in : forall l z, zmax_list z l = z \/ In (zmax_list z l) l.
Proof.
  induction l as [|a l IH]; intros z; cbn; [now left|]. unfold zmax_list in *. cbn. destruct (IH (Z.max z a)) as [E|E]; [|tauto].
  rewrite E. destruct (Z.max_spec z a) as [[_ M]|[_ M]]; rewrite M; tauto.
Qed.

Section R.
Variable id : Z.
Variables (before after : list row) (r : row).
Hypothesis Ord : in_order (before ++ r :: after).
Hypothesis Hr : (o_id (r_obs r) <= id)%Z.
Hypothesis Ha : forall x, In x after -> (id < o_id (r_obs x))%Z.

Lemma split_order : before ++ r :: after = (before ++ [r]) ++ after.
Proof. rewrite <- app_assoc. reflexivity. Qed.
Lemma before_earlier : forall x, In x before -> earlier x r.
Proof. intros x Hx. unfold in_order in Ord. apply sorted_app in Ord as (_ & _ & K). apply K; [exact Hx|now left]. Qed.
Lemma taken_good : forall x, In x (before ++ [r]) -> taken id x = true.
Proof.
  intros x Hx. unfold taken. apply Z.leb_le. apply in_app_or in Hx as [Hx|[<-|[]]]; [|exact Hr]. destruct (before_earlier x Hx). lia.
Qed.
Lemma taken_after : forall x, In x after -> taken id x = false.
Proof. intros x Hx. unfold taken. apply Z.leb_gt. now apply Ha. Qed.
Lemma filter_good : filter (taken id) (before ++ r :: after) = before ++ [r].
Proof. rewrite split_order, filter_app, (filter_all _ _ (before ++ [r])), (filter_none _ _ after), app_nil_r; [reflexivity|exact taken_after|exact taken_good]. Qed.
Lemma where_good : np_where (taken id) (before ++ r :: after) = seq 0 (S (List.length before)).
Proof.
  unfold np_where. rewrite split_order, where_prefix; [|exact taken_good|exact taken_after]. rewrite app_length. cbn [List.length].
  rewrite Nat.add_1_r. reflexivity.
Qed.

(** The counter set is that of some visit of the table. *)
Lemma counter_ok : exists z, counter id (before ++ r :: after) = Ok z /\
  match after with
  | [] => exists t, In t (before ++ [r]) /\ z = (o_tid (r_obs t) + 1)%Z /\ (forall x, In x (before ++ [r]) -> (o_tid (r_obs x) < z)%Z)
  | n :: _ => exists t, In t (before ++ [r; n]) /\ z = o_tid (r_obs t) /\ (o_tid (r_obs n) <= z)%Z
  end.
Proof.
  unfold counter. rewrite where_good, seq_length, app_length. cbn [List.length].
  destruct after as [|n after'] eqn:EA; cbn [List.length].
  - replace (S (List.length before) <? List.length before + 1) with false by (symmetry; apply Nat.ltb_ge; lia).
    destruct (before ++ [r]) as [|x l] eqn:E; [destruct before; discriminate|]. eexists. split; [reflexivity|].
    destruct (zmax_list_ge (map (fun r => o_tid (r_obs r)) l) (o_tid (r_obs x))) as [G1 G2].
    assert (G : forall u, In u (x :: l) -> (o_tid (r_obs u) <= zmax_list (o_tid (r_obs x)) (map (fun r => o_tid (r_obs r)) l))%Z).
    { intros u [<-|Hu]; [exact G1|]. apply G2, in_map_iff. exists u. tauto. }
    destruct (zmax_in (map (fun r => o_tid (r_obs r)) l) (o_tid (r_obs x))) as [M|M].
    + exists x. split; [now left|]. split; [rewrite M; reflexivity|]. intros u Hu. specialize (G u Hu). lia.
    + apply in_map_iff in M as (t & Et & It). exists t. split; [now right|]. split; [rewrite Et; reflexivity|]. intros u Hu. specialize (G u Hu). lia.
  - replace (S (List.length before) <? List.length before + S (S (List.length after'))) with true by (symmetry; apply Nat.ltb_lt; lia).
    set (rows := before ++ r :: n :: after').
    assert (M0 : map (fun i => nth_error rows (i + 1)) (seq 0 (S (List.length before))) = map (fun i => nth_error rows i) (seq 1 (S (List.length before)))).
    { rewrite <- (seq_shift (S (List.length before)) 0), map_map. apply map_ext. intros i. f_equal. lia. }
    rewrite M0, all_some_seq by (unfold rows; rewrite app_length; cbn [List.length]; lia).
    assert (F : firstn (S (List.length before)) (skipn 1 rows) = tl (before ++ [r]) ++ [n]).
    { unfold rows. destruct before as [|b l]; [reflexivity|]. cbn [app List.length skipn tl].
      replace (l ++ r :: n :: after') with ((l ++ [r; n]) ++ after') by (rewrite <- app_assoc; reflexivity).
      rewrite firstn_app. replace (S (S (List.length l)) - List.length (l ++ [r; n])) with 0 by (rewrite app_length; cbn [List.length]; lia).
      rewrite firstn_all2 by (rewrite app_length; cbn [List.length]; lia). cbn [firstn]. rewrite app_nil_r, <- app_assoc. reflexivity. }
    rewrite F. clear M0.
    assert (Sub : forall u, In u (tl (before ++ [r]) ++ [n]) -> In u (before ++ [r; n])).
    { intros u Hu. apply in_app_or in Hu as [Hu|Hu].
      - assert (K : In u (before ++ [r])). { destruct (before ++ [r]); [destruct Hu|now right]. }
        apply in_app_or in K as [K|[<-|[]]]; apply in_or_app; [now left|right; now left].
      - destruct Hu as [<-|[]]. apply in_or_app. right. right. now left. }
    destruct (tl (before ++ [r]) ++ [n]) as [|x l] eqn:E; [destruct (tl (before ++ [r])); discriminate|].
    eexists. split; [reflexivity|].
    destruct (zmax_list_ge (map (fun r => o_tid (r_obs r)) l) (o_tid (r_obs x))) as [G1 G2].
    assert (N : In n (x :: l)) by (rewrite <- E; apply in_or_app; right; now left).
    assert (Gn : (o_tid (r_obs n) <= zmax_list (o_tid (r_obs x)) (map (fun r => o_tid (r_obs r)) l))%Z).
    { destruct N as [<-|N]; [exact G1|]. apply G2, in_map_iff. exists n. tauto. }
    destruct (zmax_in (map (fun r => o_tid (r_obs r)) l) (o_tid (r_obs x))) as [M|M].
    + exists x. split; [apply Sub; now left|]. split; [exact M|exact Gn].
    + apply in_map_iff in M as (t & Et & It). exists t. split; [apply Sub; now right|]. split; [symmetry; exact Et|exact Gn].
Qed.
End R.

(** ** Sorting *)
Lemma r_insert_last : forall l x y, (o_mjd (r_obs x) < o_mjd (r_obs y))%Q -> r_insert x (l ++ [y]) = r_insert x l ++ [y].
Proof.
  induction l as [|a l IH]; intros x y H; cbn [app r_insert].
  - replace (Qle_bool (o_mjd (r_obs x)) (o_mjd (r_obs y))) with true by (symmetry; apply Qle_bool_iff; lra). reflexivity.
  - destruct (Qle_bool (o_mjd (r_obs x)) (o_mjd (r_obs a))); [reflexivity|]. rewrite IH by exact H. reflexivity.
Qed.
Lemma r_sort_last : forall l y, (forall x, In x l -> (o_mjd (r_obs x) < o_mjd (r_obs y))%Q) -> r_sort (l ++ [y]) = r_sort l ++ [y].
Proof.
  induction l as [|a l IH]; intros y H; cbn [app r_sort]; [reflexivity|].
  rewrite IH by (intros x Hx; apply H; now right). apply r_insert_last. apply H. now left.
Qed.
Lemma final_last : forall A (l : list A) x, final (l ++ [x]) = Some x.
Proof. intros A l x. unfold final. rewrite rev_app_distr. reflexivity. Qed.
Lemma r_insert_perm : forall l x, Permutation (r_insert x l) (x :: l).
Proof.
  induction l as [|a l IH]; intros x; cbn [r_insert]; [reflexivity|]. destruct (Qle_bool _ _); [reflexivity|].
  rewrite IH. apply perm_swap.
Qed.
Lemma r_sort_perm : forall l, Permutation (r_sort l) l.
Proof. induction l as [|a l IH]; cbn [r_sort]; [reflexivity|]. rewrite r_insert_perm. now constructor. Qed.
Lemma backfill_mjd : forall o, o_mjd (backfill_band o) = o_mjd o.
Proof. intros o. unfold backfill_band. destruct (String.eqb (o_band o) ""); reflexivity. Qed.
Lemma backfill_night : forall o, o_night (backfill_band o) = o_night o.
Proof. intros o. unfold backfill_band. destruct (String.eqb (o_band o) ""); reflexivity. Qed.
Lemma backfill_same : forall o, o_band o <> ""%string -> backfill_band o = o.
Proof. intros o H. unfold backfill_band. apply String.eqb_neq in H. now rewrite H. Qed.
