(** C76: the labels of regions and deep drilling fields. *)
From Coq Require Import List Bool String Ascii Arith Lia Permutation.
From Verif Require Import Base DetEdit_proofs RegLabel RegLabel_proofs.
Import ListNotations.
Local Open Scope string_scope.
Open Scope list_scope.
Open Scope nat_scope.

Definition an_order (ord : list string -> list string) : Prop := forall l, Permutation (ord l) l.
Definition same_row (r q : lrow) : Prop := l_id q = l_id r /\ l_under q = l_under r /\ l_near q = l_near r.

(** While the labels fit the column (and do not use the separator), LabelRegionDetailer leaves a
    column that says exactly the labels under the pointing, with those there before when appending,
    and OOF when there is none. *)
Theorem C76_region_partial : forall ord sep append rows, an_order ord ->
  Forall2 (fun r q => same_row r q /\
    (fits sep (should sep append (l_label r) (region (l_under r))) ->
     forall x, says sep (l_label q) x <-> should sep append (l_label r) (region (l_under r)) x))
    rows (label_region ord sep append rows).
Proof.
  intros ord sep append rows Ho. induction rows as [|r rows IH]; constructor; [|exact IH].
  split; [repeat split|]. cbn [l_label]. apply region_row. exact Ho.
Qed.
Print Assumptions C76_region_partial.
(** LabelDDFDetailer adds the names of all fields near the pointing. *)
Theorem C76_ddf_partial : forall ord sep rows, an_order ord ->
  Forall2 (fun r q => same_row r q /\
    (fits sep (should sep true (l_label r) (fun x => In x (l_near r))) ->
     forall x, says sep (l_label q) x <-> should sep true (l_label r) (fun x => In x (l_near r)) x))
    rows (label_ddf ord sep true rows).
Proof.
  intros ord sep rows Ho. induction rows as [|r rows IH]; constructor; [|exact IH].
  split; [repeat split|]. cbn [l_label]. apply ddf_fold. exact Ho.
Qed.
Print Assumptions C76_ddf_partial.
(** Away from every field it changes nothing, appending or not. *)
Theorem C76_ddf_away : forall ord sep append rows, (forall r, In r rows -> l_near r = []) ->
  label_ddf ord sep append rows = rows.
Proof.
  intros ord sep append rows H. unfold label_ddf. rewrite <- (map_id rows) at 2. apply map_ext_in.
  intros [i lb u n] Hr. specialize (H _ Hr). cbn in *. rewrite H. reflexivity.
Qed.
Print Assumptions C76_ddf_away.
(** Both together say the union. *)
Theorem C76_both_partial : forall ord sep rows, an_order ord ->
  Forall2 (fun r q => same_row r q /\
    (fits sep (should sep true (l_label r) (fun x => region (l_under r) x \/ In x (l_near r))) ->
     forall x, says sep (l_label q) x <-> should sep true (l_label r) (fun x => region (l_under r) x \/ In x (l_near r)) x))
    rows (label_both ord sep rows).
Proof.
  intros ord sep rows Ho. induction rows as [|r rows IH]; constructor; [|exact IH].
  split; [repeat split|]. cbn [l_label l_near l_under]. intro F.
  set (U := fun x => region (l_under r) x \/ In x (l_near r)) in *.
  destruct (new_values_spec sep true (l_label r) (region_labels (l_under r) ++ l_near r)) as [N E].
  destruct (region_labels_spec (l_under r)) as [_ G].
  assert (E' : forall x, In x (new_values sep true (l_label r) (region_labels (l_under r) ++ l_near r)) <-> should sep true (l_label r) U x).
  { intro x. rewrite E, in_app_iff, G. unfold should, U, region. intuition. }
  assert (R : forall x, says sep (relabel ord sep true (l_label r) (region_labels (l_under r))) x <-> should sep true (l_label r) (region (l_under r)) x).
  { apply region_row; [exact Ho|]. eapply fits_sub; [exact N|exact E'|exact F|]. intros x H. unfold should, U in *. intuition. }
  assert (X : forall x, should sep true (l_label r) U x <-> should sep true (relabel ord sep true (l_label r) (region_labels (l_under r))) (fun x => In x (l_near r)) x).
  { intro x. unfold should at 2. rewrite R. unfold should, U. intuition. }
  intro x. rewrite X. apply ddf_fold; [exact Ho|]. eapply fits_ext; [exact X|exact F].
Qed.
Print Assumptions C76_both_partial.
(** Labelling again says nothing new. *)
Theorem C76_again_partial : forall ord ord' sep rows, an_order ord -> an_order ord' ->
  Forall2 (fun r q =>
    fits sep (should sep true (l_label r) (region (l_under r))) ->
     forall x, says sep (l_label q) x <-> should sep true (l_label r) (region (l_under r)) x)
    rows (label_region ord' sep true (label_region ord sep true rows)).
Proof.
  intros ord ord' sep rows Ho Ho'. induction rows as [|r rows IH]; constructor; [|exact IH].
  cbn [l_label l_under]. intro F.
  pose proof (region_row ord sep true (l_label r) (l_under r) Ho F) as R.
  assert (X : forall x, should sep true (l_label r) (region (l_under r)) x <->
     should sep true (relabel ord sep true (l_label r) (region_labels (l_under r))) (region (l_under r)) x).
  { intro x. unfold should at 2. rewrite R. unfold should. intuition. }
  intro x. rewrite X. apply region_row; [exact Ho'|]. eapply fits_ext; [exact X|exact F].
Qed.
Print Assumptions C76_again_partial.

(** Labels that do not fit are cut: one is lost, its stump is a label of its own, and labelling
    again brings the label back beside the stump. *)
Definition long1 : string := "a_region_with_a_rather_long_name_of_its_own".
Definition long2 : string := "another_region_with_a_name".
Theorem C76_cut_refuted : exists ord rows, an_order ord /\
  match label_region ord ", " true rows with
  | [q] => In long2 (l_under q) /\ ~ says ", " (l_label q) long2 /\ says ", " (l_label q) "another_region_" /\
           ~ In "another_region_" (l_under q)
  | _ => False
  end.
Proof.
  exists (fun l => l), [mkL 1 "" [long1; long2] []]. split; [intro l; apply Permutation_refl|].
  vm_compute. split; [right; left; reflexivity|]. split; [|split].
  - intros [[H|[H|[]]] _]; discriminate H.
  - split; [right; left; reflexivity|]. split; discriminate.
  - intros [H|[H|[]]]; discriminate H.
Qed.
Print Assumptions C76_cut_refuted.
(** The column is not a function of the visit: it depends on the order a set is iterated in,
    which differs between runs. *)
Theorem C76_reproducible_refuted : exists ord ord' rows, an_order ord /\ an_order ord' /\
  label_region ord ", " true rows <> label_region ord' ", " true rows.
Proof.
  exists (fun l => l), (@rev string), [mkL 1 "" ["wfd"; "LMC_SMC"] []].
  split; [intro l; apply Permutation_refl|]. split; [intro l; apply Permutation_sym, Permutation_rev|].
  vm_compute. discriminate.
Qed.
Print Assumptions C76_reproducible_refuted.
(** Without append, only the last of the fields near a pointing is named. *)
Theorem C76_ddf_last : forall ord sep names old n, an_order ord ->
  n <> "" -> n <> "None" -> String.length n <= 60 ->
  map l_label (label_ddf ord sep false [mkL 1 old [] (names ++ [n])]) = [n].
Proof. intros ord sep names old n Ho N1 N2 W. cbn [label_ddf map l_label l_near]. rewrite ddf_clobber_last by assumption. reflexivity. Qed.
Print Assumptions C76_ddf_last.
Theorem C76_ddf_clobber_refuted : exists ord rows, an_order ord /\
  match label_ddf ord ", " false rows with
  | [q] => In "ddf_edfs_a" (l_near q) /\ ~ says ", " (l_label q) "ddf_edfs_a"
  | _ => False
  end.
Proof.
  exists (fun l => l), [mkL 1 "" [] ["ddf_edfs_a"; "ddf_edfs_b"]]. split; [intro l; apply Permutation_refl|].
  vm_compute. split; [left; reflexivity|]. intros [[H|[]] _]. discriminate H.
Qed.
Print Assumptions C76_ddf_clobber_refuted.
Example C76_ex : map l_label (label_both (fun l => l) ", " [mkL 1 "None" ["wfd"; ""; "wfd"; "LMC"] ["ddf_cosmos"]; mkL 2 "x, wfd" [""] []])
  = ["wfd, LMC, ddf_cosmos"; "x, wfd, OOF"].
Proof. reflexivity. Qed.
(** A row that fits. *)
Example C76_ex_fits : fits ", " (should ", " true "x" (region ["wfd"; ""])).
Proof.
  intros v N E. assert (I : incl v ["x"; "wfd"]).
  { intros y Hy. apply E in Hy. destruct Hy as [[_ [H _]]|[[[H1 H]|[_ H]] _]].
    - destruct H as [<-|[]]. left. reflexivity.
    - destruct H as [<-|[<-|[]]]; [right; left; reflexivity|contradiction].
    - specialize (H "wfd" (or_introl eq_refl)). discriminate H. }
  split; [eapply clean_incl; [exact I|repeat constructor]|].
  rewrite concat_len. pose proof (tot_incl ", " v _ N I) as T. cbn in T |- *. lia.
Qed.
