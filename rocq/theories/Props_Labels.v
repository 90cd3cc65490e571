(** Survey labels (C13). *)
From Coq Require Import List Arith Bool String.
From Verif Require Import Labels.
Import ListNotations.
Open Scope nat_scope.

(** Refuted: two surveys called X and one called "X 1" in one tier. *)
Theorem C13_labels_distinct_refuted :
  exists l t, In t (survey_labels l) /\ ~ NoDup t.
Proof.
  exists [[mkSvn (Some "X") "S"; mkSvn (Some "X") "S"; mkSvn (Some "X 1") "S"]]%string.
  exists ["X 1"; "X 2"; "X 1"]%string. split; [vm_compute; auto|].
  intros N. inversion N as [|? ? H _]; subst. apply H. cbn. auto.
Qed.
Print Assumptions C13_labels_distinct_refuted.

(** Exact condition: all labels, across all tiers, are different unless a name
    used once reads "D k" for a name D used at least k times and at least
    twice. *)
Theorem C13_labels_distinct_partial : forall l,
  NoDup (List.concat (survey_labels l)) <->
  ~ exists b d k, let names := map basic (List.concat l) in
      List.length (filter (String.eqb b) names) = 1 /\
      2 <= List.length (filter (String.eqb d) names) /\
      1 <= k <= List.length (filter (String.eqb d) names) /\
      b = (d ++ " " ++ dec k)%string.
Proof. exact survey_labels_unique. Qed.
Print Assumptions C13_labels_distinct_partial.

(** One label per survey, arranged as the survey lists; a name used once is its
    own label, a name used more than once gets its occurrence number. *)
Theorem C13_labels_meaning : forall l p s q, List.concat l = p ++ s :: q ->
  map (@List.length string) (survey_labels l) = map (@List.length svn) l /\
  nth_error (List.concat (survey_labels l)) (List.length p) =
    Some (if List.length (filter (fun x => String.eqb (basic s) (basic x)) (p ++ s :: q)) =? 1
          then basic s
          else (basic s ++ " " ++
                dec (S (List.length (filter (fun x => String.eqb (basic s) (basic x)) p))))%string).
Proof. exact survey_labels_meaning. Qed.
Print Assumptions C13_labels_meaning.

Example C13_example :
  survey_labels [[mkSvn (Some "DD") "S"; mkSvn None "Greedy"]; [mkSvn (Some "") "Greedy"; mkSvn (Some "X 1") "S"]]%string
  = [["DD"; "Greedy 1"]; ["Greedy 2"; "X 1"]]%string.
Proof. vm_compute. reflexivity. Qed.

(** No label is empty: surveys without a name are labelled by their class. *)
Theorem C13_labels_nonempty : forall l,
  (forall s, In s (List.concat l) -> sv_class s <> ""%string) ->
  ~ In ""%string (List.concat (survey_labels l)).
Proof. exact survey_labels_nonempty. Qed.
Print Assumptions C13_labels_nonempty.
