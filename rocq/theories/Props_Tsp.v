(** C39: the route finder. *)
From Coq Require Import List ZArith QArith Bool Lia Permutation.
From Verif Require Import Base IntRounded Tsp Tsp_proofs.
Import ListNotations.
Open Scope nat_scope.

(** Length of the closed route: every town to the next one, the last to the first. *)
Definition closed (dist : nat -> nat -> Q) (r : list nat) : Q :=
  fold_right Qplus 0%Q (map (fun i => dist (nth i r 0) (nth ((i + 1) mod List.length r) r 0)) (seq 0 (List.length r))).

Lemma route_length_closed : forall dist r, route_length dist r = closed dist r.
Proof.
  intros dist r. unfold route_length, closed. f_equal.
  assert (E : combine r (roll r) = map (fun i => (nth i r 0, nth ((i + 1) mod List.length r) r 0)) (seq 0 (List.length r))).
  2:{ rewrite E, map_map. reflexivity. }
  assert (LR : List.length (roll r) = List.length r) by (destruct r; cbn; [reflexivity|rewrite app_length; cbn; lia]).
  apply nth_ext with (d := (0, 0)) (d' := (nth (List.length r) r 0, nth ((List.length r + 1) mod List.length r) r 0)).
  - rewrite combine_length, map_length, seq_length, LR. lia.
  - intros i L. rewrite combine_length, LR, Nat.min_id in L. rewrite combine_nth by (now rewrite LR).
    rewrite (map_nth (fun i => (nth i r 0, nth ((i + 1) mod List.length r) r 0))). rewrite seq_nth by lia. cbn [Nat.add]. f_equal.
    destruct r as [|x r]; [cbn in L; lia|]. cbn [roll]. cbn [List.length] in *.
    destruct (Nat.eq_dec i (List.length r)) as [->|Ne].
    + rewrite app_nth2 by lia. rewrite Nat.sub_diag. replace (List.length r + 1) with (S (List.length r)) by lia.
      rewrite Nat.mod_same by lia. reflexivity.
    + rewrite Nat.mod_small by lia. rewrite app_nth1 by lia. replace (i + 1) with (S i) by lia. reflexivity.
Qed.

(** What is assumed of Qhull: vertices are distinct positions of the points given, at
    least one. *)
Definition qhull_ok (hull : list nat -> option (list nat)) : Prop :=
  forall rem vs, rem <> [] -> hull rem = Some vs -> vs <> [] /\ NoDup vs /\ forall v, In v vs -> v < List.length rem.

(** The tour visits every town exactly once, with or without optimisation and for any
    iteration limit (zero: none); the loop ends and nothing fails. *)
Theorem C39_tour : forall dist hull n optimize niter, qhull_ok hull -> 0 < n ->
  exists bound, forall fuel, bound <= fuel ->
  exists r, tsp_convex dist hull fuel n optimize niter = Ok r /\ Permutation r (seq 0 n).
Proof.
  intros dist hull n opt niter HO N. unfold tsp_convex.
  destruct (generate_hulls_spec dist hull HO n) as (hs & E & P & F). rewrite E. cbn [bind].
  destruct hs as [|h hs]; [apply Permutation_length in P; rewrite seq_length in P; cbn in P; lia|].
  inversion F as [|? ? Fh Fr]; subst. cbn [merge_hulls].
  destruct (insert_towns_spec dist (concat hs) h Fh) as (r & E2 & P2 & _). rewrite E2. cbn [bind].
  assert (PR : Permutation r (seq 0 n)) by (rewrite P2; exact P).
  destruct opt; [|exists 0; intros; eauto].
  exists (S (shorter dist n (route_length dist r))). intros fuel L.
  destruct (opt_loop_spec dist fuel n niter r 0 PR) as (r' & E3 & P3 & _); [lia|]. eauto.
Qed.
Print Assumptions C39_tour.

(** Three-opt returns a reordering that is no longer than the route it is given,
    together with its length, for both kinds of comparison. *)
Theorem C39_three_opt : forall dist route cross,
  let '(r, d) := three_opt dist route cross in
  Permutation r route /\ (closed dist r <= closed dist route)%Q /\ d = closed dist r.
Proof.
  intros dist route cross. pose proof (three_opt_spec dist route cross) as T. cbv zeta in T.
  destruct (three_opt dist route cross) as [r d]. cbn [fst snd] in T. rewrite !route_length_closed in T. intuition.
Qed.
Print Assumptions C39_three_opt.

(** Without the rounding, no cut of the route into three pieces, reassembled with the
    second and third swapped or reversed, is shorter than the result. *)
Theorem C39_three_opt_best : forall dist p c1 c2 c3, c1 <> [] -> c2 <> [] -> c3 <> [] ->
  let q := c3 ++ p in
  forall m, In m [ c1 ++ c2 ++ q; c1 ++ q ++ c2; c1 ++ rev c2 ++ q; c1 ++ q ++ rev c2;
                   c1 ++ c2 ++ rev q; c1 ++ rev q ++ c2; c1 ++ rev c2 ++ rev q; c1 ++ rev q ++ rev c2 ] ->
  (closed dist (fst (three_opt dist (p ++ c1 ++ c2 ++ c3) false)) <= closed dist m)%Q.
Proof.
  intros dist p c1 c2 c3 N1 N2 N3 q m H.
  destruct (moves_all p c1 c2 c3 N1 N2 N3 m H) as (cut & I & M).
  destruct (three_opt_spec dist (p ++ c1 ++ c2 ++ c3) false) as (_ & _ & _ & T). cbv zeta in T.
  specialize (T eq_refl _ _ I M). now rewrite !route_length_closed in T.
Qed.
Print Assumptions C39_three_opt_best.

(** Optimising never makes the tour longer. *)
Theorem C39_optimize : forall dist hull fuel n niter r0 r,
  tsp_convex dist hull fuel n false niter = Ok r0 -> tsp_convex dist hull fuel n true niter = Ok r ->
  (closed dist r <= closed dist r0)%Q.
Proof.
  intros dist hull fuel n niter r0 r. unfold tsp_convex.
  destruct (generate_hulls hull n) as [hs|]; cbn [bind]; [|discriminate].
  destruct (merge_hulls dist hs) as [route|]; cbn [bind]; [|discriminate]. intros E. injection E as ->.
  rewrite <- !route_length_closed. generalize 0 at 1. revert r0 r. induction fuel as [|fuel IH]; intros r0 r ic H; [discriminate|].
  cbn [opt_loop] in H. pose proof (three_opt_spec dist r0 true) as T. cbv zeta in T.
  destruct (three_opt dist r0 true) as [nr nd]. cbn [fst snd] in T. destruct T as (-> & T & _).
  destruct (ir_less (route_length dist nr) (route_length dist r0)); [|injection H as <-; apply Qle_refl].
  destruct (Nat.eqb (S ic) niter); [injection H as <-; exact T|]. eapply Qle_trans; [eapply IH; exact H|exact T].
Qed.
Print Assumptions C39_optimize.

(** A town is inserted at the place where it lengthens the route least. *)
Theorem C39_insert : forall dist c x, c <> [] ->
  exists r, insert_town dist c x = Ok r /\
  (exists a b, c = a ++ b /\ r = b ++ a ++ [x]) /\
  forall a b, c = a ++ b -> (closed dist r <= closed dist (a ++ x :: b))%Q.
Proof.
  intros dist c x N. destruct (insert_town_spec dist c x N) as (r & E & (b & (u & v & -> & ->) & ->) & L).
  exists ((v ++ u) ++ [x]). split; [exact E|]. split.
  - exists u, v. now rewrite <- app_assoc.
  - intros a b H. rewrite <- !route_length_closed. now apply L.
Qed.
Print Assumptions C39_insert.

(** Merging keeps the cyclic order of the outer hull. *)
Theorem C39_outer_order : forall dist h hs r, h <> [] -> (forall x, In x h -> ~ In x (concat hs)) ->
  merge_hulls dist (h :: hs) = Ok r ->
  exists a b, h = a ++ b /\ filter (fun x => if in_dec Nat.eq_dec x h then true else false) r = b ++ a.
Proof.
  intros dist h hs r N D E. cbn [merge_hulls] in E.
  destruct (insert_towns_spec dist (concat hs) h N) as (r' & E2 & _ & R). rewrite E in E2. injection E2 as <-.
  set (f := fun x => if in_dec Nat.eq_dec x h then true else false) in *.
  assert (Fh : filter f h = h).
  { assert (G : forall l, incl l h -> filter f l = l).
    { induction l as [|y l IH]; intros I; [reflexivity|]. cbn [filter]. unfold f at 1.
      destruct (in_dec Nat.eq_dec y h) as [_|Ny]; [|exfalso; apply Ny, I; now left]. f_equal. apply IH. intros z Hz. apply I. now right. }
    apply G, incl_refl. }
  destruct (R f) as (u & v & E3 & E4).
  - intros x I. unfold f. destruct (in_dec Nat.eq_dec x h) as [J|J]; [|reflexivity]. exfalso. exact (D x J I).
  - rewrite Fh in E3. eauto.
Qed.
Print Assumptions C39_outer_order.

(** Example: a unit square with two points inside; the square is the outer hull. *)
Definition exDist (i j : nat) : Q :=
  let p k := nth k [(0, 0); (4, 0); (4, 4); (0, 4); (1, 2); (3, 1)]%Z (0, 0)%Z in
  inject_Z (Z.abs (fst (p i) - fst (p j)) + Z.abs (snd (p i) - snd (p j))).
Definition exHull (rem : list nat) : option (list nat) :=
  if Nat.eqb (List.length rem) 6 then Some [1; 2; 3; 0] else None.
Example C39_hull_ex : qhull_ok exHull.
Proof.
  intros rem vs _ H. unfold exHull in H. destruct (Nat.eqb (List.length rem) 6) eqn:E; [|discriminate].
  apply Nat.eqb_eq in E. injection H as <-. split; [discriminate|]. split; [repeat constructor; cbn; intuition discriminate|].
  rewrite E. cbn. intros v V. intuition; subst; lia.
Qed.
Example C39_ex : generate_hulls exHull 6 = Ok [[1; 2; 3; 0]; [4; 5]] /\
  exists r, tsp_convex exDist exHull 10 6 false 10 = Ok r /\ tsp_convex exDist exHull 10 6 true 10 = Ok r /\
            r = [2; 3; 4; 0; 1; 5] /\ (closed exDist r == 20)%Q.
Proof. split; [reflexivity|]. eexists. split; [vm_compute; reflexivity|]. vm_compute. auto. Qed.
(** and a bad route shortened by three-opt *)
Example C39_three_opt_ex : (closed exDist [0; 2; 1; 3]%nat == 24)%Q /\ three_opt exDist [0; 2; 1; 3] true = ([0; 3; 2; 1], 16%Q).
Proof. vm_compute. auto. Qed.
