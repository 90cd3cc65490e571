(** C101: the triangular mesh, its ids and the search for a point. *)
From Coq Require Import List Bool ZArith Reals Lra Lia.
From Verif Require Import Base Sphere Sphere_proofs Props_Sphere Htm Htm_proofs HtmAll_proofs.
Import ListNotations.
Open Scope Z_scope.

(** The ids of a level: four bits and two more for each further level, the first one set. *)
Definition of_level (l h : Z) : Prop := 1 <= l /\ 8 * 4 ^ (l - 1) <= h < 16 * 4 ^ (l - 1).
Theorem C101_level : forall h, (forall l, level_from_htmid h = Ok l <-> of_level l h) /\
  ((forall l, ~ of_level l h) -> level_from_htmid h = Raise RuntimeError).
Proof.
  intros h. destruct (level_spec h) as [(l & E & V)|(E & N)].
  - split; [|intros N; exfalso; now apply (N l)]. intros l'. rewrite E. split; [intros Q; injection Q as <-; exact V|]. intros V'. f_equal. apply (valid_unique l l' h V V').
  - split; [|intros _; exact E]. intros l. rewrite E. split; [discriminate|]. intros V. exfalso. now apply (N l).
Qed.
Print Assumptions C101_level.
Example C101_level_ex : level_from_htmid 1000 = Ok 4 /\ level_from_htmid 17 = Raise RuntimeError /\ level_from_htmid (-9) = Raise RuntimeError.
Proof. repeat split; reflexivity. Qed.

(** The points of the triangle with corners a, b, c: combinations with no negative weight.
    Strictly inside: with positive weights. *)
Definition spanned (a b c p : vec) : Prop := exists x y z : R, (0 <= x /\ 0 <= y /\ 0 <= z)%R /\
  vx p = (x * vx a + y * vx b + z * vx c)%R /\ vy p = (x * vy a + y * vy b + z * vy c)%R /\ vz p = (x * vz a + y * vz b + z * vz c)%R.
Definition inside (a b c p : vec) : Prop := exists x y z : R, (0 < x /\ 0 < y /\ 0 < z)%R /\
  vx p = (x * vx a + y * vx b + z * vx c)%R /\ vy p = (x * vy a + y * vy b + z * vy c)%R /\ vz p = (x * vz a + y * vz b + z * vz c)%R.
Lemma weights : forall a b c p x y z,
  vx p = (x * vx a + y * vx b + z * vx c)%R -> vy p = (x * vy a + y * vy b + z * vy c)%R -> vz p = (x * vz a + y * vz b + z * vz c)%R ->
  det a b p = (z * det a b c)%R /\ det b c p = (x * det a b c)%R /\ det c a p = (y * det a b c)%R.
Proof. intros a b c p x y z X Y Z. unfold det, dot, cross. cbn [vx vy vz]. rewrite X, Y, Z. repeat split; ring. Qed.
Lemma cramer : forall a b c p, let D := det a b c in D <> 0%R ->
  vx p = (det b c p / D * vx a + det c a p / D * vx b + det a b p / D * vx c)%R /\
  vy p = (det b c p / D * vy a + det c a p / D * vy b + det a b p / D * vy c)%R /\
  vz p = (det b c p / D * vz a + det c a p / D * vz b + det a b p / D * vz c)%R.
Proof.
  intros a b c p D N. repeat split.
  - apply (Rmult_eq_reg_l D); [|exact N]. transitivity (det b c p * vx a + det c a p * vx b + det a b p * vx c)%R; [|field; exact N].
    unfold D, det, dot, cross. cbn [vx vy vz]. ring.
  - apply (Rmult_eq_reg_l D); [|exact N]. transitivity (det b c p * vy a + det c a p * vy b + det a b p * vy c)%R; [|field; exact N].
    unfold D, det, dot, cross. cbn [vx vy vz]. ring.
  - apply (Rmult_eq_reg_l D); [|exact N]. transitivity (det b c p * vz a + det c a p * vz b + det a b p * vz c)%R; [|field; exact N].
    unfold D, det, dot, cross. cbn [vx vy vz]. ring.
Qed.
Lemma good_spanned : forall t, good t -> forall p, contains_pt t p = true <-> spanned (tc0 t) (tc1 t) (tc2 t) p.
Proof.
  intros t (_ & _ & _ & D) p. rewrite contains_spec. split.
  - intros (A & B & C). exists (det (tc1 t) (tc2 t) p / det (tc0 t) (tc1 t) (tc2 t))%R, (det (tc2 t) (tc0 t) p / det (tc0 t) (tc1 t) (tc2 t))%R, (det (tc0 t) (tc1 t) p / det (tc0 t) (tc1 t) (tc2 t))%R.
    split; [|apply cramer; lra]. assert (I := Rinv_0_lt_compat _ D). unfold Rdiv. repeat split; apply Rmult_le_pos; lra.
  - intros (x & y & z & (X & Y & Z) & P1 & P2 & P3). destruct (weights (tc0 t) (tc1 t) (tc2 t) p x y z P1 P2 P3) as (-> & -> & ->).
    repeat split; apply Rmult_le_pos; lra.
Qed.

(** Each id has a trixel with that id, that level and corners on the sphere; contains_pt tells
    the points of its triangle.  No other number has one. *)
Theorem C101_trixel : forall l h, of_level l h -> exists t, trixel_from_htmid h = Ok t /\ tid t = h /\ level2 t = 2 * l /\
  (forall c, In c [tc0 t; tc1 t; tc2 t] -> inner c c = 1%R) /\
  forall p, contains_pt t p = true <-> spanned (tc0 t) (tc1 t) (tc2 t) p.
Proof.
  intros l h V. destruct (from_htmid l h V) as (t & E & N). exists t. split; [exact E|]. split; [now apply node_tid in N|].
  split; [now apply node_level2 in N|]. pose proof (node_good _ _ _ N) as G. split; [|now apply good_spanned].
  destruct G as (A & B & C & _). intros c [<-|[<-|[<-|[]]]]; assumption.
Qed.
Print Assumptions C101_trixel.
Theorem C101_invalid : forall h, (forall l, ~ of_level l h) -> trixel_from_htmid h = Raise RuntimeError.
Proof. exact from_invalid. Qed.
Print Assumptions C101_invalid.
Example C101_invalid_ex : forall l, ~ of_level l 17.
Proof.
  intros l (L & V). destruct (Z.eq_dec l 1) as [->|]; [cbn in V; lia|].
  assert (4 ^ 1 <= 4 ^ (l - 1)) by (apply Z.pow_le_mono_r; lia). rewrite Z.pow_1_r in H. lia.
Qed.

(** A trixel is made of the four with its id and two more bits. *)
Theorem C101_children : forall h t, trixel_from_htmid h = Ok t -> forall p,
  contains_pt t p = true <-> exists k u, 0 <= k < 4 /\ trixel_from_htmid (4 * h + k) = Ok u /\ contains_pt u p = true.
Proof.
  intros h t E p. destruct (from_node _ _ E) as (l & _ & N). rewrite (children_cover t (node_good _ _ _ N)). split.
  - intros (u & I & C). destruct (child_tid _ _ I) as (k & K & T). exists k, u. split; [exact K|]. split; [|exact C].
    rewrite <- (node_tid _ _ _ N), <- T. apply (node_from (l + 1)). econstructor; eassumption.
  - intros (k & u & K & F & C). exists u. split; [|exact C]. destruct (get_child_in t k K) as (v & _ & I & T).
    pose proof (node_from _ _ _ (node_child _ _ _ _ N I)) as F'. rewrite T, (node_tid _ _ _ N), F in F'. injection F' as ->. exact I.
Qed.
Print Assumptions C101_children.
Example C101_children_ex : exists t, trixel_from_htmid 15 = Ok t /\ contains_pt t (V 1 1 1) = true.
Proof.
  exists n3_trixel. split; [reflexivity|]. apply contains_spec. cbn [tc0 tc1 tc2 n3_trixel]. unfold det, dot, cross. cbn [vx vy vz]. lra.
Qed.
(** The trixels of a level fill the sphere and do not overlap. *)
Theorem C101_cover : forall l p, 1 <= l -> exists h t, of_level l h /\ trixel_from_htmid h = Ok t /\ contains_pt t p = true.
Proof.
  intros l p L. destruct (node_cover l p L) as (h & t & N & C). exists h, t. split; [now apply node_valid in N|]. split; [now apply node_from in N|exact C].
Qed.
Print Assumptions C101_cover.
Theorem C101_apart : forall l h t h' t' p, of_level l h -> of_level l h' -> trixel_from_htmid h = Ok t -> trixel_from_htmid h' = Ok t' ->
  inside (tc0 t) (tc1 t) (tc2 t) p -> contains_pt t' p = true -> h' = h.
Proof.
  intros l h t h' t' p V V' E E' (x & y & z & (X & Y & Z) & P1 & P2 & P3) C.
  destruct (from_htmid l h V) as (u & F & N). rewrite E in F. injection F as <-. destruct (from_htmid l h' V') as (u & F & N'). rewrite E' in F. injection F as <-.
  destruct (Z.eq_dec h h') as [->|D]; [reflexivity|]. exfalso. pose proof (node_good _ _ _ N) as G.
  assert (A : contains_pt t p = true). { apply (good_spanned t G). exists x, y, z. split; [lra|]. split; [exact P1|split; [exact P2|exact P3]]. }
  destruct (weights _ _ _ _ _ _ _ P1 P2 P3) as (W1 & W2 & W3). destruct G as (_ & _ & _ & G). pose proof (node_apart _ _ _ _ _ p N N' D A C) as O. unfold on_edge in O.
  pose proof (Rmult_lt_0_compat _ _ X G). pose proof (Rmult_lt_0_compat _ _ Y G). pose proof (Rmult_lt_0_compat _ _ Z G).
  destruct O as [O|[O|O]]; lra.
Qed.
Print Assumptions C101_apart.
Example C101_apart_ex : exists t, trixel_from_htmid 8 = Ok t /\ of_level 1 8 /\ inside (tc0 t) (tc1 t) (tc2 t) (V 1 1 (-1)).
Proof.
  exists s0_trixel. split; [reflexivity|]. split; [split; cbn; lia|]. exists 1%R, 1%R, 1%R. cbn [tc0 tc1 tc2 s0_trixel vx vy vz]. repeat split; lra.
Qed.

(** get_all_trixels: exactly the trixels up to the level, under their ids. *)
Theorem C101_all : forall L, 1 <= L -> exists d, get_all_trixels L = Ok d /\
  forall h t, d h = Some t <-> trixel_from_htmid h = Ok t /\ exists l, l <= L /\ of_level l h.
Proof.
  intros L H. destruct (get_all_ok L H) as (d & E & F). exists d. split; [exact E|]. intros h t. rewrite (F h t). split.
  - intros (l & B & N). split; [now apply node_from in N|]. exists l. split; [lia|now apply node_valid in N].
  - intros (T & l & B & V). destruct (from_htmid l h V) as (u & T' & N). rewrite T in T'. injection T' as <-. exists l. split; [destruct V; lia|exact N].
Qed.
Print Assumptions C101_all.

(** find_htmid of one position, from level 2: the trixel of that level with the position. *)
Theorem C101_find : forall fuel ra dec L, 2 <= L -> L <= Z.of_nat fuel -> exists h t, find_htmid fuel (ra, dec) L = Ok (Some h) /\
  of_level L h /\ trixel_from_htmid h = Ok t /\ contains_pt t (pos (ra * PI / 180) (dec * PI / 180)) = true.
Proof.
  intros fuel ra dec L H F. unfold find_htmid, find_htmid_slow, point. cbn [fst snd]. rewrite pos_xyz. unfold radians.
  set (p := xyz_from_ra_dec _ _). destruct (slow_base p) as (b & -> & N & C).
  destruct (iterate_ok fuel 1 (tid b) b p L N C) as (h & t & E & N' & C' & _); [lia|lia|]. exists h, t. split; [exact E|].
  split; [now apply node_valid in N'|]. split; [now apply node_from in N'|exact C'].
Qed.
Print Assumptions C101_find.
(** For level 1 the recursion never ends. *)
Theorem C101_find_refuted : forall fuel p, find_htmid fuel p 1 = Raise OutOfFuel.
Proof.
  intros fuel p. unfold find_htmid, find_htmid_slow. destruct (slow_base (point p)) as (b & -> & N & C). apply (iterate_never _ 1 _ _ _ _ N C). lia.
Qed.
Print Assumptions C101_find_refuted.

(** The cache after any calls. *)
Inductive cached : cache -> Prop :=
| cached_none : cached None
| cached_call : forall fuel c ps L hs c', cached c -> 1 <= L -> find_htmid_array fuel c ps L = Ok (hs, c') -> cached c'.
Lemma cached_ok : forall c, cached c -> cache_ok c.
Proof.
  intros c H. induction H as [|fuel c ps L hs c' H IH L1 E]; [exact I|]. unfold find_htmid_array in E. destruct ((L <=? 10) && Nat.ltb 100 (List.length ps)) eqn:Q.
  - apply andb_true_iff in Q as (Q & _). apply Z.leb_le in Q. destruct (fast_spec c ps L IH ltac:(lia)) as (hs1 & c1 & F & O & _). rewrite E in F. now injection F as <- <-.
  - destruct (fold_res _ _ _); [|discriminate]. cbn [bind] in E. now injection E as <- <-.
Qed.
Lemma slow_fold : forall fuel L ps acc, 2 <= L -> L <= Z.of_nat fuel -> exists hs,
  fold_res (fun acc p => bind (int_of (find_htmid_slow fuel p L)) (fun h => Ok (acc ++ [h]))) acc ps = Ok (acc ++ hs) /\
  Forall2 (fun p h => find_htmid fuel p L = Ok (Some h)) ps hs.
Proof.
  intros fuel L ps. induction ps as [|(ra, dec) ps IH]; intros acc H F; cbn [fold_res].
  - exists []. rewrite app_nil_r. split; [reflexivity|constructor].
  - destruct (C101_find fuel ra dec L H F) as (h & t & E & _). pose proof E as E0. unfold find_htmid in E. rewrite E. cbn [int_of bind].
    destruct (IH (acc ++ [h]) H F) as (hs & R & A). exists (h :: hs). rewrite R, <- app_assoc. split; [reflexivity|]. constructor; assumption.
Qed.
(** find_htmid of arrays, whatever was asked before: for each position a trixel of the level
    that has it. *)
Theorem C101_array : forall fuel c ps L, cached c -> 2 <= L -> L <= Z.of_nat fuel -> exists hs c', find_htmid_array fuel c ps L = Ok (hs, c') /\
  List.length hs = List.length ps /\ forall i ra dec h, nth_error ps i = Some (ra, dec) -> nth_error hs i = Some h ->
    of_level L h /\ exists t, trixel_from_htmid h = Ok t /\ contains_pt t (pos (ra * PI / 180) (dec * PI / 180)) = true.
Proof.
  intros fuel c ps L CO H F. unfold find_htmid_array. destruct ((L <=? 10) && Nat.ltb 100 (List.length ps)) eqn:Q.
  - apply andb_true_iff in Q as (Q & _). apply Z.leb_le in Q. destruct (fast_spec c ps L (cached_ok _ CO) ltac:(lia)) as (hs & c' & E & _ & LN & R).
    exists hs, c'. split; [exact E|]. split; [exact LN|]. intros i ra dec h P G. destruct (R i _ h P G) as ((t & N & C) & _).
    split; [now apply node_valid in N|]. exists t. split; [now apply node_from in N|]. rewrite pos_xyz. exact C.
  - destruct (slow_fold fuel L ps [] H F) as (hs & E & A). rewrite E. cbn [bind app]. exists hs, c. split; [reflexivity|].
    split; [clear - A; induction A; cbn; congruence|]. intros i ra dec h P G.
    assert (X : find_htmid fuel (ra, dec) L = Ok (Some h)).
    { clear - A P G. revert i P G. induction A as [|p h0 ps hs E A IH]; intros i P G; [destruct i; discriminate|]. destruct i as [|i]; cbn in P, G; [congruence|]. eapply IH; eassumption. }
    destruct (C101_find fuel ra dec L H F) as (h' & t & E' & V & T & C). rewrite X in E'. injection E' as <-. split; [exact V|]. exists t. split; assumption.
Qed.
Print Assumptions C101_array.
(** Where the position is strictly inside a trixel, one at a time and in arrays it is that one. *)
Theorem C101_same : forall fuel c ps L hs c' i ra dec h g t, cached c -> 2 <= L -> L <= Z.of_nat fuel -> find_htmid_array fuel c ps L = Ok (hs, c') ->
  nth_error ps i = Some (ra, dec) -> nth_error hs i = Some h -> of_level L g -> trixel_from_htmid g = Ok t ->
  inside (tc0 t) (tc1 t) (tc2 t) (pos (ra * PI / 180) (dec * PI / 180)) -> h = g /\ find_htmid fuel (ra, dec) L = Ok (Some g).
Proof.
  intros fuel c ps L hs c' i ra dec h g t CO H F E P G V T I. split.
  - destruct (C101_array fuel c ps L CO H F) as (hs1 & c1 & E1 & _ & R). rewrite E in E1. injection E1 as <- <-.
    destruct (R i ra dec h P G) as (VH & u & TU & CU). exact (C101_apart L g t h u _ V VH T TU I CU).
  - destruct (C101_find fuel ra dec L H F) as (h' & u & E' & V' & T' & C'). rewrite E'. do 2 f_equal. exact (C101_apart L g t h' u _ V V' T T' I C').
Qed.
Print Assumptions C101_same.
(** On edges they differ: the vernal point at level 2 is in 32 on its own, in an array of more
    than a hundred in a trixel of the last initial one. *)
Theorem C101_edge_refuted : exists ps p hs h h' c, In p ps /\ find_htmid_array 2 None ps 2 = Ok (hs, c) /\ nth_error hs 0 = Some h /\ nth_error ps 0 = Some p /\
  find_htmid 2 p 2 = Ok (Some h') /\ h' = 32 /\ 60 <= h.
Proof.
  set (ps := repeat ((0%R, 0%R) : R * R) 101).
  destruct (fast_spec None ps 2 I ltac:(lia)) as (hs & c & E & _ & LN & R).
  assert (P0 : point (0%R, 0%R) = V 1 0 0).
  { unfold point, radians. cbn [fst snd]. unfold xyz_from_ra_dec. replace (0 * PI / 180)%R with 0%R by field. rewrite cos_0, sin_0. f_equal; ring. }
  destruct (nth_error hs 0) as [h|] eqn:H0; [|apply nth_error_None in H0; rewrite LN in H0; unfold ps in H0; rewrite repeat_length in H0; lia].
  exists ps, (0%R, 0%R), hs, h, 32, c. split; [left; reflexivity|]. split; [exact E|]. split; [exact H0|]. split; [reflexivity|].
  assert (NP : nth_error ps 0 = Some (0%R, 0%R)) by reflexivity. destruct (R 0%nat _ h NP H0) as (_ & B). rewrite P0 in B.
  assert (C15 : contains_pt n3_trixel (V 1 0 0) = true).
  { apply contains_spec. cbn [tc0 tc1 tc2 n3_trixel]. unfold det, dot, cross. cbn [vx vy vz]. lra. }
  assert (C8 : contains_pt s0_trixel (V 1 0 0) = true).
  { apply contains_spec. cbn [tc0 tc1 tc2 s0_trixel]. unfold det, dot, cross. cbn [vx vy vz]. lra. }
  assert (G0 : good s0_trixel) by (apply (node_good 1 8); apply (node_base s0_trixel); cbn; tauto).
  assert (C32 : contains_pt (t0 s0_trixel) (V 1 0 0) = true).
  { apply (in_t0 _ G0). cbn [tc0 tc1 tc2 s0_trixel]. unfold det, dot, cross. cbn [vx vy vz]. lra. }
  split.
  - unfold find_htmid, find_htmid_slow. rewrite P0. unfold base_trixels. cbn [find]. rewrite C8. cbn [iterate_trixel_finder]. unfold get_children. cbn [find]. rewrite C32. reflexivity.
  - split; [reflexivity|]. specialize (B n3_trixel ltac:(cbn; tauto) C15). cbn [tid n3_trixel] in B. change (4 ^ (2 - 1)) with 4 in B.
    pose proof (Z.mul_div_le h 4 ltac:(lia)). lia.
Qed.
Print Assumptions C101_edge_refuted.
Example C101_find_ex : exists h, find_htmid 2 (45%R, (-30)%R) 2 = Ok (Some h) /\ 32 <= h < 64.
Proof.
  destruct (C101_find 2 45%R (-30)%R 2) as (h & t & E & (_ & V) & _); [lia|cbn; lia|]. exists h. split; [exact E|]. cbn in V. lia.
Qed.
