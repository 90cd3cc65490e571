(** Properties C102 and C103: half spaces of the triangular mesh, the search for their trixels, and
    sets of ranges of ids.  See /verif/properties.jsonl. *)
From Coq Require Import List Bool ZArith Reals Lra Lia Psatz Permutation.
From Verif Require Import Base Sphere Sphere_proofs Props_Sphere Htm Htm_proofs Props_Htm HtmHalf HtmBounds_proofs HtmHalf_proofs HtmFind_proofs.
Import ListNotations.
Open Scope R_scope.

(** The length of a vector; the direction of p inside the circle of cosine d around v, or on it. *)
Definition size (p : vec) : R := sqrt (inner p p).
Definition zero (p : vec) : Prop := p = V 0 0 0.
Definition in_cap (v : vec) (d : R) (p : vec) : Prop := d * (size p * size v) < inner p v.
Definition on_cap (v : vec) (d : R) (p : vec) : Prop := d * (size p * size v) <= inner p v.
Lemma size_pos : forall v, ~ zero v -> 0 < size v /\ 0 < dot v v.
Proof. intros v N. pose proof (norm0 v N) as P. split; [exact P|]. rewrite <- norm_sq. apply Rmult_lt_0_compat; exact P. Qed.
Lemma hs_ok : forall v d, ~ zero v -> okh (half_space v d).
Proof. intros v d N. exists v, d. split; [now apply size_pos|reflexivity]. Qed.
Lemma dot_hv : forall v d p, dot p (hv (half_space v d)) = / size v * inner p v.
Proof. intros. cbn. unfold vnorm, size, inner. fold (dot v v). dd. ring. Qed.
Lemma within_cap : forall v d p, ~ zero v -> (within (half_space v d) p <-> in_cap v d p).
Proof.
  intros v d p N. destruct (size_pos v N) as (P & _). unfold within, in_cap. rewrite dot_hv. cbn [hd half_space]. change (norm p) with (size p).
  replace (inner p v) with (size v * (/ size v * inner p v)) at 2 by (field; lra). set (x := / size v * inner p v). split; intros; nra.
Qed.
Lemma touch_cap : forall v d p, ~ zero v -> (hd (half_space v d) * norm p <= dot p (hv (half_space v d)) <-> on_cap v d p).
Proof.
  intros v d p N. destruct (size_pos v N) as (P & _). unfold on_cap. rewrite dot_hv. cbn [hd half_space]. change (norm p) with (size p).
  replace (inner p v) with (size v * (/ size v * inner p v)) at 2 by (field; lra). set (x := / size v * inner p v). split; intros; nra.
Qed.

(** A point of any length is contained just when its direction is inside, here allowing a
    tolerance on the cosine. *)
Theorem C102_point : forall v d p tol, ~ zero v -> ~ zero p ->
  (hs_contains_pt (half_space v d) p None = true <-> in_cap v d p) /\
  (hs_contains_pt (half_space v d) p (Some tol) = true <-> in_cap v (d - tol) p).
Proof.
  intros v d p tol N NP. destruct (size_pos v N) as (P & _), (size_pos p NP) as (Q & _). unfold hs_contains_pt, in_cap.
  rewrite !gtb_true, dot_hv. cbn [hd half_space].
  replace (inner (vnorm p) v) with (/ size p * inner p v) by (unfold vnorm, size, inner; fold (dot p p); dd; ring).
  set (x := inner p v). assert (A : forall d, d < / size v * (/ size p * x) <-> d * (size p * size v) < x).
  { intros e. replace x with (/ size v * (/ size p * x) * (size p * size v)) at 2 by (field; lra). set (y := / size v * (/ size p * x)).
    assert (PQ : 0 < size p * size v) by (apply Rmult_lt_0_compat; assumption). split; intros; nra. }
  split; apply A.
Qed.
Print Assumptions C102_point.
Example C102_point_ex : hs_contains_pt (half_space (V 0 0 2) (1 / 2)) (V 0 0 3) None = true /\ hs_contains_pt (half_space (V 0 0 2) (1 / 2)) (V 3 0 0) None = false.
Proof.
  assert (A : ~ zero (V 0 0 2)) by (intros E; injection E; lra). assert (B : ~ zero (V 0 0 3)) by (intros E; injection E; lra). assert (C : ~ zero (V 3 0 0)) by (intros E; injection E; lra).
  assert (S2 : size (V 0 0 2) = 2) by (unfold size, inner; cbn [vx vy vz]; replace (0 * 0 + 0 * 0 + 2 * 2) with (2 * 2) by ring; apply sqrt_square; lra).
  assert (S3 : size (V 0 0 3) = 3) by (unfold size, inner; cbn [vx vy vz]; replace (0 * 0 + 0 * 0 + 3 * 3) with (3 * 3) by ring; apply sqrt_square; lra).
  assert (S4 : size (V 3 0 0) = 3) by (unfold size, inner; cbn [vx vy vz]; replace (3 * 3 + 0 * 0 + 0 * 0) with (3 * 3) by ring; apply sqrt_square; lra).
  split.
  - apply (C102_point _ _ _ 0 A B). unfold in_cap. rewrite S2, S3. unfold inner. cbn [vx vy vz]. lra.
  - destruct (hs_contains_pt (half_space (V 0 0 2) (1 / 2)) (V 3 0 0) None) eqn:E; [|reflexivity]. apply (C102_point _ _ _ 0 A C) in E. unfold in_cap in E. rewrite S2, S4 in E. unfold inner in E. cbn [vx vy vz] in E. lra.
Qed.

Lemma level_node : forall l h t, of_level l h -> trixel_from_htmid h = Ok t -> node l h t.
Proof. intros l h t V E. destruct (from_node _ _ E) as (l' & V' & N). now rewrite (valid_unique l l' h). Qed.
(** From level 2 on every trixel is given an answer; "outside" means no point inside. *)
Theorem C102_outside : forall v d l h t, ~ zero v -> (2 <= l)%Z -> of_level l h -> trixel_from_htmid h = Ok t ->
  exists c, contains_trixel (half_space v d) t = Ok c /\ (c = Outside -> forall p, contains_pt t p = true -> ~ in_cap v d p).
Proof.
  intros v d l h t N L V E. destruct (node_contains (half_space v d) (hs_ok v d N) l h t L (level_node _ _ _ V E)) as (c & K & O & _).
  exists c. split; [exact K|]. intros C p I. rewrite <- within_cap by exact N. now apply O.
Qed.
Print Assumptions C102_outside.
(** "full" means every point inside, for caps of at most half the sphere. *)
Theorem C102_full : forall v d l h t, ~ zero v -> (2 <= l)%Z -> of_level l h -> trixel_from_htmid h = Ok t -> 0 <= d ->
  contains_trixel (half_space v d) t = Ok Full -> forall p, contains_pt t p = true -> ~ zero p -> in_cap v d p.
Proof.
  intros v d l h t N L V E D F p I NP. destruct (node_contains (half_space v d) (hs_ok v d N) l h t L (level_node _ _ _ V E)) as (c & K & _ & FU & _).
  rewrite F in K. injection K as <-. apply within_cap; [exact N|]. apply FU; auto.
Qed.
Print Assumptions C102_full.
(** "partial" means some point inside or on the circle and some point not inside. *)
Theorem C102_partial : forall v d l h t, ~ zero v -> (2 <= l)%Z -> of_level l h -> trixel_from_htmid h = Ok t -> d <= 1 ->
  contains_trixel (half_space v d) t = Ok Partial ->
  (exists p, contains_pt t p = true /\ ~ zero p /\ on_cap v d p) /\ (exists p, contains_pt t p = true /\ ~ zero p /\ ~ in_cap v d p).
Proof.
  intros v d l h t N L V E D F. assert (NN := level_node _ _ _ V E). destruct (node_contains (half_space v d) (hs_ok v d N) l h t L NN) as (c & K & _ & _ & ME).
  rewrite F in K. injection K as <-. split.
  - destruct (ME ltac:(discriminate) D) as (p & I & NP & T). exists p. split; [exact I|]. split; [exact NP|]. now apply touch_cap.
  - assert (G := node_good _ _ _ NN). destruct (corner_in t G) as (I0 & I1 & I2). destruct G as (U0 & U1 & U2 & _).
    assert (OUT : forall p, unit p -> hs_contains (half_space v d) p = false -> ~ in_cap v d p).
    { intros p U Q W. apply within_cap in W; [|exact N]. unfold within in W. rewrite (unit_norm p U) in W. unfold hs_contains in Q. apply gtb_false in Q. lra. }
    unfold contains_trixel in F. cbv zeta in F.
    destruct (hs_contains (half_space v d) (tc0 t)) eqn:K0; [|exists (tc0 t); split; [exact I0|]; split; [now apply unit_nonzero|now apply OUT]].
    destruct (hs_contains (half_space v d) (tc1 t)) eqn:K1; [|exists (tc1 t); split; [exact I1|]; split; [now apply unit_nonzero|now apply OUT]].
    destruct (hs_contains (half_space v d) (tc2 t)) eqn:K2; [|exists (tc2 t); split; [exact I2|]; split; [now apply unit_nonzero|now apply OUT]].
    discriminate.
Qed.
Print Assumptions C102_partial.

(** The search from level 2 on: ranges in order with ids between them, holding every trixel with a
    point inside; for caps of at most half the sphere, every trixel held has a point inside or on
    the circle. *)
Definition in_ranges (b : list (Z * Z)) (x : Z) : Prop := exists lo hi, In (lo, hi) b /\ (lo <= x <= hi)%Z.
Fixpoint apart_from (least : Z) (b : list (Z * Z)) : Prop :=
  match b with [] => True | (lo, hi) :: b => (least <= lo <= hi)%Z /\ apart_from (hi + 2) b end.
Lemma in_cov : forall b x, in_ranges b x <-> cov b x.
Proof. intros b x. split; [intros (lo & hi & I & H); exists (lo, hi); auto|intros ((lo, hi) & I & H); exists lo, hi; auto]. Qed.
Lemma apart_spaced : forall b n, apart_from n b <-> spaced n b.
Proof. induction b as [|(lo, hi) b IH]; intros n; cbn; [tauto|]. now rewrite IH. Qed.
Theorem C102_find : forall v d l, ~ zero v -> (2 <= l)%Z -> exists b, find_all_trixels (half_space v d) l = Ok b /\ apart_from 0 b /\
  (forall h t p, of_level l h -> trixel_from_htmid h = Ok t -> contains_pt t p = true -> in_cap v d p -> in_ranges b h) /\
  (forall h, in_ranges b h -> of_level l h) /\
  (0 <= d <= 1 -> forall h t, in_ranges b h -> trixel_from_htmid h = Ok t -> exists p, contains_pt t p = true /\ ~ zero p /\ on_cap v d p).
Proof.
  intros v d l N L. destruct (find_all_ok (half_space v d) l (hs_ok v d N) L) as (b & E & S & C & D). exists b. split; [exact E|].
  split; [now apply apart_spaced|]. split; [|split].
  - intros h t p V T I W. apply in_cov. apply (C h t p); [now apply level_node|exact I|now apply within_cap].
  - intros h H. apply in_cov in H. destruct (D h H) as (t & NT & _). now apply node_valid in NT.
  - intros R h t H T. apply in_cov in H. destruct (D h H) as (t' & NT & ME). rewrite (node_from _ _ _ NT) in T. injection T as <-.
    destruct (ME R) as (p & I & NP & W). exists p. split; [exact I|]. split; [exact NP|]. now apply touch_cap.
Qed.
Print Assumptions C102_find.
Example C102_find_ex : exists b, find_all_trixels (half_space (V 0 0 1) (99 / 100)) 5 = Ok b /\ b <> [].
Proof.
  assert (N : ~ zero (V 0 0 1)) by (intros E; injection E; lra).
  destruct (C102_find (V 0 0 1) (99 / 100) 5 N ltac:(lia)) as (b & E & _ & C & _). exists b. split; [exact E|]. intros ->.
  destruct (C101_cover 5 (V 0 0 1) ltac:(lia)) as (h & t & V1 & T & I).
  destruct (C h t (V 0 0 1) V1 T I) as (lo & hi & [] & _). unfold in_cap. replace (size (V 0 0 1)) with 1; [unfold inner; cbn; lra|].
  unfold size, inner. cbn [vx vy vz]. replace (0 * 0 + 0 * 0 + 1 * 1) with 1 by ring. symmetry. apply sqrt_1.
Qed.

(** *** Larger caps: a hole inside a trixel. *)
Definition half_root2 := / sqrt 2.
Lemma root2 : half_root2 * half_root2 = 1 / 2 /\ 0 < half_root2.
Proof. unfold half_root2. split; [|apply Rinv_0_lt_compat, sqrt_lt_R0; lra]. rewrite <- Rinv_mult. rewrite sqrt_sqrt by lra. field. Qed.
Lemma mid_t3 : tc0 (t3 n0_trixel) = V 0 (- half_root2) half_root2 /\ tc1 (t3 n0_trixel) = V half_root2 (- half_root2) 0 /\ tc2 (t3 n0_trixel) = V half_root2 0 half_root2.
Proof.
  cbn [t3 tc0 tc1 tc2]. unfold w0, w1, w2, vnorm. cbn [tc0 tc1 tc2 n0_trixel]. unfold half_root2. 
  split; [|split]; match goal with |- vtimes (/ sqrt ?x) _ = _ => replace x with 2 by (dd; ring) end; apply vec_eq; dd; ring.
Qed.
Definition hole_v : vec := V (-1) 1 (-1).
Definition hole_d : R := - (17 / 20).
Lemma size_hole : size hole_v = sqrt 3.
Proof. unfold size, inner, hole_v. cbn [vx vy vz]. f_equal. ring. Qed.
Lemma root3 : sqrt 3 * sqrt 3 = 3 /\ 1732 / 1000 < sqrt 3 < 17321 / 10000.
Proof.
  assert (E : sqrt 3 * sqrt 3 = 3) by (apply sqrt_sqrt; lra). assert (P : 0 < sqrt 3) by (apply sqrt_lt_R0; lra). split; [exact E|]. split; nra.
Qed.
Lemma hole_nonzero : ~ zero hole_v.
Proof. intros E. injection E. lra. Qed.
Lemma hole_corner : forall p, inner p hole_v = - 2 * half_root2 -> hs_contains (half_space hole_v hole_d) p = true.
Proof.
  intros p E. unfold hs_contains. apply gtb_true. rewrite dot_hv, E, size_hole. cbn [hd half_space]. unfold hole_d. destruct root2 as (A & B), root3 as (C & D).
  set (r := half_root2) in *. set (s := sqrt 3) in *. clearbody r s. assert (r < 7072 / 10000) by nra.
  apply (Rmult_lt_reg_l s); [lra|]. replace (s * (/ s * (-2 * r))) with (-2 * r) by (field; lra). nra.
Qed.
Lemma hole_full : contains_trixel (half_space hole_v hole_d) (t3 n0_trixel) = Ok Full.
Proof.
  unfold contains_trixel. cbv zeta. destruct mid_t3 as (-> & -> & ->).
  rewrite !hole_corner; [reflexivity|unfold inner, hole_v; cbn [vx vy vz]; ring..].
Qed.
Lemma base_n0 : In n0_trixel base_trixels.
Proof. cbn. tauto. Qed.
Lemma n51 : node 2 51 (t3 n0_trixel).
Proof. exact (node_child 1 12 n0_trixel (t3 n0_trixel) (node_base _ base_n0) ltac:(cbn; tauto)). Qed.
Lemma n49 : node 2 49 (t1 n0_trixel).
Proof. exact (node_child 1 12 n0_trixel (t1 n0_trixel) (node_base _ base_n0) ltac:(cbn; tauto)). Qed.
Lemma n207 : node 3 207 (t3 (t3 n0_trixel)).
Proof. exact (node_child 2 51 (t3 n0_trixel) (t3 (t3 n0_trixel)) n51 ltac:(cbn; tauto)). Qed.
Theorem C102_full_refuted : exists v d l h t p, ~ zero v /\ (2 <= l)%Z /\ of_level l h /\ trixel_from_htmid h = Ok t /\
  contains_trixel (half_space v d) t = Ok Full /\ contains_pt t p = true /\ ~ on_cap v d p.
Proof.
  exists hole_v, hole_d, 2%Z, 51%Z, (t3 n0_trixel), (V 1 (-1) 1).
  assert (N := n51).
  split; [exact hole_nonzero|]. split; [lia|]. split; [exact (node_valid _ _ _ N)|]. split; [exact (node_from _ _ _ N)|]. split; [exact hole_full|]. split.
  - apply contains_spec. destruct mid_t3 as (-> & -> & ->). destruct root2 as (A & B). set (r := half_root2) in *. dd. repeat split; nra.
  - unfold on_cap. rewrite size_hole. replace (size (V 1 (-1) 1)) with (sqrt 3) by (unfold size, inner; cbn [vx vy vz]; f_equal; ring).
    destruct root3 as (-> & _). unfold inner, hole_v, hole_d. cbn [vx vy vz]. lra.
Qed.
Print Assumptions C102_full_refuted.
(** So the search lists trixels that lie in the hole. *)
Theorem C102_find_refuted : exists v d l b h t, ~ zero v /\ -1 < d < 0 /\ (2 <= l)%Z /\ find_all_trixels (half_space v d) l = Ok b /\ in_ranges b h /\
  trixel_from_htmid h = Ok t /\ forall p, contains_pt t p = true -> ~ zero p -> ~ on_cap v d p.
Proof.
  assert (N2 := n51). assert (N3 := n207).
  destruct (C102_find hole_v hole_d 3 hole_nonzero ltac:(lia)) as (b & E & _ & C & _).
  exists hole_v, hole_d, 3%Z, b, 207%Z, (t3 (t3 n0_trixel)). split; [exact hole_nonzero|]. split; [unfold hole_d; lra|]. split; [lia|]. split; [exact E|].
  split; [|split; [exact (node_from _ _ _ N3)|]].
  - apply in_cov. unfold find_all_trixels in E.
    change (Z.to_nat (3 - 2)) with 1%nat in E. cbn [levels_loop Nat.iter nat_rect] in E.
    cbv zeta in E. change (Z.shiftr (Z.shiftl (0 + 3) 2) 2)%Z with (4 ^ (3 - 2) - 1)%Z in E.
    assert (NC : forall u, In u (flat_map get_children basic_trixels) -> exists j, node 2 j u).
    { intros u IU. apply in_flat_map in IU as (v & IV & IU). exists (tid u). apply (node_child 1 (tid v) v); [apply node_base, basic_in, IV|exact IU]. }
    destruct (visit_fold (half_space hole_v hole_d) 3 (hs_ok _ _ hole_nonzero) 2 (flat_map get_children basic_trixels) [] [] ltac:(lia) NC) as (na & out & F & A & B).
    rewrite F in E. cbn [bind] in E.
    assert (RIN : In (row_of 3 2 (t3 n0_trixel)) out).
    { apply B. right. exists (t3 n0_trixel). split; [apply in_flat_map; exists n0_trixel; cbn; tauto|]. split; [exact hole_full|reflexivity]. }
    assert (E' : bind (final_pass (half_space hole_v hole_d) na out) (fun output => Ok (merge_trixel_bounds (sort_bounds output))) = Ok b) by (destruct na; exact E).
    assert (NF : forall u, In u (flat_map get_children na) -> exists j, node 3 j u).
    { intros u IU. apply in_flat_map in IU as (v & IV & IU). apply A in IV as [[]|(IV & _)]. destruct (NC v IV) as (j & NV). exists (tid u). apply (node_child 2 j v); assumption. }
    destruct (final_fold (half_space hole_v hole_d) 3 (hs_ok _ _ hole_nonzero) (flat_map get_children na) out ltac:(lia) NF) as (out' & F' & B').
    unfold final_pass in E'. rewrite F' in E'. cbn [bind] in E'. injection E' as <-.
    assert (KB : okb (sort_bounds out')).
    { intros r IR. apply (Permutation_in _ (sort_perm out')) in IR. apply B' in IR as [IR|(u & c & IU & _ & _ & ->)].
      - apply B in IR as [[]|(u & IU & _ & ->)]. destruct (NC u IU) as (j & NU). assert (TT := node_tid _ _ _ NU). destruct (node_valid _ _ _ NU) as (_ & VV). cbn in VV |- *. lia.
      - destruct (NF u IU) as (j & NU). assert (TT := node_tid _ _ _ NU). destruct (node_valid _ _ _ NU) as (_ & VV). cbn in VV |- *. lia. }
    apply (merge_spec _ KB). apply (cov_perm out'); [apply Permutation_sym, sort_perm|]. exists (row_of 3 2 (t3 n0_trixel)). split; [apply B'; left; exact RIN|].
    cbn. lia.
  - intros p I NP W. assert (G := node_good _ _ _ N3). destruct (in_cone _ p G I) as (x & y & z & X & Y & Z & EP).
    assert (G' := G). destruct G' as (U0 & U1 & U2 & _). pose proof (norm_cone _ _ _ x y z U0 U1 U2 X Y Z) as NC. rewrite <- EP in NC. change (norm p) with (size p) in NC.
    destruct (size_pos p NP) as (SP & _).
    assert (CD : forall q, In q [tc0 (t3 (t3 n0_trixel)); tc1 (t3 (t3 n0_trixel)); tc2 (t3 (t3 n0_trixel))] -> dot q hole_v < - (16 / 10)).
    { destruct mid_t3 as (M0 & M1 & M2). destruct root2 as (R2 & R2p). set (r := half_root2) in *.
      assert (SN : forall a c, dot (vplus a c) (vplus a c) = 3 -> dot (vplus a c) hole_v = - 4 * r -> dot (vnorm (vplus a c)) hole_v < - (16 / 10)).
      { intros a c D3 DH. unfold vnorm. rewrite dot_times, D3, DH. destruct root3 as (C3 & D3'). set (s := sqrt 3) in *. clearbody s r.
        apply (Rmult_lt_reg_l s); [lra|]. replace (s * (/ s * (- 4 * r))) with (- 4 * r) by (field; lra). assert (7071 / 10000 < r) by nra. lra. }
      intros q [<-|[<-|[<-|[]]]]; cbn [t3 tc0 tc1 tc2]; [unfold w0 at 1|unfold w1 at 1|unfold w2 at 1];
        rewrite ?M0, ?M1, ?M2; apply SN; unfold hole_v; dd; clearbody r; lra. }
    unfold on_cap, hole_d in W. rewrite size_hole in W. change (inner p hole_v) with (dot p hole_v) in W. rewrite EP, dot_cone in W. rewrite <- EP in W.
    assert (C0 := CD _ (or_introl eq_refl)). assert (C1 := CD _ (or_intror (or_introl eq_refl))). assert (C2 := CD _ (or_intror (or_intror (or_introl eq_refl)))). clear CD.
    destruct root3 as (C3 & D3). set (a := dot (tc0 (t3 (t3 n0_trixel))) hole_v) in *. set (b' := dot (tc1 (t3 (t3 n0_trixel))) hole_v) in *. set (c := dot (tc2 (t3 (t3 n0_trixel))) hole_v) in *.
    clearbody a b' c. clear EP I G N2 N3 C E. set (s := sqrt 3) in *. clearbody s. generalize dependent (size p). intros n NC SP W.
    assert (x * a <= x * - (16 / 10)) by nra. assert (y * b' <= y * - (16 / 10)) by nra. assert (z * c <= z * - (16 / 10)) by nra.
    assert (n * s <= n * (17321 / 10000)) by nra. nra.
Qed.
Print Assumptions C102_find_refuted.
(** At level 1 the ids listed are of level 2. *)
Theorem C102_level_refuted : exists v d b h, ~ zero v /\ find_all_trixels (half_space v d) 1 = Ok b /\ in_ranges b h /\ of_level 2 h /\ ~ of_level 1 h.
Proof.
  assert (NZ : ~ zero (V 0 0 1)) by (intros E; injection E; lra). set (h := half_space (V 0 0 1) 0).
  assert (NF : forall u, In u (flat_map get_children basic_trixels) -> exists j, node 2 j u).
  { intros u IU. apply in_flat_map in IU as (v & IV & IU). exists (tid u). apply (node_child 1 (tid v) v); [apply node_base, basic_in, IV|exact IU]. }
  destruct (final_fold h 2 (hs_ok _ _ NZ) (flat_map get_children basic_trixels) [] ltac:(lia) NF) as (out & F & B).
  exists (V 0 0 1), 0, (merge_trixel_bounds (sort_bounds out)), 49%Z. split; [exact NZ|].
  assert (KB : okb (sort_bounds out)).
  { intros r IR. apply (Permutation_in _ (sort_perm out)) in IR. apply B in IR as [[]|(u & c & IU & _ & _ & ->)].
    destruct (NF u IU) as (j & NU). assert (TT := node_tid _ _ _ NU). destruct (node_valid _ _ _ NU) as (_ & VV). cbn in VV |- *. lia. }
  split; [|split].
  - unfold find_all_trixels. change (Z.to_nat (1 - 2)) with 0%nat. transitivity (bind (Ok out) (fun o => Ok (merge_trixel_bounds (sort_bounds o)))); [|reflexivity]. rewrite <- F. reflexivity.
  - apply in_cov, (merge_spec _ KB), (cov_perm out); [apply Permutation_sym, sort_perm|]. exists (49, 49)%Z. split; [|cbn; lia].
    assert (N := n49).
    destruct (node_contains h (hs_ok _ _ NZ) 2 49 _ ltac:(lia) N) as (c & K & O & _). apply B. right. exists (t1 n0_trixel), c. split; [apply in_flat_map; exists n0_trixel; cbn; tauto|].
    split; [exact K|]. split; [|reflexivity]. intros ->. apply (O eq_refl (tc0 (t1 n0_trixel))).
    + apply corner_in. exact (node_good _ _ _ N).
    + apply within_cap; [exact NZ|]. cbn [t1 tc0 n0_trixel tc1]. unfold in_cap. unfold inner. cbn [vx vy vz]. lra.
  - unfold of_level. cbn. split; [lia|]. intros (_ & H). lia.
Qed.
Print Assumptions C102_level_refuted.

(** *** The eight trixels of level 1: their circle is tested with the cosine of its radius. *)
Lemma n3_circle : bounding_circle n3_trixel = Ok (vtimes (/ sqrt 3) (V 1 1 1), / sqrt 3, acos (/ sqrt 3)).
Proof.
  unfold bounding_circle. cbn [n3_trixel tc0 tc1 tc2]. replace (cross _ _) with (V 1 1 1) by (unfold vminus; apply vec_eq; dd; ring).
  unfold vnorm. replace (dot (V 1 1 1) (V 1 1 1)) with 3 by (dd; ring). destruct root3 as (A & B). assert (P : 0 < / sqrt 3 <= 1).
  { split; [apply Rinv_0_lt_compat; lra|]. rewrite <- Rinv_1. apply Rinv_le_contravar; lra. }
  set (k := / sqrt 3) in *. clearbody k. repeat match goal with |- context [dot ?a (vtimes k (V 1 1 1))] => replace (dot a (vtimes k (V 1 1 1))) with k by (dd; ring) end.
  rewrite (Rmax_left k k) by lra. rewrite (Rmax_left k k) by lra. destruct (Rlt_dec 1 (Rabs k)) as [L|_]; [rewrite Rabs_pos_eq in L; lra|reflexivity].
Qed.
Lemma too_far : acos (81 / 100) + / sqrt 3 < acos (1 / 3).
Proof.
  destruct root3 as (A & B). assert (Q : / sqrt 3 * / sqrt 3 = 1 / 3) by (rewrite <- Rinv_mult, A; lra).
  assert (QP : 0 < / sqrt 3) by (apply Rinv_0_lt_compat; lra). set (q := / sqrt 3) in *. clearbody q. assert (QU : q < 57736 / 100000) by nra.
  assert (CA : cos (acos (81 / 100)) = 81 / 100) by (apply cos_acos; lra). assert (SA : sin (acos (81 / 100)) = sqrt (1 - Rsqr (81 / 100))) by (apply sin_acos; lra).
  assert (BA := acos_bound (81 / 100)). set (x := acos (81 / 100)) in *.
  assert (SB : 0 <= sin x <= 5865 / 10000).
  { rewrite SA. unfold Rsqr. split; [apply sqrt_pos|]. rewrite <- (sqrt_square (5865 / 10000)) by lra. apply sqrt_le_1; lra. }
  assert (PI2 := PI2_3_2). assert (X : x < PI / 2) by (apply (cos_increasing_0 (PI / 2) x) || (destruct (Rlt_dec x (PI / 2)) as [L|L]; [exact L|exfalso; assert (cos x <= 0) by (apply cos_le_0; lra); lra])).
  assert (CQ : 5 / 6 <= cos q).
  { destruct (cos_bound q 0) as (LB & _); [lra|lra|]. eapply Rle_trans; [|exact LB]. unfold cos_approx. cbn [Nat.mul Nat.add sum_f_R0]. unfold cos_term. cbn [Nat.mul Nat.add pow fact INR]. nra. }
  assert (SQ : 0 <= sin q <= q) by (split; [apply sin_ge_0; lra|left; apply sin_lt_x; exact QP]).
  assert (C : 1 / 3 < cos (x + q)) by (rewrite cos_plus, CA; nra).
  destruct (Rlt_le_dec (x + q) (acos (1 / 3))) as [L|L]; [exact L|exfalso]. assert (BB := acos_bound (1 / 3)).
  assert (cos (x + q) <= cos (acos (1 / 3))) by (apply cos_decr_1; lra). rewrite cos_acos in H; lra.
Qed.
Theorem C102_outside_refuted : exists v d h t p, ~ zero v /\ of_level 1 h /\ trixel_from_htmid h = Ok t /\
  contains_trixel (half_space v d) t = Ok Outside /\ contains_pt t p = true /\ in_cap v d p.
Proof.
  assert (NZ : ~ zero (V 1 1 (-1))) by (intros E; injection E; lra). assert (N : node 1 15 n3_trixel) by (apply (node_base n3_trixel); cbn; tauto).
  exists (V 1 1 (-1)), (81 / 100), 15%Z, n3_trixel, (V 1 1 0). split; [exact NZ|]. split; [exact (node_valid _ _ _ N)|]. split; [exact (node_from _ _ _ N)|].
  assert (SV : size (V 1 1 (-1)) = sqrt 3) by (unfold size, inner; cbn [vx vy vz]; f_equal; ring).
  destruct root3 as (A & B). assert (KP : 57 / 100 < / sqrt 3 < 578 / 1000).
  { split; apply (Rmult_lt_reg_l (sqrt 3)); try lra; rewrite Rinv_r by lra; lra. }
  split; [|split].
  - assert (OUT : forall p, inner p (V 1 1 (-1)) <= 1 -> hs_contains (half_space (V 1 1 (-1)) (81 / 100)) p = false).
    { intros p I. unfold hs_contains. apply gtb_false. rewrite dot_hv, SV. cbn [hd half_space]. set (k := / sqrt 3) in *. clearbody k. nra. }
    unfold contains_trixel. cbv zeta. rewrite !OUT by (cbn [n3_trixel tc0 tc1 tc2]; unfold inner; cbn [vx vy vz]; lra). cbn [andb orb].
    destruct (contains_pt n3_trixel (hv (half_space (V 1 1 (-1)) (81 / 100)))) eqn:E.
    { exfalso. apply contains_spec in E. cbn [n3_trixel tc0 tc1 tc2 half_space hv] in E. unfold vnorm in E. replace (dot (V 1 1 (-1)) (V 1 1 (-1))) with 3 in E by (dd; ring).
      set (k := / sqrt 3) in *. clearbody k. revert E. dd. lra. }
    unfold intersects_bounding_circle. rewrite n3_circle. cbn [bind]. unfold intersects_circle. cbv zeta.
    replace (dot (vtimes (/ sqrt 3) (V 1 1 1)) (hv (half_space (V 1 1 (-1)) (81 / 100)))) with (1 / 3).
    2:{ rewrite dot_hv, SV. unfold inner. dd. assert (Q : / sqrt 3 * / sqrt 3 = 1 / 3) by (rewrite <- Rinv_mult, A; lra). set (k := / sqrt 3) in *. clearbody k. lra. }
    destruct (Rlt_dec (Rabs (1 / 3)) 1) as [_|L]; [|rewrite Rabs_pos_eq in L; lra]. cbn [bind].
    assert (T := too_far). assert (H : hphi (half_space (V 1 1 (-1)) (81 / 100)) = acos (81 / 100)).
    { cbn [hphi half_space]. destruct (Rlt_dec (Rabs (81 / 100)) 1) as [_|L]; [reflexivity|rewrite Rabs_pos_eq in L; lra]. } rewrite H.
    destruct (Rlt_dec (acos (81 / 100) + / sqrt 3) (acos (1 / 3))) as [_|L]; [reflexivity|lra].
  - apply contains_spec. cbn [n3_trixel tc0 tc1 tc2]. dd. lra.
  - unfold in_cap. rewrite SV. unfold size, inner. cbn [vx vy vz]. replace (1 * 1 + 1 * 1 + 0 * 0) with 2 by ring. rewrite <- sqrt_mult by lra.
    assert (sqrt (2 * 3) < 246 / 100). { rewrite <- (sqrt_square (246 / 100)) by lra. apply sqrt_lt_1; lra. } lra.
Qed.
Print Assumptions C102_outside_refuted.

(** *** One edge.  The circle crosses the arc between two corners just when the code says so, save
    where the first corner is as far behind the plane as the plane is ahead. *)
Definition on_rim (v : vec) (d : R) (p : vec) : Prop := inner p v = d * (size p * size v).
Definition between (a b p : vec) : Prop := exists x y, 0 <= x /\ 0 <= y /\ p = vplus (vtimes x a) (vtimes y b) /\ ~ zero p.
Theorem C102_edge : forall v d a b, ~ zero v -> inner a a = 1 -> inner b b = 1 -> -1 < inner a b < 1 -> inner a v <> - d * size v ->
  (intersects_edge (half_space v d) a b = true <-> exists p, between a b p /\ on_rim v d p).
Proof.
  intros v d a b N UA UB C NE. assert (CB : -1 < dot a b <= 1) by (change (dot a b) with (inner a b); lra). destruct (size_pos v N) as (P & _).
  assert (RIM : forall p, on_rim v d p <-> dot p (hv (half_space v d)) = hd (half_space v d) * norm p).
  { intros p. unfold on_rim. rewrite dot_hv. cbn [hd half_space]. change (norm p) with (size p). set (n := size p). set (i := inner p v).
    split; intros H; [rewrite H; field; lra|]. replace i with (size v * (/ size v * i)) by (field; lra). rewrite H. ring. }
  split.
  - intros E. destruct (edge_inv _ a b UA UB CB E) as (r & R & H). exists (edge_pt a b r). split; [|now apply RIM].
    pose proof (edge_norm a b UA UB CB r) as EN. pose proof (usq_nonneg a b CB) as Q. eexists _, _. split; [|split; [|split; [reflexivity|]]].
    + apply Rmult_le_pos; [lra|]. assert (0 <= (1 - dot a b) / (1 + dot a b) * r) by (apply Rmult_le_pos; lra). lra.
    + apply Rmult_le_pos; lra.
    + intros Z. rewrite Z in EN. unfold norm in EN. replace (dot (V 0 0 0) (V 0 0 0)) with 0 in EN by (dd; ring). rewrite sqrt_0 in EN.
      assert (0 <= (1 - dot a b) / (1 + dot a b) * r * r) by (apply Rmult_le_pos; [apply Rmult_le_pos; lra|lra]). lra.
  - intros (p & (x & y & X & Y & EP & NP) & H). apply RIM in H.
    assert (S : 0 < x + y). { destruct (Rlt_dec 0 (x + y)) as [L|L]; [exact L|exfalso]. apply NP. assert (x = 0) as -> by lra. assert (y = 0) as -> by lra. rewrite EP. apply vec_eq; dd; ring. }
    destruct (edge_reached a b CB x y X Y S) as (s & k & SR & K & E). rewrite EP, E, dot_times, norm_times in H by lra.
    rewrite (edge_F (half_space v d) a b UA UB CB) in H.
    eapply (edge_true (half_space v d) a b).
    + assert (U0 : 0 < (1 - dot a b) / (1 + dot a b)) by (apply Rdiv_lt_0_compat; change (dot a b) with (inner a b); lra). set (u := (1 - dot a b) / (1 + dot a b)) in *.
      rewrite dot_comm, dot_hv. cbn [hd half_space]. intros Z. apply NE. assert (/ size v * inner a v + d = 0) by nra.
      replace (inner a v) with (size v * (/ size v * inner a v)) by (field; lra). replace (/ size v * inner a v) with (- d) by lra. ring.
    + exact SR.
    + match goal with |- ?f = 0 => set (ff := f) in *; clearbody ff end. set (nn := norm (edge_pt a b s)) in H. set (dh := hd (half_space v d)) in H.
      assert (Z : k * ff = 0) by (replace (k * ff) with (k * (dh * nn + ff) - dh * (k * nn)) by ring; rewrite H; ring).
      apply Rmult_integral in Z as [Z|Z]; [lra|exact Z].
Qed.
Print Assumptions C102_edge.
Theorem C102_edge_refuted : exists v d a b, ~ zero v /\ inner a a = 1 /\ inner b b = 1 /\ -1 < inner a b < 1 /\
  (exists p, between a b p /\ on_rim v d p) /\ intersects_edge (half_space v d) a b = false.
Proof.
  exists (V 0 0 1), 0, (V 1 0 0), (V 0 0 1). split; [intros E; injection E; lra|]. unfold inner; cbn [vx vy vz]. split; [ring|]. split; [ring|]. split; [lra|]. split.
  - exists (V 1 0 0). split; [exists 1, 0; split; [lra|]; split; [lra|]; split; [apply vec_eq; dd; ring|intros E; injection E; lra]|]. unfold on_rim, inner. cbn [vx vy vz]. ring.
  - unfold intersects_edge. cbv zeta. rewrite !(dot_comm (hv _)), !dot_hv. cbn [hd half_space].
    replace (dot (V 1 0 0) (V 0 0 1)) with 0 by (dd; ring). replace (inner (V 1 0 0) (V 0 0 1)) with 0 by (unfold inner; cbn [vx vy vz]; ring).
    destruct (Rlt_dec _ 0); [reflexivity|]. unfold np_div. destruct (Req_EM_T _ 0) as [|NZ]; [reflexivity|]. exfalso. apply NZ. ring.
Qed.
Print Assumptions C102_edge_refuted.

(** A middle trixel wholly inside a hemisphere, and partly inside another. *)
Example C102_full_ex : contains_trixel (half_space (V 1 (-1) 1) 0) (t3 n0_trixel) = Ok Full /\ contains_trixel (half_space (V 0 0 1) 0) (t3 n0_trixel) = Ok Partial.
Proof.
  assert (K : forall v p, ~ zero v -> hs_contains (half_space v 0) p = if Rlt_dec 0 (inner p v) then true else false).
  { intros v p N. destruct (size_pos v N) as (P & _). assert (I := Rinv_0_lt_compat _ P). unfold hs_contains, gtb. rewrite dot_hv. cbn [hd half_space].
    destruct (Rlt_dec 0 (inner p v)), (Rlt_dec 0 (/ size v * inner p v)); try reflexivity; exfalso; nra. }
  assert (A : ~ zero (V 1 (-1) 1)) by (intros E; injection E; lra). assert (B : ~ zero (V 0 0 1)) by (intros E; injection E; lra).
  destruct mid_t3 as (M0 & M1 & M2). destruct root2 as (_ & R). unfold contains_trixel. cbv zeta. rewrite M0, M1, M2, !K by assumption. unfold inner. cbn [vx vy vz]. split.
  - repeat (destruct (Rlt_dec 0 _) as [_|L]; [|exfalso; lra]). reflexivity.
  - destruct (Rlt_dec 0 (half_root2 * 0 + - half_root2 * 0 + 0 * 1)) as [L|_]; [lra|]. rewrite andb_false_r. cbn [andb].
    destruct (Rlt_dec 0 (0 * 0 + - half_root2 * 0 + half_root2 * 1)) as [_|L]; [reflexivity|lra].
Qed.
