(** C109: objects on the camera footprint. *)
From Coq Require Import List Bool Reals Lra Lia ZArith Sorted.
From Verif Require Import Base Sphere Sphere_proofs Fov Fov_proofs Props_GrowMask Props_Fov CamFoot.
Import ListNotations.
Open Scope R_scope.

(** An even axis of [n] steps of [d] degrees from [x0], and a square image on it. *)
Definition axis (x0 d : R) (n : nat) : list R := map (fun i => x0 + INR i * d) (seq 0 n).
Definition square_image (n : nat) (image : list (list bool)) : Prop := List.length image = n /\ Forall (fun row => List.length row = n) image.
(** The point of the focal plane, in radians, where a position (in radians) falls. *)
Definition falls (ra dec bra bdec rot : R) (u v : R) : Prop :=
  exists x y, gnomonic_toxy ra dec bra bdec = Some (x, y) /\ u = x * cos rot - y * sin rot /\ v = x * sin rot + y * cos rot.
(** Pixel (i, j) is on silicon, no further from the middle than [r] degrees. *)
Definition live (image : list (list bool)) (x : list R) (r : R) (i j : nat) : Prop :=
  (exists row, nth_error image i = Some row /\ nth_error row j = Some true) /\ sqrt (radians (nth i x 0) ^ 2 + radians (nth j x 0) ^ 2) <= radians r.

Lemma nth_crop : forall x_cam r image n i j, square_image n image -> List.length x_cam = n -> (i < n)%nat -> (j < n)%nat ->
  nth j (nth i (crop x_cam r image) []) false = if Rlt_dec (radians r) (sqrt (nth j x_cam 0 ^ 2 + nth i x_cam 0 ^ 2)) then false else nth j (nth i image []) false.
Proof.
  intros x_cam r image n i j (L & F) LX I J. unfold crop. set (g := fun '(y, row) => _).
  rewrite (nth_indep _ [] (g (0, []))) by (rewrite map_length, combine_length; lia). rewrite map_nth, combine_nth by lia. unfold g.
  set (f := fun '(x, v) => _). assert (LR : List.length (nth i image []) = n) by (rewrite Forall_forall in F; apply F, nth_In; lia).
  rewrite (nth_indep _ false (f (0, false))) by (rewrite map_length, combine_length; lia). rewrite map_nth, combine_nth by lia. reflexivity.
Qed.
Lemma axis_length : forall x0 d n, List.length (axis x0 d n) = n.
Proof. intros. unfold axis. now rewrite map_length, seq_length. Qed.
Lemma axis_nth : forall x0 d n i, (i < n)%nat -> nth i (map radians (axis x0 d n)) 0 = radians x0 + INR i * radians d.
Proof.
  intros x0 d n i H. rewrite (nth_indep (map radians _) 0 (radians 0)) by (rewrite map_length, axis_length; exact H). rewrite map_nth. unfold axis.
  rewrite (nth_indep _ 0 (x0 + INR 0 * d)) by (rewrite map_length, seq_length; exact H). rewrite (map_nth (fun i => x0 + INR i * d)), seq_nth by exact H. cbn [Nat.add]. unfold radians. field.
Qed.

(** The indices come back in rising order, and they are exactly the objects that fall nearest to a
    pixel of the image that is on silicon and within max_radius. *)
Theorem C109_objects : forall (deg : bool) image x0 d n r objs bra bdec rot, (2 <= n)%nat -> 0 < d -> square_image n image ->
  let rad := if deg then radians else (fun a => a) in
  let l := camera_call (init deg image (axis x0 d n) r) objs bra bdec rot in
  StronglySorted lt l /\
  forall o, In o l <-> exists p u v i j, nth_error objs o = Some p /\ falls (rad (fst p)) (rad (snd p)) (rad bra) (rad bdec) (rad rot) u v /\
    np_round ((u - radians x0) / radians d) = Z.of_nat i /\ np_round ((v - radians x0) / radians d) = Z.of_nat j /\ live image (axis x0 d n) r i j.
Proof.
  intros deg image x0 d n r objs bra bdec rot N D SQ rad l. split.
  - unfold l, camera_call. generalize 0%nat as k. generalize (init deg image (axis x0 d n) r). intros c. clear. induction objs as [|p objs IH]; intros k; cbn [List.length seq combine filter map]; [constructor|].
    destruct (in_camera _ _ _ _ _ _); [|apply IH]. cbn [map fst]. constructor; [apply IH|]. apply Forall_forall. intros m I. apply in_map_iff in I as ((q, y) & <- & I). apply filter_In in I as (I & _). apply in_combine_l, in_seq in I. cbn. lia.
  - intros o. unfold l, camera_call. rewrite in_map_iff.
    assert (X0 : nth 0 (map radians (axis x0 d n)) 0 = radians x0) by (rewrite axis_nth by lia; cbn; ring).
    assert (PS : nth 1 (map radians (axis x0 d n)) 0 - nth 0 (map radians (axis x0 d n)) 0 = radians d) by (rewrite X0, axis_nth by lia; cbn; ring).
    assert (CORE : forall p, in_camera (init deg image (axis x0 d n) r) (fst p) (snd p) bra bdec rot = true <-> exists u v i j, falls (rad (fst p)) (rad (snd p)) (rad bra) (rad bdec) (rad rot) u v /\
      np_round ((u - radians x0) / radians d) = Z.of_nat i /\ np_round ((v - radians x0) / radians d) = Z.of_nat j /\ live image (axis x0 d n) r i j).
    { intros p. unfold in_camera, init. cbn [units_degrees camera_fov x_camera plate_scale indx_max]. rewrite PS, X0, map_length, axis_length. fold rad.
      assert (LV : forall i j, (i < n)%nat -> (j < n)%nat -> (nth j (nth i (crop (map radians (axis x0 d n)) r image) []) false = true <-> live image (axis x0 d n) r i j)).
      { intros i j I J. rewrite (nth_crop _ _ _ n) by (auto; now rewrite map_length, axis_length). destruct SQ as (L & F).
        assert (EI : nth_error image i = Some (nth i image [])) by (apply nth_error_nth'; lia). assert (LR : List.length (nth i image []) = n) by (rewrite Forall_forall in F; apply F, nth_In; lia).
        assert (EJ : nth_error (nth i image []) j = Some (nth j (nth i image []) false)) by (apply nth_error_nth'; lia).
        assert (RN : forall m, (m < n)%nat -> radians (nth m (axis x0 d n) 0) = nth m (map radians (axis x0 d n)) 0).
        { intros m M. rewrite (nth_indep (map radians _) 0 (radians 0)) by (rewrite map_length, axis_length; exact M). now rewrite map_nth. }
        unfold live. rewrite !RN by assumption. rewrite (Rplus_comm (nth j _ _ ^ 2)). destruct (Rlt_dec (radians r) _) as [H|H].
        - split; [discriminate|]. intros (_ & Q). lra.
        - split.
          + intros Q. split; [|lra]. eexists. split; [exact EI|]. congruence.
          + intros ((row & R1 & R2) & _). congruence. }
      unfold falls. destruct (gnomonic_toxy (rad (fst p)) (rad (snd p)) (rad bra) (rad bdec)) as [(x, y)|] eqn:G.
      2: { split; [discriminate|]. intros (u & v & i & j & (x & y & E & _) & _). discriminate. }
      cbn [rotate]. replace (cos (rad rot) * x - sin (rad rot) * y) with (x * cos (rad rot) - y * sin (rad rot)) by ring. replace (sin (rad rot) * x + cos (rad rot) * y) with (x * sin (rad rot) + y * cos (rad rot)) by ring.
      set (u := x * cos (rad rot) - y * sin (rad rot)). set (v := x * sin (rad rot) + y * cos (rad rot)). set (xi := np_round ((u - radians x0) / radians d)). set (yi := np_round ((v - radians x0) / radians d)).
      rewrite !andb_true_iff, !Z.geb_le, !Z.ltb_lt. split.
      - intros ((((A & B) & C) & E) & Q). exists u, v, (Z.to_nat xi), (Z.to_nat yi). split; [exists x, y; auto|]. split; [fold xi; lia|]. split; [fold yi; lia|]. apply LV; try lia. exact Q.
      - intros (u' & v' & i & j & (x' & y' & E & U & W) & I & J & V). injection E as <- <-. subst u' v'. fold u in I. fold v in J. fold xi in I. fold yi in J.
        assert (B : (i < n)%nat /\ (j < n)%nat).
        { destruct V as ((row & R1 & R2) & _). destruct SQ as (L & F). assert (A : nth_error image i <> None) by congruence. apply nth_error_Some in A. split; [lia|].
          assert (LR : List.length row = n) by (rewrite Forall_forall in F; apply F; eapply nth_error_In; eassumption). assert (B : nth_error row j <> None) by congruence. apply nth_error_Some in B. lia. }
        destruct B as (BI & BJ). split; [lia|]. rewrite I, J, !Nat2Z.id. now apply LV. }
    split.
    + intros ((q, p) & Q & I). cbn in Q. subst q. apply filter_In in I as (I & T). cbn [snd] in T. apply CORE in T as (u & v & i & j & T). exists p, u, v, i, j. split; [|exact T].
      apply In_nth_error in I as (m & M). clear - M. assert (H : forall k m, nth_error (combine (seq k (List.length objs)) objs) m = Some (o, p) -> o = (k + m)%nat /\ nth_error objs m = Some p).
      { clear M. induction objs as [|z objs IH]; intros k [|m0] E; cbn in *; try discriminate; [injection E as <- <-; split; [lia|reflexivity]|]. apply IH in E as (-> & E). split; [lia|exact E]. }
      apply H in M as (-> & M). exact M.
    + intros (p & u & v & i & j & P & T). exists (o, p). split; [reflexivity|]. apply filter_In. split; [|cbn [snd]; apply CORE; exists u, v, i, j; exact T].
      clear - P. assert (H : forall k m, nth_error objs m = Some p -> In ((k + m)%nat, p) (combine (seq k (List.length objs)) objs)).
      { clear P. induction objs as [|z objs IH]; intros k [|m] E; cbn in *; try discriminate; [injection E as <-; left; f_equal; lia|]. right. rewrite Nat.add_succ_r. apply (IH (S k)), E. }
      apply (H 0%nat o P).
Qed.
Print Assumptions C109_objects.

(** An object on the near side of the sky that is given is no further from the pointing than
    max_radius and half the diagonal of a pixel. *)
Theorem C109_close : forall image x0 d n r objs bra bdec rot o p, (2 <= n)%nat -> 0 < d -> square_image n image ->
  In o (camera_call (init false image (axis x0 d n) r) objs bra bdec rot) -> nth_error objs o = Some p -> nearer (PI / 2) (bra, bdec) p ->
  within (radians r + radians d / 2 * sqrt 2) (bra, bdec) p.
Proof.
  intros image x0 d n r objs bra bdec rot o p N D SQ I P NR. apply (C109_objects false image x0 d n r objs bra bdec rot N D SQ) in I as (p' & u & v & i & j & P' & (x & y & G & EQU & EQV) & RI & RJ & LV). assert (p' = p) by congruence. subst p'.
  apply nearer_ang in NR. apply within_ang. unfold spot in *. cbn [fst snd] in *. assert (T := ang_tan _ _ _ _ _ _ G NR). eapply Rle_trans; [exact T|]. clear T.
  assert (C := cs1 rot). replace (x * x + y * y) with (u * u + v * v) by (subst u v; transitivity ((x * x + y * y) * (cos rot * cos rot + sin rot * sin rot)); [ring|rewrite C; ring]).
  assert (B : (i < n)%nat /\ (j < n)%nat /\ sqrt (radians (nth i (axis x0 d n) 0) ^ 2 + radians (nth j (axis x0 d n) 0) ^ 2) <= radians r).
  { destruct LV as ((row & R1 & R2) & R3). destruct SQ as (L & F). assert (A : nth_error image i <> None) by congruence. apply nth_error_Some in A. split; [lia|]. split; [|exact R3].
    assert (LR : List.length row = n) by (rewrite Forall_forall in F; apply F; eapply nth_error_In; eassumption). assert (B : nth_error row j <> None) by congruence. apply nth_error_Some in B. lia. }
  destruct B as (BI & BJ & BR). assert (RN : forall m, (m < n)%nat -> radians (nth m (axis x0 d n) 0) = radians x0 + INR m * radians d).
  { intros m M. rewrite <- (axis_nth x0 d n m M), (nth_indep (map radians _) 0 (radians 0)) by (rewrite map_length, axis_length; exact M). now rewrite map_nth. }
  rewrite (RN i BI), (RN j BJ) in BR. assert (DR : 0 < radians d) by (unfold radians; assert (PP := PI_RGT_0); apply Rmult_lt_0_compat; [|lra]; apply Rmult_lt_0_compat; lra).
  assert (E : forall w m, np_round ((w - radians x0) / radians d) = Z.of_nat m -> Rabs (w - (radians x0 + INR m * radians d)) <= radians d / 2).
  { intros w m Q. assert (A := Rabs_le_inv _ _ (np_round_err ((w - radians x0) / radians d))). rewrite Q, <- INR_IZR_INZ in A. set (q := (w - radians x0) / radians d) in *.
    assert (W : w = radians x0 + q * radians d) by (unfold q; field; lra). rewrite W. replace (radians x0 + q * radians d - (radians x0 + INR m * radians d)) with (- ((INR m - q) * radians d)) by ring. rewrite Rabs_Ropp, Rabs_mult, (Rabs_pos_eq (radians d)) by lra.
    replace (radians d / 2) with (1 / 2 * radians d) by field. apply Rmult_le_compat_r; [lra|]. apply Rabs_le. lra. }
  assert (EU := E u i RI). assert (EV := E v j RJ). set (a := radians x0 + INR i * radians d) in *. set (b := radians x0 + INR j * radians d) in *.
  assert (TRI := norm_add (V a b 0) (V (u - a) (v - b) 0)). unfold norm, dot, vadd in TRI. cbn [vx vy vz] in TRI.
  replace ((a + (u - a)) * (a + (u - a)) + (b + (v - b)) * (b + (v - b)) + (0 + 0) * (0 + 0)) with (u * u + v * v) in TRI by ring.
  replace (a * a + b * b + 0 * 0) with (a ^ 2 + b ^ 2) in TRI by ring.
  assert (S2 : sqrt ((u - a) * (u - a) + (v - b) * (v - b) + 0 * 0) <= radians d / 2 * sqrt 2).
  { rewrite <- (sqrt_square (radians d / 2)) at 1 by lra. rewrite <- sqrt_mult by (try apply Rle_0_sqr; lra). apply sqrt_le_1_alt. apply Rabs_le_inv in EU. apply Rabs_le_inv in EV. set (uu := u - a) in *. set (vv := v - b) in *. set (w := radians d / 2) in *. clearbody uu vv w. nra. }
  lra.
Qed.
Print Assumptions C109_close.

(** Degrees and radians agree. *)
Theorem C109_units : forall image x r objs bra bdec rot,
  camera_call (init true image x r) objs bra bdec rot = camera_call (init false image x r) (map (fun p => (radians (fst p), radians (snd p))) objs) (radians bra) (radians bdec) (radians rot).
Proof.
  intros. unfold camera_call. rewrite map_length. generalize 0%nat. induction objs as [|p objs IH]; intros k; [reflexivity|]. cbn [List.length seq combine map filter].
  change (in_camera (init true image x r) (fst (snd (k, p))) (snd (snd (k, p))) bra bdec rot) with (in_camera (init false image x r) (fst (snd (k, (radians (fst p), radians (snd p))))) (snd (snd (k, (radians (fst p), radians (snd p))))) (radians bra) (radians bdec) (radians rot)).
  destruct (in_camera _ _ _ _ _ _); cbn [map fst]; now rewrite IH.
Qed.
Print Assumptions C109_units.

(** Refuted: that only objects near the pointing are given.  The point opposite to it falls on the
    middle of the camera. *)
Definition small_image : list (list bool) := [[false; true; false]; [true; true; true]; [false; true; false]].
Theorem C109_far_refuted : exists image x0 d n r bra bdec rot p, (2 <= n)%nat /\ 0 < d /\ square_image n image /\ radians r < PI / 2 /\
  camera_call (init false image (axis x0 d n) r) [p] bra bdec rot = [0%nat] /\ sep1 bra bdec (fst p) (snd p) = Some PI.
Proof.
  exists small_image, (-1), 1, 3%nat, (3 / 2), 0, 0, 0, (PI, 0). assert (PP := PI_RGT_0). split; [lia|]. split; [lra|]. split; [split; [reflexivity|]; repeat constructor|]. split; [unfold radians; lra|]. split.
  - assert (I : In 0%nat (camera_call (init false small_image (axis (-1) 1 3) (3 / 2)) [(PI, 0)] 0 0 0)).
    { apply C109_objects; [lia|lra|split; [reflexivity|]; repeat constructor|]. exists (PI, 0), 0, 0, 1%nat, 1%nat. split; [reflexivity|]. split.
      - exists 0, 0. cbn [fst snd]. unfold gnomonic_toxy. rewrite Rminus_0_r, sin_0, cos_0, cos_PI, sin_PI. destruct (Req_EM_T (0 * 0 + 1 * 1 * -1) 0); [lra|]. split; [f_equal; f_equal; field|]. split; ring.
      - replace ((0 - radians (-1)) / radians 1) with 1 by (unfold radians; field; lra). split; [apply np_round_near; cbn; rewrite Rminus_diag_eq by reflexivity; rewrite Rabs_R0; lra|]. split; [apply np_round_near; cbn; rewrite Rminus_diag_eq by reflexivity; rewrite Rabs_R0; lra|].
        split; [eexists; split; reflexivity|]. cbn [nth axis map seq INR]. unfold radians. replace ((-1 + 1 * 1) * PI / 180) with 0 by field. replace (0 ^ 2 + 0 ^ 2) with 0 by ring. rewrite sqrt_0. lra. }
    unfold camera_call in *. cbn [List.length seq combine filter] in *. destruct (in_camera _ _ _ _ _ _); [reflexivity|destruct I].
  - rewrite sep1_ang. f_equal. apply ang_val; [lra|]. unfold dot. cbn. rewrite sin_0, cos_0, cos_PI, sin_PI. ring.
Qed.
Print Assumptions C109_far_refuted.
Example C109_ex : square_image 3 small_image /\ live small_image (axis (-1) 1 3) 2 1 0 /\ ~ live small_image (axis (-1) 1 3) 2 0 0.
Proof.
  split; [split; [reflexivity|]; repeat constructor|]. split.
  - split; [eexists; split; reflexivity|]. cbn [nth axis map seq INR]. unfold radians. replace ((-1 + 1 * 1) * PI / 180) with 0 by field. assert (PP := PI_RGT_0). set (q := (-1 + 0 * 1) * PI / 180). replace (0 ^ 2 + q ^ 2) with ((- q) * (- q)) by ring. rewrite sqrt_square; unfold q; lra.
  - intros ((row & A & B) & _). cbn in A. injection A as <-. discriminate.
Qed.
