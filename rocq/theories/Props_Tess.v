(** C111: squares over the sphere. *)
From Coq Require Import List Bool Reals Lra Lia ZArith.
From Verif Require Import Base Sphere Angles Tess Tess_proofs.
Import ListNotations.
Open Scope R_scope.

Lemma step_rad : forall side over, 0 < side - over <= 11 -> 0 < radians side - radians over <= 1 / 4.
Proof. intros side over H. assert (P := PI_RGT_0). assert (Q := PI_4). unfold radians. set (d := side - over) in *. replace (side * PI / 180 - over * PI / 180) with (d * (PI / 180)) by (unfold d; field). clearbody d. split; [apply Rmult_lt_0_compat; lra|]. nra. Qed.

(** Some field is near every position: its declination, and its distance along the parallel of the
    position, are within 7/12 of the step (side length less overlap, at most eleven degrees). *)
Theorem C111_cover : forall at_pole side overlap, 0 < side - overlap <= 11 -> exists l, comcam_tessellate at_pole side overlap = Ok l /\
  forall ra dec, - (PI / 2) <= dec <= PI / 2 -> exists f k, In f l /\
    Rabs (dec - snd f) <= 7 / 12 * radians (side - overlap) /\ Rabs (ra - fst f - IZR k * (2 * PI)) * cos dec <= 7 / 12 * radians (side - overlap).
Proof.
  intros ap side over H. assert (SB := step_rad _ _ H). replace (radians (side - over)) with (radians side - radians over) by (unfold radians; field).
  unfold comcam_tessellate. cbv zeta. set (s := radians side - radians over) in *. destruct (dec_steps s SB) as (N7 & N1 & H1 & H2). assert (P := PI_lo).
  destruct (linspace_ok (PI / 2) (steps (PI / 2) s) ltac:(lia)) as (decs & LD). rewrite LD. cbn [bind]. set (n := steps (PI / 2) s) in *. set (h := PI / 2 / IZR (n - 1)) in *.
  assert (DI : forall d, In d decs -> exists i, (Z.of_nat i < n)%Z /\ d = INR i * h).
  { intros d I. destruct (linspace_out _ _ _ _ LD I) as (i & L & [(_ & ->)|(_ & _ & Q)]); [exists i; auto|lia]. }
  destruct (stripes_ok ap (radians side / 2) s decs 0) as (fields & F).
  { intros d I. destruct (DI d I) as (i & L & ->). destruct (wide s SB i L) as (W & _). rewrite steps_pos by exact SB. destruct (many s SB _ W) as (M & _). fold n h in M. lia. }
  rewrite F. cbn [bind]. eexists. split; [reflexivity|]. intros ra dec D.
  assert (CASE : forall ra dec, 0 <= dec <= PI / 2 -> exists f k, In f fields /\ (dec = 0 -> snd f = 0) /\ 0 <= snd f /\ Rabs (dec - snd f) <= 7 / 12 * s /\ Rabs (ra - fst f - IZR k * (2 * PI)) * cos dec <= 7 / 12 * s).
  { intros ra0 dec0 D0. assert (HN : INR (Z.to_nat (n - 1)) * h = PI / 2) by (rewrite INR_IZR_INZ, Z2Nat.id by lia; unfold h; field; lra).
    destruct (Req_dec dec0 0) as [Z|NZ].
    - assert (I0 : In (INR 0 * h) decs) by (apply (linspace_in _ n); [exact LD|lia|cbn; lia]). destruct (stripes_in _ _ _ _ _ _ _ F I0) as (ras & t & LR & IN).
      destruct (around s SB 0 ras t ra0 dec0 ltac:(fold n; cbn; lia) LR D0) as (x & k & X & A); [rewrite Z; cbn; rewrite Rmult_0_l, Rminus_0_r, Rabs_R0; fold n h; lra|].
      exists (Rmod (x + t) (2 * PI), INR 0 * h), k. split; [apply IN, X|]. cbn [fst snd INR]. rewrite Rmult_0_l. split; [reflexivity|]. split; [lra|]. split; [rewrite Z, Rminus_0_r, Rabs_R0; lra|exact A].
    - destruct (nearest dec0 h (Z.to_nat (n - 1)) ltac:(lra) (proj1 D0)) as (i & I & IA); [lra|]. assert (II : In (INR i * h) decs) by (apply (linspace_in _ n); [exact LD|lia|lia]).
      destruct (stripes_in _ _ _ _ _ _ _ F II) as (ras & t & LR & IN). destruct (around s SB i ras t ra0 dec0 ltac:(fold n; lia) LR D0 IA) as (x & k & X & A).
      exists (Rmod (x + t) (2 * PI), INR i * h), k. split; [apply IN, X|]. cbn [fst snd]. split; [contradiction|]. split; [apply Rmult_le_pos; [apply pos_INR|lra]|]. split; [lra|exact A]. }
  destruct (Rle_dec 0 dec) as [G|G].
  - destruct (CASE ra dec ltac:(lra)) as (f & k & I & _ & _ & A & B). exists f, k. split; [apply in_or_app; now left|]. auto.
  - destruct (CASE (- ra) (- dec) ltac:(lra)) as (f & k & I & _ & N0 & A & B). destruct (Rle_lt_or_eq_dec 0 (snd f) N0) as [N|N].
    + exists (Rmod (- fst f) (2 * PI), - snd f). destruct (Rmod_congr (- fst f) (2 * PI)) as (j & J). exists (- k - j)%Z. split; [apply mirror_in; assumption|]. cbn [fst snd].
      split; [replace (dec - - snd f) with (- (- dec - snd f)) by ring; rewrite Rabs_Ropp; exact A|]. rewrite J, minus_IZR, opp_IZR. rewrite cos_neg in B.
      replace (ra - (- fst f + IZR j * (2 * PI)) - (- IZR k - IZR j) * (2 * PI)) with (- (- ra - fst f - IZR k * (2 * PI))) by ring. rewrite Rabs_Ropp. exact B.
    + destruct (CASE ra 0 ltac:(lra)) as (f' & k' & I' & E' & _ & _ & B'). exists f', k'. split; [apply in_or_app; now left|]. rewrite (E' eq_refl). rewrite <- N in A. split; [replace (dec - 0) with (- (- dec - 0)) by ring; rewrite Rabs_Ropp; exact A|].
      rewrite cos_0, Rmult_1_r in B'. eapply Rle_trans; [|exact B']. rewrite <- (Rmult_1_r (Rabs _)) at 2. apply Rmult_le_compat_l; [apply Rabs_pos|]. apply COS_bound.
Qed.
Print Assumptions C111_cover.
(** So an overlap of a seventh of the side puts every position within half a side of a field on both. *)
Theorem C111_half : forall at_pole side overlap, 0 < side - overlap <= 11 -> side <= 7 * overlap -> exists l, comcam_tessellate at_pole side overlap = Ok l /\
  forall ra dec, - (PI / 2) <= dec <= PI / 2 -> exists f k, In f l /\
    Rabs (dec - snd f) <= radians side / 2 /\ Rabs (ra - fst f - IZR k * (2 * PI)) * cos dec <= radians side / 2.
Proof.
  intros ap side over H O. destruct (C111_cover ap side over H) as (l & E & C). exists l. split; [exact E|]. intros ra dec D. destruct (C ra dec D) as (f & k & I & A & B). exists f, k. split; [exact I|].
  assert (P := PI_RGT_0). assert (Q : 7 / 12 * radians (side - over) <= radians side / 2) by (unfold radians; assert (0 <= (7 * over - side) * PI) by (apply Rmult_le_pos; lra); lra). lra.
Qed.
Print Assumptions C111_half.
Example C111_ex : 0 < 7 / 10 - 11 / 100 <= 11 /\ 7 / 10 <= 7 * (11 / 100).
Proof. lra. Qed.

(** Right ascensions are in [0, 2 pi), declinations in [-pi / 2, pi / 2], and the sky is its own mirror
    image: a field off the equator has one on the other side of it. *)
Theorem C111_mirror : forall at_pole side overlap l f, comcam_tessellate at_pole side overlap = Ok l -> In f l ->
  0 <= fst f < 2 * PI /\ - (PI / 2) <= snd f <= PI / 2 /\
  (snd f <> 0 -> exists g k, In g l /\ snd g = - snd f /\ fst g = - fst f + IZR k * (2 * PI)).
Proof.
  intros ap side over l f E I. destruct (tess_shape _ _ _ _ E) as (decs & fields & LD & F & ->). assert (P := PI_RGT_0).
  assert (NORTH : forall g, In g fields -> 0 <= fst g < 2 * PI /\ 0 <= snd g <= PI / 2).
  { intros g G. destruct (stripes_out _ _ _ _ _ _ _ F G) as (A & B). split; [exact B|]. apply (linspace_range (PI / 2) _ _ _ ltac:(lra) LD A). }
  apply in_app_or in I as [I|I].
  - destruct (NORTH f I) as (A & B). split; [exact A|]. split; [lra|]. intros NZ. destruct (Rmod_congr (- fst f) (2 * PI)) as (k & K). eexists. exists k. split; [apply mirror_in; [exact I|lra]|]. split; [reflexivity|exact K].
  - apply in_map_iff in I as (g & <- & I). apply filter_In in I as (I & _). destruct (NORTH g I) as (A & B). cbn [fst snd]. split; [apply Rmod_range; lra|]. split; [lra|]. intros NZ. destruct (Rmod_congr (-1 * fst g) (2 * PI)) as (k & K). exists g, k.
    split; [apply in_or_app; now left|]. split; [ring|]. rewrite K. ring.
Qed.
Print Assumptions C111_mirror.

(** Refuted: that squares laid with an overlap meet.  The stripes run from the equator to the pole with
    both ends taken, so they are always further apart than the step; with no overlap a position between
    the first two is more than half a side from every field. *)
Theorem C111_gap_refuted : forall at_pole side l, 0 < side < 90 -> comcam_tessellate at_pole side 0 = Ok l ->
  exists dec, 0 < dec <= PI / 4 /\ forall f, In f l -> radians side / 2 < Rabs (dec - snd f).
Proof.
  intros ap side l SD E. destruct (tess_shape _ _ _ _ E) as (decs & fields & LD & F & ->). assert (P := PI_RGT_0).
  replace (radians side - radians 0) with (radians side) in * by (unfold radians; field). set (s := radians side) in *. assert (SB : 0 < s < PI / 2) by (unfold s, radians; split; [apply Rmult_lt_0_compat; [apply Rmult_lt_0_compat|]; lra|nra]).
  assert (N : steps (PI / 2) s = ceil (PI / 2 / s)) by (unfold steps; destruct (Req_EM_T s 0); [lra|reflexivity]). rewrite N in *. set (q := PI / 2 / s) in *. assert (QS : q * s = PI / 2) by (unfold q; field; lra). clearbody q.
  assert (Q1 : 1 < q) by (apply (Rmult_lt_reg_r s); lra). assert (N2 := ceil_above q 1 Q1). destruct (ceil_bounds q) as (B1 & B2). set (n := ceil q) in *. clearbody n. assert (NR : 1 <= IZR (n - 1)) by (apply IZR_le; lia). assert (NR' : IZR (n - 1) < q) by (rewrite minus_IZR; exact B1).
  set (h := PI / 2 / IZR (n - 1)). assert (HN : h * IZR (n - 1) = PI / 2) by (unfold h; field; lra). assert (HS : s < h) by (apply (Rmult_lt_reg_r (IZR (n - 1))); [lra|]; rewrite HN, <- QS, (Rmult_comm q); apply Rmult_lt_compat_l; lra).
  assert (HP : h <= PI / 2) by (rewrite <- HN; nra).
  exists (h / 2). split; [lra|].
  assert (NORTH : forall g, In g fields -> exists i, snd g = INR i * h).
  { intros g G. destruct (stripes_out _ _ _ _ _ _ _ F G) as (A & _). destruct (linspace_out _ _ _ _ LD A) as (i & _ & [(_ & Q)|(_ & _ & Q)]); [exists i; exact Q|lia]. }
  intros f I. apply Rlt_le_trans with (h / 2); [lra|]. apply in_app_or in I as [I|I].
  - destruct (NORTH f I) as (i & ->). destruct i as [|i]; [cbn; rewrite Rmult_0_l, Rminus_0_r, Rabs_pos_eq; lra|]. rewrite S_INR. assert (0 <= INR i) by apply pos_INR. rewrite Rabs_left1; nra.
  - apply in_map_iff in I as (g & <- & I). apply filter_In in I as (I & _). destruct (NORTH g I) as (i & Q). cbn [snd]. rewrite Q. assert (0 <= INR i) by apply pos_INR. rewrite Rabs_pos_eq; nra.
Qed.
Print Assumptions C111_gap_refuted.

(** Refuted: that no field is given twice.  Both ends of the circle are taken, which are the same. *)
Theorem C111_twice_refuted : forall at_pole side overlap l, 0 < side - overlap <= 11 -> comcam_tessellate at_pole side overlap = Ok l -> ~ NoDup l.
Proof.
  intros ap side over l H E ND. assert (SB := step_rad _ _ H). destruct (tess_shape _ _ _ _ E) as (decs & fields & LD & F & ->). set (s := radians side - radians over) in *. destruct (dec_steps s SB) as (N7 & _). assert (P := PI_RGT_0).
  unfold linspace in LD. destruct (steps (PI / 2) s <? 0)%Z; [discriminate|]. destruct (steps (PI / 2) s =? 1)%Z eqn:N1; [apply Z.eqb_eq in N1; lia|]. injection LD as <-.
  destruct (Z.to_nat (steps (PI / 2) s)) as [|n] eqn:NE; [lia|]. cbn [seq map INR] in F. rewrite Rmult_0_l in F. cbn [stripes] in F.
  destruct (wide s SB 0 ltac:(cbn; lia)) as (W & _). cbn [INR] in W. rewrite Rmult_0_l in W. destruct (many s SB _ W) as (M7 & M1 & _). rewrite steps_pos in F by exact SB. set (m := ceil (largest s 0 / s)) in *.
  unfold linspace in F at 1. destruct (m <? 0)%Z; [discriminate|]. destruct (m =? 1)%Z eqn:M1'; [apply Z.eqb_eq in M1'; lia|]. cbn [bind] in F. destruct (stripes _ _ _ _ _) as [rest|e]; [|discriminate]. cbn [bind] in F. injection F as <-.
  destruct (Z.to_nat m) as [|m'] eqn:ME; [lia|]. cbn [seq map app] in ND. apply NoDup_cons_iff in ND as (NI & _). apply NI. clear NI. rewrite <- app_assoc. apply in_or_app. left. rewrite map_map. apply in_map_iff. exists m'. split; [|apply in_seq; lia]. f_equal.
  apply Rmod_congr_eq; [lra|]. exists 1%Z. cbn [INR]. replace m' with (Z.to_nat (m - 1)) by lia. rewrite INR_IZR_INZ, Z2Nat.id by lia. field. lra.
Qed.
Print Assumptions C111_twice_refuted.

(** An overlap of a side or more gives no field at all. *)
Theorem C111_none : forall at_pole side overlap l, side <= overlap -> comcam_tessellate at_pole side overlap = Ok l -> l = [].
Proof.
  intros ap side over l H E. destruct (tess_shape _ _ _ _ E) as (decs & fields & LD & F & ->). assert (P := PI_RGT_0). set (s := radians side - radians over) in *. assert (SB : s <= 0) by (unfold s, radians; nra).
  unfold steps in LD. destruct (Req_EM_T s 0) as [|NZ]; [discriminate|]. assert (Q : PI / 2 / s <= 0).
  { assert (Q : PI / 2 / s * s = PI / 2) by (field; exact NZ). set (q := PI / 2 / s) in *. clearbody q. apply Rnot_lt_le. intros Q0. nra. }
  assert (C : (ceil (PI / 2 / s) <= 0)%Z) by (destruct (ceil_bounds (PI / 2 / s)) as (B & _); assert (L : IZR (ceil (PI / 2 / s)) < IZR 1) by lra; apply lt_IZR in L; lia).
  unfold linspace in LD. destruct (ceil (PI / 2 / s) <? 0)%Z eqn:A; [discriminate|]. apply Z.ltb_ge in A. replace (ceil (PI / 2 / s)) with 0%Z in LD by lia. cbn in LD. injection LD as <-. cbn in F. injection F as <-. reflexivity.
Qed.
Print Assumptions C111_none.
Example C111_laid : exists l, comcam_tessellate 0 5 0 = Ok l.
Proof. destruct (C111_cover 0 5 0) as (l & E & _); [lra|]. exists l. exact E. Qed.
