(** C107 and C108: the pixels seen by a round and by a square camera. *)
From Coq Require Import List Bool Reals Lra Lia ZArith Sorted Permutation.
From Verif Require Import Base Sphere Sphere_proofs Fov Fov_proofs Props_GrowMask.
Import ListNotations.
Open Scope R_scope.

(** An order left open: some arrangement of the same indices. *)
Definition rearranges (arrange : list nat -> list nat) : Prop := forall l, Permutation (arrange l) l.

Lemma radians_half : forall d, radians (d / 2) = radians d / 2.
Proof. intros. unfold radians. field. Qed.
Lemma radius_deg : forall d, 0 <= radians d <= 2 * PI -> xyz_angular_radius_deg d = 2 * sin (radians d / 2).
Proof. intros d H. unfold xyz_angular_radius_deg. now apply radius_sin. Qed.

(** HpInLsstFov for one position: each pixel at most once; every pixel closer than the radius by three
    units of the scale, and none further by three units (six arcseconds for the default of 1e5). *)
Theorem C107_one : forall hp arrange nside radec fov k, sky hp -> rearranges arrange -> hp nside = Ok radec -> 0 < k -> 0 <= radians fov -> radians fov + 3 / k <= PI / 3 ->
  exists f, hp_in_lsst_fov hp nside fov k = Ok f /\ forall here, exists l, lsst_fov_call arrange f [here] = One l /\ NoDup l /\
  (forall p x, nth_error radec p = Some x -> within (radians fov - 3 / k) x here -> In p l) /\
  (forall p, In p l -> exists x, nth_error radec p = Some x /\ within (radians fov + 3 / k) x here).
Proof.
  intros hp arrange nside radec fov k S AR E K R0 R. unfold hp_in_lsst_fov, hp_kd_tree. rewrite E. cbn [bind]. rewrite build_tree_ok by (eapply S; eassumption). cbn [bind].
  eexists. split; [reflexivity|]. intros here. unfold lsst_fov_call. cbn [map l_tree l_radius l_scale]. eexists. split; [reflexivity|].
  assert (K3 : 0 < 3 / k) by (apply Rdiv_lt_0_compat; lra). assert (PP := PI_RGT_0). rewrite radius_deg by lra. set (tree := map _ radec). set (rr := IZR _).
  split; [eapply Permutation_NoDup; [apply Permutation_sym, AR|apply sorted_nodup, query_sorted]|]. split.
  - intros p x X W. apply (Permutation_in _ (Permutation_sym (AR _))), query_in. exists (rounded (Some k) (spot x)). split; [unfold tree; rewrite nth_error_map, X; reflexivity|].
    apply within_ang in W. apply near_in; try apply xyz_unit; [exact K|lra|exact W].
  - intros p I. apply (Permutation_in _ (AR _)), query_in in I as (q & Q & D). unfold tree in Q. rewrite nth_error_map in Q. destruct (nth_error radec p) as [x|]; [|discriminate]. injection Q as <-.
    exists x. split; [reflexivity|]. apply within_ang, (near_out k); try apply xyz_unit; assumption.
Qed.
Print Assumptions C107_one.

(** For several positions, or none: one list for each in turn, rising, with the pixels it has alone. *)
Theorem C107_many : forall arrange f places, rearranges arrange -> List.length places <> 1%nat ->
  exists ls, lsst_fov_call arrange f places = Each ls /\
  Forall2 (fun here l => StronglySorted lt l /\ exists l1, lsst_fov_call arrange f [here] = One l1 /\ Permutation l l1) places ls.
Proof.
  intros arrange f places AR L. exists (map (fun here => query (l_tree f) (rounded (Some (l_scale f)) (xyz_from_ra_dec (fst here) (snd here))) (l_radius f)) places). split.
  - unfold lsst_fov_call. destruct places as [|a [|b places]]; [reflexivity|cbn in L; lia|]. cbn [map]. rewrite map_map. reflexivity.
  - clear L. induction places as [|here places IH]; cbn [map]; constructor; [|exact IH]. split; [apply query_sorted|]. eexists. split; [reflexivity|]. apply Permutation_sym, AR.
Qed.
Print Assumptions C107_many.
Example C107_ex : sky (fun _ => Ok [(0, 0); (1, 0)]) /\ rearranges (@rev nat) /\ 0 <= radians 1 /\ radians 1 + 3 / 100000 <= PI / 3 /\ within (radians 1 - 3 / 100000) (0, 0) (0, 0).
Proof.
  assert (PP := PI_RGT_0). assert (P3 := PI2_3_2). repeat split.
  - injection H as <-. discriminate.
  - injection H as <-. destruct H0 as [<-|[<-|[]]]; cbn; rewrite ?Rabs_R0, ?Rabs_R1; lra.
  - injection H as <-. destruct H0 as [<-|[<-|[]]]; cbn; rewrite ?Rabs_R0; lra.
  - intros l. apply Permutation_sym, Permutation_rev.
  - unfold radians. lra.
  - unfold radians. lra.
  - apply within_ang. replace (ang (spot (0, 0)) (spot (0, 0))) with 0; [unfold radians; lra|]. symmetry. apply ang_zero; try apply xyz_unit. reflexivity.
Qed.

(** ** The square camera *)
(** Where a position falls in the plane of a camera that points at (ra, dec) and is turned by [rot]. *)
Definition on_camera (ra dec rot : R) (p : R * R) (a b : R) : Prop :=
  exists x y, gnomonic_toxy (fst p) (snd p) ra dec = Some (x, y) /\ a = x * cos rot + y * sin rot /\ b = - x * sin rot + y * cos rot.
(** Two positions are separated by less than [r]. *)
Definition nearer (r : R) (p q : R * R) : Prop := exists s, sep1 (fst p) (snd p) (fst q) (snd q) = Some s /\ s < r.
Lemma nearer_ang : forall r p q, nearer r p q -> ang (spot p) (spot q) < r.
Proof. intros r p q (s & E & L). rewrite sep1_ang in E. injection E as E. unfold spot. now rewrite E. Qed.
Lemma ang_tan : forall ra1 dec1 racen deccen x y, gnomonic_toxy ra1 dec1 racen deccen = Some (x, y) ->
  ang (xyz_from_ra_dec racen deccen) (xyz_from_ra_dec ra1 dec1) < PI / 2 -> ang (xyz_from_ra_dec racen deccen) (xyz_from_ra_dec ra1 dec1) <= sqrt (x * x + y * y).
Proof.
  intros ra1 dec1 racen deccen x y E L. rewrite (gno_tan _ _ _ _ _ _ E L). set (s := ang _ _) in *. assert (S0 : 0 <= s) by apply ang_range.
  destruct (Req_dec s 0) as [->|N]; [rewrite tan_0; lra|]. left. assert (PP := PI_RGT_0). assert (CP : 0 < cos s) by (apply cos_gt_0; lra). unfold tan.
  assert (G : s * cos s < sin s).
  { destruct (MVT_cor2 (fun u => sin u - u * cos u) (fun u => u * sin u) 0 s ltac:(lra)) as (c & M & C).
    { intros c _. replace (c * sin c) with (cos c - (1 * cos c + c * (- sin c))) by ring. apply derivable_pt_lim_minus; [apply derivable_pt_lim_sin|].
      apply (derivable_pt_lim_mult id cos); [apply derivable_pt_lim_id|apply derivable_pt_lim_cos]. }
    rewrite sin_0 in M. assert (0 < sin c) by (apply sin_gt_0; lra). assert (0 < c * sin c * (s - 0)) by (repeat apply Rmult_lt_0_compat; lra). lra. }
  apply (Rmult_lt_reg_r (cos s)); [exact CP|]. replace (sin s / cos s * cos s) with (sin s) by (field; lra). exact G.
Qed.
Lemma camera_cut : forall ra dec rot k p a b, 0 < k -> on_camera ra dec rot p a b -> exists x y, gnomonic_toxy (fst p) (snd p) ra dec = Some (x, y) /\
  (trunc (x * k), trunc (y * k)) = cut (cos rot) (sin rot) (a * k, b * k) /\ x * x + y * y = a * a + b * b.
Proof.
  intros ra dec rot k p a b K (x & y & E & -> & ->). exists x, y. split; [exact E|]. assert (C := cs1 rot). split.
  - unfold cut. cbn [fst snd]. f_equal; f_equal.
    + transitivity (x * k * (cos rot * cos rot + sin rot * sin rot)); [rewrite C; ring|ring].
    + transitivity (y * k * (cos rot * cos rot + sin rot * sin rot)); [rewrite C; ring|ring].
  - transitivity ((x * x + y * y) * (cos rot * cos rot + sin rot * sin rot)); [rewrite C; ring|ring].
Qed.
Lemma poly_cut : forall side rot, map (turned rot) (corners side) = map (cut (cos rot) (sin rot)) [(- (side / 2), side / 2); (- (side / 2), - (side / 2)); (side / 2, - (side / 2)); (side / 2, side / 2)].
Proof. intros. unfold corners, turned, cut. cbn [map fst snd]. replace (- side / 2) with (- (side / 2)) by field. reflexivity. Qed.

(** HpInComcamFov: each pixel at most once; every pixel that falls on the square by eleven units of
    the scale; and a pixel that is given is within half a side of the centre by three units, or falls
    no further than eleven units (23 arcseconds for the default of 1e5) outside the square.  The side
    is at least 31 units and its half diagonal at most sixty degrees. *)
Theorem C108_square : forall hp arrange contains nside radec side k ra dec rot, sky hp -> rearranges arrange -> tells_inside contains -> hp nside = Ok radec -> 0 < k ->
  31 <= radians side * k -> radians side / 2 * sqrt 2 + 3 / k <= PI / 3 ->
  exists f, hp_in_comcam_fov hp nside side k = Ok f /\ exists l, comcam_fov_call hp arrange contains f ra dec rot = Ok l /\ NoDup l /\
  (forall p x a b, nth_error radec p = Some x -> nearer (PI / 2) x (ra, dec) -> on_camera ra dec rot x a b -> Rabs a <= radians side / 2 - 11 / k -> Rabs b <= radians side / 2 - 11 / k -> In p l) /\
  (forall p, In p l -> exists x, nth_error radec p = Some x /\ within (radians side / 2 * sqrt 2 + 3 / k) x (ra, dec) /\
    (within (radians side / 2 + 3 / k) x (ra, dec) \/ exists a b, on_camera ra dec rot x a b /\ Rabs a < radians side / 2 + 11 / k /\ Rabs b < radians side / 2 + 11 / k)).
Proof.
  intros hp arrange contains nside radec side k ra dec rot S AR TI E K S31 R. unfold hp_in_comcam_fov, hp_kd_tree. rewrite E. cbn [bind]. rewrite build_tree_ok by (eapply S; eassumption). cbn [bind].
  eexists. split; [reflexivity|]. unfold comcam_fov_call. cbn [c_nside c_scale c_tree c_side c_inner c_outer]. rewrite E. cbn [bind].
  set (tree := map _ radec). set (sd := IZR (np_round (radians (side * k)))). set (ctr := rounded (Some k) (xyz_from_ra_dec ra dec)).
  assert (PP := PI_RGT_0). assert (K3 : 0 < 3 / k) by (apply Rdiv_lt_0_compat; lra). assert (K1 : 0 < 1 / k) by (apply Rdiv_lt_0_compat; lra).
  assert (E3 : 3 / k = 3 * (1 / k)) by (field; lra). assert (E11 : 11 / k = 11 * (1 / k)) by (field; lra).
  assert (SP : 0 < radians side) by (apply (Rmult_lt_reg_r k); lra).
  assert (Q2 : 1 <= sqrt 2) by (rewrite <- sqrt_1 at 1; apply sqrt_le_1_alt; lra).
  assert (HD : radians side / 2 <= radians side / 2 * sqrt 2) by (rewrite <- (Rmult_1_r (radians side / 2)) at 1; apply Rmult_le_compat_l; lra).
  assert (ED : radians (side / 2 * sqrt 2) = radians side / 2 * sqrt 2) by (unfold radians; field).
  rewrite !radius_deg by (rewrite ?ED, ?radians_half; lra). rewrite ED, radians_half.
  set (ri := IZR (np_round (2 * sin (radians side / 2 / 2) * k))). set (ro := IZR (np_round (2 * sin (radians side / 2 * sqrt 2 / 2) * k))).
  set (inn := arrange (query tree ctr ri)). set (all := arrange (query tree ctr ro)).
  assert (IN : forall p r, In p (query tree ctr r) <-> exists x, nth_error radec p = Some x /\ apart (rounded (Some k) (spot x)) ctr <= r).
  { intros p r. rewrite query_in. unfold tree. split.
    - intros (q & Q & D). rewrite nth_error_map in Q. destruct (nth_error radec p) as [x|]; [|discriminate]. injection Q as <-. exists x. auto.
    - intros (x & X & D). exists (rounded (Some k) (spot x)). rewrite nth_error_map, X. auto. }
  assert (INN : forall p, In p inn <-> In p (query tree ctr ri)) by (intros p; split; apply Permutation_in; [apply AR|apply Permutation_sym, AR]).
  assert (ALL : forall p, In p all <-> In p (query tree ctr ro)) by (intros p; split; apply Permutation_in; [apply AR|apply Permutation_sym, AR]).
  assert (NI : NoDup inn) by (eapply Permutation_NoDup; [apply Permutation_sym, AR|apply sorted_nodup, query_sorted]).
  assert (NA : NoDup all) by (eapply Permutation_NoDup; [apply Permutation_sym, AR|apply sorted_nodup, query_sorted]).
  set (chk := filter (fun i => negb (existsb (Nat.eqb i) inn)) all).
  assert (CHK : forall p, In p chk <-> In p all /\ ~ In p inn).
  { intros p. unfold chk. rewrite filter_In, negb_true_iff. split; intros (A & B); (split; [exact A|]).
    - intros I. assert (X : existsb (Nat.eqb p) inn = true) by (apply existsb_exists; exists p; split; [exact I|apply Nat.eqb_refl]). congruence.
    - apply not_true_is_false. intros X. apply existsb_exists in X as (q & Q & F). apply Nat.eqb_eq in F. subst q. contradiction. }
  destruct (take_ok radec chk) as (r & T & LR & _ & G).
  { intros p I. apply CHK in I as (I & _). apply ALL, IN in I as (x & X & _). apply nth_error_Some. congruence. }
  rewrite T. cbn [bind]. rewrite poly_cut. cbn [map app]. set (c := cos rot). set (n := sin rot).
  set (poly := [cut c n (- (sd / 2), sd / 2); _; _; _; _]).
  assert (SD : radians side * k - 1 / 2 <= sd <= radians side * k + 1 / 2).
  { assert (X := Rabs_le_inv _ _ (np_round_err (radians (side * k)))). fold sd in X. replace (radians (side * k)) with (radians side * k) in X by (unfold radians; field). lra. }
  assert (S30 : 30 <= sd) by lra. assert (CN : c * c + n * n = 1) by apply cs1.
  assert (CV := square_convex c n sd CN S30). cbv zeta in CV.
  assert (PIN : forall x a b, on_camera ra dec rot x a b -> Rabs a <= radians side / 2 - 11 / k -> Rabs b <= radians side / 2 - 11 / k -> in_square contains k poly ra dec x = true).
  { intros x a b O A B. destruct (camera_cut ra dec rot k x a b K O) as (u & v & GV & CU & _). unfold in_square. rewrite GV, CU. apply (TI _ _ _ _ _ CV).
    apply (square_in c n sd CN S30); rewrite Rabs_mult, (Rabs_pos_eq k) by lra; [clear B; rename A into B|];
      (assert (BK := Rmult_le_compat_r k _ _ (Rlt_le _ _ K) B); replace ((radians side / 2 - 11 / k) * k) with (radians side * k / 2 - 11) in BK by (field; lra); lra). }
  assert (POUT : forall x a b, on_camera ra dec rot x a b -> in_square contains k poly ra dec x = true -> Rabs a < radians side / 2 + 11 / k /\ Rabs b < radians side / 2 + 11 / k).
  { intros x a b O Q. destruct (camera_cut ra dec rot k x a b K O) as (u & v & GV & CU & _). unfold in_square in Q. rewrite GV, CU in Q. fold c n in Q.
    assert (Z : forall z, ~ (sd / 2 + 10 <= Rabs (z * k)) -> Rabs z < radians side / 2 + 11 / k).
    { intros z H. apply Rnot_le_lt in H. rewrite Rabs_mult, (Rabs_pos_eq k) in H by lra. apply (Rmult_lt_reg_r k); [exact K|]. replace ((radians side / 2 + 11 / k) * k) with (radians side * k / 2 + 11) by (field; lra). lra. }
    split; apply Z; intros H; assert (F := proj2 (TI _ _ _ _ (cut c n (a * k, b * k)) CV) (square_out c n sd CN S30 (a * k) (b * k) ltac:(tauto))); fold poly in F; unfold poly in *; congruence. }
  eexists. split; [reflexivity|].
  assert (ADD : forall p, In p (map fst (filter (fun ip => in_square contains k poly ra dec (snd ip)) (combine chk r))) <-> exists x, In p chk /\ nth_error radec p = Some x /\ in_square contains k poly ra dec x = true).
  { intros p. rewrite in_map_iff. split.
    - intros ((q, x) & Q & I). cbn in Q. subst q. apply filter_In in I as (I & SQ). cbn in SQ. exists x. assert (IC := in_combine_l _ _ _ _ I). split; [exact IC|]. split; [|exact SQ].
      apply In_nth_error in I as (m & M). assert (MC : nth_error chk m = Some p /\ nth_error r m = Some x).
      { clear - M. revert r m M. generalize chk. intros l. induction l as [|z l IH]; intros [|w r] [|m] M; cbn in *; try discriminate; [injection M as -> ->; auto|]. now apply IH. }
      destruct MC as (MC & MR). rewrite (G m p MC) in MR. exact MR.
    - intros (x & I & X & SQ). apply In_nth_error in I as (m & M). exists (p, x). split; [reflexivity|]. apply filter_In. split; [|exact SQ].
      assert (MR := G m p M). rewrite X in MR. clear - M MR. revert r m M MR. generalize chk. intros l. induction l as [|z l IH]; intros [|w r] [|m] M MR; cbn in *; try discriminate; [injection M as ->; injection MR as ->; now left|]. right. eapply IH; eassumption. }
  split; [|split].
  - assert (NC : NoDup chk) by (unfold chk; now apply NoDup_filter). 
    assert (NM : NoDup (map fst (filter (fun ip => in_square contains k poly ra dec (snd ip)) (combine chk r)))).
    { clear - NC. revert r NC. generalize chk. induction chk0 as [|z l IH]; intros [|w r] N; cbn [combine filter map]; try constructor. inversion N as [|? ? N1 N2]. destruct (in_square _ _ _ _ _ _); [|now apply IH]. cbn [map fst]. constructor; [|now apply IH].
      intros I. apply in_map_iff in I as ((q, y) & Q & I). cbn in Q. subst q. apply filter_In in I as (I & _). apply in_combine_l in I. contradiction. }
    clear - NI NM ADD CHK. revert NI NM. assert (DJ : forall p, In p inn -> ~ In p (map fst (filter (fun ip => in_square contains k poly ra dec (snd ip)) (combine chk r)))) by (intros p I J; apply ADD in J as (x & J & _); apply CHK in J; tauto).
    revert DJ. generalize (map fst (filter (fun ip => in_square contains k poly ra dec (snd ip)) (combine chk r))). intros m DJ N M. clear ADD CHK. induction inn as [|z l IH]; [exact M|]. cbn [app]. inversion N as [|? ? N1 N2]. constructor.
    + intros I. apply in_app_or in I as [I|I]; [contradiction|]. exact (DJ z (or_introl eq_refl) I).
    + apply IH; [intros p I; apply DJ; now right|exact N2].
  - intros p x a b X W O A B. apply in_or_app. destruct (in_dec Nat.eq_dec p inn) as [I|I]; [now left|right]. apply ADD. exists x. split; [|split; [exact X|now apply (PIN x a b)]]. apply CHK. split; [|exact I].
    apply ALL, IN. exists x. split; [exact X|]. apply near_in; try apply xyz_unit; [exact K|lra|]. apply nearer_ang in W. destruct (camera_cut ra dec rot k x a b K O) as (u & v & GV & _ & RR).
    unfold spot in W |- *. cbn [fst snd] in W. rewrite ang_sym in W |- *. assert (TT := ang_tan _ _ _ _ _ _ GV ltac:(lra)). rewrite RR in TT.
    assert (H0 : 0 <= radians side / 2 - 11 / k) by (eapply Rle_trans; [apply Rabs_pos|exact A]). set (w := radians side / 2 - 11 / k) in *.
    assert (RW : sqrt (a * a + b * b) <= w * sqrt 2).
    { rewrite <- (sqrt_square w H0), <- sqrt_mult by (try apply Rle_0_sqr; lra). apply sqrt_le_1_alt. apply Rabs_le_inv in A. apply Rabs_le_inv in B. clearbody w. nra. }
    assert (WS : w * sqrt 2 = radians side / 2 * sqrt 2 - 11 / k * sqrt 2) by (unfold w; ring).
    assert (11 / k * 1 <= 11 / k * sqrt 2) by (apply Rmult_le_compat_l; lra). lra.
  - intros p I. assert (OUT : forall x r, nth_error radec p = Some x -> 0 <= r -> r + 3 / k <= PI / 3 -> apart (rounded (Some k) (spot x)) ctr <= IZR (np_round (2 * sin (r / 2) * k)) -> within (r + 3 / k) x (ra, dec)).
    { intros x r' X R0 R1 D. apply within_ang, (near_out k); try apply xyz_unit; assumption. }
    apply in_app_or in I as [I|I].
    + apply INN, IN in I as (x & X & D). exists x. split; [exact X|]. assert (W := OUT x (radians side / 2) X ltac:(lra) ltac:(lra) D). split; [|now left].
      apply within_ang. apply within_ang in W. lra.
    + apply ADD in I as (x & J & X & SQ). exists x. split; [exact X|]. apply CHK in J as (J & _). apply ALL, IN in J as (x' & X' & D). assert (x' = x) by congruence. subst x'.
      split; [apply (OUT x _ X); [lra|lra|exact D]|]. right. unfold in_square in SQ. destruct (gnomonic_toxy (fst x) (snd x) ra dec) as [(u, v)|] eqn:GV; [|discriminate].
      exists (u * cos rot + v * sin rot), (- u * sin rot + v * cos rot). assert (O : on_camera ra dec rot x (u * cos rot + v * sin rot) (- u * sin rot + v * cos rot)) by (exists u, v; auto).
      split; [exact O|]. apply (POUT x _ _ O). unfold in_square. rewrite GV. exact SQ.
Qed.
Print Assumptions C108_square.
(** The side test, which answers as asked, and a camera of 0.7 degrees on two pixels. *)
Definition left_of_all (poly : list (Z * Z)) (p : Z * Z) : bool :=
  forallb (fun e => Z.ltb 0 (cross2 (fst e) (snd e) p)) (combine poly (tl poly)).
Lemma left_of_all_tells : tells_inside left_of_all.
Proof.
  intros q0 q1 q2 q3 p _. unfold left_of_all. cbn [combine tl forallb fst snd]. split.
  - intros (A & B & C & D). apply Z.ltb_lt in A, B, C, D. now rewrite A, B, C, D.
  - intros H. repeat rewrite andb_false_iff. repeat rewrite Z.ltb_ge. intuition lia.
Qed.
Example C108_ex : let hp := fun _ : Z => Ok [(0, 0); (1, 0)] in sky hp /\ rearranges (fun l => l) /\ tells_inside left_of_all /\ 31 <= radians (7 / 10) * 100000 /\
  radians (7 / 10) / 2 * sqrt 2 + 3 / 100000 <= PI / 3 /\ nearer (PI / 2) (0, 0) (0, 0) /\ on_camera 0 0 1 (0, 0) 0 0.
Proof.
  assert (PP := PI_RGT_0). assert (P3 := PI2_3_2). cbv zeta. split; [apply C107_ex|]. split; [intros l; apply Permutation_refl|]. split; [apply left_of_all_tells|].
  assert (Q2 : 0 <= sqrt 2 <= 3 / 2) by (split; [apply sqrt_pos|]; rewrite <- (sqrt_square (3 / 2)) by lra; apply sqrt_le_1_alt; lra).
  unfold radians. split; [lra|]. split; [nra|]. split.
  - exists 0. split; [|lra]. rewrite sep1_ang. f_equal. apply ang_zero; try apply xyz_unit. reflexivity.
  - exists 0, 0. split; [|lra]. unfold gnomonic_toxy. cbn [fst snd]. rewrite Rminus_0_r, sin_0, cos_0. destruct (Req_EM_T (0 * 0 + 1 * 1 * 1) 0); [lra|]. f_equal. f_equal; field.
Qed.
