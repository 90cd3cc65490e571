(** Proofs about Spin.v. *)
From Coq Require Import List Bool Reals ZArith Lra Lia.
From Verif Require Import Base Angles Sphere Sphere_proofs Blob Blob_proofs Spin.
Import ListNotations.
Open Scope R_scope.

Definition mirror (v : vec) : vec := V (vx v) (vy v) (- vz v).
(** The turn as a rotation of the sphere. *)
Definition turn (lon lat lon2 : R) (v : vec) : vec := rot_about_z (rot_about_x (rot_about_z v lon) lat) (PI + lon2).
Definition back (lon lat lon2 : R) (v : vec) : vec := rot_about_z (rot_about_x (rot_about_z v (- (PI + lon2))) (- lat)) (- lon).

Lemma turn_iso : forall a b c, isometry (turn a b c).
Proof. intros a b c v w. unfold turn. rewrite rot_z_iso, rot_x_iso. apply rot_z_iso. Qed.
Lemma back_iso : forall a b c, isometry (back a b c).
Proof. intros a b c v w. unfold back. rewrite rot_z_iso, rot_x_iso. apply rot_z_iso. Qed.
Lemma turn_back : forall a b c v, turn a b c (back a b c v) = v.
Proof.
  intros. unfold turn, back. rewrite rot_z_add, Rplus_opp_l, rot_z_0, rot_x_add, Rplus_opp_l, rot_x_0, rot_z_add, Rplus_opp_l.
  apply rot_z_0.
Qed.
Lemma thetaphi_mirror : forall ra dec, thetaphi2xyz ra (dec + PI / 2) = mirror (xyz_from_ra_dec ra dec).
Proof.
  intros. pose proof (cos_sin dec) as _. apply vec_eq; simpl.
  - replace (dec + PI / 2) with (PI / 2 + dec) by ring. rewrite <- cos_sin. ring.
  - replace (dec + PI / 2) with (PI / 2 + dec) by ring. rewrite <- cos_sin. ring.
  - replace (dec + PI / 2) with (PI / 2 + dec) by ring. rewrite sin_cos. ring.
Qed.
Lemma rotx_mirror : forall t v, rotx t (mirror v) = mirror (rot_about_x v t).
Proof. intros. apply vec_eq; unfold rotx, mirror, rot_about_x, mapply, x_rotation_matrix, dot; simpl; ring. Qed.
Lemma xyz_congr : forall r1 r2 d, congr (2 * PI) r1 r2 -> xyz_from_ra_dec r1 d = xyz_from_ra_dec r2 d.
Proof. intros r1 r2 d C. unfold xyz_from_ra_dec. now rewrite (cos_congr _ _ C), (sin_congr _ _ C). Qed.
Lemma unit_iso : forall f v, isometry f -> unit v -> unit (f v).
Proof. intros f v I U. unfold unit. now rewrite I. Qed.

(** Back to angles: a unit vector with its mirror. *)
Lemma angles_of : forall w, unit w -> exists p,
  xyz2thetaphi (mirror w) = (atan2 (vy w) (vx w), Some p) /\ 0 <= p <= PI /\
  xyz_from_ra_dec (atan2 (vy w) (vx w)) (p - PI / 2) = w.
Proof.
  intros w U. assert (S : vx w * vx w + vy w * vy w + vz w * vz w = 1) by exact U.
  assert (B : -1 <= - vz w <= 1). { pose proof (Rle_0_sqr (vx w)). pose proof (Rle_0_sqr (vy w)). unfold Rsqr in *. nra. }
  exists (acos (- vz w)). unfold xyz2thetaphi, mirror. cbn [vx vy vz]. rewrite np_arccos_in by exact B.
  split; [reflexivity|]. split; [apply acos_bound|].
  assert (C : cos (acos (- vz w) - PI / 2) = sqrt (vx w * vx w + vy w * vy w)).
  { replace (acos (- vz w) - PI / 2) with (- (PI / 2 - acos (- vz w))) by ring. rewrite cos_neg, cos_shift, sin_acos by exact B.
    f_equal. unfold Rsqr. lra. }
  assert (D : sin (acos (- vz w) - PI / 2) = vz w).
  { replace (acos (- vz w) - PI / 2) with (- (PI / 2 - acos (- vz w))) by ring. rewrite sin_neg, sin_shift, cos_acos by exact B. ring. }
  destruct (atan2_spec (vy w) (vx w)) as [X Y]. apply vec_eq; simpl; rewrite ?C, ?D; [rewrite X at 4; ring|rewrite Y at 4; ring|reflexivity].
Qed.

Lemma spin1_ok : forall lon lat lon2 ra dec, exists ra' dec',
  spin1 lon lat lon2 (ra, dec) = (ra', Some dec') /\ 0 <= ra' < 2 * PI /\ - (PI / 2) <= dec' <= PI / 2 /\
  xyz_from_ra_dec ra' dec' = turn lon lat lon2 (xyz_from_ra_dec ra dec).
Proof.
  intros. pose proof PI_RGT_0 as P. unfold spin1. cbn [fst snd]. rewrite thetaphi_mirror, rotx_mirror.
  rewrite (xyz_congr _ _ dec (Rmod_congr (ra + lon) (2 * PI))), <- rot_z_ra.
  set (w := rot_about_x (rot_about_z (xyz_from_ra_dec ra dec) lon) lat).
  assert (U : unit w). { unfold w, unit. rewrite rot_x_iso, rot_z_iso. apply xyz_unit. }
  destruct (angles_of w U) as (p & E & Hp & X). rewrite E. cbn [obind].
  exists (Rmod (atan2 (vy w) (vx w) + PI + lon2) (2 * PI)), (p - PI / 2).
  split; [reflexivity|]. split; [apply Rmod_range; lra|]. split; [lra|].
  rewrite (xyz_congr _ _ _ (Rmod_congr _ _)), Rplus_assoc, <- rot_z_ra, X. reflexivity.
Qed.

(** ** The nearest *)
Lemma nearest_spec : forall l p, l <> [] -> exists w, nth_error l (nearest l p) = Some w /\
  forall v, In v l -> dist2 w p <= dist2 v p.
Proof.
  induction l as [|v [|v2 r] IH]; intros p N; [congruence| |].
  - exists v. split; [reflexivity|]. intros x [<-|[]]. lra.
  - destruct (IH p) as (w & E & M); [discriminate|]. change (nearest (v :: v2 :: r) p) with
      (match nth_error (v2 :: r) (nearest (v2 :: r) p) with
       | Some w => if Rle_dec (dist2 v p) (dist2 w p) then 0%nat else S (nearest (v2 :: r) p) | None => 0%nat end).
    rewrite E. destruct (Rle_dec (dist2 v p) (dist2 w p)) as [L|L].
    + exists v. split; [reflexivity|]. intros x [<-|I]; [lra|]. specialize (M x I). lra.
    + exists w. split; [exact E|]. intros x [<-|I]; [lra|auto].
Qed.
Lemma dist2_dot : forall a b, unit a -> unit b -> dist2 a b = 2 - 2 * dot a b.
Proof. intros a b A B. unfold dist2, unit, dot in *. lra. Qed.

Lemma not_radians_in : forall x, - (2 * PI) <= x <= 2 * PI -> not_radians x = false.
Proof. intros x B. unfold not_radians. destruct (Rlt_dec (2 * PI) (Rabs x)) as [L|L]; [|reflexivity]. pose proof (Rabs_le x (2 * PI) B). lra. Qed.
Definition vec_of (f : R * option R) : vec := match snd f with Some d => xyz_from_ra_dec (fst f) d | None => V 0 0 0 end.
Lemma tree_spun : forall lon lat lon2 fs, build_tree (map (spin1 lon lat lon2) fs) = Ok (map vec_of (map (spin1 lon lat lon2) fs)).
Proof.
  intros. unfold build_tree.
  assert (A : existsb (fun f : R * option R => match snd f with None => true | _ => false end) (map (spin1 lon lat lon2) fs) = false).
  { induction fs as [|[ra dec] fs IH]; [reflexivity|]. cbn [map existsb]. destruct (spin1_ok lon lat lon2 ra dec) as (r & d & E & _). now rewrite E. }
  assert (B : existsb (fun f => not_radians (fst f) || match snd f with Some d => not_radians d | None => false end) (map (spin1 lon lat lon2) fs) = false).
  { clear A. induction fs as [|[ra dec] fs IH]; [reflexivity|]. cbn [map existsb]. destruct (spin1_ok lon lat lon2 ra dec) as (r & d & E & Hr & Hd & _).
    rewrite E. cbn [fst snd]. pose proof PI_RGT_0. rewrite !not_radians_in by lra. exact IH. }
  now rewrite A, B.
Qed.
Lemma turned_ok : forall centres s lon lat lon2, let fs := map (spin1 lon lat lon2) (s_init s) in
  turned centres s lon lat lon2 = Ok (mkSv (s_init s) fs (map (nearest (map vec_of fs)) centres) (s_c2f s) (s_lon s) (s_lat s) (s_lon2 s) (s_next s)).
Proof. intros. unfold turned, hp2fieldsetup. fold fs. unfold fs. now rewrite tree_spun. Qed.
Lemma tree_ok : forall fs t, build_tree fs = Ok t -> t = map vec_of fs /\ forall f, In f fs -> snd f <> None.
Proof.
  intros fs t. unfold build_tree. match goal with |- (if ?b then _ else _) = _ -> _ => destruct b eqn:A; [discriminate|] end.
  match goal with |- (if ?b then _ else _) = _ -> _ => destruct b; [discriminate|] end.
  intros E. split; [injection E as <-; reflexivity|]. intros f I N. assert (X : existsb (fun f : R * option R => match snd f with None => true | _ => false end) fs = true).
  { apply existsb_exists. exists f. split; [exact I|]. now rewrite N. } congruence.
Qed.
Lemma vec_of_unit : forall f, snd f <> None -> unit (vec_of f).
Proof. intros [r [d|]] N; [apply xyz_unit|now destruct N]. Qed.
Lemma nearest_dot : forall fs p, fs <> [] -> unit p -> (forall f, In f fs -> snd f <> None) ->
  exists f, nth_error fs (nearest (map vec_of fs) p) = Some f /\ forall g, In g fs -> dot (vec_of g) p <= dot (vec_of f) p.
Proof.
  intros fs p N U A. destruct (nearest_spec (map vec_of fs) p) as (w & E & M); [destruct fs; [congruence|discriminate]|].
  rewrite nth_error_map in E. destruct (nth_error fs (nearest (map vec_of fs) p)) as [f|] eqn:F; [|discriminate].
  exists f. split; [reflexivity|]. intros g I. cbn in E. injection E as <-. specialize (M (vec_of g) (in_map _ _ _ I)).
  rewrite !dist2_dot in M; [lra|apply vec_of_unit, A, I|exact U|apply vec_of_unit, A; eapply nth_error_In; exact F|exact U].
Qed.
