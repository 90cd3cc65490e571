(** C139: the tessellation of fields is turned as a whole, and pixels go to the nearest field. *)
From Coq Require Import List Bool Reals ZArith Lra Lia Sorted.
From Verif Require Import Base Angles Sphere Sphere_proofs Blob Blob_proofs Spin Spin_proofs.
Import ListNotations.
Open Scope R_scope.

(** The direction of a position, inner products (the cosine of an angle between directions), and the
    handedness of three directions. *)
Definition way (ra dec : R) : vec := V (cos dec * cos ra) (cos dec * sin ra) (sin dec).
Definition inner (a b : vec) : R := vx a * vx b + vy a * vy b + vz a * vz b.
Definition hand (a b c : vec) : R :=
  vx a * (vy b * vz c - vz b * vy c) - vy a * (vx b * vz c - vz b * vx c) + vz a * (vx b * vy c - vy b * vx c).
Definition apart (a b : vec) : R := acos (inner a b).
Definition is_at (f : R * option R) (v : vec) : Prop := exists d, snd f = Some d /\ v = way (fst f) d.
Lemma way_xyz : forall ra dec, way ra dec = xyz_from_ra_dec ra dec.
Proof. intros. apply vec_eq; simpl; ring. Qed.
Lemma is_at_vec : forall f v, is_at f v -> v = vec_of f.
Proof. intros f v (d & E & ->). unfold vec_of. now rewrite E, way_xyz. Qed.
Lemma apart_le : forall a b c d, inner a a = 1 -> inner b b = 1 -> inner c c = 1 -> inner d d = 1 ->
  inner c d <= inner a b -> apart a b <= apart c d.
Proof. intros a b c d A B C D L. exact (proj2 (ang_le a b c d A B C D) L). Qed.

Section Any.
Variable centres : list vec.
Variable corners : list (list vec).
Notation spin_fields := (spin_fields centres).
Notation too_spin := (too_spin centres corners).
Notation make := (make centres corners).

Lemma spin_inv : forall s i s', spin_fields s i = Ok s' -> exists lon lat lon2,
  at_index (s_lon s) i = Ok lon /\ at_index (s_lat s) i = Ok lat /\ at_index (s_lon2 s) i = Ok lon2 /\
  s' = mkSv (s_init s) (map (spin1 lon lat lon2) (s_init s)) (map (nearest (map vec_of (map (spin1 lon lat lon2) (s_init s)))) centres)
         (s_c2f s) (s_lon s) (s_lat s) (s_lon2 s) (s_next s).
Proof.
  intros s i s' H. unfold Spin.spin_fields in H. destruct (at_index (s_lon s) i) as [lon|]; [|discriminate]. cbn [bind] in H.
  destruct (at_index (s_lat s) i) as [lat|]; [|discriminate]. cbn [bind] in H. destruct (at_index (s_lon2 s) i) as [lon2|]; [|discriminate].
  cbn [bind] in H. rewrite turned_ok in H. exists lon, lat, lon2. repeat split. congruence.
Qed.
Lemma spun_at : forall s lon lat lon2 k ra dec, nth_error (s_init s) k = Some (ra, dec) -> exists ra' dec',
  nth_error (map (spin1 lon lat lon2) (s_init s)) k = Some (ra', Some dec') /\ 0 <= ra' < 2 * PI /\ - (PI / 2) <= dec' <= PI / 2 /\
  way ra' dec' = turn lon lat lon2 (way ra dec).
Proof.
  intros s lon lat lon2 k ra dec E. destruct (spin1_ok lon lat lon2 ra dec) as (r & d & F & A & B & C). exists r, d.
  rewrite nth_error_map, E. cbn [option_map]. rewrite F, !way_xyz. repeat split; try tauto.
Qed.

(** The turn: longitude first, then about the x axis, then longitude again with half a turn more.  Every
    field gets an ra in [0, 2 pi) and a dec between the poles. *)
Theorem C139_turn : forall s i s', spin_fields s i = Ok s' -> exists lon lat lon2,
  at_index (s_lon s) i = Ok lon /\ at_index (s_lat s) i = Ok lat /\ at_index (s_lon2 s) i = Ok lon2 /\
  length (s_fields s') = length (s_init s) /\
  forall k ra dec, nth_error (s_init s) k = Some (ra, dec) -> exists ra' dec',
    nth_error (s_fields s') k = Some (ra', Some dec') /\ 0 <= ra' < 2 * PI /\ - (PI / 2) <= dec' <= PI / 2 /\
    let x := cos dec * cos (ra + lon) in
    let y := cos dec * sin (ra + lon) * cos lat - sin dec * sin lat in
    let z := cos dec * sin (ra + lon) * sin lat + sin dec * cos lat in
    way ra' dec' = V (x * cos (lon2 + PI) - y * sin (lon2 + PI)) (x * sin (lon2 + PI) + y * cos (lon2 + PI)) z.
Proof.
  intros s i s' H. destruct (spin_inv _ _ _ H) as (lon & lat & lon2 & A & B & C & ->). exists lon, lat, lon2. cbn [s_fields].
  repeat (split; [assumption|]). split; [apply map_length|]. intros k ra dec E.
  destruct (spun_at s lon lat lon2 k ra dec E) as (r & d & F & G & I & J). exists r, d. repeat (split; [assumption|]). cbv zeta. rewrite J.
  replace (lon2 + PI) with (PI + lon2) by ring. unfold way. rewrite (cos_plus ra lon), (sin_plus ra lon).
  unfold turn, rot_about_z, rot_about_x, mapply, z_rotation_matrix, x_rotation_matrix, dot. apply vec_eq; simpl; ring.
Qed.
(** Angles between fields stay as they were. *)
Theorem C139_rigid : forall s i s', spin_fields s i = Ok s' ->
  forall j k ra dec ra2 dec2 v w, nth_error (s_init s) j = Some (ra, dec) -> nth_error (s_init s) k = Some (ra2, dec2) ->
  (exists f, nth_error (s_fields s') j = Some f /\ is_at f v) -> (exists f, nth_error (s_fields s') k = Some f /\ is_at f w) ->
  apart v w = apart (way ra dec) (way ra2 dec2).
Proof.
  intros s i s' H j k ra dec ra2 dec2 v w E F (f & Ef & If) (g & Eg & Ig). destruct (spin_inv _ _ _ H) as (lon & lat & lon2 & _ & _ & _ & ->).
  cbn [s_fields] in *. destruct (spun_at s lon lat lon2 j ra dec E) as (r & d & A & _ & _ & B).
  destruct (spun_at s lon lat lon2 k ra2 dec2 F) as (r2 & d2 & C & _ & _ & D).
  assert (f = (r, Some d)) by congruence. assert (g = (r2, Some d2)) by congruence. subst f g.
  destruct If as (x & Ex & ->), Ig as (y & Ey & ->). cbn in Ex, Ey. injection Ex as <-. injection Ey as <-. cbn [fst]. rewrite B, D. unfold apart. f_equal.
  apply (turn_iso lon lat lon2).
Qed.
(** It is no mirror image: three fields keep their handedness. *)
Lemma turn_hand : forall lon lat lon2 a b c, hand (turn lon lat lon2 a) (turn lon lat lon2 b) (turn lon lat lon2 c) = hand a b c.
Proof.
  assert (Z : forall t a b c, hand (rot_about_z a t) (rot_about_z b t) (rot_about_z c t) = hand a b c).
  { intros t a b c. unfold hand, rot_about_z, mapply, z_rotation_matrix, dot; simpl. pose proof (cs1 t) as K.
    transitivity ((cos t * cos t + sin t * sin t) * hand a b c); [unfold hand; ring|rewrite K; unfold hand; ring]. }
  assert (X : forall t a b c, hand (rot_about_x a t) (rot_about_x b t) (rot_about_x c t) = hand a b c).
  { intros t a b c. unfold hand, rot_about_x, mapply, x_rotation_matrix, dot; simpl. pose proof (cs1 t) as K.
    transitivity ((cos t * cos t + sin t * sin t) * hand a b c); [unfold hand; ring|rewrite K; unfold hand; ring]. }
  intros. unfold turn. now rewrite Z, X, Z.
Qed.
Theorem C139_hand : forall s i s', spin_fields s i = Ok s' ->
  forall j k l a b c u v w, nth_error (s_init s) j = Some a -> nth_error (s_init s) k = Some b -> nth_error (s_init s) l = Some c ->
  (exists f, nth_error (s_fields s') j = Some f /\ is_at f u) -> (exists f, nth_error (s_fields s') k = Some f /\ is_at f v) ->
  (exists f, nth_error (s_fields s') l = Some f /\ is_at f w) ->
  hand u v w = hand (way (fst a) (snd a)) (way (fst b) (snd b)) (way (fst c) (snd c)).
Proof.
  intros s i s' H j k l [ra dec] [ra2 dec2] [ra3 dec3] u v w E F G (f & Ef & If) (g & Eg & Ig) (h & Eh & Ih).
  destruct (spin_inv _ _ _ H) as (lon & lat & lon2 & _ & _ & _ & ->). cbn [s_fields fst snd] in *.
  destruct (spun_at s lon lat lon2 j ra dec E) as (r & d & A & _ & _ & B).
  destruct (spun_at s lon lat lon2 k ra2 dec2 F) as (r2 & d2 & C & _ & _ & D).
  destruct (spun_at s lon lat lon2 l ra3 dec3 G) as (r3 & d3 & I & _ & _ & J).
  assert (f = (r, Some d)) by congruence. assert (g = (r2, Some d2)) by congruence. assert (h = (r3, Some d3)) by congruence. subst f g h.
  destruct If as (x & Ex & ->), Ig as (y & Ey & ->), Ih as (z & Ez & ->). cbn in Ex, Ey, Ez. injection Ex as <-. injection Ey as <-. injection Ez as <-.
  cbn [fst]. rewrite B, D, J. apply turn_hand.
Qed.
(** Where the fields covered the sphere they cover it still: if every direction was within [r] of a field
    it is within [r] of one after. *)
Definition covers (fs : list (R * option R)) (r : R) : Prop :=
  forall p, inner p p = 1 -> exists f v, In f fs /\ is_at f v /\ apart v p <= r.
Lemma cover_turn : forall init lon lat lon2 r, covers (as_found init) r -> covers (map (spin1 lon lat lon2) init) r.
Proof.
  intros init lon lat lon2 r C p U. destruct (C (back lon lat lon2 p)) as (f & v & I & (d & Ed & ->) & L).
  { change (dot (back lon lat lon2 p) (back lon lat lon2 p) = 1). rewrite back_iso. exact U. }
  unfold as_found in I. apply in_map_iff in I. destruct I as ([ra dec] & <- & I). cbn in *. injection Ed as <-.
  destruct (spin1_ok lon lat lon2 ra dec) as (r' & d' & E & _ & _ & X). exists (r', Some d'), (way r' d'). split.
  { rewrite <- E. now apply in_map. } split; [exists d'; now split|].
  rewrite way_xyz, X. replace p with (turn lon lat lon2 (back lon lat lon2 p)) by apply turn_back.
  unfold apart in *. change inner with dot in *. rewrite turn_iso. now rewrite <- way_xyz.
Qed.
Theorem C139_cover : forall s i s' r, spin_fields s i = Ok s' -> covers (as_found (s_init s)) r -> covers (s_fields s') r.
Proof.
  intros s i s' r H C. destruct (spin_inv _ _ _ H) as (lon & lat & lon2 & _ & _ & _ & ->). apply cover_turn, C.
Qed.

(** A night is an index into the stored turns: within range, counted from the end when negative, the turn
    is always made; otherwise IndexError. *)
Theorem C139_index : forall s i, length (s_lat s) = length (s_lon s) -> length (s_lon2 s) = length (s_lon s) ->
  let n := Z.of_nat (length (s_lon s)) in
  ((- n <= i < n)%Z -> exists s', spin_fields s i = Ok s') /\ (~ (- n <= i < n)%Z -> spin_fields s i = Raise IndexError).
Proof.
  assert (A : forall l i, let n := Z.of_nat (length l) in ((- n <= i < n)%Z -> exists x : R, at_index l i = Ok x) /\
    (~ (- n <= i < n)%Z -> at_index l i = Raise IndexError)).
  { intros l i n. unfold at_index. fold n. split; intros H.
    - destruct (Z.ltb_spec i 0); [destruct (Z.ltb_spec (i + n) 0); [lia|]|destruct (Z.ltb_spec i 0); [lia|]].
      + destruct (nth_error l (Z.to_nat (i + n))) as [x|] eqn:E; [now exists x|]. apply nth_error_None in E. lia.
      + destruct (nth_error l (Z.to_nat i)) as [x|] eqn:E; [now exists x|]. apply nth_error_None in E. lia.
    - destruct (Z.ltb_spec i 0); [destruct (Z.ltb_spec (i + n) 0); [reflexivity|lia]|destruct (Z.ltb_spec i 0); [lia|]].
      destruct (nth_error l (Z.to_nat i)) as [x|] eqn:E; [|reflexivity]. exfalso.
      assert (Z.to_nat i < length l)%nat by (apply nth_error_Some; congruence). lia. }
  intros s i L1 L2 n. destruct (A (s_lon s) i) as [A1 B1]. destruct (A (s_lat s) i) as [A2 B2]. destruct (A (s_lon2 s) i) as [A3 B3].
  rewrite L1 in A2, B2. rewrite L2 in A3, B3. fold n in A1, B1, A2, B2, A3, B3. unfold Spin.spin_fields. split; intros H.
  - destruct (A1 H) as [a ->]. destruct (A2 H) as [b ->]. destruct (A3 H) as [c ->]. cbn [bind]. rewrite turned_ok. now eexists.
  - now rewrite (B1 H).
Qed.

(** A survey as its user meets it: made, then turned any number of times. *)
Inductive reach (s0 : sv) : sv -> Prop :=
| reach_made : reach s0 s0
| reach_spin : forall s i s', reach s0 s -> spin_fields s i = Ok s' -> reach s0 s'
| reach_too : forall s s', reach s0 s -> too_spin s = Ok s' -> reach s0 s'.
Lemma too_inv : forall s s', too_spin s = Ok s' -> exists s1, spin_fields s (Z.of_nat (s_next s)) = Ok s1 /\
  s' = mkSv (s_init s1) (s_fields s1) (s_h2f s1) (map (map (nearest (map vec_of (s_fields s1)))) corners) (s_lon s1) (s_lat s1) (s_lon2 s1) (S (s_next s)).
Proof.
  intros s s' H. unfold Spin.too_spin in H. destruct (spin_fields s (Z.of_nat (s_next s))) as [s1|] eqn:E; [|discriminate]. cbn [bind] in H.
  unfold hpcorners2fieldsetup in H. destruct (spin_inv _ _ _ E) as (lon & lat & lon2 & _ & _ & _ & F). exists s1. split; [reflexivity|].
  subst s1. cbn [s_fields s_init s_h2f s_lon s_lat s_lon2 s_next] in *. rewrite tree_spun in H. cbn [bind] in H. congruence.
Qed.
Lemma reach_same : forall s0 s, reach s0 s -> s_init s = s_init s0 /\ s_lon s = s_lon s0 /\ s_lat s = s_lat s0 /\ s_lon2 s = s_lon2 s0.
Proof.
  induction 1 as [|s i s' _ IH E|s s' _ IH E]; [tauto| |].
  - destruct (spin_inv _ _ _ E) as (a & b & c & _ & _ & _ & ->). exact IH.
  - destruct (too_inv _ _ E) as (s1 & F & ->). destruct (spin_inv _ _ _ F) as (a & b & c & _ & _ & _ & ->). exact IH.
Qed.
(** Turns do not add up: a turn starts from the first fields, so the fields depend on the index alone,
    whatever was done before. *)
Theorem C139_afresh : forall s0 s t i s' t', reach s0 s -> reach s0 t -> spin_fields s i = Ok s' -> spin_fields t i = Ok t' ->
  s_fields s' = s_fields t' /\ s_h2f s' = s_h2f t' /\ s_init s' = s_init s0.
Proof.
  intros s0 s t i s' t' Rs Rt Hs Ht. destruct (reach_same _ _ Rs) as (A & B & C & D). destruct (reach_same _ _ Rt) as (A' & B' & C' & D').
  destruct (spin_inv _ _ _ Hs) as (a & b & c & E1 & E2 & E3 & ->). destruct (spin_inv _ _ _ Ht) as (a' & b' & c' & F1 & F2 & F3 & ->).
  rewrite B in E1. rewrite B' in F1. rewrite C in E2. rewrite C' in F2. rewrite D in E3. rewrite D' in F3.
  assert (a = a') by congruence. assert (b = b') by congruence. assert (c = c') by congruence. subst. cbn [s_fields s_h2f s_init].
  rewrite A, A'. repeat split.
Qed.
(** The target of opportunity survey takes the stored turns one after the other and stops with IndexError
    when they are used up. *)
Theorem C139_too_next : forall s, length (s_lat s) = length (s_lon s) -> length (s_lon2 s) = length (s_lon s) ->
  ((s_next s < length (s_lon s))%nat -> exists s' s1, too_spin s = Ok s' /\ spin_fields s (Z.of_nat (s_next s)) = Ok s1 /\
     s_fields s' = s_fields s1 /\ s_next s' = S (s_next s)) /\
  ((length (s_lon s) <= s_next s)%nat -> too_spin s = Raise IndexError).
Proof.
  intros s L1 L2. destruct (C139_index s (Z.of_nat (s_next s)) L1 L2) as [A B]. split; intros H.
  - destruct A as [s1 E]; [lia|]. unfold Spin.too_spin. rewrite E. cbn [bind]. unfold hpcorners2fieldsetup.
    destruct (spin_inv _ _ _ E) as (a & b & c & _ & _ & _ & F). subst s1. cbn [s_fields]. rewrite tree_spun. cbn [bind].
    eexists. eexists. split; [reflexivity|]. split; [reflexivity|]. now split.
  - unfold Spin.too_spin. rewrite B by lia. reflexivity.
Qed.

(** Every pixel goes to a field no other field is nearer than, from the start and after any turns. *)
Definition goes_to (s : sv) (p : vec) (j : nat) : Prop := exists f v, nth_error (s_fields s) j = Some f /\ is_at f v /\
  forall g w, In g (s_fields s) -> is_at g w -> apart v p <= apart w p.
Lemma nearest_goes : forall s p, s_fields s <> [] -> inner p p = 1 -> (forall f, In f (s_fields s) -> snd f <> None) ->
  goes_to s p (nearest (map vec_of (s_fields s)) p).
Proof.
  intros s p N U A. destruct (nearest_dot _ p N U A) as (f & E & M). exists f, (vec_of f). split; [exact E|].
  assert (S : snd f <> None) by (apply A; eapply nth_error_In; exact E). split.
  - destruct f as [r [d|]]; [|now destruct S]. exists d. split; [reflexivity|]. unfold vec_of. cbn. now rewrite way_xyz.
  - intros g w I W. rewrite (is_at_vec _ _ W). apply apart_le; [apply (vec_of_unit f S)|exact U|apply (vec_of_unit g (A g I))|exact U|].
    exact (M g I).
Qed.
Lemma spun_some : forall a b c l f, In f (map (spin1 a b c) l) -> snd f <> None.
Proof.
  intros a b c l f I. apply in_map_iff in I. destruct I as ([ra dec] & <- & _). destruct (spin1_ok a b c ra dec) as (r & d & E & _). rewrite E. discriminate.
Qed.
Lemma reach_inv : forall fields c lsst comcam u1 u2 u3 s0 s, make fields c lsst comcam u1 u2 u3 = Ok s0 -> reach s0 s ->
  (forall f, In f (s_fields s) -> snd f <> None) /\ s_h2f s = map (nearest (map vec_of (s_fields s))) centres /\
  length (s_fields s) = length (s_init s0).
Proof.
  intros fields c lsst comcam u1 u2 u3 s0 s H. induction 1 as [|s i s' X IH E|s s' X IH E].
  - unfold Spin.make in H. destruct (first_fields fields c lsst comcam) as [fs|]; [|discriminate]. cbn [bind] in H.
    unfold hp2fieldsetup, hpcorners2fieldsetup in H. destruct (build_tree (as_found fs)) as [t|] eqn:T; [|discriminate].
    cbn [bind] in H. destruct (tree_ok _ _ T) as [-> A]. injection H as <-. cbn [s_fields s_h2f s_init]. split; [exact A|].
    split; [reflexivity|apply map_length].
  - destruct (reach_same _ _ X) as (I & _). destruct (spin_inv _ _ _ E) as (a & b & d & _ & _ & _ & ->). cbn [s_fields s_h2f]. split; [apply spun_some|].
    split; [reflexivity|]. now rewrite map_length, I.
  - destruct (reach_same _ _ X) as (I & _). destruct (too_inv _ _ E) as (s1 & F & ->). destruct (spin_inv _ _ _ F) as (a & b & d & _ & _ & _ & ->).
    cbn [s_fields s_h2f]. split; [apply spun_some|]. split; [reflexivity|]. now rewrite map_length, I.
Qed.
Theorem C139_nearest : forall fields c lsst comcam u1 u2 u3 s0 s, make fields c lsst comcam u1 u2 u3 = Ok s0 -> reach s0 s ->
  s_init s0 <> [] -> (forall p, In p centres -> inner p p = 1) ->
  length (s_h2f s) = length centres /\
  forall k p, nth_error centres k = Some p -> exists j, nth_error (s_h2f s) k = Some j /\ goes_to s p j.
Proof.
  intros fields c lsst comcam u1 u2 u3 s0 s H X N U. destruct (reach_inv _ _ _ _ _ _ _ _ _ H X) as (A & B & L). split.
  - rewrite B. apply map_length.
  - intros k p E. exists (nearest (map vec_of (s_fields s)) p). split; [rewrite B, nth_error_map, E; reflexivity|].
    apply nearest_goes; [|apply U; eapply nth_error_In; exact E|exact A]. intros Z. rewrite Z in L. destruct (s_init s0); [now apply N|discriminate].
Qed.

(** The target of opportunity survey points, for some pixels, at the fields nearest to their centres and
    corners, each once and no others. *)
Definition spot (i : option (list vec)) (k : nat) (p : vec) : Prop := exists l, i = Some l /\ nth_error l k = Some p.
Lemma in_ids : forall s pix z, In z (field_ids s pix) <->
  exists k ind, In k pix /\ (ind = s_h2f s \/ In ind (s_c2f s)) /\ z = Z.of_nat (nth k ind 0%nat).
Proof.
  intros s pix z. unfold field_ids. rewrite unique_sorted_in, in_app_iff, unique_sorted_in, in_map_iff, in_concat. split.
  - intros [(k & <- & I)|(l & I & J)].
    + exists k, (s_h2f s). repeat split; auto.
    + apply in_map_iff in I. destruct I as (ind & <- & I). rewrite unique_sorted_in, in_map_iff in J. destruct J as (k & <- & K).
      exists k, ind. repeat split; auto.
  - intros (k & ind & K & [->|I] & ->).
    + left. exists k. now split.
    + right. exists (unique_sorted (map (look ind) pix)). split; [apply in_map_iff; now exists ind|]. rewrite unique_sorted_in, in_map_iff. now exists k.
Qed.
Theorem C139_pointings : forall s s' pix, too_spin s = Ok s' -> s_init s <> [] ->
  (forall l p, l = centres \/ In l corners -> In p l -> inner p p = 1) ->
  (forall k l, In k pix -> l = centres \/ In l corners -> (k < length l)%nat) ->
  StronglySorted Z.lt (field_ids s' pix) /\
  (forall k l p, In k pix -> l = centres \/ In l corners -> nth_error l k = Some p ->
     exists j, In (Z.of_nat j) (field_ids s' pix) /\ goes_to s' p j) /\
  (forall z, In z (field_ids s' pix) -> exists j k l p, z = Z.of_nat j /\ In k pix /\ (l = centres \/ In l corners) /\
     nth_error l k = Some p /\ goes_to s' p j).
Proof.
  intros s s' pix H N U V. destruct (too_inv _ _ H) as (s1 & F & ->). destruct (spin_inv _ _ _ F) as (a & b & d & _ & _ & _ & ->).
  cbn [s_init s_fields s_h2f s_c2f s_lon s_lat s_lon2 s_next]. set (fs := map (spin1 a b d) (s_init s)).
  assert (Ne : fs <> []) by (unfold fs; destruct (s_init s); [congruence|discriminate]).
  assert (Sm : forall f, In f fs -> snd f <> None) by apply spun_some.
  match goal with |- StronglySorted _ (field_ids ?x _) /\ _ => set (s2 := x) end.
  assert (G : forall p, inner p p = 1 -> goes_to s2 p (nearest (map vec_of fs) p)) by (intros p Up; apply (nearest_goes s2); assumption).
  split; [unfold field_ids; induction (unique_sorted (map (look (s_h2f s2)) pix) ++ concat (map (fun ind => unique_sorted (map (look ind) pix)) (s_c2f s2))) as [|x l IH];
    [constructor|apply zins_sorted, IH]|]. split.
  - intros k l p K I E. exists (nearest (map vec_of fs) p). split; [|apply G; eapply U; [exact I|eapply nth_error_In; exact E]].
    apply in_ids. exists k, (map (nearest (map vec_of fs)) l). split; [exact K|]. split.
    + destruct I as [->|I]; [left; reflexivity|right]. unfold s2. cbn [s_c2f]. apply in_map_iff. now exists l.
    + f_equal. symmetry. apply nth_error_nth. now rewrite nth_error_map, E.
  - intros z Z. apply in_ids in Z. destruct Z as (k & ind & K & I & ->).
    assert (J : exists l, (l = centres \/ In l corners) /\ ind = map (nearest (map vec_of fs)) l).
    { destruct I as [->|I]; [exists centres; split; [now left|reflexivity]|]. unfold s2 in I. cbn [s_c2f] in I. apply in_map_iff in I.
      destruct I as (l & <- & I). exists l. split; [now right|reflexivity]. }
    destruct J as (l & Il & ->). destruct (nth_error l k) as [p|] eqn:E; [|apply nth_error_None in E; specialize (V k l K Il); lia].
    exists (nearest (map vec_of fs) p), k, l, p. split; [f_equal; apply nth_error_nth; now rewrite nth_error_map, E|]. repeat (split; [assumption|]).
    apply G. eapply U; [exact Il|eapply nth_error_In; exact E].
Qed.
(** So when the first fields cover the sphere to [r], every centre and corner asked for is within [r] of
    a pointing. *)
Theorem C139_reached : forall s s' pix r, too_spin s = Ok s' -> covers (as_found (s_init s)) r ->
  (forall l p, l = centres \/ In l corners -> In p l -> inner p p = 1) ->
  (forall k l, In k pix -> l = centres \/ In l corners -> (k < length l)%nat) ->
  forall k l p, In k pix -> l = centres \/ In l corners -> nth_error l k = Some p ->
  exists j f v, In (Z.of_nat j) (field_ids s' pix) /\ nth_error (s_fields s') j = Some f /\ is_at f v /\ apart v p <= r.
Proof.
  intros s s' pix r H C U V k l p K I E.
  assert (N : s_init s <> []). { intros Z. rewrite Z in C. destruct (C (Sphere.V 1 0 0)) as (f & v & [] & _). unfold inner. simpl. ring. }
  destruct (C139_pointings s s' pix H N U V) as (_ & A & _). destruct (A k l p K I E) as (j & Ij & f & v & Ef & If & M).
  exists j, f, v. repeat (split; [assumption|]). destruct (too_inv _ _ H) as (s1 & F & ->). pose proof (C139_cover _ _ _ r F C) as C1.
  cbn [s_fields] in *. destruct (C1 p) as (g & w & Ig & Wg & L); [eapply U; [exact I|eapply nth_error_In; exact E]|].
  specialize (M g w Ig Wg). lra.
Qed.

(** Making a survey: an angle beyond two pi in size is refused; and the fields are where they were given. *)
Theorem C139_made : forall fs c lsst comcam u1 u2 u3,
  ((exists f, In f fs /\ (2 * PI < Rabs (fst f) \/ 2 * PI < Rabs (snd f))) -> make (Some fs) c lsst comcam u1 u2 u3 = Raise ValueError) /\
  ((forall f, In f fs -> Rabs (fst f) <= 2 * PI /\ Rabs (snd f) <= 2 * PI) ->
   exists s, make (Some fs) c lsst comcam u1 u2 u3 = Ok s /\ s_init s = fs /\ s_fields s = map (fun f => (fst f, Some (snd f))) fs /\ s_next s = 0%nat).
Proof.
  intros. unfold Spin.make, first_fields. cbn [bind]. unfold hp2fieldsetup, hpcorners2fieldsetup, build_tree.
  assert (A : existsb (fun f : R * option R => match snd f with None => true | _ => false end) (as_found fs) = false).
  { unfold as_found. induction fs as [|f l IH]; [reflexivity|]. exact IH. }
  rewrite A. split.
  - intros (f & I & O). assert (B : existsb (fun f => not_radians (fst f) || match snd f with Some d => not_radians d | None => false end) (as_found fs) = true).
    { apply existsb_exists. exists (fst f, Some (snd f)). split; [unfold as_found; apply in_map_iff; now exists f|]. cbn [fst snd].
      unfold not_radians. destruct (Rlt_dec (2 * PI) (Rabs (fst f))), (Rlt_dec (2 * PI) (Rabs (snd f))); try reflexivity. lra. }
    now rewrite B.
  - intros O. assert (B : existsb (fun f => not_radians (fst f) || match snd f with Some d => not_radians d | None => false end) (as_found fs) = false).
    { apply not_true_is_false. intros T. apply existsb_exists in T. destruct T as (g & I & T). unfold as_found in I. apply in_map_iff in I.
      destruct I as (f & <- & I). destruct (O f I). cbn [fst snd] in T. unfold not_radians in T.
      destruct (Rlt_dec (2 * PI) (Rabs (fst f))), (Rlt_dec (2 * PI) (Rabs (snd f))); try lra; discriminate. }
    rewrite B. cbn [bind]. eexists. split; [reflexivity|]. repeat split.
Qed.
(** A camera of another name is not refused with the ValueError written for it. *)
Theorem C139_camera_refuted : forall lsst comcam u1 u2 u3, make None Other lsst comcam u1 u2 u3 = Raise AttributeError.
Proof. reflexivity. Qed.

(** Where the pole goes: with the stored numbers [u] for the tip and [w] for the last turn, the sine of the
    declination is 2 u - 1 (evenly spread over the sphere) and the right ascension a quarter turn past
    2 pi w. *)
Lemma pole_turn : forall lon lat lon2 ra, turn lon lat lon2 (way ra (PI / 2)) = way (lon2 + PI / 2) (PI / 2 - lat).
Proof.
  intros. unfold way. rewrite cos_PI2, sin_PI2, cos_shift, sin_shift.
  replace (cos (lon2 + PI / 2)) with (- sin lon2) by (rewrite cos_plus, cos_PI2, sin_PI2; ring).
  replace (sin (lon2 + PI / 2)) with (cos lon2) by (rewrite sin_plus, cos_PI2, sin_PI2; ring).
  unfold turn, rot_about_z, rot_about_x, mapply, z_rotation_matrix, x_rotation_matrix, dot.
  assert (C : cos (PI + lon2) = - cos lon2) by (rewrite cos_plus, cos_PI, sin_PI; ring).
  assert (D : sin (PI + lon2) = - sin lon2) by (rewrite sin_plus, cos_PI, sin_PI; ring).
  apply vec_eq; simpl; rewrite ?C, ?D; ring.
Qed.
Lemma at_map : forall (f : R -> R) l i y, at_index (map f l) i = Ok y -> exists x, at_index l i = Ok x /\ y = f x.
Proof.
  intros f l i y H. unfold at_index in *. rewrite map_length in H. destruct (i <? 0)%Z;
    match goal with |- context [(?j <? 0)%Z] => destruct (j <? 0)%Z; [discriminate|]; rewrite nth_error_map in H; destruct (nth_error l (Z.to_nat j)) as [x|]; [|discriminate] end;
    exists x; (split; [reflexivity|now injection H as <-]).
Qed.
Theorem C139_pole : forall s i s' k ra u1 u2 u3 f, s_lon s = turns_of u1 -> s_lat s = tips_of u2 -> s_lon2 s = turns_of u3 ->
  (forall x, In x u2 -> 0 <= x < 1) -> spin_fields s i = Ok s' ->
  nth_error (s_init s) k = Some (ra, PI / 2) -> nth_error (s_fields s') k = Some f ->
  exists u w d, at_index u2 i = Ok u /\ at_index u3 i = Ok w /\ snd f = Some d /\ sin d = 2 * u - 1 /\
  (0 < u -> exists n : Z, fst f = 2 * PI * w + PI / 2 + IZR n * (2 * PI)).
Proof.
  intros s i s' k ra u1 u2 u3 f L1 L2 L3 U H E F. destruct (spin_inv _ _ _ H) as (lon & lat & lon2 & A & B & C & ->). cbn [s_fields] in F.
  rewrite L2 in B. rewrite L3 in C. destruct (at_map _ _ _ _ B) as (u & Eu & ->). destruct (at_map _ _ _ _ C) as (w & Ew & ->).
  destruct (spun_at s lon (acos (2 * u - 1)) (w * PI * 2) k ra (PI / 2) E) as (r & d & F2 & Hr & Hd & X). assert (f = (r, Some d)) by congruence. subst f.
  exists u, w, d. split; [exact Eu|]. split; [exact Ew|]. split; [reflexivity|]. cbn [fst]. rewrite pole_turn in X.
  assert (Hu : 0 <= u < 1). { apply U. unfold at_index in Eu. destruct (i <? 0)%Z;
    match type of Eu with context [(?j <? 0)%Z] => destruct (j <? 0)%Z; [discriminate|]; destruct (nth_error u2 (Z.to_nat j)) as [x|] eqn:Q; [|discriminate] end;
    injection Eu as <-; eapply nth_error_In; exact Q. }
  assert (Z : sin d = 2 * u - 1). { injection X as _ _ Z. rewrite Z, sin_shift, cos_acos by lra. reflexivity. }
  split; [exact Z|]. intros Pu. assert (D : 0 < cos d).
  { assert (sin d * sin d < 1) by nra. pose proof (cs1 d). pose proof (cos_ge_0 d). assert (0 <= cos d) by (apply H2; lra). nra. }
  assert (Y : cos (PI / 2 - acos (2 * u - 1)) = cos d).
  { rewrite cos_shift, sin_acos by lra. rewrite <- Z. rewrite <- (sqrt_square (cos d)) by lra. f_equal. unfold Rsqr. pose proof (cs1 d). lra. }
  injection X as X1 X2 _. rewrite Y in X1, X2. apply Rmult_eq_reg_l in X1; [|lra]. apply Rmult_eq_reg_l in X2; [|lra].
  destruct (angle_congr _ _ X1 X2) as [n Hn]. exists n. lra.
Qed.
(** And some pair of numbers in [0, 1) takes it to any direction but the north pole itself. *)
Theorem C139_anywhere : forall ra dec, - (PI / 2) <= dec < PI / 2 -> exists u w, 0 <= u < 1 /\ 0 <= w < 1 /\
  forall lon ra0, let f := spin1 lon (acos (2 * u - 1)) (w * PI * 2) (ra0, PI / 2) in is_at f (way ra dec).
Proof.
  intros ra dec H. pose proof PI_RGT_0 as P. exists ((1 + sin dec) / 2), (Rmod (ra - PI / 2) (2 * PI) / (2 * PI)).
  assert (S : -1 <= sin dec < 1).
  { split; [apply SIN_bound|]. rewrite <- sin_PI2. apply sin_increasing_1; lra. }
  pose proof (Rmod_range (ra - PI / 2) (2 * PI) ltac:(lra)) as M. split; [lra|]. split.
  { split; [apply Rmult_le_pos; [lra|left; apply Rinv_0_lt_compat; lra]|]. apply Rmult_lt_reg_r with (2 * PI); [lra|]. unfold Rdiv.
    rewrite Rmult_assoc, Rinv_l by lra. lra. }
  intros lon ra0 f. unfold f. replace (2 * ((1 + sin dec) / 2) - 1) with (sin dec) by field.
  replace (Rmod (ra - PI / 2) (2 * PI) / (2 * PI) * PI * 2) with (Rmod (ra - PI / 2) (2 * PI)) by (field; lra).
  destruct (spin1_ok lon (acos (sin dec)) (Rmod (ra - PI / 2) (2 * PI)) ra0 (PI / 2)) as (r & d & E & _ & _ & X). rewrite E. exists d.
  split; [reflexivity|]. cbn [fst]. rewrite way_xyz with (ra := r), X, <- way_xyz, pole_turn.
  assert (A : acos (sin dec) = PI / 2 - dec). { rewrite <- cos_shift. apply acos_cos. lra. }
  rewrite A. replace (PI / 2 - (PI / 2 - dec)) with dec by ring. rewrite !way_xyz. apply xyz_congr.
  apply congr_sym. pose proof (Rmod_congr (ra - PI / 2) (2 * PI)) as Q. pose proof (congr_add _ _ _ _ _ Q (congr_refl (2 * PI) (PI / 2))) as Q2.
  now replace (ra - PI / 2 + PI / 2) with ra in Q2 by ring.
Qed.
(** Turning by nothing is not doing nothing: the fields go half way round. *)
Theorem C139_rest_refuted : forall ra dec, exists ra' dec', spin1 0 0 0 (ra, dec) = (ra', Some dec') /\ way ra' dec' = way (ra + PI) dec.
Proof.
  intros. destruct (spin1_ok 0 0 0 ra dec) as (r & d & E & _ & _ & X). exists r, d. split; [exact E|]. rewrite !way_xyz, X. unfold turn.
  now rewrite rot_z_0, rot_x_0, Rplus_0_r, rot_z_ra.
Qed.
End Any.
(** Two fields on opposite sides cover the sphere to a quarter turn, and so do they after a turn; a pixel
    on the equator and the pointing found for it. *)
Definition two : list (R * R) := [(0, 0); (PI, 0)].
Definition ahead : list vec := [V 1 0 0; V 0 0 1].
Definition sides : list (list vec) := [[V 0 1 0; V 0 1 0]; [V 0 0 1; V (-1) 0 0]].
Example C139_two_cover : covers (as_found two) (PI / 2).
Proof.
  intros p U. assert (B : -1 <= vx p <= 1). { unfold inner in U. pose proof (Rle_0_sqr (vy p)). pose proof (Rle_0_sqr (vz p)). unfold Rsqr in *. nra. }
  assert (A : forall x, 0 <= x <= 1 -> acos x <= PI / 2).
  { intros x Hx. pose proof PI_RGT_0. destruct (Rle_dec (acos x) (PI / 2)) as [L|L]; [exact L|]. pose proof (acos_bound x).
    pose proof (cos_lt_0 (acos x) ltac:(lra) ltac:(lra)) as Q. rewrite cos_acos in Q by lra. lra. }
  destruct (Rle_dec 0 (vx p)) as [L|L].
  - exists (0, Some 0), (way 0 0). split; [now left|]. split; [now exists 0|]. unfold apart, inner, way. simpl. rewrite cos_0, !sin_0.
    replace (1 * 1 * vx p + 1 * 0 * vy p + 0 * vz p) with (vx p) by ring. apply A. lra.
  - exists (PI, Some 0), (way PI 0). split; [right; now left|]. split; [now exists 0|]. unfold apart, inner, way. simpl. rewrite cos_0, sin_0, cos_PI, sin_PI.
    replace (1 * -1 * vx p + 1 * 0 * vy p + 0 * vz p) with (- vx p) by ring. apply A. lra.
Qed.
Example C139_survey_ex : exists s0 s1 s2, make ahead sides (Some two) Other [] [] [0; 1 / 4] [1 / 2; 1 / 8] [0; 3 / 4] = Ok s0 /\
  spin_fields ahead s0 (-1) = Ok s1 /\ reach ahead sides s0 s1 /\ too_spin ahead sides s1 = Ok s2 /\ s_next s2 = 1%nat /\
  spin_fields ahead s0 2 = Raise IndexError /\
  (forall l p, l = ahead \/ In l sides -> In p l -> inner p p = 1) /\
  (forall k l, In k [0%nat; 1%nat] -> l = ahead \/ In l sides -> (k < length l)%nat) /\
  exists j f v, In (Z.of_nat j) (field_ids s2 [0%nat; 1%nat]) /\ nth_error (s_fields s2) j = Some f /\ is_at f v /\ apart v (V (-1) 0 0) <= PI / 2.
Proof.
  pose proof PI_RGT_0 as P. destruct (C139_made ahead sides two Other [] [] [0; 1 / 4] [1 / 2; 1 / 8] [0; 3 / 4]) as [_ M].
  destruct M as (s0 & E & I & _ & N).
  { intros f [<-|[<-|[]]]; cbn [fst snd]; rewrite ?Rabs_R0; [lra|]. rewrite (Rabs_right PI) by lra. lra. }
  assert (L : s_lon s0 = turns_of [0; 1 / 4] /\ s_lat s0 = tips_of [1 / 2; 1 / 8] /\ s_lon2 s0 = turns_of [0; 3 / 4]).
  { revert E. unfold make, first_fields. cbn [bind]. destruct (hp2fieldsetup ahead (as_found two)); [|discriminate]. cbn [bind].
    destruct (hpcorners2fieldsetup sides (as_found two)); [|discriminate]. cbn [bind]. intros E. injection E as <-. repeat split. }
  destruct L as (L1 & L2 & L3). destruct (C139_index ahead s0 (-1)) as [S1 _]; [rewrite L1, L2; reflexivity|rewrite L1, L3; reflexivity|].
  destruct S1 as [s1 F]; [rewrite L1; cbn; lia|]. assert (X : reach ahead sides s0 s1) by (eapply reach_spin; [constructor|exact F]).
  destruct (reach_same _ _ _ _ X) as (A & B & C & D). assert (N1 : s_next s1 = 0%nat).
  { destruct (spin_inv _ _ _ _ F) as (a & b & c & _ & _ & _ & ->). exact N. }
  destruct (C139_too_next ahead sides s1) as [T _]; [rewrite B, C, L1, L2; reflexivity|rewrite B, D, L1, L3; reflexivity|].
  destruct T as (s2 & s2' & T & _ & _ & N2); [rewrite N1, B, L1; cbn; lia|]. exists s0, s1, s2. split; [exact E|]. split; [exact F|]. split; [exact X|].
  split; [exact T|]. split; [congruence|]. split.
  { destruct (C139_index ahead s0 2) as [_ Q]; [rewrite L1, L2; reflexivity|rewrite L1, L3; reflexivity|]. apply Q. rewrite L1. cbn. lia. }
  assert (U : forall l p, l = ahead \/ In l sides -> In p l -> inner p p = 1).
  { intros l p [->|[<-|[<-|[]]]] [<-|[<-|[]]]; unfold inner; simpl; ring. }
  assert (W : forall k l, In k [0%nat; 1%nat] -> l = ahead \/ In l sides -> (k < length l)%nat).
  { intros k l [<-|[<-|[]]] [->|[<-|[<-|[]]]]; cbn; lia. }
  split; [exact U|]. split; [exact W|].
  apply (C139_reached ahead sides s1 s2 [0%nat; 1%nat] (PI / 2) T) with (k := 1%nat) (l := [V 0 0 1; V (-1) 0 0]); try assumption.
  - rewrite A, I. apply C139_two_cover.
  - right; now left.
  - right; right; now left.
  - reflexivity.
Qed.
(** The pole of a tessellation, tipped by a quarter turn, lies on the equator. *)
Example C139_pole_ex : forall lon, exists ra d, spin1 lon (acos (2 * (1 / 2) - 1)) (0 * PI * 2) (0, PI / 2) = (ra, Some d) /\ way ra d = V 0 1 0.
Proof.
  intros. destruct (spin1_ok lon (acos (2 * (1 / 2) - 1)) (0 * PI * 2) 0 (PI / 2)) as (r & d & E & _ & _ & X). exists r, d. split; [exact E|].
  rewrite way_xyz, X, <- way_xyz, pole_turn. replace (2 * (1 / 2) - 1) with 0 by field. rewrite acos_0. unfold way.
  replace (PI / 2 - PI / 2) with 0 by ring. replace (0 * PI * 2 + PI / 2) with (PI / 2) by ring. rewrite cos_0, sin_0, cos_PI2, sin_PI2. apply vec_eq; simpl; ring.
Qed.
Print Assumptions C139_turn.
Print Assumptions C139_rigid.
Print Assumptions C139_hand.
Print Assumptions C139_cover.
Print Assumptions C139_index.
Print Assumptions C139_afresh.
Print Assumptions C139_too_next.
Print Assumptions C139_nearest.
Print Assumptions C139_pointings.
Print Assumptions C139_reached.
Print Assumptions C139_made.
Print Assumptions C139_camera_refuted.
Print Assumptions C139_pole.
Print Assumptions C139_anywhere.
Print Assumptions C139_rest_refuted.
