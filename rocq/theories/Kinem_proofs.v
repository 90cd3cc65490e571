(** Proofs about the kinematic model. *)
From Coq Require Import List Reals Lra Lia String Bool ZArith.
From Verif Require Import Base Angles Jerk Jerk_proofs Kinem.
Import ListNotations.
Open Scope R_scope.

Section Kin.
Variable E : conv.
Variable P : cfg.

(** Target coordinates of a slew. *)
Definition to_alt (a : slew_args) : R := let '(alt, _, _, _, _) := dest E a in alt.
Definition to_az (a : slew_args) : R := let '(_, az, _, _, _) := dest E a in az.
Definition to_pa (a : slew_args) : R := let '(_, _, pa, _, _) := dest E a in pa.
Definition to_ra (a : slew_args) : R := let '(_, _, _, ra, _) := dest E a in ra.
Definition to_dec (a : slew_args) : R := let '(_, _, _, _, dec) := dest E a in dec.
Definition from_az (s : kin) (a : slew_args) : R := let '(_, az, _) := origin E P s a in az.
Definition from_alt (s : kin) (a : slew_args) : R := let '(alt, _, _) := origin E P s a in alt.
Definition from_pa (s : kin) (a : slew_args) : option R := let '(_, _, pa) := origin E P s a in pa.
Definition rot_of (a : slew_args) : option R := snd (rotation E a (to_pa a)).
Definition rotsky_of (a : slew_args) : option R := fst (rotation E a (to_pa a)).

(** The slew is possible: mounted band, altitude and rotator inside their
    limits, azimuth reachable. *)
Definition possible (s : kin) (a : slew_args) : Prop :=
  band_ok s a = true /\
  telalt_min P <= to_alt a <= telalt_max P /\
  (forall rt, rot_of a = Some rt -> telrot_min P <= rt <= telrot_max P) /\
  aztel P (k_cum s) (from_az s a) (to_az a) <> None.

(** State after a successful tracking slew. *)
Definition moved (s : kin) (a : slew_args) : kin :=
  mkKin false (to_ra a) (to_dec a) (rotsky_of a)
    (if wraps P then match aztel P (k_cum s) (from_az s a) (to_az a) with Some d => k_cum s + d | None => k_cum s end
     else to_az a)
    (to_az a) (to_alt a) (rot_of a) (k_overhead s) (band_of s a) (k_start_band s) (k_mounted s).

Lemma omax_some : forall x y t, omax x y = Some t <-> exists a b, x = Some a /\ y = Some b /\ t = Rmax a b.
Proof.
  intros [x|] [y|] t; cbn; split; try discriminate; try (intros (a & b & H1 & H2 & H3); congruence).
  - intros [= <-]. eauto.
Qed.
Lemma oadd_some : forall x y t, oadd x y = Some t <-> exists a, x = Some a /\ t = a + y.
Proof.
  intros [x|] y t; cbn; split; try discriminate; try (intros (a & H1 & H2); congruence).
  - intros [= <-]. eauto.
Qed.

(** Everything a slew can do. *)
Lemma slew_spec : forall s a, exists r, slew_times E P s a = (match r with Ok (Some _) => if a_update a then moved s a else s | _ => s end, r) /\
  (forall t, r = Ok (Some t) -> possible s a /\
     (0 <= band_changetime P -> 0 <= cl_delay P -> (forall d, 0 <= d -> 0 <= jt (telrot P) d) -> k_overhead s <= t)) /\
  (possible s a -> (forall rt, rot_of a = Some rt -> exists c, current_rot E s a (from_pa s a) = Ok c) ->
     exists t, r = Ok (Some t)) /\
  ((forall rt, rot_of a = Some rt -> exists c, current_rot E s a (from_pa s a) = Ok c) -> exists t, r = Ok t).
Proof.
  intros s a. unfold slew_times, possible, moved, rot_of, rotsky_of, to_alt, to_az, to_pa, to_ra, to_dec, from_az, from_pa.
  destruct (band_ok s a) eqn:BO; cbn [negb].
  2:{ exists (Ok None). repeat split; try discriminate; try (intros; eexists; reflexivity).
      intros (K & _). discriminate. }
  destruct (dest E a) as [[[[alt az] pa] ra] dec] eqn:ED.
  destruct (rotation E a pa) as [rotsky rottel] eqn:ER. cbn [fst snd].
  destruct (origin E P s a) as [[salt saz] spa] eqn:EO.
  set (dalt := Rabs (alt - salt)). set (daz := aztel P (k_cum s) saz az).
  set (dt := dome_time P (a_lax a) dalt (Rabs (smallest_signed_angle saz az))).
  set (t := omax (tel_time P (k_overhead s) dalt daz) (Some dt)).
  assert (T0 : forall x, t = Some x -> daz <> None /\ k_overhead s <= x).
  { intros x H. unfold t in H. apply omax_some in H. destruct H as (p & q & H1 & [= <-] & ->).
    unfold tel_time in H1. apply omax_some in H1. destruct H1 as (u & w & [= <-] & H2 & ->). split.
    - destruct daz; [discriminate|]. cbn in H2. discriminate.
    - eapply Rle_trans; [apply Rmax_l|apply Rmax_l]. }
  assert (T1 : daz <> None -> exists x, t = Some x).
  { intros H. destruct daz as [d|]; [|contradiction]. unfold t, tel_time. cbn.
    match goal with |- context [Rlt_dec 0 ?x] => destruct (Rlt_dec 0 x) end; cbn; eauto. }
  set (change := negb (String.eqb (band_of s a) (k_band s))).
  (* rotator *)
  set (lim := fun rt => if Rlt_dec rt (telrot_min P) then None else if Rlt_dec (telrot_max P) rt then None else t).
  set (rot := match rottel with None => Ok (t, None) | Some rt => _ end).
  assert (ROT : (exists e, rot = Raise e /\ exists rt, rottel = Some rt /\ forall c, current_rot E s a spa <> Ok c) \/
     (exists t2 cur, rot = Ok (t2, cur) /\
        (forall x, t2 = Some x -> exists y, t = Some y /\ y <= x /\ (forall rt, rottel = Some rt -> telrot_min P <= rt <= telrot_max P)) /\
        ((forall rt, rottel = Some rt -> telrot_min P <= rt <= telrot_max P) -> t <> None -> t2 <> None))).
  { unfold rot. destruct rottel as [rt|].
    - destruct (current_rot E s a spa) as [cur|e] eqn:EC; cbn [bind].
      + right. eexists _, _. split; [reflexivity|]. split.
        * intros x H. apply omax_some in H. destruct H as (p & q & H1 & [= <-] & ->).
          destruct (Rlt_dec rt (telrot_min P)); [discriminate|]. destruct (Rlt_dec (telrot_max P) rt); [discriminate|].
          exists p. split; [exact H1|]. split; [apply Rmax_l|]. intros rt' [= <-]. lra.
        * intros H N. specialize (H rt eq_refl).
          destruct (Rlt_dec rt (telrot_min P)); [lra|]. destruct (Rlt_dec (telrot_max P) rt); [lra|].
          destruct t; [discriminate|contradiction].
      + left. exists e. split; [reflexivity|]. exists rt. split; [reflexivity|]. intros c. discriminate.
    - right. exists t, None. split; [reflexivity|]. split; [|intros; assumption].
      intros x H. exists x. split; [exact H|]. split; [lra|]. discriminate. }
  destruct ROT as [(e & ER1 & rt & Hrt & NC)|(t2 & cur & ER1 & R1 & R2)]; rewrite ER1.
  { exists (Raise e). repeat split; try discriminate.
    - intros _ H. destruct (H rt Hrt) as (c & Hc). elim (NC c Hc).
    - intros H. destruct (H rt Hrt) as (c & Hc). elim (NC c Hc). }
  set (t3 := if k_parked s then t2 else if change then _ else t2).
  assert (T3 : forall x, t3 = Some x -> exists y, t2 = Some y /\ (0 <= band_changetime P -> (forall d, 0 <= d -> 0 <= jt (telrot P) d) -> y <= x)).
  { intros x. unfold t3. destruct (k_parked s); [intros H; exists x; split; [exact H|lra]|].
    destruct change; [|intros H; exists x; split; [exact H|lra]].
    set (bct := match a_const a with true => _ | false => _ end).
    assert (BC : 0 <= band_changetime P -> (forall d, 0 <= d -> 0 <= jt (telrot P) d) -> 0 <= bct).
    { intros B1 B2. unfold bct. destruct (a_const a); [exact B1|]. destruct cur as [[c rt]|]; [|exact B1].
      unfold better_band_changetime.
      pose proof (B2 _ (Rabs_pos (smallest_signed_angle c 0))). pose proof (B2 _ (Rabs_pos (smallest_signed_angle 0 rt))). lra. }
    destruct (a_while a); intros H.
    - apply omax_some in H. destruct H as (p & q & H1 & [= <-] & ->). exists p. split; [exact H1|]. intros. apply Rmax_l.
    - apply oadd_some in H. destruct H as (p & H1 & ->). exists p. split; [exact H1|]. intros B1 B2. specialize (BC B1 B2). lra. }
  assert (T3' : t2 <> None -> t3 <> None).
  { intros H. unfold t3. destruct (k_parked s); [exact H|]. destruct change; [|exact H].
    destruct t2; [|contradiction]. destruct (a_while a); cbn; discriminate. }
  set (t4 := if Rle_dec (cl_limit P) dalt then oadd t3 (cl_delay P) else t3).
  assert (T4 : forall x, t4 = Some x -> exists y, t3 = Some y /\ (0 <= cl_delay P -> y <= x)).
  { intros x. unfold t4. destruct (Rle_dec (cl_limit P) dalt).
    - intros H. apply oadd_some in H. destruct H as (p & H1 & ->). exists p. split; [exact H1|]. lra.
    - intros H. exists x. split; [exact H|lra]. }
  assert (T4' : t3 <> None -> t4 <> None).
  { intros H. unfold t4. destruct (Rle_dec (cl_limit P) dalt); [|exact H]. destruct t3; [discriminate|contradiction]. }
  set (t5 := if Rlt_dec (telalt_max P) alt then None else if Rlt_dec alt (telalt_min P) then None else t4).
  assert (T5 : forall x, t5 = Some x -> t4 = Some x /\ telalt_min P <= alt <= telalt_max P).
  { intros x. unfold t5. destruct (Rlt_dec (telalt_max P) alt); [discriminate|]. destruct (Rlt_dec alt (telalt_min P)); [discriminate|].
    intros H. split; [exact H|lra]. }
  assert (T5' : telalt_min P <= alt <= telalt_max P -> t4 <> None -> t5 <> None).
  { intros H N. unfold t5. destruct (Rlt_dec (telalt_max P) alt); [lra|]. destruct (Rlt_dec alt (telalt_min P)); [lra|]. exact N. }
  exists (Ok t5). split; [|split; [|split]].
  - destruct t5 as [x|]; [|reflexivity]. destruct (a_update a); reflexivity.
  - intros x [= H]. destruct (T5 x H) as (H4 & HA). destruct (T4 x H4) as (y & H3 & L3).
    destruct (T3 y H3) as (z & H2 & L2). destruct (R1 z H2) as (w & H1 & L1 & HR). destruct (T0 w H1) as (N0 & L0).
    split; [repeat split; try tauto; try apply HA; intros; now apply HR|].
    intros B1 B2 B3. specialize (L2 B1 B3). specialize (L3 B2). lra.
  - intros (_ & HA & HR & HZ) _. destruct t5 as [x|] eqn:E5; [eauto|exfalso]. apply (T5' HA); [|reflexivity].
    apply T4', T3', R2; [exact HR|]. destruct (T1 HZ) as (x & Hx). rewrite Hx. discriminate.
  - intros _. eauto.
Qed.

(** ** Azimuth choice *)
Lemma in_limits_iff : forall c, in_limits P c = true <-> telaz_min P <= c <= telaz_max P.
Proof.
  intros. unfold in_limits, Rltb. destruct (Rlt_dec c (telaz_min P)), (Rlt_dec (telaz_max P) c); cbn; split; intros; try discriminate; try lra; auto.
Qed.
Lemma in_limits_not : forall c, in_limits P c = false -> ~ telaz_min P <= c <= telaz_max P.
Proof. intros c H K. apply in_limits_iff in K. congruence. Qed.

Definition long_of (short : R) : R := if Rlt_dec short 0 then two_pi + short else short - two_pi.
Lemma long_congr : forall x, congr two_pi (long_of x) x.
Proof. intros. unfold long_of. destruct (Rlt_dec x 0); [apply congr_turn'|apply congr_turn]. Qed.

Lemma aztel_sound : forall cum start az d, aztel_wrap P cum start az = Some d ->
  congr two_pi d (az - start) /\ telaz_min P <= cum + d <= telaz_max P.
Proof.
  intros cum start az d. unfold aztel_wrap. set (sh := smallest_signed_angle start az).
  fold (long_of sh). pose proof (ssa_congr start az) as CS. fold sh in CS.
  assert (CL : congr two_pi (long_of sh) (az - start)) by (eapply congr_trans; [apply long_congr|exact CS]).
  destruct (in_limits P (sh + cum)) eqn:IS, (in_limits P (long_of sh + cum)) eqn:IL;
  rewrite ?in_limits_iff in *; try destruct (Rlt_dec (Rabs sh) (Rabs (long_of sh))); intros [= <-]; (split; [assumption|lra]).
Qed.

(** The chosen move is no longer than any allowed one. *)
Lemma aztel_shortest : forall cum start az x, telaz_min P <= cum <= telaz_max P ->
  congr two_pi x (az - start) -> telaz_min P <= cum + x <= telaz_max P ->
  exists d, aztel_wrap P cum start az = Some d /\ Rabs d <= Rabs x.
Proof.
  intros cum start az x HC CX LX. unfold aztel_wrap. set (sh := smallest_signed_angle start az). fold (long_of sh).
  pose proof (ssa_range start az) as SR. fold sh in SR. pose proof (ssa_minimal start az x CX) as SM. fold sh in SM.
  pose proof PI_RGT_0. assert (CS : congr two_pi x sh).
  { eapply congr_trans; [exact CX|apply congr_sym, ssa_congr]. }
  destruct CS as (k & EX).
  assert (SL : Rabs sh <= Rabs (long_of sh)).
  { unfold long_of, two_pi. destruct (Rlt_dec sh 0).
    - rewrite (Rabs_left sh), (Rabs_pos_eq (2 * PI + sh)) by lra. lra.
    - rewrite (Rabs_pos_eq sh), (Rabs_left (sh - 2 * PI)) by lra. lra. }
  assert (KC : k = 0%Z \/ (Rabs (long_of sh) <= Rabs x /\ telaz_min P <= cum + long_of sh <= telaz_max P) \/
     telaz_min P <= cum + sh <= telaz_max P).
  { destruct (Z.lt_trichotomy k 0) as [K|[K|K]]; [|now left|].
    - (* x below sh *)
      assert (KR : IZR k <= -1) by (apply IZR_le; lia).
      assert (XL : x <= sh - two_pi) by (rewrite EX; unfold two_pi in *; nra).
      destruct (Rlt_dec sh 0) as [N|N].
      + right. right. split; [|lra]. unfold two_pi in *. lra.
      + right. left. unfold long_of. destruct (Rlt_dec sh 0); [contradiction|]. unfold two_pi in *.
        rewrite !Rabs_left by lra. lra.
    - assert (KR : 1 <= IZR k) by (apply IZR_le; lia).
      assert (XL : two_pi + sh <= x) by (rewrite EX; unfold two_pi in *; nra).
      destruct (Rlt_dec sh 0) as [N|N].
      + right. left. unfold long_of. destruct (Rlt_dec sh 0); [|contradiction]. unfold two_pi in *.
        rewrite !Rabs_pos_eq by lra. lra.
      + right. right. split; [lra|]. unfold two_pi in *. lra. }
  assert (KX : k = 0%Z -> x = sh) by (intros ->; rewrite EX; ring).
  destruct (in_limits P (sh + cum)) eqn:IS, (in_limits P (long_of sh + cum)) eqn:IL.
  - destruct (Rlt_dec (Rabs sh) (Rabs (long_of sh))); eexists; (split; [reflexivity|lra]).
  - eexists; split; [reflexivity|lra].
  - apply in_limits_not in IS. eexists; split; [reflexivity|].
    destruct KC as [K|[[K _]|K]]; [|exact K|lra]. rewrite (KX K) in LX. lra.
  - apply in_limits_not in IS. apply in_limits_not in IL. exfalso.
    destruct KC as [K|[[_ K]|K]]; [|lra|lra]. rewrite (KX K) in LX. lra.
Qed.

(** With at least a full turn of range every azimuth is reachable. *)
Lemma aztel_total : forall cum start az, telaz_min P <= cum <= telaz_max P -> two_pi <= telaz_max P - telaz_min P ->
  aztel_wrap P cum start az <> None.
Proof.
  intros cum start az HC HR. set (sh := smallest_signed_angle start az).
  pose proof (ssa_range start az) as SR. fold sh in SR. pose proof PI_RGT_0.
  assert (K : exists x, congr two_pi x (az - start) /\ telaz_min P <= cum + x <= telaz_max P).
  { pose proof (ssa_congr start az) as CS. fold sh in CS. unfold two_pi in *.
    destruct (Rle_dec (telaz_min P) (cum + sh)).
    - destruct (Rle_dec (cum + sh) (telaz_max P)); [exists sh; auto|].
      exists (sh - 2 * PI). split; [eapply congr_trans; [apply congr_turn|exact CS]|lra].
    - exists (2 * PI + sh). split; [eapply congr_trans; [apply congr_turn'|exact CS]|lra]. }
  destruct K as (x & CX & LX). destruct (aztel_shortest cum start az x HC CX LX) as (d & -> & _). discriminate.
Qed.

(** Restricted range. *)
Lemma restricted_iff : forall start az, aztel_restricted P start az <> None <->
  Rmod (az - telaz_min P) two_pi <= Rmod (telaz_max P - telaz_min P) two_pi.
Proof. intros. unfold aztel_restricted. destruct (Rlt_dec _ _); split; intros; try congruence; try lra; contradiction. Qed.

(** ** Invariants over runs *)
Lemma slew_fst : forall s a, fst (slew_times E P s a) = s \/
  (a_update a = true /\ possible s a /\ fst (slew_times E P s a) = moved s a /\ exists t, snd (slew_times E P s a) = Ok (Some t)).
Proof.
  intros s a. destruct (slew_spec s a) as (r & -> & H1 & _). cbn [fst snd].
  destruct r as [[t|]|e]; [|now left|now left]. destruct (a_update a); [|now left].
  right. split; [reflexivity|]. split; [apply (H1 t eq_refl)|]. eauto.
Qed.

Definition obs_args (v : visit) (mjd : R) (r : option R) (l w : bool) : slew_args :=
  mkSlew (v_ra v) (v_dec v) mjd (Some (v_rotsky v)) r (Some (v_band v)) l w true None None None true.

Definition with_overhead (s : kin) (o : R) : kin :=
  mkKin (k_parked s) (k_ra s) (k_dec s) (k_rotsky s) (k_cum s) (k_az s) (k_alt s) (k_rottel s) o (k_band s)
        (k_start_band s) (k_mounted s).

Lemma observe_eq : forall s v m r l w, observe E P s v m r l w =
  match snd (slew_times E P s (obs_args v m r l w)) with
  | Raise e => (fst (slew_times E P s (obs_args v m r l w)), Raise e)
  | Ok None => (fst (slew_times E P s (obs_args v m r l w)), Ok (None, visit_time P v))
  | Ok (Some t) => (with_overhead (fst (slew_times E P s (obs_args v m r l w))) (Rmax (readtime P) (shutter_stall P v)),
                    Ok (Some t, visit_time P v))
  end.
Proof.
  intros. unfold observe. fold (obs_args v m r l w). destruct (slew_times E P s (obs_args v m r l w)) as [s1 [[t|]|e]]; reflexivity.
Qed.

Lemma observe_spec : forall s v m r l w,
  (exists t, observe E P s v m r l w =
     (with_overhead (moved s (obs_args v m r l w)) (Rmax (readtime P) (shutter_stall P v)), Ok (Some t, visit_time P v)) /\
     possible s (obs_args v m r l w) /\ slew_times E P s (obs_args v m r l w) = (moved s (obs_args v m r l w), Ok (Some t)))
  \/ (fst (observe E P s v m r l w) = s /\ (snd (observe E P s v m r l w) = Ok (None, visit_time P v) \/
      exists e, snd (observe E P s v m r l w) = Raise e)).
Proof.
  intros. rewrite observe_eq. destruct (slew_spec s (obs_args v m r l w)) as (x & -> & H1 & _). cbn [fst snd].
  destruct x as [[t|]|e]; cbn [obs_args a_update].
  - left. exists t. split; [reflexivity|]. split; [apply (H1 t eq_refl)|reflexivity].
  - right. split; [reflexivity|now left].
  - right. split; [reflexivity|right; eexists; reflexivity].
Qed.

Lemma mount_keeps : forall s l, let s' := fst (mount_bands s l) in
  k_parked s' = k_parked s /\ k_cum s' = k_cum s /\ k_az s' = k_az s /\ k_alt s' = k_alt s /\ k_overhead s' = k_overhead s /\
  k_ra s' = k_ra s /\ k_dec s' = k_dec s /\ k_rotsky s' = k_rotsky s /\ k_rottel s' = k_rottel s /\ k_mounted s' = l.
Proof.
  intros s l. unfold mount_bands. destruct (existsb _ l); destruct (existsb _ l); destruct (rev l); cbn; repeat split.
Qed.

(** An invariant preserved by successful slews, park and mounts holds of runs. *)
Lemma krun_inv : forall (I : kin -> Prop),
  (forall s a, I s -> possible s a -> I (moved s a)) ->
  (forall s o, I s -> I (with_overhead s o)) ->
  (forall s, I s -> I (park P s)) ->
  (forall s l, I s -> I (fst (mount_bands s l))) ->
  forall l s, I s -> I (krun E P s l).
Proof.
  intros I Hm Ho Hp Hb. induction l as [|o l IH]; intros s H; [exact H|]. cbn. apply IH. destruct o; cbn [kstep].
  - destruct (slew_fst s a) as [->|(_ & Q & -> & _)]; auto.
  - destruct (observe_spec s v mjd rottel lax whl) as [(t & -> & Q & _)|[-> _]]; cbn; auto.
  - auto.
  - auto.
Qed.

Lemma cum_in_limits : wraps P = true -> telaz_min P <= 0 <= telaz_max P ->
  forall l s, telaz_min P <= k_cum s <= telaz_max P -> telaz_min P <= k_cum (krun E P s l) <= telaz_max P.
Proof.
  intros W H0. apply (krun_inv (fun s => telaz_min P <= k_cum s <= telaz_max P)).
  - intros s a H (_ & _ & _ & N). cbn. unfold aztel in *. rewrite W in *.
    destruct (aztel_wrap P (k_cum s) (from_az s a) (to_az a)) as [d|] eqn:ED; [|contradiction].
    now apply aztel_sound in ED.
  - intros s o H. exact H.
  - intros s _. cbn. lra.
  - intros s l H. destruct (mount_keeps s l) as (_ & -> & _). exact H.
Qed.

Lemma cum_restricted : wraps P = false ->
  Rmod (0 - telaz_min P) two_pi <= Rmod (telaz_max P - telaz_min P) two_pi ->
  forall l s, Rmod (k_cum s - telaz_min P) two_pi <= Rmod (telaz_max P - telaz_min P) two_pi ->
  Rmod (k_cum (krun E P s l) - telaz_min P) two_pi <= Rmod (telaz_max P - telaz_min P) two_pi.
Proof.
  intros W H0. apply (krun_inv (fun s => Rmod (k_cum s - telaz_min P) two_pi <= Rmod (telaz_max P - telaz_min P) two_pi)).
  - intros s a H (_ & _ & _ & N). cbn. unfold aztel in *. rewrite W in *. now apply restricted_iff in N.
  - intros s o H. exact H.
  - intros s _. exact H0.
  - intros s l H. destruct (mount_keeps s l) as (_ & -> & _). exact H.
Qed.

(** ** C25: what the cumulative azimuth tracks *)
(** Tracking drift seen by a slew: how far the azimuth has moved since the last
    slew ended (0 if the slew does not happen). *)
Definition slews (s : kin) (a : slew_args) : bool :=
  match snd (slew_times E P s a) with Ok (Some _) => a_update a | _ => false end.
Definition step_drift (s : kin) (o : kop) (D : R) : R :=
  match o with
  | KSlew a => if slews s a then D + (from_az s a - k_az s) else D
  | KObserve v m r l w => if slews s (obs_args v m r l w) then D + (from_az s (obs_args v m r l w) - k_az s) else D
  | KPark => 0
  | KMount _ => D
  end.
Fixpoint drift (s : kin) (l : list kop) (D : R) : R :=
  match l with [] => D | o :: l => drift (kstep E P s o) l (step_drift s o D) end.

Lemma moved_congr : wraps P = true -> forall s a D, possible s a ->
  congr two_pi (k_cum s) (k_az s - park_az P - D) ->
  congr two_pi (k_cum (moved s a)) (k_az (moved s a) - park_az P - (D + (from_az s a - k_az s))).
Proof.
  intros W s a D (_ & _ & _ & N) H. cbn. unfold aztel in *. rewrite W in *.
  destruct (aztel_wrap P (k_cum s) (from_az s a) (to_az a)) as [d|] eqn:ED; [|contradiction].
  apply aztel_sound in ED. destruct ED as [C _].
  replace (to_az a - park_az P - (D + (from_az s a - k_az s)))
    with ((k_az s - park_az P - D) + (to_az a - from_az s a)) by ring.
  now apply congr_add.
Qed.

Lemma cum_drift : wraps P = true -> forall l s D,
  congr two_pi (k_cum s) (k_az s - park_az P - D) ->
  congr two_pi (k_cum (krun E P s l)) (k_az (krun E P s l) - park_az P - drift s l D).
Proof.
  intros W. induction l as [|o l IH]; intros s D H; [exact H|]. cbn [krun fold_left drift].
  apply IH. clear IH. destruct o; cbn [kstep step_drift].
  - unfold slews. destruct (slew_spec s a) as (r & -> & H1 & _). cbn [fst snd].
    destruct r as [[t|]|e]; try exact H. destruct (a_update a); [|exact H].
    apply moved_congr; [exact W|apply (H1 t eq_refl)|exact H].
  - unfold slews. destruct (observe_spec s v mjd rottel lax whl) as [(t & -> & Q & ->)|[H1 H2]].
    + cbn [fst snd obs_args a_update]. change (k_cum (with_overhead ?x _)) with (k_cum x). now apply moved_congr.
    + rewrite observe_eq in H1, H2 |- *. 
      destruct (slew_times E P s (obs_args v mjd rottel lax whl)) as [s1 [[t|]|e]]; cbn [fst snd] in *.
      * destruct H2 as [H2|(e & H2)]; discriminate.
      * subst s1. exact H.
      * subst s1. exact H.
  - cbn. replace (park_az P - park_az P - 0) with 0 by ring. apply congr_refl.
  - destruct (mount_keeps s l0) as (_ & -> & -> & _). exact H.
Qed.

(** ** C27 *)
Lemma next_overhead : forall s v m r l w,
  0 <= band_changetime P -> 0 <= cl_delay P -> (forall d, 0 <= d -> 0 <= jt (telrot P) d) ->
  forall t vt, snd (observe E P s v m r l w) = Ok (Some t, vt) -> k_overhead s <= t.
Proof.
  intros s v m r l w B1 B2 B3 t vt H. rewrite observe_eq in H.
  destruct (slew_spec s (obs_args v m r l w)) as (x & EX & H1 & _). rewrite EX in H. cbn [fst snd] in H.
  destruct x as [[t'|]|e]; try discriminate. injection H as -> _. now apply (H1 t eq_refl).
Qed.

(** ** C24: never raises when only observing *)
Definition trackable (s : kin) : Prop :=
  (k_parked s = true /\ k_rotsky s = None /\ k_rottel s <> None) \/
  (k_parked s = false /\ k_rotsky s <> None).
Definition no_bare_slew (o : kop) : Prop := match o with KSlew a => a_update a = false | _ => True end.

Lemma observe_trackable : forall s v m r l w, trackable s ->
  trackable (fst (observe E P s v m r l w)) /\ exists x, snd (observe E P s v m r l w) = Ok x.
Proof.
  intros s v m r l w H.
  assert (C : exists t, snd (slew_times E P s (obs_args v m r l w)) = Ok t).
  { destruct (slew_spec s (obs_args v m r l w)) as (x & -> & _ & _ & H2). cbn [snd]. apply H2.
    intros rt _. unfold current_rot, from_pa, origin. cbn [obs_args a_start_rot a_start a_mjd].
    destruct H as [(Hp & -> & Hr)|(Hp & Hr)].
    - destruct (k_rottel s) as [x0|]; [eauto|contradiction].
    - rewrite Hp. destruct (k_rotsky s) as [rs|]; [|contradiction].
      destruct (radec2altaz E (k_ra s) (k_dec s) m) as [[? ?] ?]. eauto. }
  destruct (observe_spec s v m r l w) as [(t & -> & _)|[-> H2]].
  - split; [|eexists; reflexivity]. right. cbn. split; [reflexivity|]. unfold rotsky_of, rotation. cbn. destruct r; cbn; discriminate.
  - split; [exact H|]. rewrite observe_eq. destruct C as (t & ->). destruct t; eexists; reflexivity.
Qed.
Lemma run_trackable : forall l s, Forall no_bare_slew l -> trackable s -> trackable (krun E P s l).
Proof.
  induction l as [|o l IH]; intros s F H; [exact H|]. inversion F; subst. cbn. apply IH; [assumption|].
  destruct o; cbn [kstep].
  - cbn in *. destruct (slew_fst s a) as [->|(K & _)]; [exact H|congruence].
  - now apply observe_trackable.
  - left. cbn. repeat split; discriminate.
  - destruct (mount_keeps s l0) as (E1 & _ & _ & _ & _ & _ & _ & E2 & E3 & _).
    unfold trackable. now rewrite E1, E2, E3.
Qed.

(** ** C47: the band in use is mounted *)
Definition bands_ok (s : kin) : Prop := In (k_band s) (k_mounted s) /\ In (k_start_band s) (k_mounted s).
Lemma mem_iff : forall b l, existsb (String.eqb b) l = true <-> In b l.
Proof.
  intros. rewrite existsb_exists. split.
  - intros (x & H & K). apply String.eqb_eq in K. now subst.
  - intros H. exists b. split; [exact H|apply String.eqb_refl].
Qed.
Lemma mount_ok : forall s l, l <> [] -> bands_ok (fst (mount_bands s l)) /\ snd (mount_bands s l) = Ok tt.
Proof.
  intros s l N. unfold mount_bands.
  destruct (rev l) as [|x r] eqn:ER.
  { apply (f_equal (@rev string)) in ER. rewrite rev_involutive in ER. cbn in ER. contradiction. }
  assert (HX : In x l) by (apply in_rev; rewrite ER; now left).
  destruct (existsb (String.eqb (k_band s)) l) eqn:E1; destruct (existsb (String.eqb (k_start_band s)) l) eqn:E2;
  rewrite ?mem_iff in *; unfold bands_ok; cbn; auto.
Qed.
Definition nonempty_mount (o : kop) : Prop := match o with KMount [] => False | _ => True end.
Lemma run_bands_ok : forall l s, Forall nonempty_mount l -> bands_ok s -> bands_ok (krun E P s l).
Proof.
  assert (M : forall s a, bands_ok s -> possible s a -> bands_ok (moved s a)).
  { intros s a [H1 H2] (HB & _). unfold bands_ok. cbn. split; [|exact H2]. unfold band_ok, band_of in *.
    destruct (a_band a); [now apply mem_iff|exact H1]. }
  induction l as [|o l IH]; intros s F H; [exact H|]. inversion F; subst. cbn. apply IH; [assumption|]. destruct o; cbn [kstep].
  - destruct (slew_fst s a) as [->|(_ & Q & -> & _)]; auto.
  - destruct (observe_spec s v mjd rottel lax whl) as [(t & -> & Q & _)|[-> _]]; [|exact H]. exact (M _ _ H Q).
  - destruct H as [_ H]. split; exact H.
  - apply mount_ok. destruct l0; [cbn in *; contradiction|discriminate].
Qed.

End Kin.

Lemma jt_nonneg : forall x d, 0 < ax_v x -> 0 < ax_a x -> match ax_j x with None => True | Some j => 0 < j end ->
  0 <= d -> 0 <= jt x d.
Proof.
  intros x d Hv Ha Hj Hd. unfold jt. destruct (ax_j x) as [j|].
  - rewrite jerk_T by assumption. now apply T_nonneg.
  - pose proof (acc_grow (ax_v x) (ax_a x) Hv Ha 0 d ltac:(lra)). rewrite acc_zero in * by assumption. lra.
Qed.

(** ** Last completed visit since the last park *)
Fixpoint last_visit (E : conv) (P : cfg) (s : kin) (l : list kop) (lv : option visit) : option visit :=
  match l with
  | [] => lv
  | o :: l => last_visit E P (kstep E P s o) l
      (match o with
       | KObserve v m r lx w => match snd (observe E P s v m r lx w) with Ok (Some _, _) => Some v | _ => lv end
       | KPark => None
       | _ => lv end)
  end.
Lemma overhead_last : forall E P l s lv,
  k_overhead s = match lv with None => 0 | Some v => Rmax (readtime P) (shutter_stall P v) end ->
  k_overhead (krun E P s l) =
    match last_visit E P s l lv with None => 0 | Some v => Rmax (readtime P) (shutter_stall P v) end.
Proof.
  intros E P. induction l as [|o l IH]; intros s lv H; [exact H|]. cbn [krun fold_left last_visit]. apply IH.
  destruct o; cbn [kstep].
  - destruct (slew_fst E P s a) as [->|(_ & _ & -> & _)]; exact H.
  - destruct (observe_spec E P s v mjd rottel lax whl) as [(t & -> & _)|[K1 K2]]; [reflexivity|].
    rewrite K1. destruct K2 as [->|(e & ->)]; exact H.
  - reflexivity.
  - destruct (mount_keeps s l0) as (_ & _ & _ & _ & -> & _). exact H.
Qed.
Lemma stall_gap : forall P v, v_nexp v = 1%nat -> 0 <= shuttertime P ->
  forall t, Rmax (readtime P) (shutter_stall P v) <= t -> readtime P <= t /\ shutter_2motion P <= visit_time P v + t.
Proof.
  intros P v N S t H. pose proof (Rmax_l (readtime P) (shutter_stall P v)). pose proof (Rmax_r (readtime P) (shutter_stall P v)).
  split; [lra|]. unfold visit_time. unfold shutter_stall in *. rewrite N in *. cbn [Nat.sub INR] in *.
  replace (v_exptime v / 1) with (v_exptime v) in * by field.
  destruct (Rlt_dec (v_exptime v) (shutter_2motion P)); lra.
Qed.

(** Telescope time in closed form. *)
Lemma tel_time_form : forall P oh dalt d, 0 < Rmax (jt (telalt P) dalt) (jt (telaz P) (Rabs d)) + ol_time P dalt ->
  tel_time P oh dalt (Some d) =
  Some (Rmax oh (Rmax (jt (telalt P) dalt) (jt (telaz P) (Rabs d)) + Rmax (ol_time P dalt) (mount_settle P))).
Proof.
  intros P oh dalt d H. unfold tel_time. cbn. destruct (Rlt_dec 0 _) as [_|N]; [|contradiction]. cbn. do 2 f_equal.
  rewrite Rplus_assoc. f_equal. unfold Rmax. repeat destruct (Rle_dec _ _); lra.
Qed.
Lemma aztel_direct : forall P cum start az, - PI < az - start < PI -> telaz_min P <= cum + (az - start) <= telaz_max P ->
  aztel_wrap P cum start az = Some (az - start).
Proof.
  intros P cum start az H L. pose proof PI_RGT_0. unfold aztel_wrap. rewrite ssa_val by lra.
  assert (I : in_limits P (az - start + cum) = true) by (apply in_limits_iff; lra). cbv zeta. rewrite I.
  fold (long_of (az - start)). destruct (in_limits P (long_of (az - start) + cum)); [|reflexivity].
  destruct (Rlt_dec (Rabs (az - start)) (Rabs (long_of (az - start)))) as [_|N]; [reflexivity|exfalso]. apply N.
  unfold long_of, two_pi. destruct (Rlt_dec (az - start) 0).
  - rewrite (Rabs_left (az - start)), Rabs_pos_eq by lra. lra.
  - rewrite (Rabs_pos_eq (az - start)), Rabs_left by lra. lra.
Qed.
