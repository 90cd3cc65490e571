(** Lower bounds on slew times, and slews that do not move (C49, C50). *)
From Coq Require Import List Reals Lra Lia String Bool ZArith.
From Verif Require Import Base Angles Jerk Jerk_proofs Kinem Kinem_proofs.
Import ListNotations.
Open Scope R_scope.

Definition axis_ok (x : axis) : Prop :=
  0 < ax_v x /\ 0 < ax_a x /\ match ax_j x with None => True | Some j => 0 < j end.
(** Reasonable configuration. *)
Definition cfg_ok (P : cfg) : Prop :=
  axis_ok (telrot P) /\ axis_ok (telalt P) /\ axis_ok (telaz P) /\ axis_ok (domalt P) /\ axis_ok (domaz P) /\
  0 <= band_changetime P /\ 0 <= cl_delay P /\ 0 <= domaz_settle P /\ 0 < ol_slope P.

Lemma jt_ok : forall x d, axis_ok x -> 0 <= d -> 0 <= jt x d.
Proof. intros x d (A & B & C) D. now apply jt_nonneg. Qed.
Lemma jt_zero : forall x, axis_ok x -> jt x 0 = 0.
Proof.
  intros [v a [j|]] (A & B & C); cbn in *; unfold jt; cbn.
  - rewrite jerk_T by (lra || assumption). now apply T_zero.
  - unfold acc_time. destruct (Rlt_dec 0 (v ^ 2 / a)) as [H|H].
    + replace (0 / a) with 0 by (field; lra). rewrite sqrt_0. lra.
    + exfalso. apply H. apply Rdiv_lt_0_compat; [|exact B]. apply pow_lt. exact A.
Qed.

Section Kin.
Variable E : conv.
Variable P : cfg.

(** The rotator angle before the slew. *)
Definition rot_before (s : kin) (a : slew_args) : option R :=
  match current_rot E s a (from_pa E P s a) with Ok c => Some c | Raise _ => None end.

Lemma ol_nonneg : 0 < ol_slope P -> forall d, 0 <= d -> 0 <= ol_time P d.
Proof.
  intros H d D. unfold ol_time, optics_ol_slope, radians. pose proof PI_RGT_0.
  apply Rmult_le_pos; [exact D|]. apply Rlt_le, Rinv_0_lt_compat. apply Rdiv_lt_0_compat; [exact H|].
  lra.
Qed.

Lemma tel_time_bounds : cfg_ok P -> forall oh dalt daz x, 0 <= dalt -> tel_time P oh dalt daz = Some x ->
  exists d, daz = Some d /\ oh <= x /\ jt (telalt P) dalt <= x /\ jt (telaz P) (Rabs d) <= x /\
  (0 < jt (telalt P) dalt \/ 0 < jt (telaz P) (Rabs d) ->
     Rmax (jt (telalt P) dalt) (jt (telaz P) (Rabs d)) + mount_settle P <= x).
Proof.
  intros (_ & A1 & A2 & _ & _ & _ & _ & _ & OS) oh dalt daz x D H. unfold tel_time in H.
  apply omax_some in H. destruct H as (u & w & [= <-] & H & ->).
  destruct daz as [d|]; [|discriminate]. cbn [option_map omax oadd] in H. exists d. split; [reflexivity|].
  pose proof (ol_nonneg OS dalt D) as O. pose proof (jt_ok _ _ A1 D) as J1.
  pose proof (jt_ok _ _ A2 (Rabs_pos d)) as J2.
  set (p := jt (telalt P) dalt) in *. set (q := jt (telaz P) (Rabs d)) in *.
  pose proof (Rmax_l p q). pose proof (Rmax_r p q). pose proof (Rmax_l oh w). pose proof (Rmax_r oh w).
  set (m := Rmax p q) in *. set (o := ol_time P dalt) in *.
  pose proof (Rmax_l 0 (mount_settle P - o)). pose proof (Rmax_r 0 (mount_settle P - o)).
  set (n := Rmax 0 (mount_settle P - o)) in *.
  destruct (Rlt_dec 0 (m + o)) as [L|L]; injection H as <-.
  - repeat split; lra.
  - repeat split; try lra.
Qed.

Lemma dome_bounds : cfg_ok P -> forall dalt daz, 0 <= dalt -> 0 <= daz ->
  let x := dome_time P false dalt daz in
  jt (domalt P) dalt <= x /\ jt (domaz P) daz <= x /\ (0 < jt (domaz P) daz -> jt (domaz P) daz + domaz_settle P <= x).
Proof.
  intros (_ & _ & _ & A1 & A2 & _ & _ & S0 & _) dalt daz D1 D2 x. unfold x, dome_time.
  pose proof (jt_ok _ _ A1 D1). pose proof (jt_ok _ _ A2 D2).
  set (p := jt (domalt P) dalt) in *. set (q := jt (domaz P) daz) in *.
  destruct (Rlt_dec 0 q) as [L|L].
  - pose proof (Rmax_l p (q + domaz_settle P)). pose proof (Rmax_r p (q + domaz_settle P)). repeat split; intros; lra.
  - pose proof (Rmax_l p q). pose proof (Rmax_r p q). repeat split; intros; lra.
Qed.

Lemma slew_lower : cfg_ok P -> forall s a t, snd (slew_times E P s a) = Ok (Some t) ->
  let dalt := Rabs (to_alt E a - from_alt E P s a) in
  let same := String.eqb (band_of s a) (k_band s) in
  exists x d, tel_time P (k_overhead s) dalt (Some d) = Some x /\ x <= t /\
  aztel P (k_cum s) (from_az E P s a) (to_az E a) = Some d /\
  dome_time P (a_lax a) dalt (Rabs (smallest_signed_angle (from_az E P s a) (to_az E a))) <= t /\
  (forall rt c, rot_of E a = Some rt -> rot_before s a = Some c -> same = true ->
     jt (telrot P) (Rabs (smallest_signed_angle c rt)) <= t) /\
  (k_parked s = false -> same = false -> a_const a = true -> band_changetime P <= t) /\
  (k_parked s = false -> same = false -> a_while a = false -> a_const a = true -> x + band_changetime P <= t) /\
  (forall rt c, k_parked s = false -> same = false -> a_const a = false -> rot_of E a = Some rt -> rot_before s a = Some c ->
     90 + jt (telrot P) (Rabs (smallest_signed_angle c 0)) + jt (telrot P) (Rabs (smallest_signed_angle 0 rt)) <= t) /\
  (cl_limit P <= dalt -> x + cl_delay P <= t).
Proof.
  intros OK s a t H dalt same. subst dalt same.
  unfold slew_times, rot_before, rot_of, to_alt, to_az, to_pa, from_az, from_alt, from_pa in *.
  destruct (band_ok s a) eqn:BO; cbn [negb] in H; [|discriminate].
  destruct (dest E a) as [[[[alt az] pa] ra] dec] eqn:ED.
  destruct (rotation E a pa) as [rotsky rottel] eqn:ER. cbn [fst snd].
  destruct (origin E P s a) as [[salt saz] spa] eqn:EO.
  set (dalt := Rabs (alt - salt)) in *. set (daz := aztel P (k_cum s) saz az) in *.
  set (dt := dome_time P (a_lax a) dalt (Rabs (smallest_signed_angle saz az))) in *.
  set (tt0 := omax (tel_time P (k_overhead s) dalt daz) (Some dt)) in *.
  set (same := String.eqb (band_of s a) (k_band s)) in *.
  assert (D0 : 0 <= dalt) by apply Rabs_pos.
  destruct OK as (AR & OK). pose proof (conj AR OK : cfg_ok P) as OKK.
  destruct OK as (_ & _ & _ & _ & B1 & B2 & _).
  assert (T0 : forall y, tt0 = Some y -> exists x d, daz = Some d /\ tel_time P (k_overhead s) dalt (Some d) = Some x /\ x <= y /\ dt <= y).
  { intros y K. unfold tt0 in K. apply omax_some in K. destruct K as (x & q & K1 & [= <-] & ->).
    destruct (tel_time_bounds OKK _ _ _ _ D0 K1) as (d & Ed & _). exists x, d. rewrite <- Ed.
    repeat split; try assumption; [apply Rmax_l|apply Rmax_r]. }
  (* rotator part *)
  set (rot := match rottel with None => Ok (tt0, None) | Some rt => _ end) in H.
  assert (ROT : forall t2 cur, rot = Ok (Some t2, cur) -> exists y, tt0 = Some y /\ y <= t2 /\
     match cur with
     | None => rottel = None
     | Some (c, rt) => rottel = Some rt /\ current_rot E s a spa = Ok c /\
         (same = true -> jt (telrot P) (Rabs (smallest_signed_angle c rt)) <= t2)
     end).
  { intros t2 cur K. unfold rot in K. destruct rottel as [rt|].
    - destruct (current_rot E s a spa) as [c|e]; cbn [bind] in K; [|discriminate].
      injection K as K1 K2. destruct cur as [[c' rt']|]; [|discriminate]. injection K2 as <- <-.
      apply omax_some in K1. destruct K1 as (y & q & K1 & [= <-] & ->).
      exists y. split; [|split; [apply Rmax_l|]].
      + destruct (Rlt_dec rt (telrot_min P)); [discriminate|]. destruct (Rlt_dec (telrot_max P) rt); [discriminate|exact K1].
      + split; [reflexivity|]. split; [reflexivity|]. intros ->. cbn [negb]. apply Rmax_r.
    - injection K as K1 K2. subst cur. exists t2. split; [exact K1|]. split; [apply Rle_refl|reflexivity]. }
  destruct rot as [[t2 cur]|e] eqn:EROT; [|discriminate].
  set (bct := match a_const a, cur with false, Some (c, rt) => better_band_changetime P c rt | _, _ => band_changetime P end) in *.
  set (t3 := if k_parked s then t2 else if negb same then if a_while a then omax t2 (Some bct) else oadd t2 bct else t2) in *.
  assert (BC : 0 <= bct).
  { unfold bct. destruct (a_const a); [exact B1|]. destruct cur as [[c rt]|]; [|exact B1]. unfold better_band_changetime.
    pose proof (jt_ok _ _ AR (Rabs_pos (smallest_signed_angle c 0))). pose proof (jt_ok _ _ AR (Rabs_pos (smallest_signed_angle 0 rt))). lra. }
  assert (T3 : forall z, t3 = Some z -> exists y, t2 = Some y /\ y <= z /\
     (k_parked s = false -> same = false -> bct <= z /\ (a_while a = false -> z = y + bct))).
  { intros z K. unfold t3 in K. destruct (k_parked s); [exists z; repeat split; try lra; try assumption; discriminate|].
    destruct same; cbn [negb] in K; [exists z; repeat split; try lra; try assumption; discriminate|].
    destruct (a_while a).
    - apply omax_some in K. destruct K as (y & q & -> & [= <-] & ->). exists y.
      split; [reflexivity|]. split; [apply Rmax_l|]. intros _ _. split; [apply Rmax_r|discriminate].
    - apply oadd_some in K. destruct K as (y & -> & ->). exists y. split; [reflexivity|]. split; [lra|]. intros _ _.
      split; [|reflexivity].
      destruct (ROT y cur eq_refl) as (y0 & Ey0 & L0 & _). destruct (T0 y0 Ey0) as (x & d & Ed & ET & Lx & _).
      destruct (tel_time_bounds OKK _ _ _ _ D0 ET) as (d' & _ & _ & Jx & _).
      destruct OKK as (_ & A1 & _). pose proof (jt_ok _ _ A1 D0). lra. }
  set (t4 := if Rle_dec (cl_limit P) dalt then oadd t3 (cl_delay P) else t3) in *.
  assert (T5 : t4 = Some t).
  { destruct (Rlt_dec (telalt_max P) alt); [discriminate|]. destruct (Rlt_dec alt (telalt_min P)); [discriminate|].
    destruct t4 as [w|]; [|discriminate]. destruct (a_update a); cbn in H; congruence. }
  assert (T4 : exists z, t3 = Some z /\ z <= t /\ (cl_limit P <= dalt -> t = z + cl_delay P)).
  { unfold t4 in T5. destruct (Rle_dec (cl_limit P) dalt).
    - apply oadd_some in T5. destruct T5 as (z & -> & ->). exists z. repeat split; lra.
    - exists t. repeat split; [exact T5|lra|intros; contradiction]. }
  destruct T4 as (z & Ez & Lz & Cz). destruct (T3 z Ez) as (y & Ey & Ly & By). subst t2.
  destruct (ROT y cur eq_refl) as (y0 & Ey0 & L0 & RC).
  destruct (T0 y0 Ey0) as (x & d & Ed & ET & Lx & Lt). exists x, d.
  split; [exact ET|]. split; [lra|]. split; [exact Ed|]. split; [lra|]. split; [|split; [|split; [|split]]].
  - intros rt c Ert Ec Sm. destruct cur as [[c' rt']|]; [|congruence]. destruct RC as (R1 & R2 & R3).
    rewrite Ert in R1. rewrite R2 in Ec. injection R1 as <-. injection Ec as <-. specialize (R3 Sm). lra.
  - intros PK Sm CT. destruct (By PK Sm) as [Bz _]. unfold bct in Bz. rewrite CT in Bz. lra.
  - intros PK Sm WH CT. destruct (By PK Sm) as [_ Bz]. specialize (Bz WH). unfold bct in Bz. rewrite CT in Bz. lra.
  - intros rt c PK Sm CT Ert Ec. destruct (By PK Sm) as [Bz _]. unfold bct in Bz. rewrite CT in Bz.
    destruct cur as [[c' rt']|]; [|congruence]. destruct RC as (R1 & R2 & R3).
    rewrite Ert in R1. rewrite R2 in Ec. injection R1 as <-. injection Ec as <-. unfold better_band_changetime in Bz. lra.
  - intros CL. rewrite (Cz CL). lra.
Qed.

(** A slew to where the telescope already is. *)
Lemma slew_still : cfg_ok P -> forall s a c,
  possible E P s a -> (0 < cl_limit P) -> 0 <= k_overhead s -> 0 < camera_fov P ->
  telaz_min P <= k_cum s <= telaz_max P ->
  wraps P = true ->
  k_parked s = false -> band_of s a = k_band s ->
  to_alt E a = from_alt E P s a -> to_az E a = from_az E P s a ->
  rot_of E a = Some c -> rot_before s a = Some c ->
  snd (slew_times E P s a) = Ok (Some (k_overhead s)).
Proof.
  intros OK s a c Q CL OH FOV CUM W PK SB HA HZ HR HB.
  destruct Q as (Q1 & Q2 & Q3 & Q4).
  unfold slew_times, rot_before, rot_of, to_alt, to_az, to_pa, from_az, from_alt, from_pa in *.
  rewrite Q1. cbn [negb]. rewrite PK, SB, String.eqb_refl. cbn [negb].
  destruct (dest E a) as [[[[alt az] pa] ra] dec] eqn:ED.
  destruct (rotation E a pa) as [rotsky rottel] eqn:ER. cbn [fst snd] in *.
  destruct (origin E P s a) as [[salt saz] spa] eqn:EO. subst salt saz rottel.
  destruct (current_rot E s a spa) as [c'|e]; [|discriminate]. injection HB as ->.
  destruct OK as (AR & A1 & A2 & A3 & A4 & B1 & B2 & B3 & OS).
  replace (alt - alt) with 0 by ring. rewrite Rabs_R0.
  assert (S0 : forall z, smallest_signed_angle z z = 0).
  { intros z. apply (congr_close two_pi); [apply two_pi_pos| |].
    - eapply congr_trans; [apply ssa_congr|]. exists 0%Z. ring.
    - pose proof (ssa_range z z). pose proof PI_RGT_0. unfold two_pi. apply Rabs_def1; lra. }
  rewrite !S0, Rabs_R0. unfold aztel. rewrite W, (aztel_direct P (k_cum s) az az); [|pose proof PI_RGT_0; lra|lra].
  replace (az - az) with 0 by ring. unfold tel_time. cbn [option_map omax oadd]. rewrite Rabs_R0.
  rewrite (jt_zero _ A1), (jt_zero _ A2), (Rmax_left 0 0) by lra.
  assert (OL : ol_time P 0 = 0) by (unfold ol_time, Rdiv; ring). rewrite OL.
  destruct (Rlt_dec 0 (0 + 0)); [lra|]. cbn [bind omax].
  assert (DT : dome_time P (a_lax a) 0 0 = 0).
  { unfold dome_time. destruct (a_lax a).
    - destruct (Rlt_dec (0 ^ 2 + 0 ^ 2) (camera_fov P ^ 2)) as [_|N]; [reflexivity|]. exfalso. apply N. nra.
    - rewrite (jt_zero _ A3), (jt_zero _ A4). destruct (Rlt_dec 0 0); [lra|]. apply Rmax_left. lra. }
  rewrite DT. replace (0 + 0) with 0 by ring. rewrite (Rmax_left (k_overhead s) 0) by lra. rewrite (Rmax_left (k_overhead s) 0) by lra.
  specialize (Q3 c eq_refl).
  destruct (Rlt_dec c (telrot_min P)); [lra|]. destruct (Rlt_dec (telrot_max P) c); [lra|].
  cbn [omax]. rewrite S0, Rabs_R0, (jt_zero _ AR). rewrite (Rmax_left (k_overhead s) 0) by lra.
  destruct (Rle_dec (cl_limit P) 0); [lra|].
  destruct (Rlt_dec (telalt_max P) alt); [lra|]. destruct (Rlt_dec alt (telalt_min P)); [lra|].
  destruct (a_update a); reflexivity.
Qed.

(** Observing the same visit again at the same time. *)
Lemma observe_again : cfg_ok P -> forall s v m r lax whl t vt,
  0 < cl_limit P -> 0 < camera_fov P -> 0 <= readtime P -> wraps P = true ->
  telaz_min P <= k_cum (fst (observe E P s v m r lax whl)) <= telaz_max P ->
  (match r with Some x => rs2rt E (rt2rs E x (to_pa E (obs_args v m r lax whl))) (to_pa E (obs_args v m r lax whl)) = x | None => True end) ->
  snd (observe E P s v m r lax whl) = Ok (Some t, vt) ->
  two_pi <= telaz_max P - telaz_min P ->
  forall lax' whl',
  snd (observe E P (fst (observe E P s v m r lax whl)) v m r lax' whl') =
    Ok (Some (Rmax (readtime P) (shutter_stall P v)), visit_time P v).
Proof.
  intros OK s v m r lax whl t vt CL FOV RT W CUM RR H FT lax' whl'.
  destruct (observe_spec E P s v m r lax whl) as [(t' & EO & Q & _)|[E1 E2]].
  2:{ destruct E2 as [E2|(e & E2)]; congruence. }
  rewrite EO in *. cbn [fst snd] in *. clear H t vt.
  set (a := obs_args v m r lax whl) in *. set (s1 := with_overhead _ _) in *.
  set (a' := obs_args v m r lax' whl').
  assert (PK : k_parked s1 = false) by reflexivity.
  assert (KO : k_overhead s1 = Rmax (readtime P) (shutter_stall P v)) by reflexivity.
  destruct (radec2altaz E (v_ra v) (v_dec v) m) as [[alt az] pa] eqn:ECO.
  assert (DE : forall l w, dest E (obs_args v m r l w) = (alt, az, pa, v_ra v, v_dec v)).
  { intros l w. unfold dest. cbn [obs_args a_altaz a_ra a_dec a_mjd]. now rewrite ECO. }
  assert (KR : k_ra s1 = v_ra v) by (unfold s1; cbn [with_overhead moved k_ra]; unfold to_ra, a; now rewrite DE).
  assert (KD : k_dec s1 = v_dec v) by (unfold s1; cbn [with_overhead moved k_dec]; unfold to_dec, a; now rewrite DE).
  assert (ORI : origin E P s1 a' = (alt, az, Some pa)).
  { unfold origin. cbn [a' obs_args a_start a_mjd]. rewrite PK, KR, KD, ECO. reflexivity. }
  destruct Q as (Q1 & Q2 & Q3 & Q4).
  assert (EQ : snd (slew_times E P s1 a') = Ok (Some (k_overhead s1))).
  { set (c := match r with Some x => x | None => rs2rt E (v_rotsky v) pa end).
    apply (slew_still OK s1 a' c).
    - split; [exact Q1|]. split; [unfold to_alt, a', a in *; rewrite DE in *; exact Q2|].
      split; [unfold rot_of, to_pa, a', a in *; rewrite DE in *; exact Q3|].
      unfold aztel. rewrite W. now apply aztel_total.
    - exact CL.
    - rewrite KO. eapply Rle_trans; [exact RT|apply Rmax_l].
    - exact FOV.
    - exact CUM.
    - exact W.
    - exact PK.
    - reflexivity.
    - unfold to_alt, from_alt, a'. rewrite DE. fold a'. now rewrite ORI.
    - unfold to_az, from_az, a'. rewrite DE. fold a'. now rewrite ORI.
    - unfold rot_of, to_pa, a'. rewrite DE. unfold rotation, c. cbn. destruct r; reflexivity.
    - unfold rot_before, from_pa. rewrite ORI. unfold current_rot. cbn [a' obs_args a_start_rot].
      assert (RS : k_rotsky s1 = match r with Some x => Some (rt2rs E x pa) | None => Some (v_rotsky v) end).
      { unfold s1. cbn. unfold rotsky_of, to_pa, a. rewrite DE. unfold rotation. cbn. destruct r; reflexivity. }
      rewrite RS. unfold c. destruct r as [x|]; [|reflexivity]. unfold to_pa, a in RR. rewrite DE in RR. now rewrite RR. }
  rewrite observe_eq. fold a'. destruct (slew_times E P s1 a') as [s2 x]. cbn [snd] in EQ. subst x. cbn [snd]. now rewrite KO.
Qed.
End Kin.
