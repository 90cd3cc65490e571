(** Slew times of several targets at once (C154). *)
From Coq Require Import List Reals Lra String Bool Arith.
From Verif Require Import Base Angles Jerk Kinem Kinem_proofs Props_Kinem Percent_proofs Faster_proofs SlewArray.
Import ListNotations.
Open Scope list_scope.
Open Scope R_scope.

Section C154.
Variable E : conv.
Variable P : cfg.

(** One element is what slew_times answers to one target asked for alone. *)
Lemma element_alone : forall s a k p, band_ok s a = true ->
  snd (slew_times E P s (aim a k p)) = element E P s (aim a k p) (differs s a).
Proof.
  intros s a k p B. unfold slew_times, element.
  assert (B' : band_ok s (aim a k p) = true) by (destruct p as [[[? ?] ?] ?]; exact B).
  assert (D : negb (String.eqb (band_of s (aim a k p)) (k_band s)) = differs s a) by (destruct p as [[[? ?] ?] ?]; reflexivity).
  assert (U : a_update (aim a k p) = false) by (destruct p as [[[? ?] ?] ?]; reflexivity).
  rewrite B'. cbn [negb]. rewrite D, U.
  destruct (dest E (aim a k p)) as [[[[al z] pa] ra] de]. destruct (rotation E (aim a k p) pa) as [rs rt].
  destruct (origin E P s (aim a k p)) as [[sal sz] spa].
  destruct rt as [rt|]; [destruct (current_rot E s (aim a k p) spa) as [cur|e]|]; cbn [bind]; try reflexivity;
    match goal with |- snd (match ?x with _ => _ end) = _ => destruct x; reflexivity end.
Qed.

Lemma all_ok_in : forall A (l : list (res A)) r, all_ok l = Ok r -> l = map Ok r.
Proof.
  induction l as [|x l IH]; cbn; intros r H; [now injection H as <-|].
  destruct x as [x|e]; cbn in H; [|discriminate]. destruct (all_ok l) as [b|e]; cbn in H; [|discriminate].
  injection H as <-. cbn. now rewrite (IH b).
Qed.
Lemma all_ok_map : forall A (r : list A), all_ok (map Ok r) = Ok r.
Proof. induction r as [|x r IH]; cbn; [reflexivity|]. now rewrite IH. Qed.

(** Asked for in the band in use (or in none), every target gets the time it gets
    alone, whatever the other targets are. *)
Theorem C154_same_band :
  forall s a k ps, band_ok s a = true -> differs s a = false -> ps <> [] ->
  slew_array E P s a k ps =
  bind (all_ok (map (fun p => snd (slew_times E P s (aim a k p))) ps)) (fun ts => Ok (Some ts)).
Proof.
  intros s a k ps B D N. unfold slew_array. rewrite B, D. cbn [negb andb].
  assert (EQ : map (fun p => snd (slew_times E P s (aim a k p))) ps = map (fun p => element E P s (aim a k p) false) ps).
  { apply map_ext. intros p. rewrite element_alone by exact B. now rewrite D. }
  rewrite EQ. destruct ps as [|p ps]; [congruence|]. reflexivity.
Qed.

(** The number of times is that of the targets, and the first is always the one of
    the target alone. *)
Theorem C154_first :
  forall s a k p ps ts, slew_array E P s a k (p :: ps) = Ok (Some ts) ->
  List.length ts = S (List.length ps) /\
  exists t, nth_error ts 0 = Some t /\ snd (slew_times E P s (aim a k p)) = Ok t.
Proof.
  intros s a k p ps ts H. unfold slew_array in H.
  destruct (negb (band_ok s a)) eqn:B; [discriminate|]. apply negb_false_iff in B.
  match type of H with bind (all_ok ?l) _ = _ => destruct (all_ok l) as [r|e] eqn:A end; cbn [bind] in H; [|discriminate].
  assert (r = ts) by (destruct (differs s a && _ && _ && _ && _); [discriminate|congruence]). subst r.
  apply all_ok_in in A. destruct ts as [|t ts]; [discriminate|]. cbn in A. injection A as A1 A2. split.
  - cbn. f_equal. apply (f_equal (@List.length _)) in A2. rewrite !map_length in A2. congruence.
  - exists t. split; [reflexivity|]. now rewrite element_alone.
Qed.

(** A band that is not mounted gives one nan, not one for each target. *)
Theorem C154_not_mounted : forall s a k ps, band_ok s a = false -> slew_array E P s a k ps = Ok None.
Proof. intros s a k ps B. unfold slew_array. now rewrite B. Qed.

(** Asked for in another band, while tracking and without rotator angles: the time of
    every target but the first is short of the band change, exactly. *)
Theorem C154_band_refuted :
  forall s a p q ts t, band_ok s a = true -> differs s a = true -> k_parked s = false -> a_while a = false ->
  slew_array E P s a NoRot [p; q] = Ok (Some ts) -> snd (slew_times E P s (aim a NoRot q)) = Ok (Some t) ->
  nth_error ts 1 = Some (Some (t - band_changetime P)).
Proof.
  intros s a p q ts t B D K W H A. rewrite element_alone in A by exact B. rewrite D in A.
  unfold slew_array in H. rewrite B, D in H. cbn [negb andb map] in H.
  destruct (all_ok [element E P s (aim a NoRot p) true; element E P s (aim a NoRot q) false]) as [r|e] eqn:O;
    cbn [bind] in H; [|discriminate].
  rewrite !andb_false_r in H. cbn [andb] in H. injection H as <-. apply all_ok_in in O.
  destruct r as [|x [|y [|z r]]]; try discriminate. cbn in O. injection O as O1 O2. cbn. f_equal.
  unfold element in A, O2.
  assert (RO : forall pa, rotation E (aim a NoRot q) pa = (None, None)) by (destruct q as [[[? ?] ?] ?]; reflexivity).
  assert (WH : a_while (aim a NoRot q) = false) by (destruct q as [[[? ?] ?] ?]; exact W).
  set (b := aim a NoRot q) in *. clearbody b.
  destruct (dest E b) as [[[[al z] pa] ra'] de']. rewrite RO in A, O2.
  destruct (origin E P s b) as [[sal sz] spa].
  unfold bind in A, O2. rewrite K in A, O2. rewrite WH in A. injection O2 as O2. injection A as A. subst y.
  destruct (Rlt_dec (telalt_max P) al); [discriminate|]. destruct (Rlt_dec al (telalt_min P)); [discriminate|].
  match type of A with context [omax ?u ?v] => destruct (omax u v) as [m|] end.
  - destruct (Rle_dec (cl_limit P) (Rabs (al - sal))); cbn in A |- *; destruct (a_const b); injection A as <-; f_equal; lra.
  - destruct (Rle_dec (cl_limit P) (Rabs (al - sal))); cbn in A; discriminate.
Qed.
End C154.
Print Assumptions C154_same_band.
Print Assumptions C154_first.
Print Assumptions C154_not_mounted.
Print Assumptions C154_band_refuted.

(** With rotator angles and the band change time that depends on them, several
    targets in another band raise instead of being answered. *)
Theorem C154_rotator_refuted :
  forall E P s a k p q ts, band_ok s a = true -> differs s a = true -> k_parked s = false -> a_const a = false ->
  k <> NoRot ->
  all_ok (map (fun x => snd (slew_times E P s (aim a k x))) [p; q]) = Ok ts ->
  slew_array E P s a k [p; q] = Raise ValueError.
Proof.
  intros E P s a k p q ts B D K C N A. apply all_ok_in in A. cbn [map] in A.
  destruct ts as [|t1 [|t2 [|t3 ts]]]; try discriminate. cbn in A. injection A as A1 A2.
  rewrite element_alone in A1, A2 by exact B. rewrite D in A1, A2.
  unfold slew_array. rewrite B, D, K, C. cbn [negb andb map].
  assert (R2 : exists t, element E P s (aim a k q) false = Ok t).
  { unfold element in A2 |- *. destruct (dest E (aim a k q)) as [[[[al z] pa] ra] de].
    destruct (rotation E (aim a k q) pa) as [rs rt]. destruct (origin E P s (aim a k q)) as [[sal sz] spa].
    destruct rt as [rt|]; [destruct (current_rot E s (aim a k q) spa) as [cur|e]|]; cbn [bind] in *; try discriminate; eauto. }
  destruct R2 as (t & R2). cbn [all_ok]. rewrite A1, R2. cbn.
  destruct k; [congruence|reflexivity|reflexivity].
Qed.
Print Assumptions C154_rotator_refuted.

(** The default telescope tracking a field in r, asked for that field twice in g: two
    minutes for the first, nothing for the second.  It meets the hypotheses of
    C154_band_refuted; without the change of band those of C154_same_band. *)
Definition tracking : kin :=
  mkKin false 1 (PI / 4) None 0 1 (PI / 4) (Some 0) 0 "r"%string "r"%string ["u"; "g"; "r"; "i"; "y"]%string.
Definition ask (b : string) : slew_args := mkSlew 0 0 0 None None (Some b) true false true None None None false.
Definition there : place := (1, PI / 4, None, 0).
Lemma there_time : forall b change,
  element dE dP tracking (aim (ask b) NoRot there) change = Ok (Some (if change then 120 else 0)).
Proof.
  intros b change. pose proof PI_RGT_0 as PI0. unfold element.
  change (dest dE (aim (ask b) NoRot there)) with (PI / 4, 1 + 0, 0, 1, PI / 4). cbv beta iota zeta.
  change (rotation dE (aim (ask b) NoRot there) 0) with (@None R, @None R). cbv beta iota zeta.
  change (origin dE dP tracking (aim (ask b) NoRot there)) with (PI / 4, 1 + 0, Some 0). cbv beta iota zeta.
  replace (PI / 4 - PI / 4) with 0 by ring. rewrite ?Rabs_R0.
  assert (SS : smallest_signed_angle (1 + 0) (1 + 0) = 0) by (rewrite ssa_val; [ring|lra]).
  assert (AZ : aztel dP 0 (1 + 0) (1 + 0) = Some 0).
  { unfold aztel. rewrite dP_wraps. unfold aztel_wrap. rewrite SS.
    assert (IL : in_limits dP (0 + 0) = true).
    { unfold in_limits, Rltb, dP, radians. cbn. destruct (Rlt_dec (0 + 0) (-250 * PI / 180)); [lra|].
      destruct (Rlt_dec (250 * PI / 180) (0 + 0)); [lra|reflexivity]. }
    rewrite IL. destruct (Rlt_dec 0 0); [lra|]. destruct (in_limits dP (0 - two_pi + 0)); [|reflexivity].
    rewrite Rabs_R0. pose proof two_pi_pos. destruct (Rlt_dec 0 (Rabs (0 - two_pi))) as [K|K]; [reflexivity|].
    exfalso. apply K. apply Rabs_pos_lt. lra. }
  change (k_cum tracking) with 0. rewrite AZ, SS, Rabs_R0. change (k_overhead tracking) with 0.
  assert (J1 : jt (telalt dP) 0 = 0).
  { rewrite jt_dur; [apply dur_zero| | |]; cbn; unfold radians; lra. }
  assert (J2 : jt (telaz dP) 0 = 0).
  { rewrite jt_dur; [apply dur_zero| | |]; cbn; unfold radians; lra. }
  assert (TT : tel_time dP 0 0 (Some 0) = Some 0).
  { unfold tel_time, ol_time. cbn [option_map]. rewrite Rabs_R0, J1, J2. cbn [omax oadd option_map].
    rewrite Rmax_left by lra. unfold Rdiv. rewrite Rmult_0_l. rewrite Rplus_0_l.
    destruct (Rlt_dec 0 0); [lra|]. cbn. now rewrite Rmax_left by lra. }
  rewrite TT.
  assert (DT : dome_time dP (a_lax (aim (ask b) NoRot there)) 0 0 = 0).
  { unfold dome_time. change (a_lax (aim (ask b) NoRot there)) with true. cbn iota.
    destruct (Rlt_dec (0 ^ 2 + 0 ^ 2) (camera_fov dP ^ 2)) as [K|K]; [reflexivity|]. exfalso. apply K.
    cbn. unfold radians. nra. }
  rewrite DT. cbn [omax bind]. rewrite Rmax_left by lra. change (k_parked tracking) with false. cbn iota.
  change (a_while (aim (ask b) NoRot there)) with false. change (a_const (aim (ask b) NoRot there)) with true. cbn iota.
  change (band_changetime dP) with 120.
  destruct (Rle_dec (cl_limit dP) 0) as [K|K]; [exfalso; cbn in K; unfold radians in K; lra|].
  destruct (Rlt_dec (telalt_max dP) (PI / 4)) as [K2|K2]; [exfalso; cbn in K2; unfold radians in K2; lra|].
  destruct (Rlt_dec (PI / 4) (telalt_min dP)) as [K3|K3]; [exfalso; cbn in K3; unfold radians in K3; lra|].
  destruct change; cbn [oadd option_map]; [do 2 f_equal; lra|reflexivity].
Qed.
Example C154_example :
  slew_array dE dP tracking (ask "g") NoRot [there; there] = Ok (Some [Some 120; Some 0]) /\
  snd (slew_times dE dP tracking (aim (ask "g") NoRot there)) = Ok (Some 120) /\
  slew_array dE dP tracking (ask "r") NoRot [there; there] = Ok (Some [Some 0; Some 0]) /\
  slew_array dE dP tracking (ask "z") NoRot [there; there] = Ok None.
Proof.
  split; [|split; [|split]].
  - unfold slew_array. change (differs tracking (ask "g")) with true. cbn [map all_ok]. now rewrite !there_time.
  - rewrite element_alone by reflexivity. change (differs tracking (ask "g")) with true. apply there_time.
  - unfold slew_array. change (differs tracking (ask "r")) with false. cbn [map all_ok]. now rewrite !there_time.
  - reflexivity.
Qed.
