(** C120: the surveys of the Roman bulge field. *)
From Coq Require Import List Bool QArith Qround ZArith String Ascii Lia Lqa Permutation Sorted.
From Verif Require Import Base IntRounded Obs Core Feat Bisect Script TimeGate GateLoop GateLoop_proofs Surveys Surveys_proofs LsstSurveys Props_TimeGate Props_GateLoop Props_Surveys Roman.
Import ListNotations.
Open Scope string_scope.
Open Scope list_scope.

Lemma window_pairs : forall ws c, Forall (fun w => exists lo hi, w = [lo; hi] /\ (lo <= hi)%Q) ws ->
  exists b, in_time_window ws c = Ok b /\ (b = true <-> Exists (fun w => (nth 0 w 0 <= tc_mjd c <= nth 1 w 0)%Q) ws).
Proof.
  intros ws c F. rewrite Forall_forall in F. destruct (C80_window ws c) as [b [E B]]. { intros w I. destruct (F w I) as [lo [hi [-> _]]]. discriminate. }
  exists b. split; [exact E|]. rewrite B, Exists_exists. split.
  - intros [w [x [y [W [X [Y H]]]]]]. exists w. split; [exact W|]. destruct (F w W) as [lo [hi [-> L]]]. simpl in *. destruct X as [<-|[<-|[]]], Y as [<-|[<-|[]]]; lra.
  - intros [w [W H]]. destruct (F w W) as [lo [hi [-> L]]]. exists [lo; hi], lo, hi. simpl in *. tauto.
Qed.
(** The two kinds of season: 32 days around six dates; and what lies between two of them that follow each other, a day away from both. *)
Definition dates : list Q := [61947 + (3 # 10); 62318 + (8 # 10); 62670 + (3 # 10); 63067 + (2 # 10); 63381 + (4 # 10); 63773 + (2 # 10)]%Q.
Definition on_at (t : Q) : Prop := exists m, In m dates /\ (m - 32 <= t <= m + 32)%Q.
Definition off_at (t : Q) : Prop := exists a b pre post, dates = pre ++ a :: b :: post /\ (a + 33 <= t <= b - 33)%Q.
Lemma on_cases : forall t, on_at t <-> Exists (fun m => (m - 32 <= t <= m + 32)%Q) dates.
Proof. intros t. rewrite Exists_exists. reflexivity. Qed.
Fixpoint steps (l : list Q) : list (Q * Q) := match l with a :: r => match r with b :: _ => (a, b) :: steps r | [] => [] end | [] => [] end.
Lemma steps_in : forall l a b, In (a, b) (steps l) <-> exists pre post, l = pre ++ a :: b :: post.
Proof.
  induction l as [|x l IH]; intros a b; [split; [intros []|intros [[|] [? E]]; discriminate E]|]. destruct l as [|y l]; [split; [intros []|intros [[|? [|]] [? E]]; discriminate E]|].
  change (steps (x :: y :: l)) with ((x, y) :: steps (y :: l)). split.
  - intros [E|I]; [injection E as -> ->; exists [], l; reflexivity|]. apply IH in I. destruct I as [p [q E]]. exists (x :: p), q. rewrite E. reflexivity.
  - intros [[|z p] [q E]]; [injection E as -> -> _; left; reflexivity|]. injection E as -> E. right. apply IH. exists p, q. exact E.
Qed.
Lemma off_cases : forall t, off_at t <-> Exists (fun ab => (fst ab + 33 <= t <= snd ab - 33)%Q) (steps dates).
Proof.
  intros t. rewrite Exists_exists. split.
  - intros [a [b [p [q [E H]]]]]. exists (a, b). split; [apply steps_in; exists p, q; exact E|exact H].
  - intros [[a b] [I H]]. apply steps_in in I. destruct I as [p [q E]]. exists a, b, p, q. split; [exact E|exact H].
Qed.
Ltac pick := first [left; lra | right; pick].
Theorem C120_on_season : forall c, exists b, in_time_window seasons_on c = Ok b /\ (b = true <-> on_at (tc_mjd c)).
Proof.
  intros c. destruct (window_pairs seasons_on c) as [b [E B]]. { repeat constructor; do 2 eexists; (split; [reflexivity|]); vm_compute; discriminate. }
  exists b. split; [exact E|]. rewrite B, on_cases. unfold dates, seasons_on, season_mids. cbn [map]. rewrite !Exists_cons. cbn [nth]. split; intros H; repeat (match type of H with _ \/ _ => destruct H as [H|H]; [pick|] end); inversion H.
Qed.
Theorem C120_off_season : forall c, exists b, in_time_window seasons_off c = Ok b /\ (b = true <-> off_at (tc_mjd c)).
Proof.
  intros c. destruct (window_pairs seasons_off c) as [b [E B]]. { repeat constructor; do 2 eexists; (split; [reflexivity|]); vm_compute; discriminate. }
  exists b. split; [exact E|]. rewrite B, off_cases. unfold dates, seasons_off, seasons_on, season_mids. cbn [map between steps]. rewrite !Exists_cons. cbn [nth fst snd]. split; intros H; repeat (match type of H with _ \/ _ => destruct H as [H|H]; [pick|] end); inversion H.
Qed.
(** Never both; and from the first season to the last one or the other, save for the day on each side of a season. *)
Theorem C120_never_both : forall t, on_at t -> off_at t -> False.
Proof.
  intros t A B. apply on_cases in A. apply off_cases in B. unfold dates in A, B. cbn [steps] in B. rewrite !Exists_cons in A. rewrite !Exists_cons in B. cbn [fst snd] in B.
  repeat match type of A with _ \/ _ => destruct A as [A|A]; [repeat (match type of B with _ \/ _ => destruct B as [B|B]; [lra|] end); inversion B|] end. inversion A.
Qed.
Theorem C120_whole_span : forall t, (61915 + (3 # 10) <= t <= 63805 + (2 # 10))%Q -> on_at t \/ off_at t \/ exists m, In m dates /\ ((m + 32 < t < m + 33)%Q \/ (m - 33 < t < m - 32)%Q).
Proof.
  intros t H. rewrite on_cases, off_cases. 
  assert (X : (exists m, In m dates /\ ((m + 32 < t < m + 33)%Q \/ (m - 33 < t < m - 32)%Q)) <-> Exists (fun m => (m + 32 < t < m + 33)%Q \/ (m - 33 < t < m - 32)%Q) dates) by (rewrite Exists_exists; reflexivity).
  rewrite X. clear X. unfold dates. cbn [steps]. rewrite !Exists_cons. cbn [fst snd].
  assert (D : forall a, (t <= a \/ a < t)%Q). { intros a. destruct (Qlt_le_dec a t); tauto. }
  assert (D2 : forall a, (t < a \/ a <= t)%Q). { intros a. destruct (Qlt_le_dec t a); tauto. }
  set (d1 := (61947 + (3 # 10))%Q). set (d2 := (62318 + (8 # 10))%Q). set (d3 := (62670 + (3 # 10))%Q). set (d4 := (63067 + (2 # 10))%Q). set (d5 := (63381 + (4 # 10))%Q). set (d6 := (63773 + (2 # 10))%Q).
  assert (L : (61915 + (3 # 10) == d1 - 32 /\ 63805 + (2 # 10) == d6 + 32)%Q) by (split; reflexivity). destruct L as [L1 L2]. clearbody d1 d2 d3 d4 d5 d6.
  destruct (D (d1 + 32)%Q); [left; left; lra|]. destruct (D2 (d1 + 33)%Q); [right; right; left; left; lra|].
  destruct (D (d2 - 33)%Q); [right; left; left; lra|]. destruct (D2 (d2 - 32)%Q); [right; right; right; left; right; lra|]. destruct (D (d2 + 32)%Q); [left; right; left; lra|]. destruct (D2 (d2 + 33)%Q); [right; right; right; left; left; lra|].
  destruct (D (d3 - 33)%Q); [right; left; right; left; lra|]. destruct (D2 (d3 - 32)%Q); [right; right; right; right; left; right; lra|]. destruct (D (d3 + 32)%Q); [left; right; right; left; lra|]. destruct (D2 (d3 + 33)%Q); [right; right; right; right; left; left; lra|].
  destruct (D (d4 - 33)%Q); [right; left; right; right; left; lra|]. destruct (D2 (d4 - 32)%Q); [right; right; right; right; right; left; right; lra|]. destruct (D (d4 + 32)%Q); [left; right; right; right; left; lra|]. destruct (D2 (d4 + 33)%Q); [right; right; right; right; right; left; left; lra|].
  destruct (D (d5 - 33)%Q); [right; left; right; right; right; left; lra|]. destruct (D2 (d5 - 32)%Q); [right; right; right; right; right; right; left; right; lra|]. destruct (D (d5 + 32)%Q); [left; right; right; right; right; left; lra|]. destruct (D2 (d5 + 33)%Q); [right; right; right; right; right; right; left; left; lra|].
  destruct (D (d6 - 33)%Q); [right; left; right; right; right; right; left; lra|]. destruct (D2 (d6 - 32)%Q); [right; right; right; right; right; right; right; left; right; lra|]. left; right; right; right; right; right; left; lra.
Qed.

(** When a survey goes. *)
Section Goes.
Variable pix : Z -> nat.
Variable rad : Q -> Q.
Variable order : list obs -> list obs.
Hypothesis sorted : sorts order.
(** Up: the hour angle of the field is within four hours of the meridian; dark: between the twilights of 18 degrees. *)
Definition field_up (c : tcond) : Prop := exists k, (- (4) <= tc_lmst c - roman_ra * (1 # 15) + inject_Z k * 24 < 4)%Q.
Definition dark (c : tcond) : Prop := (tc_n18_set c <= tc_mjd c <= tc_n18_rise c)%Q.
Definition rested (delay : Q) (w : world) : Prop := (match w_last w with Some v => fv_mjd v | None => 0 end + delay <= tc_mjd (w_tc w))%Q.
Lemma up_iff : forall c, ha_limit roman_ra [(20, 24); (0, 4)]%Q c = true <-> field_up c.
Proof.
  intros c. rewrite C80_hour_angle_partial. 2: { intros l [<-|[<-|[]]]; simpl; lra. } unfold field_up. set (x := (tc_lmst c - roman_ra * (1 # 15))%Q). clearbody x. split.
  - intros [l [k [I H]]]. destruct I as [<-|[<-|[]]]; cbn [fst snd] in H; [|exists k; lra]. exists (k - 1)%Z. assert (J : (inject_Z (k - 1) == inject_Z k - 1)%Q) by (change 1%Q with (inject_Z 1); unfold Qminus; rewrite <- inject_Z_opp, <- inject_Z_plus; reflexivity). lra.
  - intros [k H]. destruct (Qlt_le_dec (x + inject_Z k * 24) 0) as [N|N]; [exists (20, 24)%Q, (k + 1)%Z; split; [left; reflexivity|]; rewrite inject_Z_plus; change (inject_Z 1) with 1%Q; cbn [fst snd]; lra|].
    exists (0, 4)%Q, k. split; [right; left; reflexivity|]. cbn [fst snd]. lra.
Qed.
Lemma dark_iff : forall c, exists b, not_twilight 18 c = Ok b /\ (b = true <-> dark c).
Proof. intros c. apply C80_not_twilight; right; split; reflexivity. Qed.
Lemma rested_iff : forall d w, fd_check d (w_last w) (tc_mjd (w_tc w)) = true <-> rested d w.
Proof. intros d w. unfold fd_check, rested, last_mjd. rewrite negb_true_iff, Qltb_false. set (x := match w_last w with Some _ => _ | None => _ end). clearbody x. split; lra. Qed.
Lemma masks_pass : forall l, forallb mask_check l = true.
Proof. induction l; [reflexivity|exact IHl]. Qed.
Lemma then_true : forall a b, and_then a b = Ok true <-> a = Ok true /\ b = Ok true.
Proof. intros [[|]|e] b; unfold and_then; cbn [bind]; intuition congruence. Qed.
Theorem C120_on_goes : forall nside e n safety w, roman_check pix (gen_roman_on_season nside e n safety) w = Ok true <->
  field_up (w_tc w) /\ dark (w_tc w) /\ rested (8 # 10) w /\ on_at (tc_mjd (w_tc w)).
Proof.
  intros nside e n safety w. unfold roman_check, gen_roman_on_season. cbn [r_masks r_delay r_windows r_airmass]. rewrite !then_true, masks_pass. destruct (dark_iff (w_tc w)) as [b [E B]]. destruct (C120_on_season (w_tc w)) as [b' [E' B']].
  rewrite E, E', <- B, <- B', <- up_iff, <- rested_iff. intuition congruence.
Qed.
(** Off season the field has an airmass between 1.05 and 2.7, at the resolution 32. *)
Theorem C120_off_goes_partial : forall e n safety w, (pix 32 < List.length (w_airmass w))%nat -> roman_check pix (gen_roman_off_season 32 e n safety) w = Ok true <->
  field_up (w_tc w) /\ dark (w_tc w) /\ rested 3 w /\ off_at (tc_mjd (w_tc w)) /\ exists a, nth_error (w_airmass w) (pix 32) = Some (EFin a) /\ (105 # 100 <= a <= 27 # 10)%Q.
Proof.
  intros e n safety w L. unfold roman_check, gen_roman_off_season. cbn [r_masks r_delay r_windows r_airmass]. rewrite !then_true, masks_pass. destruct (dark_iff (w_tc w)) as [b [E B]]. destruct (C120_off_season (w_tc w)) as [b' [E' B']].
  assert (A : airmass_point pix 32 w = Ok true <-> exists a, nth_error (w_airmass w) (pix 32) = Some (EFin a) /\ (105 # 100 <= a <= 27 # 10)%Q).
  { unfold airmass_point. apply nth_error_Some in L. destruct (nth_error (w_airmass w) (pix 32)) as [x|]; [|congruence]. unfold in_airmass. split.
    - intros H. destruct x as [| |q|]; try discriminate H. injection H as H. apply andb_true_iff in H. rewrite !Qle_bool_iff in H. exists q. split; [reflexivity|exact H].
    - intros [a [X H]]. injection X as ->. f_equal. apply andb_true_iff. rewrite !Qle_bool_iff. exact H. }
  rewrite E, E', A, <- B, <- B', <- up_iff, <- rested_iff. intuition congruence.
Qed.
(** At another resolution the pixel is looked up in a map of the resolution 32: past its end. *)
Theorem C120_resolution_refuted : forall nside e n safety w, (List.length (w_airmass w) <= pix nside)%nat -> field_up (w_tc w) -> dark (w_tc w) -> rested 3 w -> off_at (tc_mjd (w_tc w)) ->
  roman_check pix (gen_roman_off_season nside e n safety) w = Raise IndexError.
Proof.
  intros nside e n safety w L U D R' O. unfold roman_check, gen_roman_off_season. cbn [r_masks r_delay r_windows r_airmass]. rewrite masks_pass. destruct (dark_iff (w_tc w)) as [b [E B]]. destruct (C120_off_season (w_tc w)) as [b' [E' B']].
  apply up_iff in U. apply rested_iff in R'. apply B in D. apply B' in O. subst b b'. rewrite U, E, R', E'. unfold and_then. cbn [bind]. unfold airmass_point. apply nth_error_None in L. rewrite L. reflexivity.
Qed.
(** The masks asked for change nothing: near the moon, beyond the limits of altitude or into the wind, the survey goes the same. *)
Theorem C120_masks_refuted : forall nside e n s1 s2 w, roman_generate pix rad order (gen_roman_on_season nside e n s1) w = roman_generate pix rad order (gen_roman_on_season nside e n s2) w /\
  roman_generate pix rad order (gen_roman_off_season nside e n s1) w = roman_generate pix rad order (gen_roman_off_season nside e n s2) w.
Proof.
  intros nside e n s1 s2 w. unfold roman_generate, roman_survey, roman_sequence, roman_check. cbn [r_masks r_delay r_windows r_airmass r_exptime r_nexp r_name r_nvis r_sequence gen_roman_on_season gen_roman_off_season]. rewrite !masks_pass. split; reflexivity.
Qed.

(** What it asks for: the visits of the sequence, each with the exposure, number of snaps and place asked, in the mounted bands. *)
Definition all_bands (w : world) : Prop := forall b, In b ["g"; "r"; "i"; "z"] -> In b (tc_bands (w_tc w)).
Definition same_visit (name : string) (e : Q) (n : Z) (o : obs) : Prop := o_exptime o = e /\ o_nexp o = n /\ o_ra o = rad roman_ra /\ o_dec o = rad roman_dec /\ o_note o = name.
Lemma generate_perm : forall r w, roman_sequence rad r <> [] -> roman_check pix r w = Ok true -> (forall o, In o (roman_sequence rad r) -> In (o_band o) (tc_bands (w_tc w))) ->
  exists l1 l2, roman_generate pix rad order r w = Ok (GArr (l1 ++ l2)) /\ (exists f, Permutation (l1 ++ l2) (map (set_flush f) (roman_sequence rad r))) /\
  (forall o, In o l1 -> o_band o = w_band w) /\ (forall o, In o l2 -> o_band o <> w_band w) /\ StronglySorted band_le l2.
Proof.
  intros r w Ne C Mt. unfold roman_generate. unfold roman_survey. assert (exists s, dd_new (W := world) order [] None 2 120 30 (roman_sequence rad r) = Ok s) as [s S'].
  { unfold dd_new. destruct (roman_sequence rad r); [contradiction|]. eexists. reflexivity. }
  rewrite S'. cbn [bind]. rewrite C. cbn [bind].
  destruct (C34_mounted_loaded_first_flush _ _ _ _ _ _ _ _ s (cond_of w) sorted S') as (f & l1 & l2 & G & _ & P & _ & A & B & St). { intros b []. }
  exists l1, l2. rewrite G. split; [reflexivity|]. split; [|split; [exact A|split; [exact B|exact St]]]. exists f. rewrite P. apply Permutation_map.
  assert (F : filter (fun o => existsb (String.eqb (o_band o)) (sc_mounted (cond_of w))) (roman_sequence rad r) = roman_sequence rad r).
  { revert Mt. clear. induction (roman_sequence rad r) as [|o l IH]; intros Mt; [reflexivity|]. cbn [filter]. 
    assert (E : existsb (String.eqb (o_band o)) (sc_mounted (cond_of w)) = true). { apply existsb_exists. exists (o_band o). split; [apply (Mt o); left; reflexivity|apply String.eqb_refl]. }
    rewrite E, IH; [reflexivity|]. intros x X. apply Mt. right. exact X. }
  rewrite F. reflexivity.
Qed.
Theorem C120_on_visits : forall nside e n safety w, roman_check pix (gen_roman_on_season nside e n safety) w = Ok true -> all_bands w ->
  exists l, roman_generate pix rad order (gen_roman_on_season nside e n safety) w = Ok (GArr l) /\ Permutation (map o_band l) ["g"; "i"; "r"; "i"; "z"] /\ Forall (same_visit "DD: RGES_onseason" e n) l.
Proof.
  intros nside e n safety w C M. destruct (generate_perm (gen_roman_on_season nside e n safety) w) with (2 := C) as (l1 & l2 & G & [f P] & _); [discriminate| |].
  { intros o I. cbn in I. unfold all_bands in M. destruct I as [<-|[<-|[<-|[<-|[<-|[]]]]]]; cbn [entry o_band]; apply M; simpl; tauto. }
  exists (l1 ++ l2). split; [exact G|]. split; [apply (Permutation_map o_band) in P; rewrite P; apply Permutation_refl|]. apply Forall_forall. intros o I. apply (Permutation_in _ P) in I. cbn in I.
  destruct I as [<-|[<-|[<-|[<-|[<-|[]]]]]]; cbn; unfold same_visit; cbn; repeat split.
Qed.
Theorem C120_off_visits : forall nside e n safety w, roman_check pix (gen_roman_off_season nside e n safety) w = Ok true -> all_bands w ->
  exists l, roman_generate pix rad order (gen_roman_off_season nside e n safety) w = Ok (GArr l) /\ Permutation (map o_band l) ["g"; "g"; "r"; "r"; "i"; "i"; "z"; "z"] /\ Forall (same_visit "DD: RGES_offseason" e n) l.
Proof.
  intros nside e n safety w C M. destruct (generate_perm (gen_roman_off_season nside e n safety) w) with (2 := C) as (l1 & l2 & G & [f P] & _); [discriminate| |].
  { intros o I. cbn in I. unfold all_bands in M. destruct I as [<-|[<-|[<-|[<-|[<-|[<-|[<-|[<-|[]]]]]]]]]; cbn [entry o_band]; apply M; simpl; tauto. }
  exists (l1 ++ l2). split; [exact G|]. split; [apply (Permutation_map o_band) in P; rewrite P; apply Permutation_refl|]. apply Forall_forall. intros o I. apply (Permutation_in _ P) in I. cbn in I.
  destruct I as [<-|[<-|[<-|[<-|[<-|[<-|[<-|[<-|[]]]]]]]]]; cbn; unfold same_visit; cbn; repeat split.
Qed.
(** Nothing is asked for when a gate is shut. *)
Theorem C120_shut : forall r w, roman_sequence rad r <> [] -> roman_check pix r w = Ok false -> roman_generate pix rad order r w = Ok GPyList.
Proof. intros r w Ne C. unfold roman_generate, roman_survey, dd_new. destruct (roman_sequence rad r); [contradiction|]. cbn [bind]. rewrite C. reflexivity. Qed.
(** The order giriz is not kept: whatever the band in use, the two visits in i follow each other. *)
Lemma on_new : forall nside e n safety, roman_survey rad order (gen_roman_on_season nside e n safety) = roman_survey rad Surveys_proofs.band_sort (gen_roman_on_season nside e n safety).
Proof. intros. apply C34_string_sequence_deterministic; [exact sorted|exact band_sort_sorts]. Qed.
Theorem C120_order_refuted : forall nside e n safety w, roman_check pix (gen_roman_on_season nside e n safety) w = Ok true -> all_bands w ->
  exists l pre post, roman_generate pix rad order (gen_roman_on_season nside e n safety) w = Ok (GArr l) /\ map o_band l = pre ++ "i" :: "i" :: post.
Proof.
  intros nside e n safety w C M. unfold roman_generate. rewrite on_new, C. unfold roman_survey, dd_new.
  replace (Surveys_proofs.band_sort (roman_sequence rad (gen_roman_on_season nside e n safety))) with (map (fun b => entry b (rad roman_ra) (rad roman_dec) e n "DD: RGES_onseason") ["g"; "i"; "i"; "r"; "z"]) by reflexivity.
  change (roman_sequence rad (gen_roman_on_season nside e n safety)) with (map (fun b => entry b (rad roman_ra) (rad roman_dec) e n "DD: RGES_onseason") ["g"; "i"; "r"; "i"; "z"]).
  cbn [map bind]. unfold dd_generate. cbn [dd_bfs feasible dd_obs dd_pad]. set (ap := dd_approx _). clearbody ap. cbn [map].
  assert (Mt : forall b f, In b ["g"; "r"; "i"; "z"] -> mounted (cond_of w) (set_flush f (entry b (rad roman_ra) (rad roman_dec) e n "DD: RGES_onseason")) = true).
  { intros b f I. unfold mounted. apply existsb_exists. exists b. split; [apply M; exact I|apply String.eqb_refl]. }
  cbn [filter]. rewrite !Mt by (simpl; tauto). cbn [filter]. cbn [set_flush entry o_band cond_of sc_band].
  destruct (String.eqb "g" (w_band w)) eqn:Eg; [|destruct (String.eqb "i" (w_band w)) eqn:Ei; [|destruct (String.eqb "r" (w_band w)) eqn:Er; [|destruct (String.eqb "z" (w_band w)) eqn:Ez]]];
    repeat match goal with H : String.eqb _ (w_band w) = true |- _ => apply String.eqb_eq in H; rewrite <- H end; cbn; eexists.
  - exists ["g"], ["r"; "z"]. split; reflexivity.
  - exists [], ["g"; "r"; "z"]. split; reflexivity.
  - exists ["r"; "g"], ["z"]. split; reflexivity.
  - exists ["z"; "g"], ["r"]. split; reflexivity.
  - exists ["g"], ["r"; "z"]. split; reflexivity.
Qed.
(** The estimate of the time of a sequence, and the shadow of its masks: enough on season, too short off season. *)
Lemma off_new : forall nside e n safety, roman_survey rad order (gen_roman_off_season nside e n safety) = roman_survey rad Surveys_proofs.band_sort (gen_roman_off_season nside e n safety).
Proof. intros. apply C34_string_sequence_deterministic; [exact sorted|exact band_sort_sorts]. Qed.
Theorem C120_on_shadow : forall nside e n safety s, (e + 2 * inject_Z n <= 48)%Q -> roman_survey rad order (gen_roman_on_season nside e n safety) = Ok s ->
  forall ns lo hi a b x, In (AltAzShadowMask ns lo hi a b x) (r_masks (gen_roman_on_season nside e n safety)) -> (dd_approx s * 1440 <= x)%Q.
Proof.
  intros nside e n safety s He S' ns lo hi a b x I.
  assert (Ap : (dd_approx s * 1440 <= 12)%Q).
  { rewrite on_new in S'. injection S' as <-. cbn [dd_approx]. unfold Qsum. match goal with |- (?a * _ <= _)%Q => assert (E : (a == (5 * (e + 2 * inject_Z n) + 480) * (1 # 86400))%Q) end. { cbn [map fold_right]. change (inject_Z 4) with 4%Q. field. } rewrite E. lra. }
  assert (X : (12 <= x)%Q); [|lra]. cbn [r_masks gen_roman_on_season] in I. unfold safety_masks, at_least in I. apply in_app_or in I. destruct I as [I|I].
  - simpl in I. destruct I as [J|[J|[J|[J|[]]]]]; try discriminate J. injection J as _ _ _ _ _ <-. set (p := base_params nside safety). destruct (p_shadow p) as [y|] eqn:E; [destruct (Qle_bool 12 y) eqn:L|].
    + rewrite E. apply Qle_bool_iff. exact L.
    + cbn. lra.
    + cbn. lra.
  - match type of I with In _ (if ?c then _ else _) => destruct c end; simpl in I; [destruct I as [J|[]]; discriminate J|destruct I].
Qed.
Theorem C120_off_shadow_refuted : forall nside, exists s, roman_survey rad order (gen_roman_off_season nside 30 1 None) = Ok s /\
  exists lo hi a b x, In (AltAzShadowMask nside lo hi a b x) (r_masks (gen_roman_off_season nside 30 1 None)) /\ (x < dd_approx s * 1440)%Q.
Proof.
  intros nside. rewrite off_new. eexists. split; [reflexivity|]. do 5 eexists. split; [right; right; right; left; reflexivity|]. vm_compute. reflexivity.
Qed.
End Goes.

(** How often: visits of two sequences of a survey are at least its delay apart, whatever else is observed; the other season does not count. *)
Definition with_delay (d : Q) (name : string) (l : list Props_GateLoop.event) : Prop := obeys (fd_add (Some name)) fd0 (fun s t => fd_check d s t = true) l.
Theorem C120_apart : forall nside e n safety l pre t vs post w v,
  (with_delay (r_delay (gen_roman_on_season nside e n safety)) (r_name (gen_roman_on_season nside e n safety)) l /\ fv_note w = "DD: RGES_onseason" -> timely l -> l = pre ++ Own t vs :: post -> In w (history pre) -> In v vs -> (fv_mjd w + (4 # 5) <= fv_mjd v)%Q) /\
  (with_delay (r_delay (gen_roman_off_season nside e n safety)) (r_name (gen_roman_off_season nside e n safety)) l /\ fv_note w = "DD: RGES_offseason" -> timely l -> l = pre ++ Own t vs :: post -> In w (history pre) -> In v vs -> (fv_mjd w + 3 <= fv_mjd v)%Q).
Proof.
  intros nside e n safety l pre t vs post w v. split; intros [O N] T El W V.
  - change (4 # 5)%Q with (Qred (8 # 10)). rewrite Qred_correct. eapply C78_delay; try eassumption. unfold carries. rewrite N. exists "", "". reflexivity.
  - eapply C78_delay; try eassumption. unfold carries. rewrite N. exists "", "". reflexivity.
Qed.
(** Every third day is not kept: the delay counts from the last visit of the sequence, so three days after its first the gate is shut. *)
Theorem C120_third_day_refuted : forall nside e n safety w v t, w_last w = Some v -> (t < fv_mjd v)%Q -> (tc_mjd (w_tc w) == t + 3)%Q -> ~ rested (r_delay (gen_roman_off_season nside e n safety)) w.
Proof. intros nside e n safety w v t L T E. unfold rested. rewrite L. cbn [r_delay gen_roman_off_season]. lra. Qed.
(** The visits of one season do not hold back the other. *)
Theorem C120_seasons_independent : forall s v, (fv_note v = "DD: RGES_offseason" -> fd_add (Some "DD: RGES_onseason") s v = s) /\ (fv_note v = "DD: RGES_onseason" -> fd_add (Some "DD: RGES_offseason") s v = s).
Proof.
  intros s v. unfold fd_add, lo_one. split; intros E; replace (lo_match _ _ v) with false; try reflexivity; symmetry; apply not_true_iff_false; unfold lo_match; rewrite andb_true_iff; intros [H _]; unfold note_has in H; rewrite E in H; discriminate H.
Qed.

(** ** Examples *)
(** A dark moment of the first season on, a day after the last sequence, the field on the meridian. *)
Definition ex_cond (t : Q) : tcond := mkTc t 100 (-1) 0 (roman_ra * (1 # 15)) (t - (3 # 10)) (t - (2 # 10)) (t + (2 # 10)) (t + (3 # 10)) t t ["g"; "r"; "i"; "z"; "y"] [].
Definition ex_world (t : Q) (band : string) (last : Q) : world := World (ex_cond t) band (Some (mkFv 0 99 last "g" "DD: RGES_onseason" "" ENaN ENaN 0 [])) [EFin 2; EFin 3].
Example C120_ex_on : exists l, roman_generate (fun _ => 0%nat) (fun x => x / 57)%Q Surveys_proofs.band_sort (gen_roman_on_season 32 30 1 None) (ex_world 61950 "r" 61949) = Ok (GArr l) /\ map o_band l = ["r"; "g"; "i"; "i"; "z"].
Proof. eexists. split; vm_compute; reflexivity. Qed.
Example C120_ex_on_gates : field_up (w_tc (ex_world 61950 "r" 61949)) /\ dark (w_tc (ex_world 61950 "r" 61949)) /\ rested (8 # 10) (ex_world 61950 "r" 61949) /\ on_at 61950 /\ all_bands (ex_world 61950 "r" 61949).
Proof.
  split; [exists 0%Z; vm_compute; split; [discriminate|reflexivity]|]. split; [split; vm_compute; discriminate|]. split; [vm_compute; discriminate|].
  split; [exists (61947 + (3 # 10))%Q; split; [left; reflexivity|split; vm_compute; discriminate]|]. intros b I. simpl in *. tauto.
Qed.
Example C120_ex_off : roman_check (fun _ => 0%nat) (gen_roman_off_season 32 30 1 None) (ex_world 62100 "r" 62000) = Ok true /\ roman_check (fun n => if (n =? 32)%Z then 0%nat else 2%nat) (gen_roman_off_season 64 30 1 None) (ex_world 62100 "r" 62000) = Raise IndexError
  /\ roman_check (fun _ => 0%nat) (gen_roman_on_season 32 30 1 None) (ex_world 62100 "r" 62000) = Ok false /\ off_at 62100.
Proof. split; [vm_compute; reflexivity|]. split; [vm_compute; reflexivity|]. split; [vm_compute; reflexivity|]. do 2 eexists. exists []. eexists. split; [reflexivity|]. split; vm_compute; discriminate. Qed.
Example C120_ex_shadow : exists s, roman_survey (fun x => x / 57)%Q Surveys_proofs.band_sort (gen_roman_on_season 32 30 1 None) = Ok s /\ (dd_approx s * 1440 == 32 # 3)%Q.
Proof. eexists. split; [reflexivity|vm_compute; reflexivity]. Qed.
Example C120_ex_third : (fv_mjd (mkFv 0 99 (62100 + (1 # 100)) "z" "DD: RGES_offseason" "" ENaN ENaN 0 []) > 62100)%Q /\ ~ on_at 62100.
Proof. split; [vm_compute; reflexivity|]. intros H. apply (C120_never_both 62100); [exact H|]. do 2 eexists. exists []. eexists. split; [reflexivity|]. split; vm_compute; discriminate. Qed.
Example C120_ex_apart : exists l, with_delay (8 # 10) "DD: RGES_onseason" l /\ timely l /\ List.length l = 2%nat.
Proof.
  set (v t := mkFv 0 99 t "g" "DD: RGES_onseason" "" ENaN ENaN 0 []). exists [Own 61950 [v 61950%Q]; Own 61951 [v 61951%Q]]. split; [|split; [|reflexivity]].
  - intros pre t vs post E. destruct pre as [|a [|b pre]]; [injection E as <- <- _; vm_compute; reflexivity|injection E as <- <- <- _; vm_compute; reflexivity|destruct pre; discriminate E].
  - split; [repeat constructor; vm_compute; discriminate|]. intros t vs w [E|[E|[]]] I; injection E as <- <-; destruct I as [<-|[]]; vm_compute; discriminate.
Qed.

Print Assumptions C120_on_season.
Print Assumptions C120_off_season.
Print Assumptions C120_never_both.
Print Assumptions C120_whole_span.
Print Assumptions C120_on_goes.
Print Assumptions C120_off_goes_partial.
Print Assumptions C120_resolution_refuted.
Print Assumptions C120_masks_refuted.
Print Assumptions C120_on_visits.
Print Assumptions C120_off_visits.
Print Assumptions C120_shut.
Print Assumptions C120_order_refuted.
Print Assumptions C120_on_shadow.
Print Assumptions C120_off_shadow_refuted.
Print Assumptions C120_apart.
Print Assumptions C120_third_day_refuted.
Print Assumptions C120_seasons_independent.
