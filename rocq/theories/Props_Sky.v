(** C83: sky masks keep exactly the sky within their limits. *)
From Coq Require Import List ZArith QArith Qround Qabs Bool Lia Lqa.
From Verif Require Import Base IntRounded Feat_proofs2 Sky Sky_proofs.
Import ListNotations.
Open Scope nat_scope.

Ltac lens := unfold ir_lt, ir_le, ir_gt, ir_ge in *; repeat (rewrite both_len || rewrite either_len); rewrite ?cmp_len, ?filled_len; auto.

Definition at_ (m : list er) (p : nat) : er := nth p m ENaN.
Definition val (xs : list Q) (p : nat) : Q := nth p xs 0%Q.
(** No value of the map is within a part in a billion of the limit. *)
Definition untied (xs : list Q) (lim : Q) : Prop :=
  forall x, In x xs -> (lim == 0)%Q \/ ((1 # 1000000000) * Qabs lim < Qabs (x - lim))%Q.

(** ** MoonAvoidance *)
Theorem C83_moon_partial : forall lim sep p, p < List.length sep -> untied sep lim ->
  at_ (moon_mask lim sep) p = if Qltb (val sep p) lim then ENaN else EFin 1.
Proof.
  intros lim sep p P U. unfold at_, moon_mask. rewrite nth_set_where by lens.
  unfold ir_lt. rewrite cmp_far by assumption. rewrite nth_filled by exact P. reflexivity.
Qed.
Print Assumptions C83_moon_partial.
(** Whatever the ties, only pixels closer than the limit are masked. *)
Theorem C83_moon_never_too_much : forall lim sep p, p < List.length sep -> at_ (moon_mask lim sep) p = ENaN -> (val sep p < lim)%Q.
Proof.
  intros lim sep p P. unfold at_, moon_mask. rewrite nth_set_where by lens. rewrite nth_filled by exact P.
  destruct (nth p (cmp_all (ir_lt sep [lim])) false) eqn:E; [|discriminate]. intros _. exact (lt_sound sep lim p P E).
Qed.
Print Assumptions C83_moon_never_too_much.
(** One pixel at the limit opens another 1.3 degrees inside 30 degrees. *)
Theorem C83_moon_refuted : exists lim sep p, p < List.length sep /\ (val sep p + (22 # 1000) < lim)%Q /\ at_ (moon_mask lim sep) p = EFin 1.
Proof. exists (5236 # 10000)%Q, [5236 # 10000; 501 # 1000]%Q, 1. split; [cbn; lia|]. split; reflexivity. Qed.
Print Assumptions C83_moon_refuted.

(** ** Solar elongation *)
Theorem C83_elongation_partial : forall lo hi pen el p, p < List.length el -> untied el lo -> untied el hi ->
  at_ (elongation_mask lo hi pen el) p = if Qle_bool lo (val el p) && Qle_bool (val el p) hi then EFin 1 else pen.
Proof.
  intros lo hi pen el p P U1 U2. unfold at_, elongation_mask. unfold ir_ge, ir_le.
  rewrite nth_set_where by lens. rewrite both_nth by (rewrite !cmp_len; reflexivity).
  rewrite !cmp_far by assumption. rewrite nth_filled by exact P. reflexivity.
Qed.
Print Assumptions C83_elongation_partial.
Theorem C83_elongation_kept : forall lo hi pen el p, p < List.length el -> (lo <= val el p <= hi)%Q -> at_ (elongation_mask lo hi pen el) p = EFin 1.
Proof.
  intros lo hi pen el p P [H1 H2]. unfold at_, elongation_mask. rewrite nth_set_where by lens.
  rewrite both_nth by (unfold ir_ge, ir_le; rewrite !cmp_len; reflexivity). rewrite ge_kept, le_kept by assumption. reflexivity.
Qed.
Print Assumptions C83_elongation_kept.
Theorem C83_elongation_refuted : exists lo hi pen el p, p < List.length el /\ (hi + (4 # 10) < val el p)%Q /\ pen = ENaN /\ at_ (elongation_mask lo hi pen el) p = EFin 1.
Proof. exists 0%Q, (1047 # 1000)%Q, ENaN, [1047 # 1000; 1449 # 1000]%Q, 1. split; [cbn; lia|]. repeat split. Qed.
Print Assumptions C83_elongation_refuted.
Theorem C83_elong_partial : forall lim el p, p < List.length el -> untied el lim ->
  at_ (elong_mask lim el) p = if Qltb lim (val el p) then ENaN else EFin 0.
Proof.
  intros lim el p P U. unfold at_, elong_mask. rewrite nth_set_where by lens.
  unfold ir_gt. rewrite cmp_far by assumption. rewrite nth_filled by exact P. reflexivity.
Qed.
Print Assumptions C83_elong_partial.
Theorem C83_elong_never_too_much : forall lim el p, p < List.length el -> at_ (elong_mask lim el) p = ENaN -> (lim < val el p)%Q.
Proof.
  intros lim el p P. unfold at_, elong_mask. rewrite nth_set_where by lens. rewrite nth_filled by exact P.
  destruct (nth p (cmp_all (ir_gt el [lim])) false) eqn:E; [|discriminate]. intros _. exact (gt_sound el lim p P E).
Qed.
Print Assumptions C83_elong_never_too_much.

(** ** Hour angles *)
(** [h] is an hour angle of right ascension [ra], give or take days. *)
Definition hour_angle (lmst ra h : Q) : Prop := exists k : Z, (h == lmst - ra + 24 * inject_Z k)%Q.
Definition day (x : Q) : Prop := (0 <= x < 24)%Q.
Lemma calc_ha_spec : forall lmst ra, day lmst -> day ra -> day (calc_ha lmst ra) /\ hour_angle lmst ra (calc_ha lmst ra).
Proof.
  intros lmst ra [L1 L2] [R1 R2]. unfold calc_ha, day, hour_angle. destruct (Qltb (lmst - ra) 0) eqn:E.
  - apply Qltb_lt in E. split; [lra|]. exists 1%Z. ring.
  - apply Qltb_false in E. split; [lra|]. exists 0%Z. change (inject_Z 0) with 0%Q. ring.
Qed.
Lemma unique_day : forall lmst ra h h', hour_angle lmst ra h -> hour_angle lmst ra h' -> day h -> day h' -> (h == h')%Q.
Proof.
  intros lmst ra h h' [k K] [k' K'] [A B] [A' B']. assert (E : k = k'); [|subst k'; lra].
  assert (D : (-1 < k - k' < 1)%Z); [|lia].
  assert (G : (inject_Z (-1) < inject_Z (k - k') < inject_Z 1)%Q); [|destruct G as [G1 G2]; rewrite <- Zlt_Qlt in G1, G2; lia].
  unfold Z.sub. rewrite inject_Z_plus, inject_Z_opp. change (inject_Z (-1)) with (-1)%Q. change (inject_Z 1) with 1%Q. lra.
Qed.
(** Limits between zero and 24 hours are kept. *)
Theorem C83_ha_partial : forall lo hi lmst ras p, p < List.length ras -> day lmst -> (forall r, In r ras -> day r) ->
  (forall a, lo = Some a -> day a) -> (forall b, hi = Some b -> day b) ->
  (at_ (ha_mask lo hi (map (calc_ha lmst) ras)) p = EFin 0 <->
   exists h, hour_angle lmst (val ras p) h /\ day h /\ (forall a, lo = Some a -> (a <= h)%Q) /\ (forall b, hi = Some b -> (h <= b)%Q)) /\
  (at_ (ha_mask lo hi (map (calc_ha lmst) ras)) p = EFin 0 \/ at_ (ha_mask lo hi (map (calc_ha lmst) ras)) p = ENaN).
Proof.
  intros lo hi lmst ras p P L R Lo Hi. unfold at_, ha_mask. rewrite map_map.
  rewrite (nth_indep _ ENaN (if ha_out lo hi (calc_ha lmst 0) then ENaN else EFin 0)) by (rewrite map_length; exact P).
  rewrite (map_nth (fun x => if ha_out lo hi (calc_ha lmst x) then ENaN else EFin 0) ras 0%Q p). fold (val ras p). set (r := val ras p).
  assert (Dr : day r) by (apply R, nth_In; exact P). destruct (calc_ha_spec lmst r L Dr) as [D H]. set (h := calc_ha lmst r) in *. clearbody h.
  assert (O : ha_out lo hi h = false <-> (forall a, lo = Some a -> (a <= h)%Q) /\ (forall b, hi = Some b -> (h <= b)%Q)).
  { unfold ha_out. rewrite orb_false_iff. destruct lo as [a|], hi as [b|]; rewrite ?Qltb_false; split; intros [X Y]; split; auto; try (intros ? Z; injection Z as <-; assumption); try discriminate; try (intros; discriminate). }
  split; [|destruct (ha_out lo hi h); auto]. destruct (ha_out lo hi h) eqn:E.
  - split; [discriminate|]. intros (h' & H' & D' & X & Y). exfalso. pose proof (unique_day _ _ _ _ H H' D D') as Q.
    assert (F : true = false) by (apply O; split; [intros a A; rewrite Q; auto|intros b B; rewrite Q; auto]). discriminate.
  - split; [|reflexivity]. intros _. exists h. destruct (proj1 O eq_refl) as [X Y]. auto.
Qed.
Print Assumptions C83_ha_partial.
(** With limits from three hours before to three hours after transit, a pixel an hour before it is
    masked; with only the first limit nothing is. *)
Theorem C83_ha_refuted : (exists lo hi lmst ra h, day lmst /\ day ra /\ hour_angle lmst ra h /\ (lo <= h <= hi)%Q /\
  at_ (ha_mask (Some lo) (Some hi) [calc_ha lmst ra]) 0 = ENaN) /\
  forall lo lmst ras p, (lo <= 0)%Q -> day lmst -> (forall r, In r ras -> day r) -> p < List.length ras -> at_ (ha_mask (Some lo) None (map (calc_ha lmst) ras)) p = EFin 0.
Proof.
  split.
  - exists (-3)%Q, 3%Q, 0%Q, 1%Q, (-1)%Q. split; [split; reflexivity || (vm_compute; congruence)|]. split; [split; reflexivity || (vm_compute; congruence)|].
    split; [exists 0%Z; reflexivity|]. split; [split; vm_compute; congruence|reflexivity].
  - intros lo lmst ras p Lo L R P. unfold at_, ha_mask. rewrite map_map. rewrite (nth_indep _ ENaN (if ha_out (Some lo) None (calc_ha lmst 0) then ENaN else EFin 0)) by (rewrite map_length; exact P).
    rewrite (map_nth (fun x => if ha_out (Some lo) None (calc_ha lmst x) then ENaN else EFin 0) ras 0%Q p).
    destruct (calc_ha_spec lmst (nth p ras 0%Q) L (R _ (nth_In _ _ P))) as [[D _] _]. unfold ha_out. rewrite (proj2 (Qltb_false _ _)) by lra. reflexivity.
Qed.
Print Assumptions C83_ha_refuted.
(** HaMask and RevHaMask are complements. *)
Theorem C83_ha_complement : forall lo hi has p, p < List.length has -> (at_ (ha_mask lo hi has) p = ENaN <-> at_ (rev_ha_mask lo hi has) p <> ENaN).
Proof.
  intros lo hi has p P. unfold at_, ha_mask, rev_ha_mask.
  rewrite (nth_indep _ ENaN (if ha_out lo hi 0 then ENaN else EFin 0)) by (rewrite map_length; exact P). rewrite (map_nth (fun h => if ha_out lo hi h then ENaN else EFin 0)).
  rewrite (nth_indep _ ENaN (if ha_out lo hi 0 then EFin 0 else ENaN)) by (rewrite map_length; exact P). rewrite (map_nth (fun h => if ha_out lo hi h then EFin 0 else ENaN)).
  destruct (ha_out lo hi _); split; congruence.
Qed.
Print Assumptions C83_ha_complement.
(** RewardRising: pixels past transit get the penalty; before it, the nearer the more. *)
Theorem C83_rising : forall slope pen lmst r1 r2 h1 h2, (0 < slope)%Q -> day lmst -> day r1 -> day r2 -> hour_angle lmst r1 h1 -> hour_angle lmst r2 h2 ->
  ((0 <= h1 < 12)%Q -> at_ (rising_reward slope pen [calc_ha lmst r1]) 0 = pen) /\
  ((-12 <= h1 < 0)%Q -> (h1 < h2 < 0)%Q -> exists x y, at_ (rising_reward slope pen [calc_ha lmst r1]) 0 = EFin x /\ at_ (rising_reward slope pen [calc_ha lmst r2]) 0 = EFin y /\ (x < y)%Q).
Proof.
  intros slope pen lmst r1 r2 h1 h2 S L R1 R2 H1 H2.
  destruct (calc_ha_spec lmst r1 L R1) as [D1 C1], (calc_ha_spec lmst r2 L R2) as [D2 C2]. unfold at_, rising_reward. cbn [map nth]. split.
  - intros [A B]. assert (E : (calc_ha lmst r1 == h1)%Q) by (apply (unique_day lmst r1); auto; split; lra). rewrite (proj2 (Qltb_lt _ _)); [reflexivity|lra].
  - intros [A B] [A' B']. assert (N : forall r h, hour_angle lmst r h -> hour_angle lmst r (h + 24)).
    { intros r h [k K]. exists (k + 1)%Z. rewrite inject_Z_plus. change (inject_Z 1) with 1%Q. lra. }
    assert (E1 : (calc_ha lmst r1 == h1 + 24)%Q) by (apply (unique_day lmst r1); auto; split; lra).
    assert (E2 : (calc_ha lmst r2 == h2 + 24)%Q) by (apply (unique_day lmst r2); auto; split; lra).
    rewrite !(proj2 (Qltb_false _ _)) by lra. eexists. eexists. split; [reflexivity|]. split; [reflexivity|]. apply Qmult_lt_l; [exact S|lra].
Qed.
Print Assumptions C83_rising.

(** ** Seeing, wind and clouds *)
(** A pixel whose seeing is not known is not masked. *)
Theorem C83_seeing : forall lim fwhm p, p < List.length fwhm ->
  (at_ (seeing_mask lim fwhm) p = ENaN <-> (exists q, nth p fwhm ENaN = EFin q /\ (lim < q)%Q) \/ nth p fwhm ENaN = EPInf).
Proof.
  intros lim fwhm p P. unfold at_, seeing_mask. rewrite (nth_indep _ ENaN (if er_ltb (EFin lim) ENaN then ENaN else EFin 0)) by (rewrite map_length; exact P).
  rewrite (map_nth (fun s => if er_ltb (EFin lim) s then ENaN else EFin 0)). destruct (nth p fwhm ENaN) as [| |q|]; cbn [er_ltb].
  - split; [discriminate|intros [(q & X & _)|X]; discriminate].
  - split; [discriminate|intros [(q & X & _)|X]; discriminate].
  - fold (Qltb lim q). destruct (Qltb lim q) eqn:E; [apply Qltb_lt in E|apply Qltb_false in E].
    + split; [intros _; left; exists q; auto|reflexivity].
    + split; [discriminate|]. intros [(x & X & Y)|X]; [injection X as <-; lra|discriminate].
  - split; auto.
Qed.
Print Assumptions C83_seeing.
(** The mask keeps pixels with no more than the limit, and of those left the calmer ones are
    preferred. *)
Theorem C83_wind : forall lim lo speed pr p q, p < List.length pr -> q < List.length pr -> (lo <= speed)%Q ->
  (at_ (wind_mask lim (Some pr) (List.length pr)) p = ENaN <-> (lim < val pr p)%Q) /\
  exists x y, at_ (wind_pressure lo (Some (speed, pr)) (List.length pr)) p = EFin x /\ at_ (wind_pressure lo (Some (speed, pr)) (List.length pr)) q = EFin y /\
  ((x < y)%Q <-> (Qabs (val pr q) < Qabs (val pr p))%Q).
Proof.
  intros lim lo speed pr p q P Q L. unfold at_, wind_mask, wind_pressure. rewrite (proj2 (Qltb_false _ _) L). split.
  - rewrite (nth_indep _ ENaN (if Qltb lim 0 then ENaN else EFin 0)) by (rewrite map_length; exact P). rewrite (map_nth (fun x => if Qltb lim x then ENaN else EFin 0)). fold (val pr p).
    destruct (Qltb lim (val pr p)) eqn:E; [apply Qltb_lt in E|apply Qltb_false in E]; split; auto; [discriminate|lra].
  - rewrite !(nth_indep _ ENaN (EFin (0 - 0 * 0))) by (rewrite map_length; assumption). rewrite !(map_nth (fun x => EFin (0 - x * x))). fold (val pr p) (val pr q).
    eexists. eexists. split; [reflexivity|]. split; [reflexivity|]. set (a := val pr p). set (b := val pr q). clearbody a b.
    assert (Sq : forall z, (z * z == Qabs z * Qabs z)%Q) by (intro z; rewrite <- Qabs_Qmult; symmetry; apply Qabs_pos; nra).
    rewrite (Sq a), (Sq b). pose proof (Qabs_nonneg a). pose proof (Qabs_nonneg b). set (x := Qabs a) in *. set (y := Qabs b) in *. clearbody x y. split; intro; nra.
Qed.
Print Assumptions C83_wind.
Theorem C83_no_wind : forall lim lo npix p, p < npix -> at_ (wind_mask lim None npix) p = EFin 0 /\ at_ (wind_pressure lo None npix) p = EFin 0.
Proof. intros. unfold at_, wind_mask, wind_pressure. split; (erewrite nth_indep; [apply nth_repeat|rewrite repeat_length; assumption]). Qed.
Print Assumptions C83_no_wind.
Theorem C83_cloud_partial : forall maxima out cloud p, p < List.length maxima ->
  at_ (bulk_cloud maxima out cloud) p = if Qle_bool (val maxima p) cloud then out else EFin 1.
Proof.
  intros maxima out cloud p P. unfold at_, bulk_cloud. rewrite (nth_indep _ ENaN (if Qle_bool 0 cloud then out else EFin 1)) by (rewrite map_length; exact P).
  rewrite (map_nth (fun m => if Qle_bool m cloud then out else EFin 1)). reflexivity.
Qed.
Print Assumptions C83_cloud_partial.
Theorem C83_map_cloud : forall maxima out e p, List.length e = List.length maxima -> p < List.length maxima ->
  at_ (map_cloud maxima out (Some e)) p = (if Qle_bool (val maxima p) (val e p) then out else EFin 1) /\ at_ (map_cloud maxima out None) p = EFin 1.
Proof.
  intros maxima out e p L P. unfold at_, map_cloud. split.
  - rewrite (nth_indep _ ENaN (if Qle_bool (fst (0, 0)%Q) (snd (0, 0)%Q) then out else EFin 1)) by (rewrite map_length, combine_length; lia).
    rewrite (map_nth (fun p => if Qle_bool (fst p) (snd p) then out else EFin 1)), combine_nth by auto. reflexivity.
  - erewrite nth_indep; [apply nth_repeat|rewrite repeat_length; assumption].
Qed.
Print Assumptions C83_map_cloud.
(** Where no observations are requested the documented value is not given, and a cloud equal to the
    maximum, not greater, is. *)
Theorem C83_cloud_refuted : exists maxima out cloud, out = ENaN /\ (1 < val maxima 0)%Q /\ at_ (bulk_cloud maxima out cloud) 0 = EFin 1 /\
  ~ (val maxima 1 < cloud)%Q /\ at_ (bulk_cloud maxima out cloud) 1 = out.
Proof. exists [2; 7 # 10]%Q, ENaN, (7 # 10)%Q. repeat split. intro H. discriminate H. Qed.
Print Assumptions C83_cloud_refuted.
(** MaskAllButNES masks nothing. *)
Theorem C83_nes_refuted : forall region npix p, p < npix -> at_ (all_but_nes region npix) p = EFin 0.
Proof. intros. unfold at_, all_but_nes. erewrite nth_indep; [apply nth_repeat|rewrite repeat_length; assumption]. Qed.
Print Assumptions C83_nes_refuted.

(** ** Near the sun, and close to sunrise or sunset *)
Theorem C83_near_sun_partial : forall limit quarter pen am ts p, List.length am = List.length ts -> p < List.length am ->
  untied (flat_map (fun a => match a with EFin q => [q] | _ => [] end) am) limit -> untied (map Qabs ts) quarter ->
  (exists a, nth p am ENaN = EFin a /\ (1 <= a)%Q /\ (a < limit)%Q /\ (Qabs (val ts p) < quarter)%Q /\ at_ (near_sun limit quarter pen am ts) p = EFin (a / limit)) \/
  (~ (exists a, nth p am ENaN = EFin a /\ (1 <= a)%Q /\ (a < limit)%Q /\ (Qabs (val ts p) < quarter)%Q) /\ at_ (near_sun limit quarter pen am ts) p = pen).
Proof.
  intros limit quarter pen am ts p L P U1 U2. unfold at_. rewrite near_sun_at; [|exact L|exact P| |].
  - fold (val ts p). destruct (nth p am ENaN) as [| |a|] eqn:E; try (right; split; [intros (x & X & _); discriminate|reflexivity]).
    destruct (Qle_bool 1 a && Qltb a limit && Qltb (Qabs (val ts p)) quarter) eqn:C.
    + left. exists a. rewrite !andb_true_iff, Qle_bool_iff, !Qltb_lt in C. tauto.
    + right. split; [|reflexivity]. intros (x & X & X1 & X2 & X3). injection X as <-. apply Qle_bool_iff in X1. apply Qltb_lt in X2, X3. rewrite X1, X2, X3 in C. discriminate.
  - intros a A. apply (U1 a). apply in_flat_map. exists (EFin a). split; [exact A|now left].
  - intros j a J E. apply (U2 (Qabs (nth j ts 0%Q))). apply in_map, nth_In. lia.
Qed.
Print Assumptions C83_near_sun_partial.
Theorem C83_shadow_time : forall near events t m, events <> [] -> exists r, timed_shadow near events t m = Ok r /\
  ((exists e, In e events /\ (Qabs (t - e) < near)%Q) -> r = m) /\
  ((forall e, In e events -> (near <= Qabs (t - e))%Q) -> forall p, p < List.length m -> at_ r p = EFin 0).
Proof.
  intros near events t m N. unfold timed_shadow. destruct events as [|e0 es]; [congruence|]. cbn [map]. eexists. split; [reflexivity|].
  pose proof (min_lt (map (fun e => Qabs (t - e)) es) (Qabs (t - e0)) near) as M. split.
  - intros (e & I & H). rewrite (proj2 M); [reflexivity|]. exists (Qabs (t - e)). split; [|exact H]. destruct I as [->|I]; [now left|]. right. apply in_map_iff. exists e. auto.
  - intros H p P. destruct (Qltb _ near) eqn:E.
    + exfalso. destruct (proj1 M eq_refl) as (y & Y & L). destruct Y as [<-|Y]; [pose proof (H e0 (or_introl eq_refl)); lra|]. apply in_map_iff in Y. destruct Y as (e & <- & I). pose proof (H e (or_intror I)). lra.
    + unfold at_. erewrite nth_indep; [apply nth_repeat|rewrite repeat_length; assumption].
Qed.
Print Assumptions C83_shadow_time.

(** ** Azimuth and declination by night *)
Theorem C83_az_partial : forall limits out night az i lo hi p, nth_error limits i = Some (lo, hi) -> (lo < hi)%Q ->
  Z.of_nat i = (night mod Z.of_nat (List.length limits))%Z -> p < List.length az -> untied az lo -> untied az hi ->
  exists m, az_modulo limits out night az = Ok m /\ at_ m p = if Qle_bool lo (val az p) && Qle_bool (val az p) hi then EFin 1 else out.
Proof.
  intros limits out night az i lo hi p N L I P U1 U2. unfold az_modulo. destruct limits as [|l0 ls] eqn:E; [destruct i; discriminate|]. rewrite <- E in *. rewrite <- I, Nat2Z.id, N.
  eexists. split; [reflexivity|]. cbn [fst snd]. rewrite (proj2 (Qltb_lt _ _) L). unfold at_, az_out, ir_lt, ir_gt. cbn [fst snd].
  rewrite nth_set_where by lens. rewrite either_nth by (rewrite !cmp_len; reflexivity). rewrite !cmp_far by assumption. rewrite nth_filled by exact P. fold (val az p).
  destruct (Qltb (val az p) lo) eqn:A; [apply Qltb_lt in A|apply Qltb_false in A].
  - cbn [orb]. destruct (Qle_bool lo (val az p)) eqn:B; [apply Qle_bool_iff in B; lra|reflexivity].
  - rewrite (proj2 (Qle_bool_iff _ _) A). cbn [orb andb]. destruct (Qltb hi (val az p)) eqn:B; [apply Qltb_lt in B|apply Qltb_false in B].
    + destruct (Qle_bool (val az p) hi) eqn:C; [apply Qle_bool_iff in C; lra|reflexivity].
    + rewrite (proj2 (Qle_bool_iff _ _) B). reflexivity.
Qed.
Print Assumptions C83_az_partial.
(** Limits that go through north, as the first of the default ones do, put the whole sky out of
    bounds. *)
Theorem C83_az_north_refuted : forall limits out night az i lo hi p, nth_error limits i = Some (lo, hi) -> (hi < lo)%Q ->
  Z.of_nat i = (night mod Z.of_nat (List.length limits))%Z -> p < List.length az -> untied az lo -> untied az hi ->
  exists m, az_modulo limits out night az = Ok m /\ at_ m p = out.
Proof.
  intros limits out night az i lo hi p N L I P U1 U2. unfold az_modulo. destruct limits as [|l0 ls] eqn:E; [destruct i; discriminate|]. rewrite <- E in *. rewrite <- I, Nat2Z.id, N.
  eexists. split; [reflexivity|]. cbn [fst snd]. rewrite (proj2 (Qltb_false _ _)) by lra. unfold at_, az_out, ir_lt, ir_gt. cbn [fst snd].
  rewrite nth_set_where by lens. rewrite either_nth by (rewrite !cmp_len; reflexivity). rewrite !cmp_far by assumption. fold (val az p).
  destruct (Qltb (val az p) lo) eqn:A; [reflexivity|]. apply Qltb_false in A. rewrite (proj2 (Qltb_lt _ _)) by lra. reflexivity.
Qed.
Print Assumptions C83_az_north_refuted.
(** Bands of declination that follow one another: each pixel between the first and the last edge is
    rewarded on exactly one night of each cycle. *)
Definition follow (lo : Q) (limits : list (Q * Q)) : Prop := chained lo limits.
Theorem C83_dec : forall lo limits out night decs p, limits <> [] -> follow lo limits -> p < List.length decs ->
  (lo <= val decs p < snd (last limits (lo, lo)))%Q ->
  exists d, (0 <= d < Z.of_nat (List.length limits))%Z /\ forall d', (0 <= d' < Z.of_nat (List.length limits))%Z ->
    exists m, dec_modulo limits out (night + d') decs = Ok m /\ at_ m p = if (d' =? d)%Z then EFin 1 else EFin 0.
Proof.
  intros lo limits out night decs p NE F P H. set (n := Z.of_nat (List.length limits)). assert (Pn : (0 < n)%Z) by (unfold n; destruct limits; [congruence|cbn; lia]).
  destruct (chained_one limits lo (val decs p) F H) as (i & q & I1 & I2 & I3). assert (Li : i < List.length limits) by (apply nth_error_Some; congruence).
  exists ((Z.of_nat i - night) mod n)%Z. split; [apply Z.mod_pos_bound; exact Pn|]. intros d' D.
  assert (U : forall t, dec_modulo limits out t decs = match nth_error limits (Z.to_nat (t mod n)) with
    | Some lim => Ok (map (fun d => if Qle_bool (fst lim) d && Qltb d (snd lim) then EFin 1 else EFin 0) decs) | None => Raise IndexError end) by (intro t; unfold n; destruct limits; [congruence|reflexivity]).
  rewrite U. pose proof (Z.mod_pos_bound (night + d') n Pn) as B. set (j := Z.to_nat ((night + d') mod n)).
  assert (Lj : j < List.length limits) by (unfold j; unfold n in *; lia). destruct (nth_error limits j) as [r|] eqn:J; [|apply nth_error_None in J; lia].
  eexists. split; [reflexivity|]. unfold at_. rewrite (nth_indep _ ENaN (if Qle_bool (fst r) 0 && Qltb 0 (snd r) then EFin 1 else EFin 0)) by (rewrite map_length; exact P).
  rewrite (map_nth (fun d => if Qle_bool (fst r) d && Qltb d (snd r) then EFin 1 else EFin 0)). fold (val decs p).
  assert (K : (d' =? (Z.of_nat i - night) mod n)%Z = true <-> j = i).
  { rewrite Z.eqb_eq. unfold j. split.
    - intros ->. rewrite Z.add_mod_idemp_r by lia. replace (night + (Z.of_nat i - night))%Z with (Z.of_nat i) by lia. rewrite Z.mod_small by (unfold n; lia). apply Nat2Z.id.
    - intros E. assert (E' : ((night + d') mod n = Z.of_nat i)%Z) by lia. rewrite <- E'. rewrite Zminus_mod_idemp_l. replace (night + d' - night)%Z with d' by lia. rewrite Z.mod_small; [reflexivity|exact D]. }
  destruct (d' =? (Z.of_nat i - night) mod n)%Z.
  - rewrite (proj1 K eq_refl), I1 in J. injection J as <-. destruct I2 as [X Y]. rewrite (proj2 (Qle_bool_iff _ _) X), (proj2 (Qltb_lt _ _) Y). reflexivity.
  - destruct (Qle_bool (fst r) (val decs p) && Qltb (val decs p) (snd r)) eqn:C; [|reflexivity]. apply andb_true_iff in C. rewrite Qle_bool_iff, Qltb_lt in C.
    pose proof (I3 j r J C) as E. apply K in E. discriminate.
Qed.
Print Assumptions C83_dec.
(** The value for pixels out of bounds is not used. *)
Theorem C83_dec_out_refuted : exists limits out night decs m, out = EFin (-1) /\ ~ (fst (hd (0, 0) limits) <= val decs 0)%Q /\ dec_modulo limits out night decs = Ok m /\ at_ m 0 = EFin 0.
Proof. exists [((-10), 0)%Q], (EFin (-1)), 0%Z, [-20]%Q. eexists. split; [reflexivity|]. split; [intro H; vm_compute in H; congruence|]. split; reflexivity. Qed.
Print Assumptions C83_dec_out_refuted.
(** AzimuthBasisFunction rewards pixels the more the farther they are in azimuth. *)
Theorem C83_azimuth_refuted : forall pi tel d1 d2, (0 < pi)%Q -> (0 <= d1 < d2)%Q -> (d2 <= pi)%Q -> (az_reward pi tel (tel + d1) < az_reward pi tel (tel + d2))%Q.
Proof.
  intros pi tel d1 d2 Pp [A B] C.
  assert (G : forall d, (0 <= d <= pi)%Q -> (az_reward pi tel (tel + d) == d / pi)%Q).
  { intros d [D1 D2]. unfold az_reward. cbv zeta.
    assert (F : Qfloor ((tel + d - tel) / (2 * pi)) = 0%Z).
    { assert (X : ((tel + d - tel) / (2 * pi) == d / (2 * pi))%Q) by (field; lra). rewrite X. symmetry.
      pose proof (Qfloor_le (d / (2 * pi))) as Q1. pose proof (Qlt_floor (d / (2 * pi))) as Q2.
      assert (Y1 : (0 <= d / (2 * pi))%Q) by (apply Qle_shift_div_l; lra). assert (Y2 : (d / (2 * pi) < 1)%Q) by (apply Qlt_shift_div_r; lra).
      set (z := Qfloor (d / (2 * pi))) in *. assert (Z1 : (inject_Z z < inject_Z 1)%Q) by (change (inject_Z 1) with 1%Q; lra). assert (Z2 : (inject_Z 0 < inject_Z (z + 1))%Q) by (change (inject_Z 0) with 0%Q; lra).
      rewrite <- Zlt_Qlt in Z1, Z2. lia. }
    rewrite F. change (inject_Z 0) with 0%Q. rewrite (proj2 (Qltb_false _ _)) by lra. field. lra. }
  rewrite (G d1), (G d2) by lra. apply Qlt_shift_div_l; [exact Pp|]. setoid_replace (d1 / pi * pi)%Q with d1 by (field; lra). exact B.
Qed.
Print Assumptions C83_azimuth_refuted.

(** ** Examples *)
Example C83_ex_moon : untied [2; 1 # 10; 3]%Q (1 # 2) /\ moon_mask (1 # 2) [2; 1 # 10; 3]%Q = [EFin 1; ENaN; EFin 1].
Proof. split; [|reflexivity]. intros x X. right. cbn in X. destruct X as [<-|[<-|[<-|[]]]]; reflexivity. Qed.
Example C83_ex_elongation : untied [2; 1 # 10; 7 # 10]%Q 0 /\ untied [2; 1 # 10; 7 # 10]%Q 1 /\ elongation_mask 0 1 ENaN [2; 1 # 10; 7 # 10]%Q = [ENaN; EFin 1; EFin 1] /\ elong_mask 1 [2; 1 # 10; 7 # 10]%Q = [ENaN; EFin 0; EFin 0].
Proof. split; [intros x _; left; reflexivity|]. split; [|split; reflexivity]. intros x X. right. cbn in X. destruct X as [<-|[<-|[<-|[]]]]; reflexivity. Qed.
Example C83_ex_ha : day 1 /\ day 23 /\ ha_mask (Some 1%Q) (Some 3%Q) (map (calc_ha 1) [0; 23; 2]%Q) = [EFin 0; EFin 0; ENaN] /\
  rising_reward 1 ENaN (map (calc_ha 1) [0; 2]%Q) = [ENaN; EFin (1 * (1 - 2 + 24))].
Proof. repeat split; vm_compute; congruence. Qed.
Example C83_ex_near_sun : near_sun 2 (3 # 2) ENaN [EFin (3 # 2); ENaN; EFin 3; EFin (5 # 4)] [1; 1; 1; -2]%Q = [EFin ((3 # 2) / 2); ENaN; ENaN; ENaN].
Proof. reflexivity. Qed.
Example C83_ex_az : untied [1; 3]%Q 2 /\ untied [1; 3]%Q 4 /\ az_modulo [(2, 4); (5, 1)]%Q (EFin (-1)) 6 [1; 3]%Q = Ok [EFin (-1); EFin 1] /\
  az_modulo [(2, 4); (5, 1)]%Q (EFin (-1)) 7 [1 # 2; 3]%Q = Ok [EFin (-1); EFin (-1)].
Proof. split; [intros x X; right; cbn in X; destruct X as [<-|[<-|[]]]; reflexivity|]. split; [intros x X; right; cbn in X; destruct X as [<-|[<-|[]]]; reflexivity|]. split; reflexivity. Qed.
Example C83_ex_dec : follow (-90) [(-90, -30); (-30, -12); (-12, 35)]%Q /\ dec_modulo [(-90, -30); (-30, -12); (-12, 35)]%Q (EFin (-1)) 4 [-40; -20; 0]%Q = Ok [EFin 0; EFin 1; EFin 0].
Proof. split; [cbn; repeat split; vm_compute; congruence|reflexivity]. Qed.
Example C83_ex_shadow : timed_shadow (1 # 12) [60000; 60001]%Q (60000 + (1 # 24)) [ENaN; EFin 0] = Ok [ENaN; EFin 0] /\ timed_shadow (1 # 12) [60000; 60001]%Q (60000 + (1 # 2)) [ENaN; EFin 0] = Ok [EFin 0; EFin 0].
Proof. split; reflexivity. Qed.
Example C83_ex_wind : wind_mask 5 (Some [3; 6]%Q) 2 = [EFin 0; ENaN] /\ seeing_mask 1 [EFin 2; ENaN] = [ENaN; EFin 0] /\ bulk_cloud [7 # 10; 1 # 10]%Q ENaN (3 # 10) = [EFin 1; ENaN].
Proof. repeat split. Qed.
