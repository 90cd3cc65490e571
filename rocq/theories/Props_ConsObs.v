(** C123: visits from the consolidated database as a table and as an array of observations. *)
From Coq Require Import List Bool Reals ZArith String Lra Lia.
From Verif Require Import Base Sphere Schema ConsDb ConsObs ConsObs_proofs.
Import ListNotations.
Open Scope R_scope.
Open Scope string_scope.
Open Scope list_scope.

(** A table of two visits of an LSST camera, one without a band and one in g. *)
Definition visits : table := Table 2
  [ ("visit_id", Numbers [Some 2025050100010; Some 2025050100011]); ("s_ra", Numbers [Some 90; Some 180]);
    ("s_dec", Numbers [Some (-30); Some 0]); ("obs_start_mjd", Numbers [Some 60800; Some 60801]);
    ("obs_end_mjd", Numbers [Some (60800 + 1 / 2880); Some (60801 + 1 / 2880)]); ("sky_rotation", Numbers [Some 0; Some 45]);
    ("band", Objects [None; Some "g"]); ("physical_filter", Objects [Some "r_03"; Some "g_01"]);
    ("target_name", Objects [Some "COSMOS"; None]); ("obs_start", Objects [Some "2025-05-05T00:00:00"; Some "2025-05-06T00:00:00"]);
    ("zero_point_median", Numbers [Some 32; Some 32]); ("psf_sigma_median", Objects [None; None]);
    ("seeing_zenith_500nm_median", Numbers [Some 1; None]); ("eff_time_median", Numbers [Some 30; Some 20]);
    ("psf_area_median", Numbers [Some 100; Some 81]) ].
Definition world : env :=
  Env (fun mjd => mjd - 60000) (fun ra dec mjd => ra + dec) (fun alt az => alt) (fun mjd => SunMoon (-1) 2 3 0 1 2 3 0 50)
      (fun a b c d => 1) (fun b => Some 28) 30 60796 [].
Definition drop (c : string) (t : table) : table :=
  Table (rows t) (filter (fun nc => negb (String.eqb (fst nc) c)) (columns t)).
Definition add (c : string) (x : column) (t : table) : table := Table (rows t) ((c, x) :: columns t).

(** ** Where and when *)
(** RA, Dec and the angle of the sky in radians, the start as given and the sidereal time in hours. *)
Theorem C123_pointing : forall e i t o ra dec start sky, obs e i t = Ok o ->
  numbers t "s_ra" = Some ra -> numbers t "s_dec" = Some dec -> numbers t "obs_start_mjd" = Some start -> numbers t "sky_rotation" = Some sky ->
  column_of o "RA" = Some (map angle ra) /\ column_of o "dec" = Some (map angle dec) /\
  column_of o "rotSkyPos" = Some (map angle sky) /\ column_of o "mjd" = Some (map num start) /\
  column_of o "lmst" = Some (map (fun s => hours (option_map (e_lst e) s)) start) /\ column_of o "nexp" = Some (repeat (VNum 1) (rows t)).
Proof.
  intros e i t o ra dec start sky H A B C D. open_obs H.
  rewrite (arith_numbers _ _ _ _ A E_ra), (arith_numbers _ _ _ _ B E_dec), (arith_numbers _ _ _ _ C E_start), (arith_numbers _ _ _ _ D E_sky).
  cbn -[map repeat]. repeat split. unfold map1. now rewrite map_map.
Qed.
Print Assumptions C123_pointing.

(** The time taken in seconds; sun and moon where they are at the middle of the exposure, in radians
    as the almanac has them, and how far the visit is from them. *)
Definition at_middle (f : R -> val) (p : option R * option R) : val :=
  match p with (Some s, Some n) => f ((s + n) / 2) | _ => VNaN end.
Definition away (e : env) (f g : sunmoon -> R) (p : (option R * option R) * (option R * option R)) : val :=
  match p with
  | ((Some a, Some d), (Some s, Some n)) => let m := e_almanac e ((s + n) / 2) in VNum (e_sep e (a * PI / 180) (d * PI / 180) (f m) (g m))
  | _ => VNaN
  end.
Lemma middle_col : forall e f start ends,
  map angle (in_degrees f (map (option_map (e_almanac e)) (map2 (fun x y => (x + y) / 2) start ends))) = map (at_middle (fun m => VNum (f (e_almanac e m)))) (combine start ends).
Proof. intros. rewrite angle_degrees. unfold map2. rewrite !map_map. apply map_ext. intros [[s|] [n|]]; reflexivity. Qed.
Lemma away_col : forall e f g ra dec start ends,
  map angle (map1 Sphere.degrees
    (map (fun p => match p with ((Some a, Some d), (Some x, Some y)) =>
                     Some (e_sep e (Sphere.radians a) (Sphere.radians d) (Sphere.radians x) (Sphere.radians y)) | _ => None end)
       (combine (combine ra dec) (combine (in_degrees f (map (option_map (e_almanac e)) (map2 (fun x y => (x + y) / 2) start ends)))
                                          (in_degrees g (map (option_map (e_almanac e)) (map2 (fun x y => (x + y) / 2) start ends)))))))
  = map (away e f g) (combine (combine ra dec) (combine start ends)).
Proof.
  intros e f g ra dec start ends. generalize (combine ra dec). intros l. revert start ends. induction l as [|[a d] l IH]; intros start ends; [reflexivity|].
  destruct start as [|s start]; [reflexivity|]. destruct ends as [|n ends]; [reflexivity|].
  specialize (IH start ends). unfold map1, map2, in_degrees in *. cbn [combine map] in *. rewrite IH. f_equal.
  destruct a as [a|], d as [d|], s as [s|], n as [n|]; cbn; try reflexivity.
  rewrite !radians_degrees. unfold Sphere.degrees, Sphere.radians. f_equal. field. apply PI_neq0.
Qed.
Theorem C123_times_sun_moon : forall e i t o ra dec start ends, obs e i t = Ok o ->
  numbers t "s_ra" = Some ra -> numbers t "s_dec" = Some dec -> numbers t "obs_start_mjd" = Some start -> numbers t "obs_end_mjd" = Some ends ->
  numbers t "obs_midpt_mjd" = None ->
  let there f := Some (map (at_middle (fun m => VNum (f (e_almanac e m)))) (combine start ends)) in
  column_of o "visittime" = Some (map (fun p => match p with (Some s, Some n) => VNum (86400 * (n - s)) | _ => VNaN end) (combine start ends)) /\
  column_of o "sunAlt" = there sun_alt /\ column_of o "sunAz" = there sun_az /\ column_of o "sunRA" = there sun_RA /\ column_of o "sunDec" = there sun_dec /\
  column_of o "moonAlt" = there moon_alt /\ column_of o "moonAz" = there moon_az /\ column_of o "moonRA" = there moon_RA /\
  column_of o "moonDec" = there moon_dec /\ column_of o "moonPhase" = there moon_phase /\
  column_of o "moonDist" = Some (map (away e moon_RA moon_dec) (combine (combine ra dec) (combine start ends))) /\
  column_of o "solarElong" = Some (map (away e sun_RA sun_dec) (combine (combine ra dec) (combine start ends))).
Proof.
  intros e i t o ra dec start ends H A B C D M. cbv zeta. open_obs H.
  pose proof (arith_numbers _ _ _ _ A E_ra). pose proof (arith_numbers _ _ _ _ B E_dec). pose proof (arith_numbers _ _ _ _ C E_start). pose proof (arith_numbers _ _ _ _ D E_ends).
  subst ra_ dec_ start_ ends_. unfold midpt in E_mid. rewrite M, E_start, D in E_mid. cbn [bind] in E_mid. apply ok_inj in E_mid. subst mid_.
  cbn -[map repeat map1 map2 combine]. rewrite !middle_col, !away_col. repeat split.
  - unfold map2. rewrite map_map. f_equal. apply map_ext. intros [[s|] [n|]]; cbn; try reflexivity. f_equal. ring.
  - unfold map2. rewrite !map_map. f_equal. apply map_ext. intros [[s|] [n|]]; reflexivity.
Qed.
Print Assumptions C123_times_sun_moon.

(** ** The rotator *)
Lemma rot_nth : forall e i t o ra dec start sky k a d s r, obs e i t = Ok o ->
  numbers t "s_ra" = Some ra -> numbers t "s_dec" = Some dec -> numbers t "obs_start_mjd" = Some start -> numbers t "sky_rotation" = Some sky ->
  nth_error ra k = Some (Some a) -> nth_error dec k = Some (Some d) -> nth_error start k = Some (Some s) -> nth_error sky k = Some (Some r) ->
  exists rot x, column_of o "rotTelPos" = Some rot /\ nth_error rot k = Some (VNum x) /\
    rotskypos2rottelpos (telescope i) (r * PI / 180) (e_ppa e a d s * PI / 180) = Ok x.
Proof.
  intros e i t o ra dec start sky k a d s r H A B C D Ka Kd Ks Kr. open_obs H.
  pose proof (arith_numbers _ _ _ _ A E_ra). pose proof (arith_numbers _ _ _ _ B E_dec). pose proof (arith_numbers _ _ _ _ C E_start). pose proof (arith_numbers _ _ _ _ D E_sky).
  subst ra_ dec_ start_ sky_.
  assert (N : nth_error (combine sky (map3 (e_ppa e) ra dec start)) k = Some (Some r, Some (e_ppa e a d s))).
  { clear - Ka Kd Ks Kr. revert ra dec start sky Ka Kd Ks Kr. induction k as [|k IH]; intros [|x ra] [|y dec] [|z start] [|w sky] Ka Kd Ks Kr; try discriminate; cbn in *.
    - assert (x = Some a) by congruence. assert (y = Some d) by congruence. assert (z = Some s) by congruence. assert (w = Some r) by congruence. now subst.
    - now apply IH. }
  destruct (rot_tels_nth _ _ _ _ _ _ E_rot N) as (x & X & R).
  exists (map angle rot_), x. split; [reflexivity|]. split; [|exact X].
  rewrite nth_error_map, R. cbn. unfold Sphere.degrees. do 2 f_equal. field. apply PI_neq0.
Qed.
(** For the LSST camera the rotator is at minus the angle of the sky plus the parallactic angle of
    SMTN-019 less 90 degrees, for LATISS at the sum of the two, from -180 to 180 degrees. *)
Theorem C123_rotator : forall e i t o ra dec start sky k a d s r, obs e i t = Ok o -> (i = LSSTCam \/ i = LATISS) ->
  numbers t "s_ra" = Some ra -> numbers t "s_dec" = Some dec -> numbers t "obs_start_mjd" = Some start -> numbers t "sky_rotation" = Some sky ->
  nth_error ra k = Some (Some a) -> nth_error dec k = Some (Some d) -> nth_error start k = Some (Some s) -> nth_error sky k = Some (Some r) ->
  exists rot x z, column_of o "rotTelPos" = Some rot /\ nth_error rot k = Some (VNum x) /\ - PI < x <= PI /\
    x = (match i with LATISS => r + e_ppa e a d s | _ => e_ppa e a d s - r - 90 end) * PI / 180 + 2 * PI * IZR z.
Proof.
  intros e i t o ra dec start sky k a d s r H Ii A B C D Ka Kd Ks Kr.
  destruct (rot_nth _ _ _ _ _ _ _ _ _ _ _ _ _ H A B C D Ka Kd Ks Kr) as (rot & x & F & N & X).
  assert (W : exists y, x = wrap_180 (rmod y (2 * PI)) /\ y = (match i with LATISS => r + e_ppa e a d s | _ => e_ppa e a d s - r - 90 end) * PI / 180).
  { destruct Ii as [-> | ->]; cbn in X; apply ok_inj in X; subst x; eexists; split; try reflexivity; field. }
  destruct W as (y & -> & Y). destruct (wrap_is y) as (z & Z & L). exists rot, (wrap_180 (rmod y (2 * PI))), z. rewrite <- Y. auto.
Qed.
Print Assumptions C123_rotator.
(** ComCam has a relation of its own (RotationConverterComCam), without the 90 degrees; its visits are
    given the one of the LSST camera, so that the rotator never is where ComCam's relation has it. *)
Theorem C123_comcam_rotator_refuted : forall e i t o ra dec start sky k a d s r, obs e i t = Ok o -> (i = ComCam \/ i = ComCamSim) ->
  numbers t "s_ra" = Some ra -> numbers t "s_dec" = Some dec -> numbers t "obs_start_mjd" = Some start -> numbers t "sky_rotation" = Some sky ->
  nth_error ra k = Some (Some a) -> nth_error dec k = Some (Some d) -> nth_error start k = Some (Some s) -> nth_error sky k = Some (Some r) ->
  exists rot x, column_of o "rotTelPos" = Some rot /\ nth_error rot k = Some (VNum x) /\
    forall z y, rotskypos2rottelpos "comcam" (r * PI / 180) (e_ppa e a d s * PI / 180) = Ok y -> x <> y + 2 * PI * IZR z.
Proof.
  intros e i t o ra dec start sky k a d s r H Ii A B C D Ka Kd Ks Kr.
  destruct (rot_nth _ _ _ _ _ _ _ _ _ _ _ _ _ H A B C D Ka Kd Ks Kr) as (rot & x & F & N & X).
  exists rot, x. split; [exact F|]. split; [exact N|]. intros z y Y E.
  assert (X' : x = wrap_180 (rmod (e_ppa e a d s * PI / 180 - r * PI / 180 - PI / 2) (2 * PI))) by (destruct Ii as [-> | ->]; cbn in X; now apply ok_inj in X).
  cbn in Y. apply ok_inj in Y. rewrite X', <- Y in E.
  destruct (wrap_is (e_ppa e a d s * PI / 180 - r * PI / 180 - PI / 2)) as (z1 & Z1 & _). destruct (wrap_is (e_ppa e a d s * PI / 180 - r * PI / 180)) as (z2 & Z2 & _).
  rewrite Z1, Z2 in E. pose proof PI_RGT_0 as P.
  assert (Q : PI * (1 + 4 * IZR (z2 + z - z1)) = 0) by (rewrite minus_IZR, plus_IZR; lra).
  apply Rmult_integral in Q. destruct Q as [Q|Q]; [lra|]. assert (R : (1 + 4 * (z2 + z - z1) = 0)%Z) by (apply eq_IZR; rewrite plus_IZR, mult_IZR; exact Q). lia.
Qed.
Print Assumptions C123_comcam_rotator_refuted.

(** ** Columns not there *)
(** The pseudo-parallactic angle is calculated but the table has it under a name (psudoParaAngle) that
    the converter does not know: in the array it is nan, whatever the table. *)
Theorem C123_pseudo_pa_refuted : forall e i t o, obs e i t = Ok o ->
  exists l, column_of o "pseudo_pa" = Some l /\ forall v, In v l -> v = VNaN.
Proof. intros e i t o H. open_obs H. eexists. split; [reflexivity|]. intros v V. now apply repeat_spec in V. Qed.
Print Assumptions C123_pseudo_pa_refuted.
(** filter, target_id and cloud_extinction keep what np.empty found in memory. *)
Theorem C123_unset_refuted : forall e i t o n, obs e i t = Ok o -> In n ["filter"; "target_id"; "cloud_extinction"] ->
  In n (map fst o) /\ column_of o n = None.
Proof. intros e i t o n H N. open_obs H. cbn [In] in N. cbn [map fst]. destruct N as [<-|[<-|[<-|[]]]]; (split; [repeat (first [left; reflexivity|right])|reflexivity]). Qed.
Print Assumptions C123_unset_refuted.
(** All other columns are set. *)
Theorem C123_set_partial : forall e i t o n, obs e i t = Ok o -> In n obs_names -> ~ In n ["filter"; "target_id"; "cloud_extinction"] ->
  exists l, column_of o n = Some l.
Proof.
  intros e i t o n H N M. open_obs H. cbn [obs_names In] in N.
  repeat (destruct N as [<-|N]; [first [eexists; reflexivity | exfalso; apply M; cbn; tauto]|]). destruct N.
Qed.
Print Assumptions C123_set_partial.

(** ** What must be there *)
(** A column of numbers, or of nulls only. *)
Definition usable (t : table) (c : string) : Prop :=
  (exists l, get t c = Ok (Numbers l)) \/ (exists l, get t c = Ok (Objects l) /\ forall s, In s l -> s = None).
Definition text (t : table) (c : string) : Prop := exists l, get t c = Ok (Objects l).
Lemma usable_arith : forall t c, usable t c -> exists l, arith t c = Ok l.
Proof.
  intros t c [[l L]|[l [L N]]]; unfold arith; rewrite L; [eauto|].
  replace (forallb (fun s : option string => match s with Some _ => false | None => true end) l) with true; [eauto|].
  symmetry. apply forallb_forall. intros s H. now rewrite (N s H).
Qed.
Lemma rot_rubin : forall l, exists r, rot_tels "rubin" l = Ok r.
Proof. induction l as [|[[s|] [p|]] l [r IH]]; [exists []; reflexivity|..]; cbn; rewrite IH; cbn; eauto. Qed.
Lemma eff_made : forall i t, i <> LATISS -> text t "band" -> text t "physical_filter" -> exists l, eff_time_m5 i t = Ok l.
Proof.
  intros i t Ni [b B] [p P]. unfold eff_time_m5, band, texts. rewrite B, P. destruct i; try congruence; cbn [latiss bind];
  (destruct (numbers t "eff_time_m5"); [eauto|]; destruct (numbers t "eff_time_median"); eauto).
Qed.
Lemma all_some_made : forall l, ~ In None l -> exists r, all_some l = Ok r.
Proof. induction l as [|[x|] l IH]; intros N; cbn; [eauto| |exfalso; apply N; now left]. destruct IH as [r ->]; [intros X; apply N; now right|]. cbn. eauto. Qed.
Definition numeric_needed : list string :=
  ["s_ra"; "s_dec"; "obs_start_mjd"; "obs_end_mjd"; "sky_rotation"; "zero_point_median"; "psf_sigma_median"; "seeing_zenith_500nm_median"].
(** With these columns, no start missing, the visits of an LSST camera can be made into an array. *)
Theorem C123_made : forall e i t start, i <> LATISS -> (forall c, In c numeric_needed -> usable t c) ->
  text t "band" -> text t "physical_filter" -> (exists c, get t "target_name" = Ok c) -> (exists c, get t "obs_start" = Ok c) ->
  get t "obs_start_mjd" = Ok (Numbers start) -> ~ In None start -> exists o, obs e i t = Ok o.
Proof.
  intros e i t start Ni U B P [tn T] [os O] St Ns.
  assert (A : forall c, In c numeric_needed -> exists l, arith t c = Ok l) by (intros c H; apply usable_arith; auto).
  assert (St' : arith t "obs_start_mjd" = Ok start) by (unfold arith; now rewrite St).
  destruct (A "s_ra") as [ra Ra]; [cbn; tauto|]. destruct (A "s_dec") as [dec Dec]; [cbn; tauto|]. destruct (A "obs_end_mjd") as [en En]; [cbn; tauto|].
  destruct (A "sky_rotation") as [sk Sk]; [cbn; tauto|]. destruct (A "zero_point_median") as [zp Zp]; [cbn; tauto|].
  destruct (A "psf_sigma_median") as [ps Ps]; [cbn; tauto|]. destruct (A "seeing_zenith_500nm_median") as [se Se]; [cbn; tauto|].
  destruct (eff_made i t Ni B P) as [ef Ef]. destruct (all_some_made start Ns) as [ss Ss].
  assert (Bd : exists b, band i t = Ok b) by (destruct B as [b B], P as [p P]; unfold band, texts; rewrite B, P; destruct i; try congruence; cbn; eauto).
  destruct Bd as [bd Bd].
  assert (Sm : exists l, sky_mag e i t = Ok l).
  { unfold sky_mag, extinctions. rewrite Bd. destruct i; try congruence; cbn [zero_point_column latiss]; rewrite Zp; cbn; eauto. }
  destruct Sm as [sm Sm].
  assert (Md : exists l, midpt e i t = Ok l).
  { unfold midpt. destruct (numbers t "obs_midpt_mjd"); [eauto|]. rewrite St'. cbn [bind]. destruct (numbers t "obs_end_mjd"); [eauto|]. destruct i; try congruence; cbn; eauto. }
  destruct Md as [md Md]. destruct (rot_rubin (combine sk (map3 (e_ppa e) ra dec start))) as [rt Rt].
  unfold obs, opsim. cbv zeta.
  replace (ids e i t) with (Ok (map num (observation_id (e_clock e) t))) by (destruct i; try congruence; reflexivity). cbn [bind].
  rewrite Ra, Dec, St', Bd, Sk. cbn [bind].
  replace (shut e i t) with (Ok (shut_time (e_exptime e) t)) by (destruct i; try congruence; reflexivity). cbn [bind].
  replace (air i t) with (Ok (airmass t)) by (destruct i; try congruence; reflexivity). cbn [bind].
  unfold fwhm_500, fwhm_geom. replace (seeing_column i) with "seeing_zenith_500nm_median" by (destruct i; try congruence; reflexivity).
  replace (psf_sigma_column i) with "psf_sigma_median" by (destruct i; try congruence; reflexivity). rewrite Se, Ps. cbn [bind].
  rewrite Sm, Ss, En, Ef. cbn [bind].
  replace (alt i t) with (Ok (altitude t)) by (destruct i; try congruence; reflexivity). cbn [bind].
  replace (az i t) with (Ok (azimuth t)) by (destruct i; try congruence; reflexivity). cbn [bind].
  rewrite Md, T. cbn [bind]. replace (telescope i) with "rubin" by (destruct i; try congruence; reflexivity). rewrite Rt, O. cbn [bind]. eexists. reflexivity.
Qed.
Print Assumptions C123_made.
(** Without any one of them it cannot. *)
Definition needed (i : instrument) : list string :=
  ["s_ra"; "s_dec"; "obs_start_mjd"; "obs_end_mjd"; "sky_rotation"; "band"; "target_name"; "obs_start"] ++
  match i with
  | LATISS => ["visit_id"; "shut_time"; "airmass"; "altitude"; "azimuth"; "zero_point"; "psf_sigma"; "seeing_zenith_500nm"]
  | _ => ["physical_filter"; "zero_point_median"; "psf_sigma_median"; "seeing_zenith_500nm_median"]
  end.
Theorem C123_needed : forall e i t o c, In c (needed i) -> get t c = Raise KeyError -> obs e i t <> Ok o.
Proof.
  intros e i t o c N M H. unfold obs in H. apply bind_ok in H as (d & D & _).
  unfold opsim in D; cbv zeta in D.
  apply bind_ok in D as (ids_ & E_ids & D); apply bind_ok in D as (ra_ & E_ra & D); apply bind_ok in D as (dec_ & E_dec & D);
  apply bind_ok in D as (start_ & E_start & D); apply bind_ok in D as (shut_ & E_shut & D); apply bind_ok in D as (band_ & E_band & D);
  apply bind_ok in D as (sky_ & E_sky & D); apply bind_ok in D as (air_ & E_air & D); apply bind_ok in D as (f5_ & E_f5 & D);
  apply bind_ok in D as (fg_ & E_fg & D); apply bind_ok in D as (br_ & E_br & D); apply bind_ok in D as (starts_ & E_starts & D);
  apply bind_ok in D as (ends_ & E_ends & D); apply bind_ok in D as (depth_ & E_depth & D); apply bind_ok in D as (alt_ & E_alt & D);
  apply bind_ok in D as (az_ & E_az & D); apply bind_ok in D as (mid_ & E_mid & D); apply bind_ok in D as (tn_ & E_tn & D);
  apply bind_ok in D as (rot_ & E_rot & D); apply bind_ok in D as (os_ & E_os & D). clear D.
  unfold fwhm_500 in E_f5. apply bind_ok in E_f5 as (f5a & E_f5 & _). unfold fwhm_geom in E_fg. apply bind_ok in E_fg as (fga & E_fg & _).
  unfold sky_mag in E_br. apply bind_ok in E_br as (zpa & E_zp & _).
  assert (X : forall c' l, c' = c -> arith t c' <> Ok l) by (intros c' l ->; now apply arith_missing).
  unfold needed in N. cbn [app In] in N.
  destruct N as [<-|[<-|[<-|[<-|[<-|[<-|[<-|[<-|N]]]]]]]];
  [exact (X _ _ eq_refl E_ra)|exact (X _ _ eq_refl E_dec)|exact (X _ _ eq_refl E_start)|exact (X _ _ eq_refl E_ends)|exact (X _ _ eq_refl E_sky)
  | |congruence|congruence|].
  - unfold band, texts in E_band. rewrite M in E_band. destruct i; discriminate.
  - destruct i; cbn in N, E_band, E_f5, E_fg, E_zp, E_ids, E_shut, E_air, E_alt, E_az;
    repeat (destruct N as [<-|N]; [first [exact (X _ _ eq_refl E_zp)|exact (X _ _ eq_refl E_fg)|exact (X _ _ eq_refl E_f5)
      |exact (X _ _ eq_refl E_shut)|exact (X _ _ eq_refl E_air)|exact (X _ _ eq_refl E_alt)|exact (X _ _ eq_refl E_az)
      |rewrite M in E_ids; discriminate
      |unfold band, texts in E_band; rewrite M in E_band; cbn in E_band; destruct (get t "band") as [[?|?]|]; discriminate]|]); destruct N.
Qed.
Print Assumptions C123_needed.
(** A visit without a start is refused, not left out. *)
Lemma all_some_none : forall l r, all_some l = Ok r -> l = map Some r.
Proof.
  induction l as [|[x|] l IH]; intros r H; cbn in H; [now inversion H| |discriminate].
  apply bind_ok in H as (q & Q1 & H). inversion H. cbn. now rewrite (IH q Q1) at 1.
Qed.
Theorem C123_null_start : forall e i t o start, get t "obs_start_mjd" = Ok (Numbers start) -> In None start -> obs e i t <> Ok o.
Proof.
  intros e i t o start G N H. unfold obs in H. apply bind_ok in H as (d & D & _). unfold opsim in D; cbv zeta in D.
  apply bind_ok in D as (ids_ & E_ids & D); apply bind_ok in D as (ra_ & E_ra & D); apply bind_ok in D as (dec_ & E_dec & D);
  apply bind_ok in D as (start_ & E_start & D); apply bind_ok in D as (shut_ & E_shut & D); apply bind_ok in D as (band_ & E_band & D);
  apply bind_ok in D as (sky_ & E_sky & D); apply bind_ok in D as (air_ & E_air & D); apply bind_ok in D as (f5_ & E_f5 & D);
  apply bind_ok in D as (fg_ & E_fg & D); apply bind_ok in D as (br_ & E_br & D); apply bind_ok in D as (starts_ & E_starts & D).
  unfold arith in E_start. rewrite G in E_start. cbn in E_start. inversion E_start; subst start_.
  apply all_some_none in E_starts. rewrite E_starts in N. apply in_map_iff in N as (x & X & _). discriminate.
Qed.
Print Assumptions C123_null_start.
Lemma visits_made : exists o, obs world LSSTCam visits = Ok o.
Proof.
  apply (C123_made world LSSTCam visits [Some 60800; Some 60801]); try discriminate.
  - intros c C. cbn in C.
    repeat (destruct C as [<-|C]; [first [left; eexists; reflexivity|right; eexists; split; [reflexivity|]; cbn; intros s [<-|[<-|[]]]; reflexivity]|]). destruct C.
  - eexists. reflexivity.
  - eexists. reflexivity.
  - eexists. reflexivity.
  - eexists. reflexivity.
  - reflexivity.
  - cbn. intros [X|[X|[]]]; discriminate.
Qed.
(** So it is for the end of the exposure: the middle of it can be worked out without (from the start and
    the time the shutter was open) but no table can be made. *)
Theorem C123_no_end_refuted : forall e i t o, get t "obs_end_mjd" = Raise KeyError -> obs e i t <> Ok o.
Proof. intros e i t o H. apply (C123_needed e i t o "obs_end_mjd"); [cbn; tauto|exact H]. Qed.
Print Assumptions C123_no_end_refuted.
Example no_end : obs_midpt_mjd 30 (drop "obs_end_mjd" visits) = Ok [Some (60800 + 1 / 2 * 30 / 86400); Some (60801 + 1 / 2 * 30 / 86400)] /\
  obs world LSSTCam (drop "obs_end_mjd" visits) = Raise KeyError.
Proof. split; reflexivity. Qed.

(** ** Band, depth and seeing *)
(** The band is the one given, or else the first letter of the filter. *)
Theorem C123_band : forall e i t o bands filters k, obs e i t = Ok o -> i <> LATISS ->
  get t "band" = Ok (Objects bands) -> get t "physical_filter" = Ok (Objects filters) ->
  exists l, column_of o "band" = Some l /\
    (forall b f, nth_error bands k = Some (Some b) -> nth_error filters k = Some f -> nth_error l k = Some (VStr b)) /\
    (forall a r, nth_error bands k = Some None -> nth_error filters k = Some (Some (String a r)) -> nth_error l k = Some (VStr (String a ""))).
Proof.
  intros e i t o bands filters k H Ni B P. open_obs H. unfold band, texts in E_band. rewrite B, P in E_band.
  assert (E : band_ = map (fun q : option string * option string => match fst q with Some s => Some s | None => first_letter (snd q) end) (combine bands filters)) by (destruct i; try congruence; cbn in E_band; congruence).
  subst band_. eexists. split; [reflexivity|]. clear. rewrite map_map. split.
  - intros b f. revert bands filters. induction k as [|k IH]; intros [|x bands] [|y filters] A C; try discriminate; cbn in *; [|eauto].
    assert (x = Some b) by congruence. now subst.
  - intros a r. revert bands filters. induction k as [|k IH]; intros [|x bands] [|y filters] A C; try discriminate; cbn in *; [|auto].
    assert (x = None) by congruence. assert (y = Some (String a r)) by congruence. now subst.
Qed.
Print Assumptions C123_band.

(** The depth of a visit of an LSST camera in one of the six bands is that of a 30 s visit under the
    reference conditions (SMTN-002) where the effective time is 30 s, deeper for longer times, by 1.25
    for ten times the time. *)
Definition references : list (string * R) :=
  [("u", 23.70); ("g", 24.97); ("r", 24.52); ("i", 24.13); ("z", 23.56); ("y", 22.55)].
Lemma ln10 : 0 < ln 10.
Proof. rewrite <- ln_1. apply ln_increasing; lra. Qed.
Lemma combine_nth_some : forall A B (l : list A) (m : list B) k x y, nth_error l k = Some x -> nth_error m k = Some y -> nth_error (combine l m) k = Some (x, y).
Proof. intros A B l m k x y. revert l m. induction k as [|k IH]; intros [|a l] [|b m] H K; try discriminate; cbn in *; [congruence|auto]. Qed.
Theorem C123_depth_partial : forall e i t o bands filters times, obs e i t = Ok o -> i <> LATISS ->
  get t "band" = Ok (Objects bands) -> get t "physical_filter" = Ok (Objects filters) ->
  numbers t "eff_time_m5" = None -> numbers t "eff_time_median" = Some times ->
  exists depth, column_of o "fivesigmadepth" = Some depth /\
    (forall k b f m s, nth_error bands k = Some (Some b) -> nth_error filters k = Some f -> In (b, m) references -> nth_error times k = Some (Some s) -> 0 < s ->
       exists x, nth_error depth k = Some (VNum x) /\ (s = 30 -> x = m) /\ (s < 30 -> x < m) /\ (30 < s -> m < x) /\ (s = 300 -> x = m + 1.25)) /\
    (forall k l b f g s u x y, nth_error bands k = Some (Some b) -> nth_error bands l = Some (Some b) -> nth_error filters k = Some f -> nth_error filters l = Some g ->
       nth_error times k = Some (Some s) -> nth_error times l = Some (Some u) -> 0 < s < u -> nth_error depth k = Some (VNum x) -> nth_error depth l = Some (VNum y) -> x < y).
Proof.
  intros e i t o bands filters times H Ni B P M T. open_obs H.
  assert (Dp : depth_ = map num (map2 (fun m s => m + 5 / 4 * log10 (s / 30)) (by_band ref_mag (map (fun q : option string * option string => match fst q with Some s => Some s | None => first_letter (snd q) end) (combine bands filters))) times)).
  { unfold eff_time_m5, band, texts in E_depth. rewrite M, T, B, P in E_depth. destruct i; try congruence; cbn [latiss bind] in E_depth; congruence. }
  subst depth_. eexists. split; [reflexivity|]. clear E_depth E_band. set (F := fun q : option string * option string => _).
  assert (Row : forall k b f s, nth_error bands k = Some (Some b) -> nth_error filters k = Some f -> nth_error times k = Some (Some s) ->
    nth_error (map num (map2 (fun m s => m + 5 / 4 * log10 (s / 30)) (by_band ref_mag (map F (combine bands filters))) times)) k =
    Some (match ref_mag b with Some m => VNum (m + 5 / 4 * log10 (s / 30)) | None => VNaN end)).
  { intros k b f s Kb Kf Ks. unfold map2, by_band. rewrite map_map, nth_error_map.
    rewrite (combine_nth_some _ _ _ _ k (ref_mag b) (Some s)); [|rewrite map_map, nth_error_map, (combine_nth_some _ _ _ _ k _ _ Kb Kf); reflexivity|exact Ks].
    cbn. destruct (ref_mag b); reflexivity. }
  assert (Inc : forall s u, 0 < s < u -> log10 (s / 30) < log10 (u / 30)).
  { intros s u L. unfold log10, Rdiv at 1 3. apply Rmult_lt_compat_r; [apply Rinv_0_lt_compat, ln10|]. apply ln_increasing; lra. }
  assert (One : log10 (30 / 30) = 0) by (unfold log10; replace (30 / 30) with 1 by field; rewrite ln_1; field; pose proof ln10; lra).
  split.
  - intros k b f m s Kb Kf Kr Ks Ps.
    assert (Rm : ref_mag b = Some m).
    { cbn in Kr. repeat (destruct Kr as [Kr|Kr]; [apply pair_equal_spec in Kr; destruct Kr as [<- <-]; unfold ref_mag; cbn; f_equal; lra|]). destruct Kr. }
    exists (m + 5 / 4 * log10 (s / 30)). rewrite (Row k b f s Kb Kf Ks), Rm. split; [reflexivity|]. split; [|split; [|split]].
    + intros ->. rewrite One. lra.
    + intros L. specialize (Inc s 30 ltac:(lra)). lra.
    + intros L. specialize (Inc 30 s ltac:(lra)). lra.
    + intros ->. unfold log10. replace (300 / 30) with 10 by field. pose proof ln10. replace (ln 10 / ln 10) with 1 by (field; lra). lra.
  - intros k l b f g s u x y Kb Lb Kf Lf Ks Lu L X Y. rewrite (Row k b f s Kb Kf Ks) in X. rewrite (Row l b g u Lb Lf Lu) in Y.
    destruct (ref_mag b) as [m|]; [|discriminate]. specialize (Inc s u L). assert (x = m + 5 / 4 * log10 (s / 30)) by congruence. assert (y = m + 5 / 4 * log10 (u / 30)) by congruence. lra.
Qed.
Print Assumptions C123_depth_partial.
(** Where the database has eff_time_m5 ("effective exposure time, in seconds") that time is put in the
    column of the depth. *)
Theorem C123_depth_is_time_refuted : forall e i t o times, obs e i t = Ok o -> i <> LATISS ->
  numbers t "eff_time_m5" = Some times -> column_of o "fivesigmadepth" = Some (map num times).
Proof.
  intros e i t o times H Ni M. open_obs H. assert (Dp : depth_ = map num times) by (unfold eff_time_m5 in E_depth; rewrite M in E_depth; destruct i; try congruence; cbn in E_depth; congruence).
  subst depth_. reflexivity.
Qed.
Print Assumptions C123_depth_is_time_refuted.
Example depth_is_time : exists o, obs world LSSTCam (add "eff_time_m5" (Numbers [Some 30; Some 20]) visits) = Ok o /\
  column_of o "fivesigmadepth" = Some [VNum 30; VNum 20].
Proof.
  destruct (C123_made world LSSTCam (add "eff_time_m5" (Numbers [Some 30; Some 20]) visits) [Some 60800; Some 60801]) as [o O]; try discriminate.
  - intros c C. cbn in C.
    repeat (destruct C as [<-|C]; [first [left; eexists; reflexivity|right; eexists; split; [reflexivity|]; cbn; intros s [<-|[<-|[]]]; reflexivity]|]). destruct C.
  - eexists. reflexivity.
  - eexists. reflexivity.
  - eexists. reflexivity.
  - eexists. reflexivity.
  - reflexivity.
  - cbn. intros [X|[X|[]]]; discriminate.
  - exists o. split; [exact O|]. exact (C123_depth_is_time_refuted _ _ _ _ _ O ltac:(discriminate) eq_refl).
Qed.

(** The seeing: the area that noise is collected over is the one of a Gaussian, up to the factor 0.663 of
    LSE-40, and nan where there is no area; widths are those of the pixels given, or 0.2 arcsec. *)
Theorem C123_seeing : forall e i t o area sigma, obs e i t = Ok o -> i <> LATISS -> numbers t "pixel_scale" = None ->
  numbers t "psf_area_median" = Some area -> numbers t "psf_sigma_median" = Some sigma -> List.length area = rows t -> List.length sigma = rows t ->
  column_of o "FWHMeff" = Some (map (fun a => match a with Some a => VNum (0.663 * 0.2 * sqrt a) | None => VNaN end) area) /\
  exists g, column_of o "FWHM_geometric" = Some (map (fun a => match a with Some s => VNum (g * 0.2 * s) | None => VNaN end) sigma) /\
    g > 0 /\ exp (- (g / 2) ^ 2 / 2) = 1 / 2.
Proof.
  intros e i t o area sigma H Ni Px A G La Lg. open_obs H.
  assert (Pp : pixel_scale i t = repeat (Some (1 / 5)) (rows t)) by (unfold pixel_scale; rewrite Px; destruct i; try congruence; reflexivity).
  assert (Gn : fg_ = map2 (fun s p => s * fwhm_over_sigma * p) sigma (pixel_scale i t)).
  { unfold fwhm_geom in E_fg. replace (psf_sigma_column i) with "psf_sigma_median" in E_fg by (destruct i; try congruence; reflexivity). rewrite (arith_of _ _ _ G) in E_fg. cbn [bind] in E_fg. congruence. }
  subst fg_. split.
  - cbn -[fwhm_eff map]. f_equal. unfold fwhm_eff. replace (psf_area_column i) with "psf_area_median" by (destruct i; try congruence; reflexivity). rewrite A, Pp.
    clear - La. revert La. generalize (rows t). induction area as [|x area IH]; intros n L; destruct n as [|n]; try discriminate; [reflexivity|]. cbn in L.
    unfold map2 in *. cbn [repeat combine map]. rewrite IH by lia. f_equal. destruct x as [x|]; cbn; [|reflexivity]. f_equal. lra.
  - exists fwhm_over_sigma. split; [|split].
    + cbn -[map map2]. f_equal. rewrite Pp. clear - Lg. revert Lg. generalize (rows t). induction sigma as [|x sigma IH]; intros n L; destruct n as [|n]; try discriminate; [reflexivity|]. cbn in L.
      unfold map2 in *. cbn [repeat combine map]. rewrite IH by lia. f_equal. destruct x as [x|]; cbn; [|reflexivity]. f_equal. lra.
    + unfold fwhm_over_sigma. assert (0 < sqrt (2 * ln 2)) by (apply sqrt_lt_R0; assert (0 < ln 2) by (rewrite <- ln_1; apply ln_increasing; lra); lra). lra.
    + unfold fwhm_over_sigma. replace (- (2 * sqrt (2 * ln 2) / 2) ^ 2 / 2) with (- (sqrt (2 * ln 2) * sqrt (2 * ln 2)) / 2) by field.
      rewrite sqrt_sqrt by (assert (0 < ln 2) by (rewrite <- ln_1; apply ln_increasing; lra); lra).
      replace (- (2 * ln 2) / 2) with (- ln 2) by field. rewrite exp_Ropp, exp_ln by lra. lra.
Qed.
Print Assumptions C123_seeing.

(** ** Which instrument *)
Theorem C123_instrument : forall n,
  (forall i, load_consdb_visits n = Ok i -> name i = n) /\
  (In n ["lsstcam"; "lsstcomcam"; "lsstcomcamsim"; "latiss"] <-> exists i, load_consdb_visits n = Ok i).
Proof.
  intros n. split.
  - intros i. unfold load_consdb_visits. destruct (negb _); [discriminate|].
    repeat (match goal with |- (if String.eqb n ?c then _ else _) = _ -> _ => destruct (String.eqb_spec n c) as [->|] end; [intros E; apply ok_inj in E; now subst|]). discriminate.
  - split.
    + intros H. cbn in H. destruct H as [<-|[<-|[<-|[<-|[]]]]]; eexists; reflexivity.
    + intros (i & H). unfold load_consdb_visits in H. destruct (existsb _ _) eqn:E; [|discriminate]. apply existsb_exists in E as (x & I & X). apply String.eqb_eq in X. now subst.
Qed.
Print Assumptions C123_instrument.

(** The two visits above: where, in which band, when and how the rotator stands. *)
Example the_visits : exists o, obs world LSSTCam visits = Ok o /\
  column_of o "RA" = Some [VNum (90 * PI / 180); VNum (180 * PI / 180)] /\ column_of o "band" = Some [VStr "r"; VStr "g"] /\
  column_of o "FWHM_geometric" = Some [VNaN; VNaN] /\ column_of o "pseudo_pa" = Some [VNaN; VNaN] /\
  column_of o "note" = Some [VStr ""; VStr ""] /\ column_of o "sunAlt" = Some [VNum (-1); VNum (-1)].
Proof.
  destruct visits_made as [o O]. exists o. split; [exact O|].
  assert (P := C123_pointing _ _ _ _ _ _ _ _ O eq_refl eq_refl eq_refl eq_refl).
  assert (S := C123_times_sun_moon _ _ _ _ _ _ _ _ O eq_refl eq_refl eq_refl eq_refl eq_refl).
  split; [apply P|]. split; [|split; [|split; [|split]]].
  1-4: clear P S; revert O; intros H; open_obs H; cbn in E_band, E_fg, E_ids; apply ok_inj in E_band; apply ok_inj in E_fg; apply ok_inj in E_ids; subst; reflexivity.
  apply S.
Qed.
