(** Facts about the table and the array of visits from the consolidated database. *)
From Coq Require Import List Bool Reals ZArith String Lra Lia.
From Verif Require Import Base Sphere Schema ConsDb ConsObs.
Import ListNotations.
Open Scope R_scope.
Open Scope string_scope.
Open Scope list_scope.

Lemma bind_ok : forall A B (x : res A) (f : A -> res B) y, bind x f = Ok y -> exists a, x = Ok a /\ f a = Ok y.
Proof. intros A B [a|e] f y H; cbn in H; [exists a; auto|discriminate]. Qed.
Lemma ok_inj : forall A (x y : A), Ok x = Ok y -> x = y.
Proof. intros A x y E. congruence. Qed.
Lemma bind_raise : forall A B (x : res A) (f : A -> res B) e, x = Raise e -> bind x f = Raise e.
Proof. intros A B x f e ->. reflexivity. Qed.

(** Angles in the array: radians of degrees, hours of degrees. *)
Definition angle (o : option R) : val := match o with Some x => VNum (x * PI / 180) | None => VNaN end.
Definition hours (o : option R) : val := match o with Some x => VNum (x / 15) | None => VNaN end.
Definition column_of (o : list (string * option (list val))) (n : string) : option (list val) :=
  match find (fun p => String.eqb (fst p) n) o with Some p => snd p | None => None end.

Lemma radians_col : forall l, num_col Schema.radians (map num l) = Ok (map angle l).
Proof. induction l as [|[x|] l IH]; cbn; rewrite ?IH; cbn; [reflexivity| |reflexivity]. unfold Schema.radians. replace (x * (PI / 180)) with (x * PI / 180) by field. reflexivity. Qed.
Lemma hours_col : forall l, num_col to_hours (map num l) = Ok (map hours l).
Proof. induction l as [|[x|] l IH]; cbn; rewrite ?IH; cbn; [reflexivity| |reflexivity]. unfold to_hours. replace (x * 24 / 360) with (x / 15) by field. reflexivity. Qed.
Lemma nan_col : forall n, num_col Schema.radians (repeat VNaN n) = Ok (repeat VNaN n).
Proof. induction n as [|n IH]; cbn; rewrite ?IH; reflexivity. Qed.
Lemma angle_degrees : forall f l, map angle (in_degrees f l) = map (fun s => num (option_map f s)) l.
Proof. intros f l. unfold in_degrees. rewrite map_map. apply map_ext. intros [s|]; cbn; [|reflexivity]. unfold Sphere.degrees. f_equal. field. apply PI_neq0. Qed.
Lemma radians_degrees : forall x, Sphere.radians (Sphere.degrees x) = x.
Proof. intros x. unfold Sphere.radians, Sphere.degrees. field. apply PI_neq0. Qed.

(** The array of a table whose angle columns can be converted. *)
Section Shape.
Variables ids mjd flush exp band nexp air f500 feff fgeom bright night slewt visitt depth ppa cloud note snote tname phase reason prog date : list val.
Variables ra decl sky pa malt salt rott maz saz sra sdec mra mdec mdist elong alt az slew want back cumm lst : list val.
Variables ra' decl' sky' pa' malt' salt' rott' maz' saz' sra' sdec' mra' mdec' mdist' elong' alt' az' slew' want' back' cumm' lst' : list val.
Hypothesis H_ra : num_col Schema.radians ra = Ok ra'.
Hypothesis H_decl : num_col Schema.radians decl = Ok decl'.
Hypothesis H_sky : num_col Schema.radians sky = Ok sky'.
Hypothesis H_pa : num_col Schema.radians pa = Ok pa'.
Hypothesis H_malt : num_col Schema.radians malt = Ok malt'.
Hypothesis H_salt : num_col Schema.radians salt = Ok salt'.
Hypothesis H_rott : num_col Schema.radians rott = Ok rott'.
Hypothesis H_maz : num_col Schema.radians maz = Ok maz'.
Hypothesis H_saz : num_col Schema.radians saz = Ok saz'.
Hypothesis H_sra : num_col Schema.radians sra = Ok sra'.
Hypothesis H_sdec : num_col Schema.radians sdec = Ok sdec'.
Hypothesis H_mra : num_col Schema.radians mra = Ok mra'.
Hypothesis H_mdec : num_col Schema.radians mdec = Ok mdec'.
Hypothesis H_mdist : num_col Schema.radians mdist = Ok mdist'.
Hypothesis H_elong : num_col Schema.radians elong = Ok elong'.
Hypothesis H_alt : num_col Schema.radians alt = Ok alt'.
Hypothesis H_az : num_col Schema.radians az = Ok az'.
Hypothesis H_slew : num_col Schema.radians slew = Ok slew'.
Hypothesis H_want : num_col Schema.radians want = Ok want'.
Hypothesis H_back : num_col Schema.radians back = Ok back'.
Hypothesis H_cumm : num_col Schema.radians cumm = Ok cumm'.
Hypothesis H_lst : num_col to_hours lst = Ok lst'.
Notation table_shape :=
  ([ ("observationId", ids); ("fieldRA", ra); ("fieldDec", decl); ("observationStartMJD", mjd); ("flush_by_mjd", flush);
    ("visitExposureTime", exp); ("band", band); ("rotSkyPos", sky); ("rotSkyPos_desired", want); ("numExposures", nexp);
    ("airmass", air); ("seeingFwhm500", f500); ("seeingFwhmEff", feff); ("seeingFwhmGeom", fgeom); ("skyBrightness", bright);
    ("night", night); ("slewTime", slewt); ("visitTime", visitt); ("slewDistance", slew); ("fiveSigmaDepth", depth);
    ("altitude", alt); ("azimuth", az); ("paraAngle", pa); ("psudoParaAngle", ppa); ("cloud", cloud);
    ("moonAlt", malt); ("sunAlt", salt); ("note", note); ("scheduler_note", snote); ("target_name", tname);
    ("observationStartLST", lst); ("rotTelPos", rott); ("rotTelPos_backup", back);
    ("moonAz", maz); ("sunAz", saz); ("sunRA", sra); ("sunDec", sdec); ("moonRA", mra);
    ("moonDec", mdec); ("moonDistance", mdist); ("solarElong", elong); ("moonPhase", phase);
    ("cummTelAz", cumm); ("observation_reason", reason); ("science_program", prog); ("start_date", date) ] : list (string * list val)).
Lemma obs_shape : opsim2obs convert_dict back_dict rad2deg hours2deg obs_names table_shape =
  [ ("ID", Some ids); ("RA", Some ra'); ("dec", Some decl'); ("mjd", Some mjd); ("flush_by_mjd", Some flush);
    ("exptime", Some exp); ("band", Some band); ("filter", None); ("rotSkyPos", Some sky');
    ("rotSkyPos_desired", Some want'); ("nexp", Some nexp); ("airmass", Some air); ("FWHM_500", Some f500);
    ("FWHMeff", Some feff); ("FWHM_geometric", Some fgeom); ("skybrightness", Some bright); ("night", Some night);
    ("slewtime", Some slewt); ("visittime", Some visitt); ("slewdist", Some slew'); ("fivesigmadepth", Some depth);
    ("alt", Some alt'); ("az", Some az'); ("pa", Some pa');
    ("pseudo_pa", Some (repeat VNaN (List.length ids))); ("clouds", Some cloud); ("moonAlt", Some malt');
    ("sunAlt", Some salt'); ("scheduler_note", Some snote); ("target_name", Some tname); ("target_id", None);
    ("lmst", Some lst'); ("rotTelPos", Some rott'); ("rotTelPos_backup", Some back');
    ("moonAz", Some maz'); ("sunAz", Some saz'); ("sunRA", Some sra'); ("sunDec", Some sdec');
    ("moonRA", Some mra'); ("moonDec", Some mdec'); ("moonDist", Some mdist');
    ("solarElong", Some elong'); ("moonPhase", Some phase); ("cummTelAz", Some cumm');
    ("observation_reason", Some reason); ("science_program", Some prog); ("cloud_extinction", None); ("note", Some note) ].
Proof.
  cbv -[num_col Schema.radians to_hours repeat List.length].
  rewrite H_ra, H_decl, H_sky, H_pa, H_malt, H_salt, H_rott, H_maz, H_saz, H_sra, H_sdec, H_mra, H_mdec, H_mdist, H_elong, H_alt, H_az, H_slew, H_want, H_back, H_cumm, H_lst. reflexivity.
Qed.
End Shape.

(** All steps of [obs] at once. *)
Definition apart (e : env) (ra decl ra2 dec2 : list (option R)) : list (option R) :=
  map1 Sphere.degrees
    (map (fun p => match p with ((Some a, Some d), (Some x, Some y)) =>
                     Some (e_sep e (Sphere.radians a) (Sphere.radians d) (Sphere.radians x) (Sphere.radians y)) | _ => None end)
       (combine (combine ra decl) (combine ra2 dec2))).
Lemma obs_open : forall e i t o, obs e i t = Ok o -> exists ids_ ra_ dec_ start_ shut_ band_ sky_ air_ f5_ fg_ br_ starts_ ends_ depth_ alt_ az_ mid_ tn_ rot_ os_,
  ids e i t = Ok ids_ /\ arith t "s_ra" = Ok ra_ /\ arith t "s_dec" = Ok dec_ /\ arith t "obs_start_mjd" = Ok start_ /\ shut e i t = Ok shut_ /\ band i t = Ok band_ /\ arith t "sky_rotation" = Ok sky_ /\ air i t = Ok air_ /\ fwhm_500 i t = Ok f5_ /\ fwhm_geom i t = Ok fg_ /\ sky_mag e i t = Ok br_ /\ all_some start_ = Ok starts_ /\ arith t "obs_end_mjd" = Ok ends_ /\ eff_time_m5 i t = Ok depth_ /\ alt i t = Ok alt_ /\ az i t = Ok az_ /\ midpt e i t = Ok mid_ /\ get t "target_name" = Ok tn_ /\ rot_tels (telescope i) (combine sky_ (map3 (e_ppa e) ra_ dec_ start_)) = Ok rot_ /\ get t "obs_start" = Ok os_ /\
  let sm := map (option_map (e_almanac e)) mid_ in
  let nan := repeat VNaN (rows t) in
  let at_ f := map angle (in_degrees f sm) in
  o = [ ("ID", Some ids_); ("RA", Some (map angle ra_)); ("dec", Some (map angle dec_)); ("mjd", Some (map num start_)); ("flush_by_mjd", Some nan);
    ("exptime", Some (map num shut_)); ("band", Some (map txt band_)); ("filter", None); ("rotSkyPos", Some (map angle sky_));
    ("rotSkyPos_desired", Some nan); ("nexp", Some (repeat (VNum (num_exposures i)) (rows t))); ("airmass", Some (map num air_)); ("FWHM_500", Some (map num f5_));
    ("FWHMeff", Some (map num (fwhm_eff i t))); ("FWHM_geometric", Some (map num fg_)); ("skybrightness", Some (map num br_)); ("night", Some (map (fun n => VNum (IZR n)) (night (e_start e) starts_)));
    ("slewtime", Some nan); ("visittime", Some (map num (map2 (fun s n => (n - s) * 24 * 60 * 60) start_ ends_))); ("slewdist", Some (map angle (slew_distance (e_sep e) (pairs ra_ dec_)))); ("fivesigmadepth", Some depth_);
    ("alt", Some (map angle alt_)); ("az", Some (map angle az_)); ("pa", Some (map angle (map2 (fun a z => Sphere.degrees (e_pa e (Sphere.radians a) (Sphere.radians z))) alt_ az_)));
    ("pseudo_pa", Some (repeat VNaN (List.length ids_))); ("clouds", Some nan); ("moonAlt", Some (at_ moon_alt));
    ("sunAlt", Some (at_ sun_alt)); ("scheduler_note", Some (text_or_empty t "scheduler_note")); ("target_name", Some (cells tn_)); ("target_id", None);
    ("lmst", Some (map hours (map1 (e_lst e) start_))); ("rotTelPos", Some (map angle rot_)); ("rotTelPos_backup", Some nan);
    ("moonAz", Some (at_ moon_az)); ("sunAz", Some (at_ sun_az)); ("sunRA", Some (at_ sun_RA)); ("sunDec", Some (at_ sun_dec));
    ("moonRA", Some (at_ moon_RA)); ("moonDec", Some (at_ moon_dec));
    ("moonDist", Some (map angle (apart e ra_ dec_ (in_degrees moon_RA sm) (in_degrees moon_dec sm))));
    ("solarElong", Some (map angle (apart e ra_ dec_ (in_degrees sun_RA sm) (in_degrees sun_dec sm)))); ("moonPhase", Some (map num (map (option_map moon_phase) sm))); ("cummTelAz", Some nan);
    ("observation_reason", Some (text_or_empty t "observation_reason")); ("science_program", Some (text_or_empty t "science_program")); ("cloud_extinction", None); ("note", Some (text_or_empty t "note")) ].
Proof.
  intros e i t o H. unfold obs in H. apply bind_ok in H as (d & D & H). apply ok_inj in H. unfold opsim in D. cbv zeta in D.
  apply bind_ok in D as (ids_ & E_ids & D).
  apply bind_ok in D as (ra_ & E_ra & D).
  apply bind_ok in D as (dec_ & E_dec & D).
  apply bind_ok in D as (start_ & E_start & D).
  apply bind_ok in D as (shut_ & E_shut & D).
  apply bind_ok in D as (band_ & E_band & D).
  apply bind_ok in D as (sky_ & E_sky & D).
  apply bind_ok in D as (air_ & E_air & D).
  apply bind_ok in D as (f5_ & E_f5 & D).
  apply bind_ok in D as (fg_ & E_fg & D).
  apply bind_ok in D as (br_ & E_br & D).
  apply bind_ok in D as (starts_ & E_starts & D).
  apply bind_ok in D as (ends_ & E_ends & D).
  apply bind_ok in D as (depth_ & E_depth & D).
  apply bind_ok in D as (alt_ & E_alt & D).
  apply bind_ok in D as (az_ & E_az & D).
  apply bind_ok in D as (mid_ & E_mid & D).
  apply bind_ok in D as (tn_ & E_tn & D).
  apply bind_ok in D as (rot_ & E_rot & D).
  apply bind_ok in D as (os_ & E_os & D).
  apply ok_inj in D. subst d. erewrite obs_shape in H; [| try (first [apply radians_col | apply nan_col | apply hours_col]) ..].
  exists ids_, ra_, dec_, start_, shut_, band_, sky_, air_, f5_, fg_, br_, starts_, ends_, depth_, alt_, az_, mid_, tn_, rot_, os_. repeat (split; [assumption|]). cbv zeta. symmetry. exact H.
Qed.
Ltac open_obs H :=
  apply obs_open in H as (ids_ & ra_ & dec_ & start_ & shut_ & band_ & sky_ & air_ & f5_ & fg_ & br_ & starts_ & ends_ & depth_ & alt_ & az_ & mid_ & tn_ & rot_ & os_ & E_ids & E_ra & E_dec & E_start & E_shut & E_band & E_sky & E_air & E_f5 & E_fg & E_br & E_starts & E_ends & E_depth & E_alt & E_az & E_mid & E_tn & E_rot & E_os & H); cbv zeta in H; subst; unfold apart.

Lemma arith_numbers : forall t c l m, numbers t c = Some l -> arith t c = Ok m -> m = l.
Proof. unfold numbers, arith. intros t c l m H E. destruct (get t c) as [[a|a]|]; try discriminate. congruence. Qed.
Lemma arith_of : forall t c l, numbers t c = Some l -> arith t c = Ok l.
Proof. unfold numbers, arith. intros t c l H. destruct (get t c) as [[a|a]|]; try discriminate. congruence. Qed.
Lemma arith_missing : forall t c m, get t c = Raise KeyError -> arith t c <> Ok m.
Proof. unfold arith. intros t c m ->. discriminate. Qed.

(** The rotator. *)
Lemma rmod_is : forall x m, 0 < m -> exists z, rmod x m = x + m * IZR z /\ 0 <= rmod x m < m.
Proof.
  intros x m M. exists (- Int_part (x / m))%Z. unfold rmod. rewrite opp_IZR. split; [ring|].
  destruct (base_Int_part (x / m)) as [A B].
  assert (E : x = m * (x / m)) by (field; lra). split.
  - rewrite E at 1. replace (m * (x / m) - m * IZR (Int_part (x / m))) with (m * (x / m - IZR (Int_part (x / m)))) by ring. apply Rmult_le_pos; lra.
  - rewrite E at 1. replace (m * (x / m) - m * IZR (Int_part (x / m))) with (m * (x / m - IZR (Int_part (x / m)))) by ring.
    rewrite <- (Rmult_1_r m) at 4. apply Rmult_lt_compat_l; lra.
Qed.
Lemma wrap_is : forall x, exists z, wrap_180 (rmod x (2 * PI)) = x + 2 * PI * IZR z /\ - PI < wrap_180 (rmod x (2 * PI)) <= PI.
Proof.
  intros x. pose proof PI_RGT_0 as P. destruct (rmod_is x (2 * PI) ltac:(lra)) as (a & A & B).
  unfold wrap_180. destruct (rmod_is (rmod x (2 * PI)) (2 * PI) ltac:(lra)) as (b & C & D).
  destruct (Rlt_dec PI (rmod (rmod x (2 * PI)) (2 * PI))) as [L|L].
  - exists (a + b - 1)%Z. rewrite minus_IZR, plus_IZR. split; [rewrite C, A; ring|lra].
  - exists (a + b)%Z. rewrite plus_IZR. split; [rewrite C, A; ring|lra].
Qed.
Lemma rot_tels_nth : forall tel l r k s p, rot_tels tel l = Ok r -> nth_error l k = Some (Some s, Some p) ->
  exists x, rotskypos2rottelpos tel (Sphere.radians s) (Sphere.radians p) = Ok x /\ nth_error r k = Some (Some (Sphere.degrees x)).
Proof.
  intros tel l. induction l as [|[a b] l IH]; intros r k s p H N; [destruct k; discriminate|].
  assert (Q : exists q v, rot_tels tel l = Ok q /\ r = v :: q /\ (forall s p, (a, b) = (Some s, Some p) -> exists x, rotskypos2rottelpos tel (Sphere.radians s) (Sphere.radians p) = Ok x /\ v = Some (Sphere.degrees x))).
  { destruct a as [a|]; [destruct b as [b|]|]; cbn in H.
    - apply bind_ok in H as (x & X & H). apply bind_ok in H as (q & Q & H). apply ok_inj in H. exists q, (Some (Sphere.degrees x)). split; [exact Q|]. split; [now symmetry|].
      intros s' p' E. assert (a = s') by congruence. assert (b = p') by congruence. subst. eauto.
    - apply bind_ok in H as (q & Q & H). apply ok_inj in H. exists q, None. repeat split; auto. intros; discriminate.
    - apply bind_ok in H as (q & Q & H). apply ok_inj in H. exists q, None. repeat split; auto. intros; discriminate. }
  destruct Q as (q & v & Q & -> & V). destruct k as [|k]; cbn in N.
  - assert (E : (a, b) = (Some s, Some p)) by congruence. destruct (V s p E) as (x & X & ->). exists x. split; [exact X|reflexivity].
  - exact (IH q k s p Q N).
Qed.
