(** C65: the values read from a Conditions object belong to what was last set on it.
    [inputs] folds the assignments of a history into the inputs in force, [want] and
    [want_m5] compute each derived value from them; both are written without the model
    (Cond_proofs.v). *)
From Coq Require Import List ZArith QArith Bool String.
From Verif Require Import Base Cond Cond_proofs.
Import ListNotations.
Local Open Scope string_scope.
Open Scope list_scope.

Section C65.
Variable M : Type.
Variable lmst_of : Q -> Q.
Variable ha_of : Q -> M.
Variable altaz_of : Q -> M * M.
Variable pa_of : M -> M -> M.
Variable airmass_of : option (Q * Q) -> M -> M.
Variable m5_of : string -> M -> M -> M -> M.
Variable nan_map : M.
Variable elong_of : Q -> Q -> M.
Variable az_sun_of : Q -> M.
Variable az_anti_of : Q -> M.
Variable wind_of : Q -> M -> Q -> M.
Notation crun := (crun M lmst_of ha_of altaz_of pa_of airmass_of m5_of nan_map elong_of az_sun_of az_anti_of wind_of).
Notation read := (read M lmst_of ha_of altaz_of pa_of airmass_of m5_of nan_map elong_of az_sun_of az_anti_of wind_of).
Notation want := (want M lmst_of ha_of altaz_of pa_of airmass_of elong_of az_sun_of az_anti_of wind_of).
Notation want_m5 := (want_m5 M altaz_of airmass_of m5_of).

(** Sidereal time, hour angle, altitude, azimuth and parallactic angle: whatever was set
    and read before, a read gives the value for the inputs in force, and fails only
    when no time is known. *)
Theorem C65_position_fresh : forall t0 ops,
  let s := fst (crun (set_mjd M t0) ops) in
  let i := inputs M t0 ops in
  snd (read KLmst s) = match i_lmst M i, i_mjd M i with
                       | Some l, _ => Ok (VQ M l)
                       | None, Some t => Ok (VQ M (lmst_of t))
                       | None, None => Raise TypeError
                       end /\
  forall k, In k [KHa; KAlt; KAz; KPa] ->
    match want k i with
    | Some m => snd (read k s) = Ok (VM M m)
    | None => exists e, snd (read k s) = Raise e
    end.
Proof.
  intros t0 ops s i.
  assert (B : Base M lmst_of ha_of altaz_of pa_of airmass_of elong_of az_sun_of az_anti_of wind_of s i)
    by (apply run_base, init_base).
  split.
  - cbn. destruct (lmst_base M lmst_of ha_of altaz_of pa_of airmass_of elong_of az_sun_of az_anti_of wind_of s i B) as [_ R].
    unfold get_lmst in *. destruct (x_lmst M s) as [l|] eqn:L; cbn in *.
    + unfold w_lmst in R. destruct (i_lmst M i); [congruence|]. destruct (i_mjd M i); cbn in R; congruence.
    + destruct B as (T & _ & _ & _ & _ & _ & _ & _ & _ & LL & _). rewrite L in LL. rewrite LL.
      rewrite <- T. destruct (x_mjd M s); reflexivity.
  - intros k K. cbn in K. destruct K as [<-|[<-|[<-|[<-|[]]]]].
    + destruct (ha_base M lmst_of ha_of altaz_of pa_of airmass_of elong_of az_sun_of az_anti_of wind_of s i B) as [_ R].
      cbn [Cond.read as_val snd]. destruct (snd (get_ha M lmst_of ha_of s)); rewrite R; eauto.
    + destruct (alt_base M lmst_of ha_of altaz_of pa_of airmass_of elong_of az_sun_of az_anti_of wind_of s i B) as [_ R].
      cbn [Cond.read as_val snd]. destruct (snd (get_alt M altaz_of s)); rewrite R; eauto.
    + destruct (az_base M lmst_of ha_of altaz_of pa_of airmass_of elong_of az_sun_of az_anti_of wind_of s i B) as [_ R].
      cbn [Cond.read as_val snd]. destruct (snd (get_az M altaz_of s)); rewrite R; eauto.
    + destruct (pa_base M lmst_of ha_of altaz_of pa_of airmass_of elong_of az_sun_of az_anti_of wind_of s i B) as [_ R].
      cbn [Cond.read as_val snd]. destruct (snd (get_pa M altaz_of pa_of s)); rewrite R; eauto.
Qed.

(** Partial: airmass, solar elongation, azimuth relative to the Sun and wind pressure are
    right as long as none of the plain attributes they come from is set after they were
    first read at that time.  What is missing is that setting one of them recomputes the
    value: see the refutations below. *)
Theorem C65_settled_partial : forall t0 ops k v,
  In k [KAirmass; KElong; KAzSun; KAzAnti; KWind] ->
  settled M k false ops ->
  snd (read k (fst (crun (set_mjd M t0) ops))) = Ok v ->
  exists m, v = VM M m /\ want k (inputs M t0 ops) = Some m.
Proof.
  intros t0 ops k v K D H.
  assert (S0 : sticky k = true) by (cbn in K; intuition (subst; reflexivity)).
  destruct (run_sticky M lmst_of ha_of altaz_of pa_of airmass_of m5_of nan_map elong_of az_sun_of az_anti_of wind_of
    ops k false (set_mjd M t0) (inputs M t0 []) S0
    (init_base _ _ _ _ _ _ _ _ _ _ t0)) as [B [f' I]]; [intros m C; destruct k; discriminate C|exact D|].
  destruct (read_sticky M lmst_of ha_of altaz_of pa_of airmass_of m5_of nan_map elong_of az_sun_of az_anti_of wind_of
    k f' _ _ S0 B I) as [_ R]. exact (R v H).
Qed.

(** And they are available: with their inputs given the read succeeds, for the airmass
    once an altitude has been read. *)
Theorem C65_available_partial : forall t0 ops,
  let s := fst (crun (set_mjd M t0) ops) in
  let i := inputs M t0 ops in
  (forall k, In k [KElong; KAzSun; KAzAnti; KWind] -> want k i <> None -> exists v, snd (read k s) = Ok v) /\
  (i_mjd M i <> None -> exists v, snd (read KAirmass (fst (read KAlt s))) = Ok v).
Proof.
  intros t0 ops s i.
  assert (B : Base M lmst_of ha_of altaz_of pa_of airmass_of elong_of az_sun_of az_anti_of wind_of s i)
    by (apply run_base, init_base).
  destruct (az_base M lmst_of ha_of altaz_of pa_of airmass_of elong_of az_sun_of az_anti_of wind_of s i B) as [_ R].
  destruct B as (T & A1 & A2 & A3 & A4 & _).
  split.
  - intros k K W. cbn in K. destruct K as [<-|[<-|[<-|[<-|[]]]]]; cbn in *.
    + unfold get_el. destruct (x_el M s); [eexists; reflexivity|]. rewrite <- A1, <- A2 in W.
      destruct (x_sra M s); [|congruence]. destruct (x_sdec M s); [|congruence]. eexists; reflexivity.
    + unfold get_azs. destruct (x_azs M s); [eexists; reflexivity|]. rewrite <- A1 in W.
      destruct (x_sra M s); [|cbn in W; congruence]. eexists; reflexivity.
    + unfold get_aza. destruct (x_aza M s); [eexists; reflexivity|]. rewrite <- A1 in W.
      destruct (x_sra M s); [|cbn in W; congruence]. eexists; reflexivity.
    + unfold get_wp. destruct (x_wp M s); [eexists; reflexivity|].
      pose proof (altaz_keep M altaz_of s) as Kp. cbn in Kp. destruct Kp as (_ & _ & _ & _ & _ & _ & _ & W1 & W2).
      destruct (get_az M altaz_of s) as [s1 [z|e]]; cbn in *.
      * rewrite W1, W2, A3, A4. destruct (i_ws M i); [|congruence]. destruct (i_wd M i); [|congruence]. eexists; reflexivity.
      * exfalso. destruct (i_ws M i); [|congruence]. destruct (i_wd M i); [|congruence]. destruct (i_mjd M i); [discriminate R|congruence].
  - intro W. rewrite <- T in W. cbn. unfold get_alt, get_air.
    destruct (x_alt M s) eqn:E; cbn.
    + destruct (x_air M s); [eexists; reflexivity|]. rewrite E. eexists; reflexivity.
    + destruct (x_mjd M s); [|congruence]. cbn. destruct (x_air M s); eexists; reflexivity.
Qed.

(** Partial: five-sigma depths are those of the current sky brightness, seeing and airmass,
    band by band, as long as no earlier read failed and the telescope limits were not
    changed after the airmass was read. *)
Theorem C65_m5_partial : forall t0 ops v,
  settled M KAirmass false ops ->
  Forall (fun r => exists x, r = Ok x) (snd (crun (set_mjd M t0) ops)) ->
  snd (read KM5 (fst (crun (set_mjd M t0) ops))) = Ok v ->
  exists d, v = VD M d /\
    forall b, dget M d b = want_m5 (inputs M t0 ops) b /\
              (i_sky M (inputs M t0 ops) b <> None -> dget M d b <> None).
Proof.
  intros t0 ops v D F H.
  destruct (run_m5 M lmst_of ha_of altaz_of pa_of airmass_of m5_of nan_map elong_of az_sun_of az_anti_of wind_of
    ops false (set_mjd M t0) (inputs M t0 [])) as [f' A];
    [apply init_base|split; [intros m C; discriminate C|intros d C; discriminate C]|exact D|exact F|].
  destruct (read_air_m5 M lmst_of ha_of altaz_of pa_of airmass_of m5_of nan_map elong_of az_sun_of az_anti_of wind_of
    f' (fst (crun (set_mjd M t0) ops)) (inputs M t0 ops) v) as [_ R]; auto.
  apply run_base, init_base.
Qed.
End C65.
Print Assumptions C65_position_fresh.
Print Assumptions C65_settled_partial.
Print Assumptions C65_available_partial.
Print Assumptions C65_m5_partial.

(** A small world for the examples: a map is a list of pixel values, None being NaN.
    Altitudes stand for their sines. *)
Local Open Scope Q_scope.
Definition pm := list (option Q).
Definition e_air (lim : option (Q * Q)) (a : pm) : pm :=
  map (fun x => match x with
                | Some q => let l := match lim with Some p => if Qltb (snd p) (fst p) then snd p else fst p | None => 0 end in
                            if Qltb l q then Some (Qred (1 / q)) else None
                | None => None end) a.
Definition e_altaz (t : Q) : pm * pm := ([Some t; Some (t / 4)], [Some 0; Some 1]).
Definition e_m5 (b : string) (s f a : pm) : pm :=
  map (fun p => match p with (Some x, (Some y, Some z)) => Some (Qred (x - y - z)) | _ => None end)
      (combine s (combine f a)).
Definition e_run (ops : list (cop pm)) :=
  crun pm (fun t => t) (fun l => [Some l]) e_altaz (fun a z => a ++ z) e_air e_m5 [None; None]
       (fun a d => [Some (a + d)]) (fun a => [Some a]) (fun a => [Some (- a)])
       (fun v z d => [Some (v * d)]) (set_mjd pm (Some (1 # 2))) ops.
Definition e_read k s :=
  read pm (fun t => t) (fun l => [Some l]) e_altaz (fun a z => a ++ z) e_air e_m5 [None; None]
       (fun a d => [Some (a + d)]) (fun a => [Some a]) (fun a => [Some (- a)])
       (fun v z d => [Some (v * d)]) k s.
Definition e_want k i :=
  want pm (fun t => t) (fun l => [Some l]) e_altaz (fun a z => a ++ z) e_air
       (fun a d => [Some (a + d)]) (fun a => [Some a]) (fun a => [Some (- a)]) (fun v z d => [Some (v * d)]) k i.

Example C65_example :
  let ops := [Read pm KHa; SetLmst pm 3; SetFwhm pm [("r", [Some 1; Some 1])]; SetSunRa pm 5; Read pm KAlt;
              Read pm KAirmass; SetSky pm [("r", [Some 21; Some 20])]; Read pm KM5;
              SetSky pm [("r", [Some 18; Some 17])]; Read pm KAzSun] in
  settled pm KAzSun false ops /\ settled pm KAirmass false ops /\
  Forall (fun r => exists x, r = Ok x) (snd (e_run ops)) /\
  snd (e_read KHa (fst (e_run ops))) = Ok (VM pm [Some 3]) /\
  snd (e_read KAzSun (fst (e_run ops))) = Ok (VM pm [Some 5]) /\
  snd (e_read KM5 (fst (e_run ops))) = Ok (VD pm [("r", [Some 15; Some 8])]).
Proof.
  cbv zeta. split; [vm_compute; intuition discriminate|]. split; [vm_compute; intuition discriminate|].
  split; [|vm_compute; auto].
  vm_compute. repeat constructor; eexists; reflexivity.
Qed.

(** Refuted: an attribute set later does not reach the values already read from it.  The
    order in the third case is that of ModelObservatory.return_conditions
    (model_observatory.py lines 391-482): the airmass is read for the seeing before the
    telescope limits are set. *)
Theorem C65_sun_refuted : exists ops m,
  snd (e_read KElong (fst (e_run ops))) = Ok (VM pm m) /\
  e_want KElong (inputs pm (Some (1 # 2)) ops) <> Some m.
Proof.
  exists [SetSunRa pm 1; SetSunDec pm 1; Read pm KElong; SetSunRa pm 2], [Some 2%Q]. split; [vm_compute; reflexivity|].
  vm_compute. discriminate.
Qed.
Theorem C65_wind_refuted : exists ops m,
  snd (e_read KWind (fst (e_run ops))) = Ok (VM pm m) /\
  e_want KWind (inputs pm (Some (1 # 2)) ops) <> Some m.
Proof.
  exists [SetWind pm 1; SetWindDir pm 1; Read pm KWind; SetWind pm 20], [Some 1%Q]. split; [vm_compute; reflexivity|].
  vm_compute. discriminate.
Qed.
Theorem C65_observatory_airmass_refuted : exists rest m,
  snd (e_read KAirmass (fst (e_run ([Read pm KAlt; Read pm KAz; Read pm KAirmass; SetFwhm pm [("r", [Some 1; Some 1])]]
       ++ rest ++ [SetLimits pm (1 # 3, 1)])))) = Ok (VM pm m) /\
  (exists p, nth_error m p = Some (Some 8%Q)) /\
  forall w p, e_want KAirmass (inputs pm (Some (1 # 2)) ([Read pm KAlt; Read pm KAz; Read pm KAirmass; SetFwhm pm [("r", [Some 1; Some 1])]]
       ++ rest ++ [SetLimits pm (1 # 3, 1)])) = Some w -> nth_error w p <> Some (Some 8%Q).
Proof.
  exists [SetSky pm [("r", [Some 21; Some 20])]; SetSunRa pm 1; SetLmst pm 3], [Some 2%Q; Some 8%Q].
  split; [vm_compute; reflexivity|]. split; [exists 1%nat; reflexivity|].
  intros w p H. vm_compute in H. injection H as <-. destruct p as [|[|p]]; cbn; try discriminate.
  destruct p; discriminate.
Qed.
(** Refuted: five-sigma depths can be read whenever sky and seeing are set.  The first read
    raises when the airmass was not read before, and the next one returns NaN. *)
Theorem C65_m5_nan_refuted : exists ops,
  (exists e, In (Raise e) (snd (e_run (ops ++ [Read pm KM5])))) /\
  snd (e_read KM5 (fst (e_run (ops ++ [Read pm KM5; Read pm KAlt; Read pm KAirmass])))) = Ok (VD pm [("r", [None; None])]) /\
  want_m5 pm e_altaz e_air e_m5 (inputs pm (Some (1 # 2)) (ops ++ [Read pm KM5; Read pm KAlt; Read pm KAirmass])) "r"
    = Some [Some 18; Some 11].
Proof.
  exists [SetSky pm [("r", [Some 21; Some 20])]; SetFwhm pm [("r", [Some 1; Some 1])]].
  split; [exists TypeError; vm_compute; auto|]. split; vm_compute; reflexivity.
Qed.
Print Assumptions C65_sun_refuted.
Print Assumptions C65_wind_refuted.
Print Assumptions C65_observatory_airmass_refuted.
Print Assumptions C65_m5_nan_refuted.
