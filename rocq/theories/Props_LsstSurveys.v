(** C117: the surveys of the baseline keep the safety limits they are given, have the weights, bands, names and
    lengths asked for. *)
From Coq Require Import List Bool QArith Qminmax ZArith String Lia Lqa.
From Verif Require Import Base LsstSurveys.
Import ListNotations.
Open Scope Q_scope.
Open Scope string_scope.
Open Scope list_scope.

(** What the caller wants: the values in the dictionary, or those of the documentation of safety_masks. *)
Record limits := Limits { l_moon : Q; l_wind : Q; l_min_alt : Q; l_max_alt : Q; l_min_az : Q; l_max_az : Q;
                          l_min_az_s : Q; l_max_az_s : Q; l_hours : Q; l_limited : bool }.
Definition get {A} (o : option params) (f : params -> option A) (d : A) : A :=
  match o with None => d | Some p => match f p with None => d | Some x => x end end.
Definition wanted (o : option params) : limits :=
  Limits (get o p_moon 30) (get o p_wind 20) (get o p_min_alt 20) (get o p_max_alt (173#2)) (get o p_min_az 0) (get o p_max_az 360)
         (get o p_min_az_sunrise 120) (get o p_max_az_sunrise 290) (get o p_sunrise 3) (get o p_limited true).
Definition lower (x : Q) (L : limits) : limits :=
  Limits (l_moon L) (l_wind L) (l_min_alt L) x (l_min_az L) (l_max_az L) (l_min_az_s L) (l_max_az_s L) (l_hours L) (l_limited L).
(** The masks that keep the limits [L] for [m] minutes on the maps of resolution [n]. *)
Definition guarded (n : Z) (L : limits) (m : Q) (l : list bfn) : Prop :=
  In (MoonAvoidance n (l_moon L)) l /\ In (PlanetMask n) l /\ In (AvoidDirectWind n (l_wind L)) l
  /\ In (AltAzShadowMask n (l_min_alt L) (l_max_alt L) (l_min_az L) (l_max_az L) m) l
  /\ (l_limited L = true -> In (AltAzShadowTimeLimited n (l_min_alt L) (l_max_alt L) (l_min_az_s L) (l_max_az_s L) m (l_hours L + m / 60)) l).
(** The basis functions of weight 0, which only mask. *)
Definition masking (s : survey) : list bfn := map fst (filter (fun bw => Qeq_bool (snd bw) 0) (s_bfs s)).
(** The dictionary, when given, names the resolution of the surveys. *)
Definition own (a : args) : Prop := match safety a with None => True | Some p => p_nside p = Some (nside a) end.
(** Minutes that are at least those needed and those asked for, and no more than both. *)
Definition shadow_ok (a : args) (need m : Q) : Prop :=
  need <= m /\ match safety a with Some p => match p_shadow p with Some x => x <= m /\ (m = need \/ m = x) | None => m = need end | None => m = need end.

Lemma masking_app : forall l l', map fst (filter (fun bw : bfn * Q => Qeq_bool (snd bw) 0) (l ++ at0 l')) = map fst (filter (fun bw => Qeq_bool (snd bw) 0) l) ++ l'.
Proof. intros l l'. rewrite filter_app, map_app. f_equal. induction l' as [|x l' IH]; [reflexivity|]. cbn. f_equal. exact IH. Qed.
Lemma guarded_r : forall n L m l l', guarded n L m l' -> guarded n L m (l ++ l').
Proof. intros n L m l l' (A & B & C & D & E). repeat split; try (apply in_or_app; right; assumption). intros F. apply in_or_app. right. exact (E F). Qed.
Lemma guarded_masks : forall p L m n, n = dflt DEFAULT_NSIDE (p_nside p) -> m = dflt 70 (p_shadow p) ->
  L = Limits (dflt 30 (p_moon p)) (dflt 20 (p_wind p)) (dflt 20 (p_min_alt p)) (dflt (173#2) (p_max_alt p)) (dflt 0 (p_min_az p)) (dflt 360 (p_max_az p))
             (dflt 120 (p_min_az_sunrise p)) (dflt 290 (p_max_az_sunrise p)) (dflt 3 (p_sunrise p)) (dflt true (p_limited p)) ->
  guarded n L m (safety_masks p).
Proof.
  intros p L m n -> -> ->. unfold guarded, safety_masks. cbn [l_moon l_wind l_min_alt l_max_alt l_min_az l_max_az l_min_az_s l_max_az_s l_hours l_limited].
  repeat split; try (apply in_or_app; left; cbn; tauto). intros ->. apply in_or_app. right. left. reflexivity.
Qed.
Definition the_shadow (a : args) (need : Q) : Q := dflt 70 (p_shadow (at_least need (base_params (nside a) (safety a)))).
Lemma the_shadow_ok : forall a need, shadow_ok a need (the_shadow a need).
Proof.
  intros a need. unfold shadow_ok, the_shadow, at_least, base_params. destruct (safety a) as [p|]; cbn; [|split; [apply Qle_refl|reflexivity]].
  destruct (p_shadow p) as [x|] eqn:E; cbn; [|split; [apply Qle_refl|reflexivity]].
  destruct (Qle_bool need x) eqn:C; cbn; rewrite ?E; cbn.
  - apply Qle_bool_iff in C. repeat split; [exact C|apply Qle_refl|right; reflexivity].
  - assert (N : ~ need <= x) by (rewrite <- Qle_bool_iff; congruence). split; [apply Qle_refl|split; [apply Qlt_le_weak, Qnot_le_lt, N|left; reflexivity]].
Qed.
Lemma guarded_at_least : forall a need, own a -> guarded (nside a) (wanted (safety a)) (the_shadow a need) (safety_masks (at_least need (base_params (nside a) (safety a)))).
Proof.
  intros a need O. unfold own, the_shadow in *. apply guarded_masks; [|reflexivity|].
  - unfold at_least, base_params. destruct (safety a) as [p|]; [|reflexivity]. destruct (p_shadow p); [destruct (Qle_bool need q)|]; cbn; rewrite O; reflexivity.
  - unfold at_least, base_params, wanted, get, dflt. destruct (safety a) as [p|]; [|reflexivity]. destruct (p_shadow p); [destruct (Qle_bool need q)|]; reflexivity.
Qed.
Lemma ok_inj : forall {A} (u v : A), Ok u = Ok v -> v = u.
Proof. intros A u v E. congruence. Qed.
Lemma collect_in : forall {A B} (f : A -> res B) l r y, collect f l = Ok r -> In y r -> exists x, In x l /\ f x = Ok y.
Proof.
  intros A B f. induction l as [|x l IH]; cbn; intros r y E I; [injection E as <-; destruct I|].
  destruct (f x) as [v|e] eqn:F; cbn in E; [|discriminate]. destruct (collect f l) as [vs|e]; cbn in E; [|discriminate].
  injection E as <-. destruct I as [<-|I]; [exists x; split; [left; reflexivity|exact F]|].
  destruct (IH vs y eq_refl I) as (x' & I' & F'). exists x'. split; [right; exact I'|exact F'].
Qed.
Lemma long_loop_in : forall f1 a h1 h2 t names l r s, In s (long_loop f1 a h1 h2 t names r l) -> exists r' bb, In bb l /\ s = long_survey a h1 h2 t names r' bb.
Proof.
  intros f1 a h1 h2 t names. induction l as [|bb l IH]; intros r s; cbn; [intros []|].
  intros [<-|I]; [eexists; exists bb; split; [left; reflexivity|reflexivity]|].
  destruct (IH _ _ I) as (r' & b' & Ib & ->). exists r', b'. split; [right; exact Ib|reflexivity].
Qed.

(** Templates, blobs for long gaps, the scripted repeats, blobs and the surveys near the sun are under every mask the
    caller asks for, on their own maps, for at least the minutes they need and the minutes asked for. *)
Theorem C117_safety : forall fi f1 a, own a ->
  (forall seeing b1 dark n area h1 h2 l s, gen_template_surveys f1 a seeing b1 dark n area h1 h2 = Ok l -> In s l ->
     exists m, shadow_ok a (pair_time a) m /\ guarded (nside a) (wanted (safety a)) m (masking s))
  /\ (forall b1 b2 h1 h2 t names reason s, In s (blob_for_long f1 a b1 b2 h1 h2 t names reason) ->
     exists m, shadow_ok a (pair_time a * 2 + pair_pad a) m /\ guarded (nside a) (wanted (safety a)) m (masking s))
  /\ (forall h1 h2 t l s masks, gen_long_gaps_survey f1 a h1 h2 t = Ok l -> In (s, masks) l ->
     (exists m, shadow_ok a (pair_time a * 2 + pair_pad a) m /\ guarded (nside a) (wanted (safety a)) m (masking s))
     /\ exists m, shadow_ok a (pair_time a) m /\ guarded (nside a) (wanted (safety a)) m masks)
  /\ (forall b1 b2 g s, In s (generate_blobs fi f1 a b1 b2 g) ->
     exists m hi, shadow_ok a (pair_time a * 2 + pair_pad a) m /\ hi <= l_max_alt (wanted (safety a))
                  /\ guarded (nside a) (lower hi (wanted (safety a))) m (masking s))
  /\ (forall t bands s, In s (generate_twilight_near_sun a t bands) ->
     exists m, shadow_ok a (pair_time a * 4) m /\ guarded (nside a) (wanted (safety a)) m (masking s)).
Proof.
  intros fi f1 a O.
  assert (LONG : forall b1 b2 h1 h2 t names reason s, In s (blob_for_long f1 a b1 b2 h1 h2 t names reason) ->
     exists m, shadow_ok a (pair_time a * 2 + pair_pad a) m /\ guarded (nside a) (wanted (safety a)) m (masking s)).
  { intros b1 b2 h1 h2 t names reason s I. destruct (long_loop_in _ _ _ _ _ _ _ _ _ I) as (r & (band, band2) & _ & ->).
    exists (the_shadow a (pair_shadow a)). split; [apply the_shadow_ok|]. unfold masking. cbn [long_survey s_bfs].
    rewrite app_assoc, masking_app. apply guarded_r, guarded_at_least, O. }
  split; [|split; [exact LONG|split; [|split]]].
  - intros seeing b1 dark n area h1 h2 l s E I. unfold gen_template_surveys in E. destruct (collect_in _ _ _ _ E I) as (band & _ & F). clear E I. revert F.
    destruct (lookup _ band) as [k|]; cbn [bind]; [|discriminate]. intros F.
    exists (the_shadow a (pair_time a)). split; [apply the_shadow_ok|]. apply ok_inj in F. subst s. unfold masking. cbn [s_bfs].
    rewrite !app_assoc, masking_app. apply guarded_r, guarded_at_least, O.
  - intros h1 h2 t l s masks E I. unfold gen_long_gaps_survey in E. destruct (collect_in _ _ _ _ E I) as (bb & _ & F). clear E I.
    destruct (blob_for_long f1 a [fst bb] [Some (snd bb)] h1 h2 t long_names None) as [|s' l'] eqn:B; [discriminate|].
    assert (EQ : s = s' /\ masks = safety_masks (scripted_params a)) by (split; congruence). destruct EQ as [-> ->]. split.
    + apply (LONG [fst bb] [Some (snd bb)] h1 h2 t long_names None). rewrite B. left. reflexivity.
    + exists (the_shadow a (pair_time a)). split; [apply the_shadow_ok|].
      assert (EQ : scripted_params a = at_least (pair_time a) (base_params (nside a) (safety a))).
      { unfold scripted_params, base_params, own in *. destruct (safety a) as [p|]; [|reflexivity]. rewrite O. reflexivity. }
      rewrite EQ. apply guarded_at_least, O.
  - intros b1 b2 g s I. unfold generate_blobs in I. apply in_map_iff in I. destruct I as ((band & band2) & <- & _).
    exists (the_shadow a (pair_shadow a)).
    pose (hi := match get (safety a) p_max_alt (173#2) with x => match safety a with Some p => match p_max_alt p with Some y => if Qle_bool y (max_alt a) then y else max_alt a | None => x end | None => x end end).
    exists hi. split; [apply the_shadow_ok|]. split.
    + unfold hi, wanted, get. cbn [l_max_alt]. destruct (safety a) as [p|]; [|apply Qle_refl]. destruct (p_max_alt p) as [y|]; [|apply Qle_refl].
      destruct (Qle_bool y (max_alt a)) eqn:C; [apply Qle_refl|]. assert (N : ~ y <= max_alt a) by (rewrite <- Qle_bool_iff; congruence). apply Qlt_le_weak, Qnot_le_lt, N.
    + unfold masking. cbn [s_bfs]. rewrite !app_assoc, masking_app. apply guarded_r.
      unfold own, the_shadow, hi in *. apply guarded_masks.
      * unfold blobs_params, at_least, base_params. destruct (safety a) as [p|]; [|reflexivity].
        destruct (p_shadow p); [destruct (Qle_bool (pair_shadow a) q)|]; cbn; destruct (p_max_alt p) as [y|]; try destruct (Qle_bool y (max_alt a)); cbn; rewrite O; reflexivity.
      * unfold blobs_params, at_least, base_params. destruct (safety a) as [p|]; [|reflexivity].
        destruct (p_shadow p) eqn:S1; [destruct (Qle_bool (pair_shadow a) q)|]; cbn; destruct (p_max_alt p) as [y|]; try destruct (Qle_bool y (max_alt a)); cbn; reflexivity.
      * unfold blobs_params, at_least, base_params, wanted, get, dflt, lower. destruct (safety a) as [p|]; [|reflexivity].
        destruct (p_shadow p) eqn:S1; [destruct (Qle_bool (pair_shadow a) q)|]; cbn; destruct (p_max_alt p) as [y|] eqn:M1; try destruct (Qle_bool y (max_alt a)); cbn; rewrite ?M1; reflexivity.
  - intros t bands s I. unfold generate_twilight_near_sun in I. apply in_map_iff in I. destruct I as (band & <- & _).
    exists (the_shadow a (pair_time a * 4)). split; [apply the_shadow_ok|]. unfold masking. cbn [s_bfs]. rewrite masking_app. apply guarded_r, guarded_at_least, O.
Qed.
Print Assumptions C117_safety.

(** Short blobs, when the caller asks for no more shadow than they need. *)
Theorem C117_short : forall fi f1 a b1 b2 s, own a ->
  (forall p x, safety a = Some p -> p_shadow p = Some x -> x <= pair_time a * 2 + pair_pad a) ->
  In s (generate_short_blobs fi f1 a b1 b2) ->
  exists m, shadow_ok a (pair_time a * 2 + pair_pad a) m /\ guarded (nside a) (wanted (safety a)) m (masking s).
Proof.
  intros fi f1 a b1 b2 s O Le I. exists (pair_time a * 2 + pair_pad a). split.
  { unfold shadow_ok. split; [apply Qle_refl|]. destruct (safety a) as [p|]; [|reflexivity]. destruct (p_shadow p) as [x|] eqn:E; [|reflexivity].
    split; [exact (Le p x eq_refl E)|left; reflexivity]. }
  unfold generate_short_blobs in I. apply in_map_iff in I. destruct I as ((band & band2) & <- & _).
  unfold masking. cbn [s_bfs]. rewrite !app_assoc, masking_app. apply guarded_r. unfold own in O. apply guarded_masks.
  - unfold base_params. destruct (safety a) as [p|]; cbn; [rewrite O|]; reflexivity.
  - reflexivity.
  - unfold base_params, wanted, get, dflt. destruct (safety a) as [p|]; reflexivity.
Qed.
Print Assumptions C117_short.
(** A larger shadow is not kept by short blobs, whatever it is. *)
Theorem C117_short_refuted : forall fi f1 a p x b1 b2 s n lo hi az1 az2 m w, safety a = Some p -> p_shadow p = Some x -> pair_time a * 2 + pair_pad a < x ->
  In s (generate_short_blobs fi f1 a b1 b2) -> In (AltAzShadowMask n lo hi az1 az2 m, w) (s_bfs s) -> m < x.
Proof.
  intros fi f1 a p x b1 b2 s n lo hi az1 az2 m w Sa Sh Lt I J. unfold generate_short_blobs in I. apply in_map_iff in I. destruct I as ((band & band2) & <- & _).
  cbn [s_bfs] in J. apply in_app_or in J. destruct J as [J|J].
  - exfalso. destruct band2; cbn in J; repeat (destruct J as [J|J]; [discriminate J|]); exact J.
  - apply in_app_or in J. destruct J as [J|J].
    + cbn in J. repeat (destruct J as [J|J]; [try discriminate J|]); [|destruct J]. injection J as _ _ _ _ _ <- _. exact Lt.
    + unfold at0, safety_masks in J. rewrite map_app in J. apply in_app_or in J. destruct J as [J|J].
      * cbn in J. repeat (destruct J as [J|J]; [try discriminate J|]); [|destruct J]. injection J as _ _ _ _ _ <- _. exact Lt.
      * destruct (dflt true _) in J; cbn in J; repeat (destruct J as [J|J]; [discriminate J|]); destruct J.
Qed.
Print Assumptions C117_short_refuted.
(** Greedy surveys keep the documented limits, and only those: what the caller asks for is not used. *)
Theorem C117_greedy : forall a bands shadow s, safety a = None -> In s (gen_greedy_surveys a bands shadow) ->
  guarded (nside a) (wanted (safety a)) shadow (masking s) /\ In (AltAzShadowMask (nside a) 20 (max_alt a) 0 360 shadow) (masking s).
Proof.
  intros a bands shadow s Sa I. unfold gen_greedy_surveys in I. apply in_map_iff in I. destruct I as (band & <- & _).
  unfold masking. cbn [s_bfs]. split.
  - rewrite app_assoc, masking_app. apply guarded_r. apply guarded_masks; rewrite ?Sa; reflexivity.
  - apply in_map_iff. exists (AltAzShadowMask (nside a) 20 (max_alt a) 0 360 shadow, 0). split; [reflexivity|]. apply filter_In. split; [|reflexivity].
    apply in_or_app. right. right. left. reflexivity.
Qed.
Print Assumptions C117_greedy.
Theorem C117_greedy_refuted : forall a bands shadow s n d v w, In s (gen_greedy_surveys a bands shadow) ->
  (In (MoonAvoidance n d, w) (s_bfs s) -> d = 30) /\ (In (AvoidDirectWind n v, w) (s_bfs s) -> v = 20).
Proof.
  intros a bands shadow s n d v w I. unfold gen_greedy_surveys in I. apply in_map_iff in I. destruct I as (band & <- & _). cbn [s_bfs].
  split; intros J; cbn in J; repeat (destruct J as [J|J]; [try discriminate J|]); match type of J with False => destruct J | _ => injection J as _ <- _; reflexivity end.
Qed.
Print Assumptions C117_greedy_refuted.
(** A dictionary without nside gives masks for maps of 32 to surveys of any resolution. *)
Theorem C117_nside_refuted : forall a t bands s p n d w, safety a = Some p -> p_nside p = None ->
  In s (generate_twilight_near_sun a t bands) -> In (MoonAvoidance n d, w) (s_bfs s) -> n = 32%Z /\ s_nside s = nside a.
Proof.
  intros a t bands s p n d w Sa N I J. unfold generate_twilight_near_sun in I. apply in_map_iff in I. destruct I as (band & <- & _). split; [|reflexivity].
  assert (M : forall q, In (MoonAvoidance n d, w) (at0 (safety_masks q)) -> n = dflt DEFAULT_NSIDE (p_nside q)).
  { intros q K. unfold at0, safety_masks in K. rewrite map_app in K. apply in_app_or in K. destruct K as [K|K].
    - cbn in K. repeat (destruct K as [K|K]; [try discriminate K|]); [|destruct K]. injection K as <- _ _. reflexivity.
    - destruct (dflt true _) in K; cbn in K; repeat (destruct K as [K|K]; [discriminate K|]); destruct K. }
  cbn [s_bfs] in J. apply in_app_or in J. destruct J as [J|J].
  - cbn in J. repeat (destruct J as [J|J]; [discriminate J|]). destruct J.
  - rewrite (M _ J), Sa. unfold base_params, at_least. destruct (p_shadow p); [destruct (Qle_bool _ q)|]; cbn; rewrite N; reflexivity.
Qed.
Print Assumptions C117_nside_refuted.

(** Blobs and templates are built for maps of 32 whatever nside is, unless blob_survey_params says otherwise. *)
Theorem C117_blob_nside_refuted : forall fi f1 a, blob a = None ->
  (forall b1 b2 g s, In s (generate_blobs fi f1 a b1 b2 g) -> s_nside s = 32%Z /\ exists b w, In (M5Diff b (nside a), w) (s_bfs s))
  /\ (forall b1 b2 s, In s (generate_short_blobs fi f1 a b1 b2) -> s_nside s = 32%Z /\ exists b w, In (M5Diff b (nside a), w) (s_bfs s)).
Proof.
  intros fi f1 a B. split.
  - intros b1 b2 g s I. unfold generate_blobs in I. apply in_map_iff in I. destruct I as ((band & band2) & <- & _). split; [cbn; rewrite B; reflexivity|].
    exists band. destruct band2 as [b|]; eexists; apply in_or_app; left; left; reflexivity.
  - intros b1 b2 s I. unfold generate_short_blobs in I. apply in_map_iff in I. destruct I as ((band & band2) & <- & _). split; [cbn; rewrite B; reflexivity|].
    exists band. destruct band2 as [b|]; eexists; apply in_or_app; left; left; reflexivity.
Qed.
Print Assumptions C117_blob_nside_refuted.

(** The zenith limit is masked separately in templates, long and short blobs; in blobs it is not. *)
Theorem C117_max_alt : forall fi f1 a,
  (forall seeing b1 dark n area h1 h2 l s, gen_template_surveys f1 a seeing b1 dark n area h1 h2 = Ok l -> In s l ->
     In (AltAzShadowMask (nside a) 20 (max_alt a) 0 360 (pair_time a)) (masking s))
  /\ (forall b1 b2 h1 h2 t names reason s, In s (blob_for_long f1 a b1 b2 h1 h2 t names reason) ->
     In (AltAzShadowMask (nside a) 20 (max_alt a) 0 360 (pair_time a * 2 + pair_pad a)) (masking s))
  /\ (forall b1 b2 s, In s (generate_short_blobs fi f1 a b1 b2) ->
     In (AltAzShadowMask (nside a) 20 (max_alt a) 0 360 (pair_time a * 2 + pair_pad a)) (masking s)).
Proof.
  intros fi f1 a.
  assert (K : forall b l, In (b, 0) l -> In b (map fst (filter (fun bw : bfn * Q => Qeq_bool (snd bw) 0) l))).
  { intros b l I. apply in_map_iff. exists (b, 0). split; [reflexivity|]. apply filter_In. split; [exact I|reflexivity]. }
  split; [|split].
  - intros seeing b1 dark n area h1 h2 l s E I. unfold gen_template_surveys in E. destruct (collect_in _ _ _ _ E I) as (band & _ & F). clear E I. revert F.
    destruct (lookup _ band) as [k|]; cbn [bind]; [|discriminate]. intros F. apply ok_inj in F. subst s. apply K. cbn [s_bfs]. apply in_or_app. right. left. reflexivity.
  - intros b1 b2 h1 h2 t names reason s I. destruct (long_loop_in _ _ _ _ _ _ _ _ _ I) as (r & (band, band2) & _ & ->). apply K. cbn [long_survey s_bfs]. apply in_or_app. right. right. left. reflexivity.
  - intros b1 b2 s I. unfold generate_short_blobs in I. apply in_map_iff in I. destruct I as ((band & band2) & <- & _). apply K. cbn [s_bfs]. apply in_or_app. right. right. right. left. reflexivity.
Qed.
Print Assumptions C117_max_alt.
Theorem C117_max_alt_refuted : forall fi f1 a b1 b2 g s n lo hi az1 az2 m w,
  match safety a with None => True | Some p => p_max_alt p = None end ->
  In s (generate_blobs fi f1 a b1 b2 g) -> In (AltAzShadowMask n lo hi az1 az2 m, w) (s_bfs s) -> hi = 173#2.
Proof.
  intros fi f1 a b1 b2 g s n lo hi az1 az2 m w Sa I J. unfold generate_blobs in I. apply in_map_iff in I. destruct I as ((band & band2) & <- & _).
  cbn [s_bfs] in J. apply in_app_or in J. destruct J as [J|J].
  { exfalso. destruct band2; cbn in J; repeat (destruct J as [J|J]; [discriminate J|]); exact J. }
  destruct J as [J|J]; [discriminate J|]. cbn [app] in J.
  assert (SB : forall b, In (AltAzShadowMask n lo hi az1 az2 m, w) (seeing_bf a g b) -> False).
  { intros b K. unfold seeing_bf in K. destruct (lookup _ b); [destruct K as [K|[]]; discriminate K|destruct K]. }
  apply in_app_or in J. destruct J as [J|J]; [destruct (SB _ J)|]. apply in_app_or in J. destruct J as [J|J]; [destruct band2; [destruct (SB _ J)|destruct J]|].
  destruct J as [J|[J|[J|J]]]; try discriminate J. unfold at0, safety_masks in J. rewrite map_app in J. apply in_app_or in J. destruct J as [J|J].
  - cbn in J. repeat (destruct J as [J|J]; [try discriminate J|]); [|destruct J]. injection J as _ _ <- _ _ _ _.
    unfold blobs_params, at_least, base_params. destruct (safety a) as [p|]; [|reflexivity].
    destruct (p_shadow p); [destruct (Qle_bool _ q)|]; cbn; rewrite Sa; cbn; rewrite ?Sa; reflexivity.
  - destruct (dflt true _) in J; cbn in J; repeat (destruct J as [J|J]; [discriminate J|]); destruct J.
Qed.
Print Assumptions C117_max_alt_refuted.

(** Weights. *)
Fixpoint total (f : bfn -> bool) (l : list (bfn * Q)) : Q := match l with [] => 0 | (b, w) :: l => (if f b then w else 0) + total f l end.
Definition depth (b : bfn) : bool := match b with M5Diff _ _ => true | _ => false end.
Definition depth_in (band : string) (b : bfn) : bool := match b with M5Diff x _ => String.eqb x band | _ => false end.
Definition area_in (band : string) (b : bfn) : bool := match b with Footprint x _ _ => String.eqb x band | _ => false end.
Definition area (b : bfn) : bool := match b with Footprint _ _ _ => true | _ => false end.
Definition slew (b : bfn) : bool := match b with Slewtime _ _ => true | _ => false end.
Definition stay (b : bfn) : bool := match b with StrictBand _ => true | BandChange _ => true | _ => false end.
Definition others (b : bfn) : bool := negb (depth b || area b || slew b || stay b).
Lemma total_app : forall f l l', total f (l ++ l') == total f l + total f l'.
Proof. intros f. induction l as [|(b, w) l IH]; intros l'; cbn; [ring|]. rewrite IH. ring. Qed.
Lemma total_at0 : forall f l, total f (at0 l) == 0.
Proof. intros f. induction l as [|b l IH]; cbn; [reflexivity|]. rewrite IH. destruct (f b); ring. Qed.
Definition zero (l : list (bfn * Q)) : Prop := forall b w, In (b, w) l -> w == 0.
Definition weighed (a : args) (s : survey) (rest : Q) : Prop :=
  total depth (s_bfs s) == w_m5 (ws a) /\ total area (s_bfs s) == w_footprint (ws a) /\ total slew (s_bfs s) == w_slew (ws a) /\ total stay (s_bfs s) == w_stay (ws a)
  /\ total others (s_bfs s) == rest
  /\ match s_band2 s with
     | None => total (depth_in (s_band1 s)) (s_bfs s) == w_m5 (ws a) /\ total (area_in (s_band1 s)) (s_bfs s) == w_footprint (ws a)
     | Some b => s_band1 s <> b -> total (depth_in (s_band1 s)) (s_bfs s) == w_m5 (ws a) / 2 /\ total (depth_in b) (s_bfs s) == w_m5 (ws a) / 2
                                   /\ total (area_in (s_band1 s)) (s_bfs s) == w_footprint (ws a) / 2 /\ total (area_in b) (s_bfs s) == w_footprint (ws a) / 2
     end.
Definition plain (l : list (bfn * Q)) (r : Q) : Prop :=
  total depth l == 0 /\ total area l == 0 /\ total slew l == 0 /\ total stay l == 0 /\ total others l == r /\ (forall b, total (depth_in b) l == 0) /\ (forall b, total (area_in b) l == 0).
Lemma plain_app : forall l l' r r', plain l r -> plain l' r' -> plain (l ++ l') (r + r').
Proof.
  intros l l' r r' (A & B & C & D & E & F & G) (A' & B' & C' & D' & E' & F' & G').
  repeat split; try (intros b); rewrite total_app; [rewrite A, A'|rewrite B, B'|rewrite C, C'|rewrite D, D'|rewrite E, E'|rewrite F, F'|rewrite G, G']; ring.
Qed.
Lemma plain_at0 : forall l, plain (at0 l) 0.
Proof. intros l. repeat split; try (intros b); apply total_at0. Qed.
Lemma plain_nil : plain [] 0.
Proof. repeat split; reflexivity. Qed.
Lemma weighed_standard : forall a band band2 strict seeing s l rest,
  s_bfs s = standard_bf (nside a) band band2 (ws a) strict seeing ++ l -> s_band1 s = band -> s_band2 s = band2 -> plain l rest -> weighed a s rest.
Proof.
  intros a band band2 strict seeing s l rest E E1 E2 (A & B & C & D & F & G & H). unfold weighed. rewrite E, E1, E2, !total_app, A, B, C, D, F.
  assert (T : forall f l', total f (standard_bf (nside a) band band2 (ws a) strict seeing ++ l') == total f (standard_bf (nside a) band band2 (ws a) strict seeing) + total f l') by (intros; apply total_app).
  unfold standard_bf. destruct band2 as [b|]; destruct strict; cbn [app total depth area slew stay others negb orb];
    repeat match goal with |- _ /\ _ => split end; try field; try (intros N);
    rewrite ?total_app; cbn [app total depth_in area_in]; rewrite ?G, ?H, ?String.eqb_refl;
    rewrite ?(proj2 (String.eqb_neq band b) N), ?(proj2 (String.eqb_neq b band) (fun E => N (eq_sym E)));
    repeat match goal with |- _ /\ _ => split end; field.
Qed.
Theorem C117_weights : forall fi f1 a,
  (forall seeing b1 dark n area h1 h2 l s, gen_template_surveys f1 a seeing b1 dark n area h1 h2 = Ok l -> In s l -> weighed a s 0)
  /\ (forall b1 b2 h1 h2 t names reason s, In s (blob_for_long f1 a b1 b2 h1 h2 t names reason) -> weighed a s 0)
  /\ (forall bands shadow s, In s (gen_greedy_surveys a bands shadow) -> weighed a s (repeat_weight a))
  /\ (forall b1 b2 s, In s (generate_short_blobs fi f1 a b1 b2) -> weighed a s (repeat_weight a))
  /\ (forall b1 b2 g s, In s (generate_blobs fi f1 a b1 b2 g) ->
      weighed a s (repeat_weight a + g_weight g * inject_Z (Z.of_nat (List.length (filter (fun b => member b (map fst (g_n g))) (s_band1 s :: match s_band2 s with Some b => [b] | None => [] end)))))).
Proof.
  intros fi f1 a. split; [|split; [|split; [|split]]].
  - intros seeing b1 dark n ar h1 h2 l s E I. unfold gen_template_surveys in E. destruct (collect_in _ _ _ _ E I) as (band & _ & F). clear E I. revert F.
    destruct (lookup _ band) as [k|]; cbn [bind]; [|discriminate]. intros F. apply ok_inj in F. subst s.
    eapply weighed_standard; [reflexivity|reflexivity|reflexivity|].
    apply (plain_app _ _ 0 0); [|apply (plain_app _ _ 0 0); [|apply (plain_app _ _ 0 0); [repeat split; try (intros b); cbn; ring|apply plain_at0]]].
    + repeat split; try (intros b); cbn; ring.
    + destruct (member band dark); repeat split; try (intros b); cbn; ring.
  - intros b1 b2 h1 h2 t names reason s I. destruct (long_loop_in _ _ _ _ _ _ _ _ _ I) as (r & (band, band2) & _ & ->).
    eapply weighed_standard; [reflexivity|reflexivity|reflexivity|]. cbv zeta. eapply (plain_app _ _ 0 0); [repeat split; try (intros b); cbn; ring|apply plain_at0].
  - intros bands shadow s I. unfold gen_greedy_surveys in I. apply in_map_iff in I. destruct I as (band & <- & _).
    eapply weighed_standard; [reflexivity|reflexivity|reflexivity|]. repeat split; try (intros b); rewrite total_app, total_at0; cbn; ring.
  - intros b1 b2 s I. unfold generate_short_blobs in I. apply in_map_iff in I. destruct I as ((band & band2) & <- & _).
    eapply weighed_standard; [reflexivity|reflexivity|reflexivity|]. repeat split; try (intros b); rewrite total_app, total_at0; cbn; ring.
  - intros b1 b2 g s I. unfold generate_blobs in I. apply in_map_iff in I. destruct I as ((band & band2) & <- & _).
    eapply weighed_standard; [reflexivity|reflexivity|reflexivity|]. cbn [s_band1 s_band2].
    assert (SB : forall b, plain (seeing_bf a g b) (if member b (map fst (g_n g)) then g_weight g else 0)).
    { intros b. unfold seeing_bf, lookup, member. destruct g as [d gw st fw pe]. cbn [g_n g_weight g_start g_fwhm g_penalty].
      assert (EQ : existsb (String.eqb b) (map fst d) = match find (fun kv : string * Z => String.eqb (fst kv) b) d with Some _ => true | None => false end).
      { clear. induction d as [|(k, v) d IH]; [reflexivity|]. cbn. rewrite (String.eqb_sym b k). destruct (String.eqb k b); [reflexivity|exact IH]. }
      rewrite EQ. destruct (find _ d); repeat split; try (intros b'); cbn; ring. }
    assert (P : forall l r r', plain l r -> r == r' -> plain l r').
    { intros l r r' (A & B & C & D & E & F & G) R. repeat split; try assumption. rewrite E. exact R. }
    eapply P.
    + apply plain_app; [|apply plain_app; [apply SB|apply plain_app; [|apply plain_app; [|apply plain_at0]]]].
      * instantiate (1 := repeat_weight a). repeat split; try (intros b); cbn; ring.
      * instantiate (1 := match band2 with Some b => if member b (map fst (g_n g)) then g_weight g else 0 | None => 0 end). destruct band2 as [b|]; [apply SB|apply plain_nil].
      * instantiate (1 := 0). repeat split; try (intros b); cbn; ring.
    + cbn [filter]. destruct band2 as [b|]; cbn [filter]; destruct (member band (map fst (g_n g))); try destruct (member b (map fst (g_n g))); cbn; ring.
Qed.
Print Assumptions C117_weights.

(** Bands: one survey for each pair of bands, up to the shorter list, in order. *)
Definition bands_of (l : list survey) : list (string * option string) := map (fun s => (s_band1 s, s_band2 s)) l.
Lemma long_loop_bands : forall f1 a h1 h2 t names l r, bands_of (long_loop f1 a h1 h2 t names r l) = l.
Proof. intros f1 a h1 h2 t names. induction l as [|(b, b2) l IH]; intros r; cbn; [reflexivity|]. f_equal. apply IH. Qed.
Theorem C117_bands : forall fi f1 a b1 b2 g h1 h2 t names reason bands shadow ns,
  bands_of (blob_for_long f1 a b1 b2 h1 h2 t names reason) = combine b1 b2
  /\ bands_of (generate_blobs fi f1 a b1 b2 g) = combine b1 b2 /\ bands_of (generate_short_blobs fi f1 a b1 b2) = combine b1 b2
  /\ bands_of (gen_greedy_surveys a bands shadow) = map (fun b => (b, None)) bands
  /\ bands_of (generate_twilight_near_sun a ns bands) = map (fun b => (b, None)) bands.
Proof.
  intros. split; [apply long_loop_bands|]. unfold bands_of, generate_blobs, generate_short_blobs, gen_greedy_surveys, generate_twilight_near_sun, pairs.
  rewrite !map_map. repeat split; try (rewrite <- map_id; apply map_ext; intros (b, c); reflexivity); apply map_ext; reflexivity.
Qed.
Print Assumptions C117_bands.
Lemma lookup_in : forall d b, (exists n, lookup d b = Ok n) <-> In b (map fst d).
Proof.
  intros d b. unfold lookup. induction d as [|(k, v) d IH]; cbn.
  - split; [intros (n & E); discriminate E|intros []].
  - destruct (String.eqb k b) eqn:E.
    + apply String.eqb_eq in E. split; [intros _; left; exact E|intros _; eexists; reflexivity].
    + apply String.eqb_neq in E. rewrite IH. split; [intros I; right; exact I|intros [F|I]; [congruence|exact I]].
Qed.
(** Templates: a survey for each band, if the number of visits is given for each; else KeyError. *)
Theorem C117_template_bands : forall f1 a seeing b1 dark d ar h1 h2,
  (Forall (fun b => In b (map fst d)) b1 ->
     exists l, gen_template_surveys f1 a seeing b1 dark (Some d) ar h1 h2 = Ok l /\ bands_of l = map (fun b => (b, None)) b1)
  /\ (~ Forall (fun b => In b (map fst d)) b1 -> gen_template_surveys f1 a seeing b1 dark (Some d) ar h1 h2 = Raise KeyError).
Proof.
  intros f1 a seeing b1 dark d ar h1 h2. unfold gen_template_surveys. cbn [dflt]. cbv zeta. induction b1 as [|b b1 [IH1 IH2]].
  - split; [intros _; exists []; split; reflexivity|intros N; destruct N; constructor].
  - cbn [collect]. destruct (lookup d b) as [n|e] eqn:E.
    + assert (Ib : In b (map fst d)) by (apply lookup_in; exists n; exact E). cbn [bind]. split.
      * intros F. inversion F as [|x y _ F' Q]; subst. destruct (IH1 F') as (l & -> & B). eexists. split; [reflexivity|]. cbn [bands_of map s_band1 s_band2]. f_equal. exact B.
      * intros N. rewrite IH2; [reflexivity|]. intros F. apply N. constructor; assumption.
    + assert (Nb : ~ In b (map fst d)) by (intros I; apply lookup_in in I; destruct I as (n & I); congruence). cbn [bind]. split.
      * intros F. inversion F; subst. contradiction.
      * intros _. unfold lookup in E. destruct (find _ d) in E; congruence.
Qed.
Print Assumptions C117_template_bands.

(** Names. *)
Definition letter (b : string) : Prop := String.length b = 1%nat.
Definition letters (bb : string * option string) : Prop := letter (fst bb) /\ match snd bb with Some b => letter b | None => True end.
Lemma append_inj : forall p x y : string, (p ++ x)%string = (p ++ y)%string -> x = y.
Proof. induction p as [|c p IH]; cbn; intros x y E; [exact E|]. injection E as E. exact (IH _ _ E). Qed.
Lemma letters_inj : forall a b, letters a -> letters b -> (fst a ++ opt_band (snd a))%string = (fst b ++ opt_band (snd b))%string -> a = b.
Proof.
  intros (a1, a2) (b1, b2) [A1 A2] [B1 B2] E. unfold letter in *. cbn in *.
  destruct a1 as [|c [|? ?]]; try discriminate A1. destruct b1 as [|d [|? ?]]; try discriminate B1. cbn in E. injection E as <- E.
  destruct a2 as [a2|], b2 as [b2|]; cbn in E; subst; try reflexivity; discriminate.
Qed.
Lemma nodup_map : forall {A B} (f : A -> B) (P : A -> Prop) l, (forall x y, P x -> P y -> f x = f y -> x = y) -> Forall P l -> NoDup l -> NoDup (map f l).
Proof.
  intros A B f P l Inj. induction l as [|x l IH]; cbn; intros F N; [constructor|]. inversion F; subst. inversion N; subst. constructor; [|apply IH; assumption].
  intros I. apply in_map_iff in I. destruct I as (y & E & I). assert (y = x) by (apply Inj; [rewrite Forall_forall in *; auto|assumption|exact E]). congruence.
Qed.
Lemma long_loop_names : forall f1 a h1 h2 t names l r, map s_name (long_loop f1 a h1 h2 t names r l) = map (fun bb => ("blob_long, " ++ fst bb ++ opt_band (snd bb))%string) l.
Proof. intros f1 a h1 h2 t names. induction l as [|(b, b2) l IH]; intros r; cbn; [reflexivity|]. f_equal. apply IH. Qed.
(** Surveys of different bands have different names, and pairs different reasons. *)
Theorem C117_names : forall fi f1 a b1 b2 g h1 h2 t names reason bands shadow,
  (NoDup (combine b1 b2) -> Forall letters (combine b1 b2) ->
     NoDup (map s_name (blob_for_long f1 a b1 b2 h1 h2 t names reason)) /\ NoDup (map s_name (generate_blobs fi f1 a b1 b2 g)) /\ NoDup (map s_name (generate_short_blobs fi f1 a b1 b2)))
  /\ (NoDup bands -> NoDup (map s_name (gen_greedy_surveys a bands shadow)) /\ NoDup (map s_reason (gen_greedy_surveys a bands shadow))
     /\ forall seeing dark n ar l, gen_template_surveys f1 a seeing bands dark n ar h1 h2 = Ok l -> NoDup (map s_name l)).
Proof.
  intros fi f1 a b1 b2 g h1 h2 t names reason bands shadow. split.
  - intros N F. split; [|split].
    + unfold blob_for_long. rewrite long_loop_names. apply (nodup_map _ letters); [|exact F|exact N]. intros x y X Y E. apply letters_inj; [exact X|exact Y|]. exact (append_inj "blob_long, " _ _ E).
    + unfold generate_blobs. rewrite map_map. apply (nodup_map _ letters); [|exact F|exact N]. intros (x1, x2) (y1, y2) X Y E. cbn [s_name] in E. unfold pair_name in E.
      apply letters_inj; [exact X|exact Y|]. apply (append_inj "pair_"), append_inj, (append_inj ", ") in E. exact E.
    + unfold generate_short_blobs. rewrite map_map. apply (nodup_map _ letters); [|exact F|exact N]. intros (x1, x2) (y1, y2) X Y E. cbn [s_name] in E. unfold pair_name in E.
      apply letters_inj; [exact X|exact Y|]. apply (append_inj "pair_"), append_inj, (append_inj ", ") in E. exact E.
  - intros N. assert (T : Forall (fun _ : string => True) bands) by (apply Forall_forall; intros; exact I). split; [|split].
    + unfold gen_greedy_surveys. rewrite map_map. apply (nodup_map _ (fun _ => True)); [|exact T|exact N]. intros x y _ _ E. exact (append_inj "greedy " _ _ E).
    + unfold gen_greedy_surveys. rewrite map_map. apply (nodup_map _ (fun _ => True)); [|exact T|exact N]. intros x y _ _ E. exact (append_inj "singles_" _ _ E).
    + intros seeing dark n ar l E.
      assert (EQ : map s_name l = map (fun b => ("templates, " ++ b)%string) bands).
      { clear N T. revert l E. unfold gen_template_surveys. cbv zeta. generalize (dflt [("u", 4%Z); ("g", 4%Z); ("r", 4%Z); ("i", 4%Z); ("z", 4%Z); ("y", 4%Z)] n). intros d. induction bands as [|b bs IH]; cbn [collect]; intros l E.
        - apply ok_inj in E. subst l. reflexivity.
        - destruct (lookup d b); cbn [bind] in E; [|discriminate E].
          match type of E with context [collect ?f bs] => destruct (collect f bs) as [l'|] eqn:C end; cbn [bind] in E; [|discriminate E].
          apply ok_inj in E. subst l. cbn [map s_name]. f_equal. apply IH. reflexivity. }
      rewrite EQ. apply (nodup_map _ (fun _ => True)); [|exact T|exact N]. intros x y _ _ F. exact (append_inj "templates, " _ _ F).
Qed.
Print Assumptions C117_names.
(** The reason of a pair names its bands, for blobs and long gaps. *)
Theorem C117_reasons : forall fi f1 a b1 b2 g h1 h2 t,
  map s_reason (generate_blobs fi f1 a b1 b2 g) = map (fun bb => ("pairs_" ++ fst bb ++ (match snd bb with Some b => b | None => "" end) ++ "_" ++ f1 (pair_time a))%string) (combine b1 b2)
  /\ map s_reason (generate_short_blobs fi f1 a b1 b2) = map (fun bb => ("pairs_" ++ fst bb ++ (match snd bb with Some b => b | None => "" end) ++ "_" ++ f1 (pair_time a))%string) (combine b1 b2)
  /\ exists l, gen_long_gaps_survey f1 a h1 h2 t = Ok l
       /\ map (fun sm => s_reason (fst sm)) l = map (fun x => ("triplet_pairs_" ++ x ++ "_" ++ f1 (pair_time a))%string) ["gr"; "ri"; "iz"].
Proof.
  intros. split; [|split]; [| |eexists; split; [reflexivity|reflexivity]]; unfold generate_blobs, generate_short_blobs; rewrite map_map; apply map_ext; intros (x, y); reflexivity.
Qed.
Print Assumptions C117_reasons.
(** blob_for_long, called with several pairs, gives all the reason of the first. *)
Theorem C117_reason_refuted : forall f1 a bb l b1 b2 h1 h2 t names s, combine b1 b2 = bb :: l ->
  In s (blob_for_long f1 a b1 b2 h1 h2 t names None) ->
  s_reason s = ("triplet_pairs_" ++ fst bb ++ (match snd bb with Some b => b | None => "None" end) ++ "_" ++ f1 (pair_time a))%string.
Proof.
  intros f1 a bb l b1 b2 h1 h2 t names s E I. unfold blob_for_long, pairs in I. rewrite E in I. cbn [long_loop] in I.
  assert (K : forall l r s, In s (long_loop f1 a h1 h2 t names (Some r) l) -> s_reason s = r).
  { clear. induction l as [|(b, b2) l IH]; intros r s; cbn; [intros []|]. intros [<-|I]; [reflexivity|exact (IH _ _ I)]. }
  destruct I as [<-|I]; [destruct bb as (bx, by2); reflexivity|]. exact (K _ _ _ I).
Qed.
Print Assumptions C117_reason_refuted.
(** Long gaps: the blobs know each other's notes, so that one of them is begun in a night. *)
Theorem C117_once : forall f1 a h1 h2 t, exists l, gen_long_gaps_survey f1 a h1 h2 t = Ok l /\ List.length l = 3%nat /\
  forall s m s' m', In (s, m) l -> In (s', m') l ->
    exists notes, In (OnceInNight notes, 0) (s_bfs s) /\ In (s_name s' ++ ", a")%string notes /\ In (s_name s' ++ ", b")%string notes.
Proof.
  intros f1 a h1 h2 t. eexists. split; [reflexivity|]. split; [reflexivity|]. intros s m s' m' I I'. exists long_names. split.
  - assert (K : forall r bb, In (OnceInNight long_names, 0) (s_bfs (long_survey a h1 h2 t long_names r bb))).
    { intros r (b, b2). cbn [long_survey s_bfs]. apply in_or_app. right. do 7 right. left. reflexivity. }
    assert (P : forall x y : survey * list bfn, x = y -> fst y = fst x) by (intros x y ->; reflexivity).
    destruct I as [I|[I|[I|[]]]]; apply P in I; change (fst (s, m)) with s in I; rewrite I; apply K.
  - assert (P : forall x y : survey * list bfn, x = y -> s_name (fst y) = s_name (fst x)) by (intros x y ->; reflexivity).
    destruct I' as [I'|[I'|[I'|[]]]]; apply P in I'; change (fst (s', m')) with s' in I'; rewrite I'; cbn; tauto.
Qed.
Print Assumptions C117_once.

(** Time: the shadow of the pairs covers the blob with its change of band when the padding covers the change. *)
Definition shadows (s : survey) : list Q := flat_map (fun bw => match fst bw with AltAzShadowMask _ _ _ _ _ m => [m] | _ => [] end) (s_bfs s).
Definition twilights (s : survey) : list Q := flat_map (fun bw => match fst bw with TimeToTwilight m _ => [m] | _ => [] end) (s_bfs s).
Lemma in_shadows : forall s m, In m (shadows s) <-> exists n lo hi a1 a2 w, In (AltAzShadowMask n lo hi a1 a2 m, w) (s_bfs s).
Proof.
  intros s m. unfold shadows. rewrite in_flat_map. split.
  - intros ((b, w) & I & J). destruct b; cbn in J; try destruct J as [J|[]]; try destruct J. subst. do 6 eexists. exact I.
  - intros (n & lo & hi & a1 & a2 & w & I). eexists. split; [exact I|]. left. reflexivity.
Qed.
Lemma minutes_le : forall a s, s_pair_time s = pair_time a -> 0 <= pair_time a -> 0 <= s_change s -> s_change s / 60 <= pair_pad a -> minutes s <= pair_time a * 2 + pair_pad a.
Proof.
  intros a s E P C D. unfold minutes. rewrite E. assert (0 <= s_change s / 60) by (apply Qle_shift_div_l; [reflexivity|lra]).
  destruct (s_band2 s) as [b|]; [|set (q := s_change s / 60) in *; clearbody q; lra].
  destruct (String.eqb (s_band1 s) b); [|set (q := s_change s / 60) in *; clearbody q; lra].
  unfold Qdiv at 1. rewrite Qmult_0_l. set (q := s_change s / 60) in *. clearbody q. lra.
Qed.
Theorem C117_time : forall fi f1 a s, 0 <= pair_time a -> 0 <= blob_change (blob a) -> blob_change (blob a) / 60 <= pair_pad a ->
  (exists b1 b2 g, In s (generate_blobs fi f1 a b1 b2 g)) \/ (exists b1 b2, In s (generate_short_blobs fi f1 a b1 b2))
  \/ (exists b1 b2 h1 h2 t names reason, In s (blob_for_long f1 a b1 b2 h1 h2 t names reason)) ->
  shadows s <> [] /\ Forall (fun m => minutes s <= m) (shadows s)
  /\ twilights s = [match s_band2 s with None => pair_time a | Some _ => pair_time a * 2 end].
Proof.
  intros fi f1 a s P C D H.
  assert (SB : forall g b, flat_map (fun bw : bfn * Q => match fst bw with AltAzShadowMask _ _ _ _ _ m => [m] | _ => [] end) (seeing_bf a g b) = []
            /\ flat_map (fun bw : bfn * Q => match fst bw with TimeToTwilight m _ => [m] | _ => [] end) (seeing_bf a g b) = []).
  { intros g b. unfold seeing_bf. destruct (lookup _ b); split; reflexivity. }
  assert (TM : forall p, flat_map (fun bw : bfn * Q => match fst bw with TimeToTwilight m _ => [m] | _ => [] end) (at0 (safety_masks p)) = []).
  { intros p. unfold safety_masks. destruct (dflt true (p_limited p)); reflexivity. }
  assert (SM : forall p, flat_map (fun bw : bfn * Q => match fst bw with AltAzShadowMask _ _ _ _ _ m => [m] | _ => [] end) (at0 (safety_masks p)) = [dflt 70 (p_shadow p)]).
  { intros p. unfold safety_masks. destruct (dflt true (p_limited p)); reflexivity. }
  destruct H as [(b1 & b2 & g & I)|[(b1 & b2 & I)|(b1 & b2 & h1 & h2 & t & names & reason & I)]].
  - unfold generate_blobs in I. apply in_map_iff in I. destruct I as ((b, b') & <- & _).
    match goal with |- context [minutes ?s] => assert (M : minutes s <= pair_time a * 2 + pair_pad a) by (apply minutes_le; [reflexivity|exact P|exact C|exact D]); set (mm := minutes s) in *; clearbody mm end.
    unfold shadows, twilights. cbn [s_bfs s_band2]. unfold standard_bf. cbv zeta. rewrite !flat_map_app, !SM, !TM.
    assert (Eb : forall k, (forall b, flat_map k (seeing_bf a g b) = []) -> flat_map k (match b' with Some x => seeing_bf a g x | None => [] end) = ([] : list Q)) by (intros k K; destruct b'; [apply K|reflexivity]).
    rewrite !Eb by (intros; apply SB). rewrite !(proj1 (SB g b)), !(proj2 (SB g b)).
    assert (T := the_shadow_ok a (pair_shadow a)). unfold the_shadow in T. destruct T as [T _].
    assert (EQ : dflt 70 (p_shadow (blobs_params a)) = dflt 70 (p_shadow (at_least (pair_shadow a) (base_params (nside a) (safety a))))).
    { unfold blobs_params. cbv zeta. destruct (p_max_alt _); [destruct (Qle_bool q (max_alt a))|]; reflexivity. }
    rewrite EQ. unfold pair_shadow in T at 1. set (x := dflt 70 _) in *. clearbody x. destruct b' as [b'|]; cbn; (split; [discriminate|split; [constructor; [lra|constructor]|reflexivity]]).
  - unfold generate_short_blobs in I. apply in_map_iff in I. destruct I as ((b, b') & <- & _).
    match goal with |- context [minutes ?s] => assert (M : minutes s <= pair_time a * 2 + pair_pad a) by (apply minutes_le; [reflexivity|exact P|exact C|exact D]); set (mm := minutes s) in *; clearbody mm end.
    unfold shadows, twilights. cbn [s_bfs s_band2]. unfold standard_bf. cbv zeta. rewrite !flat_map_app, !SM, !TM.
    destruct b' as [b'|]; cbn; (split; [discriminate|split; [repeat constructor; exact M|reflexivity]]).
  - destruct (long_loop_in _ _ _ _ _ _ _ _ _ I) as (r & (b, b') & _ & ->).
    match goal with |- context [minutes ?s] => assert (M : minutes s <= pair_time a * 2 + pair_pad a) by (apply minutes_le; [reflexivity|exact P|exact C|exact D]); set (mm := minutes s) in *; clearbody mm end.
    unfold shadows, twilights. cbn [long_survey s_bfs s_band2]. unfold standard_bf. cbv zeta. rewrite !flat_map_app, !SM, !TM.
    assert (T := the_shadow_ok a (pair_shadow a)). unfold the_shadow in T. destruct T as [T _]. unfold pair_shadow in T at 1. set (x := dflt 70 _) in *. clearbody x.
    destruct b' as [b'|]; cbn; (split; [discriminate|split; [constructor; [exact M|constructor; [lra|constructor]]|reflexivity]]).
Qed.
Print Assumptions C117_time.
(** The time left before twilight need not cover the change of band: a pair in two bands can be begun that does not end. *)
Theorem C117_twilight_refuted : forall fi f1 a b1 b2 s b g, 0 < blob_change (blob a) -> In s (generate_blobs fi f1 a b1 b2 g) ->
  s_band2 s = Some b -> s_band1 s <> b -> In (TimeToTwilight (pair_time a * 2) 18, 0) (s_bfs s) /\ pair_time a * 2 < minutes s.
Proof.
  intros fi f1 a b1 b2 s b g C I E N. unfold generate_blobs in I. apply in_map_iff in I. destruct I as ((x, y) & <- & _). cbn [s_band1 s_band2] in *. subst y. split.
  - cbn [s_bfs]. do 4 (apply in_or_app; right). apply in_or_app. left. right. left. reflexivity.
  - unfold minutes. cbn [s_band1 s_band2 s_pair_time s_change]. rewrite (proj2 (String.eqb_neq x b) N).
    assert (0 < blob_change (blob a) / 60) by (apply Qlt_shift_div_l; [reflexivity|lra]). set (q := _ / 60) in *. clearbody q. lra.
Qed.
Print Assumptions C117_twilight_refuted.
(** Near the sun: the time that should be available is not used at all, and the shadow is four visits whatever n_repeat. *)
Theorem C117_near_sun_refuted : forall a t bands x,
  generate_twilight_near_sun a t bands = generate_twilight_near_sun a (NearSun (t_airmass t) x (t_dist_weight t) (t_area t) (t_repeat t) (t_sun_alt t) (t_12deg t) (t_slew t) (t_elong t)) bands
  /\ (safety a = None -> forall s, In s (generate_twilight_near_sun a t bands) -> shadows s = [pair_time a * 4]).
Proof.
  intros a t bands x. split; [reflexivity|]. intros E s I. unfold generate_twilight_near_sun in I. apply in_map_iff in I. destruct I as (b & <- & _). unfold shadows. cbn [s_bfs]. rewrite E. reflexivity.
Qed.
Print Assumptions C117_near_sun_refuted.

(** Exposures of u: as asked for in templates, long gaps and greedy surveys; pairs are taken in the second band last. *)
Theorem C117_detailers : forall fi f1 a,
  (forall seeing b1 dark n area h1 h2 l s, gen_template_surveys f1 a seeing b1 dark n area h1 h2 = Ok l -> In s l -> In (BandNexp "u" (u_nexp a) (u_exptime a)) (s_detailers s))
  /\ (forall b1 b2 h1 h2 t names reason s, In s (blob_for_long f1 a b1 b2 h1 h2 t names reason) ->
       In (BandNexp "u" (u_nexp a) (u_exptime a)) (s_detailers s) /\ forall b, s_band2 s = Some b <-> last (s_detailers s) CloseAlt = TakeAsPairs b)
  /\ (forall bands shadow s, In s (gen_greedy_surveys a bands shadow) -> s_band1 s = "u" -> In (BandNexp "u" (u_nexp a) (u_exptime a)) (s_detailers s))
  /\ (forall b1 b2 g s, In s (generate_blobs fi f1 a b1 b2 g) -> forall b, s_band2 s = Some b <-> last (s_detailers s) CloseAlt = TakeAsPairs b)
  /\ (forall b1 b2 s, In s (generate_short_blobs fi f1 a b1 b2) -> forall b, s_band2 s = Some b <-> last (s_detailers s) CloseAlt = TakeAsPairs b).
Proof.
  intros fi f1 a. split; [|split; [|split; [|split]]].
  - intros seeing b1 dark n ar h1 h2 l s E I. unfold gen_template_surveys in E. destruct (collect_in _ _ _ _ E I) as (band & _ & F). clear E I. revert F.
    destruct (lookup _ band) as [k|]; cbn [bind]; [|discriminate]. intros F. apply ok_inj in F. subst s. cbn. tauto.
  - intros b1 b2 h1 h2 t names reason s I. destruct (long_loop_in _ _ _ _ _ _ _ _ _ I) as (r & (b, b') & _ & ->). split; [cbn; tauto|].
    intros x. destruct b' as [b'|]; cbn; split; intros E; congruence.
  - intros bands shadow s I E. unfold gen_greedy_surveys in I. apply in_map_iff in I. destruct I as (b & <- & I). cbn [s_band1] in E. subst b. cbn [s_detailers].
    assert (M : member "u" bands = true) by (apply existsb_exists; exists "u"; split; [exact I|reflexivity]). rewrite M. cbn. tauto.
  - intros b1 b2 g s I x. unfold generate_blobs in I. apply in_map_iff in I. destruct I as ((b, b') & <- & _). cbn [s_detailers s_band2].
    destruct b' as [b'|]; destruct (_ || _); cbn; split; intros E; congruence.
  - intros b1 b2 s I x. unfold generate_short_blobs in I. apply in_map_iff in I. destruct I as ((b, b') & <- & _). cbn [s_detailers s_band2].
    destruct b' as [b'|]; cbn; split; intros E; congruence.
Qed.
Print Assumptions C117_detailers.
(** Blobs take one exposure in u, whatever u_nexp is. *)
Theorem C117_u_refuted : forall fi f1 a b1 b2 g s n e, In s (generate_blobs fi f1 a b1 b2 g) -> In (BandNexp "u" n e) (s_detailers s) -> n = 1%Z.
Proof.
  intros fi f1 a b1 b2 g s n e I J. unfold generate_blobs in I. apply in_map_iff in I. destruct I as ((b, b') & <- & _). cbn [s_detailers] in J.
  destruct b' as [b'|]; destruct (_ || _) in J; cbn in J; repeat (destruct J as [J|J]; [try discriminate J|]); match type of J with False => destruct J | _ => injection J as <- _; reflexivity end.
Qed.
Print Assumptions C117_u_refuted.

(** Examples. *)
Definition p0 : params := Params (Some 64%Z) (Some 45) None None (Some 80) None None (Some 60) None None None None.
Definition a0 : args := Args 64 (-80, 80) 30 2 38 2 33 5 76 (Weights 6 (3#2) 3 3) (-20) ["DD"] "BLOCK-407" None 45 None (Some p0).
Definition g0 : good_seeing := GoodSeeing [("g", 3%Z); ("r", 3%Z); ("i", 3%Z)] 3 60000 (8#10) (1#2).
Definition t0 : string -> list survey := fun _ => generate_blobs (fun _ => "33") (fun _ => "33.0") a0 ["u"; "g"; "y"] [Some "g"; None] g0.
Example C117_example_bands : own a0 /\ bands_of (t0 "") = [("u", Some "g"); ("g", None)] /\ map s_name (t0 "") = ["pair_33, ug"; "pair_33, g"]
  /\ map s_reason (t0 "") = ["pairs_ug_33.0"; "pairs_g_33.0"] /\ map shadows (t0 "") = [[71]; [71]] /\ map s_nside (t0 "") = [32; 32]%Z.
Proof. repeat split; vm_compute; reflexivity. Qed.
Example C117_example_safety : match t0 "" with s :: _ => guarded 64 (lower 76 (wanted (Some p0))) 71 (masking s) /\ l_moon (wanted (Some p0)) = 45 /\ s_detailers s = [CameraRot (-80) 80; CloseAlt; BandNexp "u" 1 38; FlushForSched; LabelRegions; TakeAsPairs "g"] | [] => False end.
Proof. vm_compute. repeat split; tauto. Qed.
Example C117_example_greedy : match gen_greedy_surveys a0 ["r"] 15 with s :: _ => In (MoonAvoidance 64 30) (masking s) /\ ~ In (MoonAvoidance 64 45) (masking s) | [] => False end.
Proof. vm_compute. split; [tauto|]. intros H. repeat (destruct H as [H|H]; [discriminate H|]). exact H. Qed.
Example C117_example_weights : match t0 "" with s :: _ => total depth (s_bfs s) == 6 /\ total (depth_in "g") (s_bfs s) == 3 /\ total others (s_bfs s) == -17 | [] => False end.
Proof. repeat split; vm_compute; reflexivity. Qed.
Example C117_example_twilight : match t0 "" with s :: _ => minutes s == 66 + (7#3) /\ twilights s = [66] | [] => False end.
Proof. split; vm_compute; reflexivity. Qed.
Example C117_example_short : map shadows (generate_short_blobs (fun _ => "15") (fun _ => "15.0") (Args 64 (-80, 80) 30 2 38 2 15 5 76 (Weights 6 (3#2) 3 3) 0 ["DD"] "B" None 15 None (Some p0)) ["r"] [Some "i"]) = [[35; 35]].
Proof. vm_compute. reflexivity. Qed.
Example C117_example_templates : exists l, gen_template_surveys (fun _ => "33.0") a0 (13#10) ["u"; "y"] ["u"; "g"] None 50 (5#2) (43#2) = Ok l /\ map s_name l = ["templates, u"; "templates, y"] /\ map shadows l = [[33; 60]; [33; 60]].
Proof. eexists. split; [reflexivity|]. split; vm_compute; reflexivity. Qed.
Example C117_example_reason : map s_reason (blob_for_long (fun _ => "33.0") a0 ["g"; "r"] [Some "r"; Some "i"] 12 20 120 [] None) = ["triplet_pairs_gr_33.0"; "triplet_pairs_gr_33.0"].
Proof. reflexivity. Qed.
