(** C130: the description of a site. *)
From Coq Require Import List QArith Bool String Lia Lqa.
From Verif Require Import Base SiteParams.
From Verif Require Surveys.
Import ListNotations.
Open Scope string_scope.
Open Scope list_scope.
Open Scope nat_scope.

(** The six attributes whose value is a parameter, as given or as defaulted. *)
Definition plain : list (string * (params -> option er)) :=
  [("_longitude_deg", a_lon); ("_latitude_deg", a_lat); ("_height", a_height); ("_pressure", a_press); ("_temperature_centigrade", a_temp); ("_humidity", a_hum); ("_lapse_rate", a_lapse)].

(** A value given is kept whatever the name; a value not given is that of the named
    telescope for the two names known and missing for any other. *)
Theorem C130_defaults : forall rad name p k f, In (k, f) plain ->
  getattr (site rad name p) k = Some (ANum (match f p with
    | Some x => Some x
    | None => if match name with Some n => String.eqb n "LSST" | None => false end then f lsst
              else if match name with Some n => String.eqb n "AuxTel" | None => false end then f auxtel else None end)) /\
  getattr (site rad name p) "_name" = Some (AName name).
Proof.
  intros rad name p k f H. split; [|reflexivity].
  assert (D : f (effective name p) = match f p with Some x => Some x | None => if match name with Some n => String.eqb n "LSST" | None => false end then f lsst
              else if match name with Some n => String.eqb n "AuxTel" | None => false end then f auxtel else None end).
  { unfold effective, default_params. destruct name as [n|].
    - destruct (String.eqb_spec n "AuxTel") as [->|N].
      + cbn in H. repeat (destruct H as [H|H]; [injection H as <- <-; cbn; match goal with |- orelse ?a _ = _ => destruct a end; reflexivity|]). contradiction.
      + destruct (String.eqb n "LSST");
        cbn in H; repeat (destruct H as [H|H]; [injection H as <- <-; cbn; match goal with |- context [match ?a with Some _ => _ | None => _ end] => destruct a eqn:E; cbn; rewrite ?E; reflexivity end|]); contradiction.
    - cbn in H; repeat (destruct H as [H|H]; [injection H as <- <-; cbn; match goal with |- context [match ?a with Some _ => _ | None => _ end] => destruct a eqn:E; cbn; rewrite ?E; reflexivity end|]); contradiction. }
  rewrite <- D. cbn in H. repeat (destruct H as [H|H]; [injection H as <- <-; reflexivity|]). contradiction.
Qed.
Print Assumptions C130_defaults.
Example C130_defaults_ex :
  getattr (site (fun x => x) (Some "LSST") (mkParams (num 0 1) None None None None None None)) "_longitude_deg" = Some (ANum (num 0 1)) /\
  getattr (site (fun x => x) (Some "AuxTel") (mkParams None (num 0 1) None None None None None)) "_longitude_deg" = Some (ANum (num (-70747686) 1000000)).
Proof. split; reflexivity. Qed.

(** Radians and Kelvin always agree with the degrees and the centigrade, and one is missing
    exactly when the other is: the errors raised otherwise cannot occur. *)
Theorem C130_units : forall rad name p,
  (forall d r, In (d, r) [("_longitude_deg", "_longitude_rad"); ("_latitude_deg", "_latitude_rad")] ->
     exists x, getattr (site rad name p) d = Some (ANum x) /\ getattr (site rad name p) r = Some (ANum (match x with Some v => Some (rad v) | None => None end))) /\
  exists x, getattr (site rad name p) "_temperature_centigrade" = Some (ANum x) /\
    match x with
    | Some (EFin c) => exists k, getattr (site rad name p) "_temperature_kelvin" = Some (ANum (Some (EFin k))) /\ (k - c == 27315 # 100)%Q
    | _ => getattr (site rad name p) "_temperature_kelvin" = Some (ANum x) end.
Proof.
  intros rad name p. split.
  - intros d r [H|[H|[]]]; injection H as <- <-.
    + exists (a_lon (effective name p)). split; reflexivity.
    + exists (a_lat (effective name p)). split; reflexivity.
  - exists (a_temp (effective name p)). split; [reflexivity|].
    unfold getattr, site. destruct (a_temp (effective name p)) as [[| |c|]|]; cbn; try reflexivity.
    exists (c + (27315 # 100))%Q. split; [reflexivity|ring].
Qed.
Print Assumptions C130_units.

(** The warning names exactly the parameters that are missing, each once, and the sites of
    the two telescopes never warn and always have a place on the Earth. *)
Definition shown : list (string * string) :=
  [("longitude", "_longitude_deg"); ("latitude", "_latitude_deg"); ("temperature", "_temperature_centigrade"); ("height", "_height"); ("pressure", "_pressure"); ("humidity", "_humidity"); ("lapse_rate", "_lapse_rate")].
Theorem C130_warned : forall rad name p,
  NoDup (warned name p) /\
  (forall w, In w (warned name p) <-> exists k, In (w, k) shown /\ getattr (site rad name p) k = Some (ANum None)) /\
  ((exists l, to_earth name p = Ok l) <-> ~ In "longitude" (warned name p) /\ ~ In "latitude" (warned name p) /\ ~ In "height" (warned name p)) /\
  (name = Some "LSST" \/ name = Some "AuxTel" -> warned name p = []).
Proof.
  intros rad name p.
  assert (G : forall k, In k (map snd shown) -> exists f, In (k, f) plain /\ getattr (site rad name p) k = Some (ANum (f (effective name p)))).
  { intros k H. cbn in H. repeat (destruct H as [<-|H]; [eexists; split; [cbn; auto 10|reflexivity]|]). contradiction. }
  unfold warned, to_earth. split; [|split; [|split]].
  - destruct (none (a_lon (effective name p))), (none (a_lat (effective name p))), (none (a_temp (effective name p))), (none (a_height (effective name p))),
      (none (a_press (effective name p))), (none (a_hum (effective name p))), (none (a_lapse (effective name p))); cbn [app];
    repeat constructor; cbn; intuition discriminate.
  - intros w. rewrite !in_app_iff. split.
    + intros H. repeat (destruct H as [H|H]);
      match type of H with In _ (if none ?x then [?s] else []) => destruct x eqn:E; cbn in H; [contradiction|destruct H as [<-|[]]] end;
      (eexists; split; [cbn; eauto 10|cbn; rewrite E; reflexivity]).
    + intros [k [Hk Hg]]. cbn in Hk.
      repeat (destruct Hk as [Hk|Hk]; [injection Hk as <- <-; cbn in Hg; injection Hg as Hg; rewrite Hg; cbn; auto 10|]). contradiction.
  - destruct (effective name p) as [l t h c q m s]; cbn. 
    destruct l, t, h, c, q, m, s; cbn; split; try (intros _; intuition discriminate); try (intros [? X]; discriminate X); try (intros _; eexists; reflexivity); intros (X & Y & Z'); exfalso; first [apply X; now auto 10|apply Y; now auto 10|apply Z'; now auto 10].
  - intros H. unfold effective. destruct H as [-> | ->]; cbn; destruct p as [l t h c q m s]; destruct l, t, h, c, q, m, s; reflexivity.
Qed.
Print Assumptions C130_warned.
Example C130_warned_ex : warned (Some "lsst") (mkParams (num 0 1) None None (num 3 1) None None None) = ["latitude"; "height"; "pressure"; "humidity"; "lapse_rate"].
Proof. reflexivity. Qed.

(** Equality of two sites: the same name and equal parameters, after the defaults; the
    order of the comparison does not matter. *)
Definition same (x y : option er) : Prop := match x, y with Some a, Some b => er_eqb a b = true | None, None => True | _, _ => False end.
Lemma add_same : forall a b c, er_eqb a b = true -> er_isnan c = false -> (match c with EFin _ => True | _ => False end) -> er_eqb (Surveys.er_add a c) (Surveys.er_add b c) = true.
Proof.
  intros a b c H _ F. destruct c as [| |c|]; try contradiction. destruct a as [| |x|], b as [| |y|]; cbn in *; try discriminate; try reflexivity.
  apply Qeq_bool_iff in H. apply Qeq_bool_iff. rewrite H. reflexivity.
Qed.
Theorem C130_equal : forall rad n p m q, (forall x y, er_eqb x y = true -> er_eqb (rad x) (rad y) = true) ->
  exists b, site_eq (site rad n p) (Some (site rad m q)) = Ok b /\ site_ne (site rad n p) (Some (site rad m q)) = Ok (negb b) /\
  (b = true <-> n = m /\ forall k f, In (k, f) plain -> same (f (effective n p)) (f (effective m q))).
Proof.
  intros rad n p m q R. eexists. split; [reflexivity|]. split; [reflexivity|]. unfold plain.
  cbn -[attr_eqb er_eqb Surveys.er_add effective same].
  generalize (effective n p) (effective m q). intros [l1 t1 h1 c1 q1 m1 s1] [l2 t2 h2 c2 q2 m2 s2]. cbn -[attr_eqb er_eqb Surveys.er_add same].
  rewrite !andb_true_r, !andb_true_iff.
  assert (A1 : attr_eqb (AName n) (AName m) = true <-> n = m).
  { destruct n, m; cbn; rewrite ?String.eqb_eq; split; intros H; subst; try congruence; try discriminate; auto. }
  assert (A2 : forall x y, attr_eqb (ANum x) (ANum y) = true <-> same x y).
  { intros [x|] [y|]; cbn; intuition discriminate. }
  assert (A3 : forall x y, same x y -> same (option_map rad x) (option_map rad y)). { intros [x|] [y|]; cbn; auto. }
  assert (A4 : forall x y, same x y -> same (option_map (fun v => Surveys.er_add v (EFin (27315 # 100))) x) (option_map (fun v => Surveys.er_add v (EFin (27315 # 100))) y)).
  { intros [x|] [y|]; cbn -[er_eqb Surveys.er_add]; auto. intros H. apply add_same; cbn; auto. }
  split.
  - intros H. decompose [and] H. split; [apply A1; assumption|].
    intros k f I. cbn in I. repeat (destruct I as [I|I]; [injection I as <- <-; cbn; apply A2; assumption|]). contradiction.
  - intros [E H].
    assert (S1 := H "_longitude_deg" a_lon ltac:(cbn; auto 10)). assert (S2 := H "_latitude_deg" a_lat ltac:(cbn; auto 10)).
    assert (S3 := H "_height" a_height ltac:(cbn; auto 10)). assert (S4 := H "_pressure" a_press ltac:(cbn; auto 10)).
    assert (S5 := H "_temperature_centigrade" a_temp ltac:(cbn; auto 10)). assert (S6 := H "_humidity" a_hum ltac:(cbn; auto 10)). assert (S7 := H "_lapse_rate" a_lapse ltac:(cbn; auto 10)).
    cbn -[er_eqb same] in S1, S2, S3, S4, S5, S6, S7.
    repeat split; first [apply A1; exact E|apply A2; auto; fail|apply A2; apply A3; assumption|apply A2; apply A4; assumption].
Qed.
Print Assumptions C130_equal.
Example C130_equal_ex : site_eq (site (fun x => x) (Some "LSST") (mkParams None None None None None None None)) (Some (site (fun x => x) (Some "LSST") lsst)) = Ok true /\
  site_eq (site (fun x => x) (Some "LSST") lsst) (Some (site (fun x => x) (Some "AuxTel") lsst)) = Ok false /\
  site_eq (site (fun x => x) (Some "LSST") lsst) (Some (site (fun x => x) (Some "LSST") auxtel)) = Ok false.
Proof. repeat split. Qed.

(** Equality is symmetric and transitive, and a site equals itself as long as no parameter
    is NaN. *)
Theorem C130_equivalence : forall rad n p m q k r, (forall x y, er_eqb x y = true -> er_eqb (rad x) (rad y) = true) ->
  site_eq (site rad n p) (Some (site rad m q)) = site_eq (site rad m q) (Some (site rad n p)) /\
  (site_eq (site rad n p) (Some (site rad m q)) = Ok true -> site_eq (site rad m q) (Some (site rad k r)) = Ok true -> site_eq (site rad n p) (Some (site rad k r)) = Ok true) /\
  (site_eq (site rad n p) (Some (site rad n p)) = Ok true <-> forall a f, In (a, f) plain -> f p <> Some ENaN).
Proof.
  intros rad n p m q k r R.
  assert (Sy : forall x y, same x y -> same y x).
  { intros [x|] [y|]; cbn; auto. destruct x as [| |x|], y as [| |y|]; cbn; auto. intros H. apply Qeq_bool_iff in H. apply Qeq_bool_iff. symmetry. exact H. }
  assert (Tr : forall x y z, same x y -> same y z -> same x z).
  { intros [x|] [y|] [z|]; cbn; auto; try contradiction. destruct x as [| |x|], y as [| |y|], z as [| |z|]; cbn; auto; try discriminate.
    intros H1 H2. apply Qeq_bool_iff in H1. apply Qeq_bool_iff in H2. apply Qeq_bool_iff. rewrite H1. exact H2. }
  split; [|split].
  - destruct (C130_equal rad n p m q R) as [b [E [_ B]]]. destruct (C130_equal rad m q n p R) as [c [F [_ C]]].
    rewrite E, F. f_equal. destruct b, c; try reflexivity.
    + exfalso. assert (X : true = true) by reflexivity. apply B in X. destruct X as [-> X]. assert (Y : false = true) by (apply C; split; [reflexivity|]; intros; apply Sy; eauto). discriminate.
    + exfalso. assert (X : true = true) by reflexivity. apply C in X. destruct X as [-> X]. assert (Y : false = true) by (apply B; split; [reflexivity|]; intros; apply Sy; eauto). discriminate.
  - intros E F. destruct (C130_equal rad n p m q R) as [b [E' [_ B]]]. destruct (C130_equal rad m q k r R) as [c [F' [_ C]]]. destruct (C130_equal rad n p k r R) as [d [G' [_ D]]].
    rewrite E in E'. rewrite F in F'. rewrite G'. f_equal. apply D.
    assert (Hb : b = true) by congruence. assert (Hc : c = true) by congruence. apply B in Hb. apply C in Hc. destruct Hb as [-> X]. destruct Hc as [-> Y].
    split; [reflexivity|]. intros a f I. eapply Tr; eauto.
  - destruct (C130_equal rad n p n p R) as [b [E [_ B]]]. rewrite E.
    assert (P : forall a f, In (a, f) plain -> f (effective n p) = f p \/ (f p = None /\ exists v, f (effective n p) = Some v /\ v <> ENaN)).
    { intros a f I. unfold effective. destruct (default_params n) as [d|] eqn:Hd; [|auto].
      assert (Dd : d = lsst \/ d = auxtel). { unfold default_params in Hd. destruct n as [n|]; [|discriminate]. destruct (String.eqb n "AuxTel"); [right; congruence|]. destruct (String.eqb n "LSST"); [left|]; congruence. }
      cbn in I. repeat (destruct I as [I|I]; [injection I as <- <-; cbn; match goal with |- orelse ?x _ = _ \/ _ => destruct x eqn:Ex; cbn; [left; reflexivity|right; split; [reflexivity|]] end; destruct Dd as [-> | ->]; eexists; (split; [reflexivity|discriminate])|]). contradiction. }
    split.
    + intros H a f I N. assert (Hb : b = true) by congruence. apply B in Hb. destruct Hb as [_ X]. specialize (X a f I). destruct (P a f I) as [Q|[Q _]]; [|congruence]. rewrite Q, N in X. discriminate.
    + intros H. f_equal. apply B. split; [reflexivity|]. intros a f I.
      assert (V : f (effective n p) <> Some ENaN). { destruct (P a f I) as [Q|[_ [v [Q V]]]]; rewrite Q; [eauto|congruence]. }
      destruct (f (effective n p)) as [[| |x|]|]; cbn; auto. apply Qeq_bool_iff. reflexivity.
Qed.
Print Assumptions C130_equivalence.

(** A site made by name is the same as one given the defaults by hand under that name, and
    a parameter equal to its default may be left out. *)
Theorem C130_explicit : forall rad name d p, default_params name = Some d -> site rad name (fill p d) = site rad name p.
Proof.
  intros rad name d p H. unfold site, effective. rewrite H.
  assert (F : fill (fill p d) d = fill p d); [|rewrite F; reflexivity].
  assert (O : forall a b, orelse (orelse a b) b = orelse a b) by (intros [a|] [b|]; reflexivity).
  unfold fill. cbn. rewrite !O. reflexivity.
Qed.
Print Assumptions C130_explicit.

(** Refuted: a site equals itself. *)
Theorem C130_itself_refuted : exists p, forall rad name, (forall x y, er_eqb x y = true -> er_eqb (rad x) (rad y) = true) -> site_eq (site rad name p) (Some (site rad name p)) = Ok false.
Proof.
  exists (mkParams None None None None (Some ENaN) None None). intros rad name R.
  destruct (C130_equal rad name (mkParams None None None None (Some ENaN) None None) name (mkParams None None None None (Some ENaN) None None) R) as [b [E [_ B]]].
  rewrite E. f_equal. destruct b; [|reflexivity]. exfalso. assert (X : true = true) by reflexivity. apply B in X. destruct X as [_ X]. specialize (X "_pressure" a_press ltac:(cbn; auto 10)).
  revert X. unfold effective. destruct (default_params name) as [d|]; cbn; discriminate.
Qed.
Print Assumptions C130_itself_refuted.

(** Refuted: comparing a site with anything else answers; against an object without
    attributes, as None, the comparison raises. *)
Theorem C130_other_refuted : forall rad name p, site_eq (site rad name p) None = Raise AttributeError /\ site_ne (site rad name p) None = Raise AttributeError.
Proof. intros. split; reflexivity. Qed.
Print Assumptions C130_other_refuted.

(** Refuted: the defaults are those of the telescope however its name is written; another
    spelling gives a site without any place. *)
Theorem C130_name_refuted : forall name p, name <> Some "LSST" -> name <> Some "AuxTel" -> a_lon p = None -> to_earth name p = Raise TypeError /\ In "longitude" (warned name p).
Proof.
  intros name p H1 H2 H.
  assert (D : default_params name = None).
  { unfold default_params. destruct name as [n|]; [|reflexivity]. destruct (String.eqb_spec n "AuxTel") as [->|_]; [congruence|]. destruct (String.eqb_spec n "LSST") as [->|_]; [congruence|reflexivity]. }
  unfold to_earth, warned, effective. rewrite D, H. split; [reflexivity|]. left. reflexivity.
Qed.
Print Assumptions C130_name_refuted.
