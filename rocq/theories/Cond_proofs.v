(** What the values of Conditions should be, and proofs about the cached attributes. *)
From Coq Require Import List ZArith QArith Bool String.
From Verif Require Import Base Cond.
Import ListNotations.
Local Open Scope string_scope.
Open Scope list_scope.

Section Spec.
Variable M : Type.
Variable lmst_of : Q -> Q.
Variable ha_of : Q -> M.
Variable altaz_of : Q -> M * M.
Variable pa_of : M -> M -> M.
Variable airmass_of : option (Q * Q) -> M -> M.
Variable m5_of : string -> M -> M -> M -> M.
Variable nan_map : M.
Variable elong_of : Q -> Q -> M.
Variable az_sun_of : Q -> M.
Variable az_anti_of : Q -> M.
Variable wind_of : Q -> M -> Q -> M.

(** The inputs a caller has supplied: everything set since the last assignment of
    [mjd].  Maps per band are functions of the band. *)
Record inp : Type := mkInp {
  i_mjd : option Q; i_lmst : option Q; i_sky : string -> option M; i_fwhm : string -> option M;
  i_sra : option Q; i_sdec : option Q; i_ws : option Q; i_wd : option Q; i_lim : option (Q * Q) }.
Definition given (d : list (string * M)) (old : string -> option M) : string -> option M :=
  fun b => match find (fun p => String.eqb (fst p) b) (rev d) with Some p => Some (snd p) | None => old b end.
Definition istep (i : inp) (o : cop M) : inp :=
  match o with
  | SetMjd _ t => mkInp t None (fun _ => None) (fun _ => None) None None None None None
  | SetLmst _ l => mkInp (i_mjd i) (Some l) (i_sky i) (i_fwhm i) (i_sra i) (i_sdec i) (i_ws i) (i_wd i) (i_lim i)
  | SetSky _ d => mkInp (i_mjd i) (i_lmst i) (given d (i_sky i)) (i_fwhm i) (i_sra i) (i_sdec i) (i_ws i) (i_wd i) (i_lim i)
  | SetFwhm _ d => mkInp (i_mjd i) (i_lmst i) (i_sky i) (given d (i_fwhm i)) (i_sra i) (i_sdec i) (i_ws i) (i_wd i) (i_lim i)
  | SetSunRa _ v => mkInp (i_mjd i) (i_lmst i) (i_sky i) (i_fwhm i) (Some v) (i_sdec i) (i_ws i) (i_wd i) (i_lim i)
  | SetSunDec _ v => mkInp (i_mjd i) (i_lmst i) (i_sky i) (i_fwhm i) (i_sra i) (Some v) (i_ws i) (i_wd i) (i_lim i)
  | SetWind _ v => mkInp (i_mjd i) (i_lmst i) (i_sky i) (i_fwhm i) (i_sra i) (i_sdec i) (Some v) (i_wd i) (i_lim i)
  | SetWindDir _ v => mkInp (i_mjd i) (i_lmst i) (i_sky i) (i_fwhm i) (i_sra i) (i_sdec i) (i_ws i) (Some v) (i_lim i)
  | SetLimits _ v => mkInp (i_mjd i) (i_lmst i) (i_sky i) (i_fwhm i) (i_sra i) (i_sdec i) (i_ws i) (i_wd i) (Some v)
  | Read _ _ => i
  end.
Definition inputs (t0 : option Q) (ops : list (cop M)) : inp :=
  fold_left istep ops (mkInp t0 None (fun _ => None) (fun _ => None) None None None None None).

(** The value of each derived attribute for given inputs. *)
Definition w_lmst (i : inp) : option Q :=
  match i_lmst i with Some l => Some l | None => option_map lmst_of (i_mjd i) end.
Definition w_air (i : inp) : option M :=
  option_map (fun t => airmass_of (i_lim i) (fst (altaz_of t))) (i_mjd i).
Definition want (k : kind) (i : inp) : option M :=
  match k with
  | KHa => option_map ha_of (w_lmst i)
  | KAlt => option_map (fun t => fst (altaz_of t)) (i_mjd i)
  | KAz => option_map (fun t => snd (altaz_of t)) (i_mjd i)
  | KPa => option_map (fun t => pa_of (fst (altaz_of t)) (snd (altaz_of t))) (i_mjd i)
  | KAirmass => w_air i
  | KElong => match i_sra i, i_sdec i with Some a, Some d => Some (elong_of a d) | _, _ => None end
  | KAzSun => option_map az_sun_of (i_sra i)
  | KAzAnti => option_map az_anti_of (i_sra i)
  | KWind => match i_ws i, i_wd i, i_mjd i with
             | Some v, Some d, Some t => Some (wind_of v (snd (altaz_of t)) d)
             | _, _, _ => None
             end
  | KLmst | KM5 => None
  end.
Definition want_m5 (i : inp) (b : string) : option M :=
  match i_sky i b, i_fwhm i b, w_air i with
  | Some s, Some f, Some a => Some (m5_of b s f a)
  | _, _, _ => None
  end.

(** Which plain attributes a derived one is computed from, besides the time. *)
Definition touches (k : kind) (o : cop M) : bool :=
  match k, o with
  | KElong, (SetSunRa _ _ | SetSunDec _ _) => true
  | (KAzSun | KAzAnti), SetSunRa _ _ => true
  | KWind, (SetWind _ _ | SetWindDir _ _) => true
  | KAirmass, SetLimits _ _ => true
  | _, _ => false
  end.
Definition kind_eq_dec (a b : kind) : {a = b} + {a <> b}.
Proof. decide equality. Defined.
(** No such attribute is set after the derived one was read, for the same time. *)
Fixpoint settled (k : kind) (was_read : bool) (ops : list (cop M)) : Prop :=
  match ops with
  | [] => True
  | SetMjd _ _ :: r => settled k false r
  | Read _ k' :: r => settled k (if kind_eq_dec k k' then true else was_read) r
  | o :: r => (was_read = true -> touches k o = false) /\ settled k was_read r
  end.

Notation crun := (crun M lmst_of ha_of altaz_of pa_of airmass_of m5_of nan_map elong_of az_sun_of az_anti_of wind_of).
Notation cstep := (cstep M lmst_of ha_of altaz_of pa_of airmass_of m5_of nan_map elong_of az_sun_of az_anti_of wind_of).
Notation read := (read M lmst_of ha_of altaz_of pa_of airmass_of m5_of nan_map elong_of az_sun_of az_anti_of wind_of).
Notation m5_loop := (m5_loop M m5_of nan_map).

Lemma find_app {A} (f : A -> bool) : forall l1 l2,
  find f (l1 ++ l2) = match find f l1 with Some x => Some x | None => find f l2 end.
Proof. induction l1; intros; cbn; [reflexivity|]. destruct (f a); auto. Qed.
Lemma dget_dset : forall d k v b, dget M (dset M d k v) b = if String.eqb k b then Some v else dget M d b.
Proof.
  induction d as [|[a w] d IH]; intros k v b; cbn.
  - reflexivity.
  - destruct (String.eqb a k) eqn:E; cbn.
    + apply String.eqb_eq in E. subst a. destruct (String.eqb k b); reflexivity.
    + rewrite IH. destruct (String.eqb a b) eqn:F; [|reflexivity].
      apply String.eqb_eq in F. subst b. rewrite String.eqb_sym, E. reflexivity.
Qed.
Lemma dget_dupd : forall e d b, dget M (dupd M d e) b = given e (dget M d) b.
Proof.
  induction e as [|p e IH]; intros d b; [reflexivity|].
  change (dupd M d (p :: e)) with (dupd M (dset M d (fst p) (snd p)) e).
  rewrite IH. unfold given. cbn [rev]. rewrite find_app.
  destruct (find _ (rev e)); [reflexivity|]. cbn. rewrite dget_dset.
  destruct (String.eqb (fst p) b); reflexivity.
Qed.
Lemma given_ext : forall e f g b, f b = g b -> given e f b = given e g b.
Proof. intros. unfold given. destruct (find _ _); auto. Qed.
Lemma dset_keys : forall d k v x, In x (map fst (dset M d k v)) -> x = k \/ In x (map fst d).
Proof.
  induction d as [|[a w] d IH]; intros k v x H; cbn in *.
  - destruct H as [H|[]]; auto.
  - destruct (String.eqb a k) eqn:E; cbn in H.
    + right. exact H.
    + destruct H as [H|H]; auto. apply IH in H. tauto.
Qed.
Lemma dset_nodup : forall d k v, NoDup (map fst d) -> NoDup (map fst (dset M d k v)).
Proof.
  induction d as [|[a w] d IH]; intros k v N; cbn.
  - constructor; [intros []|constructor].
  - inversion N; subst. destruct (String.eqb a k) eqn:E; cbn; constructor; auto.
    intro I. apply dset_keys in I. destruct I as [I|I]; auto. subst. rewrite String.eqb_refl in E. discriminate.
Qed.
Lemma dupd_nodup : forall e d, NoDup (map fst d) -> NoDup (map fst (dupd M d e)).
Proof. induction e as [|p e IH]; intros d N; [exact N|]. apply IH. apply dset_nodup. exact N. Qed.
Lemma dget_in : forall d k v, dget M d k = Some v -> In k (map fst d).
Proof.
  induction d as [|[a w] d IH]; intros k v H; cbn in *; [discriminate|].
  destruct (String.eqb a k) eqn:E; [left; apply String.eqb_eq; exact E|right; eauto].
Qed.
Lemma dget_none : forall d k, ~ In k (map fst d) -> dget M d k = None.
Proof. intros d k H. destruct (dget M d k) eqn:E; [|reflexivity]. apply dget_in in E. contradiction. Qed.

Lemma m5_loop_ok : forall s todo acc d, NoDup (map fst todo) ->
  m5_loop s todo acc = (d, Ok tt) ->
  (forall b, match dget M todo b with
             | None => dget M d b = dget M acc b
             | Some sk => exists f a, dget M (x_fwhm M s) b = Some f /\ x_air M s = Some a /\
                                      dget M d b = Some (m5_of b sk f a)
             end).
Proof.
  intros s. induction todo as [|[k sk] todo IH]; intros acc d N H b; cbn in H.
  - injection H as <-. reflexivity.
  - inversion N; subst. cbn.
    destruct (dget M (x_fwhm M s) k) as [f|] eqn:F; [|discriminate].
    destruct (x_air M s) as [a|] eqn:A; [|discriminate].
    specialize (IH _ _ H3 H b). destruct (String.eqb k b) eqn:E.
    + apply String.eqb_eq in E. subst b. rewrite (dget_none _ _ H2) in IH.
      exists f, a. rewrite IH, dget_dset, String.eqb_refl. auto.
    + destruct (dget M todo b); [exact IH|]. rewrite IH, !dget_dset, E. reflexivity.
Qed.

Definition Base (s : cst M) (i : inp) : Prop :=
  x_mjd M s = i_mjd i /\ x_sra M s = i_sra i /\ x_sdec M s = i_sdec i /\ x_ws M s = i_ws i /\
  x_wd M s = i_wd i /\ x_lim M s = i_lim i /\
  (forall b, dget M (x_sky M s) b = i_sky i b) /\ (forall b, dget M (x_fwhm M s) b = i_fwhm i b) /\
  NoDup (map fst (x_sky M s)) /\
  match x_lmst M s with Some l => w_lmst i = Some l | None => i_lmst i = None end /\
  (forall m, x_ha M s = Some m -> want KHa i = Some m) /\
  (forall m, x_alt M s = Some m -> want KAlt i = Some m) /\
  (forall m, x_az M s = Some m -> want KAz i = Some m) /\
  (forall m, x_pa M s = Some m -> want KPa i = Some m).

Ltac bdone := repeat match goal with |- _ /\ _ => split end; auto; try (intros; congruence).
Ltac bsplit := unfold Base in *;
  repeat match goal with H : _ /\ _ |- _ => destruct H end.

Lemma lmst_base : forall s i, Base s i ->
  Base (fst (get_lmst M lmst_of s)) i /\
  match snd (get_lmst M lmst_of s) with Ok l => w_lmst i = Some l | Raise _ => w_lmst i = None end.
Proof.
  intros s i B. unfold get_lmst. bsplit.
  destruct (x_lmst M s) as [l|] eqn:L; cbn.
  - rewrite L. bdone.
  - destruct (x_mjd M s) as [t|] eqn:T; cbn.
    + assert (W : w_lmst i = Some (lmst_of t)) by (unfold w_lmst; rewrite H8, <- H; reflexivity).
      bdone.
    + rewrite L. assert (W : w_lmst i = None) by (unfold w_lmst; rewrite H8, <- H; reflexivity).
      bdone.
Qed.

Lemma ha_base : forall s i, Base s i ->
  Base (fst (get_ha M lmst_of ha_of s)) i /\
  match snd (get_ha M lmst_of ha_of s) with Ok m => want KHa i = Some m | Raise _ => want KHa i = None end.
Proof.
  intros s i B. unfold get_ha. destruct (x_ha M s) as [m|] eqn:E.
  - split; [exact B|]. cbn. bsplit. auto.
  - destruct (lmst_base s i B) as [B1 R]. destruct (get_lmst M lmst_of s) as [s1 [l|e]] eqn:G; cbn in *.
    + rewrite R. cbn. split; [|reflexivity]. clear B. bsplit. cbn in *. bdone. rewrite R. cbn. bdone.
    + rewrite R. split; [exact B1|reflexivity].
Qed.
Lemma alt_base : forall s i, Base s i ->
  Base (fst (get_alt M altaz_of s)) i /\
  match snd (get_alt M altaz_of s) with Ok m => want KAlt i = Some m | Raise _ => want KAlt i = None end.
Proof.
  intros s i B. unfold get_alt. destruct (x_alt M s) as [m|] eqn:E.
  - split; [exact B|]. cbn. bsplit. auto.
  - destruct (x_mjd M s) as [t|] eqn:T; cbn.
    + bsplit. rewrite T in H. cbn in *. bdone; try (rewrite <- H; cbn; bdone).
    + split; [exact B|]. bsplit. unfold want. rewrite <- H, T. reflexivity.
Qed.
Lemma az_base : forall s i, Base s i ->
  Base (fst (get_az M altaz_of s)) i /\
  match snd (get_az M altaz_of s) with Ok m => want KAz i = Some m | Raise _ => want KAz i = None end.
Proof.
  intros s i B. unfold get_az. destruct (x_az M s) as [m|] eqn:E.
  - split; [exact B|]. cbn. bsplit. auto.
  - destruct (x_mjd M s) as [t|] eqn:T; cbn.
    + bsplit. rewrite T in H. cbn in *. bdone; try (rewrite <- H; cbn; bdone).
    + split; [exact B|]. bsplit. unfold want. rewrite <- H, T. reflexivity.
Qed.
Lemma pa_base : forall s i, Base s i ->
  Base (fst (get_pa M altaz_of pa_of s)) i /\
  match snd (get_pa M altaz_of pa_of s) with Ok m => want KPa i = Some m | Raise _ => want KPa i = None end.
Proof.
  intros s i B. unfold get_pa. destruct (x_pa M s) as [m|] eqn:E.
  - split; [exact B|]. cbn. bsplit. auto.
  - destruct (alt_base s i B) as [B1 R1]. destruct (get_alt M altaz_of s) as [s1 [a|e]] eqn:G; cbn in *.
    + destruct (az_base s1 i B1) as [B2 R2]. destruct (get_az M altaz_of s1) as [s2 [z|e]] eqn:G2; cbn in *.
      * unfold want in *. destruct (i_mjd i) as [t|] eqn:T; cbn in *; [|discriminate].
        injection R1 as <-. injection R2 as <-. split; [|reflexivity].
        clear B B1 G G2. bsplit. cbn in *. bdone; try (rewrite T; cbn; bdone).
      * destruct (i_mjd i); cbn in *; [discriminate|]. split; auto.
    + destruct (i_mjd i); cbn in *; [discriminate|]. split; auto.
Qed.

(** Every read leaves the supplied inputs and the always-fresh caches right. *)
Lemma read_base : forall k s i, Base s i -> Base (fst (read k s)) i.
Proof.
  intros k s i B. destruct k; cbn.
  - apply lmst_base; exact B.
  - apply ha_base; exact B.
  - apply alt_base; exact B.
  - apply az_base; exact B.
  - apply pa_base; exact B.
  - unfold get_air. destruct (x_air M s); [exact B|]. destruct (x_alt M s) eqn:A; [|exact B]. exact B.
  - unfold get_m5. destruct (x_m5 M s); [exact B|]. destruct (m5_loop s (x_sky M s) []). exact B.
  - unfold get_el. destruct (x_el M s); [exact B|]. destruct (x_sra M s) eqn:E1; [|exact B].
    destruct (x_sdec M s) eqn:E2; exact B.
  - unfold get_azs. destruct (x_azs M s); [exact B|]. destruct (x_sra M s) eqn:E1; exact B.
  - unfold get_aza. destruct (x_aza M s); [exact B|]. destruct (x_sra M s) eqn:E1; exact B.
  - unfold get_wp. destruct (x_wp M s); [exact B|]. destruct (az_base s i B) as [B1 _].
    destruct (get_az M altaz_of s) as [s1 [z|e]]; [|exact B1]. cbn in B1.
    destruct (x_ws M s1) eqn:E1; [|exact B1]. destruct (x_wd M s1) eqn:E2; exact B1.
Qed.
Lemma step_base : forall s i o, Base s i -> Base (fst (cstep s o)) (istep i o).
Proof.
  intros s i o B. destruct o; try (unfold cstep; cbn [fst istep]; bsplit; cbn in *; bdone; fail).
  - cbn. unfold Base. cbn. bdone; constructor.
  - cbn. bsplit. cbn in *. bdone.
    + intro b. rewrite dget_dupd. apply given_ext; auto.
    + apply dupd_nodup; auto.
  - cbn. bsplit. cbn in *. bdone. intro b. rewrite dget_dupd. apply given_ext; auto.
  - cbn. destruct (read k s) as [s1 r] eqn:E. cbn. change s1 with (fst (s1, r)). rewrite <- E. apply read_base; exact B.
Qed.

Definition cache (k : kind) (s : cst M) : option M :=
  match k with
  | KElong => x_el M s | KAzSun => x_azs M s | KAzAnti => x_aza M s | KWind => x_wp M s | KAirmass => x_air M s
  | _ => None
  end.
Definition St (k : kind) (f : bool) (s : cst M) (i : inp) : Prop :=
  forall m, cache k s = Some m -> f = true /\ want k i = Some m.

Lemma altaz_keep : forall s, let s1 := fst (get_az M altaz_of s) in
  x_el M s1 = x_el M s /\ x_azs M s1 = x_azs M s /\ x_aza M s1 = x_aza M s /\ x_wp M s1 = x_wp M s /\
  x_air M s1 = x_air M s /\ x_m5 M s1 = x_m5 M s /\ x_mjd M s1 = x_mjd M s /\ x_ws M s1 = x_ws M s /\ x_wd M s1 = x_wd M s.
Proof. intros s. unfold get_az. destruct (x_az M s); [cbn; bdone|]. destruct (x_mjd M s) eqn:E; cbn; bdone. Qed.
Lemma altaz_keep' : forall s, let s1 := fst (get_alt M altaz_of s) in
  x_el M s1 = x_el M s /\ x_azs M s1 = x_azs M s /\ x_aza M s1 = x_aza M s /\ x_wp M s1 = x_wp M s /\
  x_air M s1 = x_air M s /\ x_m5 M s1 = x_m5 M s /\ x_mjd M s1 = x_mjd M s /\ x_ws M s1 = x_ws M s /\ x_wd M s1 = x_wd M s.
Proof. intros s. unfold get_alt. destruct (x_alt M s); [cbn; bdone|]. destruct (x_mjd M s) eqn:E; cbn; bdone. Qed.

Lemma read_cache_other : forall k k' s, k <> k' -> cache k (fst (read k' s)) = cache k s.
Proof.
  intros k k' s N. destruct k'; cbn.
  - unfold get_lmst. destruct (x_lmst M s); [reflexivity|]. destruct (x_mjd M s) eqn:E; destruct k; reflexivity.
  - unfold get_ha. destruct (x_ha M s); [reflexivity|]. unfold get_lmst.
    destruct (x_lmst M s); [destruct k; reflexivity|]. destruct (x_mjd M s) eqn:E; destruct k; reflexivity.
  - destruct (altaz_keep' s) as (A & B & C & D & F & _). destruct k; cbn; auto.
  - destruct (altaz_keep s) as (A & B & C & D & F & _). destruct k; cbn; auto.
  - unfold get_pa. destruct (x_pa M s); [reflexivity|].
    pose proof (altaz_keep' s) as K. destruct (get_alt M altaz_of s) as [s1 [a|e]]; cbn in K.
    + pose proof (altaz_keep s1) as K1. destruct (get_az M altaz_of s1) as [s2 [z|e]]; cbn in K1;
        destruct K as (A & B & C & D & F & _); destruct K1 as (A1 & B1 & C1 & D1 & F1 & _);
        destruct k; cbn; congruence.
    + destruct K as (A & B & C & D & F & _). destruct k; cbn; congruence.
  - unfold get_air. destruct (x_air M s) eqn:E; [reflexivity|]. destruct (x_alt M s) eqn:E1; destruct k; cbn; congruence.
  - unfold get_m5. destruct (x_m5 M s) eqn:E; [reflexivity|]. destruct (m5_loop s (x_sky M s) []). destruct k; reflexivity.
  - unfold get_el. destruct (x_el M s) eqn:E; [reflexivity|]. destruct (x_sra M s) eqn:E1; [|reflexivity].
    destruct (x_sdec M s) eqn:E2; destruct k; cbn; congruence.
  - unfold get_azs. destruct (x_azs M s) eqn:E; [reflexivity|]. destruct (x_sra M s) eqn:E1; destruct k; cbn; congruence.
  - unfold get_aza. destruct (x_aza M s) eqn:E; [reflexivity|]. destruct (x_sra M s) eqn:E1; destruct k; cbn; congruence.
  - unfold get_wp. destruct (x_wp M s) eqn:E; [reflexivity|]. pose proof (altaz_keep s) as K.
    destruct (get_az M altaz_of s) as [s1 [z|e]]; cbn in K; destruct K as (A & B & C & D & F & _).
    + destruct (x_ws M s1) eqn:E1; [destruct (x_wd M s1) eqn:E2|]; destruct k; cbn; congruence.
    + destruct k; cbn; congruence.
Qed.

(** The kinds whose cache is dropped only by a new time. *)
Definition sticky (k : kind) : bool :=
  match k with KElong | KAzSun | KAzAnti | KWind | KAirmass => true | _ => false end.

Lemma read_sticky : forall k f s i, sticky k = true -> Base s i -> St k f s i ->
  St k true (fst (read k s)) i /\
  (forall v, snd (read k s) = Ok v -> exists m, v = VM M m /\ want k i = Some m).
Proof.
  intros k f s i K B I. unfold St in *. destruct k; try discriminate K; cbn in *; clear K.
  - unfold get_air. destruct (x_air M s) eqn:E; cbn.
    + split; intros v V; [rewrite E in V; apply I in V; tauto|]. injection V as <-. exists m. split; [reflexivity|].
      apply (I m). reflexivity.
    + destruct (x_alt M s) as [a|] eqn:A; cbn.
      * assert (W : w_air i = Some (airmass_of (x_lim M s) a)).
        { bsplit. specialize (H10 _ A). cbn in H10. unfold w_air. destruct (i_mjd i); [|discriminate].
          cbn in *. injection H10 as <-. rewrite H4. reflexivity. }
        split; intros v V; injection V as <-; [split; [reflexivity|exact W]|]. eexists. split; [reflexivity|exact W].
      * split; [|discriminate]. intros v V. rewrite E in V. discriminate.
  - unfold get_el. destruct (x_el M s) eqn:E; cbn.
    + split; intros v V; [rewrite E in V; apply I in V; tauto|]. injection V as <-. exists m. split; [reflexivity|].
      apply (I m). reflexivity.
    + bsplit. rewrite <- H0, <- H1. destruct (x_sra M s) as [a|] eqn:A; [destruct (x_sdec M s) as [d|] eqn:D|]; cbn.
      * split; intros v V; injection V as <-; [split; reflexivity|]. eexists. split; reflexivity.
      * split; [|discriminate]. intros v V. rewrite E in V. discriminate.
      * split; [|discriminate]. intros v V. rewrite E in V. discriminate.
  - unfold get_azs. destruct (x_azs M s) eqn:E; cbn.
    + split; intros v V; [rewrite E in V; apply I in V; tauto|]. injection V as <-. exists m. split; [reflexivity|].
      apply (I m). reflexivity.
    + bsplit. rewrite <- H0. destruct (x_sra M s) as [a|] eqn:A; cbn.
      * split; intros v V; injection V as <-; [split; reflexivity|]. eexists. split; reflexivity.
      * split; [|discriminate]. intros v V. rewrite E in V. discriminate.
  - unfold get_aza. destruct (x_aza M s) eqn:E; cbn.
    + split; intros v V; [rewrite E in V; apply I in V; tauto|]. injection V as <-. exists m. split; [reflexivity|].
      apply (I m). reflexivity.
    + bsplit. rewrite <- H0. destruct (x_sra M s) as [a|] eqn:A; cbn.
      * split; intros v V; injection V as <-; [split; reflexivity|]. eexists. split; reflexivity.
      * split; [|discriminate]. intros v V. rewrite E in V. discriminate.
  - unfold get_wp. destruct (x_wp M s) eqn:E; cbn.
    + split; intros v V; [rewrite E in V; apply I in V; tauto|]. injection V as <-. exists m. split; [reflexivity|].
      apply (I m). reflexivity.
    + destruct (az_base s i B) as [_ R]. pose proof (altaz_keep s) as K.
      destruct (get_az M altaz_of s) as [s1 [z|e]]; cbn in K, R; destruct K as (_ & _ & _ & D & _ & _ & _ & W1 & W2).
      * rewrite W1, W2. bsplit. rewrite <- H2, <- H3. destruct (i_mjd i); [|discriminate]. cbn in R. injection R as <-.
        destruct (x_ws M s) eqn:E1; [destruct (x_wd M s) eqn:E2|]; cbn.
        -- split; intros v V; injection V as <-; [split; reflexivity|]. eexists. split; reflexivity.
        -- split; [|discriminate]. intros v V. congruence.
        -- split; [|discriminate]. intros v V. congruence.
      * split; [|discriminate]. intros v V. cbn in V. congruence.
Qed.

Lemma set_sticky : forall k f s i o, sticky k = true ->
  match o with SetMjd _ _ | Read _ _ => False | _ => True end ->
  (f = true -> touches k o = false) -> St k f s i -> St k f (fst (cstep s o)) (istep i o).
Proof.
  intros k f s i o K O T I. unfold St in *.
  assert (C : cache k (fst (cstep s o)) = cache k s) by (destruct o; try contradiction; destruct k; reflexivity).
  rewrite C. intros m H. destruct (I m H) as [F W]. split; [exact F|]. specialize (T F).
  destruct k; try discriminate K; destruct o; try contradiction; try discriminate T; exact W.
Qed.

Lemma run_sticky : forall ops k f s i, sticky k = true -> Base s i -> St k f s i -> settled k f ops ->
  Base (fst (crun s ops)) (fold_left istep ops i) /\
  exists f', St k f' (fst (crun s ops)) (fold_left istep ops i).
Proof.
  induction ops as [|o ops IH]; intros k f s i K B I D; [split; [exact B|exists f; exact I]|].
  cbn [Cond.crun fold_left]. pose proof (step_base s i o B) as B1.
  assert (I1 : exists f1, settled k f1 ops /\ St k f1 (fst (cstep s o)) (istep i o)).
  { destruct o; try (destruct D as [T D]; exists f; split; [exact D|]; apply set_sticky; auto; exact Logic.I).
    - exists false. split; [exact D|]. unfold St. intros m H. destruct k; discriminate H.
    - cbn in D. cbn [Cond.cstep istep]. destruct (kind_eq_dec k k0) as [<-|N].
      + exists true. split; [exact D|]. destruct (read_sticky k f s i K B I) as [G _].
        destruct (read k s); exact G.
      + exists f. split; [exact D|]. pose proof (read_cache_other k k0 s N) as G.
        destruct (read k0 s) as [s1 r]. cbn in *. unfold St in *. rewrite G. exact I. }
  destruct I1 as (f1 & D1 & I1). destruct (cstep s o) as [s1 x]. cbn [fst] in *.
  specialize (IH k f1 s1 (istep i o) K B1 I1 D1). destruct (crun s1 ops) as [s2 xs]. exact IH.
Qed.
Lemma run_base : forall ops s i, Base s i -> Base (fst (crun s ops)) (fold_left istep ops i).
Proof.
  induction ops as [|o ops IH]; intros s i B; [exact B|]. cbn [Cond.crun fold_left].
  pose proof (step_base s i o B) as B1. destruct (cstep s o) as [s1 x]. cbn in B1.
  specialize (IH _ _ B1). destruct (crun s1 ops); exact IH.
Qed.
Lemma init_base : forall t, Base (set_mjd M t) (inputs t []).
Proof. intros t. unfold Base. cbn. bdone; constructor. Qed.

(** ** m5_depth *)
Definition Air (f : bool) (s : cst M) (i : inp) : Prop :=
  St KAirmass f s i /\
  forall d, x_m5 M s = Some d ->
    (forall b, dget M d b = want_m5 i b /\ (i_sky i b <> None -> dget M d b <> None)) /\
    ((exists b, i_sky i b <> None) -> x_air M s <> None).

Lemma read_m5_other : forall k s, k <> KM5 -> x_m5 M (fst (read k s)) = x_m5 M s.
Proof.
  intros k s N. destruct k; try congruence; cbn.
  - unfold get_lmst. destruct (x_lmst M s); [reflexivity|]. destruct (x_mjd M s); reflexivity.
  - unfold get_ha. destruct (x_ha M s); [reflexivity|]. unfold get_lmst. destruct (x_lmst M s); [reflexivity|]. destruct (x_mjd M s); reflexivity.
  - apply altaz_keep'.
  - apply altaz_keep.
  - unfold get_pa. destruct (x_pa M s); [reflexivity|]. pose proof (altaz_keep' s) as K.
    destruct (get_alt M altaz_of s) as [s1 [a|e]]; cbn in *; [|apply K].
    pose proof (altaz_keep s1) as K1. destruct (get_az M altaz_of s1) as [s2 [z|e]]; cbn in *;
    destruct K as (_ & _ & _ & _ & _ & A & _); destruct K1 as (_ & _ & _ & _ & _ & A1 & _); congruence.
  - unfold get_air. destruct (x_air M s); [reflexivity|]. destruct (x_alt M s); reflexivity.
  - unfold get_el. destruct (x_el M s); [reflexivity|]. destruct (x_sra M s); [|reflexivity]. destruct (x_sdec M s); reflexivity.
  - unfold get_azs. destruct (x_azs M s); [reflexivity|]. destruct (x_sra M s); reflexivity.
  - unfold get_aza. destruct (x_aza M s); [reflexivity|]. destruct (x_sra M s); reflexivity.
  - unfold get_wp. destruct (x_wp M s); [reflexivity|]. pose proof (altaz_keep s) as K.
    destruct (get_az M altaz_of s) as [s1 [z|e]]; cbn in *; destruct K as (_ & _ & _ & _ & _ & A & _); [|exact A].
    destruct (x_ws M s1); [|exact A]. destruct (x_wd M s1); exact A.
Qed.

Lemma read_air_m5 : forall f s i v, Base s i -> Air f s i -> snd (read KM5 s) = Ok v ->
  Air f (fst (read KM5 s)) i /\
  exists d, v = VD M d /\ forall b, dget M d b = want_m5 i b /\ (i_sky i b <> None -> dget M d b <> None).
Proof.
  intros f s i v B [I J] H. cbn in *. unfold get_m5 in *. destruct (x_m5 M s) as [d|] eqn:E.
  - cbn in *. injection H as <-. destruct (J d eq_refl) as [J1 J2].
    split; [split; [exact I|]; cbn; rewrite E; intros d' D'; injection D' as <-; auto|].
    exists d. split; [reflexivity|exact J1].
  - destruct (m5_loop s (x_sky M s) []) as [d [[]|e]] eqn:L; cbn in *; [|discriminate]. injection H as <-.
    assert (NN : NoDup (map fst (x_sky M s))) by (bsplit; assumption).
    pose proof (m5_loop_ok _ _ _ _ NN L) as P.
    assert (Q : forall b, dget M d b = want_m5 i b /\ (i_sky i b <> None -> dget M d b <> None)).
    { intro b. specialize (P b). bsplit. rewrite H5 in P. unfold want_m5. rewrite <- H6.
      destruct (i_sky i b) as [sk|] eqn:S0; [|split; [exact P|congruence]].
      destruct P as (fw & a & F & A & D). destruct (I a A) as [_ W]. cbn in W. rewrite F, W, D. split; congruence. }
    split; [split; [exact I|]|exists d; split; [reflexivity|exact Q]].
    cbn. intros d' D'. injection D' as <-. split; [exact Q|].
    intros [b Hb]. specialize (P b). bsplit. rewrite H5 in P. destruct (i_sky i b); [|congruence].
    destruct P as (fw & a & _ & A & _). congruence.
Qed.

Definition ok (r : res (val M)) : Prop := exists v, r = Ok v.
Lemma run_m5 : forall ops f s i, Base s i -> Air f s i -> settled KAirmass f ops ->
  Forall ok (snd (crun s ops)) ->
  exists f', Air f' (fst (crun s ops)) (fold_left istep ops i).
Proof.
  induction ops as [|o ops IH]; intros f s i B A D F; [exists f; exact A|].
  cbn [Cond.crun fold_left] in *. pose proof (step_base s i o B) as B1.
  assert (G : exists f1, settled KAirmass f1 ops /\
    (match snd (cstep s o) with Some r => ok r | None => True end -> Air f1 (fst (cstep s o)) (istep i o))).
  { destruct A as [I J]. destruct o.
    1: { exists false. split; [exact D|]. intros _. split; [intros m H; discriminate H|intros d H; discriminate H]. }
    9: { cbn [settled] in D. cbn [Cond.cstep istep]. destruct (kind_eq_dec KAirmass k) as [<-|N].
         - exists true. split; [exact D|]. intros _. destruct (read_sticky KAirmass f s i eq_refl B I) as [G _].
           pose proof (read_m5_other KAirmass s ltac:(discriminate)) as M5.
           assert (K : x_air M s <> None -> x_air M (fst (read KAirmass s)) <> None).
           { cbn. unfold get_air. destruct (x_air M s) eqn:E; [cbn; congruence|congruence]. }
           destruct (read KAirmass s) as [s1 r]; cbn in *. split; [exact G|]. rewrite M5. intros d H.
           destruct (J d H) as [J1 J2]. auto.
         - exists f. split; [exact D|]. intros R. destruct (kind_eq_dec k KM5) as [->|N5].
           + destruct (snd (read KM5 s)) as [v|e] eqn:E.
             * destruct (read_air_m5 f s i v B (conj I J) E) as [A1 _]. destruct (read KM5 s); exact A1.
             * destruct (read KM5 s) as [s1 r]; cbn in *. subst r. destruct R as [v V]. discriminate.
           + pose proof (read_cache_other KAirmass k s N) as C. pose proof (read_m5_other k s N5) as M5.
             destruct (read k s) as [s1 r]. cbn in *. split; [unfold St in *; cbn in *; rewrite C; exact I|].
             rewrite M5, C. exact J. }
    all: destruct D as [T D]; exists f; split; [exact D|]; intros _;
      (split; [apply set_sticky; auto; exact Logic.I|]); cbn in *;
      try (intros d' H'; discriminate H'); try exact J.
    intros d H. destruct (J d H) as [J1 J2].
    assert (NF : f = false) by (destruct f; [discriminate (T eq_refl)|reflexivity]).
    assert (NA : x_air M s = None).
    { destruct (x_air M s) as [a|] eqn:E; [|reflexivity]. destruct (I a E) as [C _]. congruence. }
    assert (NS : forall b, i_sky i b = None).
    { intro b. destruct (i_sky i b) eqn:E; [|reflexivity]. exfalso. apply J2; [|exact NA]. exists b. congruence. }
    split; [|intros [b Hb]; rewrite NS in Hb; congruence].
    intro b. specialize (J1 b). unfold want_m5 in *. cbn. rewrite NS in *. exact J1. }
  destruct G as (f1 & D1 & G). destruct (cstep s o) as [s1 x]. cbn [fst snd] in *.
  assert (F1 : Forall ok (snd (crun s1 ops)) /\ match x with Some r => ok r | None => True end).
  { destruct (crun s1 ops) as [s2 xs]. cbn in *. destruct x; [inversion F; auto|auto]. }
  destruct F1 as [F1 X]. specialize (IH f1 s1 (istep i o) B1 (G X) D1 F1).
  destruct (crun s1 ops); exact IH.
Qed.
End Spec.
