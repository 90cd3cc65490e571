(** C116: arrays of observations: rows, conversion, bands from filters. *)
From Coq Require Import List Bool ZArith String Ascii Arith Lia.
From Verif Require Import Base ObsArray.
Import ListNotations.
Open Scope string_scope.

Section Props.
Variable F : Type.
Variable f0 : F.
Notation val := (val F).
Notation row := (row F).
Notation array := (array F).

(** A row as an array holds it: its fields in order, each with a value of its type, texts no longer
    than the field. *)
Definition fits (t : ty) (v : val) : Prop :=
  match t, v with TInt, VInt _ _ | TFloat, VFloat _ _ | TBool, VBool _ _ => True | TStr w, VStr _ s => (String.length s <= w)%nat | _, _ => False end.
Definition wf (s : schema) (r : row) : Prop := Forall2 (fun kt kv => fst kt = fst kv /\ fits (snd kt) (snd kv)) s r.

Lemma substring_all : forall s w, (String.length s <= w)%nat -> substring 0 w s = s.
Proof. intros s. induction s as [|c s IH]; intros [|w] L; cbn in *; auto; try lia. f_equal. apply IH. lia. Qed.
Lemma substring_len : forall s w, (String.length (substring 0 w s) <= w)%nat.
Proof. intros s. induction s as [|c s IH]; intros [|w]; cbn; try lia. specialize (IH w). lia. Qed.
Lemma cast_fits : forall t v, fits t v -> cast F t v = Ok v.
Proof. intros [] []; cbn; intros H; try contradiction; try reflexivity. now rewrite substring_all. Qed.
Lemma get_cons : forall k v r key, get F ((k, v) :: r) key = if String.eqb k key then Some v else get F r key.
Proof. intros. unfold get. cbn [find fst]. destruct (String.eqb k key); reflexivity. Qed.
Lemma wf_get : forall s r k t, wf s r -> NoDup (map fst s) -> In (k, t) s -> exists v, get F r k = Some v /\ fits t v.
Proof.
  intros s r k t H. induction H as [|(k' & t') (l & v) s r (E & X) H IH]; intros ND I; [destruct I|]. cbn [fst snd] in *. subst l. inversion ND as [|? ? NI ND']. subst. rewrite get_cons. destruct I as [I|I].
  - injection I as -> ->. rewrite String.eqb_refl. eauto.
  - destruct (String.eqb_spec k' k) as [->|N]; [destruct NI; now apply (in_map fst) in I|]. auto.
Qed.
Lemma wf_none : forall s r k, wf s r -> ~ In k (map fst s) -> get F r k = None.
Proof.
  intros s r k H. induction H as [|(k' & t') (l & v) s r (E & X) H IH]; intros NI; [reflexivity|]. cbn [fst snd map] in *. subst l. rewrite get_cons. destruct (String.eqb_spec k' k) as [->|N]; [destruct NI; now left|]. apply IH. intros I. apply NI. now right.
Qed.
Lemma put_spec : forall s r key t v, wf s r -> NoDup (map fst s) -> In (key, t) s -> forall v', cast F t v = Ok v' -> fits t v' ->
  exists r', put F s r key v = Ok r' /\ wf s r' /\ get F r' key = Some v' /\ forall k, k <> key -> get F r' k = get F r k.
Proof.
  intros s r key t v H ND I v' C X. revert ND I. induction H as [|(k & t') (l & w) s r (E & Y) H IH]; intros ND I; [destruct I|]. cbn [fst snd] in *. subst l. inversion ND as [|? ? NI ND']. subst. cbn [put]. destruct I as [I|I].
  - injection I as -> ->. rewrite String.eqb_refl, C. cbn [bind]. exists ((key, v') :: r). split; [reflexivity|]. split; [constructor; cbn; auto|]. split; [rewrite get_cons, String.eqb_refl; reflexivity|]. intros k N. rewrite !get_cons. destruct (String.eqb_spec key k); congruence.
  - destruct (String.eqb_spec k key) as [->|N]; [destruct NI; now apply (in_map fst) in I|]. destruct (IH ND' I) as (r' & P & W & G & O). rewrite P. cbn [bind]. exists ((k, w) :: r'). split; [reflexivity|]. split; [constructor; cbn; auto|]. split; [rewrite get_cons; destruct (String.eqb_spec k key); [contradiction|exact G]|].
    intros q Q. rewrite !get_cons. destruct (String.eqb k q); auto.
Qed.
Lemma blank_wf : forall s, wf s (blank F f0 s).
Proof. intros s. induction s as [|(k & t) s IH]; constructor; [|exact IH]. cbn. split; [reflexivity|]. destruct t; cbn; auto; lia. Qed.
Lemma collect_ok : forall A B (f : A -> res B) (P : A -> B -> Prop) l, (forall x, In x l -> exists y, f x = Ok y /\ P x y) -> exists ys, collect f l = Ok ys /\ Forall2 P l ys.
Proof.
  intros A B f P l. induction l as [|x l IH]; intros H; [exists []; split; [reflexivity|constructor]|]. destruct (H x (or_introl eq_refl)) as (y & E & Q). destruct IH as (ys & E' & Q'); [intros z I; apply H; now right|]. exists (y :: ys). cbn. rewrite E. cbn. rewrite E'. split; [reflexivity|now constructor].
Qed.
Ltac nodup := repeat (constructor; [cbn; intuition discriminate|]); constructor.
Lemma observation_nodup : NoDup (map fst observation).
Proof. cbn [observation map fst]. nodup. Qed.
Lemma scheduled_nodup : NoDup (map fst scheduled).
Proof. cbn [scheduled map fst]. nodup. Qed.

(** ** Rows *)
Lemma store_wf : forall s r, wf s r -> store F s r = Ok r.
Proof. intros s r H. induction H as [|(k & t) (l & v) s r (E & X) H IH]; [reflexivity|]. cbn [fst snd] in *. subst l. cbn [store]. rewrite cast_fits by exact X. cbn [bind]. rewrite IH. reflexivity. Qed.
Lemma schema_refl : forall s, schema_eqb s s = true.
Proof. intros s. induction s as [|(k & t) s IH]; [reflexivity|]. cbn. rewrite String.eqb_refl, IH. destruct t; cbn; try reflexivity. now rewrite Nat.eqb_refl. Qed.
(** tolist gives an array of the same class for every row, in order. *)
Theorem C116_tolist : forall a : array, (forall r, In r (rows F a) -> wf (cls F a) r) -> tolist F a = Ok (map (fun r => Array F (cls F a) [r]) (rows F a)).
Proof.
  intros (s & rs) H. unfold tolist. cbn [rows cls] in *. induction rs as [|r rs IH]; [reflexivity|]. cbn [collect map]. rewrite (store_wf s r) by (apply H; now left). cbn [bind]. rewrite IH by (intros q I; apply H; now right). reflexivity.
Qed.
(** Joining the rows of an array gives it back. *)
Theorem C116_roundtrip : forall a : array, (forall r, In r (rows F a) -> wf (cls F a) r) -> rows F a <> [] -> bind (tolist F a) (concatenate F) = Ok a.
Proof.
  intros a H NE. rewrite (C116_tolist a H). cbn [bind]. destruct a as (s & rs). cbn [rows cls] in *. destruct rs as [|r rs]; [contradiction|]. unfold concatenate. cbn [map]. cbn [cls]. replace (forallb _ _) with true.
  - f_equal. f_equal. cbn [map List.concat rows app]. f_equal. clear. induction rs as [|q rs IH]; [reflexivity|]. cbn. now rewrite IH.
  - symmetry. apply forallb_forall. intros b [<-|I]; [apply schema_refl|]. apply in_map_iff in I as (q & <- & _). apply schema_refl.
Qed.
(** Joining arrays of one class in two goes is joining them at once. *)
Theorem C116_join : forall (s : schema) (l m : list (list row)), l <> [] -> m <> [] ->
  bind (concatenate F (map (Array F s) l)) (fun a => bind (concatenate F (map (Array F s) m)) (fun b => concatenate F [a; b])) = Ok (Array F s (List.concat l ++ List.concat m)).
Proof.
  assert (J : forall s (l : list (list row)), l <> [] -> concatenate F (map (Array F s) l) = Ok (Array F s (List.concat l))).
  { intros s l NE. destruct l as [|x l]; [contradiction|]. unfold concatenate. cbn [map cls]. replace (forallb _ _) with true; [f_equal; f_equal; cbn [map List.concat rows]; f_equal; clear; induction l as [|y l IH]; cbn; congruence|]. symmetry. apply forallb_forall. intros b [<-|I]; [apply schema_refl|]. apply in_map_iff in I as (q & <- & _). apply schema_refl. }
  intros s l m NL NM. rewrite (J s l NL), (J s m NM). cbn [bind]. change [Array F s (List.concat l); Array F s (List.concat m)] with (map (Array F s) [List.concat l; List.concat m]). rewrite J by discriminate. cbn [List.concat]. now rewrite app_nil_r.
Qed.
(** An empty array does not come back, and neither do arrays of both classes join. *)
Theorem C116_empty_refuted : forall s, bind (tolist F (Array F s [])) (concatenate F) = Raise IndexError.
Proof. reflexivity. Qed.
Theorem C116_mixed : forall rs qs, concatenate F [Array F observation rs; Array F scheduled qs] = Raise TypeError.
Proof. reflexivity. Qed.

(** ** Conversion *)
Definition common : list (string * (ty * ty)) :=
  [("ID", (TInt, TInt)); ("RA", (TFloat, TFloat)); ("dec", (TFloat, TFloat)); ("mjd", (TFloat, TFloat)); ("flush_by_mjd", (TFloat, TFloat)); ("exptime", (TFloat, TFloat)); ("band", (TStr 1, TStr 10)); ("filter", (TStr 40, TStr 10));
   ("rotSkyPos", (TFloat, TFloat)); ("rotTelPos", (TFloat, TFloat)); ("rotTelPos_backup", (TFloat, TFloat)); ("rotSkyPos_desired", (TFloat, TFloat)); ("nexp", (TInt, TInt)); ("scheduler_note", (TStr 60, TStr 60));
   ("target_name", (TStr 60, TStr 60)); ("science_program", (TStr 60, TStr 60)); ("observation_reason", (TStr 60, TStr 60))].
Lemma keys_common : forall k, In k (intersect1d (map fst scheduled) (map fst observation)) <-> In k (map fst common).
Proof. intros k. vm_compute. tauto. Qed.
Lemma common_types : forall k s o, In (k, (s, o)) common -> In (k, s) scheduled /\ In (k, o) observation.
Proof. intros k s o I. cbn [common In] in I. repeat (destruct I as [I|I]; [injection I as <- <- <-; cbn; intuition|]). destruct I. Qed.
Lemma copy_spec : forall keys from to, wf observation to -> (forall k, In k keys -> exists v t, get F from k = Some v /\ In (k, t) observation /\ exists v', cast F t v = Ok v' /\ fits t v') ->
  exists r, copy_keys F keys from to = Ok r /\ wf observation r /\ (forall k, ~ In k keys -> get F r k = get F to k) /\
  forall k v t v', In k keys -> get F from k = Some v -> In (k, t) observation -> cast F t v = Ok v' -> get F r k = Some v'.
Proof.
  intros keys. induction keys as [|key keys IH]; intros from to W H; [exists to; split; [reflexivity|]; split; [exact W|]; split; [reflexivity|intros ? ? ? ? []]|].
  destruct (H key (or_introl eq_refl)) as (v & t & G & I & v' & C & X). cbn [copy_keys]. rewrite G. destruct (put_spec observation to key t v W observation_nodup I v' C X) as (to' & P & W' & G' & O). rewrite P. cbn [bind].
  destruct (IH from to' W') as (r & E & WR & OUT & INN); [intros k K; apply H; now right|]. exists r. split; [exact E|]. split; [exact WR|]. split.
  - intros k N. rewrite OUT by (intros K; apply N; now right). apply O. intros ->. apply N. now left.
  - intros k u t' u' K GK IK CK. destruct (in_dec String.string_dec k keys) as [D|D]; [eapply INN; eauto|]. destruct K as [<-|K]; [|contradiction]. rewrite OUT by exact D. rewrite G'. rewrite G in GK. injection GK as <-.
    assert (t' = t). { clear - I IK. pose proof observation_nodup as ND. revert ND I IK. generalize observation. intros s ND. induction s as [|(k & x) s IH]; intros I J; [destruct I|]. inversion ND as [|? ? NI ND']. subst. destruct I as [I|I], J as [J|J]; [congruence| | |auto].
      - injection I as <- <-. destruct NI. now apply (in_map fst) in J.
      - injection J as <- <-. destruct NI. now apply (in_map fst) in I. }
    subst t'. congruence.
Qed.
(** Every field that both classes have is carried over, for every row; others are blank. *)
Theorem C116_convert : forall a : array, cls F a = scheduled -> (forall r, In r (rows F a) -> wf scheduled r /\ forall s, get F r "filter" = Some (VStr F s) -> (String.length s <= 10)%nat) ->
  exists b, to_observation_array F f0 a = Ok b /\ cls F b = observation /\ Forall2 (fun r q => wf observation q /\
    (forall k, In k (map fst scheduled) -> In k (map fst observation) -> get F q k = get F r k) /\
    (forall k t, In (k, t) observation -> ~ In k (map fst scheduled) -> get F q k = Some (zero F f0 t))) (rows F a) (rows F b).
Proof.
  intros (s & rs) E H. cbn [cls rows] in *. subst s. unfold to_observation_array. cbn [cls rows]. pose proof keys_common as KC. set (keys := intersect1d (map fst scheduled) (map fst observation)) in *. clearbody keys.
  assert (CM : forall k, In k (map fst scheduled) -> In k (map fst observation) -> In k (map fst common)).
  { intros k I J. cbn [scheduled map fst In] in I. repeat (destruct I as [<-|I]; [first [cbn; tauto|exfalso; cbn in J; repeat (destruct J as [J|J]; [discriminate|]); exact J]|]). destruct I. }
  match goal with |- context [collect ?f rs] => destruct (collect_ok _ _ f (fun r q => wf observation q /\ (forall k, In k (map fst scheduled) -> In k (map fst observation) -> get F q k = get F r k) /\ (forall k t, In (k, t) observation -> ~ In k (map fst scheduled) -> get F q k = Some (zero F f0 t))) rs) as (ys & EY & Q) end.
  - intros r I. destruct (H r I) as (W & FL). assert (V : forall k, In k keys -> exists v t, get F r k = Some v /\ In (k, t) observation /\ cast F t v = Ok v /\ fits t v).
    { intros k K. apply KC in K. apply in_map_iff in K as ((k' & (s & o)) & <- & K). cbn [fst]. pose proof (common_types _ _ _ K) as (IS & IO). destruct (wf_get scheduled r k' s W scheduled_nodup IS) as (v & G & X). exists v, o. split; [exact G|]. split; [exact IO|]. assert (Y : fits o v).
      { cbn [common In] in K. repeat (destruct K as [K|K]; [injection K as <- <- <-; destruct v; cbn in X |- *; try exact X; try contradiction; try lia; try (apply FL; exact G)|]). destruct K. }
      split; [now apply cast_fits|exact Y]. }
    destruct (copy_spec keys r (blank F f0 observation) (blank_wf observation)) as (q & EQ & WQ & OUT & INN).
    + intros k K. destruct (V k K) as (v & t & G & IO & C & X). exists v, t. eauto.
    + exists q. split; [exact EQ|]. split; [exact WQ|]. split.
      * intros k I1 I2. pose proof (CM k I1 I2) as K. apply KC in K. destruct (V k K) as (v & t & G & IO & C & X). rewrite G. eapply INN; eauto.
      * intros k t IO NS. rewrite OUT. { clear - IO. pose proof observation_nodup as ND. revert ND IO. generalize observation. intros s ND. induction s as [|(k' & x) s IH]; intros J; [destruct J|]. inversion ND as [|? ? NI ND']. subst. unfold blank. cbn [map fst snd]. rewrite get_cons. destruct J as [J|J]; [injection J as -> ->; now rewrite String.eqb_refl|]. destruct (String.eqb_spec k' k) as [->|N]; [destruct NI; now apply (in_map fst) in J|]. now apply IH. }
        intros K. apply KC in K. apply in_map_iff in K as ((k' & (s & o)) & EK & K). cbn [fst] in EK. subst k'. apply NS. apply common_types in K as (K & _). now apply (in_map fst) in K.
  - exists (Array F observation ys). rewrite EY. split; [reflexivity|]. split; [reflexivity|exact Q].
Qed.
(** A longer name of a filter, which the array of scheduled observations does hold, is cut. *)
Definition long_filter : array := Array F scheduled [map (fun kv => if String.eqb (fst kv) "filter" then (fst kv, VStr F "pinhole_big_2") else kv) (blank F f0 scheduled)].
Theorem C116_filter_refuted : (forall r, In r (rows F long_filter) -> wf scheduled r) /\ (exists r, rows F long_filter = [r] /\ get F r "filter" = Some (VStr F "pinhole_big_2")) /\
  exists b q, to_observation_array F f0 long_filter = Ok b /\ rows F b = [q] /\ get F q "filter" = Some (VStr F "pinhole_bi").
Proof.
  split; [intros r [<-|[]]; repeat (constructor; [cbn; split; [reflexivity|first [exact I|lia]]|]); constructor|]. split; [eexists; split; reflexivity|]. do 2 eexists. split; [vm_compute; reflexivity|]. split; reflexivity.
Qed.

(** ** Bands from filters *)
Definition strip_char (c : ascii) : Prop := In c (list_ascii_of_string "_0123456789").
(** t is s without the underscores and digits at its end. *)
Definition is_strip (s t : string) : Prop :=
  exists u, s = t ++ u /\ (forall c, In c (list_ascii_of_string u) -> strip_char c) /\ forall t' c, t = t' ++ String c "" -> ~ strip_char c.
Lemma stripped_spec : forall c, stripped c = true <-> strip_char c.
Proof. intros c. unfold stripped, strip_char. rewrite existsb_exists. split; [intros (d & I & E); apply Ascii.eqb_eq in E; now subst|intros I; exists c; split; [exact I|apply Ascii.eqb_refl]]. Qed.
Lemma app_last : forall t' c, t' ++ String c "" <> "".
Proof. intros [|d t'] c; discriminate. Qed.
Lemma rstrip_spec : forall s, is_strip s (rstrip s).
Proof.
  intros s. induction s as [|c s IH]; [exists ""; split; [reflexivity|]; split; [intros c []|]; intros t' c E; exfalso; exact (app_last t' c (eq_sym E))|].
  destruct IH as (u & E & A & N). cbn [rstrip]. destruct (rstrip s) as [|d t] eqn:R.
  - cbn [append] in E. subst u. destruct (stripped c) eqn:SC.
    + exists (String c s). split; [reflexivity|]. split; [|intros t' x Q; exfalso; exact (app_last t' x (eq_sym Q))]. cbn [list_ascii_of_string In]. intros x [<-|I]; [now apply stripped_spec|now apply A].
    + exists s. split; [reflexivity|]. split; [exact A|]. intros t' x Q. destruct t' as [|y t']; cbn in Q; [injection Q as <-; intros B; apply stripped_spec in B; congruence|injection Q as _ Q; destruct t'; discriminate].
  - exists u. split; [cbn [append]; f_equal; exact E|]. split; [exact A|]. intros t' x Q. destruct t' as [|y t']; cbn in Q; [discriminate|]. injection Q as _ Q. now apply (N t' x).
Qed.
(** There is only one such text. *)
Lemma strip_unique : forall s t t', is_strip s t -> is_strip s t' -> t = t'.
Proof.
  assert (G : forall t t' u u', t ++ u = t' ++ u' -> (forall c, In c (list_ascii_of_string u) -> strip_char c) -> (forall w c, t' = w ++ String c "" -> ~ strip_char c) -> exists v, t = t' ++ v).
  { intros t. induction t as [|c t IH]; intros t' u u' E A N.
    - destruct t' as [|c t']; [exists ""; reflexivity|]. exfalso. cbn [append] in E. assert (EX : exists w x, String c t' = w ++ String x "" /\ In x (list_ascii_of_string u)).
      { subst u. clear A N. revert c. induction t' as [|d t' IHt]; intros c; [exists "", c; split; [reflexivity|now left]|]. destruct (IHt d) as (w & x & W & I). exists (String c w), x. split; [cbn; now rewrite W|]. cbn in I |- *. right. exact I. }
      destruct EX as (w & x & W & I). apply (N w x W). now apply A.
    - destruct t' as [|c' t']; [exists (String c t); reflexivity|]. cbn [append] in E. injection E as -> E. destruct (IH t' u u' E A) as (v & V); [intros w x W; apply (N (String c' w) x); cbn; now rewrite W|]. exists v. cbn. now rewrite V. }
  assert (L : forall x y : string, x = x ++ y -> y = "") by (intros x; induction x as [|c x IH]; intros y E; [auto|]; cbn in E; injection E as E; auto).
  intros s t t' (u & E & A & N) (u' & E' & A' & N'). destruct (G t t' u u') as (v & V); [congruence|exact A|exact N'|]. destruct (G t' t u' u) as (w & W); [congruence|exact A'|exact N|].
  assert (VW : v ++ w = "") by (apply (L t'); rewrite W at 1; rewrite V; clear; induction t' as [|c t' IH]; cbn; congruence). destruct v; [|discriminate]. rewrite V. clear. induction t' as [|c t' IH]; cbn; congruence.
Qed.
(** The classes and the width of their band. *)
Definition class_band (s : schema) (w : nat) : Prop := (s = observation /\ w = 10%nat) \/ (s = scheduled /\ w = 1%nat).
(** Rows with a band stay as they are; in others the band becomes the filter without underscores and
    digits at its end, as far as the field holds it, and nothing else changes. *)
Theorem C116_backfill : forall (a : array) w, class_band (cls F a) w -> (forall r, In r (rows F a) -> wf (cls F a) r) ->
  exists b, backfill_filter_from_band F a = Ok b /\ cls F b = cls F a /\ Forall2 (fun r q => wf (cls F a) q /\
    (forall k, k <> "band" -> get F q k = get F r k) /\
    (forall s, get F r "band" = Some (VStr F s) -> s <> "" -> get F q "band" = Some (VStr F s)) /\
    (forall fil t, get F r "band" = Some (VStr F "") -> get F r "filter" = Some (VStr F fil) -> is_strip fil t -> get F q "band" = Some (VStr F (substring 0 w t)))) (rows F a) (rows F b).
Proof.
  intros (s & rs) w CB H. cbn [cls rows] in *. assert (ND : NoDup (map fst s)) by (destruct CB as [(-> & _)|(-> & _)]; [apply observation_nodup|apply scheduled_nodup]). assert (IB : In ("band", TStr w) s) by (destruct CB as [(-> & ->)|(-> & ->)]; cbn; tauto). assert (IF : exists wf, In ("filter", TStr wf) s) by (destruct CB as [(-> & _)|(-> & _)]; eexists; cbn; intuition). destruct IF as (wf' & IF).
  unfold backfill_filter_from_band. cbn [cls rows]. match goal with |- exists b, bind (collect ?f rs) _ = _ /\ _ /\ Forall2 ?P _ _ => destruct (collect_ok _ _ f P rs) as (ys & EY & Q) end.
  - intros r I. specialize (H r I). destruct (wf_get s r "band" (TStr w) H ND IB) as (vb & GB & XB). destruct (wf_get s r "filter" (TStr wf') H ND IF) as (vf & GF & XF). destruct vb as [|?|band|]; try contradiction. destruct vf as [|?|fil|]; try contradiction. unfold backfill_row. rewrite GB, GF. destruct (String.eqb_spec band "") as [->|N].
    + destruct (put_spec s r "band" (TStr w) (VStr F (rstrip fil)) H ND IB (VStr F (substring 0 w (rstrip fil))) eq_refl (substring_len _ _)) as (q & P & W & G & O). exists q. split; [exact P|]. split; [exact W|]. split; [exact O|]. split; [intros x E NE; try rewrite GB in E; injection E as <-; contradiction|].
      intros fil' t _ E ST. try rewrite GF in E. injection E as <-. rewrite G. f_equal. f_equal. f_equal. exact (strip_unique fil _ _ (rstrip_spec fil) ST).
    + exists r. split; [reflexivity|]. split; [exact H|]. split; [reflexivity|]. split; [intros x E _; try rewrite GB in E; try rewrite GB; exact E|]. intros fil' t E. try rewrite GB in E. injection E as ->. contradiction.
  - exists (Array F s ys). rewrite EY. split; [reflexivity|]. split; [reflexivity|exact Q].
Qed.
(** Filling again changes nothing. *)
Theorem C116_again : forall (a : array) w b, class_band (cls F a) w -> (forall r, In r (rows F a) -> wf (cls F a) r) -> backfill_filter_from_band F a = Ok b -> backfill_filter_from_band F b = Ok b.
Proof.
  intros (s & rs) w b CB H E. cbn [cls rows] in *. assert (ND : NoDup (map fst s)) by (destruct CB as [(-> & _)|(-> & _)]; [apply observation_nodup|apply scheduled_nodup]). assert (IB : In ("band", TStr w) s) by (destruct CB as [(-> & ->)|(-> & ->)]; cbn; tauto). assert (IF : exists wf, In ("filter", TStr wf) s) by (destruct CB as [(-> & _)|(-> & _)]; eexists; cbn; intuition). destruct IF as (wf' & IF).
  unfold backfill_filter_from_band in *. cbn [cls rows] in *. assert (R : forall r q, wf s r -> backfill_row F s r = Ok q -> backfill_row F s q = Ok q).
  { intros r q W P. destruct (wf_get s r "band" (TStr w) W ND IB) as (vb & GB & XB). destruct (wf_get s r "filter" (TStr wf') W ND IF) as (vf & GF & XF). destruct vb as [|?|band|]; try contradiction. destruct vf as [|?|fil|]; try contradiction. unfold backfill_row in P. rewrite GB, GF in P. destruct (String.eqb_spec band "") as [->|N].
    - destruct (put_spec s r "band" (TStr w) (VStr F (rstrip fil)) W ND IB (VStr F (substring 0 w (rstrip fil))) eq_refl (substring_len _ _)) as (q' & P' & W' & G & O). rewrite P in P'. injection P' as <-. unfold backfill_row. rewrite G, (O "filter") by discriminate. rewrite GF. destruct (String.eqb_spec (substring 0 w (rstrip fil)) "") as [Z|Z]; [|reflexivity].
      assert (SAME : forall s' (r' : row) v, NoDup (map fst s') -> wf s' r' -> In ("band", TStr w) s' -> get F r' "band" = Some v -> cast F (TStr w) (VStr F (rstrip fil)) = Ok v -> put F s' r' "band" (VStr F (rstrip fil)) = Ok r').
      { clear. intros s' r' v ND W. revert ND. induction W as [|(k & t) (l & u) s' r' (E & X) W IH]; intros ND I G C; [destruct I|]. cbn [fst snd] in *. subst l. inversion ND as [|? ? NI ND']. subst. rewrite get_cons in G. cbn [put]. destruct (String.eqb_spec k "band") as [->|N].
        - injection G as ->. destruct I as [I|I]; [injection I as ->; rewrite C; reflexivity|destruct NI; now apply (in_map fst) in I].
        - destruct I as [I|I]; [congruence|]. rewrite IH by assumption. reflexivity. }
      apply (SAME s q (VStr F (substring 0 w (rstrip fil)))); auto.
    - injection P as <-. unfold backfill_row. rewrite GB, GF. destruct (String.eqb_spec band ""); [contradiction|reflexivity]. }
  destruct (collect (backfill_row F s) rs) as [ys|] eqn:EC; [|discriminate]. cbn [bind] in E. injection E as <-. cbn [cls rows]. assert (G : collect (backfill_row F s) ys = Ok ys); [|rewrite G; reflexivity].
  revert ys EC. induction rs as [|r rs IH]; intros ys EC; [injection EC as <-; reflexivity|]. cbn [collect] in EC. destruct (backfill_row F s r) as [q|] eqn:EQ; [|discriminate]. cbn [bind] in EC. destruct (collect (backfill_row F s) rs) as [qs|] eqn:EQS; [|discriminate]. cbn [bind] in EC. injection EC as <-. cbn [collect]. rewrite (R r q) by (auto; apply H; now left). cbn [bind]. rewrite (IH ltac:(intros; apply H; now right) qs eq_refl). reflexivity.
Qed.
(** In arrays of scheduled observations only the first letter is kept, so filling before conversion and
    after it differ. *)
Definition pinhole : array := Array F scheduled [map (fun kv => if String.eqb (fst kv) "filter" then (fst kv, VStr F "pinhole_2") else kv) (blank F f0 scheduled)].
Theorem C116_order_refuted : exists a b r q, bind (backfill_filter_from_band F pinhole) (to_observation_array F f0) = Ok a /\ bind (to_observation_array F f0 pinhole) (backfill_filter_from_band F) = Ok b /\
  rows F a = [r] /\ rows F b = [q] /\ get F r "band" = Some (VStr F "p") /\ get F q "band" = Some (VStr F "pinhole").
Proof. do 4 eexists. split; [vm_compute; reflexivity|]. split; [vm_compute; reflexivity|]. repeat split; reflexivity. Qed.
End Props.
Print Assumptions C116_tolist.
Print Assumptions C116_roundtrip.
Print Assumptions C116_join.
Print Assumptions C116_empty_refuted.
Print Assumptions C116_mixed.
Print Assumptions C116_convert.
Print Assumptions C116_filter_refuted.
Print Assumptions C116_backfill.
Print Assumptions C116_again.
Print Assumptions C116_order_refuted.

(** The usual names: "r_03" is in band "r", and a band that is there stays. *)
Definition ex_row (band fil : string) : row Z := map (fun kv => if String.eqb (fst kv) "filter" then (fst kv, VStr Z fil) else if String.eqb (fst kv) "band" then (fst kv, VStr Z band) else kv) (blank Z 0%Z observation).
Example C116_backfill_ex : exists b, backfill_filter_from_band Z (Array Z observation [ex_row "" "r_03"; ex_row "g" "r_03"]) = Ok b /\ map (fun r => get Z r "band") (rows Z b) = [Some (VStr Z "r"); Some (VStr Z "g")] /\ is_strip "r_03" "r".
Proof.
  eexists. split; [vm_compute; reflexivity|]. split; [reflexivity|]. exists "_03". split; [reflexivity|]. split; [intros c I; cbn in I |- *; intuition|]. intros [|d t'] c E; cbn in E; [|injection E as _ E; destruct t'; discriminate]. injection E as <-. cbn. intuition discriminate.
Qed.
Example C116_rows_ex : forall r, In r (rows Z (Array Z observation [ex_row "" "r_03"; ex_row "g" "r_03"])) -> wf Z observation r.
Proof. intros r [<-|[<-|[]]]; repeat (constructor; [cbn; split; [reflexivity|first [exact I|lia]]|]); constructor. Qed.
Example C116_convert_ex : exists b, to_observation_array Z 0%Z (Array Z scheduled [map (fun kv => if String.eqb (fst kv) "filter" then (fst kv, VStr Z "i_39") else if String.eqb (fst kv) "RA" then (fst kv, VFloat Z 7%Z) else kv) (blank Z 0%Z scheduled)]) = Ok b /\
  map (fun r => (get Z r "filter", get Z r "RA", get Z r "airmass")) (rows Z b) = [(Some (VStr Z "i_39"), Some (VFloat Z 7%Z), Some (VFloat Z 0%Z))].
Proof. eexists. split; vm_compute; reflexivity. Qed.
