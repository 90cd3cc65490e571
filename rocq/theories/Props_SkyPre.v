(** C94: stored sky brightness maps are interpolated between the two maps around the
    time, whatever was asked before, and masked pixels are filled from the nearest. *)
From Coq Require Import List ZArith QArith Qround Qabs Bool String Lia Lqa.
From Verif Require Import Base Bisect Script Script_proofs TimeGate_proofs SiteData SiteData_proofs Surveys SkyPre SkyPre_proofs.
Import ListNotations.
Open Scope nat_scope.

(** ** Angles *)
(** Between two points the angle moves along the shorter arc; outside, it is that of the
    nearest point; it is always within a turn. *)
Theorem C94_angle_inside : forall tw x xp ap j xl xr al ar, (0 < tw)%Q -> increasing xp -> nth_error xp j = Some xl -> nth_error xp (S j) = Some xr -> nth_error ap j = Some al -> nth_error ap (S j) = Some ar ->
  (xl < x)%Q -> (x <= xr)%Q ->
  exists r d (k n : Z), interp_angle tw x xp ap = Ok r /\ (0 <= r)%Q /\ (r < tw)%Q /\ (r == al + d * ((x - xl) / (xr - xl)) + inject_Z n * tw)%Q /\
    (d == ar - al + inject_Z k * tw)%Q /\ (- tw <= 2 * d)%Q /\ (2 * d < tw)%Q.
Proof.
  intros tw x xp ap j xl xr al ar T H A B C D L U. unfold interp_angle. rewrite (search_bracket xp x j xl xr H A B L U). cbn [Nat.eqb].
  assert (Lt : S j < List.length xp) by (apply nth_error_Some; congruence). apply Nat.ltb_lt in Lt. rewrite Lt. replace (S j - 1) with j by lia. rewrite A, B, C, D.
  destruct (Qeq_bool (xr - xl) 0) eqn:E; [apply Qeq_bool_iff in E; exfalso; lra|]. destruct (short_spec tw al ar T) as (S1 & S2 & k & S3).
  set (w := ((x - xl) / (xr - xl))%Q). destruct (Qmod_range (al + short_dist tw al ar * w) tw T) as [R1 R2]. destruct (Qmod_shift (al + short_dist tw al ar * w) tw T) as [n N].
  eexists; exists (short_dist tw al ar), k, n. split; [reflexivity|]. split; [exact R1|]. split; [exact R2|]. split; [exact N|]. split; [exact S3|]. split; assumption.
Qed.
Print Assumptions C94_angle_inside.
Lemma short_self : forall tw a, (0 < tw)%Q -> (short_dist tw a a == 0)%Q.
Proof.
  intros tw a T. unfold short_dist. assert (E : (Qmod (a - a) tw == 0)%Q) by (rewrite (Qmod_compat (a - a) 0 tw) by lra; apply Qmod_small'; lra).
  rewrite (Qmod_compat (2 * Qmod (a - a) tw) 0 tw) by lra. rewrite (Qmod_small' 0 tw T) by lra. lra.
Qed.
Theorem C94_angle_outside : forall tw x xp ap, (0 < tw)%Q -> increasing xp -> xp <> [] -> List.length ap = List.length xp ->
  ((forall i y, nth_error xp i = Some y -> (x <= y)%Q) -> exists r (n : Z), interp_angle tw x xp ap = Ok r /\ (0 <= r)%Q /\ (r < tw)%Q /\ (r == nth 0 ap 0 + inject_Z n * tw)%Q) /\
  ((forall i y, nth_error xp i = Some y -> (y < x)%Q) -> exists r (n : Z), interp_angle tw x xp ap = Ok r /\ (0 <= r)%Q /\ (r < tw)%Q /\ (r == nth (List.length xp - 1) ap 0 + inject_Z n * tw)%Q).
Proof.
  intros tw x xp ap T H Ne Len. assert (Lp : 0 < List.length xp) by (destruct xp; [congruence|cbn; lia]).
  assert (Core : forall i, i < List.length xp -> exists xi ai, nth_error xp i = Some xi /\ nth_error ap i = Some ai /\ ai = nth i ap 0%Q).
  { intros i L. destruct (nth_error xp i) as [xi|] eqn:E1; [|apply nth_error_None in E1; lia]. destruct (nth_error ap i) as [ai|] eqn:E2; [|apply nth_error_None in E2; lia]. exists xi, ai. split; [reflexivity|]. split; [reflexivity|]. symmetry. apply nth_error_nth. exact E2. }
  assert (Fin : forall (xi ai w : Q), (if Qeq_bool (xi - xi) 0 then 0%Q else w) = 0%Q) by (intros xi ai w; replace (Qeq_bool (xi - xi) 0) with true by (symmetry; apply Qeq_bool_iff; lra); reflexivity).
  assert (Val : forall ai, (Qmod (ai + short_dist tw ai ai * 0) tw == Qmod ai tw)%Q) by (intros ai; apply Qmod_compat; lra).
  split; intros A; unfold interp_angle.
  - rewrite (search_before xp x H A). cbn [Nat.eqb]. apply Nat.ltb_lt in Lp. rewrite Lp. apply Nat.ltb_lt in Lp. destruct (Core 0 Lp) as (xi & ai & E1 & E2 & E3). rewrite E1, E2. rewrite (Fin xi ai). destruct (Qmod_range ai tw T) as [R1 R2]. destruct (Qmod_shift ai tw T) as [n N].
    eexists. exists n. split; [reflexivity|]. rewrite Val. split; [exact R1|]. split; [exact R2|]. rewrite N, E3. reflexivity.
  - rewrite (search_after xp x H A). destruct (Nat.eqb_spec (List.length xp) 0) as [X|X]; [lia|]. rewrite Nat.ltb_irrefl. destruct (Core (List.length xp - 1) ltac:(lia)) as (xi & ai & E1 & E2 & E3). rewrite E1, E2. rewrite (Fin xi ai). destruct (Qmod_range ai tw T) as [R1 R2]. destruct (Qmod_shift ai tw T) as [n N].
    eexists. exists n. split; [reflexivity|]. rewrite Val. split; [exact R1|]. split; [exact R2|]. rewrite N, E3. reflexivity.
Qed.
Print Assumptions C94_angle_outside.
Example C94_ex_angle : (exists r, interp_angle 360 (1 # 2) [0; 1; 2]%Q [350; 20; 200]%Q = Ok r /\ (r == 5)%Q) /\ (exists r, interp_angle 360 5 [0; 1; 2]%Q [350; 20; 200]%Q = Ok r /\ (r == 200)%Q) /\
  (exists r, interp_angle 360 (-1) [0; 1; 2]%Q [350; 20; 200]%Q = Ok r /\ (r == 350)%Q).
Proof. split; [|split]; eexists; (split; [vm_compute; reflexivity|vm_compute; reflexivity]). Qed.

(** ** Maps *)
Section S.
Variable files : list sfile.
Variables len len0 t0 : Q.
Variables (sun_alt : Q -> Q) (sun_limit : Q) (pix_alt : Q -> nat -> Q) (dist : nat -> nat -> Q) (npix : nat).
Let ask := ask files len sun_alt sun_limit pix_alt dist npix.
(** The object after construction and any questions. *)
Let after (ts : list Q) : sky := asked files len sun_alt sun_limit pix_alt dist npix (fst (load files len0 unloaded t0)) ts.
Let mjds (k : loaded) : list Q := f_mjds (k_file k).

Lemma after_good : forall ts t i b bs x k v, ask (after ts) t i b bs x = (Ready k, v) -> good_loaded files k.
Proof.
  intros ts t i b bs x k v H. assert (G : good_sky files (fst (ask (after ts) t i b bs x))).
  { unfold ask. rewrite ask_state. apply refresh_good. unfold after. apply asked_good. destruct (load_good files len0 unloaded t0) as [X|X]; [exact X|rewrite X; exact I]. }
  rewrite H in G. exact G.
Qed.
Lemma after_mags : forall ts t i b bs x k v, ask (after ts) t i b bs x = (Ready k, Ok v) -> mags sun_alt sun_limit pix_alt dist npix k t i b bs x = Ok v.
Proof.
  intros ts t i b bs x k v H. unfold ask, SkyPre.ask in H. destruct (refresh files len (after ts) t) as [[k'|lo hi e] [u|e']]; try discriminate. injection H as -> H. exact H.
Qed.
Lemma nth_map2 : forall A B (f : string -> list A -> list B) (g : A -> B) bands pix bi pi band p d, (forall b l, f b l = map g l) -> nth_error bands bi = Some band -> nth_error pix pi = Some p ->
  nth pi (nth bi (map (fun b => f b pix) bands) []) d = g p.
Proof.
  intros A B f g bands pix bi pi band p d E Hb Hp. assert (Eb : nth_error (map (fun b => f b pix) bands) bi = Some (f band pix)) by (rewrite nth_error_map, Hb; reflexivity). rewrite (nth_error_nth _ _ _ Eb), E.
  assert (Ep : nth_error (map g pix) pi = Some (g p)) by (rewrite nth_error_map, Hp; reflexivity). apply nth_error_nth. exact Ep.
Qed.

(** Between two loaded maps no further apart than a step the answer is on the line
    through the two values. *)
Theorem C94_interp_partial : forall ts t pix bad bands k vals j ml mr bi pi band p a b,
  ask (after ts) t (Some pix) bad bands false = (Ready k, Ok vals) -> increasing (mjds k) -> k_from k <= j -> S j < k_to k ->
  nth_error (mjds k) j = Some ml -> nth_error (mjds k) (S j) = Some mr -> (ml < t)%Q -> (t <= mr)%Q -> (mr - ml <= f_step (k_file k) + (1 # 1000000))%Q ->
  nth_error bands bi = Some band -> nth_error pix pi = Some p -> f_map (k_file k) band j p = EFin a -> f_map (k_file k) band (S j) p = EFin b ->
  exists q, nth pi (nth bi vals []) ENaN = EFin q /\ (q == a + (b - a) * ((t - ml) / (mr - ml)))%Q /\ ((a <= b -> a <= q /\ q <= b) /\ (b <= a -> b <= q /\ q <= a))%Q /\ (t == mr -> q == b)%Q.
Proof.
  intros ts t pix bad bands k vals j ml mr bi pi band p a b H Inc L1 L2 A B C D St Hb Hp Ma Mb. pose proof (after_good _ _ _ _ _ _ _ _ H) as G. apply after_mags in H. unfold mags in H.
  rewrite (sides_inside files k t j ml mr G Inc L1 L2 A B C D) in H. cbn [bind andb] in H. injection H as <-. unfold values.
  replace (Qltb (f_step (k_file k) + (1 # 1000000)) (mr - ml)) with false by (symmetry; apply Qltb_false; exact St).
  rewrite (nth_error_nth (map _ bands) bi [] (x := map (fun p0 => er_add (er_scale (f_map (k_file k) band (k_from k + (j - k_from k)) p0) (1 - (t - nth (j - k_from k) (k_mjds k) 0%Q) / (mr - ml))%Q) (er_scale (f_map (k_file k) band (k_from k + (S j - k_from k)) p0) ((t - nth (j - k_from k) (k_mjds k) 0%Q) / (mr - ml))%Q)) pix)) by (rewrite nth_error_map, Hb; reflexivity).
  rewrite (nth_error_nth (map _ pix) pi ENaN (x := er_add (er_scale (f_map (k_file k) band (k_from k + (j - k_from k)) p) (1 - (t - nth (j - k_from k) (k_mjds k) 0%Q) / (mr - ml))%Q) (er_scale (f_map (k_file k) band (k_from k + (S j - k_from k)) p) ((t - nth (j - k_from k) (k_mjds k) 0%Q) / (mr - ml))%Q))) by (rewrite nth_error_map, Hp; reflexivity).
  assert (N : nth (j - k_from k) (k_mjds k) 0%Q = ml) by (apply nth_error_nth; rewrite slice_nth by lia; replace (k_from k + (j - k_from k)) with j by lia; exact A).
  rewrite N. replace (k_from k + (j - k_from k)) with j by lia. replace (k_from k + (S j - k_from k)) with (S j) by lia. rewrite Ma, Mb. cbn [er_scale er_add].
  assert (W : ((t - ml) / (mr - ml) * (mr - ml) == t - ml)%Q) by (field; lra). set (w := ((t - ml) / (mr - ml))%Q) in *. clearbody w. assert (W0 : (0 <= w)%Q) by nra. assert (W1 : (w <= 1)%Q) by nra.
  eexists. split; [reflexivity|]. split; [ring|]. split; [split; intros X; split; nra|]. intros X. assert (w == 1)%Q by nra. rewrite H. ring.
Qed.

(** Just after a reload the two maps are loaded, unless the next map is the last one
    within the length loaded. *)
Theorem C94_reload : forall s t f j ml mr mn, load_what files t = Ok (f, t) -> increasing (f_mjds f) ->
  nth_error (f_mjds f) j = Some ml -> nth_error (f_mjds f) (S j) = Some mr -> nth_error (f_mjds f) (S (S j)) = Some mn -> (ml < t)%Q -> (t <= mr)%Q -> (mn <= t + len)%Q ->
  exists k, load files len s t = (Ready k, Ok tt) /\ k_file k = f /\ k_from k <= j /\ S j < k_to k.
Proof.
  intros s t f j ml mr mn E Inc A B C L U W. unfold load. rewrite E. pose proof (np_where_spec Q (fun m => Qle_bool t m && Qle_bool m (t + len)) (f_mjds f)) as Sp.
  assert (I : In (S (S j)) (np_where (fun m => Qle_bool t m && Qle_bool m (t + len)) (f_mjds f))).
  { apply Sp. exists mn. split; [exact C|]. pose proof (Inc (S j) (S (S j)) mr mn ltac:(lia) B C). apply andb_true_iff. split; apply Qle_bool_iff; lra. }
  destruct (np_where _ (f_mjds f)) as [|i r] eqn:Ew; [contradiction|]. destruct (where_last _ _ _ _ Ew) as (X1 & X2 & X3 & (xi & X4 & X5) & X6 & X7). apply andb_true_iff in X5. destruct X5 as [X5 _]. apply Qle_bool_iff in X5.
  assert (Hi : i = S j).
  { destruct (lt_eq_lt_dec i (S j)) as [[Y|Y]|Y]; [|exact Y|].
    - exfalso. destruct (Nat.eq_dec i j) as [->|N]; [rewrite A in X4; injection X4 as ->; lra|]. pose proof (Inc i j xi ml ltac:(lia) X4 A). lra.
    - exfalso. pose proof (X3 (S j) Y mr B) as Z. pose proof (Inc (S j) (S (S j)) mr mn ltac:(lia) B C). assert (Qle_bool t mr && Qle_bool mr (t + len) = true) by (apply andb_true_iff; split; apply Qle_bool_iff; lra). congruence. }
  assert (Hl : S (S j) <= last r i).
  { destruct (Nat.le_gt_cases (S (S j)) (last r i)) as [Y|Y]; [exact Y|]. exfalso. pose proof (X7 _ _ Y C) as Z. pose proof (Inc (S j) (S (S j)) mr mn ltac:(lia) B C). assert (Qle_bool t mn && Qle_bool mn (t + len) = true) by (apply andb_true_iff; split; apply Qle_bool_iff; lra). congruence. }
  cbv zeta. destruct (Nat.eqb_spec (i - 1) (last r i)) as [Y|Y]; [lia|]. eexists. split; [reflexivity|]. cbn. split; [reflexivity|]. split; lia.
Qed.

(** Two histories with the same file loaded around the time give the same answer. *)
Theorem C94_history_partial : forall ts ts' t pix bad bands x k k' v v' j ml mr,
  ask (after ts) t pix bad bands x = (Ready k, v) -> ask (after ts') t pix bad bands x = (Ready k', v') -> k_file k = k_file k' -> increasing (mjds k) ->
  nth_error (mjds k) j = Some ml -> nth_error (mjds k) (S j) = Some mr -> (ml < t)%Q -> (t <= mr)%Q -> k_from k <= j -> S j < k_to k -> k_from k' <= j -> S j < k_to k' -> v = v'.
Proof.
  intros ts ts' t pix bad bands x k k' v v' j ml mr H H' F Inc A B C D L1 L2 L3 L4. pose proof (after_good _ _ _ _ _ _ _ _ H) as G. pose proof (after_good _ _ _ _ _ _ _ _ H') as G'.
  assert (Ev : forall ts k v, ask (after ts) t pix bad bands x = (Ready k, v) -> v = mags sun_alt sun_limit pix_alt dist npix k t pix bad bands x \/ exists u e, refresh files len (after ts) t = (Ready k, Raise e) /\ v = Raise e /\ u = tt).
  { intros ts1 k1 v1 E. unfold ask, SkyPre.ask in E. destruct (refresh files len (after ts1) t) as [[k2|lo hi e] [u|e']] eqn:Er; try discriminate; injection E as -> E; [left; congruence|right; exists tt, e'; split; [reflexivity|split; [congruence|reflexivity]]]. }
  assert (NoR : forall ts k e, refresh files len (after ts) t = (Ready k, Raise e) -> good_loaded files k -> k_from k <= j -> S j < k_to k -> increasing (mjds k) -> nth_error (mjds k) j = Some ml -> nth_error (mjds k) (S j) = Some mr -> False).
  { intros ts1 k1 e E G1 M1 M2 I1 A1 B1. unfold refresh in E. destruct (_ || _) eqn:Or; [|discriminate]. assert (Ks : after ts1 = Ready k1).
    { unfold load in E. destruct (load_what files t) as [[f t']|e']; [|injection E as -> _; reflexivity]. destruct (np_where _ _); [discriminate|]. cbv zeta in E. destruct (Nat.eqb _ _); discriminate. }
    rewrite Ks in Or. cbn [range_of fst snd] in Or. apply orb_true_iff in Or. pose proof G1 as (_ & Lt & Lt2). unfold mjds in *.
    destruct (nth_error (f_mjds (k_file k1)) (k_from k1)) as [mf|] eqn:Ef; [|apply nth_error_None in Ef; lia]. destruct (nth_error (f_mjds (k_file k1)) (k_to k1)) as [mt|] eqn:Et; [|apply nth_error_None in Et; lia].
    rewrite (nth_error_nth _ _ _ Ef), (nth_error_nth _ _ _ Et) in Or. assert (P1 : (mf <= ml)%Q) by (destruct (Nat.eq_dec (k_from k1) j) as [Y|Y]; [rewrite Y in Ef; rewrite A1 in Ef; injection Ef as ->; apply Qle_refl|pose proof (I1 (k_from k1) j mf ml ltac:(lia) Ef A1); lra]).
    pose proof (I1 (S j) (k_to k1) mr mt ltac:(lia) B1 Et). destruct Or as [Or|Or]; apply Qltb_lt in Or; lra. }
  unfold mjds in *. destruct (Ev _ _ _ H) as [V|(u & e & V & _)]; [|exfalso; eapply NoR; try exact V; eassumption].
  assert (Inc' : increasing (f_mjds (k_file k'))) by (rewrite <- F; exact Inc). assert (A' : nth_error (f_mjds (k_file k')) j = Some ml) by (rewrite <- F; exact A). assert (B' : nth_error (f_mjds (k_file k')) (S j) = Some mr) by (rewrite <- F; exact B).
  destruct (Ev _ _ _ H') as [V'|(u & e & V' & _)]; [|exfalso; eapply NoR; try exact V'; eassumption].
  rewrite V, V'. unfold mags. rewrite (sides_inside files k t j ml mr G Inc L1 L2 A B C D), (sides_inside files k' t j ml mr G' Inc' L3 L4 A' B' C D). cbn [bind].
  assert (Vl : forall bd px b, values sun_alt sun_limit pix_alt k t bd (j - k_from k, S j - k_from k, (mr - ml)%Q) px b = values sun_alt sun_limit pix_alt k' t bd (j - k_from k', S j - k_from k', (mr - ml)%Q) px b).
  { intros bd px b. unfold values. rewrite <- F. destruct (Qltb _ (mr - ml)).
    - destruct (Qltb _ _); [reflexivity|]. assert (Cl : k_from k + closest (k_mjds k) t (j - k_from k) (S j - k_from k) = k_from k' + closest (k_mjds k') t (j - k_from k') (S j - k_from k')).
      { unfold closest. assert (N1 : nth (j - k_from k) (k_mjds k) 0%Q = ml) by (apply nth_error_nth; rewrite slice_nth by lia; replace (k_from k + (j - k_from k)) with j by lia; exact A).
        assert (N2 : nth (S j - k_from k) (k_mjds k) 0%Q = mr) by (apply nth_error_nth; rewrite slice_nth by lia; replace (k_from k + (S j - k_from k)) with (S j) by lia; exact B).
        assert (N3 : nth (j - k_from k') (k_mjds k') 0%Q = ml) by (apply nth_error_nth; rewrite slice_nth by lia; replace (k_from k' + (j - k_from k')) with j by lia; exact A').
        assert (N4 : nth (S j - k_from k') (k_mjds k') 0%Q = mr) by (apply nth_error_nth; rewrite slice_nth by lia; replace (k_from k' + (S j - k_from k')) with (S j) by lia; exact B').
        rewrite N1, N2, N3, N4. destruct (Qle_bool _ _); lia. }
      rewrite Cl. reflexivity.
    - assert (N1 : nth (j - k_from k) (k_mjds k) 0%Q = ml) by (apply nth_error_nth; rewrite slice_nth by lia; replace (k_from k + (j - k_from k)) with j by lia; exact A).
      assert (N3 : nth (j - k_from k') (k_mjds k') 0%Q = ml) by (apply nth_error_nth; rewrite slice_nth by lia; replace (k_from k' + (j - k_from k')) with j by lia; exact A').
      rewrite N1, N3. replace (k_from k + (j - k_from k)) with j by lia. replace (k_from k + (S j - k_from k)) with (S j) by lia. replace (k_from k' + (j - k_from k')) with j by lia. replace (k_from k' + (S j - k_from k')) with (S j) by lia. reflexivity. }
  destruct pix as [px|]; [|f_equal; apply map_ext; intros b; apply Vl].
  rewrite (map_ext _ _ (Vl bad px) bands). cbv zeta. destruct (x && _); [|reflexivity]. destruct bands as [|b0 bs]; [reflexivity|]. cbn [map].
  rewrite (Vl (EFin unseen) (seq 0 npix) b0). set (g := np_where _ (values sun_alt sun_limit pix_alt k' t (EFin unseen) (j - k_from k', S j - k_from k', (mr - ml)%Q) (seq 0 npix) b0)). clearbody g.
  set (m := np_where _ _). clearbody m.
  assert (Mx : forall l, map (fun bv => fill_band dist (fun p => nth p (values sun_alt sun_limit pix_alt k t (EFin unseen) (j - k_from k, S j - k_from k, (mr - ml)%Q) (seq 0 npix) (fst bv)) ENaN) g px 0 m (snd bv)) l
                         = map (fun bv => fill_band dist (fun p => nth p (values sun_alt sun_limit pix_alt k' t (EFin unseen) (j - k_from k', S j - k_from k', (mr - ml)%Q) (seq 0 npix) (fst bv)) ENaN) g px 0 m (snd bv)) l)
    by (intros l; apply map_ext; intros [b v2]; cbn [fst snd]; rewrite (Vl (EFin unseen) (seq 0 npix) b); reflexivity).
  rewrite Mx. reflexivity.
Qed.

Lemma ok_inj : forall (a b : list (list er)), Ok a = Ok b -> b = a.
Proof. congruence. Qed.
(** Values of one answer at one pixel. *)
Lemma values_nth : forall (g : string -> nat -> er) (f : string -> list er) bands pix bi pi band p, (forall b, f b = map (g b) pix) -> nth_error bands bi = Some band -> nth_error pix pi = Some p ->
  nth pi (nth bi (map f bands) []) ENaN = g band p.
Proof.
  intros g f bands pix bi pi band p E Hb Hp. assert (Eb : nth_error (map f bands) bi = Some (f band)) by (rewrite nth_error_map, Hb; reflexivity). rewrite (nth_error_nth _ _ _ Eb), E.
  assert (Ep : nth_error (map (g band) pix) pi = Some (g band p)) by (rewrite nth_error_map, Hp; reflexivity). apply nth_error_nth. exact Ep.
Qed.

(** Between maps further apart than a step: with the sun down, the closest map, the
    earlier one if they are as close; with the sun up, 2 above altitude 20. *)
Theorem C94_gap : forall ts t pix bad bands k vals j ml mr bi pi band p,
  ask (after ts) t (Some pix) bad bands false = (Ready k, Ok vals) -> increasing (mjds k) -> k_from k <= j -> S j < k_to k ->
  nth_error (mjds k) j = Some ml -> nth_error (mjds k) (S j) = Some mr -> (ml < t)%Q -> (t <= mr)%Q -> (f_step (k_file k) + (1 # 1000000) < mr - ml)%Q ->
  nth_error bands bi = Some band -> nth_error pix pi = Some p ->
  ((sun_limit < sun_alt t)%Q -> ((20 < pix_alt t p)%Q -> nth pi (nth bi vals []) ENaN = EFin 2) /\ ((pix_alt t p <= 20)%Q -> nth pi (nth bi vals []) ENaN = ENaN)) /\
  ((sun_alt t <= sun_limit)%Q -> forall c, c = (if Qle_bool (t - ml) (mr - t) then j else S j) ->
     match f_map (k_file k) band c p with
     | EFin q => nth pi (nth bi vals []) ENaN = if Qeq_bool q unseen then bad else EFin q
     | ENaN => nth pi (nth bi vals []) ENaN = ENaN
     | EPInf | ENInf => nth pi (nth bi vals []) ENaN = bad
     end).
Proof.
  intros ts t pix bad bands k vals j ml mr bi pi band p H Inc L1 L2 A B C D St Hb Hp. pose proof (after_good _ _ _ _ _ _ _ _ H) as G. apply after_mags in H. unfold mags in H.
  rewrite (sides_inside files k t j ml mr G Inc L1 L2 A B C D) in H. cbn [bind andb] in H. apply ok_inj in H; subst vals. apply Qltb_lt in St.
  assert (N1 : nth (j - k_from k) (k_mjds k) 0%Q = ml) by (apply nth_error_nth; rewrite slice_nth by lia; replace (k_from k + (j - k_from k)) with j by lia; exact A).
  assert (N2 : nth (S j - k_from k) (k_mjds k) 0%Q = mr) by (apply nth_error_nth; rewrite slice_nth by lia; replace (k_from k + (S j - k_from k)) with (S j) by lia; exact B).
  split; intros Sun.
  - apply Qltb_lt in Sun. rewrite (values_nth (fun _ p => if Qltb 20 (pix_alt t p) then EFin 2 else ENaN) _ bands pix bi pi band p) by (try eassumption; intros b; unfold values; rewrite St, Sun; reflexivity).
    split; intros X; [apply Qltb_lt in X|apply Qltb_false in X]; rewrite X; reflexivity.
  - apply Qltb_false in Sun. intros c Ec. assert (Ecc : k_from k + closest (k_mjds k) t (j - k_from k) (S j - k_from k) = c).
    { unfold closest. rewrite N1, N2. assert (Q1 : (Qabs (ml - t) == t - ml)%Q) by (rewrite Qabs_neg by lra; lra). assert (Q2 : (Qabs (mr - t) == mr - t)%Q) by (rewrite Qabs_pos by lra; lra).
      rewrite Ec. destruct (Qle_bool (t - ml) (mr - t)) eqn:E1, (Qle_bool (Qabs (ml - t)) (Qabs (mr - t))) eqn:E2; try lia.
      - apply Qle_bool_iff in E1. apply Qle_bool_false in E2. exfalso. lra.
      - apply Qle_bool_false in E1. apply Qle_bool_iff in E2. exfalso. lra. }
    rewrite (values_nth (fun b p => clean bad (f_map (k_file k) b c p)) _ bands pix bi pi band p) by (try eassumption; intros b; unfold values; rewrite St, Sun; cbv beta zeta; rewrite Ecc; reflexivity).
    destruct (f_map (k_file k) band c p) as [| |q|]; unfold clean; cbn [is_inf er_eqb]; try reflexivity; destruct (er_eqb bad (EFin unseen)); reflexivity.
Qed.

(** Past the last loaded map, still in the range taken as loaded: that map. *)
Theorem C94_edge : forall ts t pix bad bands k vals ml bi pi band p a,
  ask (after ts) t (Some pix) bad bands false = (Ready k, Ok vals) -> increasing (mjds k) -> nth_error (mjds k) (k_to k - 1) = Some ml -> (ml < t)%Q -> (sun_alt t <= sun_limit)%Q ->
  nth_error bands bi = Some band -> nth_error pix pi = Some p -> f_map (k_file k) band (k_to k - 1) p = EFin a -> (~ a == unseen)%Q ->
  exists q, nth pi (nth bi vals []) ENaN = EFin q /\ (q == a)%Q.
Proof.
  intros ts t pix bad bands k vals ml bi pi band p a H Inc A C Sun Hb Hp Ma Ne. pose proof (after_good _ _ _ _ _ _ _ _ H) as G. apply after_mags in H. unfold mags in H. pose proof G as (_ & L1 & L2).
  destruct (Qlt_le_dec (t - ml) (3 # 4)) as [D|D].
  - rewrite (sides_after files k t ml G Inc A C D) in H. cbn [bind andb] in H. injection H as <-. apply Qltb_false in Sun.
    destruct (Qltb (f_step (k_file k) + (1 # 1000000)) 1) eqn:St.
    + rewrite (values_nth (fun b p => clean bad (f_map (k_file k) b (k_to k - 1) p)) _ bands pix bi pi band p) by (try eassumption; intros b; unfold values; rewrite St, Sun; cbv beta zeta; unfold closest; destruct (Qle_bool _ _); replace (k_from k + (k_to k - 1 - k_from k)) with (k_to k - 1) by lia; reflexivity).
      rewrite Ma. unfold clean. cbn [is_inf er_eqb]. destruct (Qeq_bool a unseen) eqn:E; [apply Qeq_bool_iff in E; contradiction|]. exists a. split; reflexivity.
    + set (w := ((t - nth (k_to k - 1 - k_from k) (k_mjds k) 0%Q) / 1)%Q).
      rewrite (values_nth (fun b p => er_add (er_scale (f_map (k_file k) b (k_to k - 1) p) (1 - w)) (er_scale (f_map (k_file k) b (k_to k - 1) p) w)) _ bands pix bi pi band p) by (try eassumption; intros b; unfold values; rewrite St; cbv beta zeta; replace (k_from k + (k_to k - 1 - k_from k)) with (k_to k - 1) by lia; reflexivity).
      rewrite Ma. cbn [er_scale er_add]. eexists. split; [reflexivity|]. ring.
  - exfalso. unfold sides in H. assert (A' : nth_error (k_mjds k) (k_to k - 1 - k_from k) = Some ml) by (rewrite slice_nth by lia; replace (k_from k + (k_to k - 1 - k_from k)) with (k_to k - 1) by lia; exact A).
    rewrite (search_after (k_mjds k) t) in H; [| apply (slice_inc files); assumption|].
    + rewrite Nat.leb_refl in H. rewrite (slice_len files k G) in H. replace (k_to k - k_from k - 1) with (k_to k - 1 - k_from k) in H by lia. rewrite (nth_of _ _ _ A') in H. apply Qltb_false in D. rewrite D in H. discriminate.
    + intros i x E. assert (Li : i < k_to k - k_from k) by (rewrite <- (slice_len files k G); apply nth_error_Some; congruence). destruct (Nat.eq_dec i (k_to k - 1 - k_from k)) as [->|N]; [congruence|].
      pose proof (slice_inc files k G Inc i (k_to k - 1 - k_from k) x ml ltac:(lia) E A'). lra.
Qed.

(** With maps less than three quarters of a day apart a time in the loaded range never
    fails the assertions. *)
Theorem C94_answers : forall ts k t pix bad bands, after ts = Ready k -> increasing (mjds k) -> (forall j ml mr, nth_error (mjds k) j = Some ml -> nth_error (mjds k) (S j) = Some mr -> mr - ml < 3 # 4)%Q ->
  (fst (range_of (Ready k)) <= t)%Q -> (t <= snd (range_of (Ready k)))%Q -> exists vals, ask (after ts) t pix bad bands false = (Ready k, Ok vals).
Proof.
  intros ts k t pix bad bands E Inc Gap Lo Hi. assert (G : good_loaded files k). { assert (X : good_sky files (after ts)) by (unfold after; apply asked_good; destruct (load_good files len0 unloaded t0) as [X|X]; [exact X|rewrite X; exact I]). rewrite E in X. exact X. }
  unfold ask, SkyPre.ask, refresh. rewrite E. replace (Qltb t (fst (range_of (Ready k)))) with false by (symmetry; apply Qltb_false; exact Lo). replace (Qltb (snd (range_of (Ready k))) t) with false by (symmetry; apply Qltb_false; exact Hi). cbn [orb].
  assert (S : exists x, sides (k_mjds k) t = Ok x).
  { cbn [range_of fst snd] in Lo, Hi. pose proof G as (_ & L1 & L2). unfold mjds in *. destruct (nth_error (f_mjds (k_file k)) (k_from k)) as [mf|] eqn:Ef; [|apply nth_error_None in Ef; lia]. destruct (nth_error (f_mjds (k_file k)) (k_to k)) as [mt|] eqn:Et; [|apply nth_error_None in Et; lia].
    rewrite (nth_error_nth _ _ _ Ef) in Lo. rewrite (nth_error_nth _ _ _ Et) in Hi. destruct (Qlt_le_dec mf t) as [X|X]; [|eexists; apply (sides_before files k t mf G Inc Ef X); lra].
    destruct (nth_error (f_mjds (k_file k)) (k_to k - 1)) as [ml|] eqn:El; [|apply nth_error_None in El; lia]. destruct (Qlt_le_dec ml t) as [Y|Y].
    - eexists. apply (sides_after files k t ml G Inc El Y). assert (Z : k_to k = Datatypes.S (k_to k - 1)) by lia. rewrite Z in Et. pose proof (Gap _ _ _ El Et). lra.
    - assert (Br : forall n, k_from k + n < k_to k -> (exists j ml mr, k_from k <= j /\ Datatypes.S j < k_to k /\ nth_error (f_mjds (k_file k)) j = Some ml /\ nth_error (f_mjds (k_file k)) (Datatypes.S j) = Some mr /\ (ml < t)%Q /\ (t <= mr)%Q) \/ forall m, nth_error (f_mjds (k_file k)) (k_from k + n) = Some m -> (m < t)%Q).
      { induction n as [|n IH]; intros L; [right; intros m Em; rewrite Nat.add_0_r in Em; congruence|]. destruct IH as [IH|IH]; [lia|left; exact IH|].
        destruct (nth_error (f_mjds (k_file k)) (k_from k + n)) as [m1|] eqn:E1; [|apply nth_error_None in E1; lia]. destruct (nth_error (f_mjds (k_file k)) (k_from k + Datatypes.S n)) as [m2|] eqn:E2; [|apply nth_error_None in E2; lia].
        destruct (Qlt_le_dec m2 t) as [W|W]; [right; intros m Em; congruence|]. left. exists (k_from k + n), m1, m2. rewrite Nat.add_succ_r in E2. split; [lia|]. split; [lia|]. split; [exact E1|]. split; [exact E2|]. split; [apply IH; reflexivity|exact W]. }
      destruct (Br (k_to k - 1 - k_from k) ltac:(lia)) as [(j & a & b & B1 & B2 & B3 & B4 & B5 & B6)|B]; [eexists; apply (sides_inside files k t j a b G Inc B1 B2 B3 B4 B5 B6)|].
      replace (k_from k + (k_to k - 1 - k_from k)) with (k_to k - 1) in B by lia. pose proof (B _ El). lra. }
  destruct S as [x S]. unfold mags. rewrite S. cbn [bind andb]. destruct pix as [pix|]; eexists; reflexivity.
Qed.

Lemma fill_core : forall ts t pix b0 bs k full plain vals,
  ask (after ts) t None (EFin unseen) (b0 :: bs) false = (Ready k, Ok full) -> ask (after ts) t (Some pix) (EFin unseen) (b0 :: bs) false = (Ready k, Ok plain) -> ask (after ts) t (Some pix) (EFin unseen) (b0 :: bs) true = (Ready k, Ok vals) ->
  forall bi pi band p, nth_error (b0 :: bs) bi = Some band -> nth_error pix pi = Some p ->
  (is_masked (EFin unseen) (nth pi (nth 0 plain []) ENaN) = false -> nth pi (nth bi vals []) ENaN = nth pi (nth bi plain []) ENaN) /\
  ((forall i, i <= pi -> is_masked (EFin unseen) (nth i (nth 0 plain []) ENaN) = true) ->
   (forall g, g < npix -> is_nan (nth g (nth bi full []) ENaN) = true -> is_masked (EFin unseen) (nth g (nth 0 full []) ENaN) = true) ->
   let good g := g < npix /\ is_masked (EFin unseen) (nth g (nth 0 full []) ENaN) = false in
   let near g := good g /\ forall g', good g' -> (dist p g <= dist p g')%Q in
   exists g, near g /\ nth pi (nth bi vals []) ENaN = nth g (nth bi full []) ENaN /\ forall g', near g' -> er_ltb (nth g' (nth bi full []) ENaN) (nth pi (nth bi vals []) ENaN) = false).
Proof.
  intros ts t pix b0 bs k full plain vals Hf Hp Hv bi pi band p Hb Hpi. apply after_mags in Hf, Hp, Hv. unfold mags in Hf, Hp, Hv. destruct (sides (k_mjds k) t) as [lrb|e]; [|discriminate]. cbn [bind andb] in Hf, Hp, Hv.
  set (F := values sun_alt sun_limit pix_alt k t (EFin unseen) lrb) in *. assert (LF : forall l b, List.length (F l b) = List.length l) by (intros l b; unfold F, values; destruct lrb as [[jl jr] bl]; destruct (Qltb _ _); [destruct (Qltb _ _)|]; rewrite map_length; reflexivity). clearbody F.
  assert (Ef : full = map (F (seq 0 npix)) (b0 :: bs)) by congruence. assert (Ep : plain = map (F pix) (b0 :: bs)) by congruence. clear Hf Hp.
  assert (Nf : nth bi full [] = F (seq 0 npix) band) by (rewrite Ef; apply nth_error_nth; rewrite nth_error_map, Hb; reflexivity).
  assert (Np : nth bi plain [] = F pix band) by (rewrite Ep; apply nth_error_nth; rewrite nth_error_map, Hb; reflexivity).
  assert (Nf0 : nth 0 full [] = F (seq 0 npix) b0) by (rewrite Ef; reflexivity). assert (Np0 : nth 0 plain [] = F pix b0) by (rewrite Ep; reflexivity). rewrite Nf, Np, Nf0, Np0.
  assert (Lpi : pi < List.length pix) by (apply nth_error_Some; congruence).
  destruct (existsb (existsb (is_masked (EFin unseen))) (map (F pix) (b0 :: bs))) eqn:Ex.
  - cbn [map] in Hv. set (gd := np_where (fun x => negb (is_masked (EFin unseen) x)) (F (seq 0 npix) b0)) in *. set (mk := np_where (is_masked (EFin unseen)) (F pix b0)) in *.
    pose proof (np_where_spec er (fun x => negb (is_masked (EFin unseen) x)) (F (seq 0 npix) b0)) as Sg. fold gd in Sg. pose proof (np_where_spec er (is_masked (EFin unseen)) (F pix b0)) as Sm. fold mk in Sm.
    assert (Hv' : vals = map (fun bv => fill_band dist (fun p => nth p (F (seq 0 npix) (fst bv)) ENaN) gd pix 0 mk (snd bv)) (combine (b0 :: bs) (map (F pix) (b0 :: bs))) /\ (gd = [] -> mk = [])).
    { cbv zeta in Hv. destruct gd as [|g0 gr], mk as [|m0 mr]; try discriminate; injection Hv as <-; split; try reflexivity; intros; congruence. }
    destruct Hv' as [Hv' Hn]. assert (Nv : nth bi vals [] = fill_band dist (fun p => nth p (F (seq 0 npix) band) ENaN) gd pix 0 mk (F pix band)).
    { rewrite Hv'. apply nth_error_nth. rewrite nth_error_map. replace (nth_error (combine (b0 :: bs) (map (F pix) (b0 :: bs))) bi) with (Some (band, F pix band)); [reflexivity|]. symmetry. clear - Hb. revert bi Hb. generalize (b0 :: bs). induction l as [|x l IH]; intros [|bi] H; try discriminate; cbn in *; [congruence|]. apply IH. exact H. }
    rewrite Nv. split.
    + intros U. apply fill_other. intros X. apply Sm in X. destruct X as (x & X1 & X2). rewrite (nth_error_nth _ _ _ X1) in U. congruence.
    + intros Pre Nn good near. assert (Gd : forall g, In g gd <-> good g).
      { intros g. rewrite Sg. unfold good. split; [intros (x & X1 & X2)|intros [X1 X2]].
        - split; [assert (g < List.length (F (seq 0 npix) b0)) by (apply nth_error_Some; congruence); rewrite LF, seq_length in H; exact H|]. rewrite (nth_error_nth _ _ _ X1). apply negb_true_iff. exact X2.
        - destruct (nth_error (F (seq 0 npix) b0) g) as [x|] eqn:E; [|apply nth_error_None in E; rewrite LF, seq_length in E; lia]. exists x. split; [reflexivity|]. rewrite (nth_error_nth _ _ _ E) in X2. apply negb_true_iff. exact X2. }
      assert (Mk : nth_error mk pi = Some pi /\ NoDup mk).
      { assert (WF : forall l k0 n, n < List.length l -> (forall i, i <= n -> is_masked (EFin unseen) (nth i l ENaN) = true) -> nth_error (where_from (is_masked (EFin unseen)) k0 l) n = Some (k0 + n)).
        { clear. induction l as [|y l IH]; intros k0 n L A; cbn in L; [lia|]. cbn. pose proof (A 0 ltac:(lia)) as A0. cbn in A0. rewrite A0. destruct n as [|n]; [cbn; f_equal; lia|]. cbn. rewrite IH; [f_equal; lia|lia|]. intros i Li. exact (A (Datatypes.S i) ltac:(lia)). }
        assert (ND : forall l k0, NoDup (where_from (is_masked (EFin unseen)) k0 l) /\ forall i, In i (where_from (is_masked (EFin unseen)) k0 l) -> k0 <= i).
        { clear. induction l as [|y l IH]; intros k0; cbn; [split; [constructor|contradiction]|]. destruct (IH (Datatypes.S k0)) as [N1 N2]. destruct (is_masked _ y); [split; [constructor; [intros X; pose proof (N2 _ X); lia|exact N1]|intros i [<-|X]; [lia|pose proof (N2 _ X); lia]]|split; [exact N1|intros i X; pose proof (N2 _ X); lia]]. }
        split; [unfold mk, np_where; rewrite WF; [reflexivity|rewrite LF; exact Lpi|exact Pre]|unfold mk, np_where; apply ND]. }
      destruct Mk as [Mk Nd]. assert (Gne : gd <> []) by (intros X; rewrite (Hn X) in Mk; destruct pi; discriminate).
      rewrite (fill_nth dist (fun p => nth p (F (seq 0 npix) band) ENaN) gd pix mk 0 (F pix band) pi pi ENaN Nd Mk) by (rewrite LF; exact Lpi). cbn [plus]. rewrite (nth_error_nth _ _ _ Hpi).
      assert (Nr : forall g, In g (nearest dist gd p) <-> near g) by (intros g; rewrite nearest_iff; unfold near; rewrite Gd; split; intros [X Y]; split; try exact X; intros g' G'; apply Y; apply Gd; exact G').
      destruct (er_min_spec (map (fun g => nth g (F (seq 0 npix) band) ENaN) (nearest dist gd p))) as [M1 M2].
      * intros X. apply map_eq_nil in X. exact (nearest_some dist gd p Gne X).
      * intros x X. apply in_map_iff in X. destruct X as (g & <- & X). apply Nr in X. destruct X as [[X1 X2] _]. destruct (is_nan (nth g (F (seq 0 npix) band) ENaN)) eqn:E; [|reflexivity]. exfalso. rewrite <- Nf in E. pose proof (Nn g X1) as Y. rewrite Nf in E. specialize (Y E). congruence.
      * apply in_map_iff in M1. destruct M1 as (g & M1 & Ig). exists g. split; [apply Nr; exact Ig|]. split; [symmetry; exact M1|]. intros g' Ng. apply M2. apply in_map_iff. exists g'. split; [reflexivity|]. apply Nr. exact Ng.
  - apply ok_inj in Hv. rewrite Hv. replace (nth bi (map (F pix) (b0 :: bs)) []) with (F pix band) by (symmetry; apply nth_error_nth; rewrite nth_error_map, Hb; reflexivity). split; [reflexivity|]. intros Pre _. exfalso. pose proof (Pre 0 ltac:(lia)) as P0.
    cbn [map existsb] in Ex. apply orb_false_iff in Ex. destruct Ex as [Ex _]. assert (Y : existsb (is_masked (EFin unseen)) (F pix b0) = true); [|congruence]. apply existsb_exists. exists (nth 0 (F pix b0) ENaN). split; [apply nth_In; rewrite LF; lia|exact P0].
Qed.
(** Filling: a pixel whose predecessors in the list are all masked takes the lowest of
    the values of the nearest unmasked pixels; unmasked pixels keep their value. *)
Let no_value (v : er) : Prop := v = ENaN \/ exists q, v = EFin q /\ (q == unseen)%Q.
Lemma masked_iff : forall v, is_masked (EFin unseen) v = true <-> no_value v.
Proof.
  intros v. unfold is_masked, no_value. rewrite orb_true_iff. split.
  - intros [H|H]; [right|left; destruct v; try discriminate; reflexivity]. destruct v as [| |q|]; try discriminate. exists q. split; [reflexivity|]. apply Qeq_bool_iff. exact H.
  - intros [->|(q & -> & H)]; [right; reflexivity|left]. apply Qeq_bool_iff. exact H.
Qed.
Lemma unmasked_iff : forall v, is_masked (EFin unseen) v = false <-> ~ no_value v.
Proof. intros v. rewrite <- masked_iff. destruct (is_masked (EFin unseen) v); split; intros H; congruence. Qed.
Theorem C94_fill_partial : forall ts t pix b0 bs k full plain vals,
  ask (after ts) t None (EFin unseen) (b0 :: bs) false = (Ready k, Ok full) -> ask (after ts) t (Some pix) (EFin unseen) (b0 :: bs) false = (Ready k, Ok plain) -> ask (after ts) t (Some pix) (EFin unseen) (b0 :: bs) true = (Ready k, Ok vals) ->
  forall bi pi band p, nth_error (b0 :: bs) bi = Some band -> nth_error pix pi = Some p ->
  (~ no_value (nth pi (nth 0 plain []) ENaN) -> nth pi (nth bi vals []) ENaN = nth pi (nth bi plain []) ENaN) /\
  ((forall i, i <= pi -> no_value (nth i (nth 0 plain []) ENaN)) ->
   (forall g, g < npix -> nth g (nth bi full []) ENaN = ENaN -> no_value (nth g (nth 0 full []) ENaN)) ->
   let good g := g < npix /\ ~ no_value (nth g (nth 0 full []) ENaN) in
   let near g := good g /\ forall g', good g' -> (dist p g <= dist p g')%Q in
   exists g, near g /\ nth pi (nth bi vals []) ENaN = nth g (nth bi full []) ENaN /\ forall g', near g' -> er_ltb (nth g' (nth bi full []) ENaN) (nth pi (nth bi vals []) ENaN) = false).
Proof.
  intros ts t pix b0 bs k full plain vals A B C bi pi band p Hb Hp. destruct (fill_core ts t pix b0 bs k full plain vals A B C bi pi band p Hb Hp) as [F1 F2].
  split; [intros N; apply F1; apply unmasked_iff; exact N|]. intros Pre Nn good near.
  assert (Gg : forall g, (g < npix /\ is_masked (EFin unseen) (nth g (nth 0 full []) ENaN) = false) <-> good g) by (intros g; unfold good; rewrite unmasked_iff; tauto).
  destruct F2 as (g & (N1 & N2) & E & M).
  - intros i L. apply masked_iff. exact (Pre i L).
  - intros g L X. apply masked_iff. apply Nn; [exact L|]. destruct (nth g (nth bi full []) ENaN); try discriminate. reflexivity.
  - exists g. split; [split; [apply Gg; exact N1|intros g' G'; apply N2; apply Gg; exact G']|]. split; [exact E|]. intros g' (G1 & G2). apply M. split; [apply Gg; exact G1|]. intros g2 G3. apply G2. apply Gg. exact G3.
Qed.
End S.
Print Assumptions C94_interp_partial.
Print Assumptions C94_reload.
Print Assumptions C94_history_partial.
Print Assumptions C94_gap.
Print Assumptions C94_edge.
Print Assumptions C94_answers.
Print Assumptions C94_fill_partial.

(** ** Which file *)
(** The last file whose name covers the time, if the time is not past its last map; else
    the last file covering the day that begins then, from its first map on, less than a
    day away. *)
Definition covers (f : sfile) (t : Q) : Prop := (f_left f <= t /\ t <= f_right f)%Q.
Definition last_covering (files : list sfile) (f : sfile) (t : Q) : Prop := exists l1 l2, files = l1 ++ f :: l2 /\ covers f t /\ forall g, In g l2 -> ~ covers g t.
Lemma best_last : forall files t f, best_file files t = Ok f -> last_covering files f t.
Proof.
  intros files t f H. unfold best_file in H. set (c := fun f => Qle_bool (f_left f) t && Qle_bool t (f_right f)) in *.
  assert (Cv : forall g, c g = true <-> covers g t) by (intros g; unfold c, covers; rewrite andb_true_iff, !Qle_bool_iff; tauto). clearbody c.
  revert f H. induction files as [|g files IH] using rev_ind; intros f H; [discriminate|]. rewrite filter_app in H. cbn [filter] in H. destruct (c g) eqn:E.
  - rewrite rev_app_distr in H. cbn in H. injection H as <-. exists files, []. split; [reflexivity|]. split; [apply Cv; exact E|intros ? []].
  - rewrite app_nil_r in H. destruct (IH f H) as (l1 & l2 & E1 & E2 & E3). exists l1, (l2 ++ [g]). split; [rewrite E1, <- app_assoc; reflexivity|]. split; [exact E2|]. intros x I. apply in_app_iff in I. destruct I as [I|[<-|[]]]; [exact (E3 x I)|]. rewrite <- Cv. congruence.
Qed.
Lemma best_none : forall files t e, best_file files t = Raise e -> e = ValueError /\ forall f, In f files -> ~ covers f t.
Proof.
  intros files t e H. unfold best_file in H. destruct (rev _) as [|f r] eqn:E; [|discriminate]. split; [congruence|]. intros f I C. apply (f_equal (@rev _)) in E. rewrite rev_involutive in E. cbn in E.
  assert (X : In f (filter (fun f => Qle_bool (f_left f) t && Qle_bool t (f_right f)) files)) by (apply filter_In; split; [exact I|]; destruct C; apply andb_true_iff; split; apply Qle_bool_iff; assumption). rewrite E in X. exact X.
Qed.
Lemma qmax_lt : forall l t, l <> [] -> ((qmax l < t)%Q <-> forall m, In m l -> (m < t)%Q).
Proof.
  intros [|x r] t H; [congruence|]. clear H. cbn [qmax]. revert x. induction r as [|y r IH]; intros x; cbn [fold_left].
  - split; [intros L m [<-|[]]; exact L|intros A; apply A; left; reflexivity].
  - rewrite IH. destruct (Qle_bool x y) eqn:E; [apply Qle_bool_iff in E|apply Qle_bool_false in E]; split; intros A m I.
    + destruct I as [<-|[<-|I]]; [|apply A; left; reflexivity|apply A; right; exact I]. pose proof (A y (or_introl eq_refl)). lra.
    + destruct I as [<-|I]; apply A; [right; left; reflexivity|right; right; exact I].
    + destruct I as [<-|[<-|I]]; [apply A; left; reflexivity| |apply A; right; exact I]. pose proof (A x (or_introl eq_refl)). lra.
    + destruct I as [<-|I]; apply A; [left; reflexivity|right; right; exact I].
Qed.
Theorem C94_file : forall files t f t', load_what files t = Ok (f, t') ->
  (last_covering files f t /\ (exists m, In m (f_mjds f) /\ (t <= m)%Q) /\ t' = t) \/
  (exists g, last_covering files g t /\ (forall m, In m (f_mjds g) -> (m < t)%Q) /\
     (exists n : Z, last_covering files f (inject_Z n + (1 # 5)) /\ (inject_Z n <= t + (1 # 2))%Q /\ (t + (1 # 2) < inject_Z n + 1)%Q) /\
     ((t' = t /\ exists m, In m (f_mjds f) /\ (m <= t)%Q) \/ (In t' (f_mjds f) /\ (forall m, In m (f_mjds f) -> (t' <= m)%Q) /\ (t < t')%Q /\ (t' < t + 1)%Q))).
Proof.
  intros files t f t' H. unfold load_what in H. destruct (best_file files t) as [g|e] eqn:E; [|discriminate]. cbn [bind] in H. apply best_last in E. destruct (f_mjds g) as [|m0 mr] eqn:Em; [discriminate|]. rewrite <- Em in H.
  assert (Ne : f_mjds g <> []) by (rewrite Em; discriminate). destruct (Qltb (qmax (f_mjds g)) t) eqn:Q.
  - apply Qltb_lt in Q. pose proof (proj1 (qmax_lt _ _ Ne) Q) as Q'. destruct (best_file files (in_dayobs t)) as [g2|e] eqn:E2; [|discriminate]. cbn [bind] in H. apply best_last in E2. destruct (f_mjds g2) as [|m1 mr1] eqn:Em2; [discriminate|]. rewrite <- Em2 in H.
    assert (Ne2 : f_mjds g2 <> []) by (rewrite Em2; discriminate). destruct (qmin_spec _ Ne2) as [M1 M2]. right. exists g. split; [exact E|]. split; [exact Q'|].
    assert (N : f = g2 /\ ((t' = t /\ (qmin (f_mjds g2) <= t)%Q) \/ (t' = qmin (f_mjds g2) /\ (t < t')%Q /\ (t' < t + 1)%Q))).
    { destruct (Qltb t (qmin (f_mjds g2))) eqn:L.
      - apply Qltb_lt in L. destruct (Qltb (qmin (f_mjds g2) - t) 1) eqn:D; [|discriminate]. apply Qltb_lt in D. assert (Ef : f = g2) by congruence. assert (Et : t' = qmin (f_mjds g2)) by congruence. split; [exact Ef|]. right. split; [exact Et|]. rewrite Et. split; lra.
      - apply Qltb_false in L. assert (Ef : f = g2) by congruence. assert (Et : t' = t) by congruence. split; [exact Ef|]. left. split; assumption. }
    destruct N as [-> N]. split.
    + exists (Qfloor (t + (1 # 2))). split; [exact E2|]. split; [apply Qfloor_le|]. pose proof (Qlt_floor (t + (1 # 2))) as F. rewrite inject_Z_plus in F. exact F.
    + destruct N as [[-> N]|(-> & N1 & N2)]; [left; split; [reflexivity|]; exists (qmin (f_mjds g2)); split; assumption|]. right. split; [exact M1|]. split; [exact M2|]. split; assumption.
  - apply Qltb_false in Q. left. assert (Ef : f = g) by congruence. assert (Et : t' = t) by congruence. subst. split; [exact E|]. split; [|reflexivity].
    destruct (Exists_dec (fun m => t <= m)%Q (f_mjds g)) as [X|X]; [intros m; destruct (Qlt_le_dec m t) as [Y|Y]; [right; lra|left; exact Y]|apply Exists_exists in X; exact X|].
    exfalso. assert (Y : (qmax (f_mjds g) < t)%Q); [|lra]. apply qmax_lt; [exact Ne|]. intros m I. destruct (Qlt_le_dec m t) as [Z|Z]; [exact Z|]. exfalso. apply X. apply Exists_exists. exists m. split; assumption.
Qed.
Print Assumptions C94_file.

(** ** Concrete files *)
(** Maps every 1/50 of a day from 0 to 1/5; the value in each band is 18 plus the number
    of the map, and pixel 0 is masked in maps after the third. *)
Definition ex_times : list Q := map (fun i => (inject_Z (Z.of_nat i) / 50)%Q) (seq 0 11).
Definition ex_file : sfile := mkFile 0 1 ex_times (1 # 50) (fun _ i p => if Nat.eqb p 0 && Nat.ltb 3 i then EFin unseen else EFin (inject_Z (18 + Z.of_nat i + 100 * Z.of_nat p))).
Definition ex_sun (t : Q) : Q := (-1)%Q.
Definition ex_alt (t : Q) (p : nat) : Q := 45%Q.
Definition ex_dist (p g : nat) : Q := Qabs (inject_Z (Z.of_nat p) - inject_Z (Z.of_nat g)).
Definition ex_ask (len : Q) (s : sky) t i b bs x := ask [ex_file] len ex_sun 0 ex_alt ex_dist 4 s t i b bs x.
Definition ex_after (len len0 t0 : Q) (ts : list Q) : sky := asked [ex_file] len ex_sun 0 ex_alt ex_dist 4 (fst (load [ex_file] len0 unloaded t0)) ts.
(** The first value of an answer. *)
Definition first_val (r : res (list (list er))) : er := match r with Ok ((v :: _) :: _) => v | _ => ENaN end.
Lemma ex_inc : increasing ex_times.
Proof.
  intros i j x y L A B. unfold ex_times in A, B. rewrite nth_error_map in A, B. destruct (nth_error (seq 0 11) i) as [a|] eqn:Ea; [|discriminate]. destruct (nth_error (seq 0 11) j) as [b|] eqn:Eb; [|discriminate].
  assert (La : i < 11) by (change 11 with (List.length (seq 0 11)); apply nth_error_Some; congruence). assert (Lb : j < 11) by (change 11 with (List.length (seq 0 11)); apply nth_error_Some; congruence).
  assert (Sa : a = i) by (apply nth_error_nth with (d := 0) in Ea; rewrite seq_nth in Ea by exact La; cbn in Ea; congruence). assert (Sb : b = j) by (apply nth_error_nth with (d := 0) in Eb; rewrite seq_nth in Eb by exact Lb; cbn in Eb; congruence). subst.
  cbn [option_map] in A, B.   assert (x = inject_Z (Z.of_nat i) / 50)%Q by congruence. assert (y = inject_Z (Z.of_nat j) / 50)%Q by congruence. subst. clear - L. assert (M : (inject_Z (Z.of_nat i) < inject_Z (Z.of_nat j))%Q) by (rewrite <- Zlt_Qlt; lia).
  assert (E1 : (inject_Z (Z.of_nat i) / 50 * 50 == inject_Z (Z.of_nat i))%Q) by (field; lra). assert (E2 : (inject_Z (Z.of_nat j) / 50 * 50 == inject_Z (Z.of_nat j))%Q) by (field; lra). nra.
Qed.
Example C94_ex_interp : exists k vals q, ex_ask 1 (ex_after 1 1 0 [(1 # 7)%Q]) (3 # 100) (Some [1; 2]) (EFin unseen) ["r"%string] false = (Ready k, Ok vals) /\
  k_from k <= 1 /\ 2 < k_to k /\ nth_error (f_mjds (k_file k)) 1 = Some (1 / 50)%Q /\ nth_error (f_mjds (k_file k)) 2 = Some (2 / 50)%Q /\ nth 0 (nth 0 vals []) ENaN = EFin q /\ (q == 119 + (1 # 2))%Q.
Proof. eexists; eexists; eexists. split; [vm_compute; reflexivity|]. split; [vm_compute; lia|]. split; [vm_compute; lia|]. split; [reflexivity|]. split; [reflexivity|]. split; [vm_compute; reflexivity|vm_compute; reflexivity]. Qed.
Example C94_ex_reload : exists k, load [ex_file] (1 # 25) (Ready (mkLoaded ex_file 6 8)) (3 # 100) = (Ready k, Ok tt) /\ k_file k = ex_file /\ k_from k <= 1 /\ 2 < k_to k.
Proof. apply (C94_reload [ex_file] (1 # 25) (Ready (mkLoaded ex_file 6 8)) (3 # 100) ex_file 1 (1 / 50) (2 / 50) (3 / 50)); try reflexivity; try exact ex_inc; vm_compute; first [reflexivity | congruence]. Qed.
Example C94_ex_answers : exists k, ex_after 1 (1 # 10) 0 [] = Ready k /\ (snd (range_of (Ready k)) == 1 # 10)%Q /\ (exists vals, ex_ask 1 (ex_after 1 (1 # 10) 0 []) (1 # 10) None (EFin unseen) ["r"%string] false = (Ready k, Ok vals)).
Proof. eexists. split; [vm_compute; reflexivity|]. split; [vm_compute; reflexivity|]. eexists. vm_compute. reflexivity. Qed.
(** Pixel 0 masked and first: filled from pixel 1. *)
Example C94_ex_fill : exists q, first_val (snd (ex_ask 1 (ex_after 1 1 0 []) (1 # 10) (Some [0; 2]) (EFin unseen) ["r"%string] true)) = EFin q /\ (q == 123)%Q /\
  exists q', first_val (snd (ex_ask 1 (ex_after 1 1 0 []) (1 # 10) (Some [0; 2]) (EFin unseen) ["r"%string] false)) = EFin q' /\ (q' == unseen)%Q.
Proof. eexists. split; [vm_compute; reflexivity|]. split; [vm_compute; reflexivity|]. eexists. split; [vm_compute; reflexivity|vm_compute; reflexivity]. Qed.
(** A day between two nights: maps at 0, 1/50 and 1/2, 13/25. *)
Definition ex_nights : sfile := mkFile 0 1 [0; 1 # 50; 1 # 2; 13 # 25; 27 # 50]%Q (1 # 50) (fun _ i p => EFin (inject_Z (18 + Z.of_nat i))).
Example C94_ex_gap : let a sun t := first_val (snd (ask [ex_nights] 1 (fun _ => sun) 0 ex_alt ex_dist 4 (fst (load [ex_nights] 1 unloaded 0)) t (Some [1]) (EFin unseen) ["r"%string] false)) in
  a (-1)%Q (1 # 10)%Q = EFin 19 /\ a (-1)%Q (3 # 10)%Q = EFin 20 /\ a 1%Q (3 # 10)%Q = EFin 2.
Proof. vm_compute. repeat split; reflexivity. Qed.

(** Files for two days; after the last map of the first, the second from its first map. *)
Example C94_ex_file : let f i := mkFile (inject_Z i) (inject_Z i + 1) [inject_Z i + (1 # 10); inject_Z i + (2 # 10); inject_Z i + (3 # 10)]%Q (1 # 10) (fun _ _ _ => ENaN) in
  (exists r, load_what [f 0%Z; f 1%Z] (1 # 4) = Ok r /\ f_left (fst r) = 0%Q /\ snd r = (1 # 4)%Q) /\ (exists r, load_what [f 0%Z; f 1%Z] (3 # 5) = Ok r /\ f_left (fst r) = 1%Q /\ (snd r == 11 # 10)%Q).
Proof. split; eexists; split; try (vm_compute; reflexivity); split; vm_compute; reflexivity. Qed.

(** ** What does not hold *)
(** The answer depends on what was asked before: at the same time, with the same file,
    a chunk whose last map ends there gives the map before, another the interpolation. *)
Theorem C94_history_refuted : exists (files : list sfile) len sun lim alt dist npix t a b, (forall f, In f files -> increasing (f_mjds f)) /\ ~ (a == b)%Q /\
  let now len0 t0 := ask files len sun lim alt dist npix (fst (load files len0 unloaded t0)) t (Some [1]) (EFin unseen) ["r"%string] false in
  first_val (snd (now (1 # 25)%Q 0%Q)) = EFin a /\ first_val (snd (now (1 # 25)%Q (1 # 50)%Q)) = EFin b.
Proof.
  exists [ex_file], 1%Q, ex_sun, 0%Q, ex_alt, ex_dist, 4, (3 # 100)%Q. eexists; eexists. split; [intros f [<-|[]]; exact ex_inc|]. split; [|split; vm_compute; reflexivity]. vm_compute. discriminate.
Qed.
Print Assumptions C94_history_refuted.
(** A pixel masked in one of the two maps comes out as a number that is not the mask
    value, and a mask value asked for is not used. *)
Theorem C94_mask_refuted : exists (files : list sfile) len sun lim alt dist npix t t' q q', (forall f, In f files -> increasing (f_mjds f)) /\ (q < unseen / 3)%Q /\ ~ (q == unseen)%Q /\ (q' == unseen)%Q /\
  let now t bad := ask files len sun lim alt dist npix (fst (load files len unloaded 0)) t (Some [0]) bad ["r"%string] false in
  first_val (snd (now t (EFin unseen))) = EFin q /\ first_val (snd (now t' (EFin (-99)))) = EFin q'.
Proof.
  exists [ex_file], 1%Q, ex_sun, 0%Q, ex_alt, ex_dist, 4, (7 # 100)%Q, (9 # 100)%Q. eexists; eexists. split; [intros f [<-|[]]; exact ex_inc|].
  assert (E : forall (P1 P2 P3 P4 P5 : Prop), P4 /\ P5 -> P1 -> P2 -> P3 -> P1 /\ P2 /\ P3 /\ P4 /\ P5) by tauto. apply E; [split; vm_compute; reflexivity|vm_compute; reflexivity|vm_compute; discriminate|vm_compute; reflexivity].
Qed.
Print Assumptions C94_mask_refuted.
(** With an unmasked pixel before it in the list a masked pixel is not filled from its
    nearest pixel: pixel 0 gets the value of pixel 3, though pixel 1 is nearer. *)
Theorem C94_fill_refuted : exists (files : list sfile) len sun lim alt dist npix t v, (forall f, In f files -> increasing (f_mjds f)) /\ (dist 0%nat 1%nat < dist 0%nat 3%nat)%Q /\
  let now pix x := snd (ask files len sun lim alt dist npix (fst (load files len unloaded 0)) t (Some pix) (EFin unseen) ["r"%string] x) in
  now [3; 0] true = Ok [[v; v]] /\ now [3] false = Ok [[v]] /\ now [1] false <> Ok [[v]].
Proof.
  exists [ex_file], 1%Q, ex_sun, 0%Q, ex_alt, ex_dist, 4, (1 # 10)%Q. eexists. split; [intros f [<-|[]]; exact ex_inc|]. split; [vm_compute; reflexivity|]. split; [vm_compute; reflexivity|]. split; [vm_compute; reflexivity|]. vm_compute. discriminate.
Qed.
Print Assumptions C94_fill_refuted.
(** A question that fails for want of maps leaves the object unable to answer a question
    it had answered before. *)
Theorem C94_failed_refuted : exists (files : list sfile) len sun lim alt dist npix t t' v, (forall f, In f files -> increasing (f_mjds f)) /\
  let s := fst (load files len unloaded 0) in let now s t := ask files len sun lim alt dist npix s t (Some [1]) (EFin unseen) ["r"%string] false in
  snd (now s t) = Ok v /\ snd (now (fst (now s t)) t') = Raise ValueError /\ snd (now (fst (now (fst (now s t)) t')) t) = Raise AttributeError.
Proof.
  exists [mkFile 0 1 [0; 1 # 50; 1 # 25; 1 # 2]%Q (1 # 50) (fun _ i p => EFin (inject_Z (18 + Z.of_nat i)))], (1 # 20)%Q, ex_sun, 0%Q, ex_alt, ex_dist, 4, (1 # 100)%Q, (1 # 4)%Q. eexists.
  split; [|split; [vm_compute; reflexivity|split; vm_compute; reflexivity]]. intros f [<-|[]]. intros i j x y L A B. cbn [f_mjds] in A, B.
  destruct i as [|[|[|[|i]]]]; destruct j as [|[|[|[|j]]]]; cbn in A, B; try lia; try (destruct i; discriminate); try (destruct j; discriminate); injection A as <-; injection B as <-; reflexivity.
Qed.
Print Assumptions C94_failed_refuted.
