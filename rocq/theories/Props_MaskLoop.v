(** C81: masks on past visits keep their promise over a whole run. *)
From Coq Require Import List ZArith QArith Qabs Qround Bool String Lia Lqa Sorted.
From Verif Require Import Base IntRounded Feat Feat_proofs Feat_proofs2 BfCall BfCall_proofs MaskLoop MaskLoop_proofs.
Import ListNotations.
Open Scope nat_scope.

(** The reward at a pixel after visits were reported and rewards asked for. *)
Definition mask {S} (k : cls S mcond fvis) (s0 : S) (ops : list (op mcond fvis)) (c : mcond) (p : nat) : er :=
  snd (bf_call mc_mjd k (bf_run mc_mjd k (bf0 s0) ops) c) p.
Definition no_visits : nat -> Z := fun _ => 0%Z.
Definition covers (p : nat) (v : fvis) : bool := existsb (Nat.eqb p) (fv_pix v).
Definition in_band (bn : option string) (v : fvis) : bool := match bn with None => true | Some s => String.eqb (fv_band v) s end.
(** The mask is for all bands or for one named by a letter; a visit lists each pixel once. *)
Definition proper (bn : option string) (v : fvis) : Prop :=
  NoDup (fv_pix v) /\ match bn with None => True | Some s => (exists c, s = String c EmptyString) /\ fv_band v <> EmptyString end.
(** Each visit that counts is aimed at a pixel that was open when asked about before, and each
    answer is used for at most [m] of them at one pixel. *)
Definition guided {S} (k : cls S mcond fvis) (s0 : S) (counts : fvis -> bool) (aim : fvis -> nat) (m : Z) (ops : list (op mcond fvis)) : Prop :=
  forall a v b, ops = a ++ Seen v :: b -> counts v = true -> In (aim v) (fv_pix v) /\
  exists a1 c a2, a = a1 ++ Ask c :: a2 /\ mask k s0 a1 c (aim v) <> ENaN /\
    (count (fun w => counts w && Nat.eqb (aim w) (aim v)) (reports a2) < m)%Z.

Lemma proper_band : forall bn v, proper bn v -> band_ok bn v /\ pix_ok v.
Proof. intros bn v [P B]. split; [exact B|exact P]. Qed.
Lemma mask_fresh : forall S (k : cls S mcond fvis) s0 ops c p, cl_books k = false -> (forall s d, fst (cl_calc k s d) = s) -> (forall s d, cl_feas k s d = true) ->
  mask k s0 ops c p = snd (cl_calc k (fold_left (cl_add k) (reports ops) s0) c) p.
Proof. intros S k s0 ops c p B P F. unfold mask. rewrite (fresh mc_mjd eq k s0 ops c p (eq_steady k P) B). cbv zeta. rewrite F. reflexivity. Qed.

(** ** MaskAfterNObs *)
Theorem C81_after_n : forall n bn ops c p, (forall v, In v (reports ops) -> proper bn v) ->
  mask (after_cls n bn LNone) no_visits ops c p =
  if (n <=? count (fun v => covers p v && in_band bn v) (reports ops))%Z then ENaN else EFin 0.
Proof.
  intros n bn ops c p H. rewrite mask_fresh by reflexivity. change (cl_calc (after_cls n bn LNone)) with (fun (f : nat -> Z) (_ : mcond) => (f, at_least n f)).
  cbn [snd]. unfold at_least. rewrite after_fold by (intros v V; destruct (proper_band bn v (H v V)); repeat split; assumption).
  rewrite (count_ext _ _ (fun v => covers p v && in_band bn v)); [reflexivity|]. intros v _. unfold no_match, see_ok, note_within. rewrite !andb_true_r. reflexivity.
Qed.
Print Assumptions C81_after_n.
(** At most [n] visits in the band are aimed at one pixel, when each answer is used once. *)
Theorem C81_after_n_bound : forall n bn aim m ops p, (1 <= n)%Z -> (0 <= m)%Z -> (forall v, In v (reports ops) -> proper bn v) ->
  guided (after_cls n bn LNone) no_visits (in_band bn) aim m ops ->
  (count (fun v => in_band bn v && Nat.eqb (aim v) p) (reports ops) <= n - 1 + m)%Z.
Proof.
  intros n bn aim m ops p N M H G. apply bound; [lia|]. intros a v b E P. apply andb_true_iff in P. destruct P as [Pb Pa]. apply Nat.eqb_eq in Pa.
  destruct (G a v b E Pb) as [I (a1 & c & a2 & Ea & Mk & C2)]. rewrite Pa in *. exists a1, c, a2. split; [exact Ea|]. split; [|exact C2].
  assert (In1 : forall w, In w (reports a1) -> In w (reports ops)) by (intros w W; rewrite E, Ea, reports_app, reports_app; apply in_or_app; left; apply in_or_app; left; exact W).
  rewrite C81_after_n in Mk by auto.
  destruct (Z.leb_spec n (count (fun v => covers p v && in_band bn v) (reports a1))) as [D|D]; [congruence|].
  assert (L : (count (fun v => in_band bn v && Nat.eqb (aim v) p) (reports a1) <= count (fun v => covers p v && in_band bn v) (reports a1))%Z); [|lia].
  apply count_le. intros w W Pw. apply andb_true_iff in Pw. destruct Pw as [W1 W2]. apply Nat.eqb_eq in W2. rewrite W1, andb_true_r. apply existsb_exists. exists p. split; [|apply Nat.eqb_refl].
  rewrite <- W2.
  destruct (in_split _ _ W) as (l1 & l2 & El).
  assert (Sp : exists u1 u2, a1 = u1 ++ Seen w :: u2).
  { clear - W. unfold reports in W. apply in_flat_map in W. destruct W as (o & O1 & O2). destruct o as [w'|d]; [|destruct O2]. destruct O2 as [<-|[]]. apply in_split. exact O1. }
  destruct Sp as (u1 & u2 & Eu). destruct (G u1 w (u2 ++ Ask c :: a2 ++ Seen v :: b)) as [Iw _]; [|exact W1|exact Iw].
  rewrite E, Ea, Eu. repeat (rewrite <- app_assoc || cbn [app]). reflexivity.
Qed.
Print Assumptions C81_after_n_bound.
(** Without a reset per season MaskAfterNObsSeeing counts the visits with better seeing than the
    limit; a visit without a seeing counts as 100 arcsec. *)
Definition seeing (v : fvis) : Q := match fv_see v with EFin q => q | _ => 100 end.
Definition off (a x : Q) : Prop := ~ (a == x)%Q /\ ((x == 0)%Q \/ ((1 # 1000000000) * Qabs x < Qabs (a - x))%Q).
Theorem C81_after_n_seeing : forall n bn lim ops c p, (forall v, In v (reports ops) -> proper bn v /\ off (seeing v) lim) ->
  mask (after_cls n bn (LScalar lim)) no_visits ops c p =
  if (n <=? count (fun v => covers p v && in_band bn v && Qltb (seeing v) lim) (reports ops))%Z then ENaN else EFin 0.
Proof.
  intros n bn lim ops c p H. rewrite mask_fresh by reflexivity. change (cl_calc (after_cls n bn (LScalar lim))) with (fun (f : nat -> Z) (_ : mcond) => (f, at_least n f)).
  cbn [snd]. unfold at_least. rewrite after_fold.
  - rewrite (count_ext _ _ (fun v => covers p v && in_band bn v && Qltb (seeing v) lim)); [reflexivity|]. intros v _. unfold no_match, see_ok, note_within. rewrite !andb_true_r. reflexivity.
  - intros v V. destruct (H v V) as [P O]. destruct (proper_band bn v P). split; [assumption|]. split; [assumption|]. exact O.
Qed.
Print Assumptions C81_after_n_seeing.

(** ** NInNightMask *)
(** Once a visit of the night has been reported, exactly the pixels with [n] visits in it are
    masked; a pixel with [n] visits tonight always is. *)
Theorem C81_night_partial : forall n bn ops c p, chrono (reports ops) -> (forall v, In v (reports ops) -> proper bn v) ->
  (exists v, In v (reports ops) /\ fv_night v = mc_night c) -> (forall v, In v (reports ops) -> (fv_night v <= mc_night c)%Z) ->
  mask (night_cls n bn) nb0 ops c p =
  if (n <=? count (fun v => (fv_night v =? mc_night c)%Z && covers p v && in_band bn v) (reports ops))%Z then ENaN else EFin 0.
Proof.
  intros n bn ops c p Ch H [v [V1 V2]] Up. rewrite mask_fresh by reflexivity. change (cl_calc (night_cls n bn)) with (fun (s : nbst) (_ : mcond) => (s, at_least n (nb_map s))).
  cbn [snd]. unfold at_least.
  assert (NE : bn <> Some EmptyString). { intros ->. destruct (H v V1) as [_ [[ch X] _]]. discriminate. }
  destruct (night_fold n bn (reports ops)) as [_ R]; [split; [exact Ch|]; split; [exact NE|]; intros u U; apply proper_band; auto|].
  destruct (last_opt (reports ops)) as [w|] eqn:L; [|apply last_opt_none in L; rewrite L in V1; destruct V1].
  destruct (R w eq_refl) as [_ Rm]. rewrite Rm.
  assert (Nw : fv_night w = mc_night c).
  { pose proof (chrono_last_night _ w v Ch L V1). assert (Iw : In w (reports ops)) by (destruct (last_opt_split _ _ _ L) as (r & ->); apply in_or_app; right; now left). pose proof (Up w Iw). lia. }
  rewrite Nw. rewrite (count_ext _ _ (fun v => (fv_night v =? mc_night c)%Z && covers p v && in_band bn v)); [reflexivity|].
  intros u _. unfold night_is, at_pix. rewrite andb_assoc. reflexivity.
Qed.
Print Assumptions C81_night_partial.
Theorem C81_night_bound : forall n bn aim m ops p z, (1 <= n)%Z -> (0 <= m)%Z -> chrono (reports ops) -> (forall v, In v (reports ops) -> proper bn v) ->
  guided (night_cls n bn) nb0 (in_band bn) aim m ops ->
  (count (fun v => (fv_night v =? z)%Z && in_band bn v && Nat.eqb (aim v) p) (reports ops) <= n - 1 + m)%Z.
Proof.
  intros n bn aim m ops p z N M Ch H G. apply bound; [lia|]. intros a v b E P. apply andb_true_iff in P. destruct P as [Pzb Pa]. apply andb_true_iff in Pzb. destruct Pzb as [Pz Pb]. apply Nat.eqb_eq in Pa. apply Z.eqb_eq in Pz.
  destruct (G a v b E Pb) as [I (a1 & c & a2 & Ea & Mk & C2)]. rewrite Pa in *. exists a1, c, a2. split; [exact Ea|]. split.
  2: { eapply Z.le_lt_trans; [|exact C2]. apply count_le. intros w _ Pw. rewrite !andb_true_iff in *. tauto. }
  assert (Er : reports ops = reports a1 ++ (reports a2 ++ v :: reports b)).
  { rewrite E, Ea, !reports_app. cbn [reports flat_map app]. rewrite <- app_assoc. reflexivity. }
  assert (In1 : forall w, In w (reports a1) -> In w (reports ops)) by (intros w W; rewrite Er; apply in_or_app; now left).
  destruct (existsb (fun w => (fv_night w =? z)%Z) (reports a1)) eqn:X.
  - apply existsb_exists in X. destruct X as (u & U1 & U2). apply Z.eqb_eq in U2.
    assert (Up : forall w, In w (reports a1) -> (fv_night w <= z)%Z).
    { intros w W. rewrite Er in Ch. apply chrono_app in Ch. destruct Ch as (_ & _ & K). rewrite <- Pz. apply (K w v W). apply in_or_app. right. now left. }
    change (mask (night_cls n bn) nb0 a1 c p <> ENaN) in Mk.
    assert (Mk' : mask (night_cls n bn) nb0 a1 (mc_mjd c, z) p <> ENaN).
    { rewrite mask_fresh in * by reflexivity. exact Mk. }
    rewrite C81_night_partial in Mk'; [|rewrite Er in Ch; now apply chrono_pre in Ch|auto|exists u; auto|exact Up].
    cbn [mc_night snd] in Mk'. destruct (Z.leb_spec n (count (fun v => (fv_night v =? z)%Z && covers p v && in_band bn v) (reports a1))) as [D|D]; [congruence|].
    assert (L : (count (fun v => (fv_night v =? z)%Z && in_band bn v && Nat.eqb (aim v) p) (reports a1) <= count (fun v => (fv_night v =? z)%Z && covers p v && in_band bn v) (reports a1))%Z); [|lia].
    apply count_le. intros w W Pw. rewrite !andb_true_iff in *. destruct Pw as [[W1 W2] W3]. split; [|exact W2]. split; [exact W1|]. apply Nat.eqb_eq in W3.
    apply existsb_exists. exists p. split; [|apply Nat.eqb_refl]. rewrite <- W3.
    assert (Sp : exists u1 u2, a1 = u1 ++ Seen w :: u2).
    { clear - W. unfold reports in W. apply in_flat_map in W. destruct W as (o & O1 & O2). destruct o as [w'|d]; [|destruct O2]. destruct O2 as [<-|[]]. apply in_split. exact O1. }
    destruct Sp as (u1 & u2 & Eu). destruct (G u1 w (u2 ++ Ask c :: a2 ++ Seen v :: b)) as [Iw _]; [|exact W2|exact Iw].
    rewrite E, Ea, Eu. repeat (rewrite <- app_assoc || cbn [app]). reflexivity.
  - rewrite count_none; [lia|]. intros w W. destruct (fv_night w =? z)%Z eqn:K; [|reflexivity]. assert (T : existsb (fun w => (fv_night w =? z)%Z) (reports a1) = true) by (apply existsb_exists; eauto). congruence.
Qed.
Print Assumptions C81_night_bound.
(** Before the first visit of a night, last night's pixels are masked, on every later night until
    some visit is reported. *)
Definition v0 (night : Z) (mjd : Q) (see : er) (pix : list nat) : fvis := mkFv 1 night mjd "r" "a" "p" see (EFin 25) 10 pix.
Theorem C81_night_refuted : exists n ops p, (1 <= n)%Z /\ chrono (reports ops) /\ (forall v, In v (reports ops) -> proper (Some "r"%string) v /\ fv_night v = 1%Z) /\
  forall asks c, mask (night_cls n (Some "r"%string)) nb0 (ops ++ map Ask asks) c p = ENaN.
Proof.
  exists 1%Z, [Seen (v0 1 60000 (EFin 1) [3; 4])], 3. split; [lia|]. split; [repeat constructor|]. split.
  - intros v [<-|[]]. split; [|reflexivity]. split; [repeat constructor; cbn; intuition discriminate|]. split; [eexists; reflexivity|discriminate].
  - intros asks c. rewrite mask_fresh by reflexivity. rewrite reports_app.
    assert (E : forall (l : list mcond), reports (map (@Ask mcond fvis) l) = []) by (induction l; [reflexivity|exact IHl]). rewrite E. reflexivity.
Qed.
Print Assumptions C81_night_refuted.

(** ** MaskAfterNObsSeeing with a reset per season *)
(** [opens ra u]: a season of right ascension [ra] starts at [u]; [one_season ra a b]: none starts
    after [a] and up to [b]. *)
Definition sharper (lim : Q) (v : fvis) : bool := match fv_see v with EFin q => Qltb q lim | _ => false end.
Definition timed (start lim : Q) (v : fvis) : Prop := (start <= fv_mjd v)%Q /\ exists q, fv_see v = EFin q /\ off q lim.
Lemma timed_C : forall start lim h, chrono h -> (forall v, In v h -> timed start lim v) -> cu_C start lim h.
Proof. intros start lim h Ch T. split; [exact Ch|]. intros v V. destruct (T v V) as [A (q & Q1 & Q2 & Q3)]. split; [exact A|]. exists q. auto. Qed.
Lemma season_mask : forall pix_ra start bn n lim ops c p w, chrono (reports ops) -> (forall v, In v (reports ops) -> timed start lim v) -> last_opt (reports ops) = Some w ->
  mask (season_cls pix_ra start bn n lim) (cs0 pix_ra start) ops c p =
  if (n <=? count (fun v => (covers p v && in_band bn v && sharper lim v) && (pix_season pix_ra start p (fv_mjd v) =? pix_season pix_ra start p (fv_mjd w))%Z) (reports ops))%Z then ENaN else EFin 0.
Proof.
  intros pix_ra start bn n lim ops c p w Ch T L. rewrite mask_fresh by reflexivity.
  change (cl_calc (season_cls pix_ra start bn n lim)) with (fun (s : csst) (_ : mcond) => (s, at_least n (cs_map s))). cbn [snd]. unfold at_least.
  destruct (season_fold pix_ra start bn lim n (reports ops) (timed_C _ _ _ Ch T)) as (R1 & _ & R3). rewrite R3, R1, L. reflexivity.
Qed.
(** When no season of the pixel has started since the last reported visit, anywhere in the sky,
    the mask counts the visits since its season started. *)
Theorem C81_season_partial : forall pix_ra start bn n lim ops c p w, chrono (reports ops) -> (forall v, In v (reports ops) -> timed start lim v) ->
  last_opt (reports ops) = Some w -> (fv_mjd w <= mc_mjd c)%Q -> one_season (pix_ra p) (fv_mjd w) (mc_mjd c) ->
  exists counts : fvis -> bool, (forall v, In v (reports ops) -> (counts v = true <-> covers p v = true /\ in_band bn v = true /\ sharper lim v = true /\ one_season (pix_ra p) (fv_mjd v) (mc_mjd c))) /\
  mask (season_cls pix_ra start bn n lim) (cs0 pix_ra start) ops c p = if (n <=? count counts (reports ops))%Z then ENaN else EFin 0.
Proof.
  intros pix_ra start bn n lim ops c p w Ch T L Wc O.
  exists (fun v => (covers p v && in_band bn v && sharper lim v) && (pix_season pix_ra start p (fv_mjd v) =? pix_season pix_ra start p (fv_mjd w))%Z).
  split; [|apply season_mask; assumption]. intros v V. pose proof (chrono_last_mjd _ w v Ch L V) as Lv.
  rewrite !andb_true_iff, Z.eqb_eq. rewrite (one_season_iff pix_ra start p (fv_mjd v) (mc_mjd c)) by lra.
  apply (one_season_iff pix_ra start p _ _ Wc) in O. rewrite O. tauto.
Qed.
Print Assumptions C81_season_partial.
(** Over a run, within any stretch in which no season of the pixel starts. *)
Theorem C81_season_bound : forall pix_ra start bn n lim aim m ops p a b, (1 <= n)%Z -> (0 <= m)%Z -> chrono (reports ops) -> (forall v, In v (reports ops) -> timed start lim v) ->
  guided (season_cls pix_ra start bn n lim) (cs0 pix_ra start) (fun v => in_band bn v && sharper lim v) aim m ops ->
  (a <= b)%Q -> one_season (pix_ra p) a b ->
  (count (fun v => in_band bn v && sharper lim v && Nat.eqb (aim v) p && (Qle_bool a (fv_mjd v) && Qle_bool (fv_mjd v) b)) (reports ops) <= n - 1 + m)%Z.
Proof.
  intros pix_ra start bn n lim aim m ops p lo hi N M Ch T G Lh O. apply bound; [lia|]. intros a v b E P.
  rewrite !andb_true_iff, !Qle_bool_iff in P. destruct P as [[Pbs Pa] [Plo Phi]]. apply Nat.eqb_eq in Pa.
  destruct (G a v b E) as [I (a1 & c & a2 & Ea & Mk & C2)]; [apply andb_true_iff; exact Pbs|]. rewrite Pa in *. exists a1, c, a2. split; [exact Ea|]. split.
  2: { eapply Z.le_lt_trans; [|exact C2]. apply count_le. intros w _ Pw. rewrite !andb_true_iff in *. tauto. }
  assert (Er : reports ops = reports a1 ++ (reports a2 ++ v :: reports b)).
  { rewrite E, Ea, !reports_app. cbn [reports flat_map app]. rewrite <- app_assoc. reflexivity. }
  assert (In1 : forall w, In w (reports a1) -> In w (reports ops)) by (intros w W; rewrite Er; apply in_or_app; now left).
  destruct (last_opt (reports a1)) as [w|] eqn:L; [|apply last_opt_none in L; rewrite L; unfold count; cbn; lia].
  assert (Ch1 : chrono (reports a1)) by (rewrite Er in Ch; now apply chrono_pre in Ch).
  rewrite (season_mask pix_ra start bn n lim a1 c p w) in Mk; [|exact Ch1|auto|exact L].
  match type of Mk with (if (n <=? count ?q _)%Z then _ else _) <> _ => set (cnt := q) in Mk end.
  destruct (Z.leb_spec n (count cnt (reports a1))) as [D|D]; [congruence|].
  assert (K : (count (fun v => in_band bn v && sharper lim v && Nat.eqb (aim v) p && (Qle_bool lo (fv_mjd v) && Qle_bool (fv_mjd v) hi)) (reports a1) <= count cnt (reports a1))%Z); [|lia].
  apply count_le. intros u U Pu. rewrite !andb_true_iff, !Qle_bool_iff in Pu. destruct Pu as [[[U1 U2] U3] [U4 U5]]. unfold cnt. rewrite !andb_true_iff, Z.eqb_eq.
  assert (Wv : (fv_mjd w <= fv_mjd v)%Q).
  { rewrite Er in Ch. apply chrono_app in Ch. destruct Ch as (_ & _ & K). apply (K w v); [|apply in_or_app; right; now left].
    destruct (last_opt_split _ _ _ L) as (r & ->). apply in_or_app. right. now left. }
  pose proof (chrono_last_mjd _ w u Ch1 L U) as Uw.
  apply (one_season_iff pix_ra start p _ _ Lh) in O.
  pose proof (pix_season_mono pix_ra start p _ _ U4). pose proof (pix_season_mono pix_ra start p _ _ Uw). pose proof (pix_season_mono pix_ra start p _ _ Wv). pose proof (pix_season_mono pix_ra start p _ _ Phi).
  split; [|lia]. split; [|exact U2]. split; [|exact U1]. apply Nat.eqb_eq in U3.
  apply existsb_exists. exists p. split; [|apply Nat.eqb_refl]. rewrite <- U3.
  assert (Sp : exists u1 u2, a1 = u1 ++ Seen u :: u2).
  { clear - U. unfold reports in U. apply in_flat_map in U. destruct U as (o & O1 & O2). destruct o as [w'|d]; [|destruct O2]. destruct O2 as [<-|[]]. apply in_split. exact O1. }
  destruct Sp as (u1 & u2 & Eu). destruct (G u1 u (u2 ++ Ask c :: a2 ++ Seen v :: b)) as [Iw _]; [|rewrite U1, U2; reflexivity|exact Iw].
  rewrite E, Ea, Eu. repeat (rewrite <- app_assoc || cbn [app]). reflexivity.
Qed.
Print Assumptions C81_season_bound.
(** A new season has started and nothing has been taken in it, but the pixel stays masked until
    some visit is reported. *)
Theorem C81_season_refuted : exists pix_ra start n lim ops c p, (1 <= n)%Z /\ chrono (reports ops) /\ (forall v, In v (reports ops) -> timed start lim v) /\
  (forall v, In v (reports ops) -> (fv_mjd v <= mc_mjd c)%Q /\ ~ one_season (pix_ra p) (fv_mjd v) (mc_mjd c)) /\
  mask (season_cls pix_ra start None n lim) (cs0 pix_ra start) ops c p = ENaN.
Proof.
  exists (fun _ => 10%Q), 60980%Q, 1%Z, (13 # 10)%Q, [Seen (v0 1 61000 (EFin 1) [3; 4])], (61200%Q, 200%Z), 3. split; [lia|]. split; [repeat constructor|]. split.
  - intros v [<-|[]]. split; [vm_compute; congruence|]. exists 1%Q. split; [reflexivity|]. split; [intro X; discriminate X|right; reflexivity].
  - split; [|reflexivity]. intros v [<-|[]]. split; [vm_compute; congruence|]. intro O. apply (one_season_iff (fun _ => 10%Q) 60980 3) in O; [vm_compute in O; discriminate O|vm_compute; congruence].
Qed.
Print Assumptions C81_season_refuted.
(** A visit whose seeing is not known stops the per-season count with an error; the count without
    seasons takes it. *)
Theorem C81_seeing_refuted : exists v, proper None v /\
  cu_one (fun _ => 10%Q) 60980 None (13 # 10) (cs0 (fun _ => 10%Q) 60980) v = Raise ValueError /\
  exists f, no_one None None (LScalar (13 # 10)) 100 no_visits v = Ok f.
Proof.
  exists (v0 1 61000 ENaN [3]). split; [split; [repeat constructor; auto|exact I]|]. split; [reflexivity|]. eexists. vm_compute. reflexivity.
Qed.
Print Assumptions C81_seeing_refuted.

(** ** AvoidFastRevisits *)
Definition days (gap : Q) : Q := (gap / 60 / 24)%Q.
Definition last_time (bn : option string) (p : nat) (h : list fvis) : Q :=
  match last_opt (filter (fun v => covers p v && in_band bn v) h) with Some v => fv_mjd v | None => 0%Q end.
(** No pixel was last seen almost exactly the gap ago. *)
Definition no_tie (npix : nat) (gap : Q) (bn : option string) (ops : list (op mcond fvis)) (t : Q) : Prop :=
  forall p, p < npix -> (days gap == 0)%Q \/ ((1 # 1000000000) * Qabs (days gap) < Qabs (t - last_time bn p (reports ops) - days gap))%Q.
Lemma since_last : forall npix gap pen bn (ops : list (op mcond fvis)) t p, ld_C bn (reports ops) ->
  (since (fold_left (cl_add (gap_cls npix gap pen bn)) (reports ops) (fun _ => None)) t p == t - last_time bn p (reports ops))%Q.
Proof.
  intros npix gap pen bn ops t p C. pose proof (gap_fold npix gap pen bn (reports ops) C p) as R. unfold since, last_time. rewrite last_opt_map in R.
  change (filter (fun v => covers p v && in_band bn v) (reports ops)) with (filter (at_pix bn p) (reports ops)).
  destruct (fold_left _ _ _ p) as [q|], (last_opt (filter (at_pix bn p) (reports ops))) as [v|]; cbn in R; try contradiction; [rewrite R|]; reflexivity.
Qed.
Theorem C81_gap_partial : forall npix gap pen bn ops c p, chrono (reports ops) -> (forall v, In v (reports ops) -> proper bn v /\ (0 < fv_mjd v)%Q) ->
  p < npix -> no_tie npix gap bn ops (mc_mjd c) ->
  mask (gap_cls npix gap pen bn) (fun _ => None) ops c p = if Qltb (mc_mjd c - last_time bn p (reports ops)) (days gap) then pen else EFin 1.
Proof.
  intros npix gap pen bn ops c p Ch H Lp F. assert (C : ld_C bn (reports ops)) by (split; [exact Ch|]; intros v V; destruct (H v V) as [P ?]; destruct (proper_band bn v P); auto).
  rewrite mask_fresh by reflexivity. change (cl_calc (gap_cls npix gap pen bn)) with (fun (f : nat -> option Q) (c : mcond) => (f, gap_map npix gap pen f (mc_mjd c))). cbn [snd].
  pose proof (fun q => since_last npix gap pen bn ops (mc_mjd c) q C) as Sl. set (f := fold_left _ _ _) in *.
  rewrite gap_map_at; [|exact Lp|].
  - fold (days gap). destruct (Qltb (mc_mjd c - last_time bn p (reports ops)) (days gap)) eqn:X.
    + apply Qltb_lt in X. rewrite (proj2 (Qltb_lt _ _)); [reflexivity|]. rewrite Sl. exact X.
    + apply Qltb_false in X. rewrite (proj2 (Qltb_false _ _)); [reflexivity|]. rewrite Sl. exact X.
  - intros y Y. fold (days gap). destruct (F y Y) as [Z|Z]; [left; exact Z|]. right. rewrite Sl. exact Z.
Qed.
Print Assumptions C81_gap_partial.
(** A visit aimed at a pixel open when asked about follows every visit in the band reported before
    by the gap. *)
Theorem C81_gap_kept_partial : forall npix gap bn a c b v, chrono (reports (a ++ Ask c :: b ++ [Seen v])) ->
  (forall w, In w (reports a) -> proper bn w /\ (0 < fv_mjd w)%Q) -> forall p, p < npix -> (0 <= gap)%Q -> no_tie npix gap bn a (mc_mjd c) ->
  mask (gap_cls npix gap ENaN bn) (fun _ => None) a c p <> ENaN -> (mc_mjd c <= fv_mjd v)%Q ->
  forall w, In w (reports a) -> covers p w = true -> in_band bn w = true -> (days gap <= fv_mjd v - fv_mjd w)%Q.
Proof.
  intros npix gap bn a c b v Ch H p Lp Gp F Mk Lc w W Cw Bw.
  assert (Ch1 : chrono (reports a)) by (rewrite reports_app in Ch; now apply chrono_pre in Ch).
  rewrite C81_gap_partial in Mk by assumption. destruct (Qltb (mc_mjd c - last_time bn p (reports a)) (days gap)) eqn:X; [congruence|]. apply Qltb_false in X.
  assert (L : (fv_mjd w <= last_time bn p (reports a))%Q); [|lra]. unfold last_time.
  assert (Wf : In w (filter (fun v => covers p v && in_band bn v) (reports a))) by (apply filter_In; rewrite Cw, Bw; auto).
  destruct (last_opt (filter (fun v => covers p v && in_band bn v) (reports a))) as [u|] eqn:Lu; [|apply last_opt_none in Lu; rewrite Lu in Wf; destruct Wf].
  apply (chrono_last_mjd (filter (fun v => covers p v && in_band bn v) (reports a)) u w); [apply filter_chrono; exact Ch1|exact Lu|exact Wf].
Qed.
Print Assumptions C81_gap_kept_partial.
Ltac chr := unfold chrono; cbn; repeat first [apply SSorted_nil | apply SSorted_cons | apply Forall_nil | apply Forall_cons | apply conj]; vm_compute; congruence.
(** One pixel last seen exactly the gap ago opens every pixel seen within half a day. *)
Theorem C81_gap_refuted : exists npix gap bn ops c p v, p < npix /\ chrono (reports ops) /\ (forall v, In v (reports ops) -> proper bn v /\ (0 < fv_mjd v)%Q) /\
  In v (reports ops) /\ covers p v = true /\ in_band bn v = true /\ (mc_mjd c - fv_mjd v < days gap)%Q /\
  mask (gap_cls npix gap ENaN bn) (fun _ => None) ops c p = EFin 1.
Proof.
  exists 6, (45 # 2)%Q, None, [Seen (v0 1 60000 (EFin 1) [2]); Seen (v0 1 (60000 + (14 # 1000)) (EFin 1) [3; 4])], ((60000 + (1 # 64))%Q, 1%Z), 3, (v0 1 (60000 + (14 # 1000)) (EFin 1) [3; 4]).
  split; [lia|]. split; [chr|]. split.
  - intros v [<-|[<-|[]]]; (split; [split; [repeat constructor; cbn; intuition discriminate|exact I]|reflexivity]).
  - split; [right; left; reflexivity|]. split; [reflexivity|]. split; [reflexivity|]. split; [reflexivity|]. vm_compute. reflexivity.
Qed.
Print Assumptions C81_gap_refuted.

(** ** Examples *)
Definition ex_ops : list (op mcond fvis) :=
  [Ask (60000%Q, 1%Z); Seen (v0 1 60000 (EFin 1) [3; 4]); Ask ((60000 + (1 # 100))%Q, 1%Z); Seen (v0 1 (60000 + (1 # 100)) (EFin 1) [4; 5])].
Definition ex_aim (v : fvis) : nat := hd 0 (fv_pix v).
Ltac each := let H := fresh in intros ? H; cbn in H; repeat (destruct H as [<-|H]); [..|destruct H].
Example C81_ex_proper : forall v, In v (reports ex_ops) -> proper (Some "r"%string) v /\ (0 < fv_mjd v)%Q.
Proof. each; (split; [split; [repeat constructor; cbn; intuition discriminate|split; [eexists; reflexivity|discriminate]]|reflexivity]). Qed.
Example C81_ex_chrono : chrono (reports ex_ops).
Proof. chr. Qed.
Example C81_ex_after : guided (after_cls 2 (Some "r"%string) LNone) no_visits (in_band (Some "r"%string)) ex_aim 1 ex_ops /\
  map (mask (after_cls 2 (Some "r"%string) LNone) no_visits ex_ops (60001%Q, 2%Z)) [3; 4; 5; 6] = [EFin 0; ENaN; EFin 0; EFin 0].
Proof.
  split; [|reflexivity]. intros a v b E _. unfold ex_ops in E.
  destruct a as [|o1 [|o2 [|o3 [|o4 a]]]]; cbn in E; injection E; intros; subst; try discriminate; cbn;
    try (match goal with H : [] = _ ++ _ :: _ |- _ => destruct a; discriminate H end).
  - split; [left; reflexivity|]. exists [], (60000%Q, 1%Z), []. split; [reflexivity|]. split; [discriminate|reflexivity].
  - split; [left; reflexivity|]. eexists [_; _], _, []. split; [reflexivity|]. split; [discriminate|reflexivity].
Qed.
Example C81_ex_night : guided (night_cls 2 (Some "r"%string)) nb0 (in_band (Some "r"%string)) ex_aim 1 ex_ops /\
  (exists v, In v (reports ex_ops) /\ fv_night v = 1%Z) /\
  map (mask (night_cls 2 (Some "r"%string)) nb0 ex_ops (60001%Q, 1%Z)) [3; 4; 5; 6] = [EFin 0; ENaN; EFin 0; EFin 0].
Proof.
  split; [|split; [eexists; split; [left; reflexivity|reflexivity]|reflexivity]]. intros a v b E _. unfold ex_ops in E.
  destruct a as [|o1 [|o2 [|o3 [|o4 a]]]]; cbn in E; injection E; intros; subst; try discriminate; cbn;
    try (match goal with H : [] = _ ++ _ :: _ |- _ => destruct a; discriminate H end).
  - split; [left; reflexivity|]. exists [], (60000%Q, 1%Z), []. split; [reflexivity|]. split; [discriminate|reflexivity].
  - split; [left; reflexivity|]. eexists [_; _], _, []. split; [reflexivity|]. split; [discriminate|reflexivity].
Qed.
Definition ex_season : list (op mcond fvis) :=
  [Ask (61000%Q, 1%Z); Seen (v0 1 61000 (EFin 1) [3; 4]); Ask (61001%Q, 2%Z); Seen (v0 2 61001 (EFin 2) [3; 4]); Ask (61002%Q, 3%Z); Seen (v0 3 61002 (EFin 1) [4; 3])].
Example C81_ex_season : (forall v, In v (reports ex_season) -> timed 60980 (13 # 10) v) /\ chrono (reports ex_season) /\
  guided (season_cls (fun _ => 10%Q) 60980 None 2 (13 # 10)) (cs0 (fun _ => 10%Q) 60980) (fun v => in_band None v && sharper (13 # 10) v) ex_aim 1 ex_season /\
  one_season 10 61002 61003 /\
  map (mask (season_cls (fun _ => 10%Q) 60980 None 2 (13 # 10)) (cs0 (fun _ => 10%Q) 60980) ex_season (61003%Q, 4%Z)) [2; 3; 4] = [EFin 0; ENaN; ENaN].
Proof.
  split; [each; (split; [vm_compute; congruence|]); eexists; (split; [reflexivity|]); (split; [intro X; discriminate X|right; reflexivity])|].
  split; [chr|]. split; [|split; [|reflexivity]].
  - intros a v b E C. unfold ex_season in E.
    destruct a as [|o1 [|o2 [|o3 [|o4 [|o5 [|o6 a]]]]]]; cbn in E; injection E; intros; subst; try discriminate; cbn;
      try (match goal with H : [] = _ ++ _ :: _ |- _ => destruct a; discriminate H end).
    + split; [left; reflexivity|]. exists [], (61000%Q, 1%Z), []. split; [reflexivity|]. split; [discriminate|reflexivity].
    + split; [left; reflexivity|]. eexists [_; _; _; _], _, []. split; [reflexivity|]. split; [vm_compute; discriminate|reflexivity].
  - apply (one_season_iff (fun _ => 10%Q) 60980 0); [vm_compute; congruence|vm_compute; reflexivity].
Qed.
Example C81_ex_gap : no_tie 6 25 (Some "r"%string) ex_ops (60000 + (2 # 100)) /\
  map (mask (gap_cls 6 25 ENaN (Some "r"%string)) (fun _ => None) ex_ops ((60000 + (2 # 100))%Q, 1%Z)) [2; 3; 4; 5] = [EFin 1; EFin 1; ENaN; ENaN].
Proof.
  split; [|vm_compute; reflexivity]. intros p Hp. right. do 6 (destruct p as [|p]; [vm_compute; reflexivity|]). lia.
Qed.
