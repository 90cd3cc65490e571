(** C66: the shadow mask leaves open the pixels that stay inside every limit.
    [within] and [az_in] (Shadow_proofs.v) say, by whole turns, that an azimuth lies
    between two limits. *)
From Coq Require Import List ZArith QArith Qround Qabs Bool Lia Lqa.
From Verif Require Import Base Shadow Shadow_proofs.
Import ListNotations.
Open Scope Q_scope.

Section C66.
Variable lt : Q -> Q -> bool.
Variable tp : Q.
Variable grow : list nat -> list nat.
Variable now : list (Q * Q).
Variable fut : Q -> list (Q * Q).

Definition alt_in (r : Q * Q) (x : Q) : Prop := lt x (fst r) = false /\ lt (snd r) x = false.
Definition az_ok (r : Q * Q) (x : Q) : Prop := az_in tp (fst r) (snd r) x.
(** Everything but the azimuth limits of the caller, for a pixel now at (a, z) and later
    at (b, y). *)
Definition inside (L : limits) (alim : Q * Q) (a z b y : Q) : Prop :=
  (alt_in alim a /\ alt_in alim b) /\
  (sky_alt L <> [] -> exists r, In r (sky_alt L) /\ alt_in r a /\ alt_in r b) /\
  (forall r, tel_alt L = Some r -> alt_in r a /\ alt_in r b) /\
  (sky_az L <> [] -> exists r, In r (sky_az L) /\ az_ok r z /\ az_ok r y) /\
  (forall r, tel_az L = Some r -> az_ok r z /\ az_ok r y).

Lemma alt_bad_spec : forall r a b, alt_bad lt (fst r) (snd r) a b = false <-> alt_in r a /\ alt_in r b.
Proof. intros r a b. unfold alt_bad, alt_in. rewrite !orb_false_iff. tauto. Qed.
Lemma forallb_ex : forall A (f : A -> bool) l, forallb f l = false <-> exists x, In x l /\ f x = false.
Proof.
  intros A f. induction l as [|x l IH]; cbn; [split; [discriminate|intros (y & [] & _)]|].
  rewrite andb_false_iff, IH. split.
  - intros [H|(y & Y & H)]; eauto.
  - intros (y & [->|Y] & H); eauto.
Qed.
Lemma pix_spec : forall L alim zlim a z b y, 0 < tp ->
  (pix_bad lt tp L alim zlim ((a, z), (b, y)) = false <->
   inside L alim a z b y /\ az_ok zlim z /\ az_ok zlim y).
Proof.
  intros L alim zlim a z b y Hm. unfold pix_bad, inside. rewrite !orb_false_iff, alt_bad_spec.
  assert (S1 : match sky_alt L with [] => false | l => forallb (fun r => alt_bad lt (fst r) (snd r) a b) l end = false <->
    (sky_alt L <> [] -> exists r, In r (sky_alt L) /\ alt_in r a /\ alt_in r b)).
  { destruct (sky_alt L) as [|r l] eqn:E; [split; [congruence|reflexivity]|]. rewrite forallb_ex. split.
    - intros (x & X & H) _. exists x. rewrite alt_bad_spec in H. auto.
    - intros H. destruct H as (x & X & H); [discriminate|]. exists x. rewrite alt_bad_spec. auto. }
  assert (S2 : match tel_alt L with Some r => alt_bad lt (fst r) (snd r) a b | None => false end = false <->
    (forall r, tel_alt L = Some r -> alt_in r a /\ alt_in r b)).
  { destruct (tel_alt L) as [r|]; [|split; [discriminate|reflexivity]]. rewrite alt_bad_spec. split.
    - intros H x X. injection X as <-. exact H.
    - intros H. exact (H r eq_refl). }
  assert (S3 : match sky_az L with [] => false | l => forallb (fun r => az_bad tp (fst r) (snd r) z y) l end = false <->
    (sky_az L <> [] -> exists r, In r (sky_az L) /\ az_ok r z /\ az_ok r y)).
  { destruct (sky_az L) as [|r l] eqn:E; [split; [congruence|reflexivity]|]. rewrite forallb_ex. split.
    - intros (x & X & H) _. exists x. rewrite az_bad_spec in H by assumption. auto.
    - intros H. destruct H as (x & X & H); [discriminate|]. exists x. rewrite az_bad_spec by assumption. auto. }
  assert (S4 : match tel_az L with Some r => az_bad tp (fst r) (snd r) z y | None => false end = false <->
    (forall r, tel_az L = Some r -> az_ok r z /\ az_ok r y)).
  { destruct (tel_az L) as [r|]; [|split; [discriminate|reflexivity]]. rewrite az_bad_spec by assumption. split.
    - intros H x X. injection X as <-. exact H.
    - intros H. exact (H r eq_refl). }
  rewrite S1, S2, S3, S4, az_bad_spec by assumption. unfold az_ok. tauto.
Qed.

(** An open pixel, now and at every sampled time, is inside the altitude limits, the
    telescope limits, and one of the allowed ranges of each kind; it is inside the
    caller's azimuth range now and at the first sampled time. *)
Theorem C66_open_inside : forall L alim zlim shadow step pad p a z,
  0 < tp -> (forall t, length (fut t) = length now) ->
  nth_error now p = Some (a, z) ->
  nth_error (shadow_mask lt tp grow now fut L alim zlim shadow step pad) p = Some false ->
  forall i t b y, nth_error (shadow_times shadow step) i = Some t -> nth_error (fut t) p = Some (b, y) ->
    inside L alim a z b y /\ (i = O -> az_ok zlim z /\ az_ok zlim y).
Proof.
  intros L alim zlim shadow step pad p a z Hm Hl Hn H.
  assert (G : good_run lt tp now fut L alim p (shadow_times shadow step) zlim).
  { destruct (loop_nth lt tp now fut L alim Hl (shadow_times shadow step) zlim p (a, z) Hn) as (c & C & I).
    apply I. unfold shadow_mask in H. destruct (Qltb 0 pad); [apply set_mask_nth in H|]; congruence. }
  clear H. revert zlim G. generalize (shadow_times shadow step) as ts.
  induction ts as [|t ts IH]; intros zlim G i t' b y Ht Hf; [destruct i; discriminate|]. destruct G as [G1 G2].
  destruct i as [|i]; cbn in Ht.
  - injection Ht as <-. specialize (G1 _ _ Hn Hf). apply pix_spec in G1; [|assumption]. tauto.
  - split; [|discriminate]. exact (proj1 (IH _ G2 i t' b y Ht Hf)).
Qed.

(** Partial: with no padding, the open pixels are exactly those inside every limit at every
    sampled time, provided the conditions carry no azimuth range, or one range while the
    caller's own limits are a full turn.  Missing: several ranges, or one range and a
    caller's limit; both refuted below. *)
Theorem C66_open_exact_partial : forall L alim zlim shadow step p a z,
  0 < tp -> (forall t, length (fut t) = length now) ->
  nth_error now p = Some (a, z) ->
  sky_az L = [] \/ (exists r, sky_az L = [r]) /\ tp <= Qabs (snd zlim - fst zlim) ->
  (nth_error (shadow_mask lt tp grow now fut L alim zlim shadow step 0) p = Some false <->
   forall t b y, In t (shadow_times shadow step) -> nth_error (fut t) p = Some (b, y) ->
     inside L alim a z b y /\ az_ok zlim z /\ az_ok zlim y).
Proof.
  intros L alim zlim shadow step p a z Hm Hl Hn Hz.
  destruct (loop_nth lt tp now fut L alim Hl (shadow_times shadow step) zlim p (a, z) Hn) as (c & C & I).
  unfold shadow_mask. change (Qltb 0 0) with false. cbv iota. rewrite C.
  assert (Q : Some c = Some false <-> c = false) by (split; congruence). rewrite Q, I. clear Q C I.
  assert (Gen : forall ts zl, zl = zlim \/ (exists r, sky_az L = [r] /\ zl = r) /\ tp <= Qabs (snd zlim - fst zlim) ->
    (good_run lt tp now fut L alim p ts zl <->
     forall t b y, In t ts -> nth_error (fut t) p = Some (b, y) -> inside L alim a z b y /\ az_ok zlim z /\ az_ok zlim y)).
  { induction ts as [|t ts IH]; intros zl Hzl; [cbn; split; [intros _ t b y []|trivial]|].
    assert (Hnext : last (sky_az L) zl = zlim \/ (exists r, sky_az L = [r] /\ last (sky_az L) zl = r) /\ tp <= Qabs (snd zlim - fst zlim)).
    { destruct Hz as [E|[[r E] F]].
      - rewrite E. cbn. destruct Hzl as [->|[[r [E' _]] _]]; [left; reflexivity|congruence].
      - right. split; [|exact F]. exists r. rewrite E. auto. }
    cbn [good_run]. rewrite (IH _ Hnext).
    assert (One : (forall n f, nth_error now p = Some n -> nth_error (fut t) p = Some f -> pix_bad lt tp L alim zl (n, f) = false) <->
      (forall b y, nth_error (fut t) p = Some (b, y) -> inside L alim a z b y /\ az_ok zlim z /\ az_ok zlim y)).
    { split.
      - intros H b y F. specialize (H _ _ Hn F). apply pix_spec in H; [|assumption].
        destruct Hzl as [->|[_ Full]]; [tauto|]. split; [tauto|]. split; left; exact Full.
      - intros H n [b y] Hn' F. assert (n = (a, z)) by congruence. subst n. apply pix_spec; [assumption|].
        specialize (H b y F). destruct Hzl as [->|[[r [E ->]] _]]; [tauto|]. split; [tauto|].
        destruct H as [(_ & _ & _ & S3 & _) _]. rewrite E in S3. destruct S3 as (r' & R & A & B); [discriminate|].
        destruct R as [->|[]]. auto. }
    rewrite One. split.
    - intros [A B] t' b y [<-|T] F; eauto.
    - intros H. split; [intros b y F; apply (H t); auto; left; reflexivity|].
      intros t' b y T F. apply (H t'); auto. right. exact T. }
  apply Gen. left. reflexivity.
Qed.
End C66.

(** The sampled times cover the window: they lie in it, the end is one of them, and every
    moment of the window is less than one step from a sampled time. *)
Theorem C66_times_cover : forall shadow step, 0 < step -> 0 <= shadow ->
  In shadow (shadow_times shadow step) /\
  (forall t, In t (shadow_times shadow step) -> 0 <= t <= shadow) /\
  (forall x, 0 <= x <= shadow -> exists t, In t (shadow_times shadow step) /\ Qabs (t - x) < step).
Proof.
  intros shadow step Hs H0. destruct (Qlt_le_dec shadow step) as [Lt|Le].
  - rewrite (times_short shadow step Hs Lt H0). split; [left; reflexivity|]. split.
    + intros t [<-|[]]. lra.
    + intros x Hx. exists shadow. split; [left; reflexivity|]. rewrite Qabs_pos; lra.
  - destruct (times_shape shadow step Hs Le) as (n & Hn & [B1 B2] & ->).
    split; [apply in_or_app; right; left; reflexivity|]. split.
    + intros t T. apply in_app_or in T. destruct T as [T|[<-|[]]]; [|lra].
      apply in_map_iff in T. destruct T as (k & <- & K). apply in_seq in K.
      assert (0 <= inject_Z (Z.of_nat k)) by (change 0 with (inject_Z 0); rewrite <- Zle_Qle; lia).
      assert (inject_Z (Z.of_nat k) <= inject_Z (Z.of_nat n)) by (rewrite <- Zle_Qle; lia).
      assert (step * 0 <= step * inject_Z (Z.of_nat k)) by (apply Qmult_le_l; auto).
      assert (step * inject_Z (Z.of_nat k) <= step * inject_Z (Z.of_nat n)) by (apply Qmult_le_l; auto). lra.
    + intros x Hx. pose proof (Qfloor_le (x / step)) as F1. pose proof (Qlt_floor (x / step)) as F2.
      set (f := Qfloor (x / step)) in *. rewrite inject_Z_plus in F2. change (inject_Z 1) with 1 in F2.
      assert (E : x == step * (x / step)) by (field; lra).
      assert (P : (0 <= f)%Z).
      { unfold f. change 0%Z with (Qfloor 0). apply Qfloor_resp_le, Qle_shift_div_l; lra. }
      assert (A1 : step * inject_Z f <= x) by (rewrite E at 1; apply Qmult_le_l; auto).
      assert (A2 : x < step * (inject_Z f + 1)) by (rewrite E at 1; apply Qmult_lt_l; auto).
      destruct (Z_lt_le_dec f (Z.of_nat n)) as [C|C].
      * exists (inject_Z (Z.of_nat (Z.to_nat f)) * step). split.
        { apply in_or_app. left. apply in_map_iff. exists (Z.to_nat f). split; [reflexivity|]. apply in_seq. lia. }
        rewrite Z2Nat.id by lia. apply Qabs_case; intros; lra.
      * exists shadow. split; [apply in_or_app; right; left; reflexivity|].
        assert (D : inject_Z (Z.of_nat n) <= inject_Z f) by (rewrite <- Zle_Qle; lia).
        assert (step * inject_Z (Z.of_nat n) <= step * inject_Z f) by (apply Qmult_le_l; auto).
        replace (Z.of_nat (S n)) with (Z.of_nat n + 1)%Z in B2 by lia. rewrite inject_Z_plus in B2.
        change (inject_Z 1) with 1 in B2. rewrite Qabs_pos; lra.
Qed.

(** Partial: over any sequence of calls the cached mask is the one for the limits in force,
    if two calls with the same arguments (time included) always see the same limits. *)
Theorem C66_cache_partial : forall (A : Type) (aeq : A -> A -> bool)
    (mask_for : A -> limits -> list bool) (h : list (A * limits)),
  (forall a b, aeq a b = true <-> a = b) ->
  (forall a L L', In (a, L) h -> In (a, L') h -> L = L') ->
  calls A (list bool) limits aeq mask_for 5 [] h = map (fun p => mask_for (fst p) (snd p)) h.
Proof.
  intros A aeq mask_for h He Hh. apply calls_ok; auto.
  - intros k e e' X Y. rewrite (Hh k e e' X Y). reflexivity.
  - intros k v e [].
Qed.
Print Assumptions C66_open_inside.
Print Assumptions C66_open_exact_partial.
Print Assumptions C66_times_cover.
Print Assumptions C66_cache_partial.

(** Degrees, a turn of 360, exact comparison; five pixels, the last moving in azimuth. *)
Definition xfut (t : Q) : list (Q * Q) := [(40, 10); (15, 20); (50, 200); (60, 350); (45, 80 + 200 * t)].
Definition xmask L zlim shadow step :=
  shadow_mask Qltb 360 (fun ix => ix) (xfut 0) xfut L (20, 86) zlim shadow step 0.
Example C66_example :
  shadow_times (45 # 1440) (10 # 1440) = [0 * (10 # 1440); 1 * (10 # 1440); 2 * (10 # 1440); 3 * (10 # 1440); 45 # 1440] /\
  xmask (mkLim [(20, 45); (55, 80)] (Some (10, 88)) [(300, 60)] (Some (-270, 270))) (0, 360) 2 1
    = [false; true; true; false; true] /\
  (within 360 300 60 10 /\ ~ within 360 300 60 200).
Proof.
  split; [vm_compute; reflexivity|]. split; [vm_compute; reflexivity|].
  split; [apply within_fmod; [lra|vm_compute; reflexivity]|]. intro H. apply within_fmod in H; [|lra].
  vm_compute in H. discriminate.
Qed.

(** Calls at two times, the second twice: the masks are those of the limits at each time. *)
Definition xcalls : list (nat * limits) :=
  [(1%nat, mkLim [] None [] None); (2%nat, mkLim [] (Some (45, 88)) [] None);
   (2%nat, mkLim [] (Some (45, 88)) [] None); (1%nat, mkLim [] None [] None)].
Example C66_cache_example :
  (forall a x y, In (a, x) xcalls -> In (a, y) xcalls -> x = y) /\
  calls nat (list bool) limits Nat.eqb (fun _ l => xmask l (0, 360) 2 1) 5 [] xcalls =
    [[false; true; false; false; false]; [true; true; false; false; false]; [true; true; false; false; false]; [false; true; false; false; false]].
Proof.
  split; [|vm_compute; reflexivity].
  intros a x y H1 H2. cbn in H1, H2. destruct H1 as [H1|[H1|[H1|[H1|[]]]]]; inversion H1; subst;
    destruct H2 as [H2|[H2|[H2|[H2|[]]]]]; inversion H2; subst; reflexivity.
Qed.

(** Refuted: pixels inside an allowed azimuth range at all times stay open.  With two
    ranges only the last one survives the first time step. *)
Theorem C66_two_ranges_refuted : exists L p r,
  In r (sky_az L) /\
  (forall t, In t (shadow_times 2 1) -> exists b y, nth_error (xfut t) p = Some (b, y) /\
     alt_in Qltb (20, 86) b /\ within 360 (fst r) (snd r) y) /\
  sky_alt L = [] /\ tel_alt L = None /\ tel_az L = None /\
  nth_error (xmask L (0, 360) 2 1) p = Some true.
Proof.
  exists (mkLim [] None [(0, 90); (180, 270)] None), 0%nat, (0, 90).
  split; [left; reflexivity|]. split; [|vm_compute; auto].
  intros t T. exists 40, 10. split; [reflexivity|]. split; [split; reflexivity|].
  apply within_fmod; [lra|vm_compute; reflexivity].
Qed.
(** Refuted: an open pixel stays inside the azimuth range the caller asked for.  Any
    allowed range in the conditions replaces it after the first time step. *)
Theorem C66_caller_range_refuted : exists L zlim p t b y,
  In t (shadow_times 1 (1 # 2)) /\ nth_error (xfut t) p = Some (b, y) /\
  Qabs (snd zlim - fst zlim) < 360 /\ ~ within 360 (fst zlim) (snd zlim) y /\
  nth_error (xmask L zlim 1 (1 # 2)) p = Some false.
Proof.
  exists (mkLim [] None [(0, 300)] None), (0, 90), 4%nat, 1, 45, (80 + 200 * 1).
  split; [right; right; left; reflexivity|]. split; [reflexivity|]. split; [reflexivity|].
  split; [|vm_compute; reflexivity]. intro H. apply within_fmod in H; [|lra]. vm_compute in H. discriminate.
Qed.
(** Refuted: the mask follows the limits.  After a call the same call returns the old mask
    whatever the limits are now. *)
Theorem C66_cache_refuted : exists (L L' : limits) p,
  let mask_for := fun (_ : unit) l => xmask l (0, 360) 2 1 in
  (exists m, calls unit (list bool) limits (fun _ _ => true) mask_for 5 [] [(tt, L); (tt, L')] = [m; m] /\
     nth_error m p = Some false) /\
  nth_error (mask_for tt L') p = Some true.
Proof.
  exists (mkLim [] None [] None), (mkLim [] (Some (45, 88)) [] None), 0%nat.
  split; [|vm_compute; reflexivity]. eexists. split; [vm_compute; reflexivity|reflexivity].
Qed.
Print Assumptions C66_two_ranges_refuted.
Print Assumptions C66_caller_range_refuted.
Print Assumptions C66_cache_refuted.
