(** A whole slew under faster axes. *)
From Coq Require Import List Reals Lra Psatz String Bool.
From Verif Require Import Base Angles Jerk Jerk_proofs Kinem Percent_proofs.
Import ListNotations.
Open Scope list_scope.
Open Scope R_scope.

(** The same configuration with other axes. *)
Definition with_axes (P : cfg) (alt az rot dalt daz : axis) : cfg :=
  mkCfg (readtime P) (shuttertime P) (band_changetime P) (camera_fov P) (telrot_min P) (telrot_max P) rot
        (shutter_2motion P) dalt daz (domaz_settle P) (telalt_min P) (telalt_max P) (telaz_min P) (telaz_max P)
        alt az (mount_settle P) (ol_slope P) (cl_limit P) (cl_delay P) (park_alt P) (park_az P).
(** The second axis has limits at least as high as the first, whose are positive. *)
Definition quicker (x y : axis) : Prop :=
  0 < ax_v x /\ ax_v x <= ax_v y /\ 0 < ax_a x /\ ax_a x <= ax_a y /\ jpos (ax_j x) /\ jle (ax_j x) (ax_j y).

Lemma jt_dur : forall x d, 0 < ax_v x -> 0 < ax_a x -> jpos (ax_j x) -> jt x d = dur (ax_v x) (ax_a x) (ax_j x) d.
Proof. intros [v a [j|]] d Hv Ha Hj; unfold jt, dur; cbn in *; [now rewrite jerk_T|reflexivity]. Qed.
Lemma jt_le : forall x y d, quicker x y -> 0 <= d -> 0 <= jt y d <= jt x d.
Proof.
  intros x y d (V & VV & A & AA & J & JJ) Hd. pose proof (jle_pos _ _ J JJ) as J'.
  rewrite !jt_dur by (auto; lra). split; [apply dur_nonneg; auto; lra|now apply dur_limits].
Qed.

Definition ole (x y : option R) : Prop :=
  match x, y with Some a, Some b => a <= b | None, None => True | _, _ => False end.
Lemma ole_refl : forall x, ole x x. Proof. intros [x|]; cbn; lra. Qed.
Lemma omax_le : forall a b c d, ole a b -> ole c d -> ole (omax a c) (omax b d).
Proof. intros [a|] [b|] [c|] [d|]; cbn; try tauto. intros. now apply Rmax_Rmax_le || (apply Rmax_lub; [eapply Rle_trans; [eassumption|apply Rmax_l]|eapply Rle_trans; [eassumption|apply Rmax_r]]). Qed.
Lemma oadd_le : forall a b y z, ole a b -> y <= z -> ole (oadd a y) (oadd b z).
Proof. intros [a|] [b|] y z; cbn; try tauto. intros. lra. Qed.
Lemma Rmax_mono : forall a b c d, a <= b -> c <= d -> Rmax a c <= Rmax b d.
Proof. intros. apply Rmax_lub; [eapply Rle_trans; [|apply Rmax_l]|eapply Rle_trans; [|apply Rmax_r]]; lra. Qed.
Lemma Rmin_mono : forall a b c d, a <= b -> c <= d -> Rmin a c <= Rmin b d.
Proof. intros. apply Rmin_glb; [eapply Rle_trans; [apply Rmin_l|]|eapply Rle_trans; [apply Rmin_r|]]; lra. Qed.

Section Faster.
Variable E : conv.
Variable P : cfg.
Variables alt az rot dalt daz : axis.
Hypothesis Qalt : quicker (telalt P) alt.
Hypothesis Qaz : quicker (telaz P) az.
Hypothesis Qrot : quicker (telrot P) rot.
Hypothesis Qdalt : quicker (domalt P) dalt.
Hypothesis Qdaz : quicker (domaz P) daz.
Hypothesis Fov : 0 <= camera_fov P.
Hypothesis Settle : 0 <= domaz_settle P.
Let P' := with_axes P alt az rot dalt daz.

Lemma tel_le : forall o da z, 0 <= da -> ole (tel_time P' o da z) (tel_time P o da z).
Proof.
  intros o da z Hd. unfold tel_time. change (ol_time P' da) with (ol_time P da).
  change (mount_settle P') with (mount_settle P). change (telalt P') with alt. change (telaz P') with az.
  apply omax_le; [apply ole_refl|].
  pose proof (jt_le _ _ da Qalt Hd) as J1. destruct z as [z|]; cbn [option_map omax oadd ole]; [|exact I].
  pose proof (jt_le _ _ (Rabs z) Qaz (Rabs_pos z)) as J2.
  pose proof (Rmax_mono (jt alt da) (jt (telalt P) da) (jt az (Rabs z)) (jt (telaz P) (Rabs z)) ltac:(lra) ltac:(lra)) as M.
  pose proof (Rmax_l 0 (mount_settle P - ol_time P da)) as S0.
  destruct (Rlt_dec 0 (Rmax (jt alt da) (jt az (Rabs z)) + ol_time P da)),
    (Rlt_dec 0 (Rmax (jt (telalt P) da) (jt (telaz P) (Rabs z)) + ol_time P da)); cbn; lra.
Qed.
Lemma dome_le : forall lax da dz, 0 <= da -> 0 <= dz -> dome_time P' lax da dz <= dome_time P lax da dz.
Proof.
  intros lax da dz Ha Hz. unfold dome_time. change (camera_fov P') with (camera_fov P).
  change (domaz_settle P') with (domaz_settle P). change (domalt P') with dalt. change (domaz P') with daz.
  destruct lax.
  - destruct (Rlt_dec (da ^ 2 + dz ^ 2) (camera_fov P ^ 2)); [lra|].
    destruct Qdalt as (V & VV & _), Qdaz as (W & WW & _).
    apply Rmin_mono; apply Rmax_mono; apply div_anti; lra.
  - pose proof (jt_le _ _ da Qdalt Ha). pose proof (jt_le _ _ dz Qdaz Hz). apply Rmax_mono; [lra|].
    destruct (Rlt_dec 0 (jt daz dz)), (Rlt_dec 0 (jt (domaz P) dz)); lra.
Qed.
Lemma change_le : forall p n, better_band_changetime P' p n <= better_band_changetime P p n.
Proof.
  intros p n. unfold better_band_changetime. change (telrot P') with rot.
  pose proof (jt_le _ _ (Rabs (smallest_signed_angle p 0)) Qrot (Rabs_pos _)).
  pose proof (jt_le _ _ (Rabs (smallest_signed_angle 0 n)) Qrot (Rabs_pos _)). lra.
Qed.

(** What a slew answers, no slower than another answer. *)
Definition answers (x y : kin * res (option R)) : Prop :=
  fst x = fst y /\ match snd x, snd y with
                   | Ok t, Ok t' => ole t t'
                   | Raise e, Raise e' => e = e'
                   | _, _ => False end.

Lemma slew_le : forall s a, answers (slew_times E P' s a) (slew_times E P s a).
Proof.
  intros s a. unfold slew_times. destruct (negb (band_ok s a)) eqn:B; [now split|].
  destruct (dest E a) as [[[[al z] pa] ra] de]. destruct (rotation E a pa) as [rs rt].
  change (origin E P' s a) with (origin E P s a). destruct (origin E P s a) as [[sal sz] spa].
  change (aztel P' (k_cum s) sz z) with (aztel P (k_cum s) sz z).
  set (d := Rabs (al - sal)). assert (D : 0 <= d) by apply Rabs_pos.
  set (w := aztel P (k_cum s) sz z).
  change (telrot_min P') with (telrot_min P). change (telrot_max P') with (telrot_max P).
  change (telrot P') with rot. change (band_changetime P') with (band_changetime P).
  change (cl_limit P') with (cl_limit P). change (cl_delay P') with (cl_delay P).
  change (telalt_max P') with (telalt_max P). change (telalt_min P') with (telalt_min P).
  change (wraps P') with (wraps P).
  set (T' := omax (tel_time P' (k_overhead s) d w) (Some (dome_time P' (a_lax a) d (Rabs (smallest_signed_angle sz z))))).
  set (T0 := omax (tel_time P (k_overhead s) d w) (Some (dome_time P (a_lax a) d (Rabs (smallest_signed_angle sz z))))).
  assert (LT : ole T' T0).
  { apply omax_le; [now apply tel_le|]. cbn. apply dome_le; [exact D|apply Rabs_pos]. }
  clearbody T' T0.
  set (chg := negb (String.eqb (band_of s a) (k_band s))).
  (* everything after the rotator *)
  assert (FIN : forall cur t2' t2, ole t2' t2 ->
    ole (if Rlt_dec (telalt_max P) al then None else if Rlt_dec al (telalt_min P) then None else
           (if Rle_dec (cl_limit P) d then oadd (if k_parked s then t2' else if chg then
              (if a_while a then omax t2' (Some match a_const a, cur with false, Some (c, r) => better_band_changetime P' c r | _, _ => band_changetime P end)
               else oadd t2' match a_const a, cur with false, Some (c, r) => better_band_changetime P' c r | _, _ => band_changetime P end) else t2') (cl_delay P)
            else (if k_parked s then t2' else if chg then
              (if a_while a then omax t2' (Some match a_const a, cur with false, Some (c, r) => better_band_changetime P' c r | _, _ => band_changetime P end)
               else oadd t2' match a_const a, cur with false, Some (c, r) => better_band_changetime P' c r | _, _ => band_changetime P end) else t2')))
        (if Rlt_dec (telalt_max P) al then None else if Rlt_dec al (telalt_min P) then None else
           (if Rle_dec (cl_limit P) d then oadd (if k_parked s then t2 else if chg then
              (if a_while a then omax t2 (Some match a_const a, cur with false, Some (c, r) => better_band_changetime P c r | _, _ => band_changetime P end)
               else oadd t2 match a_const a, cur with false, Some (c, r) => better_band_changetime P c r | _, _ => band_changetime P end) else t2) (cl_delay P)
            else (if k_parked s then t2 else if chg then
              (if a_while a then omax t2 (Some match a_const a, cur with false, Some (c, r) => better_band_changetime P c r | _, _ => band_changetime P end)
               else oadd t2 match a_const a, cur with false, Some (c, r) => better_band_changetime P c r | _, _ => band_changetime P end) else t2)))).
  { intros cur t2' t2 L.
    assert (BC : match a_const a, cur with false, Some (c, r) => better_band_changetime P' c r | _, _ => band_changetime P end
      <= match a_const a, cur with false, Some (c, r) => better_band_changetime P c r | _, _ => band_changetime P end).
    { destruct (a_const a), cur as [[c r]|]; try lra. apply change_le. }
    destruct (Rlt_dec (telalt_max P) al); [exact I|]. destruct (Rlt_dec al (telalt_min P)); [exact I|].
    assert (L3 : ole (if k_parked s then t2' else if chg then
              (if a_while a then omax t2' (Some match a_const a, cur with false, Some (c, r) => better_band_changetime P' c r | _, _ => band_changetime P end)
               else oadd t2' match a_const a, cur with false, Some (c, r) => better_band_changetime P' c r | _, _ => band_changetime P end) else t2')
            (if k_parked s then t2 else if chg then
              (if a_while a then omax t2 (Some match a_const a, cur with false, Some (c, r) => better_band_changetime P c r | _, _ => band_changetime P end)
               else oadd t2 match a_const a, cur with false, Some (c, r) => better_band_changetime P c r | _, _ => band_changetime P end) else t2)).
    { destruct (k_parked s); [exact L|]. destruct chg; [|exact L]. destruct (a_while a); [now apply omax_le|now apply oadd_le]. }
    destruct (Rle_dec (cl_limit P) d); [|exact L3]. apply oadd_le; [exact L3|lra]. }
  assert (ANS : forall cur t2' t2, ole t2' t2 -> forall f, answers
     (match (if Rlt_dec (telalt_max P) al then None else if Rlt_dec al (telalt_min P) then None else
           (if Rle_dec (cl_limit P) d then oadd (if k_parked s then t2' else if chg then
              (if a_while a then omax t2' (Some match a_const a, cur with false, Some (c, r) => better_band_changetime P' c r | _, _ => band_changetime P end)
               else oadd t2' match a_const a, cur with false, Some (c, r) => better_band_changetime P' c r | _, _ => band_changetime P end) else t2') (cl_delay P)
            else (if k_parked s then t2' else if chg then
              (if a_while a then omax t2' (Some match a_const a, cur with false, Some (c, r) => better_band_changetime P' c r | _, _ => band_changetime P end)
               else oadd t2' match a_const a, cur with false, Some (c, r) => better_band_changetime P' c r | _, _ => band_changetime P end) else t2')))
      with None => (s, Ok None) | Some x => if a_update a then (f, Ok (Some x)) else (s, Ok (Some x)) end)
     (match (if Rlt_dec (telalt_max P) al then None else if Rlt_dec al (telalt_min P) then None else
           (if Rle_dec (cl_limit P) d then oadd (if k_parked s then t2 else if chg then
              (if a_while a then omax t2 (Some match a_const a, cur with false, Some (c, r) => better_band_changetime P c r | _, _ => band_changetime P end)
               else oadd t2 match a_const a, cur with false, Some (c, r) => better_band_changetime P c r | _, _ => band_changetime P end) else t2) (cl_delay P)
            else (if k_parked s then t2 else if chg then
              (if a_while a then omax t2 (Some match a_const a, cur with false, Some (c, r) => better_band_changetime P c r | _, _ => band_changetime P end)
               else oadd t2 match a_const a, cur with false, Some (c, r) => better_band_changetime P c r | _, _ => band_changetime P end) else t2)))
      with None => (s, Ok None) | Some x => if a_update a then (f, Ok (Some x)) else (s, Ok (Some x)) end)).
  { intros cur t2' t2 L f. specialize (FIN cur t2' t2 L).
    match type of FIN with ole ?x ?y => set (X := x) in *; set (Y := y) in * end. clearbody X Y.
    destruct X as [x|], Y as [y|]; cbn in FIN; try tauto; [|now split]. destruct (a_update a); now split. }
  clear FIN. destruct rt as [rt|]; [|apply (ANS None); exact LT].
  unfold bind. destruct (current_rot E s a spa) as [cur|e]; [|now split]. cbn beta iota.
  apply (ANS (Some (cur, rt))). apply omax_le.
  - destruct (Rlt_dec rt (telrot_min P)); [exact I|]. destruct (Rlt_dec (telrot_max P) rt); [exact I|exact LT].
  - cbn. destruct chg; [lra|]. pose proof (jt_le _ _ (Rabs (smallest_signed_angle cur rt)) Qrot (Rabs_pos _)). lra.
Qed.
End Faster.
