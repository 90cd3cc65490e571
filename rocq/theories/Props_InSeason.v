(** C160: rewards of fields in season. *)
From Coq Require Import List ZArith QArith Qabs Qround Bool String Lia Lqa.
From Verif Require Import Base Script Script_proofs TimeGate_proofs InSeason.
Import ListNotations.
Open Scope Q_scope.

(** As the code stands none of the three can be used: two ask the conditions for the
    attributes sunRA and season, which they do not have, whatever they hold; the third
    cannot be made with its default, and made otherwise it asks for sunRA. *)
Theorem C160_used_refuted : forall p v w curve mjd cadence span sky upd n frac sky2 limit sky3,
  in_season p cond_names v mjd cadence span sky = Raise AttributeError /\
  (exists e, coverage cond_names w upd n frac sky2 = Raise e) /\ (upd = Ok tt -> coverage cond_names w upd n frac sky2 = Raise AttributeError) /\
  trap_init p None = Raise TypeError /\
  forall h, trap_init p (Some h) = Ok limit -> trap_call p cond_names v curve limit mjd sky3 = Raise AttributeError.
Proof.
  intros. split; [reflexivity|]. split; [destruct upd as [[]|e]; eexists; reflexivity|]. split; [intros ->; reflexivity|]. split; [reflexivity|].
  intros h _. reflexivity.
Qed.
Print Assumptions C160_used_refuted.
(** The sun's right ascension is there, under another name. *)
Example C160_names_example : cond_get cond_names (fun _ => 3) "sun_ra" = Ok 3.
Proof. reflexivity. Qed.

(** Given the attribute, the angle compared with the season is the way from the pixel to
    the point opposite the sun, the shorter one. *)
Theorem C160_angle : forall p sun ra, 0 < p -> 0 <= ra < 2 * p ->
  let a := to_mid_season p sun ra in
  0 <= a <= p /\ (exists k : Z, a == ra - (sun + p) + inject_Z k * (2 * p) \/ - a == ra - (sun + p) + inject_Z k * (2 * p)) /\
  forall k : Z, a <= Qabs (ra - (sun + p) + inject_Z k * (2 * p)).
Proof.
  intros p sun ra P R a. assert (T : 0 < 2 * p) by lra. pose proof (Qmod_range (sun + p) (2 * p) T) as M.
  destruct (Qmod_shift (sun + p) (2 * p) T) as [j J]. set (mid := Qmod (sun + p) (2 * p)) in *.
  assert (X : 0 <= a <= p /\ exists k : Z, a == ra - (sun + p) + inject_Z k * (2 * p) \/ - a == ra - (sun + p) + inject_Z k * (2 * p)).
  { unfold a, to_mid_season. fold mid. cbv zeta.
    assert (AB : (ra - mid >= 0 /\ Qabs (ra - mid) == ra - mid) \/ (ra - mid < 0 /\ Qabs (ra - mid) == mid - ra)).
    { destruct (Qlt_le_dec (ra - mid) 0) as [L|L]; [right|left]; (split; [lra|]); [rewrite Qabs_neg; lra|rewrite Qabs_pos; lra]. }
    set (b := Qabs (ra - mid)) in *. clearbody b.
    destruct (Qltb p b) eqn:E.
    - apply Qltb_lt in E. split; [destruct AB as [[? ?]|[? ?]]; split; lra|]. destruct AB as [[A B]|[A B]].
      + exists (- j - 1)%Z. right. unfold Z.sub. rewrite inject_Z_plus, inject_Z_opp. change (inject_Z (- (1))) with (- (1)). nra.
      + exists (- j + 1)%Z. left. rewrite inject_Z_plus, inject_Z_opp. change (inject_Z 1) with 1. nra.
    - apply Qltb_false in E. split; [destruct AB as [[? ?]|[? ?]]; split; lra|]. exists (- j)%Z. rewrite inject_Z_opp. destruct AB as [[A B]|[A B]]; [left|right]; nra. }
  destruct X as [B [k K]]. split; [exact B|]. split; [exists k; exact K|]. intros m.
  clearbody a. clear M J mid j. set (d := ra - (sun + p)) in *.
  assert (Z3 : (m <= k - 1 \/ m = k \/ k + 1 <= m)%Z) by lia.
  assert (I : (m <= k - 1)%Z -> inject_Z m <= inject_Z k - 1).
  { intros H. rewrite Zle_Qle in H. unfold Z.sub in H. rewrite inject_Z_plus in H. change (inject_Z (- (1))) with (- (1)) in H. lra. }
  assert (I' : (k + 1 <= m)%Z -> inject_Z k + 1 <= inject_Z m).
  { intros H. rewrite Zle_Qle, inject_Z_plus in H. exact H. }
  destruct Z3 as [H|[H|H]].
  - specialize (I H). assert (L : inject_Z m * (2 * p) <= (inject_Z k - 1) * (2 * p)) by (apply Qmult_le_r; lra).
    destruct K as [K|K]; (apply Qle_trans with (- (d + inject_Z m * (2 * p))); [lra|rewrite <- Qabs_opp; apply Qle_Qabs]).
  - subst m. destruct K as [K|K]; [rewrite <- K; apply Qle_Qabs|rewrite <- K, Qabs_opp; apply Qle_Qabs].
  - specialize (I' H). assert (L : (inject_Z k + 1) * (2 * p) <= inject_Z m * (2 * p)) by (apply Qmult_le_r; lra).
    destruct K as [K|K]; (apply Qle_trans with (d + inject_Z m * (2 * p)); [lra|apply Qle_Qabs]).
Qed.
Print Assumptions C160_angle.

(** Given the attributes, CadenceInSeason is 1 exactly in the driven pixels within the
    span of the point opposite the sun whose last visit is the cadence back or more, and
    0 elsewhere; SeasonCoverage is 1 exactly in the pixels of the footprint that lack
    visits once their season is far enough along; the trapezoid is the curve where it
    applies and nothing out of season. *)
Definition near (p sun ra w : Q) : Prop := exists k : Z, Qabs (ra - (sun + p) + inject_Z k * (2 * p)) < w.
Lemma near_iff : forall p sun ra w, 0 < p -> 0 <= ra < 2 * p -> near p sun ra w <-> to_mid_season p sun ra < w.
Proof.
  intros p sun ra w P R. destruct (C160_angle p sun ra P R) as (B & [k K] & M). split.
  - intros [m H]. eapply Qle_lt_trans; [apply (M m)|exact H].
  - intros H. exists k. assert (E : Qabs (ra - (sun + p) + inject_Z k * (2 * p)) == to_mid_season p sun ra).
    { destruct K as [K|K]; rewrite <- K; rewrite ?Qabs_opp; apply Qabs_pos; lra. }
    rewrite E. exact H.
Qed.

Theorem C160_in_season : forall p names v mjd cadence span sky i s, 0 < p -> In "sunRA"%string names ->
  nth_error sky i = Some s -> 0 <= sp_ra s < 2 * p ->
  exists out x, in_season p names v mjd cadence span sky = Ok out /\ nth_error out i = Some x /\
  (x = 1 \/ x = 0) /\
  (x = 1 <-> cadence <= mjd - sp_last s /\ sp_drive s = 1%Z /\ near p (v "sunRA"%string) (sp_ra s) (span / 12 * p)).
Proof.
  intros p names v mjd cadence span sky i s P I N R. unfold in_season, cond_get.
  assert (X : existsb (String.eqb "sunRA") names = true) by (apply existsb_exists; eexists; split; [exact I|apply String.eqb_refl]).
  rewrite X. cbn [bind]. eexists. eexists. split; [reflexivity|]. split; [rewrite nth_error_map, N; reflexivity|].
  rewrite (near_iff p _ _ _ P R).
  destruct (_ && _ && _) eqn:E; (split; [auto|]).
  - split; [intros _|reflexivity]. apply andb_true_iff in E. destruct E as [E C]. apply andb_true_iff in E. destruct E as [A B].
    apply Qle_bool_iff in A. apply Z.eqb_eq in B. apply Qltb_lt in C. auto.
  - split; [discriminate|]. intros (A & B & C). apply Qle_bool_iff in A. apply Z.eqb_eq in B. apply Qltb_lt in C. rewrite A, B, C in E. discriminate.
Qed.
Print Assumptions C160_in_season.

Theorem C160_coverage : forall names v n frac sky i foot c s, In "season"%string names ->
  nth_error sky i = Some (foot, c) -> nth_error (v "season"%string) i = Some s ->
  exists out x, coverage names v (Ok tt) n frac sky = Ok out /\ nth_error out i = Some x /\ (x = 1 \/ x = 0) /\
  (x = 1 <-> 0 < foot /\ c < n /\ exists k : Z, inject_Z k <= s < inject_Z k + 1 /\ inject_Z k + frac < s).
Proof.
  intros names v n frac sky i foot c s I N S. unfold coverage, cond_get.
  assert (X : existsb (String.eqb "season") names = true) by (apply existsb_exists; eexists; split; [exact I|apply String.eqb_refl]).
  rewrite X. cbn [bind].
  assert (NC : forall (l : list (Q * Q)) (m : list Q) i, nth_error l i = Some (foot, c) -> nth_error m i = Some s -> nth_error (combine l m) i = Some ((foot, c), s)).
  { induction l as [|a l IH]; intros [|b m] [|j]; cbn; try discriminate; [intros A B; congruence|apply IH]. }
  eexists. eexists. split; [reflexivity|]. split; [rewrite nth_error_map, (NC _ _ _ N S); reflexivity|].
  pose proof (Qfloor_le s) as F1. pose proof (Qlt_floor s) as F2. rewrite inject_Z_plus in F2. change (inject_Z 1) with 1 in F2.
  cbv beta iota. destruct (_ && _ && _) eqn:E; (split; [auto|]).
  - split; [intros _|reflexivity]. apply andb_true_iff in E. destruct E as [E C]. apply andb_true_iff in E. destruct E as [A B].
    apply Qltb_lt in A. apply Qltb_lt in B. apply Qltb_lt in C. split; [exact A|]. split; [exact B|]. exists (Qfloor s). split; [split; assumption|lra].
  - split; [discriminate|]. intros (A & B & k & [K1 K2] & C). exfalso.
    assert (k = Qfloor s) as ->.
    { assert (inject_Z k < inject_Z (Qfloor s + 1)) as U by (rewrite inject_Z_plus; change (inject_Z 1) with 1; lra).
      assert (inject_Z (Qfloor s) < inject_Z (k + 1)) as W by (rewrite inject_Z_plus; change (inject_Z 1) with 1; lra).
      rewrite <- Zlt_Qlt in U, W. lia. }
    assert (C' : frac < s - inject_Z (Qfloor s)) by lra.
    apply Qltb_lt in A. apply Qltb_lt in B. apply Qltb_lt in C'. rewrite A, B, C' in E. discriminate.
Qed.
Print Assumptions C160_coverage.

Theorem C160_trapezoid : forall p names v curve h limit mjd sky i s app, 0 < p -> In "sunRA"%string names -> trap_init p (Some h) = Ok limit ->
  nth_error sky i = Some (s, app) -> 0 <= sp_ra s < 2 * p ->
  exists out x, trap_call p names v curve limit mjd sky = Ok out /\ nth_error out i = Some x /\
  (app = true -> (forall k : Z, ~ Qabs (sp_ra s - (v "sunRA"%string + p) + inject_Z k * (2 * p)) <= h / 12 * p) -> x = 0) /\
  (app = true -> near p (v "sunRA"%string) (sp_ra s) (h / 12 * p) -> x = curve (mjd - sp_last s)) /\
  (app = false -> x = 0).
Proof.
  intros p names v curve h limit mjd sky i s app P I L N R. injection L as <-. unfold trap_call, cond_get.
  assert (X : existsb (String.eqb "sunRA") names = true) by (apply existsb_exists; eexists; split; [exact I|apply String.eqb_refl]).
  rewrite X. cbn [bind]. eexists. eexists. split; [reflexivity|]. split; [rewrite nth_error_map, N; reflexivity|].
  cbv beta iota. rewrite (near_iff p _ _ _ P R). destruct (C160_angle p (v "sunRA"%string) (sp_ra s) P R) as (B & [k K] & M).
  destruct (Qltb _ _) eqn:E.
  - apply Qltb_lt in E. split; [reflexivity|]. split; [intros; lra|reflexivity].
  - apply Qltb_false in E. split; [|split; intros ->; reflexivity]. intros _ F. exfalso. apply (F k).
    assert (Y : Qabs (sp_ra s - (v "sunRA"%string + p) + inject_Z k * (2 * p)) == to_mid_season p (v "sunRA"%string) (sp_ra s)).
    { destruct K as [K|K]; rewrite <- K; rewrite ?Qabs_opp; apply Qabs_pos; lra. }
    rewrite Y. exact E.
Qed.
Print Assumptions C160_trapezoid.

(** Hours for radians: sun at 20h, so that midnight is at 8h; span 2.5 hours. *)
Example C160_example :
  in_season 12 ["sunRA"%string] (fun _ => 20) 100 3 (5 # 2) [mkSpot 9 90 1; mkSpot 9 98 1; mkSpot 9 90 0; mkSpot 23 90 1; mkSpot 6 97 1] = Ok [1; 0; 0; 0; 1] /\
  coverage ["season"%string] (fun _ => [(1 # 2); (7 # 4); (3 # 2)]) (Ok tt) 3 (1 # 2) [(1, 0); (1, 2); (0, 0)] = Ok [0; 1; 0].
Proof. split; vm_compute; reflexivity. Qed.
