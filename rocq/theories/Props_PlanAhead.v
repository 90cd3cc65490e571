(** C159: when a PlanAheadSurvey offers its region. *)
From Coq Require Import List Permutation ZArith QArith Qabs Bool String Lia Lqa.
From Verif Require Import Base PlanAhead.
Import ListNotations.
Open Scope Q_scope.

(** As the code stands no such survey can be made: the feature it looks up has had
    another name for long, and every call of the constructor raises. *)
Theorem C159_made_refuted : forall sup moon, (exists e, plan_init feature_names sup moon = Raise e) /\
  (sup = Ok tt -> plan_init feature_names sup moon = Raise AttributeError).
Proof. intros [[]|e] moon; split; try discriminate; intros; try reflexivity; eexists; reflexivity. Qed.
Print Assumptions C159_made_refuted.
(** With the name it has now in its place the constructor goes on. *)
Example C159_made_example : plan_init ("Last_observed"%string :: feature_names) (Ok tt) (Ok tt) = Ok (mkAttrs (-100) None) /\
  getattr feature_names "LastObserved" = Ok tt.
Proof. split; reflexivity. Qed.

Section S.
Variable mean : list nat -> Q.
Variables tol min_area in_season cadence pix_area : Q.
Notation run := (run mean tol min_area in_season cadence pix_area).
Notation calc_reward := (calc_reward mean tol min_area in_season cadence pix_area).

(** The plan made at the conditions c: the area of the pixels in season, clear of the
    moon and without a visit for the cadence is large enough, and t is the time the mean
    direction idx is next on the meridian, or now if it has passed it in the last half
    day. *)
Definition in_reach (c : cond) (i : nat) : Prop :=
  exists p, nth_error (cd_pix c) i = Some p /\ cadence < px_gap p /\ Qabs (px_anti p) < in_season /\ px_clear p = true.
Definition planned (c : cond) (t : Q) : Prop :=
  exists idx, NoDup idx /\ (forall i, In i idx <-> in_reach c i) /\
    min_area < inject_Z (Z.of_nat (List.length idx)) * pix_area /\
    exists k : Z, let h := cd_lmst c - mean idx + inject_Z k * 24 in
    -(12) <= h <= 12 /\ ((h < 0 /\ t == cd_mjd c + (- h) / 24) \/ (0 <= h /\ t == cd_mjd c)).

Lemma where_spec : forall l i, In i (where_wanted in_season cadence l) <->
  exists p, nth_error l i = Some p /\ wanted in_season cadence p = true.
Proof.
  intros l i. unfold where_wanted.
  assert (G : forall l s, (exists p, In (i, p) (combine (seq s (List.length l)) l) /\ wanted in_season cadence p = true) <->
              exists p, (s <= i)%nat /\ nth_error l (i - s) = Some p /\ wanted in_season cadence p = true).
  { clear l. induction l as [|q l IH]; intros s; cbn [List.length seq combine In].
    - split; [intros (p & [] & _)|]. intros (p & _ & H & _). destruct (i - s)%nat; discriminate.
    - split.
      + intros (p & [E|H] & W).
        * injection E as -> ->. exists p. rewrite Nat.sub_diag. auto.
        * destruct (proj1 (IH (S s)) (ex_intro _ p (conj H W))) as (p' & L & N & W'). exists p'.
          split; [lia|]. replace (i - s)%nat with (S (i - S s)) by lia. auto.
      + intros (p & L & N & W). destruct (i - s)%nat as [|m] eqn:E.
        * cbn in N. injection N as ->. exists p. split; [left; f_equal; lia|exact W].
        * cbn in N. destruct (proj2 (IH (S s))) as (p' & H & W').
          { exists p. split; [lia|]. replace (i - S s)%nat with m by lia. auto. }
          exists p'. auto. }
  rewrite in_map_iff. split.
  - intros ([j p] & <- & H). apply filter_In in H. destruct H as [H W]. cbn [fst snd] in *.
    destruct (proj1 (G l 0%nat) (ex_intro _ p (conj H W))) as (p' & _ & N & W'). rewrite Nat.sub_0_r in N. eauto.
  - intros (p & N & W). destruct (proj2 (G l 0%nat)) as (p' & H & W').
    { exists p. rewrite Nat.sub_0_r. split; [lia|auto]. }
    exists (i, p'). split; [reflexivity|]. apply filter_In. auto.
Qed.
Lemma where_nodup : forall l, NoDup (where_wanted in_season cadence l).
Proof.
  intros l. unfold where_wanted. generalize 0%nat as s. induction l as [|p l IH]; intros s; cbn; [constructor|].
  destruct (wanted in_season cadence p); cbn [map fst]; [|apply IH]. constructor; [|apply IH].
  intros H. apply in_map_iff in H. destruct H as ([j q] & E & H). cbn in E. subst j. apply filter_In in H. destruct H as [H _].
  apply in_combine_l in H. apply in_seq in H. lia.
Qed.
Lemma where_reach : forall c i, In i (where_wanted in_season cadence (cd_pix c)) <-> in_reach c i.
Proof.
  intros c i. rewrite where_spec. unfold in_reach, wanted. split; intros (p & N & H); exists p; (split; [exact N|]).
  - apply andb_true_iff in H. destruct H as [H C]. apply andb_true_iff in H. destruct H as [A B].
    apply Qltb_lt in A. apply Qltb_lt in B. auto.
  - destruct H as (A & B & C). apply Qltb_lt in A. apply Qltb_lt in B. now rewrite A, B, C.
Qed.

Lemma check_planned : forall a c t, (forall l, -(12) <= mean l <= 12) -> 0 <= cd_lmst c < 24 ->
  pa_sched (check_night mean min_area in_season cadence pix_area a c) = Some t -> planned c t.
Proof.
  intros a c t M L H. unfold check_night in H. cbv zeta in H. set (idx := where_wanted in_season cadence (cd_pix c)) in *.
  destruct (Qltb min_area _) eqn:EA; [|discriminate]. apply Qltb_lt in EA.
  exists idx. split; [apply where_nodup|]. split; [apply where_reach|]. split; [exact EA|].
  specialize (M idx). set (m := mean idx) in *.
  set (ra := if Qltb m 0 then m + 24 else m) in *.
  assert (R : exists k : Z, ra == m + inject_Z k * 24 /\ 0 <= ra < 24).
  { unfold ra. destruct (Qltb m 0) eqn:E; [apply Qltb_lt in E; exists 1%Z; change (inject_Z 1) with 1; repeat split; lra|]. apply Qltb_false in E. exists 0%Z. change (inject_Z 0) with 0. repeat split; lra. }
  destruct R as (k & RK & RB).
  assert (HA : exists j : Z, hour_angle (cd_lmst c) ra == cd_lmst c - m + inject_Z j * 24 /\ -(12) <= hour_angle (cd_lmst c) ra <= 12).
  { unfold hour_angle. destruct (Qltb (cd_lmst c - ra) (-(12))) eqn:E1.
    - apply Qltb_lt in E1. exists (1 - k)%Z.
      assert (K : inject_Z (1 - k) == 1 - inject_Z k) by (unfold Z.sub; rewrite inject_Z_plus, inject_Z_opp; reflexivity).
      destruct (Qltb 12 _) eqn:E2; [apply Qltb_lt in E2; lra|]. apply Qltb_false in E2. rewrite K. repeat split; lra.
    - apply Qltb_false in E1. destruct (Qltb 12 _) eqn:E2.
      + apply Qltb_lt in E2. exists (-1 - k)%Z.
        assert (K : inject_Z (-1 - k) == -1 - inject_Z k) by (unfold Z.sub; rewrite inject_Z_plus, inject_Z_opp; reflexivity).
        rewrite K. repeat split; lra.
      + apply Qltb_false in E2. exists (- k)%Z. rewrite inject_Z_opp. repeat split; lra. }
  destruct HA as (j & HJ & HB). exists j. cbv zeta. rewrite <- HJ. split; [exact HB|].
  set (h := hour_angle (cd_lmst c) ra) in *. destruct (Qltb h 0) eqn:E.
  - apply Qltb_lt in E. injection H as <-. left. split; [exact E|]. field.
  - apply Qltb_false in E. injection H as <-. right. split; [exact E|reflexivity].
Qed.

(** Whenever the survey offers itself, the conditions are feasible and it is within the
    tolerance of a time planned in conditions of that night, at a call since which
    nothing was taken from the survey. *)
Definition asked (l : list call) (c : cond) : Prop := exists l1 l2, l = l1 ++ Ask c :: l2 /\ forall d, ~ In (Take d) l2.
Lemma run_plan : forall l, (forall l, -(12) <= mean l <= 12) -> (forall c, In (Ask c) l -> 0 <= cd_lmst c < 24) ->
  forall t, pa_sched (run l) = Some t -> exists c, asked l c /\ cd_night c = pa_night (run l) /\ cd_feasible c = true /\ planned c t.
Proof.
  intros l M. induction l as [|k l IH] using rev_ind; intros L t H; [discriminate|].
  unfold PlanAhead.run in *. rewrite fold_left_app in *. cbn [fold_left] in *. set (a := fold_left _ l _) in *.
  destruct k as [c|c]; [|discriminate]. cbn [step] in *.
  assert (old : forall t, pa_sched a = Some t -> exists c0, asked (l ++ [Ask c]) c0 /\ cd_night c0 = pa_night a /\ cd_feasible c0 = true /\ planned c0 t).
  { intros u Hu. destruct (IH) with (t := u) as (c0 & (l1 & l2 & -> & D) & X); [|exact Hu|].
    - intros d Hd. apply L. apply in_or_app. now left.
    - exists c0. split; [|exact X]. exists l1, (l2 ++ [Ask c]). rewrite <- app_assoc. split; [reflexivity|].
      intros d Hd. apply in_app_or in Hd. destruct Hd as [Hd|[Hd|[]]]; [now apply (D d)|discriminate]. }
  unfold PlanAhead.calc_reward in *. destruct (cd_feasible c) eqn:F; [|cbn [fst] in *; now apply old].
  cbv zeta in *. destruct (Z.eqb (pa_night a) (cd_night c)) eqn:E.
  - match goal with |- context [fst ?x] => replace (fst x) with a in * by (destruct (pa_sched a); [destruct (Qltb _ _)|]; reflexivity) end.
    now apply old.
  - set (a' := check_night _ _ _ _ _ a c) in *. cbn [pa_sched] in *.
    destruct (pa_sched a') as [u|] eqn:P; [|cbn [fst pa_sched] in H; discriminate].
    assert (u = t) as -> by (destruct (Qltb _ _); cbn [fst pa_sched] in H; congruence).
    exists c. split; [exists l, []; split; [reflexivity|intros d []]|]. split; [destruct (Qltb _ _); reflexivity|]. split; [exact F|].
    apply (check_planned a); [exact M| |exact P]. apply L. apply in_or_app. right. now left.
Qed.

Theorem C159_offered : forall l c x, (forall l, -(12) <= mean l <= 12) -> (forall d, In (Ask d) (l ++ [Ask c]) -> 0 <= cd_lmst d < 24) ->
  snd (calc_reward (run l) c) = Some x ->
  cd_feasible c = true /\ cd_reward c = Some x /\
  exists c0 t, asked (l ++ [Ask c]) c0 /\ cd_night c0 = cd_night c /\ cd_feasible c0 = true /\ planned c0 t /\ Qabs (cd_mjd c - t) < tol.
Proof.
  intros l c x M L H. pose proof (run_plan (l ++ [Ask c]) M L) as R.
  unfold PlanAhead.run in R. rewrite fold_left_app in R. cbn [fold_left step] in R. fold (run l) in R.
  assert (X : cd_feasible c = true /\ cd_reward c = Some x /\ pa_night (fst (calc_reward (run l) c)) = cd_night c /\
    exists t, pa_sched (fst (calc_reward (run l) c)) = Some t /\ Qabs (cd_mjd c - t) < tol).
  { clear R. unfold PlanAhead.calc_reward in *. destruct (cd_feasible c); [|discriminate]. cbv zeta in *.
    set (a1 := if Z.eqb _ _ then _ else _) in *.
    assert (A : pa_night a1 = cd_night c) by (unfold a1; destruct (Z.eqb_spec (pa_night (run l)) (cd_night c)); [assumption|reflexivity]).
    destruct (pa_sched a1) as [t|] eqn:P; [|discriminate]. destruct (Qltb _ _) eqn:E; [|discriminate]. apply Qltb_lt in E.
    cbn [fst snd] in *. split; [reflexivity|]. split; [exact H|]. split; [exact A|]. exists t. auto. }
  destruct X as (F & W & A & t & P & T). destruct (R t P) as (c0 & Q1 & Q2 & Q3 & Q4).
  split; [exact F|]. split; [exact W|]. exists c0, t. rewrite A in Q2. auto.
Qed.

(** One plan serves the night: asked again in the same night with nothing taken in
    between, the survey holds to the plan it made at the first feasible call. *)
Theorem C159_kept : forall a c cs, cd_feasible c = true -> (forall d, In d cs -> cd_night d = cd_night c) ->
  fold_left (fun a d => fst (calc_reward a d)) cs (fst (calc_reward a c)) = fst (calc_reward a c).
Proof.
  intros a c cs F. assert (A : pa_night (fst (calc_reward a c)) = cd_night c).
  { unfold PlanAhead.calc_reward. rewrite F. cbv zeta. set (a1 := if Z.eqb _ _ then _ else _).
    assert (A : pa_night a1 = cd_night c) by (unfold a1; destruct (Z.eqb_spec (pa_night a) (cd_night c)); [assumption|reflexivity]).
    destruct (pa_sched a1); [destruct (Qltb _ _)|]; exact A. }
  set (b := fst (calc_reward a c)) in *. induction cs as [|d cs IH]; intros N; [reflexivity|]. cbn [fold_left].
  assert (K : fst (calc_reward b d) = b).
  { unfold PlanAhead.calc_reward. destruct (cd_feasible d); [|reflexivity]. cbv zeta. rewrite A, (N d (or_introl eq_refl)), Z.eqb_refl.
    destruct (pa_sched b); [destruct (Qltb _ _)|]; reflexivity. }
  rewrite K. apply IH. intros d' H. apply N. now right.
Qed.

(** Once observations were taken from it, the next feasible call of that night or of a
    later one plans afresh: what happened before has no effect. *)
Theorem C159_afresh : forall a a' c d, cd_feasible d = true -> (cd_night c <= cd_night d)%Z ->
  calc_reward (generate a c) d = calc_reward (generate a' c) d /\
  forall b, (pa_night b <> cd_night d)%Z -> snd (calc_reward b d) = snd (calc_reward (generate a c) d).
Proof.
  intros a a' c d F L. split; [reflexivity|]. intros b NB. unfold PlanAhead.calc_reward. rewrite F. cbv zeta. cbn [generate pa_night].
  destruct (Z.eqb_spec (pa_night b) (cd_night d)); [contradiction|]. destruct (Z.eqb_spec (cd_night c - 1) (cd_night d)); [lia|].
  cbn [pa_sched]. unfold check_night. cbv zeta. destruct (Qltb min_area _); [|reflexivity]. destruct (Qltb (hour_angle _ _) 0); cbn [pa_sched]; destruct (Qltb _ tol); reflexivity.
Qed.
(** At the first feasible call of a night, or after observations were taken, a time is
    planned exactly when the pixels in reach cover enough of the sky; it is never in the
    past and at most half a day ahead. *)
Theorem C159_planned : forall b d, cd_feasible d = true -> pa_night b <> cd_night d -> (forall l, -(12) <= mean l <= 12) -> 0 <= cd_lmst d < 24 ->
  let plan := pa_sched (fst (calc_reward b d)) in
  (plan <> None <-> exists idx, NoDup idx /\ (forall i, In i idx <-> in_reach d i) /\ min_area < inject_Z (Z.of_nat (List.length idx)) * pix_area) /\
  forall t, plan = Some t -> cd_mjd d <= t <= cd_mjd d + (1 # 2).
Proof.
  intros b d F N M L plan.
  assert (E : plan = pa_sched (check_night mean min_area in_season cadence pix_area b d)).
  { unfold plan, PlanAhead.calc_reward. rewrite F. cbv zeta. destruct (Z.eqb_spec (pa_night b) (cd_night d)); [contradiction|]. cbn [pa_sched].
    destruct (pa_sched (check_night _ _ _ _ _ b d)) eqn:P; [destruct (Qltb _ _); reflexivity|reflexivity]. }
  rewrite E. split.
  - split.
    + intros H. destruct (pa_sched (check_night mean min_area in_season cadence pix_area b d)) as [t|] eqn:P; [|congruence]. destruct (check_planned b d t M L P) as (idx & A & B & C & _). eauto.
    + intros (idx & A & B & C). unfold check_night. cbv zeta.
      assert (LE : List.length (where_wanted in_season cadence (cd_pix d)) = List.length idx).
      { apply Permutation_length. apply NoDup_Permutation; [apply where_nodup|exact A|]. intros i. now rewrite where_reach, B. }
      rewrite LE. apply Qltb_lt in C. rewrite C. destruct (Qltb (hour_angle _ _) 0); discriminate.
  - intros t P. destruct (check_planned b d t M L P) as (idx & _ & _ & _ & k & H & T). cbv zeta in *.
    set (h := cd_lmst d - mean idx + inject_Z k * 24) in *. destruct T as [[A T]|[A T]]; rewrite T; [|lra].
    assert (X : - h / 24 == - h * (1 # 24)) by field. rewrite X. lra.
Qed.
End S.
Print Assumptions C159_offered.
Print Assumptions C159_kept.
Print Assumptions C159_afresh.
Print Assumptions C159_planned.

(** A region 3 hours before the meridian is planned for 3 hours later, offered then
    and not before; after its observations were taken a new plan is made at once. *)
Definition pc (h : Q) : cond := mkCond (60000 + h / 24) 5 (2 + h) [mkPixel 10 0 true; mkPixel 3 0 true; mkPixel 12 1 true] true (Some 7).
Notation ask := (calc_reward (fun _ => 5) (1 # 80) 200 (5 # 2) 9 150).
Example C159_example :
  let a := fst (ask (mkAttrs (-100) None) (pc 0)) in
  snd (ask (mkAttrs (-100) None) (pc 0)) = None /\ snd (ask a (pc 2)) = None /\ snd (ask a (pc 3)) = Some 7 /\
  snd (ask (generate a (pc 3)) (pc 4)) = Some 7.
Proof. vm_compute. auto. Qed.
