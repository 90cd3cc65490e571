(** C78: the basis functions that hold a survey back after its own visits, in the loop they close. *)
From Coq Require Import List ZArith QArith Qround Bool String Lia Lqa Sorted.
From Verif Require Import Base Bisect Script Feat GateLoop GateLoop_proofs.
Import ListNotations.
Local Open Scope string_scope.
Open Scope list_scope.
Open Scope nat_scope.

(** What happens during a survey: visits that somebody else asked for, one at a time, and
    blocks of visits that the gated survey asked for at the time [t]. *)
Inductive event : Type := Other (v : fvis) | Own (t : Q) (vs : list fvis).
Definition visits (e : event) : list fvis := match e with Other v => [v] | Own _ vs => vs end.
Definition history (l : list event) : list fvis := flat_map visits l.
(** The gate, having been told of every visit before a block, was open when the block was asked for. *)
Definition obeys {S : Type} (add : S -> fvis -> S) (s0 : S) (opens : S -> Q -> Prop) (l : list event) : Prop :=
  forall pre t vs post, l = pre ++ Own t vs :: post -> opens (fold_left add (history pre) s0) t.
(** Visits are in the order of time, and those of a block are no earlier than its request. *)
Definition timely (l : list event) : Prop :=
  StronglySorted (fun a b => (fv_mjd a <= fv_mjd b)%Q) (history l) /\
  (forall t vs v, In (Own t vs) l -> In v vs -> (t <= fv_mjd v)%Q).
Definition nightly (l : list event) : Prop := StronglySorted night_le (history l).

Lemma history_app : forall a b, history (a ++ b) = history a ++ history b.
Proof. intros a b. apply flat_map_app. Qed.
Lemma sorted_app_l : forall (R : fvis -> fvis -> Prop) a b, StronglySorted R (a ++ b) -> StronglySorted R a.
Proof.
  intros R a b. induction a as [|x a IH]; intro H; [constructor|]. inversion H as [|? ? H1 H2]; subst. constructor; [apply IH; exact H1|].
  apply Forall_app in H2. tauto.
Qed.
Lemma sorted_app_le : forall (R : fvis -> fvis -> Prop) a b x y, StronglySorted R (a ++ b) -> In x a -> In y b -> R x y.
Proof.
  intros R a b x y. induction a as [|z a IH]; intros H I J; [destruct I|]. inversion H as [|? ? H1 H2]; subst. destruct I as [->|I].
  - rewrite Forall_forall in H2. apply H2. apply in_app_iff. right. exact J.
  - apply IH; assumption.
Qed.

(** ** ForceDelay *)
(** Whatever else is observed, every visit of a block comes at least the delay after every
    earlier visit that carries the note. *)
Theorem C78_delay : forall delay note l pre t vs post w v,
  obeys (fd_add note) fd0 (fun s t => fd_check delay s t = true) l -> timely l -> l = pre ++ Own t vs :: post ->
  In w (history pre) -> carries note w -> In v vs -> (fv_mjd w + delay <= fv_mjd v)%Q.
Proof.
  intros delay note l pre t vs post w v Ob [Ts Tb] El Iw Cw Iv.
  pose proof (Ob pre t vs post El) as Op. cbv beta in Op. subst l.
  assert (F : fold_left (fd_add note) (history pre) fd0 = fold_left (lo_one note None) (history pre) None) by reflexivity.
  rewrite F, lo_fold in Op. rewrite history_app in Ts.
  destruct (last_opt_sorted (lo_match note None) (history pre) w) as [u [U1 [_ [_ U4]]]].
  { eapply sorted_app_l. exact Ts. }
  { exact Iw. }
  { unfold lo_match. cbn [band_is]. rewrite andb_true_r. apply note_has_iff. exact Cw. }
  rewrite U1 in Op. unfold fd_check in Op. apply negb_true_iff, Qltb_false in Op. cbn [last_mjd] in Op.
  assert (T : (t <= fv_mjd v)%Q). { apply (Tb t vs v); [apply in_app_iff; right; left; reflexivity|exact Iv]. }
  lra.
Qed.
Print Assumptions C78_delay.
(** Open is what it says: no matching visit within the delay; before the first one, the gate
    counts from the start of MJD. *)
Theorem C78_delay_open : forall delay note h t, StronglySorted (fun a b => (fv_mjd a <= fv_mjd b)%Q) h -> (delay <= t)%Q ->
  (fd_check delay (fold_left (fd_add note) h fd0) t = true <-> forall w, In w h -> carries note w -> (fv_mjd w + delay <= t)%Q).
Proof.
  intros delay note h t Hs Ht.
  assert (F : fold_left (fd_add note) h fd0 = fold_left (lo_one note None) h None) by reflexivity.
  rewrite F, lo_fold. unfold fd_check. rewrite negb_true_iff, Qltb_false.
  assert (M : forall w, lo_match note None w = true <-> carries note w).
  { intro w. unfold lo_match. cbn [band_is]. rewrite andb_true_r. apply note_has_iff. }
  split.
  - intros H w I C. destruct (last_opt_sorted (lo_match note None) h w Hs I (proj2 (M w) C)) as [u [U1 [_ [_ U4]]]].
    rewrite U1 in H. cbn [last_mjd] in H. lra.
  - intro H. destruct (last_opt (filter (lo_match note None) h)) as [u|] eqn:E; cbn [last_mjd]; [|lra].
    apply last_opt_in in E. destruct E as [E1 E2]. pose proof (H u E1 (proj1 (M u) E2)). lra.
Qed.
Print Assumptions C78_delay_open.

(** ** FractionOfObs *)
Definition count (P : fvis -> Prop) (h : list fvis) (n : nat) : Prop := exists h', List.length h' = n /\ exists f, h' = filter f h /\ forall v, f v = true <-> P v.
Lemma count_tally : forall note h n, count (carries note) h n -> Z.of_nat n = tally (note_has note) h.
Proof.
  intros note h n [h' [<- [f [-> Hf]]]]. unfold tally. f_equal. f_equal. apply filter_ext. intro v.
  pose proof (Hf v) as A. pose proof (note_has_iff note v) as B. destruct (f v), (note_has note v); try reflexivity; [symmetry; apply B, A; reflexivity|apply A, B; reflexivity].
Qed.
(** Open exactly when the visits with the note are no more than the fraction of all of them; that is
    so before the first visit. *)
Theorem C78_fraction_open : forall frac note h a, count (carries note) h a ->
  (fo_check frac (fold_left (fo_add note) h fo0) = true <-> (inject_Z (Z.of_nat a) <= frac * inject_Z (Z.of_nat (List.length h)))%Q).
Proof.
  intros frac note h a Ca. rewrite (count_tally note h a Ca), fo_check_iff. split; [|tauto]. intros [->|H]; [|exact H].
  change (0 <= frac * 0)%Q. assert (Z0 : (frac * 0 == 0)%Q) by ring. rewrite Z0. lra.
Qed.
Print Assumptions C78_fraction_open.
(** With blocks of at most [k] visits, and nobody else's visits carrying the note, the visits that
    carry it are never more than the fraction of all of them, and one block. *)
Theorem C78_fraction_partial : forall frac note k l a, (0 <= frac)%Q ->
  obeys (fo_add note) fo0 (fun s _ => fo_check frac s = true) l ->
  (forall t vs, In (Own t vs) l -> List.length vs <= k) -> (forall v, In (Other v) l -> ~ carries note v) ->
  count (carries note) (history l) a ->
  (inject_Z (Z.of_nat a) <= frac * inject_Z (Z.of_nat (List.length (history l))) + inject_Z (Z.of_nat k))%Q.
Proof.
  intros frac note k l a F0 Ob Bk Ot Ca. rewrite (count_tally note _ a Ca). clear a Ca.
  assert (K0 : (0 <= inject_Z (Z.of_nat k))%Q) by (change 0%Q with (inject_Z 0); rewrite <- Zle_Qle; lia).
  induction l as [|e l IH] using rev_ind.
  - change (0 <= frac * 0 + inject_Z (Z.of_nat k))%Q. assert (Z0 : (frac * 0 == 0)%Q) by ring. rewrite Z0. lra.
  - assert (Ob' : obeys (fo_add note) fo0 (fun s _ => fo_check frac s = true) l).
    { intros pre t vs post E. apply (Ob pre t vs (post ++ [e])). rewrite E, <- app_assoc. reflexivity. }
    specialize (IH Ob'). rewrite history_app. cbn [history flat_map]. rewrite app_nil_r, tally_app, app_length, Nat2Z.inj_add, !inject_Z_plus.
    assert (L0 : (0 <= inject_Z (Z.of_nat (List.length (visits e))))%Q) by (change 0%Q with (inject_Z 0); rewrite <- Zle_Qle; lia).
    set (M := inject_Z (Z.of_nat (List.length (history l)))) in *. set (m := inject_Z (Z.of_nat (List.length (visits e)))) in *.
    assert (Fm : (0 <= frac * m)%Q) by (apply Qmult_le_0_compat; assumption).
    destruct e as [v|t vs]; cbn [visits] in *.
    + assert (N : tally (note_has note) [v] = 0%Z).
      { apply tally_0. intros w [<-|[]]. destruct (note_has note v) eqn:E; [|reflexivity]. exfalso. apply (Ot v); [apply in_app_iff; right; left; reflexivity|apply note_has_iff; exact E]. }
      rewrite N. change (inject_Z 0) with 0%Q.
      assert (I : (inject_Z (tally (note_has note) (history l)) <= frac * M + inject_Z (Z.of_nat k))%Q).
      { apply IH; [intros t vs H; apply (Bk t); apply in_app_iff; left; exact H|intros w H; apply Ot; apply in_app_iff; left; exact H]. }
      assert (frac * (M + m) == frac * M + frac * m)%Q by ring. lra.
    + pose proof (Ob l t vs [] eq_refl) as Op. cbv beta in Op. apply fo_check_iff in Op.
      assert (B : (inject_Z (tally (note_has note) vs) <= inject_Z (Z.of_nat k))%Q).
      { rewrite <- Zle_Qle. pose proof (tally_le (note_has note) vs). assert (List.length vs <= k) by (apply (Bk t); apply in_app_iff; right; left; reflexivity). lia. }
      assert (C : (inject_Z (tally (note_has note) (history l)) <= frac * M)%Q).
      { destruct Op as [E|E]; [|exact E]. unfold M. rewrite E. change (0 <= frac * 0)%Q. assert (Z0 : (frac * 0 == 0)%Q) by ring. rewrite Z0. lra. }
      assert (frac * (M + m) == frac * M + frac * m)%Q by ring. lra.
Qed.
Print Assumptions C78_fraction_partial.
(** The fraction itself is not kept: the gate opens at the fraction, not below it, and a whole
    block follows. *)
Theorem C78_fraction_refuted : exists frac note l a, (0 <= frac)%Q /\
  obeys (fo_add note) fo0 (fun s _ => fo_check frac s = true) l /\ (forall v, In (Other v) l -> ~ carries note v) /\
  count (carries note) (history l) a /\ a = 2 /\ List.length (history l) = 3 /\ (frac == 1 # 100)%Q.
Proof.
  set (mk := fun i n => mkFv i 0 0%Q "g" n "p" ENaN ENaN 0%Q []).
  exists (1#100)%Q, (Some "DD:"%string), [Other (mk 0%Z "pair"%string); Own 0 [mk 1%Z "DD:A"%string; mk 2%Z "DD:A"%string]], 2.
  split; [lra|]. split; [|split; [|split]].
  - intros pre t vs post E. destruct pre as [|e pre]; [discriminate E|]. injection E as <- E. destruct pre as [|e pre].
    + injection E as <- <- <-. reflexivity.
    + injection E as <- E. destruct pre; discriminate E.
  - intros v [E|[E|[]]]; [|discriminate E]. injection E as <-. intros C. apply (proj2 (note_has_iff (Some "DD:"%string) _)) in C. discriminate C.
  - exists [mk 1%Z "DD:A"%string; mk 2%Z "DD:A"%string]. split; [reflexivity|]. exists (note_has (Some "DD:"%string)). split; [reflexivity|]. apply note_has_iff.
  - repeat split; reflexivity.
Qed.
Print Assumptions C78_fraction_refuted.
(** A survey held back is not held back for ever: enough visits of others open the gate again. *)
Theorem C78_fraction_reopens : forall frac note h, (0 < frac)%Q -> exists n, forall more,
  n <= List.length more -> (forall v, In v more -> ~ carries note v) ->
  fo_check frac (fold_left (fo_add note) (h ++ more) fo0) = true.
Proof.
  intros frac note h F. set (c := tally (note_has note) h). exists (Z.to_nat (Qceiling (inject_Z c / frac))). intros more L N.
  apply fo_check_iff. right. rewrite tally_app, (tally_0 _ more), Z.add_0_r.
  2: { intros v I. destruct (note_has note v) eqn:E; [|reflexivity]. exfalso. apply (N v I), note_has_iff, E. }
  rewrite app_length, Nat2Z.inj_add. fold c.
  assert (X : (inject_Z c / frac <= inject_Z (Z.of_nat (List.length h) + Z.of_nat (List.length more)))%Q).
  { eapply Qle_trans; [apply Qle_ceiling|]. rewrite <- Zle_Qle. lia. }
  assert (E : (inject_Z c == (inject_Z c / frac) * frac)%Q) by (field; lra). rewrite E, (Qmult_comm frac).
  apply Qmult_le_compat_r; [exact X|lra].
Qed.
Print Assumptions C78_fraction_reopens.

(** ** OnceInNight *)
(** A block with a visit on some night follows no visit of that night with one of the notes. *)
Theorem C78_once : forall notes l pre t vs post w v,
  obeys (on_add notes) nn0 (fun s _ => on_check s = true) l -> nightly l -> l = pre ++ Own t vs :: post ->
  In w (history pre) -> In (fv_note w) notes -> In v vs -> fv_night w <> fv_night v.
Proof.
  intros notes l pre t vs post w v Ob Nl El Iw Nw Iv E. pose proof (Ob pre t vs post El) as Op. cbv beta in Op. subst l.
  unfold nightly in Nl. rewrite history_app in Nl. pose proof (sorted_app_l _ _ _ Nl) as Np.
  assert (R : forall x, In x (history pre) -> (fv_night x <= fv_night v)%Z).
  { intros x Ix. apply (sorted_app_le night_le (history pre) (history (Own t vs :: post)) x v Nl Ix). cbn [history flat_map visits]. apply in_app_iff. left. exact Iv. }
  destruct (nn_fold notes (history pre) Np) as [A [B C]]. cbv zeta in *.
  set (s := fold_left (on_add notes) (history pre) nn0) in *.
  assert (Ns : nn_night s = fv_night w).
  { pose proof (A w Iw). destruct B as [B|[u [U1 U2]]]; [rewrite B in Iw; destruct Iw|]. pose proof (R u U1). lia. }
  unfold on_check in Op. apply negb_true_iff, Z.ltb_ge in Op. rewrite C in Op. unfold tally in Op.
  assert (I : In w (filter (fun v0 => (fv_night v0 =? nn_night s)%Z && existsb (String.eqb (fv_note v0)) notes) (history pre))).
  { apply filter_In. split; [exact Iw|]. rewrite Ns, Z.eqb_refl. cbn [andb]. apply note_in. exact Nw. }
  destruct (filter _ (history pre)); [destruct I|cbn [List.length] in Op; lia].
Qed.
Print Assumptions C78_once.
(** Open exactly when the night of the latest visit has none with the notes. *)
Theorem C78_once_open : forall notes h u, StronglySorted night_le (h ++ [u]) ->
  (on_check (fold_left (on_add notes) (h ++ [u]) nn0) = true <-> forall w, In w (h ++ [u]) -> fv_night w = fv_night u -> ~ In (fv_note w) notes).
Proof.
  intros notes h u Hs. destruct (nn_fold notes (h ++ [u]) Hs) as [A [B C]]. cbv zeta in *.
  set (s := fold_left (on_add notes) (h ++ [u]) nn0) in *.
  assert (Ns : nn_night s = fv_night u).
  { pose proof (A u (in_or_app h [u] u (or_intror (or_introl eq_refl)))) as A1. destruct B as [B|[v [V1 V2]]]; [destruct h; discriminate B|].
    apply in_app_iff in V1. destruct V1 as [V1|[<-|[]]]; [|congruence]. pose proof (proj2 (sorted_last _ _ _ Hs) v V1) as A2. unfold night_le in A2. lia. }
  unfold on_check. rewrite negb_true_iff, Z.ltb_ge, C. split.
  - intros H w I E N. unfold tally in H.
    assert (J : In w (filter (fun v0 => (fv_night v0 =? nn_night s)%Z && existsb (String.eqb (fv_note v0)) notes) (h ++ [u]))).
    { apply filter_In. split; [exact I|]. rewrite Ns, E, Z.eqb_refl. cbn [andb]. apply note_in. exact N. }
    destruct (filter _ (h ++ [u])); [destruct J|cbn [List.length] in H; lia].
  - intro H. rewrite tally_0; [lia|]. intros w I. destruct (Z.eqb_spec (fv_night w) (nn_night s)) as [E|E]; [|reflexivity]. cbn [andb].
    destruct (existsb (String.eqb (fv_note w)) notes) eqn:X; [|reflexivity]. exfalso. apply (H w I); [congruence|apply note_in; exact X].
Qed.
Print Assumptions C78_once_open.
(** The gate knows the night of the last visit, not the night it is: last night's visit still holds
    the survey back tonight, until some visit of tonight is recorded. *)
Theorem C78_once_stale_refuted : exists notes h tonight, nightly [Own 0 h] /\
  (forall w, In w h -> (fv_night w < tonight)%Z) /\ on_check (fold_left (on_add notes) h nn0) = false /\
  forall v, fv_night v = tonight -> ~ In (fv_note v) notes -> on_check (fold_left (on_add notes) (h ++ [v]) nn0) = true.
Proof.
  set (a := mkFv 0%Z 10%Z 10%Q "g" "long" "p" ENaN ENaN 0%Q []).
  exists ["long"%string], [a], 11%Z. split; [|split; [|split]].
  - unfold nightly, history. cbn [flat_map visits app]. constructor; [constructor|constructor].
  - intros w [<-|[]]. reflexivity.
  - reflexivity.
  - intros v N Nn. rewrite fold_left_app. cbn [fold_left]. set (s := on_add ["long"%string] nn0 a).
    assert (E : s = mkNn 10 1) by reflexivity. rewrite E. unfold on_add, nn_one. cbn [nn_night].
    destruct (Z.eqb_spec 10 (fv_night v)) as [X|X]; [lia|]. unfold nn_match.
    destruct (existsb (String.eqb (fv_note v)) ["long"%string]) eqn:Y; [|reflexivity].
    exfalso. apply Nn. apply note_in. exact Y.
Qed.
Print Assumptions C78_once_stale_refuted.
(** So a scheduler with no other survey runs it once, and never again. *)
Theorem C78_once_alone : forall notes l,
  obeys (on_add notes) nn0 (fun s _ => on_check s = true) l ->
  (forall e, In e l -> exists t v vs, e = Own t (v :: vs) /\ forall w, In w (v :: vs) -> In (fv_note w) notes) -> List.length l <= 1.
Proof.
  intros notes l Ob H. destruct l as [|e1 [|e2 l]]; [cbn; lia|cbn; lia|exfalso].
  destruct (H e1 (or_introl eq_refl)) as [t1 [v1 [vs1 [-> H1]]]].
  destruct (H e2 (or_intror (or_introl eq_refl))) as [t2 [v2 [vs2 [-> _]]]].
  pose proof (Ob [Own t1 (v1 :: vs1)] t2 (v2 :: vs2) l eq_refl) as Op. cbv beta in Op. cbn [history flat_map visits] in Op. rewrite app_nil_r in Op.
  assert (P : forall h s, h <> [] -> (0 <= nn_count s)%Z -> (forall w, In w h -> In (fv_note w) notes) -> (0 < nn_count (fold_left (on_add notes) h s))%Z).
  { intros h. induction h as [|w h IH]; intros s Nh Cs Hw; [contradiction|]. cbn [fold_left].
    assert (Q1 : (0 < nn_count (on_add notes s w))%Z).
    { unfold on_add, nn_one, nn_match. rewrite (proj2 (note_in notes w) (Hw w (or_introl eq_refl))). cbn [nn_count]. destruct (nn_night s =? fv_night w)%Z; cbn [nn_count]; lia. }
    destruct h as [|w' h]; [exact Q1|]. apply IH; [discriminate|lia|intros x Ix; apply Hw; right; exact Ix]. }
  specialize (P (v1 :: vs1) nn0). unfold on_check in Op. apply negb_true_iff, Z.ltb_ge in Op.
  assert (X : (0 < nn_count (fold_left (on_add notes) (v1 :: vs1) nn0))%Z) by (apply P; [discriminate|cbn; lia|exact H1]). lia.
Qed.
Print Assumptions C78_once_alone.

(** ** SoftDelay *)
(** Once something has been observed: open exactly when the delay set beside the first fraction not
    below the share of visits so far has passed since the last visit with the note. *)
Theorem C78_soft_partial : forall fractions delays note h t a, ordered fractions -> fractions <> [] -> List.length fractions = List.length delays ->
  h <> [] -> StronglySorted (fun a b => (fv_mjd a <= fv_mjd b)%Q) h -> (forall d, In d delays -> (d <= t)%Q) ->
  count (carries note) h a ->
  exists d b, delay_at fractions delays (inject_Z (Z.of_nat a) / inject_Z (Z.of_nat (List.length h))) d /\
    sd_check fractions delays (fold_left (sd_add note) h sd0) t = Ok b /\
    (b = true <-> forall w, In w h -> carries note w -> (fv_mjd w + d <= t)%Q).
Proof.
  intros fr de note h t a O N L Nh Hs Hd Ca. rewrite (count_tally note h a Ca).
  destruct (sd_delay_spec fr de (inject_Z (tally (note_has note) h) / inject_Z (Z.of_nat (List.length h))) O N L) as [d [D1 D2]].
  exists d, (fd_check d (fold_left (fd_add note) h fd0) t). split; [exact D2|]. split.
  - rewrite sd_fold. unfold sd_check. cbn [sd_last sd_all sd_note sd0]. rewrite !nc_fold, tally_all. cbn [nc0 nn_count]. rewrite !Z.add_0_l.
    destruct (Z.eqb_spec (Z.of_nat (List.length h)) 0) as [E|E]; [destruct h; [contradiction|cbn in E; lia]|].
    rewrite D1. cbn [bind]. reflexivity.
  - apply C78_delay_open; [exact Hs|]. apply Hd. destruct D2 as [i [D2 _]]. apply nth_error_In with i. exact D2.
Qed.
Print Assumptions C78_soft_partial.
(** A survey that has fallen further behind, its last visit no later, waits no longer. *)
Theorem C78_soft_catches_up : forall fractions delays note h h' t a a', ordered fractions -> fractions <> [] -> List.length fractions = List.length delays ->
  ordered delays -> (forall d, In d delays -> (d <= t)%Q) -> h <> [] -> h' <> [] ->
  StronglySorted (fun a b => (fv_mjd a <= fv_mjd b)%Q) h -> StronglySorted (fun a b => (fv_mjd a <= fv_mjd b)%Q) h' ->
  (forall w, In w h' -> carries note w -> exists u, In u h /\ carries note u /\ (fv_mjd w <= fv_mjd u)%Q) ->
  count (carries note) h a -> count (carries note) h' a' ->
  (inject_Z (Z.of_nat a') / inject_Z (Z.of_nat (List.length h')) <= inject_Z (Z.of_nat a) / inject_Z (Z.of_nat (List.length h)))%Q ->
  sd_check fractions delays (fold_left (sd_add note) h sd0) t = Ok true -> sd_check fractions delays (fold_left (sd_add note) h' sd0) t = Ok true.
Proof.
  intros fr de note h h' t a a' O N L Od Hd Nh Nh' Hs Hs' El Ca Ca' Hr H.
  destruct (C78_soft_partial fr de note h t a O N L Nh Hs Hd Ca) as [d [b [D1 [D2 D3]]]].
  destruct (C78_soft_partial fr de note h' t a' O N L Nh' Hs' Hd Ca') as [d' [b' [D1' [D2' D3']]]].
  rewrite D2'. f_equal. apply D3'. intros w Iw Cw. destruct (El w Iw Cw) as [u [Iu [Cu Lu]]].
  assert (B : b = true) by congruence. pose proof (proj1 D3 B u Iu Cu). pose proof (delay_mono fr de _ _ d' d O Od Hr D1' D1). lra.
Qed.
Print Assumptions C78_soft_catches_up.
(** Before the first visit of all the question raises, whatever the fractions. *)
Theorem C78_soft_first_refuted : forall fractions delays note t, sd_check fractions delays (fold_left (sd_add note) [] sd0) t = Raise ZeroDivisionError.
Proof. reflexivity. Qed.
Print Assumptions C78_soft_first_refuted.

(** ** VisitGap *)
Definition in_band (b : option string) (v : fvis) : Prop := match b with None => True | Some x => fv_band v = x end.
(** Open exactly when some band it asks about is still to be visited, or the last visits in
    all of them are further back than the gap. *)
Theorem C78_gap_open : forall gap note bands h t, StronglySorted (fun a b => (fv_mjd a <= fv_mjd b)%Q) h ->
  (vg_check gap (fold_left (vg_add note bands) h (vg0 bands)) t = true <->
   (exists k, In k (vg_keys bands) /\ forall w, In w h -> carries (Some note) w -> in_band k w -> False) \/
   (forall k w, In k (vg_keys bands) -> In w h -> carries (Some note) w -> in_band k w -> (gap < t - fv_mjd w)%Q)).
Proof.
  intros gap note bands h t Hs. rewrite vg_fold. unfold vg_check.
  assert (M : forall k w, lo_match (Some note) k w = true <-> carries (Some note) w /\ in_band k w).
  { intros k w. unfold lo_match. rewrite andb_true_iff, note_has_iff. apply and_iff_compat_l. destruct k as [x|]; cbn; [|tauto]. rewrite String.eqb_eq. split; congruence. }
  assert (E : forall k, fold_left (lo_one (Some note) k) h None = last_opt (filter (lo_match (Some note) k) h)).
  { intro k. rewrite lo_fold. destruct (last_opt _); reflexivity. }
  destruct (existsb _ (map _ (vg_keys bands))) eqn:X.
  - split; [|reflexivity]. intros _. left. apply existsb_exists in X. destruct X as [x [X1 X2]]. apply in_map_iff in X1. destruct X1 as [k [<- X1]].
    exists k. split; [exact X1|]. intros w I C B. rewrite E in X2. destruct (last_opt _) eqn:Y; [discriminate|].
    pose proof (proj1 (last_opt_none _ h) Y w I) as Z. pose proof (proj2 (M k w) (conj C B)). congruence.
  - assert (X' : forall k, In k (vg_keys bands) -> exists u, last_opt (filter (lo_match (Some note) k) h) = Some u).
    { intros k I. destruct (last_opt (filter (lo_match (Some note) k) h)) as [u|] eqn:Y; [exists u; reflexivity|exfalso].
      assert (Z : existsb (fun x : option fvis => match x with Some _ => false | None => true end) (map (fun k => fold_left (lo_one (Some note) k) h None) (vg_keys bands)) = true).
      { apply existsb_exists. exists None. split; [|reflexivity]. apply in_map_iff. exists k. rewrite E. auto. }
      congruence. }
    rewrite forallb_forall. split.
    + intro H. right. intros k w Ik Iw C B. destruct (last_opt_sorted (lo_match (Some note) k) h w Hs Iw (proj2 (M k w) (conj C B))) as [u [U1 [_ [_ U4]]]].
      assert (G : Qltb gap (t - last_mjd (fold_left (lo_one (Some note) k) h None)) = true) by (apply H; apply in_map_iff; exists k; auto).
      rewrite E, U1 in G. apply Qltb_lt in G. cbn [last_mjd] in G. lra.
    + intros [[k [Ik H]]|H] x Ix.
      * exfalso. destruct (X' k Ik) as [u U]. apply last_opt_in in U. destruct U as [U1 U2]. apply M in U2. apply (H u U1); tauto.
      * apply in_map_iff in Ix. destruct Ix as [k [<- Ik]]. rewrite E. destruct (X' k Ik) as [u U]. rewrite U. cbn [last_mjd]. apply Qltb_lt.
        apply last_opt_in in U. destruct U as [U1 U2]. apply M in U2. apply (H k u Ik U1); tauto.
Qed.
Print Assumptions C78_gap_open.
(** Without bands, the visits of a block come later than the gap after every earlier visit with the note. *)
Theorem C78_gap : forall gap note l pre t vs post w v,
  obeys (vg_add note None) (vg0 None) (fun s t => vg_check gap s t = true) l -> timely l -> l = pre ++ Own t vs :: post ->
  In w (history pre) -> carries (Some note) w -> In v vs -> (fv_mjd w + gap < fv_mjd v)%Q.
Proof.
  intros gap note l pre t vs post w v Ob [Ts Tb] El Iw Cw Iv. pose proof (Ob pre t vs post El) as Op. cbv beta in Op. subst l. rewrite history_app in Ts.
  apply C78_gap_open in Op; [|eapply sorted_app_l; exact Ts].
  assert (T : (t <= fv_mjd v)%Q). { apply (Tb t vs v); [apply in_app_iff; right; left; reflexivity|exact Iv]. }
  destruct Op as [[k [[<-|[]] H]]|H].
  - exfalso. apply (H w Iw Cw). exact I.
  - pose proof (H None w (or_introl eq_refl) Iw Cw I). lra.
Qed.
Print Assumptions C78_gap.

(** ** Examples *)
Definition ev (i : Z) (night : Z) (mjd : Q) (b n : string) : fvis := mkFv i night mjd b n "p" ENaN ENaN 0%Q [].
Definition ex_loop : list event :=
  [Own 10 [ev 0 10 10 "g" "DD:A"; ev 1 10 (101#10) "r" "DD:A"]; Other (ev 2 10 (102#10) "g" "pair"); Other (ev 3 11 11 "g" "pair");
   Own (122#10) [ev 4 12 (122#10) "g" "DD:A"]].
Ltac obey := intros pre t vs post E; repeat (destruct pre as [|? pre]; [first [discriminate E | injection E as <- <- <-; reflexivity]|injection E as <- E]); destruct pre; discriminate E.
Example C78_ex_timely : timely ex_loop /\ nightly ex_loop.
Proof.
  split; [split|].
  - unfold ex_loop, history. cbn. repeat (constructor; [|repeat constructor; unfold Qle; cbn; lia]). constructor.
  - intros t vs v H I. cbn in H. repeat destruct H as [H|H]; try discriminate H; try (injection H as <- <-); cbn in I; repeat destruct I as [<-|I]; try contradiction; unfold Qle; cbn; lia.
  - unfold nightly, ex_loop, history. cbn. repeat (constructor; [|repeat constructor; unfold night_le; cbn; lia]). constructor.
Qed.
Example C78_ex_delay : obeys (fd_add (Some "DD:"%string)) fd0 (fun s t => fd_check 2 s t = true) ex_loop.
Proof. obey. Qed.
Example C78_ex_delay_shut : fd_check 2 (fold_left (fd_add (Some "DD:"%string)) [ev 0 10 10 "g" "DD:A"] fd0) (119#10) = false.
Proof. reflexivity. Qed.
Example C78_ex_fraction : obeys (fo_add (Some "DD:"%string)) fo0 (fun s _ => fo_check (1#2) s = true) ex_loop.
Proof. obey. Qed.
Example C78_ex_once : obeys (on_add ["DD:A"%string]) nn0 (fun s _ => on_check s = true) ex_loop.
Proof. obey. Qed.
Example C78_ex_soft : sd_check [0; 9#1000; 17#1000]%Q [0; 1#2; 3#2]%Q (fold_left (sd_add (Some "DD:"%string)) (history ex_loop) sd0) 13 = Ok false /\
  sd_check [0; 9#1000; 17#1000]%Q [0; 1#2; 3#2]%Q (fold_left (sd_add (Some "DD:"%string)) (history ex_loop) sd0) 14 = Ok true /\
  sd_check [0; 6#10; 7#10]%Q [0; 1#2; 3#2]%Q (fold_left (sd_add (Some "DD:"%string)) (history ex_loop) sd0) 13 = Ok true.
Proof. repeat split; reflexivity. Qed.
Example C78_ex_gap : obeys (vg_add "DD:" None) (vg0 None) (fun s t => vg_check 2 s t = true) ex_loop /\
  vg_check 2 (fold_left (vg_add "DD:" (Some ["g"%string; "r"%string])) (history ex_loop) (vg0 (Some ["g"%string; "r"%string]))) 13 = false /\
  vg_check 2 (fold_left (vg_add "DD:" (Some ["g"%string; "i"%string])) (history ex_loop) (vg0 (Some ["g"%string; "i"%string]))) 13 = true.
Proof. split; [obey|split; reflexivity]. Qed.
