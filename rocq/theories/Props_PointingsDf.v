(** C129: the table of rewards of the survey over pointings. *)
From Coq Require Import List ZArith QArith Bool String Lia.
From Verif Require Import Base Core Core_proofs Pointings Pointings_proofs PointingsDf.
From Verif Require Surveys Props_Pointings.
Import ListNotations.
Open Scope nat_scope.

(** The greatest number of a list: NaN when there is none. *)
Definition greatest (l : list er) (x : er) : Prop :=
  (x = ENaN /\ forall y, In y l -> y = ENaN) \/ (In x l /\ x <> ENaN /\ forall y, In y l -> y <> ENaN -> er_ltb x y = false).
(** The number of places with a finite value. *)
Definition places (l : list er) (n : nat) : Prop := exists ix, NoDup ix /\ List.length ix = n /\ forall i, In i ix <-> exists q, nth_error l i = Some (EFin q).
Definition weighted (l : list er) (w : Q) : list er := map (fun x => Surveys.er_scale x w) l.

Lemma nanmax_greatest : forall l, greatest l (nanmax l).
Proof.
  intros l. destruct (nanmax_spec l) as [[E A]|[A [B C]]]; [left|right].
  - split; [exact E|]. intros y I. specialize (A y I). destruct y; try discriminate; reflexivity.
  - split; [exact A|]. split; [intros Q; rewrite Q in B; discriminate|]. intros y I N.
    assert (L : er_le y (nanmax l)) by (apply C; [exact I|destruct y; try reflexivity; contradiction]).
    clear - L B N. destruct (nanmax l), y; cbn in *; try reflexivity; try discriminate; try contradiction; try congruence.
    all: try (destruct L; congruence).
    all: try (apply negb_false_iff; assumption).
    all: try (apply negb_false_iff; apply Qle_bool_iff; assumption).
Qed.
Lemma count_places : forall l, places l (List.length (filter er_finite l)).
Proof.
  intros l. exists (filter (fun i => match nth_error l i with Some x => er_finite x | None => false end) (seq 0 (List.length l))).
  split; [apply NoDup_filter, seq_NoDup|]. split.
  - assert (G : forall k (f : nat -> option er), (forall i, f (k + i) = nth_error l i) ->
      List.length (filter (fun i => match f i with Some x => er_finite x | None => false end) (seq k (List.length l))) = List.length (filter er_finite l)).
    { induction l as [|x l IH]; intros k f H; [reflexivity|]. cbn [List.length seq filter].
      pose proof (H 0) as H0. rewrite Nat.add_0_r in H0. cbn in H0. rewrite H0.
      assert (R := IH (S k) f (fun i => eq_trans (f_equal f (Nat.add_succ_comm k i)) (H (S i)))). destruct (er_finite x); cbn [List.length]; rewrite R; reflexivity. }
    exact (G 0 (nth_error l) (fun i => eq_refl)).
  - intros i. rewrite filter_In, in_seq. destruct (nth_error l i) as [x|] eqn:E.
    + split.
      * intros [_ F]. destruct x; try discriminate. eexists; reflexivity.
      * intros [q Q]. injection Q as ->. split; [|reflexivity]. split; [lia|]. cbn. apply nth_error_Some. congruence.
    + split; [intros [_ F]; discriminate|intros [q Q]; discriminate].
Qed.
Lemma scal_ok : forall l p, scal l = Ok p -> l <> [] /\ p = (nanmax l, List.length (filter er_finite l)).
Proof. intros [|x l] p H; [discriminate|]. unfold scal in H. injection H as <-. split; [discriminate|reflexivity]. Qed.
Lemma nth_finite : forall l, (exists i q, nth_error l i = Some (EFin q)) <-> List.length (filter er_finite l) <> 0.
Proof.
  intros l; split.
  - intros [i [q E]]. apply nth_error_In in E. assert (X : In (EFin q) (filter er_finite l)) by (apply filter_In; split; [exact E|reflexivity]).
    destruct (filter er_finite l); [destruct X|discriminate].
  - destruct (filter er_finite l) as [|x r] eqn:F; [intros H; exfalso; apply H; reflexivity|]. intros _.
    assert (X : In x (filter er_finite l)) by (rewrite F; left; reflexivity). apply filter_In in X as [I J]. destruct x; try discriminate.
    apply In_nth_error in I as [i I]. exists i, q. exact I.
Qed.
Lemma finite_best : forall l, (exists i q, nth_error l i = Some (EFin q)) -> nanmax l <> ENaN.
Proof.
  intros l [i [q E]] Z0. apply nth_error_In in E. destruct (nanmax_spec l) as [[_ A]|[_ [A _]]]; [specialize (A _ E); discriminate|rewrite Z0 in A; discriminate].
Qed.

Section Table.
Variable pressure : pcond -> pcond -> option (list Q).
Hypothesis same_wind : forall c, pressure c c = c_wind c.
Lemma seen_same : forall c, seen pressure c c = c.
Proof. intros c. unfold seen. rewrite same_wind. destruct c; reflexivity. Qed.
Lemma call_now : forall tw g s c m, k_geo s = Some c -> t_call pressure tw g s c m = m_call tw g (k_st s) c m.
Proof. intros tw g s c m H. unfold t_call. rewrite H, seen_same. reflexivity. Qed.

Lemma rows_ok : forall tw g s c accum ws acc rows, k_geo s = Some c -> t_rows pressure tw g s c accum acc ws = Ok rows ->
  map (fun r => (q_meth r, q_w r)) rows = ws /\
  forall r, In r rows -> exists v, m_call tw g (k_st s) c (q_meth r) = Ok v /\ v <> [] /\ q_max r = nanmax (weighted v (q_w r)) /\ q_n r = List.length (filter er_finite (weighted v (q_w r))) /\
    (q_feas r = true <-> exists i q, nth_error (weighted v (q_w r)) i = Some (EFin q)).
Proof.
  intros tw g s c accum ws; induction ws as [|[m w] ws IH]; intros acc rows G H; cbn [t_rows] in H.
  - injection H as <-. split; [reflexivity|]. intros r [].
  - rewrite (call_now tw g s c m G) in H. destruct (m_call tw g (k_st s) c m) as [v|e] eqn:Em; [|discriminate]. cbn [bind] in H.
    fold (weighted v w) in H. destruct (scal (weighted v w)) as [p|e] eqn:Es; [|discriminate]. cbn [bind] in H. apply scal_ok in Es as [Ne Es].
    assert (K : forall acc' t q, t_rows pressure tw g s c accum acc' ws = Ok t -> rows = mkRow m (if er_isnan (fst p) || (snd p =? 0) then false else true) (fst p) (snd p) w q :: t ->
      map (fun r => (q_meth r, q_w r)) rows = (m, w) :: ws /\
      forall r, In r rows -> exists v, m_call tw g (k_st s) c (q_meth r) = Ok v /\ v <> [] /\ q_max r = nanmax (weighted v (q_w r)) /\ q_n r = List.length (filter er_finite (weighted v (q_w r))) /\
        (q_feas r = true <-> exists i q, nth_error (weighted v (q_w r)) i = Some (EFin q))).
    { intros acc' t q Ht ->. destruct (IH acc' t G Ht) as [A B]. split; [cbn; rewrite A; reflexivity|]. intros r [<-|I]; [|exact (B r I)].
      exists v. cbn [q_meth q_w q_max q_n q_feas]. rewrite Es; cbn [fst snd]. split; [exact Em|]. split; [intros Q; apply Ne; rewrite Q; reflexivity|]. split; [reflexivity|]. split; [reflexivity|].
      rewrite nth_finite. destruct (Nat.eqb_spec (List.length (filter er_finite (weighted v w))) 0) as [Z0|Z0].
      - rewrite orb_true_r. split; [discriminate|contradiction].
      - rewrite orb_false_r. split; [intros _; exact Z0|]. intros _. apply nth_finite, finite_best in Z0. destruct (nanmax (weighted v w)); [contradiction|reflexivity|reflexivity|reflexivity]. }
    destruct accum.
    + destruct (Surveys.zip_add acc (weighted v w)) as [acc'|e]; [|discriminate]. cbn [bind] in H. destruct (scal acc') as [q|e]; [|discriminate]. cbn [bind] in H.
      destruct (t_rows pressure tw g s c true acc' ws) as [t|e] eqn:Et; [|discriminate]. cbn [bind] in H. injection H as <-. exact (K acc' t (Some q) Et eq_refl).
    + destruct (t_rows pressure tw g s c false acc ws) as [t|e] eqn:Et; [|discriminate]. cbn [bind] in H. injection H as <-. exact (K acc t None Et eq_refl).
Qed.
Lemma rows_acc : forall tw g s c ws acc rows, k_geo s = Some c -> t_rows pressure tw g s c true acc ws = Ok rows ->
  exists sums, List.length sums = List.length rows /\ sum_weights tw g (k_st s) c ws acc = Ok (last sums acc) /\
  forall i r l, nth_error rows i = Some r -> nth_error sums i = Some l -> q_acc r = Some (nanmax l, List.length (filter er_finite l)) /\
    sum_weights tw g (k_st s) c (firstn (S i) ws) acc = Ok l /\ sum_weights tw g (k_st s) c (skipn (S i) ws) l = Ok (last sums acc).
Proof.
  intros tw g s c ws; induction ws as [|[m w] ws IH]; intros acc rows G H; cbn [t_rows] in H.
  - injection H as <-. exists []. split; [reflexivity|]. split; [reflexivity|]. intros [|i] r l E; discriminate.
  - rewrite (call_now tw g s c m G) in H. destruct (m_call tw g (k_st s) c m) as [v|e] eqn:Em; [|discriminate]. cbn [bind] in H.
    destruct (scal _) as [p|e]; [|discriminate]. cbn [bind] in H.
    destruct (Surveys.zip_add acc _) as [acc'|e] eqn:Ez; [|discriminate]. cbn [bind] in H. destruct (scal acc') as [q|e] eqn:Eq; [|discriminate]. cbn [bind] in H.
    destruct (t_rows pressure tw g s c true acc' ws) as [t|e] eqn:Et; [|discriminate]. cbn [bind] in H. injection H as <-. apply scal_ok in Eq as [_ Eq].
    destruct (IH acc' t G Et) as [sums [L [A B]]]. exists (acc' :: sums).
    assert (La : last (acc' :: sums) acc = last sums acc').
    { clear. destruct sums as [|x sums]; [reflexivity|]. cbn [last]. revert x. induction sums as [|y sums IHs]; intros x; [reflexivity|]. exact (IHs y). }
    rewrite La. split; [cbn; rewrite L; reflexivity|]. split; [cbn [sum_weights]; rewrite Em; cbn [bind]; rewrite Ez; exact A|].
    intros [|i] r l Hr Hl; cbn in Hr, Hl.
    + injection Hr as <-. injection Hl as <-. cbn [q_acc firstn skipn sum_weights]. rewrite Em. cbn [bind]. rewrite Ez. cbn [bind]. split; [rewrite Eq; reflexivity|]. split; [reflexivity|exact A].
    + destruct (B i r l Hr Hl) as [X [Y Z0]]. split; [exact X|]. split; [|exact Z0]. change (firstn (S (S i)) ((m, w) :: ws)) with ((m, w) :: firstn (S i) ws). cbn [sum_weights]. rewrite Em. cbn [bind]. rewrite Ez. exact Y.
Qed.

(** Asked for the conditions of the last reward: one row per weight in their order, with
    the greatest weighted value and the number of pointings that have one, feasible
    exactly if some pointing has. *)
Theorem C129_rows : forall tw g s c accum rows, k_geo s = Some c -> t_df pressure tw g s c accum = Ok rows ->
  map (fun r => (q_meth r, q_w r)) rows = g_weights g /\
  forall r, In r rows -> exists v, m_call tw g (k_st s) c (q_meth r) = Ok v /\ greatest (weighted v (q_w r)) (q_max r) /\ places (weighted v (q_w r)) (q_n r) /\
    (q_feas r = true <-> exists i q, nth_error (weighted v (q_w r)) i = Some (EFin q)).
Proof.
  intros tw g s c accum rows G H. destruct (rows_ok _ _ _ _ _ _ _ _ G H) as [A B]. split; [exact A|].
  intros r I. destruct (B r I) as [v [Em [_ [E1 [E2 E3]]]]]. exists v. rewrite E1, E2. split; [exact Em|]. split; [apply nanmax_greatest|]. split; [apply count_places|exact E3].
Qed.

(** The last accumulated value is the reward the survey gives for these conditions when
    it has none kept. *)
Theorem C129_last : forall tw g s c rows r, k_geo s = Some c -> t_df pressure tw g s c true = Ok (rows ++ [r]) ->
  forall s0, p_n s0 = p_n (k_st s) -> p_last s0 = p_last (k_st s) -> p_track s0 = p_track (k_st s) -> ~ (p_mjd s0 == c_mjd c)%Q ->
  exists s1 x n l, calc_reward tw g s0 c = Ok (s1, l) /\ p_calc tw g s0 c = Ok (s1, x) /\ q_acc r = Some (x, n) /\ places l n.
Proof.
  intros tw g s c rows r G H s0 Hn Hl Ht Hm. unfold t_df in H. destruct (rows_acc _ _ _ _ _ _ _ G H) as [sums [L [A B]]].
  rewrite app_length in L. cbn in L.
  assert (S1 : sums <> []) by (intros Q; rewrite Q in L; cbn in L; lia).
  assert (Hr : nth_error (rows ++ [r]) (List.length rows) = Some r) by (rewrite nth_error_app2, Nat.sub_diag by lia; reflexivity).
  set (z := last sums (map (fun _ => EFin 0) (g_notes g))) in *.
  assert (Hz : nth_error sums (List.length rows) = Some z).
  { unfold z. rewrite (app_removelast_last (map (fun _ => EFin 0) (g_notes g)) S1) at 1.
    assert (Lr : List.length (removelast sums) = List.length rows).
    { pose proof (f_equal (@List.length _) (app_removelast_last (map (fun _ => EFin 0) (g_notes g)) S1)) as X. rewrite app_length in X. cbn in X. lia. }
    rewrite nth_error_app2, Lr, Nat.sub_diag by lia. reflexivity. }
  destruct (B _ _ _ Hr Hz) as [C _].
  assert (M : forall m, m_call tw g s0 c m = m_call tw g (k_st s) c m).
  { intros m. unfold m_call, m_gap, m_balance. rewrite Hn, Hl, Ht. reflexivity. }
  assert (W : forall ws acc, sum_weights tw g s0 c ws acc = sum_weights tw g (k_st s) c ws acc).
  { induction ws as [|[m w] ws IH]; intros acc; cbn [sum_weights]; [reflexivity|]. rewrite M. destruct (m_call tw g (k_st s) c m) as [v|e]; [|reflexivity]. cbn [bind].
    destruct (Surveys.zip_add _ _) as [q|e]; [|reflexivity]. cbn [bind]. apply IH. }
  assert (E : calc_reward tw g s0 c = Ok (mkPst (p_n s0) (p_last s0) (p_track s0) (c_mjd c) (Some z), z)).
  { unfold calc_reward. destruct (Qeq_bool (p_mjd s0) (c_mjd c)) eqn:Q; [apply Qeq_bool_iff in Q; contradiction|]. rewrite W, A. reflexivity. }
  assert (Ne : z <> []).
  { (* the last row was made from it *)
    intros Q. clear E. revert H A. clear - G Hr Hz Q same_wind B. intros H A.
    assert (N : g_notes g <> []).
    { intros N. destruct (rows_ok _ _ _ _ _ _ _ _ G H) as [_ K]. destruct (K r) as [v [Em [Nv _]]]; [apply in_app_iff; right; left; reflexivity|].
      rewrite N in H. cbn [map] in H. clear - H G Nv same_wind. unfold t_rows in H. fold t_rows in H. destruct (g_weights g) as [|[m w] ws]; [destruct rows; discriminate|].
      cbn [t_rows] in H. rewrite (call_now tw g s c m G) in H. destruct (m_call tw g (k_st s) c m) as [u|e]; [|discriminate]. cbn [bind] in H.
      destruct (scal (map _ u)) as [p|e] eqn:Es; [|discriminate]. apply scal_ok in Es as [Ns _]. cbn [bind] in H. destruct u as [|y u]; [contradiction|]. discriminate. }
    destruct (sum_nan _ _ _ _ _ _ _ A) as [L _]. rewrite Q, map_length in L. destruct (g_notes g); [contradiction|discriminate]. }
  eexists _, (nanmax z), (List.length (filter er_finite z)), z. split; [exact E|]. split; [|split; [exact C|apply count_places]].
  unfold p_calc. rewrite E. cbn [bind fst snd]. destruct z; [contradiction|reflexivity].
Qed.

Lemma finite_add : forall x y q, Surveys.er_add x y = EFin q -> (exists a, x = EFin a) /\ exists b, y = EFin b.
Proof. intros [| |a|] [| |b|] q H; try discriminate. split; eexists; reflexivity. Qed.
Lemma sum_finite : forall tw g s c ws acc l, sum_weights tw g s c ws acc = Ok l -> forall i q, nth_error l i = Some (EFin q) ->
  (exists a, nth_error acc i = Some (EFin a)) /\ forall m w, In (m, w) ws -> exists v b, m_call tw g s c m = Ok v /\ nth_error (weighted v w) i = Some (EFin b).
Proof.
  intros tw g s c ws; induction ws as [|[m w] ws IH]; intros acc l H i q E; cbn [sum_weights] in H.
  - injection H as <-. split; [eexists; exact E|intros ? ? []].
  - destruct (m_call tw g s c m) as [v|e] eqn:Em; [|discriminate]. cbn [bind] in H. destruct (Surveys.zip_add _ _) as [z|e] eqn:Ez; [|discriminate]. cbn [bind] in H.
    destruct (IH z l H i q E) as [[a Ha] R]. destruct (zip_add_nth _ _ _ Ez) as [L1 [L2 P]].
    assert (Hi : i < List.length acc) by (rewrite <- L1; apply nth_error_Some; congruence).
    destruct (nth_some _ acc i Hi) as [u Hu]. destruct (nth_some _ (weighted v w) i) as [y Hy]; [unfold weighted; lia|].
    rewrite (P i u y Hu Hy) in Ha. injection Ha as Ha. destruct (finite_add _ _ _ Ha) as [[a1 ->] [b1 ->]].
    split; [eexists; exact Hu|]. intros m' w' [Q|I]; [injection Q as <- <-; exists v, b1; split; [exact Em|exact Hy]|exact (R m' w' I)].
Qed.
(** Numbers of pointings left only fall, and never exceed those of the row itself. *)
Theorem C129_shrink : forall tw g s c rows i j ri rj xi ni xj nj, k_geo s = Some c -> t_df pressure tw g s c true = Ok rows ->
  i <= j -> nth_error rows i = Some ri -> nth_error rows j = Some rj -> q_acc ri = Some (xi, ni) -> q_acc rj = Some (xj, nj) -> nj <= ni /\ nj <= q_n ri.
Proof.
  intros tw g s c rows i j ri rj xi ni xj nj G H Lij Hi Hj Ai Aj. unfold t_df in H.
  destruct (rows_acc _ _ _ _ _ _ _ G H) as [sums [L [_ B]]]. destruct (rows_ok _ _ _ _ _ _ _ _ G H) as [W R].
  assert (Li : i < List.length sums) by (rewrite L; apply nth_error_Some; congruence).
  assert (Lj : j < List.length sums) by (rewrite L; apply nth_error_Some; congruence).
  destruct (nth_some _ sums i Li) as [a Ha]. destruct (nth_some _ sums j Lj) as [b Hb].
  destruct (B i ri a Hi Ha) as [Ci [Fi _]]. destruct (B j rj b Hj Hb) as [Cj [Fj _]].
  rewrite Ai in Ci. injection Ci as _ ->. rewrite Aj in Cj. injection Cj as _ ->.
  assert (App : forall us vs acc z, sum_weights tw g (k_st s) c (us ++ vs) acc = Ok z -> exists y, sum_weights tw g (k_st s) c us acc = Ok y /\ sum_weights tw g (k_st s) c vs y = Ok z).
  { induction us as [|[m w] us IHu]; intros vs acc z E; [exists acc; split; [reflexivity|exact E]|]. cbn [app sum_weights] in *.
    destruct (m_call tw g (k_st s) c m) as [v|e]; [|discriminate]. cbn [bind] in *. destruct (Surveys.zip_add _ _) as [q|e]; [|discriminate]. cbn [bind] in *. exact (IHu vs q z E). }
  assert (Sp : firstn (S j) (g_weights g) = firstn (S i) (g_weights g) ++ skipn (S i) (firstn (S j) (g_weights g))).
  { rewrite <- (firstn_skipn (S i) (firstn (S j) (g_weights g))) at 1. rewrite firstn_firstn. replace (Nat.min (S i) (S j)) with (S i) by lia. reflexivity. }
  rewrite Sp in Fj. destruct (App _ _ _ _ Fj) as [y [Y1 Y2]]. rewrite Fi in Y1. injection Y1 as <-.
  assert (Sub : forall (p1 p2 : list er), (forall k q, nth_error p1 k = Some (EFin q) -> exists q', nth_error p2 k = Some (EFin q')) -> List.length (filter er_finite p1) <= List.length (filter er_finite p2)).
  { intros p1 p2 K. destruct (count_places p1) as [i1 [N1 [<- I1]]]. destruct (count_places p2) as [i2 [N2 [<- I2]]]. apply NoDup_incl_length; [exact N1|].
    intros k Ik. apply I2. apply I1 in Ik as [q Ik]. exact (K k q Ik). }
  split.
  - apply Sub. intros k q E. exact (proj1 (sum_finite _ _ _ _ _ _ _ Y2 k q E)).
  - destruct (R ri (nth_error_In _ _ Hi)) as [v [Em [_ [_ [-> _]]]]]. apply Sub. intros k q E.
    destruct (proj1 (sum_finite _ _ _ _ _ _ _ Y2 k q E)) as [qa Ea].
    assert (Iw : In (q_meth ri, q_w ri) (firstn (S i) (g_weights g))).
    { rewrite <- W. assert (X : nth_error (map (fun r => (q_meth r, q_w r)) rows) i = Some (q_meth ri, q_w ri)) by (rewrite nth_error_map, Hi; reflexivity).
      rewrite firstn_map. apply in_map_iff. exists ri. split; [reflexivity|]. apply (nth_error_In _ i). rewrite <- Hi. clear. revert i. induction rows as [|r rows IH]; intros [|i]; try reflexivity. exact (IH i). }
    destruct (proj2 (sum_finite _ _ _ _ _ _ _ Fi k qa Ea) _ _ Iw) as [v' [b' [Em' Eb]]]. rewrite Em in Em'. injection Em' as <-. eexists; exact Eb.
Qed.
(** One row that is not feasible: the survey is not feasible. *)
Theorem C129_blocked : forall tw g s c accum rows r, k_geo s = Some c -> t_df pressure tw g s c accum = Ok rows -> In r rows -> q_feas r = false ->
  forall s0, p_n s0 = p_n (k_st s) -> p_last s0 = p_last (k_st s) -> p_track s0 = p_track (k_st s) -> ~ (p_mjd s0 == c_mjd c)%Q ->
  forall s1 b, p_feasible tw g s0 c = Ok (s1, b) -> b = false.
Proof.
  intros tw g s c accum rows r G H I F s0 Hn Hl Ht Hm s1 b E. destruct (rows_ok _ _ _ _ _ _ _ _ G H) as [W R].
  destruct (R r I) as [v [Em [_ [_ [_ Fe]]]]].
  assert (M : m_call tw g s0 c (q_meth r) = Ok v) by (rewrite <- Em; unfold m_call, m_gap, m_balance; rewrite Hn, Hl, Ht; reflexivity).
  unfold p_feasible in E. destruct (existsb _ _); [injection E as _ <-; reflexivity|].
  unfold p_calc in E. destruct (calc_reward tw g s0 c) as [[s2 l]|e] eqn:C; [|discriminate]. cbn [bind fst snd] in E.
  unfold calc_reward in C. destruct (Qeq_bool (p_mjd s0) (c_mjd c)) eqn:Q; [apply Qeq_bool_iff in Q; contradiction|].
  destruct (sum_weights tw g s0 c (g_weights g) _) as [z|e] eqn:S1; [|discriminate]. cbn [bind] in C. injection C as _ <-.
  destruct z as [|x z]; [discriminate|]. cbn [bind fst snd] in E. injection E as _ <-.
  destruct (nanmax (x :: z)) as [| |q|] eqn:Nm; try reflexivity. exfalso.
  assert (J : exists i, nth_error (x :: z) i = Some (EFin q)).
  { destruct (nanmax_spec (x :: z)) as [[X _]|[X _]]; [congruence|]. rewrite Nm in X. apply In_nth_error in X. exact X. }
  destruct J as [i J]. assert (Iw : In (q_meth r, q_w r) (g_weights g)) by (rewrite <- W; apply in_map_iff; exists r; split; [reflexivity|exact I]).
  destruct (proj2 (sum_finite _ _ _ _ _ _ _ S1 i q J) _ _ Iw) as [v' [b' [M' Eb]]]. rewrite M in M'. injection M' as <-.
  assert (T : q_feas r = true) by (apply Fe; exists i, b'; exact Eb). congruence.
Qed.
(** reward_changes: the greatest value of each method alone, without its weight. *)
Theorem C129_changes : forall tw g s c l, k_geo s = Some c -> t_changes pressure tw g s c (g_weights g) = Ok l ->
  map fst l = map fst (g_weights g) /\ forall m x, In (m, x) l -> exists v, m_call tw g (k_st s) c m = Ok v /\ greatest v x.
Proof.
  intros tw g s c l G. revert l. induction (g_weights g) as [|[m w] ws IH]; intros l H; cbn [t_changes] in H.
  - injection H as <-. split; [reflexivity|intros ? ? []].
  - rewrite (call_now tw g s c m G) in H. destruct (m_call tw g (k_st s) c m) as [v|e] eqn:Em; [|discriminate]. cbn [bind] in H.
    destruct (scal v) as [p|e] eqn:Es; [|discriminate]. cbn [bind] in H. destruct (t_changes pressure tw g s c ws) as [t|e] eqn:Et; [|discriminate]. cbn [bind] in H. injection H as <-.
    destruct (IH t eq_refl) as [A B]. split; [cbn; rewrite A; reflexivity|]. intros m' x [Q|I]; [|exact (B m' x I)]. injection Q as <- <-.
    exists v. split; [exact Em|]. apply scal_ok in Es as [_ ->]. apply nanmax_greatest.
Qed.
End Table.
Print Assumptions C129_rows.
Print Assumptions C129_last.
Print Assumptions C129_shrink.
Print Assumptions C129_blocked.
Print Assumptions C129_changes.

(** ** A worked table: the survey of Props_Pointings after a reward *)
Import Props_Pointings.
Definition own_wind (_ c : pcond) : option (list Q) := c_wind c.
Definition after (c : pcond) : tst := match t_calc ex_tw ex_g (mkT None (start ex_g)) c with Ok (s, _) => s | Raise _ => mkT None (start ex_g) end.
Example C129_ex : exists rows, t_df own_wind ex_tw ex_g (after (ex_c 60000)) (ex_c 60000) true = Ok rows /\
  map q_meth rows = map fst ex_weights /\ map q_n rows = [3; 3; 3; 3; 3; 2; 3; 3] /\ map q_feas rows = repeat true 8 /\
  map (fun r => match q_acc r with Some (_, n) => n | None => 9 end) rows = [3; 3; 3; 3; 3; 2; 2; 2] /\
  p_calc ex_tw ex_g (start ex_g) (ex_c 60000) = Ok (k_st (after (ex_c 60000)), match q_acc (last rows (mkRow Balance true ENaN 0 0 None)) with Some (x, _) => x | None => ENaN end) /\
  k_geo (after (ex_c 60000)) = Some (ex_c 60000).
Proof. eexists. vm_compute. repeat split. Qed.

(** *** Refutations *)
(** Before the first reward there is no table for weights that name a limit on altitude or
    hour angle, as the default does. *)
Theorem C129_first_refuted : forall pressure tw g s c accum m w ws, g_weights g = (m, w) :: ws -> m = HaLimit \/ m = AltLimit -> k_geo s = None ->
  t_df pressure tw g s c accum = Raise AttributeError.
Proof. intros pressure tw g s c accum m w ws E H G. unfold t_df. rewrite E. cbn [t_rows]. unfold t_call. rewrite G. destruct H as [-> | ->]; reflexivity. Qed.
Example C129_first_ex : t_df own_wind ex_tw ex_g (mkT None (start ex_g)) (ex_c 60000) true = Raise AttributeError.
Proof. reflexivity. Qed.
Print Assumptions C129_first_refuted.
(** Asked for other conditions, the limits are those of the altitudes of the last reward:
    no pointing is up, every row is feasible, and the reward then given is NaN. *)
Definition low (t : Q) : pcond := mkCond t (-(1 # 2)) [1 # 10; -(1 # 5); 3 # 1]%Q [0; 0; 0]%Q [1; 1; 1]%Q None [EFin 10; EFin 5; EFin 1] [EFin 0; EFin 0; EFin 0].
Theorem C129_stale_refuted : exists rows, t_df own_wind ex_tw ex_g (after (ex_c 60000)) (low 60001) true = Ok rows /\ map q_feas rows = repeat true 8 /\
  (exists q n, q_acc (last rows (mkRow Balance true ENaN 0 0 None)) = Some (EFin q, n) /\ 0 < n) /\
  exists s, t_calc ex_tw ex_g (after (ex_c 60000)) (low 60001) = Ok (s, ENaN).
Proof.
  eexists. split; [vm_compute; reflexivity|]. split; [reflexivity|]. split; [eexists _, _; split; [vm_compute; reflexivity|apply Nat.lt_0_succ]|]. eexists. vm_compute. reflexivity.
Qed.
Print Assumptions C129_stale_refuted.
(** A visit reported after the reward: the table has it, the reward of the same time has not. *)
Theorem C129_kept_refuted : exists s rows x y n, s = mkT (k_geo (after (ex_c 60000))) (p_add ex_g (k_st (after (ex_c 60000))) true (mkVisit "b" 60000)) /\
  t_df own_wind ex_tw ex_g s (ex_c 60000) true = Ok rows /\ q_acc (last rows (mkRow Balance true ENaN 0 0 None)) = Some (x, n) /\
  (exists s', t_calc ex_tw ex_g s (ex_c 60000) = Ok (s', y)) /\ er_eqb x y = false.
Proof.
  eexists _, _, _, _, _. split; [reflexivity|]. split; [vm_compute; reflexivity|]. split; [reflexivity|]. split; [eexists; vm_compute; reflexivity|vm_compute; reflexivity].
Qed.
Print Assumptions C129_kept_refuted.
(** reward_changes leaves the weights out: a method that only costs is shown as a gain. *)
Theorem C129_weights_refuted : exists l rows x y, t_changes own_wind ex_tw ex_g (after (ex_c 60000)) (ex_c 60000) ex_weights = Ok l /\
  t_df own_wind ex_tw ex_g (after (ex_c 60000)) (ex_c 60000) false = Ok rows /\ nth_error l 3 = Some (SlewTime, EFin x) /\
  (exists r, nth_error rows 3 = Some r /\ q_meth r = SlewTime /\ q_max r = EFin y) /\ (0 < x)%Q /\ (y < 0)%Q.
Proof.
  eexists _, _, _, _. split; [vm_compute; reflexivity|]. split; [vm_compute; reflexivity|]. split; [reflexivity|]. split; [eexists; split; [reflexivity|split; reflexivity]|]. split; reflexivity.
Qed.
Print Assumptions C129_weights_refuted.
