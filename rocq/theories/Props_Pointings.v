(** C92: the survey over a list of pointings counts visits by note, offers the first
    of the best pointings within its limits, and keeps the gap between visits. *)
From Coq Require Import List ZArith QArith Qround Qabs Bool String Lia Lqa.
From Verif Require Import Base IntRounded Feat_proofs2 Core Core_proofs Sky Sky_proofs Blob_proofs Pointings Pointings_proofs.
From Verif Require Script Surveys.
Import ListNotations.
Open Scope nat_scope.

(** ** Notes *)
Theorem C92_notes : forall g, (NoDup (g_notes g) -> exists s, p_new g = Ok s) /\ (~ NoDup (g_notes g) -> p_new g = Raise ValueError).
Proof.
  intros g. split.
  - intros H. unfold p_new. rewrite nodup_fixed_point by exact H. rewrite Nat.eqb_refl. eexists. reflexivity.
  - intros H. destruct (p_new g) as [s|e] eqn:E; [exfalso; apply H; apply (p_new_ok g s E)|]. unfold p_new in E. destruct (Nat.eqb _ _); congruence.
Qed.
Print Assumptions C92_notes.

(** ** Counters: any sequence of reports, one by one or in batches, and questions *)
Theorem C92_count : forall tw g s0 ops i t, p_new g = Ok s0 -> Forall valid_op ops -> nth_error (g_notes g) i = Some t ->
  nth_error (p_n (p_run tw g s0 ops)) i = Some (Z.of_nat (List.length (filter (fun v => String.eqb (w_note v) t) (visits_of ops)))).
Proof. intros tw g s0 ops i t H V Ht. apply (run_inv tw g s0 ops i t H V Ht). Qed.
Print Assumptions C92_count.

Theorem C92_last_partial : forall tw g s0 ops i t, p_new g = Ok s0 -> Forall valid_op ops -> nth_error (g_notes g) i = Some t -> in_time (visits_of ops) ->
  exists last, nth_error (p_last (p_run tw g s0 ops)) i = Some last /\
    (forall v, In v (visits_of ops) -> w_note v = t -> (w_mjd v <= last)%Q) /\
    ((exists v, In v (visits_of ops) /\ w_note v = t /\ last = w_mjd v) \/ ((forall v, In v (visits_of ops) -> w_note v <> t) /\ last = 0%Q)).
Proof. intros tw g s0 ops i t H V Ht T. destruct (run_inv tw g s0 ops i t H V Ht) as (_ & _ & C & _). apply (C T). Qed.
Print Assumptions C92_last_partial.

Lemma same_nth : forall A (l1 l2 : list A), (forall i, nth_error l1 i = nth_error l2 i) -> l1 = l2.
Proof.
  intros A. induction l1 as [|x l1 IH]; intros [|y l2] H; [reflexivity|specialize (H 0); discriminate|specialize (H 0); discriminate|].
  pose proof (H 0) as E. cbn in E. inversion E; subst. f_equal. apply IH. intros i. apply (H (Datatypes.S i)).
Qed.
(** A restart from the stored visits: same counters whichever way they arrive. *)
Theorem C92_batch : forall tw g s0 a b, p_new g = Ok s0 -> Forall valid_op a -> Forall valid_op b -> visits_of a = visits_of b -> p_n (p_run tw g s0 a) = p_n (p_run tw g s0 b).
Proof.
  intros tw g s0 a b H Va Vb E.
  assert (Len : forall ops, Forall valid_op ops -> g_notes g <> [] -> List.length (p_n (p_run tw g s0 ops)) = List.length (g_notes g)).
  { intros ops V N. destruct (g_notes g) as [|t l] eqn:Eg; [congruence|]. destruct (run_inv tw g s0 ops 0 t H V) as ((S1 & _) & _); [rewrite Eg; reflexivity|]. rewrite <- Eg. exact S1. }
  destruct (g_notes g) as [|t0 l0] eqn:Eg.
  - assert (Z : forall ops s, p_n s = [] -> p_n (p_run tw g s ops) = []).
    { clear -Eg. induction ops as [|o ops IH]; intros s Hs; [exact Hs|]. cbn. apply IH. destruct o as [x v|order l|c]; cbn [p_step].
      - cbn. rewrite Eg, Hs. reflexivity.
      - unfold p_batch. revert s Hs. induction order as [|n order IHo]; intros s Hs; [exact Hs|]. cbn [fold_left]. apply IHo. cbn. rewrite Eg, Hs. reflexivity.
      - destruct (calc_reward tw g s c) as [[s' r]|e] eqn:Ec; [|exact Hs]. destruct (ask_keeps _ _ _ _ _ _ Ec) as (K & _). rewrite K. exact Hs. }
    assert (Z0 : p_n s0 = []) by (destruct (p_new_ok g s0 H) as (_ & (S1 & _) & _); rewrite Eg in S1; apply length_zero_iff_nil; exact S1).
    rewrite !Z by exact Z0. reflexivity.
  - rewrite <- Eg in Len. apply same_nth. intros i. destruct (nth_error (g_notes g) i) as [t|] eqn:Et.
    + rewrite (C92_count tw g s0 a i t H Va Et), (C92_count tw g s0 b i t H Vb Et), E. reflexivity.
    + apply nth_error_None in Et. assert (Ng : g_notes g <> []) by (rewrite Eg; discriminate).
      pose proof (Len a Va Ng). pose proof (Len b Vb Ng).
      transitivity (@None Z); [apply nth_error_None; lia|symmetry; apply nth_error_None; lia].
Qed.
Print Assumptions C92_batch.

Theorem C92_sequence_partial : forall tw g s0 ops, p_new g = Ok s0 -> Forall valid_op ops -> (forall v, ~ In (One true v) ops) -> g_notes g <> [] ->
  p_track (p_run tw g s0 ops) = map (fun k => (fst k, Z.of_nat (List.length (filter (fun v => Script.contains (fst k) (w_note v)) (visits_of ops))))) (g_goal g).
Proof.
  intros tw g s0 ops H V N Ng. destruct (g_notes g) as [|t l] eqn:Eg; [congruence|]. destruct (run_inv tw g s0 ops 0 t H V) as (_ & _ & _ & D & _); [rewrite Eg; reflexivity|].
  rewrite D. apply map_ext. intros [k m]. cbn [fst]. f_equal. clear -N. induction ops as [|o ops IH]; [reflexivity|].
  change (o :: ops) with ([o] ++ ops). rewrite zcounted_app, IH; [|intros v I; apply (N v); right; exact I].
  unfold visits_of. rewrite flat_map_app, filter_app, app_length, Nat2Z.inj_add. f_equal. unfold zcounted. cbn [fold_right flat_map].
  destruct o as [[|] v|order vs|c]; cbn [counted].
  - exfalso. apply (N v). left. reflexivity.
  - cbn. destruct (Script.contains k (w_note v)); reflexivity.
  - rewrite app_nil_r. unfold count. lia.
  - reflexivity.
Qed.
Print Assumptions C92_sequence_partial.

(** ** The offer *)
Theorem C92_best : forall tw g s c s' i, ~ (p_mjd s == c_mjd c)%Q -> p_generate tw g s c = Ok (s', i) ->
  i < List.length (g_notes g) /\ er_isnan (total_at tw g s c i) = false /\
  (forall j, j < List.length (g_notes g) -> er_isnan (total_at tw g s c j) = false -> er_le (total_at tw g s c j) (total_at tw g s c i)) /\
  (forall j, j < i -> ~ er_le (total_at tw g s c i) (total_at tw g s c j)).
Proof.
  intros tw g s c s' i N H. destruct (generate_fresh _ _ _ _ _ _ N H) as (r & x & A & L & B & C & D & E).
  assert (T : forall j, j < List.length (g_notes g) -> nth_error r j = Some (total_at tw g s c j)).
  { intros j Hj. apply (sum_total _ _ _ _ j _ _ _ (EFin 0) A). rewrite nth_error_map. destruct (nth_some _ (g_notes g) j Hj) as [t ->]. reflexivity. }
  assert (Li : i < List.length (g_notes g)) by (rewrite <- L; apply nth_error_Some; congruence).
  rewrite (T i Li) in B. inversion B; subst x. split; [exact Li|]. split; [exact C|]. split.
  - intros j Hj Nj. apply D; [|exact Nj]. apply nth_error_In with j. apply T. exact Hj.
  - intros j Hj. apply (E j); [exact Hj|]. apply T. lia.
Qed.
Print Assumptions C92_best.

(** The limits named in the weights, even with weight zero. *)
Theorem C92_limits_partial : forall tw g s c s' i, sized g c -> List.length (p_last s) = List.length (g_notes g) -> ~ (p_mjd s == c_mjd c)%Q ->
  p_generate tw g s c = Ok (s', i) ->
  (forall w, In (AltLimit, w) (g_weights g) -> (forall a, In a (c_alt c) -> far a (g_alt_min g) /\ far a (g_alt_max g)) ->
     (g_alt_min g <= nth i (c_alt c) 0)%Q /\ (nth i (c_alt c) 0 <= g_alt_max g)%Q) /\
  (forall w, In (MoonLimit, w) (g_weights g) -> (forall a, In a (c_moon c) -> far a (g_moon g)) -> (g_moon g <= nth i (c_moon c) 0)%Q) /\
  (forall w p, In (WindLimit, w) (g_weights g) -> c_wind c = Some p -> (forall a, In a p -> far a (g_wind g)) -> (nth i p 0 <= g_wind g)%Q) /\
  (forall w, In (VisitGap, w) (g_weights g) -> (forall a, In a (p_last s) -> far (c_mjd c - a) (g_gap g)) -> (g_gap g <= c_mjd c - nth i (p_last s) 0)%Q).
Proof.
  intros tw g s c s' i (S1 & S2 & S3 & _ & _ & S6) Sl N H. destruct (offered_values _ _ _ _ _ _ N H) as [Li V]. split; [|split; [|split]].
  - intros w I F. destruct (V _ _ I) as (v & y & E1 & E2 & E3). cbn in E1. inversion E1; subst v. apply (lnth _ _ _ ENaN) in E2.
    assert (La : i < List.length (c_alt c)) by congruence. destruct (m_alt_nth g c i ENaN La) as [_ E]. rewrite E in E2.
    rewrite lt_far in E2; [|intros a Ia; apply (F a Ia)|exact La]. rewrite gt_far in E2; [|intros a Ia; apply (F a Ia)|exact La].
    destruct (Qltb (nth i (c_alt c) 0%Q) (g_alt_min g)) eqn:X; [subst y; discriminate|]. destruct (Qltb (g_alt_max g) (nth i (c_alt c) 0%Q)) eqn:Y; [subst y; discriminate|].
    apply Qltb_le in X, Y. split; assumption.
  - intros w I F. destruct (V _ _ I) as (v & y & E1 & E2 & E3). cbn in E1. inversion E1; subst v. apply (lnth _ _ _ ENaN) in E2.
    assert (La : i < List.length (c_moon c)) by congruence. destruct (m_moon_nth g c i ENaN La) as [_ E]. rewrite E, lt_far in E2 by assumption.
    destruct (Qltb _ _) eqn:X; [subst y; discriminate|]. apply Qltb_le in X. exact X.
  - intros w p I Ew F. destruct (V _ _ I) as (v & y & E1 & E2 & E3). cbn in E1. inversion E1; subst v. apply (lnth _ _ _ ENaN) in E2.
    assert (La : i < List.length p) by (rewrite (S6 p Ew); exact Li). destruct (m_wind_nth g c p i ENaN Ew La) as [_ E]. rewrite E, gt_far in E2 by assumption.
    destruct (Qltb _ _) eqn:X; [subst y; discriminate|]. apply Qltb_le in X. exact X.
  - intros w I F. destruct (V _ _ I) as (v & y & E1 & E2 & E3). cbn in E1. inversion E1; subst v. apply (lnth _ _ _ ENaN) in E2.
    assert (La : i < List.length (p_last s)) by congruence. destruct (m_gap_nth g s c i ENaN La) as [_ E]. rewrite E in E2.
    rewrite lt_far in E2; [|intros a Ia; apply in_map_iff in Ia; destruct Ia as (b & <- & Ib); apply F; exact Ib|rewrite map_length; exact La].
    rewrite diff_nth in E2 by exact La. destruct (Qltb _ _) eqn:X; [subst y; discriminate|]. apply Qltb_le in X. exact X.
Qed.
Print Assumptions C92_limits_partial.

(** The gap over a whole night of reports and questions. *)
Theorem C92_gap_partial : forall tw g s0 ops c s' i t w, p_new g = Ok s0 -> Forall valid_op ops -> in_time (visits_of ops) -> sized g c ->
  In (VisitGap, w) (g_weights g) -> (forall c', In (Ask c') ops -> ~ (c_mjd c' == c_mjd c)%Q) -> ~ (c_mjd c == -1)%Q ->
  (forall v, In v (visits_of ops) -> far (c_mjd c - w_mjd v) (g_gap g)) -> far (c_mjd c - 0) (g_gap g) ->
  p_generate tw g (p_run tw g s0 ops) c = Ok (s', i) -> nth_error (g_notes g) i = Some t ->
  forall v, In v (visits_of ops) -> w_note v = t -> (g_gap g <= c_mjd c - w_mjd v)%Q.
Proof.
  intros tw g s0 ops c s' i t w H V T Sz I A M F F0 G Ht v Iv Nv. destruct (run_inv tw g s0 ops i t H V Ht) as ((_ & Sl) & _ & C & _ & Mj).
  assert (N : ~ (p_mjd (p_run tw g s0 ops) == c_mjd c)%Q).
  { destruct Mj as [E|(c' & I' & E)]; rewrite E; [intros X; apply M; symmetry; exact X|apply A; exact I']. }
  destruct (C T) as (last & El & Up & _). destruct (C92_limits_partial tw g _ c s' i Sz Sl N G) as (_ & _ & _ & K).
  assert (Fl : forall a, In a (p_last (p_run tw g s0 ops)) -> far (c_mjd c - a) (g_gap g)).
  { intros a Ia. apply In_nth_error in Ia. destruct Ia as [j Hj]. assert (Lj : j < List.length (g_notes g)) by (rewrite <- Sl; apply nth_error_Some; congruence).
    destruct (nth_some _ _ _ Lj) as [u Hu]. destruct (run_inv tw g s0 ops j u H V Hu) as (_ & _ & C' & _). destruct (C' T) as (b & Eb & _ & X).
    rewrite Hj in Eb. inversion Eb; subst b. destruct X as [(x & Ix & _ & ->)|[_ ->]]; [apply F; exact Ix|exact F0]. }
  specialize (K w I Fl). rewrite (lnth _ _ _ 0%Q _ El) in K. pose proof (Up v Iv Nv). lra.
Qed.
Print Assumptions C92_gap_partial.

(** Nothing within its limits is masked: the survey then has an offer. *)
Theorem C92_live : forall tw g s c i, sized g c -> shaped g s -> ~ (p_mjd s == c_mjd c)%Q -> i < List.length (g_notes g) ->
  (g_alt_min g <= nth i (c_alt c) 0)%Q -> (nth i (c_alt c) 0 <= g_alt_max g)%Q -> (g_moon g <= nth i (c_moon c) 0)%Q ->
  (forall p, c_wind c = Some p -> (nth i p 0 <= g_wind g)%Q) -> (g_gap g <= c_mjd c - nth i (p_last s) 0)%Q ->
  (nth i (wrap_ha tw (c_ha c)) 0 <= g_ha_max g \/ g_ha_min g <= nth i (wrap_ha tw (c_ha c)) 0)%Q ->
  finite (nth i (c_slew c) ENaN) -> finite (nth i (c_m5 c) ENaN) -> (forall k m, In (k, m) (g_goal g) -> m <> 0%Z) ->
  finite (total_at tw g s c i) /\ exists s' j, p_generate tw g s c = Ok (s', j).
Proof.
  intros tw g s c i (S1 & S2 & S3 & S4 & S5 & S6) (P1 & P2) N Li A1 A2 M W G Ha Sl Md Go.
  assert (V : forall m w, In (m, w) (g_weights g) -> exists v y, m_call tw g s c m = Ok v /\ List.length v = List.length (map (fun _ => EFin 0) (g_notes g)) /\ nth_error v i = Some y /\ finite y).
  { assert (K : forall m, exists v, m_call tw g s c m = Ok v /\ List.length v = List.length (g_notes g) /\ finite (nth i v ENaN)).
    { intros m. destruct m; cbn [m_call].
      - assert (L : i < List.length (p_last s)) by congruence. destruct (m_gap_nth g s c i ENaN L) as [X Y]. eexists. split; [reflexivity|]. split; [congruence|]. rewrite Y, lt_off; [eexists; reflexivity|rewrite map_length; exact L|rewrite diff_nth by exact L; exact G].
      - exists (m_balance s). split; [reflexivity|]. unfold m_balance. split; [rewrite map_length; exact P1|].
        destruct (nth_some _ (p_n s) i) as [n Hn]; [lia|]. match goal with |- finite (nth i (map ?f _) _) => assert (E : nth i (map f (p_n s)) ENaN = f n) by (apply lnth; rewrite nth_error_map, Hn; reflexivity); rewrite E end.
        destruct (n =? 0)%Z; [eexists; reflexivity|]. destruct (_ =? 0)%Z; eexists; reflexivity.
      - exists (c_m5 c). split; [reflexivity|]. split; [exact S5|exact Md].
      - exists (c_slew c). split; [reflexivity|]. split; [exact S4|exact Sl].
      - exists (m_wind g c). split; [reflexivity|]. destruct (c_wind c) as [p|] eqn:Ew.
        + assert (L : i < List.length p) by (rewrite (S6 p eq_refl); exact Li). destruct (m_wind_nth g c p i ENaN Ew L) as [X Y]. split; [rewrite X; apply S6; reflexivity|].
          rewrite Y, gt_off; [eexists; reflexivity|exact L|apply W; reflexivity].
        + unfold m_wind. rewrite Ew. split; [apply map_length|]. destruct (nth_some _ (g_notes g) i Li) as [t Ht]. exists 0%Q. apply lnth. rewrite nth_error_map, Ht. reflexivity.
      - assert (L : i < List.length (wrap_ha tw (c_ha c))) by (unfold wrap_ha; rewrite map_length; congruence). destruct (m_ha_nth g _ i ENaN L) as [X Y]. eexists. split; [reflexivity|].
        split; [rewrite X; unfold wrap_ha; rewrite map_length; congruence|]. rewrite Y. destruct Ha as [Ha|Ha]; [rewrite gt_off by assumption|rewrite lt_off by assumption; rewrite andb_false_r]; eexists; reflexivity.
      - assert (L : i < List.length (c_alt c)) by congruence. destruct (m_alt_nth g c i ENaN L) as [X Y]. eexists. split; [reflexivity|]. split; [congruence|]. rewrite Y, lt_off, gt_off by assumption. eexists. reflexivity.
      - assert (L : i < List.length (c_moon c)) by congruence. destruct (m_moon_nth g c i ENaN L) as [X Y]. eexists. split; [reflexivity|]. split; [congruence|]. rewrite Y, lt_off by assumption. eexists. reflexivity.
      - apply m_seq_fin; [apply map_length|exact Li| |exact Go]. destruct (nth_some _ (g_notes g) i Li) as [t Ht]. exists 0%Q. apply lnth. rewrite nth_error_map, Ht. reflexivity. }
    intros m w _. destruct (K m) as (v & E1 & E2 & E3). exists v, (nth i v ENaN). split; [exact E1|]. split; [rewrite map_length; exact E2|]. split; [apply nth_at; lia|exact E3]. }
  assert (A0 : nth_error (map (fun _ => EFin 0) (g_notes g)) i = Some (EFin 0)) by (rewrite nth_error_map; destruct (nth_some _ (g_notes g) i Li) as [t ->]; reflexivity).
  destruct (sum_ok tw g s c i (g_weights g) _ V) as (r & x & E & Hx & Fx); [exists (EFin 0); split; [exact A0|eexists; reflexivity]|].
  split.
  - unfold total_at. pose proof (sum_total tw g s c i _ _ _ _ E A0) as T. rewrite Hx in T. inversion T; subst. exact Fx.
  - unfold p_generate, calc_reward. destruct (Qeq_bool _ _) eqn:Q0; [exfalso; apply N; apply Qeq_bool_iff; exact Q0|]. rewrite E. cbn [bind snd fst].
    destruct (hd_error _) as [k|] eqn:Eh; [eexists; eexists; reflexivity|]. pose proof (argmax_none _ Eh x (nth_error_In _ _ Hx)) as X. destruct Fx as [q ->]. discriminate.
Qed.
Print Assumptions C92_live.

(** ** Hour angles: limits on both sides of the meridian *)
Theorem C92_ha_partial : forall tw g hmin hmax c i, (0 < tw)%Q -> (-12 < hmin)%Q -> (hmin < 0)%Q -> (0 <= hmax)%Q -> (hmax < 12)%Q ->
  (g_ha_min g == ha_lim tw hmin)%Q -> (g_ha_max g == ha_lim tw hmax)%Q -> i < List.length (c_ha c) ->
  (- tw <= nth i (c_ha c) 0)%Q -> (nth i (c_ha c) 0 < tw)%Q ->
  (forall a, In a (wrap_ha tw (c_ha c)) -> far a (g_ha_min g) /\ far a (g_ha_max g)) ->
  forall ha (k : Z), (ha == nth i (c_ha c) 0 + inject_Z k * tw)%Q -> (- tw / 2 <= ha)%Q -> (ha < tw / 2)%Q ->
  (nth i (m_ha g (wrap_ha tw (c_ha c))) (EFin 0) = ENaN <-> (ha < hmin * tw / 24)%Q \/ (hmax * tw / 24 < ha)%Q).
Proof.
  intros tw g hmin hmax c i T A1 A2 A3 A4 E1 E2 Li R1 R2 F ha k Eh H1 H2.
  assert (L : i < List.length (wrap_ha tw (c_ha c))) by (unfold wrap_ha; rewrite map_length; exact Li). destruct (m_ha_nth g _ i (EFin 0) L) as [_ Y]. rewrite Y.
  rewrite gt_far by (try exact L; intros a Ia; apply (F a Ia)). rewrite lt_far by (try exact L; intros a Ia; apply (F a Ia)). rewrite wrap_nth by exact Li.
  rewrite ha_lim_neg in E1 by lra. rewrite ha_lim_pos in E2 by lra.
  assert (D1 : (hmin * tw / 24 == hmin * tw * (1 # 24))%Q) by field. assert (D2 : (hmax * tw / 24 == hmax * tw * (1 # 24))%Q) by field. assert (D3 : (tw / 2 == tw * (1 # 2))%Q) by field. assert (D4 : (- tw / 2 == - tw * (1 # 2))%Q) by field.
  rewrite D1, D2 in *. rewrite D3 in H2. rewrite D4 in H1. clear D1 D2 D3 D4. set (h := nth i (c_ha c) 0%Q) in *. clearbody h. clear Y L F Li.
  assert (B1 : (- tw * (1 # 2) < hmin * tw * (1 # 24))%Q) by nra. assert (B2 : (hmin * tw * (1 # 24) < 0)%Q) by nra. assert (B3 : (0 <= hmax * tw * (1 # 24))%Q) by nra. assert (B4 : (hmax * tw * (1 # 24) < tw * (1 # 2))%Q) by nra.
  set (lo := (hmin * tw * (1 # 24))%Q) in *. set (hi := (hmax * tw * (1 # 24))%Q) in *. clearbody lo hi.
  assert (K : (k = -1 \/ k = 0 \/ k = 1)%Z).
  { assert (inject_Z k * tw < 2 * tw)%Q by lra. assert (-(2) * tw < inject_Z k * tw)%Q by lra. assert (inject_Z k < 2)%Q by nra. assert (-(2) < inject_Z k)%Q by nra.
    assert (k < 2)%Z by (rewrite Zlt_Qlt; assumption). assert (-2 < k)%Z by (rewrite Zlt_Qlt; assumption). lia. }
  assert (Z1 : (inject_Z (-1) == -(1))%Q) by reflexivity. assert (Z2 : (inject_Z 0 == 0)%Q) by reflexivity. assert (Z3 : (inject_Z 1 == 1)%Q) by reflexivity.
  assert (Cut : forall w : Q, (if Qltb (g_ha_max g) w && Qltb w (g_ha_min g) then ENaN else EFin 0) = ENaN <-> (hi < w)%Q /\ (w < lo + tw)%Q).
  { intros w. rewrite <- E1, <- E2. destruct (Qltb (g_ha_max g) w) eqn:X; destruct (Qltb w (g_ha_min g)) eqn:Y; cbn [andb]; try apply Qltb_lt in X; try apply Qltb_lt in Y; try apply Qltb_false in X; try apply Qltb_false in Y;
      (split; [intros Z; try discriminate; split; assumption|intros [Z Z']; try reflexivity; exfalso; lra]). }
  rewrite Cut. destruct (Qltb h 0) eqn:X; [apply Qltb_lt in X|apply Qltb_false in X]; destruct K as [-> | [-> | ->]]; rewrite ?Z1, ?Z2, ?Z3 in Eh;
    (split; [intros [U1 U2]; try (left; lra); try (right; lra); (destruct (Qlt_le_dec ha lo); [left; assumption|right; lra])|intros [U|U]; split; lra]).
Qed.
Print Assumptions C92_ha_partial.

(** ** Balance *)
(** Once two targets have been visited, the method gives every target the same. *)
Theorem C92_balance_flat : forall tw g s0 ops i j t u c k, p_new g = Ok s0 -> Forall valid_op ops -> nth_error (g_notes g) i = Some t -> nth_error (g_notes g) j = Some u -> t <> u ->
  (exists v, In v (visits_of ops) /\ w_note v = t) -> (exists v, In v (visits_of ops) /\ w_note v = u) -> k < List.length (g_notes g) ->
  value_at tw g (p_run tw g s0 ops) c k Balance = EFin 1.
Proof.
  intros tw g s0 ops i j t u c k H V Ht Hu Ne (v1 & I1 & N1) (v2 & I2 & N2) Lk. destruct (nth_some _ _ _ Lk) as [x Hx].
  destruct (run_inv tw g s0 ops k x H V Hx) as ((S1 & _) & _). set (s := p_run tw g s0 ops) in *.
  assert (P : forall n, In n (p_n s) -> (0 <= n)%Z).
  { intros n In'. apply In_nth_error in In'. destruct In' as [m Hm]. assert (Lm : m < List.length (g_notes g)) by (rewrite <- S1; apply nth_error_Some; congruence).
    destruct (nth_some _ _ _ Lm) as [y Hy]. subst s. rewrite (C92_count tw g s0 ops m y H V Hy) in Hm. inversion Hm. lia. }
  assert (Pos : forall m y, nth_error (g_notes g) m = Some y -> (exists v, In v (visits_of ops) /\ w_note v = y) -> exists n, nth_error (p_n s) m = Some n /\ (0 < n)%Z).
  { intros m y Hy (v & Iv & Nv). subst s. rewrite (C92_count tw g s0 ops m y H V Hy). eexists. split; [reflexivity|].
    assert (In v (filter (fun v => String.eqb (w_note v) y) (visits_of ops))) by (apply filter_In; split; [exact Iv|apply String.eqb_eq; exact Nv]).
    destruct (filter _ _); [contradiction|cbn [List.length]; lia]. }
  destruct (Pos i t Ht) as (n1 & Hn1 & P1); [exists v1; split; assumption|]. destruct (Pos j u Hu) as (n2 & Hn2 & P2); [exists v2; split; assumption|].
  assert (Nij : i <> j) by (intros ->; congruence).
  destruct (nth_some _ (p_n s) k) as [n Hn]; [lia|]. unfold value_at, m_call. rewrite (lnth _ _ _ ENaN _ (balance_nth s k n P Hn)).
  destruct (0 <? n)%Z eqn:E0; [|reflexivity]. cbn [andb]. destruct (Z.eqb_spec n (fold_right Z.add 0%Z (p_n s))) as [E|E]; [|reflexivity]. exfalso.
  destruct (Nat.eq_dec k i) as [->|Nk]; [pose proof (sum_two (p_n s) i j _ _ P Nij Hn1 Hn2); rewrite Hn in Hn1; inversion Hn1; lia|].
  pose proof (sum_two (p_n s) k i _ _ P Nk Hn Hn1). lia.
Qed.
Print Assumptions C92_balance_flat.

(** The only target it ever singles out is the one that has had all the visits. *)
Theorem C92_balance_once : forall tw g s0 ops i t c k, p_new g = Ok s0 -> Forall valid_op ops -> nth_error (g_notes g) i = Some t -> (exists v, In v (visits_of ops) /\ w_note v = t) ->
  (forall v, In v (visits_of ops) -> In (w_note v) (g_notes g) -> w_note v = t) -> k < List.length (g_notes g) ->
  value_at tw g (p_run tw g s0 ops) c k Balance = (if Nat.eqb k i then EFin 2 else EFin 1).
Proof.
  intros tw g s0 ops i t c k H V Ht (v & Iv & Nv) Only Lk. destruct (p_new_ok g s0 H) as (ND & _). destruct (nth_some _ _ _ Lk) as [x Hx].
  destruct (run_inv tw g s0 ops k x H V Hx) as ((S1 & _) & _). set (s := p_run tw g s0 ops) in *.
  assert (Other : forall m n, m <> i -> nth_error (p_n s) m = Some n -> n = 0%Z).
  { intros m n Nm Hm. assert (Lm : m < List.length (g_notes g)) by (rewrite <- S1; apply nth_error_Some; congruence). destruct (nth_some _ _ _ Lm) as [y Hy].
    subst s. rewrite (C92_count tw g s0 ops m y H V Hy) in Hm. inversion Hm. destruct (filter _ _) as [|z l] eqn:Ef; [reflexivity|]. exfalso.
    assert (Iz : In z (filter (fun v => String.eqb (w_note v) y) (visits_of ops))) by (rewrite Ef; left; reflexivity). apply filter_In in Iz. destruct Iz as [Iz Ez]. apply String.eqb_eq in Ez.
    assert (y = t) by (rewrite <- Ez; apply Only; [exact Iz|rewrite Ez; apply nth_error_In with m; exact Hy]). subst y. apply Nm. apply (NoDup_nth_error (g_notes g)); [exact ND|exact Lm|congruence]. }
  assert (Li : i < List.length (g_notes g)) by (apply nth_error_Some; congruence).
  destruct (nth_some _ (p_n s) i) as [n Hn]; [lia|]. assert (Pn : (0 < n)%Z).
  { subst s. rewrite (C92_count tw g s0 ops i t H V Ht) in Hn. inversion Hn. assert (J : In v (filter (fun v => String.eqb (w_note v) t) (visits_of ops))) by (apply filter_In; split; [exact Iv|apply String.eqb_eq; exact Nv]).
    destruct (filter _ _); [contradiction|cbn [List.length]; lia]. }
  assert (P : forall n, In n (p_n s) -> (0 <= n)%Z).
  { intros m Im. apply In_nth_error in Im. destruct Im as [a Ha]. destruct (Nat.eq_dec a i) as [->|Na]; [rewrite Hn in Ha; inversion Ha; lia|]. rewrite (Other a m Na Ha). lia. }
  destruct (nth_some _ (p_n s) k) as [q Hq]; [lia|]. unfold value_at, m_call. rewrite (lnth _ _ _ ENaN _ (balance_nth s k q P Hq)). rewrite (sum_only _ _ _ Hn Other).
  destruct (Nat.eqb_spec k i) as [->|Nk].
  - rewrite Hn in Hq. inversion Hq; subst q. replace (0 <? n)%Z with true by (symmetry; apply Z.ltb_lt; exact Pn). rewrite Z.eqb_refl. reflexivity.
  - rewrite (Other k q Nk Hq). reflexivity.
Qed.
Print Assumptions C92_balance_once.

(** ** Sequences: one sequence with a goal *)
Theorem C92_boost : forall tw g s c k m n i t, g_goal g = [(k, m)] -> p_track s = [(k, n)] -> m <> 0%Z -> nth_error (g_notes g) i = Some t ->
  value_at tw g s c i SeqBoost = EFin (inject_Z (if Script.contains k t then n mod m else 0)).
Proof.
  intros tw g s c k m n i t Hg Hs Hm Ht. unfold value_at, m_call. rewrite Hg, Hs. cbn [m_seq]. destruct (Z.eqb_spec m 0) as [E|E]; [contradiction|].
  assert (Li : i < List.length (g_notes g)) by (apply nth_error_Some; congruence). rewrite nth_set_where; rewrite ?map_length; [|reflexivity|exact Li].
  rewrite (lnth _ _ _ _ (Script.contains k t)) by (rewrite nth_error_map, Ht; reflexivity). destruct (Script.contains k t); [reflexivity|].
  apply lnth. rewrite nth_error_map, Ht. reflexivity.
Qed.
Print Assumptions C92_boost.

(** ** The sun *)
Definition with_sun (c : pcond) (x : Q) : pcond := mkCond (c_mjd c) x (c_ha c) (c_alt c) (c_moon c) (c_wind c) (c_slew c) (c_m5 c).
(** The reward and the offer do not look at the sun; the scheduler asks for these and
    never for the feasibility (core_scheduler.py 416, 438). *)
Theorem C92_sun : forall tw g s c x, p_calc tw g s (with_sun c x) = p_calc tw g s c /\ p_generate tw g s (with_sun c x) = p_generate tw g s c.
Proof.
  intros tw g s c x. assert (M : forall m, m_call tw g s (with_sun c x) m = m_call tw g s c m) by (intros m; destruct m; reflexivity).
  assert (W : forall ws acc, sum_weights tw g s (with_sun c x) ws acc = sum_weights tw g s c ws acc).
  { induction ws as [|[m w] ws IH]; intros acc; cbn [sum_weights]; [reflexivity|]. rewrite M. destruct (m_call tw g s c m) as [v|e]; [|reflexivity]. cbn [bind].
    destruct (Surveys.zip_add _ _) as [q|e]; [|reflexivity]. cbn [bind]. apply IH. }
  assert (C : calc_reward tw g s (with_sun c x) = calc_reward tw g s c) by (unfold calc_reward; rewrite W; reflexivity).
  split; [unfold p_calc|unfold p_generate]; rewrite C; reflexivity.
Qed.
Print Assumptions C92_sun.
(** Feasible means the sun is not above its limit and the best total is a number. *)
Theorem C92_feasible : forall tw g s c, far (c_sun c) (g_sun g) ->
  ((exists s', p_feasible tw g s c = Ok (s', true)) <-> (c_sun c <= g_sun g)%Q /\ exists s' q, p_calc tw g s c = Ok (s', EFin q)).
Proof.
  intros tw g s c F. unfold p_feasible. assert (E : existsb (fun b => b) (cmp_all (ir_gt [c_sun c] [g_sun g])) = Qltb (g_sun g) (c_sun c)).
  { unfold ir_gt. rewrite cmp_scalar by (intros a [<-|[]]; exact F). cbn. rewrite orb_false_r. reflexivity. }
  rewrite E. destruct (Qltb (g_sun g) (c_sun c)) eqn:L.
  - apply Qltb_lt in L. split; [intros (s' & H); discriminate|]. intros [K _]. exfalso. lra.
  - apply Qltb_false in L. destruct (p_calc tw g s c) as [[s1 x]|e]; cbn [bind fst snd].
    + split; [intros (s' & H); split; [exact L|]; destruct x; try discriminate; exists s1, q; reflexivity|]. intros (_ & s' & q & H). injection H as <- ->. exists s1. reflexivity.
    + split; [intros (s' & H); discriminate|intros (_ & s' & q & H); discriminate].
Qed.
Print Assumptions C92_feasible.

(** ** A worked survey: three targets, the default weights *)
Open Scope string_scope.
Definition ex_tw : Q := 710 # 113.
Definition ex_weights : list (meth * Q) :=
  [(VisitGap, 1%Q); (Balance, 1%Q); (M5diff, 1%Q); (SlewTime, (-1)%Q); (WindLimit, 0%Q); (HaLimit, 0%Q); (AltLimit, 0%Q); (MoonLimit, 0%Q)].
Definition ex_g : pcfg := mkCfg ["a"; "b"; "c"] (25 # 1440) (1 # 2) (3 # 2) (1 # 3) 100 (-(1 # 5)) (ha_lim ex_tw 4) (ha_lim ex_tw (-4)) [] ex_weights.
Definition ex_c (t : Q) : pcond := mkCond t (-(1 # 2)) [1 # 10; -(1 # 5); 3 # 1]%Q [1; 1; 1]%Q [1; 1; 1]%Q None [EFin 10; EFin 5; EFin 1] [EFin 0; EFin 0; EFin 0].
Definition offer (r : res (pst * nat)) : option nat := match r with Ok (_, i) => Some i | Raise _ => None end.
Definition start (g : pcfg) : pst := match p_new g with Ok s => s | Raise _ => mkPst [] [] [] 0 None end.

(** The third target is out of the hour angle limits, the second has the shorter slew;
    after a visit to it, the first is offered, and the second again half an hour later. *)
Example C92_ex_offer :
  offer (p_generate ex_tw ex_g (start ex_g) (ex_c 60000)) = Some 1 /\
  offer (p_generate ex_tw ex_g (p_run ex_tw ex_g (start ex_g) [Ask (ex_c 60000); One true (mkVisit "b" 60000)]) (ex_c (60000 + (1 # 100)))) = Some 0 /\
  offer (p_generate ex_tw ex_g (p_run ex_tw ex_g (start ex_g) [Ask (ex_c 60000); One true (mkVisit "b" 60000); Many ["a"] [mkVisit "a" (60000 + (1 # 100))]]) (ex_c (60000 + (1 # 48)))) = Some 1.
Proof. vm_compute. repeat split. Qed.
Example C92_ex_sized : sized ex_g (ex_c 60000) /\ (exists s, p_new ex_g = Ok s) /\ p_new (mkCfg ["a"; "a"] 0 0 0 0 0 0 0 0 [] []) = Raise ValueError.
Proof. split; [repeat split; discriminate|]. split; [eexists; reflexivity|reflexivity]. Qed.
Example C92_ex_far : forall a, In a (wrap_ha ex_tw (c_ha (ex_c 60000))) -> far a (g_ha_min ex_g) /\ far a (g_ha_max ex_g).
Proof. intros a [<-|[<-|[<-|[]]]]; split; right; vm_compute; reflexivity. Qed.
Example C92_ex_masked : nth 2 (m_ha ex_g (wrap_ha ex_tw (c_ha (ex_c 60000)))) (EFin 0) = ENaN /\ nth 1 (m_ha ex_g (wrap_ha ex_tw (c_ha (ex_c 60000)))) (EFin 0) = EFin 0.
Proof. vm_compute. split; reflexivity. Qed.
Example C92_ex_count : p_n (p_run ex_tw ex_g (start ex_g) [One true (mkVisit "b" 60000); Many ["a"; "b"; "z"] [mkVisit "b" 60001; mkVisit "z" 60001; mkVisit "a" 60002; mkVisit "b" 60002]]) = [1; 3; 0]%Z.
Proof. reflexivity. Qed.
Example C92_ex_valid : Forall valid_op [One true (mkVisit "b" 60000); Many ["a"; "b"; "z"] [mkVisit "b" 60001; mkVisit "z" 60001; mkVisit "a" 60002; mkVisit "b" 60002]].
Proof.
  constructor; [exact Logic.I|]. constructor; [|constructor]. split.
  - repeat constructor; cbn; intros H; repeat (destruct H as [H|H]; [discriminate H|]); exact H.
  - intros n. split.
    + intros [<-|[<-|[<-|[]]]]; [exists (mkVisit "a" 60002)|exists (mkVisit "b" 60001)|exists (mkVisit "z" 60001)]; (split; [cbn; auto|reflexivity]).
    + intros (v & I & <-). cbn in I. repeat (destruct I as [<-|I]; [cbn; auto|]). contradiction.
Qed.

Lemma in_time_two : forall x y, (w_mjd x <= w_mjd y)%Q -> in_time [x; y].
Proof.
  intros x y H a b pre mid post E. assert (L : List.length (pre ++ a :: mid ++ b :: post) = 2) by (rewrite <- E; reflexivity).
  rewrite app_length in L. cbn [List.length] in L. rewrite app_length in L. cbn [List.length] in L.
  destruct pre as [|p pre]; [|cbn in L; lia]. destruct mid as [|m mid]; [|cbn in L; lia]. cbn in E. inversion E; subst. exact H.
Qed.

(** *** Refutations *)
(** The sun is above the limit of the survey, which says it is not feasible, yet gives a
    reward and an offer. *)
Theorem C92_sun_refuted : exists tw g s c, p_new g = Ok s /\ (g_sun g < c_sun c)%Q /\ p_feasible tw g s c = Ok (s, false) /\
  (exists s' q, p_calc tw g s c = Ok (s', EFin q)) /\ offer (p_generate tw g s c) = Some 1.
Proof.
  exists ex_tw, ex_g, (start ex_g), (with_sun (ex_c 60000) (1 # 2)). split; [reflexivity|]. split; [reflexivity|]. split; [vm_compute; reflexivity|].
  split; [eexists; eexists; vm_compute; reflexivity|vm_compute; reflexivity].
Qed.
Print Assumptions C92_sun_refuted.

(** The reward is kept for the time it was computed for: a visit reported since is
    not seen, and the target is offered again at once. *)
Theorem C92_gap_stale_refuted : exists tw g s0 ops c v, p_new g = Ok s0 /\ Forall valid_op ops /\ visits_of ops = [v] /\ In (VisitGap, 1%Q) (g_weights g) /\
  nth_error (g_notes g) 1 = Some (w_note v) /\ (c_mjd c - w_mjd v < g_gap g)%Q /\ offer (p_generate tw g (p_run tw g s0 ops) c) = Some 1.
Proof.
  exists ex_tw, ex_g, (start ex_g), [Ask (ex_c 60000); One true (mkVisit "b" 60000)], (ex_c 60000), (mkVisit "b" 60000).
  split; [reflexivity|]. split; [repeat constructor|]. split; [reflexivity|]. split; [left; reflexivity|]. split; [reflexivity|]. split; [reflexivity|]. vm_compute. reflexivity.
Qed.
Print Assumptions C92_gap_stale_refuted.

(** One target was visited just the gap ago: all the times are then compared as whole
    days, and a target visited a minute ago is offered. *)
Theorem C92_gap_rounding_refuted : exists tw g s0 ops c v, p_new g = Ok s0 /\ Forall valid_op ops /\ In v (visits_of ops) /\ In (VisitGap, 1%Q) (g_weights g) /\
  (forall c', ~ In (Ask c') ops) /\ in_time (visits_of ops) /\
  nth_error (g_notes g) 1 = Some (w_note v) /\ (c_mjd c - w_mjd v == 1 # 1440)%Q /\ (g_gap g == 25 # 1440)%Q /\ offer (p_generate tw g (p_run tw g s0 ops) c) = Some 1.
Proof.
  exists ex_tw, ex_g, (start ex_g), [One true (mkVisit "c" (60000 - (25 # 1440))); One true (mkVisit "b" (60000 - (1 # 1440)))], (ex_c 60000), (mkVisit "b" (60000 - (1 # 1440))).
  split; [reflexivity|]. split; [repeat constructor|]. split; [right; left; reflexivity|]. split; [left; reflexivity|].
  split; [intros c' [H|[H|[]]]; discriminate|]. split.
  - apply in_time_two. vm_compute. congruence.
  - split; [reflexivity|]. split; [reflexivity|]. split; [reflexivity|]. vm_compute. reflexivity.
Qed.
Print Assumptions C92_gap_rounding_refuted.

(** An older visit reported late takes the place of the last one. *)
Theorem C92_last_refuted : exists tw g s0 ops c v, p_new g = Ok s0 /\ Forall valid_op ops /\ In v (visits_of ops) /\ In (VisitGap, 1%Q) (g_weights g) /\ (forall c', ~ In (Ask c') ops) /\
  nth_error (g_notes g) 1 = Some (w_note v) /\ (c_mjd c - w_mjd v < g_gap g)%Q /\ offer (p_generate tw g (p_run tw g s0 ops) c) = Some 1.
Proof.
  exists ex_tw, ex_g, (start ex_g), [One true (mkVisit "b" 60000); One true (mkVisit "b" 59990)], (ex_c (60000 + (1 # 100))), (mkVisit "b" 60000).
  split; [reflexivity|]. split; [repeat constructor|]. split; [left; reflexivity|]. split; [left; reflexivity|].
  split; [intros c' [H|[H|[]]]; discriminate|]. split; [reflexivity|]. split; [reflexivity|]. vm_compute. reflexivity.
Qed.
Print Assumptions C92_last_refuted.

(** Balance: of three equal targets, the one already visited is offered again. *)
Definition bal_g : pcfg := mkCfg ["a"; "b"; "c"] 0 0 0 0 0 0 0 0 [] [(Balance, 1%Q)].
Theorem C92_balance_refuted : exists tw g s0 v c, p_new g = Ok s0 /\ g_weights g = [(Balance, 1%Q)] /\ nth_error (g_notes g) 2 = Some (w_note v) /\
  p_n (p_run tw g s0 [One true v]) = [0; 0; 1]%Z /\ offer (p_generate tw g (p_run tw g s0 [One true v]) c) = Some 2.
Proof. exists ex_tw, bal_g, (start bal_g), (mkVisit "c" 60000), (ex_c 60001). vm_compute. repeat split. Qed.
Print Assumptions C92_balance_refuted.

(** Sequences: a visit reported by the scheduler, which passes an array of one, does not
    count; the same visit in a batch does, and gives the boost. *)
Definition seq_g : pcfg := mkCfg ["seq, a"; "seq, b"] 0 0 0 0 0 0 0 0 [("seq", 2%Z)] [(SeqBoost, 1%Q)].
Theorem C92_sequence_refuted : exists tw g s0 a b c, p_new g = Ok s0 /\ Forall valid_op [a] /\ Forall valid_op [b] /\ visits_of [a] = visits_of [b] /\
  p_track (p_run tw g s0 [a]) = [("seq", 0%Z)] /\ p_track (p_run tw g s0 [b]) = [("seq", 1%Z)] /\
  value_at tw g (p_run tw g s0 [a]) c 1 SeqBoost = EFin 0 /\ value_at tw g (p_run tw g s0 [b]) c 1 SeqBoost = EFin 1.
Proof.
  exists ex_tw, seq_g, (start seq_g), (One true (mkVisit "seq, a" 60000)), (Many ["seq, a"] [mkVisit "seq, a" 60000]), (ex_c 60001).
  split; [reflexivity|]. split; [repeat constructor|]. split.
  - constructor; [|constructor]. split; [repeat constructor; intros []|]. intros n. split; [intros [<-|[]]; eexists; split; [left; reflexivity|reflexivity]|intros (v & [<-|[]] & <-); left; reflexivity].
  - vm_compute. repeat split.
Qed.
Print Assumptions C92_sequence_refuted.

(** Hour angle limits on one side of the meridian, 1 h to 4 h, mask nothing: a target at
    6 h is offered; nor do limits from the meridian on (0 h to 4 h). *)
Definition ha_g (lo hi : Q) : pcfg := mkCfg ["a"] 0 0 0 0 0 0 (ha_lim ex_tw hi) (ha_lim ex_tw lo) [] [(HaLimit, 0%Q)].
Definition ha_c (h : Q) : pcond := mkCond 60000 0 [(h * ex_tw / 24)%Q] [0%Q] [0%Q] None [EFin 0] [EFin 0].
Theorem C92_ha_refuted : offer (p_generate ex_tw (ha_g 1 4) (start (ha_g 1 4)) (ha_c 6)) = Some 0 /\ offer (p_generate ex_tw (ha_g 0 4) (start (ha_g 0 4)) (ha_c 6)) = Some 0 /\
  offer (p_generate ex_tw (ha_g (-1) 4) (start (ha_g (-1) 4)) (ha_c 6)) = None.
Proof. vm_compute. repeat split. Qed.
Print Assumptions C92_ha_refuted.

Example C92_ex_boost : value_at ex_tw seq_g (mkPst [0; 0]%Z [0; 0]%Q [("seq", 3%Z)] (-1) None) (ex_c 60001) 1 SeqBoost = EFin 1 /\
  value_at ex_tw seq_g (mkPst [0; 0]%Z [0; 0]%Q [("seq", 4%Z)] (-1) None) (ex_c 60001) 1 SeqBoost = EFin 0.
Proof. vm_compute. split; reflexivity. Qed.
(** The hypotheses of the gap theorem met: half an hour after a visit, the target is offered. *)
Example C92_ex_gap : (25 # 1440 <= (60000 + (1 # 48)) - 60000)%Q.
Proof.
  apply (C92_gap_partial ex_tw ex_g (start ex_g) [Ask (ex_c 60000); One true (mkVisit "b" 60000)] (ex_c (60000 + (1 # 48)))
    (fst (match p_generate ex_tw ex_g (p_run ex_tw ex_g (start ex_g) [Ask (ex_c 60000); One true (mkVisit "b" 60000)]) (ex_c (60000 + (1 # 48))) with Ok p => p | Raise _ => (start ex_g, 0) end)) 1 "b" 1%Q) with (v := mkVisit "b" 60000).
  - reflexivity.
  - repeat constructor.
  - intros a b pre mid post E. exfalso. assert (L : List.length (pre ++ a :: mid ++ b :: post) = 1) by (rewrite <- E; reflexivity).
    rewrite app_length in L. cbn [List.length] in L. rewrite app_length in L. cbn [List.length] in L. lia.
  - repeat split; discriminate.
  - left. reflexivity.
  - intros c' [H|[H|[]]]; [injection H as <-; vm_compute; discriminate|discriminate].
  - vm_compute. discriminate.
  - intros v [<-|[]]. right. vm_compute. reflexivity.
  - right. vm_compute. reflexivity.
  - vm_compute. reflexivity.
  - reflexivity.
  - left. reflexivity.
  - reflexivity.
Qed.
