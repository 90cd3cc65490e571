(** C156: the visits of a whole simulation with the model observatory. *)
From Coq Require Import List ZArith QArith Qround Bool String Lia Lqa.
From Verif Require Import Base Obs Downtime Observatory Observatory_proofs Props_Observatory Sim Whole Core SimCore Props_Sim Props_SimEnds.
Import ListNotations.
Open Scope nat_scope.

Section P.
Context {S K F C : Type}.
Variable kin : kinB K.
Variable cloudy : Q -> bool.
Variable nights downs : list (Q * Q).
Variable mjd_start park_after : Q.
Variable fl : nat.
Variable km : K -> list string -> K.
Variable conds : sky K -> C.
Variable B : simB S unit F C.
Hypothesis HN : nights_ok nights.
Hypothesis HD : disjoint downs.
Hypothesis HP : forall k d m k' s v, k_observe kin k d m = (k', Some (s, v)) -> (0 <= s)%Q /\ (0 <= v)%Q.
Variables sim_end step_none : Q.
Variable limit : option Z.
Variable append_size : nat.
Variable every_obs : bool.
Hypothesis Step : (0 <= step_none)%Q.
Hypothesis Over : forall g c, overhead B = Some g -> (0 <= g c)%Q.
Notation W := (whole kin cloudy nights downs mjd_start park_after fl km conds B).
Notation iter := (iter W sim_end step_none limit append_size every_obs).
Notation loop := (loop W sim_end step_none limit append_size every_obs).
Notation clock st := (y_mjd (sk_y (sm_o st))).
Notation seen st := (sk_seen (sm_o st)).
Notation exn_of st := (sk_exn (sm_o st)).

(** Visits [vs] between the times [t] and [u], with ids from [id]: the slew to each
    begins no earlier than the end of the visit before and no later than the end of
    the simulation, each ends at a clear time of a night without a downtime, and has
    the night in which it begins. *)
Fixpoint chain (id : Z) (t : Q) (vs : list visit) (u : Q) : Prop :=
  match vs with
  | [] => (t <= u)%Q
  | v :: r =>
      let begins := (o_mjd (v_obs v) - v_slew v / 86400)%Q in
      let ends := (o_mjd (v_obs v) + v_time v / 86400)%Q in
      o_id (v_obs v) = id /\ o_night (v_obs v) = Qfloor (o_mjd (v_obs v) - mjd_start) /\
      (t <= begins)%Q /\ (begins <= sim_end)%Q /\ (0 <= v_slew v)%Q /\ (0 <= v_time v)%Q /\
      (exists m, (m == ends)%Q /\ good_time cloudy nights downs m) /\
      chain (id + 1)%Z ends r u
  end.
Lemma chain_later : forall vs id t u u', chain id t vs u -> (u <= u')%Q -> chain id t vs u'.
Proof. induction vs as [|v r IH]; intros id t u u' H L; cbn in *; [lra|]. intuition eauto. Qed.
Lemma chain_snoc : forall vs id t u v w, chain id t vs u ->
  chain (id + Z.of_nat (List.length vs)) u [v] w -> chain id t (vs ++ [v]) w.
Proof.
  induction vs as [|x r IH]; intros id t u v w H G.
  - cbn [List.length Z.of_nat app] in *. rewrite Z.add_0_r in G. cbn in *. intuition; lra.
  - cbn [app chain]. cbn [chain] in H. destruct H as (H1 & H2 & H3 & H4 & H5 & H6 & H7 & H8). do 7 (split; [assumption|]).
    apply (IH _ _ _ _ _ H8). cbn [List.length] in G. rewrite Nat2Z.inj_succ in G.
    replace (id + 1 + Z.of_nat (List.length r))%Z with (id + Z.succ (Z.of_nat (List.length r)))%Z by lia. exact G.
Qed.

Variable id0 : Z.
Variable t0 : Q.
Definition good (st : sim S (sky K) F) : Prop :=
  exn_of st = None -> map v_obs (seen st) = dones (sm_tr st) /\ chain id0 t0 (seen st) (clock st) /\
    y_ctr (sk_y (sm_o st)) = (id0 + Z.of_nat (List.length (seen st)))%Z.
Definition timely (st : sim S (sky K) F) : Prop := (sm_mjd st < sim_end)%Q -> (clock st <= sim_end)%Q.

Lemma dones_app : forall a b, dones (a ++ b) = dones a ++ dones b.
Proof. intros a b. unfold dones. apply flat_map_app. Qed.
Lemma dones_pre : forall s o, dones (snd (pre_update W every_obs s o)) = [].
Proof.
  intros s o. unfold pre_update. destruct (sc_has W s); destruct (sc_check W _ _); destruct every_obs; reflexivity.
Qed.
Lemma post_keeps : forall st nn st' c, post W limit st nn = (st', c) ->
  clock st' = clock st /\ seen st' = seen st /\ exn_of st' = exn_of st /\ dones (sm_tr st') = dones (sm_tr st) /\
  y_ctr (sk_y (sm_o st')) = y_ctr (sk_y (sm_o st)) /\ sm_mjd st' = clock st'.
Proof.
  intros st nn st' c H. unfold post in H.
  destruct nn, limit as [z|]; try destruct (Z.eqb _ z); injection H as <- _; cbn; rewrite ?dones_app; cbn; rewrite ?app_nil_r; auto 7.
Qed.
Lemma good_post : forall st nn st' c, post W limit st nn = (st', c) -> good st -> good st' /\ timely st'.
Proof.
  intros st nn st' c H G. apply post_keeps in H as (H1 & H2 & H3 & H4 & H5 & H6). split.
  - unfold good. rewrite H1, H2, H3, H4, H5. exact G.
  - intros L. rewrite <- H6. now apply Qlt_le_weak.
Qed.
Lemma good_iter : forall st st' c, iter st = (st', c) -> (sm_mjd st < sim_end)%Q -> timely st -> good st ->
  good st' /\ (c = CGo -> timely st').
Proof.
  intros st st' c H Lt T G. specialize (T Lt). unfold Sim.iter in H.
  pose proof (dones_pre (sm_s st) (sm_o st)) as DP. destruct (pre_update W every_obs (sm_s st) (sm_o st)) as [s1 t1]. cbn [snd] in DP.
  destruct (sc_request W s1 _) as [s2 [[x|]|e]].
  - cbn [whole ob_observe] in H. unfold sky_observe in H. destruct (sk_exn (sm_o st)) as [ee|] eqn:EX.
    { (* the run is already over *)
      match type of H with (if ?b then _ else _) = _ => destruct b end.
      - injection H as <- <-. split; [unfold good; cbn; rewrite EX; discriminate|discriminate].
      - pose proof (good_post _ _ _ _ H) as P. cbn [sm_o] in P. destruct P as [P1 P2]; [unfold good; cbn; rewrite EX; discriminate|]. auto. }
    destruct (G EX) as (G1 & G2 & G3).
    destruct (observe kin cloudy nights downs mjd_start park_after fl (sk_y (sm_o st)) x) as [y [[[v|] nn]|e]] eqn:EO.
    + destruct (observe_done kin cloudy nights downs mjd_start park_after fl HN HD HP _ _ _ _ _ EO) as (A1 & A2 & -> & A4 & A5 & A6 & A7 & A8 & A9).
      assert (D : forall tr, dones tr = dones (sm_tr st) -> map v_obs (seen st ++ [v]) = dones (tr ++ [EvDone (v_obs v); EvAdd (v_obs v)])).
      { intros tr E. rewrite map_app, dones_app, E, G1. reflexivity. }
      assert (E0 : dones ((sm_tr st ++ t1 ++ [EvRequest (clock st)]) ++ [EvObserve x (clock st)]) = dones (sm_tr st)).
      { rewrite !dones_app, DP. cbn. now rewrite !app_nil_r. }
      assert (Ch : forall w, (y_mjd y <= w)%Q -> chain id0 t0 (seen st ++ [v]) w).
      { intros w Lw. apply (chain_snoc _ _ _ _ _ _ G2). cbn [chain]. rewrite <- G3. split; [exact A1|]. split; [exact A8|].
        split; [lra|]. split; [lra|]. split; [exact A6|]. split; [exact A7|]. split; [|lra].
        exists (clock st + (v_slew v + v_time v) / 86400)%Q. split; [|exact A9]. rewrite A4. field. }
      assert (GG : forall o2, sk_seen o2 = seen st ++ [v] -> (y_mjd y <= y_mjd (sk_y o2))%Q -> y_ctr (sk_y o2) = y_ctr y ->
        forall s3 f m arr n sk l, good (mkSim s3 o2 f m arr n sk l (((sm_tr st ++ t1 ++ [EvRequest (clock st)]) ++ [EvObserve x (clock st)]) ++ [EvDone (v_obs v); EvAdd (v_obs v)]))).
      { intros o2 X1 X2 X3 s3 f m arr n sk l _. cbn [sm_o sm_tr]. rewrite X1, X3. split; [apply D; exact E0|]. split; [now apply Ch|].
        rewrite app_length, A2, G3. cbn. lia. }
      assert (OV : forall o2, o2 = match overhead W with None => mkSky y (seen st ++ [v]) None
                    | Some f => ob_set W (mkSky y (seen st ++ [v]) None) (ob_mjd W (mkSky y (seen st ++ [v]) None) + f (v_obs v) / 86400)%Q end ->
         sk_seen o2 = seen st ++ [v] /\ (y_mjd y <= y_mjd (sk_y o2))%Q /\ y_ctr (sk_y o2) = y_ctr y).
      { intros o2 ->. cbn [whole overhead]. destruct (overhead B) as [g|] eqn:EG; cbn; (split; [reflexivity|split; [|reflexivity]]); [|lra].
        pose proof (Over g (v_obs v) eq_refl). assert (0 <= g (v_obs v) / 86400)%Q by (apply Qle_shift_div_l; [reflexivity|lra]). lra. }
      destruct (OV _ eq_refl) as (V1 & V2 & V3).
      destruct (set_nth (sm_arr st) (sm_n st) (v_obs v)) as [arr|].
      * apply good_post in H; [tauto|]. now apply GG.
      * injection H as <- <-. split; [now apply GG|discriminate].
    + assert (O : (y_ctr y = y_ctr (sk_y (sm_o st))) /\ (clock st <= y_mjd y)%Q).
      { eapply (observe_other kin cloudy nights downs mjd_start park_after fl HN HD HP); [exact EO|discriminate]. }
      destruct O as [O1 O2].
      assert (GG : forall s3 f m arr n sk l tr, dones tr = dones (sm_tr st) -> good (mkSim s3 (mkSky y (seen st) None) f m arr n sk l tr)).
      { intros s3 f m arr n sk l tr E _. cbn [sm_o sm_tr sk_seen sk_y]. rewrite E, O1. split; [exact G1|]. split; [now apply (chain_later _ _ _ _ _ G2)|exact G3]. }
      match type of H with (if ?b then _ else _) = _ => destruct b end.
      * injection H as <- <-. split; [|discriminate]. apply GG. rewrite !dones_app, DP. cbn. now rewrite !app_nil_r.
      * apply good_post in H; [tauto|]. apply GG. rewrite !dones_app, DP. cbn. now rewrite !app_nil_r.
    + match type of H with (if ?b then _ else _) = _ => destruct b end.
      * injection H as <- <-. split; [|discriminate]. unfold good. cbn. discriminate.
      * apply good_post in H; [tauto|]. unfold good. cbn. discriminate.
  - cbv zeta in H.
    assert (GG : good (mkSim (sc_update W s2 (ob_cond W (ob_set W (sm_o st) (ob_mjd W (sm_o st) + step_none)%Q)))
       (ob_set W (sm_o st) (ob_mjd W (sm_o st) + step_none)%Q) (sm_f st) (sm_mjd st) (sm_arr st) (sm_n st) (sm_skip st + 1) (sm_last st)
       ((sm_tr st ++ t1 ++ [EvRequest (ob_mjd W (sm_o st))]) ++ [EvNone; EvUpdate (ob_mjd W (ob_set W (sm_o st) (ob_mjd W (sm_o st) + step_none)%Q))]))).
    { intros EX. cbn in EX. destruct (G EX) as (G1 & G2 & G3). cbn. split; [rewrite !dones_app, DP; cbn; now rewrite !app_nil_r|].
      split; [|exact G3]. apply (chain_later _ _ _ _ _ G2). lra. }
    destruct (Qltb sim_end _) eqn:L; injection H as <- <-; (split; [exact GG|]); [discriminate|]. intros _ _. now apply Qltb_false in L.
  - injection H as <- <-. split; [|discriminate]. intros EX. cbn in EX. destruct (G EX) as (G1 & G2 & G3). cbn.
    split; [rewrite !dones_app, DP; cbn; now rewrite !app_nil_r|auto].
Qed.
Lemma good_loop : forall n st st' c, loop n st = (st', c) -> timely st -> good st -> good st'.
Proof.
  induction n as [|n IH]; intros st st' c H T G; cbn [Sim.loop] in H; [injection H as <- _; exact G|].
  destruct (Qltb (sm_mjd st) sim_end) eqn:L; [|injection H as <- _; exact G]. apply Qltb_lt in L.
  destruct (iter st) as [s1 c1] eqn:E. destruct (good_iter _ _ _ E L T G) as [G' T']. destruct c1; [apply (IH _ _ _ H); auto|now injection H as <- _..].
Qed.
End P.

(** When a run ends of itself and the observatory has raised nothing, the table
    returned is the visits it took, and these follow one another as [chain] says, from
    the start of the simulation to the time at its end. *)
Theorem C156_visits : forall S K F C (kin : kinB K) cloudy nights downs mjd_start park_after fl km (conds : sky K -> C) (B : simB S unit F C)
    sim_end step_none limit append_size every_obs s y f size start fuel st,
  nights_ok nights -> disjoint downs ->
  (forall k d m k' sl v, k_observe kin k d m = (k', Some (sl, v)) -> (0 <= sl)%Q /\ (0 <= v)%Q) ->
  (0 <= step_none)%Q -> (forall g c, overhead B = Some g -> (0 <= g c)%Q) ->
  let W := whole kin cloudy nights downs mjd_start park_after fl km conds B in
  loop W sim_end step_none limit append_size every_obs fuel (sim_init W s (mkSky y [] None) f size start) = (st, CBreak) ->
  sk_exn (sm_o st) = None ->
  result st = map v_obs (sk_seen (sm_o st)) /\
  chain cloudy nights downs mjd_start sim_end (y_ctr y) (match start with None => y_mjd y | Some t => t end)
    (sk_seen (sm_o st)) (y_mjd (sk_y (sm_o st))).
Proof.
  intros S K F C kin cloudy nights downs mjd_start park_after fl km conds B sim_end step_none limit append_size every_obs s y f size start fuel st
    HN HD HP Hs Ho W H EX.
  destruct (C15_bookkeeping _ _ _ _ W sim_end step_none limit append_size every_obs _ _ _ _ _ _ _ H) as (R & _).
  set (t0 := match start with None => y_mjd y | Some t => t end).
  assert (G : good cloudy nights downs mjd_start sim_end (y_ctr y) t0 st).
  { apply (good_loop kin cloudy nights downs mjd_start park_after fl km conds B HN HD HP sim_end step_none limit append_size every_obs Hs Ho (y_ctr y) t0 _ _ _ _ H).
    - intros L. unfold sim_init in *. destruct start; cbn in *; now apply Qlt_le_weak.
    - intros _. unfold sim_init, t0. destruct start; cbn; (split; [reflexivity|split; [lra|lia]]). }
  destruct (G EX) as (G1 & G2 & _). rewrite R, <- G1. auto.
Qed.
Print Assumptions C156_visits.

(** In terms of the rows alone: ids count up by one, no row is earlier than a row
    above it, nor of an earlier night, and none is from before the start. *)
Lemma chain_nth : forall cloudy nights downs ms e vs id t u i v, chain cloudy nights downs ms e id t vs u -> nth_error vs i = Some v ->
  o_id (v_obs v) = (id + Z.of_nat i)%Z /\ (t <= o_mjd (v_obs v))%Q /\ o_night (v_obs v) = Qfloor (o_mjd (v_obs v) - ms).
Proof.
  intros cloudy nights downs ms e. induction vs as [|x r IH]; intros id t u [|i] v H E; cbn in E; try discriminate; cbn [chain] in H;
    destruct H as (H1 & H2 & H3 & H4 & H5 & H6 & H7 & H8);
    assert (0 <= v_slew x / 86400)%Q by (apply Qle_shift_div_l; [reflexivity|lra]);
    assert (0 <= v_time x / 86400)%Q by (apply Qle_shift_div_l; [reflexivity|lra]).
  - injection E as ->. split; [rewrite H1; cbn; lia|]. split; [lra|exact H2].
  - destruct (IH _ _ _ _ _ H8 E) as (A1 & A2 & A3). split; [rewrite A1; lia|]. split; [lra|exact A3].
Qed.
Lemma chain_two : forall cloudy nights downs ms e vs id t u i j v w, chain cloudy nights downs ms e id t vs u -> i < j ->
  nth_error vs i = Some v -> nth_error vs j = Some w -> (o_mjd (v_obs v) + v_time v / 86400 <= o_mjd (v_obs w))%Q.
Proof.
  intros cloudy nights downs ms e. induction vs as [|x r IH]; intros id t u [|i] [|j] v w H L E1 E2; cbn in E1, E2; try discriminate; try lia;
    cbn [chain] in H; destruct H as (H1 & H2 & H3 & H4 & H5 & H6 & H7 & H8).
  - injection E1 as ->. now apply (chain_nth _ _ _ _ _ _ _ _ _ _ _ H8 E2).
  - apply (IH _ _ _ i j v w H8); auto. lia.
Qed.
Theorem C156_rows : forall S K F C (kin : kinB K) cloudy nights downs mjd_start park_after fl km (conds : sky K -> C) (B : simB S unit F C)
    sim_end step_none limit append_size every_obs s y f size start fuel st,
  nights_ok nights -> disjoint downs ->
  (forall k d m k' sl v, k_observe kin k d m = (k', Some (sl, v)) -> (0 <= sl)%Q /\ (0 <= v)%Q) ->
  (0 <= step_none)%Q -> (forall g c, overhead B = Some g -> (0 <= g c)%Q) ->
  let W := whole kin cloudy nights downs mjd_start park_after fl km conds B in
  loop W sim_end step_none limit append_size every_obs fuel (sim_init W s (mkSky y [] None) f size start) = (st, CBreak) ->
  sk_exn (sm_o st) = None ->
  (forall i a, nth_error (result st) i = Some a -> o_id a = (y_ctr y + Z.of_nat i)%Z /\ (match start with None => y_mjd y | Some t => t end <= o_mjd a)%Q /\
     o_night a = Qfloor (o_mjd a - mjd_start)) /\
  (forall i j a b, i < j -> nth_error (result st) i = Some a -> nth_error (result st) j = Some b ->
     o_id b = (o_id a + Z.of_nat (j - i))%Z /\ (o_mjd a <= o_mjd b)%Q /\ (o_night a <= o_night b)%Z).
Proof.
  intros S K F C kin cloudy nights downs mjd_start park_after fl km conds B sim_end step_none limit append_size every_obs s y f size start fuel st
    HN HD HP Hs Ho W H EX.
  destruct (C156_visits _ _ _ _ kin cloudy nights downs mjd_start park_after fl km conds B sim_end step_none limit append_size every_obs s y f size start fuel st
    HN HD HP Hs Ho H EX) as [R Ch]. rewrite R.
  assert (N : forall i a, nth_error (map v_obs (sk_seen (sm_o st))) i = Some a -> exists v, nth_error (sk_seen (sm_o st)) i = Some v /\ v_obs v = a).
  { intros i a E. rewrite nth_error_map in E. destruct (nth_error _ i) as [v|] eqn:X; [|discriminate]. injection E as <-. eauto. }
  split.
  - intros i a E. destruct (N _ _ E) as (v & Ev & <-). exact (chain_nth _ _ _ _ _ _ _ _ _ _ _ Ch Ev).
  - intros i j a b L E1 E2. destruct (N _ _ E1) as (v & Ev & <-). destruct (N _ _ E2) as (w & Ew & <-).
    destruct (chain_nth _ _ _ _ _ _ _ _ _ _ _ Ch Ev) as (A1 & A2 & A3). destruct (chain_nth _ _ _ _ _ _ _ _ _ _ _ Ch Ew) as (B1 & B2 & B3).
    pose proof (chain_two _ _ _ _ _ _ _ _ _ _ _ _ _ Ch L Ev Ew) as X.
    assert (V : (0 <= v_time v / 86400)%Q).
    { clear - Ch Ev. revert i Ev Ch. generalize (y_ctr y) (match start with None => y_mjd y | Some t => t end).
      induction (sk_seen (sm_o st)) as [|x r IH]; intros id t [|i] Ev Ch; cbn in Ev; try discriminate; cbn [chain] in Ch.
      - injection Ev as ->. apply Qle_shift_div_l; [reflexivity|]. destruct Ch as (_ & _ & _ & _ & _ & Z & _). lra.
      - eapply IH; [exact Ev|]. apply Ch. }
    split; [lia|]. split; [lra|]. rewrite A3, B3. apply Qfloor_resp_le. lra.
Qed.
Print Assumptions C156_rows.

(** The run does end when visits and the step are not shorter than some [d] > 0. *)
Theorem C156_ends : forall S K F C (kin : kinB K) cloudy nights downs mjd_start park_after fl km (conds : sky K -> C) (B : simB S unit F C)
    sim_end step_none limit append_size every_obs d s y f size start n,
  nights_ok nights -> disjoint downs -> (0 < d)%Q -> (d <= step_none)%Q ->
  (forall k q m k' sl v, k_observe kin k q m = (k', Some (sl, v)) -> (0 <= sl)%Q /\ (d * 86400 <= v)%Q) ->
  (forall g c, overhead B = Some g -> (0 <= g c)%Q) -> (forall s t, snd (sc_request B s t) <> Raise OutOfFuel) ->
  (2 * (sim_end - match start with None => y_mjd y | Some t => t end) + 2 * d <= inject_Z (Z.of_nat n) * d)%Q ->
  let W := whole kin cloudy nights downs mjd_start park_after fl km conds B in
  let run fuel := loop W sim_end step_none limit append_size every_obs fuel (sim_init W s (mkSky y [] None) f size start) in
  (forall k, run (n + 1 + k) = run (n + 1)) /\ snd (run (n + 1)) <> CRaise OutOfFuel.
Proof.
  intros S K F C kin cloudy nights downs mjd_start park_after fl km conds B sim_end step_none limit append_size every_obs d s y f size start n
    HN HD Dp St HP Ho Rq Ro W run.
  assert (Dn : forall o x o' c nn, ob_observe W o x = (o', (Some c, nn)) -> (ob_mjd W o + d <= ob_mjd W o')%Q).
  { intros o x o' c nn H. cbn in H. unfold sky_observe in H. destruct (sk_exn o); [discriminate|].
    destruct (observe _ _ _ _ _ _ _ _ _) as [y' [[[v|] n']|e]] eqn:E; try discriminate. injection H as <- _ _. cbn.
    destruct (C155_observatory _ _ _ _ _ _ _ _ d _ _ _ _ _ HN HD HP E) as [(X & _)|X]; [discriminate|exact X]. }
  assert (Fl : forall o x o' nn, ob_observe W o x = (o', (None, nn)) -> (ob_mjd W o' == ob_mjd W o)%Q \/ (ob_mjd W o + d <= ob_mjd W o')%Q).
  { intros o x o' nn H. cbn in H. unfold sky_observe in H. destruct (sk_exn o); [injection H as <- _; now left|].
    destruct (observe _ _ _ _ _ _ _ _ _) as [y' [[[v|] n']|e]] eqn:E; try discriminate; injection H as <- _; cbn.
    - destruct (C155_observatory _ _ _ _ _ _ _ _ d _ _ _ _ _ HN HD HP E) as [(_ & _ & ->)|X]; [now left|now right].
    - left. unfold observe in E. destruct (k_observe _ _ _ _) as [k1 [[sl vi]|]]; [|discriminate].
      destruct (check_mjd _ _ _ _ _) as [[[|] m]|e']; [discriminate|discriminate|]. injection E as <- _. reflexivity. }
  destruct (C155_ends S (sky K) F C W sim_end step_none limit append_size every_obs d s (mkSky y [] None) f size start n Dp St
    (fun _ _ => Qeq_refl _) (fun _ _ => Qeq_refl _) Dn Fl Ho Ro) as (E1 & E2 & _).
  split; [exact E1|]. now apply E2.
Qed.
Print Assumptions C156_ends.

(** A scheduler that always offers the same visit, in the nights, downtimes and clouds
    of the examples of the observatory, 864 s of other delays after each visit: six visits
    in two nights, one skip at the end of a night and one over a downtime. *)
Definition exOffer : simB unit unit unit unit :=
  mkSimB unit unit unit unit (fun _ => 0%Q) (fun o _ => o) (fun _ => tt) (fun o x => (o, (None, false))) (fun o _ => o)
    (fun _ => true) (fun _ _ => true) (fun s _ => s) (fun s _ => (s, Ok (Some obs0))) (fun s _ => s) (fun s => s) (fun _ _ => []) (fun f _ => f)
    (Some (fun _ => 864%Q)).
Definition exWhole := whole exK exCloudy exNights exDowns 10 100 50 (fun k _ => k) (fun _ => tt) exOffer.
Example C156_example :
  let r := loop exWhole 12 (1 # 24) None 3 false 100 (sim_init exWhole tt (mkSky (exO 10) [] None) tt 3 None) in
  snd r = CBreak /\ sk_exn (sm_o (fst r)) = None /\
  map (fun o => (o_id o, Qred (o_mjd o), o_night o)) (result (fst r)) =
    [(7%Z, 1001 # 100, 0%Z); (8%Z, 1013 # 100, 0%Z); (9%Z, 41 # 4, 0%Z); (10%Z, 1037 # 100, 0%Z); (11%Z, 1101 # 100, 1%Z); (12%Z, 1131 # 100, 1%Z)]%Q.
Proof. vm_compute. auto. Qed.
