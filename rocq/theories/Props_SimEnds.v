(** C155: a simulation comes to an end. *)
From Coq Require Import List ZArith QArith Qround Bool String Lia Lqa.
From Verif Require Import Base Obs Sim Downtime Observatory Observatory_proofs Props_Observatory Core Props_Sim.
Import ListNotations.
Open Scope nat_scope.

Section Ends.
Context {S O F C : Type}.
Variable B : simB S O F C.
Variables sim_end step_none : Q.
Variable limit : option Z.
Variable append_size : nat.
Variable every_obs : bool.
Variable d : Q.
Hypothesis Dpos : (0 < d)%Q.
Hypothesis Step : (d <= step_none)%Q.
Hypothesis Set_ : forall o t, (ob_mjd B (ob_set B o t) == t)%Q.
Hypothesis Mount : forall o l, (ob_mjd B (ob_mount B o l) == ob_mjd B o)%Q.
Hypothesis Done : forall o x o' c n, ob_observe B o x = (o', (Some c, n)) -> (ob_mjd B o + d <= ob_mjd B o')%Q.
Hypothesis Fail_ : forall o x o' n, ob_observe B o x = (o', (None, n)) ->
  (ob_mjd B o' == ob_mjd B o)%Q \/ (ob_mjd B o + d <= ob_mjd B o')%Q.
Hypothesis Over : forall f c, overhead B = Some f -> (0 <= f c)%Q.
Notation iter := (iter B sim_end step_none limit append_size every_obs).
Notation loop := (loop B sim_end step_none limit append_size every_obs).
Notation clock st := (ob_mjd B (sm_o st)).
Definition flushed (st : sim S O F) : bool := Qeq_bool (clock st) (sm_last st).
Definition inside (st : sim S O F) : Prop := (sm_mjd st < sim_end)%Q -> (clock st <= sim_end)%Q.
Definition room (st : sim S O F) (n : nat) : Prop :=
  (2 * (sim_end - clock st) + d * (if flushed st then 1 else 2) <= inject_Z (Z.of_nat n) * d)%Q.

Lemma post_go : forall st nn st', post B limit st nn = (st', CGo) ->
  (clock st' == clock st)%Q /\ sm_mjd st' = clock st' /\ sm_last st' = sm_last st.
Proof.
  intros st nn st' H. unfold post in H.
  destruct nn; destruct limit as [k|]; try destruct (Z.eqb _ k); try discriminate; injection H as <-; cbn;
    (split; [try apply Mount; reflexivity|split; reflexivity]).
Qed.
Lemma iter_go : forall st st', iter st = (st', CGo) ->
  inside st' /\ ((clock st + d <= clock st')%Q \/ (clock st' == clock st)%Q /\ flushed st = false /\ flushed st' = true).
Proof.
  intros st st' H. unfold Sim.iter in H. destruct (pre_update B every_obs (sm_s st) (sm_o st)) as [s1 t1].
  destruct (sc_request B s1 (clock st)) as [s2 [[x|]|e]]; [| |discriminate].
  - destruct (ob_observe B (sm_o st) x) as [o1 [[c|] nn]] eqn:E.
    + destruct (set_nth (sm_arr st) (sm_n st) c) as [arr|]; [|discriminate].
      apply post_go in H as (H1 & H2 & _). cbn in H1. split; [intros L; rewrite <- H2; now apply Qlt_le_weak|]. left.
      pose proof (Done _ _ _ _ _ E) as A. rewrite H1. destruct (overhead B) as [f|] eqn:V; [|exact A].
      rewrite Set_. pose proof (Over f c eq_refl). assert (0 <= f c / 86400)%Q by (apply Qle_shift_div_l; [reflexivity|lra]). lra.
    + destruct (Qeq_bool (ob_mjd B o1) (sm_last st)) eqn:Q; [discriminate|].
      apply post_go in H as (H1 & H2 & H3). cbn in H1, H3. split; [intros L; rewrite <- H2; now apply Qlt_le_weak|].
      destruct (Fail_ _ _ _ _ E) as [A|A]; [right|left; now rewrite H1]. split; [now rewrite H1|]. unfold flushed. split.
      * destruct (Qeq_bool (clock st) (sm_last st)) eqn:R; [|reflexivity]. apply Qeq_bool_iff in R.
        assert (X : Qeq_bool (ob_mjd B o1) (sm_last st) = true) by (apply Qeq_bool_iff; now rewrite A). congruence.
      * rewrite H3. apply Qeq_bool_iff. exact H1.
  - cbv zeta in H. destruct (Qltb sim_end (ob_mjd B (ob_set B (sm_o st) (clock st + step_none)%Q))) eqn:L; [discriminate|].
    injection H as <-. cbn. split; [intros _; cbn; now apply Qltb_false in L|]. left. cbn. rewrite Set_. lra.
Qed.
Lemma room_go : forall st st' n, iter st = (st', CGo) -> room st (Datatypes.S n) -> room st' n.
Proof.
  intros st st' n H R. apply iter_go in H as [_ H]. unfold room in *. rewrite Nat2Z.inj_succ in R. unfold Z.succ in R.
  rewrite inject_Z_plus in R. change (inject_Z 1) with 1%Q in R.
  destruct H as [H|(H & F1 & F2)]; [destruct (flushed st), (flushed st')|rewrite F1 in R; rewrite F2]; lra.
Qed.
Lemma loop_end : forall n st k, inside st -> room st n ->
  loop (Datatypes.S n + k) st = loop (Datatypes.S n) st /\
  ((forall s t, snd (sc_request B s t) <> Raise OutOfFuel) -> snd (loop (Datatypes.S n) st) <> CRaise OutOfFuel).
Proof.
  induction n as [|n IH]; intros st k I R.
  - cbn [Nat.add Sim.loop]. destruct (Qltb (sm_mjd st) sim_end) eqn:L; [|split; [reflexivity|discriminate]].
    exfalso. apply Qltb_lt in L. specialize (I L). unfold room in R. change (inject_Z (Z.of_nat 0)) with 0%Q in R.
    destruct (flushed st); lra.
  - change (Datatypes.S (Datatypes.S n) + k) with (Datatypes.S (Datatypes.S n + k)).
    change (loop (Datatypes.S (Datatypes.S n + k)) st) with
      (if Qltb (sm_mjd st) sim_end then match iter st with (s, CGo) => loop (Datatypes.S n + k) s | x => x end else (st, CBreak)).
    change (loop (Datatypes.S (Datatypes.S n)) st) with
      (if Qltb (sm_mjd st) sim_end then match iter st with (s, CGo) => loop (Datatypes.S n) s | x => x end else (st, CBreak)).
    destruct (Qltb (sm_mjd st) sim_end); [|split; [reflexivity|discriminate]].
    destruct (iter st) as [st' [| |e]] eqn:E; [|split; [reflexivity|discriminate]|].
    + apply IH; [exact (proj1 (iter_go _ _ E))|exact (room_go _ _ _ E R)].
    + split; [reflexivity|]. intros NF. cbn. intros X. injection X as ->. revert E. unfold Sim.iter, post.
      destruct (pre_update B every_obs (sm_s st) (sm_o st)) as [s1 t1].
      pose proof (NF s1 (clock st)) as N1. destruct (sc_request B s1 (clock st)) as [s2 [[x|]|e]]; cbn in N1.
      * destruct (ob_observe B (sm_o st) x) as [o1 [[c|] nn]].
        -- destruct (set_nth (sm_arr st) (sm_n st) c); [|discriminate]. destruct nn, limit as [z|]; try destruct (Z.eqb _ z); discriminate.
        -- destruct (Qeq_bool _ _); [discriminate|]. destruct nn, limit as [z|]; try destruct (Z.eqb _ z); discriminate.
      * cbv zeta. destruct (Qltb sim_end _); discriminate.
      * intros E. injection E as _ ->. now apply N1.
Qed.
End Ends.

(** Requests made so far. *)
Definition asked (tr : list ev) : nat := List.length (filter (fun e => match e with EvRequest _ => true | _ => false end) tr).
Lemma asked_app : forall a b, asked (a ++ b) = asked a + asked b.
Proof. intros a b. unfold asked. now rewrite filter_app, app_length. Qed.
Lemma asked_iter : forall S O F C (B : simB S O F C) sim_end step limit app every st,
  asked (sm_tr (fst (iter B sim_end step limit app every st))) = asked (sm_tr st) + 1.
Proof.
  intros. unfold iter. destruct (pre_update B every (sm_s st) (sm_o st)) as [s1 t1] eqn:P.
  assert (T : asked t1 = 0).
  { unfold pre_update in P. destruct (sc_has B (sm_s st)); destruct (sc_check B _ _); destruct every; cbn in P; injection P as _ <-; reflexivity. }
  destruct (sc_request B s1 _) as [s2 [[x|]|e]].
  - destruct (ob_observe B (sm_o st) x) as [o1 [[c|] nn]].
    + destruct (set_nth (sm_arr st) (sm_n st) c); unfold post; [destruct nn, limit as [z|]; try destruct (Z.eqb _ z)|];
        cbn [fst sm_tr]; rewrite !asked_app, T; cbn; lia.
    + destruct (Qeq_bool _ _); unfold post; [|destruct nn, limit as [z|]; try destruct (Z.eqb _ z)];
        cbn [fst sm_tr]; rewrite !asked_app, T; cbn; lia.
  - cbv zeta. destruct (Qltb sim_end _); cbn [fst sm_tr]; rewrite !asked_app, T; cbn; lia.
  - cbn [fst sm_tr]. rewrite !asked_app, T. cbn. lia.
Qed.
Lemma asked_loop : forall S O F C (B : simB S O F C) sim_end step limit app every fuel st,
  asked (sm_tr (fst (loop B sim_end step limit app every fuel st))) <= asked (sm_tr st) + fuel.
Proof.
  intros S O F C B sim_end step limit app every. induction fuel as [|n IH]; intros st; [cbn; lia|]. cbn [loop].
  destruct (Qltb (sm_mjd st) sim_end); [|cbn; lia]. pose proof (asked_iter S O F C B sim_end step limit app every st) as A.
  destruct (iter B sim_end step limit app every st) as [st' [| |e]]; cbn [fst] in *; [specialize (IH st')| |]; lia.
Qed.

(** A run ends, whatever the scheduler does, after at most two requests for every
    [d] of its length and three more, if nothing that moves the clock moves it by
    less than [d]: completed visits, the skip after one that could not be taken, and
    the step when there is nothing to do.  It ends for one of the reasons the code
    has: more allowance for passes changes nothing, and none is asked for unless by
    the scheduler's own computation. *)
Theorem C155_ends : forall S O F C (B : simB S O F C) sim_end step_none limit append_size every_obs d s o f size start n,
  (0 < d)%Q -> (d <= step_none)%Q ->
  (forall o t, (ob_mjd B (ob_set B o t) == t)%Q) -> (forall o l, (ob_mjd B (ob_mount B o l) == ob_mjd B o)%Q) ->
  (forall o x o' c nn, ob_observe B o x = (o', (Some c, nn)) -> (ob_mjd B o + d <= ob_mjd B o')%Q) ->
  (forall o x o' nn, ob_observe B o x = (o', (None, nn)) ->
     (ob_mjd B o' == ob_mjd B o)%Q \/ (ob_mjd B o + d <= ob_mjd B o')%Q) ->
  (forall g c, overhead B = Some g -> (0 <= g c)%Q) ->
  let t0 := match start with None => ob_mjd B o | Some t => t end in
  (2 * (sim_end - t0) + 2 * d <= inject_Z (Z.of_nat n) * d)%Q ->
  let run fuel := loop B sim_end step_none limit append_size every_obs fuel (sim_init B s o f size start) in
  (forall k, run (n + 1 + k) = run (n + 1)) /\
  ((forall s t, snd (sc_request B s t) <> Raise OutOfFuel) -> snd (run (n + 1)) <> CRaise OutOfFuel) /\
  (forall fuel, asked (sm_tr (fst (run fuel))) <= n + 1).
Proof.
  intros S O F C B sim_end step_none limit append_size every_obs d s o f size start n Dp St Se Mo Do Fa Ov t0 Ro run.
  set (st := sim_init B s o f size start) in *.
  assert (CL : (ob_mjd B (sm_o st) == t0)%Q).
  { unfold st, sim_init, t0. destruct start; cbn; rewrite Mo; [apply Se|reflexivity]. }
  assert (M : sm_mjd st = t0) by (unfold st, sim_init, t0; destruct start; reflexivity).
  assert (I : inside B sim_end st) by (intros L; rewrite CL, <- M; now apply Qlt_le_weak).
  assert (R : room B sim_end d st n) by (unfold room; destruct (flushed B st); lra).
  pose proof (fun k => loop_end B sim_end step_none limit append_size every_obs d Dp St Se Mo Do Fa Ov n st k I R) as H.
  assert (E : forall k, run (n + 1 + k) = run (n + 1)).
  { intros k. unfold run. replace (n + 1 + k) with (Datatypes.S n + k) by lia. rewrite (Nat.add_1_r n). apply (H k). }
  split; [exact E|]. split; [unfold run; rewrite Nat.add_1_r; apply (H 0)|].
  assert (A0 : asked (sm_tr st) = 0) by reflexivity.
  intros fuel. destruct (le_lt_dec fuel (n + 1)) as [L|L].
  - pose proof (asked_loop S O F C B sim_end step_none limit append_size every_obs fuel st) as A. unfold run. lia.
  - replace fuel with (n + 1 + (fuel - (n + 1))) by lia. rewrite E.
    pose proof (asked_loop S O F C B sim_end step_none limit append_size every_obs (n + 1) st) as A. unfold run. lia.
Qed.
Print Assumptions C155_ends.

(** The model observatory moves its clock like that: by the visit, or not at all, or
    to a time that is good and later than the end of the visit would have been. *)
Theorem C155_observatory : forall K (B : kinB K) cloudy nights downs mjd_start park_after fuel d y x y' r nn,
  nights_ok nights -> disjoint downs ->
  (forall k q m k' s v, k_observe B k q m = (k', Some (s, v)) -> (0 <= s)%Q /\ (d * 86400 <= v)%Q) ->
  observe B cloudy nights downs mjd_start park_after fuel y x = (y', Ok (r, nn)) ->
  (r = None /\ nn = false /\ y_mjd y' = y_mjd y) \/ (y_mjd y + d <= y_mjd y')%Q.
Proof.
  intros K B cloudy nights downs mjd_start park_after fuel d y x y' r nn Hn Hd Hk H. unfold observe in H.
  destruct (k_observe B _ x (y_mjd y)) as [k1 [[sl vi]|]] eqn:E; [|injection H as <- <- <-; left; auto]. right.
  destruct (Hk _ _ _ _ _ _ E) as [H0 H1].
  assert (X : (d <= (sl + vi) / 86400)%Q) by (apply Qle_shift_div_l; [reflexivity|lra]).
  destruct (check_mjd cloudy nights downs fuel _) as [[[|] m]|e] eqn:Q; [| |discriminate].
  - injection H as <- _ _. cbn. assert (Y : (y_mjd y + sl / 86400 + vi / 86400 == y_mjd y + (sl + vi) / 86400)%Q) by field. rewrite Y. lra.
  - injection H as <- _ _. cbn. destruct (C19_skip_lands_on_good_time cloudy nights downs Hn Hd fuel _ _ _ Q) as (_ & _ & L).
    specialize (L eq_refl). lra.
Qed.
Print Assumptions C155_observatory.

(** Refuted: a run always ends.  With nothing to observe and a step of nothing it
    goes on for ever; *)
Definition idle (over : option (obs -> Q)) (visit : Q) (take : bool) : simB unit Q unit unit :=
  mkSimB unit Q unit unit (fun t => t) (fun _ t => t) (fun _ => tt) (fun t x => ((t + visit)%Q, (Some x, false))) (fun t _ => t)
    (fun _ => true) (fun _ _ => true) (fun s _ => s) (fun s _ => (s, Ok (if take then Some obs0 else None))) (fun s _ => s)
    (fun s => s) (fun _ _ => []) (fun f _ => f) over.
Theorem C155_step_refuted : forall start stop limit append every fuel, (start < stop)%Q ->
  snd (loop (idle None 1 false) stop 0 limit append every fuel (sim_init (idle None 1 false) tt start tt 1 None)) = CRaise OutOfFuel.
Proof.
  intros start stop limit append every fuel L.
  assert (G : forall fuel st, (sm_mjd st < stop)%Q -> (sm_o st <= stop)%Q ->
    snd (loop (idle None 1 false) stop 0 limit append every fuel st) = CRaise OutOfFuel).
  { clear - L. induction fuel as [|n IH]; intros st H1 H2; [reflexivity|]. cbn [loop]. rewrite (proj2 (Qltb_lt _ _) H1). unfold iter.
    destruct (pre_update (idle None 1 false) every (sm_s st) (sm_o st)) as [s1 t1]. cbn [idle sc_request ob_mjd ob_set ob_cond sc_update].
    cbv zeta. assert (X : Qltb stop (sm_o st + 0) = false) by (apply Qltb_false; lra). rewrite X.
    apply IH; cbn; [exact H1|lra]. }
  apply G; cbn; lra.
Qed.
Print Assumptions C155_step_refuted.
(** nor does it end when the extra time after each visit takes the visit back; *)
Theorem C155_overhead_refuted : forall start stop append every fuel, (start < stop)%Q -> 0 < append ->
  snd (loop (idle (Some (fun _ => -(30))%Q) (30 / 86400) true) stop 1 None append every fuel
        (sim_init (idle (Some (fun _ => -(30))%Q) (30 / 86400) true) tt start tt 1 None)) = CRaise OutOfFuel.
Proof.
  intros start stop append every fuel L Ap. set (B := idle _ _ _).
  assert (SN : forall l i v, i < List.length l -> exists l', set_nth l i v = Some l' /\ List.length l' = List.length l).
  { induction l as [|a l IHl]; intros [|i] v Hi; cbn in *; try lia; [eexists; split; reflexivity|].
    destruct (IHl i v ltac:(lia)) as (l' & -> & E). eexists. split; [reflexivity|]. cbn. now rewrite E. }
  assert (G : forall fuel st, (sm_mjd st < stop)%Q -> (sm_o st == start)%Q -> sm_n st < List.length (sm_arr st) ->
    snd (loop B stop 1 None append every fuel st) = CRaise OutOfFuel).
  { clear - L Ap SN. induction fuel as [|n IH]; intros st H1 H2 H3; [reflexivity|]. cbn [loop]. rewrite (proj2 (Qltb_lt _ _) H1). unfold iter.
    destruct (pre_update B every (sm_s st) (sm_o st)) as [s1 t1]. cbn [B idle sc_request ob_observe ob_mjd ob_cond].
    destruct (SN (sm_arr st) (sm_n st) obs0 H3) as (arr & E & EL). rewrite E. unfold post. cbn [sm_n sm_o sm_f sm_s sm_arr].
    assert (X : (sm_o st + 30 / 86400 + - (30) / 86400 == start)%Q) by (rewrite H2; field).
    apply IH; cbn [sm_mjd sm_o sm_n sm_arr B idle ob_mjd ob_set overhead]; [rewrite X; exact L|exact X|].
    destruct (Nat.eqb_spec (Datatypes.S (sm_n st)) (List.length arr)); [rewrite app_length, repeat_length; lia|lia]. }
  apply G; cbn; [exact L|reflexivity|lia].
Qed.
Print Assumptions C155_overhead_refuted.
(** and the search for a time without clouds does not, if the record has none. *)
Theorem C155_clouds_refuted : forall nights downs fuel m, check_mjd (fun _ => true) nights downs fuel m = Raise OutOfFuel.
Proof.
  intros nights downs [|f] m; [reflexivity|]. cbn [check_mjd]. unfold check_once.
  assert (E : forall g t, skip_clouds (fun _ => true) g t = Raise OutOfFuel) by (intros g; induction g as [|g IH]; intros t; cbn; auto).
  now rewrite E.
Qed.
Print Assumptions C155_clouds_refuted.

(** Where the clouds do clear the search ends: *)
Section Search.
Variable cloudy : Q -> bool.
Variable nights downs : list (Q * Q).
Hypothesis HN : nights_ok nights.
Hypothesis HD : disjoint downs.
Variable L : Q.
Hypothesis HL : forall a b, In (a, b) nights -> (b <= L)%Q.

Definition after (l : list Q) (m : Q) : nat := List.length (filter (fun x => Qltb m x) l).
Lemma after_le : forall l m u, (m <= u)%Q -> after l u <= after l m.
Proof.
  intros l m u H. unfold after. induction l as [|x l IH]; cbn; [lia|].
  destruct (Qltb u x) eqn:E; [apply Qltb_lt in E; rewrite (proj2 (Qltb_lt m x)) by lra; cbn; lia|].
  destruct (Qltb m x); cbn; lia.
Qed.
Lemma after_lt : forall l m u, (m < u)%Q -> In u l -> after l u < after l m.
Proof.
  intros l m u H. induction l as [|x l IH]; [intros []|]. intros [<-|I]; unfold after in *; cbn.
  - rewrite (proj2 (Qltb_lt m x) H). rewrite (proj2 (Qltb_false x x)) by lra. cbn.
    pose proof (after_le l m x ltac:(lra)) as A. unfold after in A. lia.
  - specialize (IH I). destruct (Qltb u x) eqn:E; [apply Qltb_lt in E; rewrite (proj2 (Qltb_lt m x)) by lra; cbn; lia|].
    destruct (Qltb m x); cbn; lia.
Qed.
Definition left_ (m : Q) : nat := after (map fst nights ++ map snd downs) m + Z.to_nat (Qfloor (72 * (L - m)) + 1).
Lemma floor_le : forall m u, (m <= u)%Q -> Z.to_nat (Qfloor (72 * (L - u)) + 1) <= Z.to_nat (Qfloor (72 * (L - m)) + 1).
Proof. intros m u H. assert (X : (Qfloor (72 * (L - u)) <= Qfloor (72 * (L - m)))%Z) by (apply Qfloor_resp_le; lra). lia. Qed.
Lemma floor_lt : forall m u, (m <= L)%Q -> (m + (1 # 72) <= u)%Q -> Z.to_nat (Qfloor (72 * (L - u)) + 1) < Z.to_nat (Qfloor (72 * (L - m)) + 1).
Proof.
  intros m u H1 H2. assert (X : (0 <= Qfloor (72 * (L - m)))%Z) by (change 0%Z with (Qfloor 0); apply Qfloor_resp_le; lra).
  assert (Y : (Qfloor (72 * (L - u)) < Qfloor (72 * (L - m)))%Z).
  { rewrite Zlt_Qlt. pose proof (Qfloor_le (72 * (L - u))) as A. pose proof (Qlt_floor (72 * (L - m))) as B.
    rewrite inject_Z_plus in B. change (inject_Z 1) with 1%Q in B. lra. }
  lia.
Qed.
Lemma skip_far : forall fuel t r, skip_clouds cloudy fuel t = Ok r -> cloudy t = true -> (t + (1 # 72) <= r)%Q.
Proof.
  intros [|f] t r H C; cbn in H; rewrite C in H; [discriminate|]. now destruct (skip_clouds_spec cloudy _ _ _ H) as (_ & X & _).
Qed.
Lemma once_left : forall fuel m u, check_once cloudy nights downs fuel m = Ok (false, u) -> left_ u < left_ m.
Proof.
  intros fuel m u H. unfold check_once in H.
  set (i := (Z.of_nat (ss_right (map fst nights) m) - 1)%Z) in *.
  assert (St : forall a b, py_nth nights (i + 1) = Some (a, b) -> left_ a < left_ m).
  { intros a b E. pose proof (next_start nights HN m a b E) as G. unfold left_.
    assert (I : In a (map fst nights ++ map snd downs)).
    { apply in_or_app. left. apply in_map_iff. exists (a, b). split; [reflexivity|].
      unfold py_nth in E. destruct (Z.ltb _ 0); [destruct (Z.ltb _ 0); [discriminate|]|]; eapply nth_error_In; eauto. }
    pose proof (after_lt _ m a G I). pose proof (floor_le m a ltac:(lra)). lia. }
  assert (Dn : forall t, check_up downs m = (false, t) -> left_ t < left_ m).
  { intros t E. destruct (check_up_exact downs m HD) as [U _]. destruct (U t E) as (s & I & _ & G). unfold left_.
    assert (I' : In t (map fst nights ++ map snd downs)) by (apply in_or_app; right; apply in_map_iff; now exists (s, t)).
    pose proof (after_lt _ m t G I'). pose proof (floor_le m t ltac:(lra)). lia. }
  assert (Cl : forall a b r, py_nth nights i = Some (a, b) -> Qltb b m = false -> cloudy m = true -> skip_clouds cloudy fuel m = Ok r -> left_ r < left_ m).
  { intros a b r E1 E2 E3 E4. apply Qltb_false in E2. pose proof (skip_far _ _ _ E4 E3) as F.
    assert (I : In (a, b) nights).
    { unfold py_nth in E1. destruct (Z.ltb _ 0); [destruct (Z.ltb _ 0); [discriminate|]|]; eapply nth_error_In; eauto. }
    unfold left_. pose proof (HL a b I). pose proof (floor_lt m r ltac:(lra) F). pose proof (after_le (map fst nights ++ map snd downs) m r ltac:(lra)). lia. }
  destruct (cloudy m) eqn:EC.
  - destruct (skip_clouds cloudy fuel m) as [r|] eqn:ES; [|discriminate]. cbn [bind] in H.
    destruct (py_nth nights i) as [[a b]|] eqn:EN; [|discriminate].
    destruct (Qltb b m) eqn:EB; [destruct (py_nth nights (i + 1)) as [[a' b']|] eqn:EN1; [|discriminate]|]; cbn [bind] in H;
      (destruct (Qltb m a); [destruct (py_nth nights (i + 1)) as [[a2 b2]|] eqn:EN2; [|discriminate]|]); cbn [bind] in H;
      destruct (check_up downs m) as [[|] t] eqn:EU; injection H as <-; eauto.
  - cbn [bind] in H. destruct (py_nth nights i) as [[a b]|] eqn:EN; [|discriminate].
    destruct (Qltb b m) eqn:EB; [destruct (py_nth nights (i + 1)) as [[a' b']|] eqn:EN1; [|discriminate]|]; cbn [bind] in H;
      (destruct (Qltb m a); [destruct (py_nth nights (i + 1)) as [[a2 b2]|] eqn:EN2; [|discriminate]|]); cbn [bind] in H;
      destruct (check_up downs m) as [[|] t] eqn:EU; try discriminate; injection H as <-; eauto.
Qed.
Lemma skip_ends : forall k t, cloudy (t + inject_Z (Z.of_nat k) / 72) = false ->
  (forall a b, (a == b)%Q -> cloudy a = cloudy b) -> exists r, forall j, skip_clouds cloudy (k + j) t = Ok r.
Proof.
  induction k as [|k IH]; intros t C P.
  - exists t. intros j. rewrite (P _ t) in C by field. destruct j; cbn; now rewrite C.
  - destruct (cloudy t) eqn:E; [|exists t; intros j; cbn; now rewrite E].
    destruct (IH (t + (1 # 72))%Q) as [r R]; [|exact P|exists r; intros j; cbn; rewrite E; apply R].
    rewrite <- C. apply P. rewrite Nat2Z.inj_succ. unfold Z.succ. rewrite inject_Z_plus. field.
Qed.
Lemma search_ends : (forall a b, (a == b)%Q -> cloudy a = cloudy b) -> forall n m, left_ m < n ->
  (forall t, (m <= t)%Q -> exists k, cloudy (t + inject_Z (Z.of_nat k) / 72) = false) ->
  exists f r, (forall j, check_mjd cloudy nights downs (f + j) m = r) /\ (r = Raise IndexError \/ exists p t, r = Ok (p, t)).
Proof.
  intros P. induction n as [|n IH]; intros m B C; [lia|].
  assert (O : exists f0 r0, (forall j, check_once cloudy nights downs (f0 + j) m = r0) /\ (r0 = Raise IndexError \/ exists p t, r0 = Ok (p, t))).
  { destruct (C m ltac:(lra)) as [k K]. destruct (skip_ends k m K P) as [r R]. pose proof (R 0) as R0. rewrite Nat.add_0_r in R0.
    exists k, (check_once cloudy nights downs k m). split; [intros j; unfold check_once; rewrite R, R0; reflexivity|].
    unfold check_once. rewrite R0.
    repeat (match goal with
      | |- context [if Qltb ?x ?y then _ else _] => destruct (Qltb x y)
      | |- context [match py_nth ?l ?z with _ => _ end] => destruct (py_nth l z) as [[? ?]|]
      | |- context [if cloudy m then _ else _] => destruct (cloudy m)
      | |- context [check_up downs m] => destruct (check_up downs m) as [[|] ?]
      end; cbn [bind]); auto; right; eauto. }
  destruct O as (f0 & r0 & O1 & O2). destruct O2 as [->|(p & t & ->)].
  - exists (Datatypes.S f0), (Raise IndexError). split; [intros j; cbn [check_mjd Nat.add]; now rewrite O1|auto].
  - destruct p.
    + exists (Datatypes.S f0), (Ok (true, m)). split; [intros j; cbn [check_mjd Nat.add]; now rewrite O1|right; eauto].
    + pose proof (once_left f0 m t) as D. pose proof (O1 0) as O0. rewrite Nat.add_0_r in O0. specialize (D O0).
      destruct (check_once_spec cloudy nights downs HN HD _ _ _ _ O0) as [_ G]. specialize (G eq_refl).
      destruct (IH t ltac:(lia)) as (f1 & r1 & R1 & R2); [intros x X; apply C; lra|].
      set (N := Datatypes.S (Datatypes.S (f0 + f1))).
      assert (E0 : forall j, check_once cloudy nights downs (N + j) m = Ok (false, t)) by (intros j; rewrite <- (O1 (2 + f1 + j)); f_equal; unfold N; lia).
      assert (E1 : forall j, check_mjd cloudy nights downs (N + j) t = r1) by (intros j; rewrite <- (R1 (2 + f0 + j)); f_equal; unfold N; lia).
      destruct R2 as [->|(p & t' & ->)].
      * exists (Datatypes.S N), (Raise IndexError). split; [|auto]. intros j. cbn [check_mjd Nat.add]. fold (N + j). rewrite E0. cbn [bind fst snd].
        change (N + j) with (Datatypes.S (Datatypes.S (f0 + f1 + j))) at 2. cbv fix beta iota. fold (check_mjd cloudy nights downs). rewrite E1. reflexivity.
      * exists (Datatypes.S N), (Ok (false, t')). split; [|right; eauto]. intros j. cbn [check_mjd Nat.add]. fold (N + j). rewrite E0. cbn [bind fst snd].
        change (N + j) with (Datatypes.S (Datatypes.S (f0 + f1 + j))) at 2. cbv fix beta iota. fold (check_mjd cloudy nights downs). rewrite E1. cbn [bind fst snd].
        destruct p; [reflexivity|].
        destruct (check_mjd_spec cloudy nights downs HN HD _ _ _ _ (E1 0)) as (Gd & _ & _).
        change (N + j) with (Datatypes.S (Datatypes.S (f0 + f1 + j))).
        now rewrite (check_mjd_accepts cloudy nights downs HN HD _ _ Gd).
Qed.
End Search.

Theorem C155_search : forall cloudy nights downs m, nights_ok nights -> disjoint downs ->
  (forall a b, (a == b)%Q -> cloudy a = cloudy b) ->
  (forall t, (m <= t)%Q -> exists k, cloudy (t + inject_Z (Z.of_nat k) / 72)%Q = false) ->
  exists f r, (forall j, check_mjd cloudy nights downs (f + j) m = r) /\ (r = Raise IndexError \/ exists p t, r = Ok (p, t)).
Proof.
  intros cloudy nights downs m HN HD P C.
  assert (X : exists L, forall a b, In (a, b) nights -> (b <= L)%Q).
  { clear. induction nights as [|[a b] l [L IH]]; [exists 0%Q; intros a b []|]. exists (if Qle_bool b L then L else b).
    intros a' b' [E|I]; [injection E as <- <-|specialize (IH _ _ I)]; destruct (Qle_bool b L) eqn:Q.
    - now apply Qle_bool_iff. - lra. - exact IH.
    - assert (~ (b <= L)%Q) by (intros K; apply Qle_bool_iff in K; congruence). lra. }
  destruct X as [L HL]. now apply (search_ends cloudy nights downs HN HD L HL P (Datatypes.S (left_ nights downs L m))); [lia|].
Qed.
Print Assumptions C155_search.

(** so with a cloud record that is repeated for ever (as CloudData does) and is clear
    for twenty minutes somewhere. *)
Theorem C155_repeated : forall cloudy nights downs m T c, nights_ok nights -> disjoint downs ->
  (forall a b, (a == b)%Q -> cloudy a = cloudy b) ->
  (0 < T)%Q -> (forall t (j : Z), cloudy (t + inject_Z j * T)%Q = cloudy t) ->
  (forall x, (c <= x)%Q -> (x < c + (1 # 72))%Q -> cloudy x = false) ->
  exists f r, (forall j, check_mjd cloudy nights downs (f + j) m = r) /\ (r = Raise IndexError \/ exists p t, r = Ok (p, t)).
Proof.
  intros cloudy nights downs m T c HN HD P HT Per Clr. apply C155_search; auto. intros t _.
  pose (j := Qceiling ((t - c) / T)). pose (g := (c + inject_Z j * T - t)%Q).
  assert (G : (0 <= g)%Q).
  { unfold g. pose proof (Qle_ceiling ((t - c) / T)) as A. fold j in A.
    assert (B : ((t - c) / T * T <= inject_Z j * T)%Q) by (apply Qmult_le_compat_r; [exact A|lra]).
    assert (E : ((t - c) / T * T == t - c)%Q) by (field; lra). rewrite E in B. lra. }
  pose (k := Qceiling (72 * g)). assert (K0 : (0 <= k)%Z).
  { unfold k. change 0%Z with (Qceiling 0). apply Qceiling_resp_le. lra. }
  exists (Z.to_nat k). rewrite Z2Nat.id by exact K0.
  rewrite <- (Per _ (- j)%Z). apply Clr; rewrite inject_Z_opp.
  - pose proof (Qle_ceiling (72 * g)) as A. fold k in A. unfold g in *.
    assert (inject_Z k / 72 >= c + inject_Z j * T - t)%Q by (apply Qle_shift_div_l; [reflexivity|lra]). lra.
  - pose proof (Qceiling_lt (72 * g)) as A. fold k in A. unfold Z.sub in A. rewrite inject_Z_plus in A. change (inject_Z (- (1))) with (- (1))%Q in A.
    assert (inject_Z k / 72 < g + (1 # 72))%Q by (apply Qlt_shift_div_r; [reflexivity|lra]). unfold g in *. lra.
Qed.
Print Assumptions C155_repeated.
Example C155_search_example :
  let cloudy t := Qltb (t - inject_Z (Qfloor t)) (1 # 4) in
  check_mjd cloudy [(0, 1 # 2); (1, 3 # 2); (2, 5 # 2)]%Q [(0, 7 # 5)]%Q 40 0 = Ok (false, (7 # 5)%Q).
Proof. vm_compute. reflexivity. Qed.

(** Three days with a core scheduler, visits of 0.6 days and failures that skip a
    tenth: the hypotheses hold with a step of an hour. *)
Example C155_example : forall failing,
  let B := exSim failing in
  (0 < 1 # 24)%Q /\ (forall o t, (ob_mjd B (ob_set B o t) == t)%Q) /\ (forall o l, (ob_mjd B (ob_mount B o l) == ob_mjd B o)%Q) /\
  (forall o x o' c nn, ob_observe B o x = (o', (Some c, nn)) -> (ob_mjd B o + (1 # 24) <= ob_mjd B o')%Q) /\
  (forall o x o' nn, ob_observe B o x = (o', (None, nn)) ->
     (ob_mjd B o' == ob_mjd B o)%Q \/ (ob_mjd B o + (1 # 24) <= ob_mjd B o')%Q) /\
  (2 * (60003 - 60000) + 2 * (1 # 24) <= inject_Z (Z.of_nat 146) * (1 # 24))%Q /\
  snd (exLoop never None false) = CBreak /\ asked (sm_tr (fst (exLoop never None false))) = 5.
Proof.
  intros failing B. split; [reflexivity|]. split; [intros; reflexivity|]. split; [intros; reflexivity|].
  split; [|split; [|split; [vm_compute; discriminate|split; vm_compute; reflexivity]]].
  - intros o x o' c nn H. cbn in H. unfold exClock in H. destruct (failing o); [discriminate|]. injection H as <- _ _. cbn. lra.
  - intros o x o' nn H. cbn in H. unfold exClock in H. destruct (failing o); [|discriminate]. injection H as <- _. right. cbn. lra.
Qed.
