(** Proofs about the simulation loop. *)
From Coq Require Import List ZArith QArith Bool String Lia.
From Verif Require Import Base Obs Sim.
Import ListNotations.
Open Scope nat_scope.

Lemma set_nth_length : forall l i v l', set_nth l i v = Some l' ->
  List.length l' = List.length l /\ i < List.length l /\ firstn (S i) l' = firstn i l ++ [v].
Proof.
  induction l as [|x r IH]; intros [|i] v l' H; cbn in H; try discriminate.
  - injection H as <-. cbn. repeat split; lia.
  - destruct (set_nth r i v) as [r'|] eqn:E; [|discriminate]. injection H as <-.
    destruct (IH _ _ _ E) as (A & B & D). cbn [List.length]. split; [lia|]. split; [lia|].
    change (firstn (S (S i)) (x :: r')) with (x :: firstn (S i) r'). rewrite D. reflexivity.
Qed.

Lemma set_nth_some : forall l i v, i < List.length l -> exists l', set_nth l i v = Some l'.
Proof.
  induction l as [|x r IH]; intros [|i] v H; cbn in *; try lia; [eauto|].
  destruct (IH i v) as [l' E]; [lia|]. rewrite E. cbn. eauto.
Qed.

Lemma dones_app : forall a b, dones (a ++ b) = dones a ++ dones b.
Proof. intros. apply flat_map_app. Qed.
Lemma adds_app : forall a b, adds (a ++ b) = adds a ++ adds b.
Proof. intros. apply flat_map_app. Qed.

(** Splitting a list at an element. *)
Lemma app_split : forall A (a b p q : list A) x,
  a ++ b = p ++ x :: q ->
  (exists q', a = p ++ x :: q' /\ q = q' ++ b) \/ (exists p', b = p' ++ x :: q /\ p = a ++ p').
Proof.
  induction a as [|y a IH]; intros b p q x H; cbn in H.
  - right. exists p. auto.
  - destruct p as [|z p]; cbn in H; injection H as <- H.
    + left. exists a. auto.
    + destruct (IH _ _ _ _ H) as [(q' & -> & ->)|(p' & -> & ->)]; [left; exists q'|right; exists p']; auto.
Qed.

(** A suffix made of quiet events (no request) keeps a request-indexed property. *)
Definition quiet (e : ev) : Prop := match e with EvRequest _ | EvObserve _ _ => False | _ => True end.

Lemma rbr_nil : reported_before_request [].
Proof. intros [|] t q H; discriminate. Qed.
Lemma rbr_quiet : forall tr t, reported_before_request tr -> Forall (fun e => forall x, e <> EvRequest x) t ->
  reported_before_request (tr ++ t).
Proof.
  intros tr t H HQ p x q E. destruct (app_split _ _ _ _ _ _ E) as [(q' & E1 & _)|(p' & E1 & _)].
  - eapply H; eauto.
  - rewrite Forall_forall in HQ. exfalso. apply (HQ (EvRequest x)) with (x := x); [|reflexivity].
    rewrite E1. apply in_app_iff. right. now left.
Qed.
Lemma rbr_req : forall tr t, reported_before_request tr -> adds tr = dones tr ->
  reported_before_request (tr ++ [EvRequest t]).
Proof.
  intros tr t H HE p x q E. destruct (app_split _ _ _ _ _ _ E) as [(q' & E1 & _)|(p' & E1 & E2)].
  - eapply H; eauto.
  - destruct p' as [|e p']; [|destruct p'; discriminate]. rewrite app_nil_r in E2. now subst.
Qed.

Lemma ofr_quiet : forall tr t, observe_follows_request tr -> Forall (fun e => forall d x, e <> EvObserve d x) t ->
  observe_follows_request (tr ++ t).
Proof.
  intros tr t H HQ p d x q E. destruct (app_split _ _ _ _ _ _ E) as [(q' & E1 & _)|(p' & E1 & _)].
  - eapply H; eauto.
  - rewrite Forall_forall in HQ. exfalso. apply (HQ (EvObserve d x)) with (d := d) (x := x); [|reflexivity].
    rewrite E1. apply in_app_iff. right. now left.
Qed.
Lemma ofr_obs : forall tr d t, observe_follows_request tr ->
  observe_follows_request ((tr ++ [EvRequest t]) ++ [EvObserve d t]).
Proof.
  intros tr d t H p d' x q E. destruct (app_split _ _ _ _ _ _ E) as [(q' & E1 & _)|(p' & E1 & E2)].
  - destruct (app_split _ _ _ _ _ _ E1) as [(q2 & E3 & _)|(p2 & E3 & _)]; [eapply H; eauto|].
    destruct p2 as [|? [|]]; discriminate.
  - destruct p' as [|e p']; [|destruct p'; discriminate]. injection E1 as -> -> _.
    rewrite app_nil_r in E2. exists tr. exact E2.
Qed.

Lemma fr_quiet : forall tr t, fresh_requests tr -> Forall (fun e => forall x, e <> EvRequest x) t ->
  fresh_requests (tr ++ t).
Proof.
  intros tr t H HQ p x q E. destruct (app_split _ _ _ _ _ _ E) as [(q' & E1 & _)|(p' & E1 & _)].
  - eapply H; eauto.
  - rewrite Forall_forall in HQ. exfalso. apply (HQ (EvRequest x)) with (x := x); [|reflexivity].
    rewrite E1. apply in_app_iff. right. now left.
Qed.
Lemma fr_req : forall tr t, fresh_requests (tr ++ [EvUpdate t]) ->
  fresh_requests ((tr ++ [EvUpdate t]) ++ [EvRequest t]).
Proof.
  intros tr t H p x q E. destruct (app_split _ _ _ _ _ _ E) as [(q' & E1 & _)|(p' & E1 & E2)].
  - eapply H; eauto.
  - destruct p' as [|e p']; [|destruct p'; discriminate]. injection E1 as -> _.
    rewrite app_nil_r in E2. exists tr. exact E2.
Qed.

Section Facts.
Context {S O F C : Type}.
Variable B : simB S O F C.
Variable sim_end : Q.
Variable step_none : Q.
Variable limit : option Z.
Variable append_size : nat.
Variable every_obs : bool.
Notation sim := (sim S O F).
Notation iter := (iter B sim_end step_none limit append_size every_obs).
Notation loop := (loop B sim_end step_none limit append_size every_obs).
Notation post := (post B limit).
Notation pre_update := (pre_update B every_obs).

Lemma pre_update_trace : forall s o,
  Forall (fun e => e = EvUpdate (ob_mjd B o)) (snd (pre_update s o)).
Proof.
  intros s o. unfold pre_update. destruct (sc_has B s); destruct (sc_check B _ _);
    destruct every_obs; cbn; repeat constructor.
Qed.

Lemma pre_update_fresh : forall s o, every_obs = true ->
  exists t, snd (pre_update s o) = t ++ [EvUpdate (ob_mjd B o)].
Proof.
  intros s o He. unfold pre_update. rewrite He. destruct (sc_has B s); destruct (sc_check B _ _); cbn;
    first [now exists [] | now exists [EvUpdate (ob_mjd B o)]].
Qed.

Lemma upd_quiet : forall l x, Forall (fun e => e = EvUpdate x) l ->
  dones l = [] /\ adds l = [] /\ Forall (fun e => forall y, e <> EvRequest y) l
  /\ Forall (fun e => forall d y, e <> EvObserve d y) l.
Proof.
  induction l as [|e r IH]; intros x H; [repeat split; constructor|].
  inversion H; subst. destruct (IH _ H3) as (A1 & A2 & A3 & A4).
  repeat split; auto; constructor; auto; intros; discriminate.
Qed.

(** *** Bookkeeping invariant *)
Record Inv (st : sim) : Prop := mkInv {
  iv_res : result st = dones (sm_tr st);
  iv_len : sm_n st <= List.length (sm_arr st);
  iv_cnt : sm_n st = List.length (dones (sm_tr st));
  iv_rep : adds (sm_tr st) = dones (sm_tr st);
  iv_rbr : reported_before_request (sm_tr st);
  iv_ofr : observe_follows_request (sm_tr st) }.

Lemma post_same : forall st nn st' c, post st nn = (st', c) ->
  sm_n st' = sm_n st /\ sm_arr st' = sm_arr st /\ sm_s st' = sm_s st /\ sm_f st' = sm_f st /\
  sm_mjd st' = ob_mjd B (sm_o st') /\ sm_last st' = sm_last st /\
  (exists t, sm_tr st' = sm_tr st ++ t /\ Forall (fun e => exists l, e = EvMount l) t) /\
  (c = CGo \/ c = CBreak) /\
  (forall n, limit = Some n -> (c = CBreak <-> Z.of_nat (sm_n st) = n)).
Proof.
  intros st nn st' c H. unfold Sim.post in H.
  destruct nn; cbn [fst snd] in H.
  - destruct limit as [n|].
    + destruct (Z.eqb_spec (Z.of_nat (sm_n st)) n) as [E|E]; injection H as <- <-; cbn;
        repeat split; auto; try (eexists; split; [reflexivity|repeat constructor; eauto]);
        try (intros; congruence); try congruence.
    + injection H as <- <-; cbn. repeat split; auto; try (eexists; split; [reflexivity|repeat constructor; eauto]); try congruence.
  - destruct limit as [n|].
    + destruct (Z.eqb_spec (Z.of_nat (sm_n st)) n) as [E|E]; injection H as <- <-; cbn;
        repeat split; auto; try (exists []; split; [reflexivity|constructor]);
        try (intros; congruence); try congruence.
    + injection H as <- <-; cbn. repeat split; auto; try (exists []; split; [reflexivity|constructor]); try congruence.
Qed.

Lemma mounts_quiet : forall t, Forall (fun e => exists l, e = EvMount l) t ->
  dones t = [] /\ adds t = [] /\ Forall (fun e => forall y, e <> EvRequest y) t
  /\ Forall (fun e => forall d y, e <> EvObserve d y) t.
Proof.
  induction t as [|e r IH]; intros H; [repeat split; constructor|].
  inversion H as [|? ? [l ->] H3]; subst. destruct (IH H3) as (A1 & A2 & A3 & A4).
  repeat split; auto; constructor; auto; intros; discriminate.
Qed.

Lemma inv_ext : forall st st' t, Inv st -> sm_n st' = sm_n st -> sm_arr st' = sm_arr st ->
  sm_tr st' = sm_tr st ++ t -> dones t = [] -> adds t = [] ->
  Forall (fun e => forall y, e <> EvRequest y) t -> Forall (fun e => forall d y, e <> EvObserve d y) t ->
  Inv st'.
Proof.
  intros st st' t [I1 I2 I3 I4 I5 I6] H1 H2 H3 H4 H5 H6 H7.
  constructor; unfold result in *; rewrite ?H1, ?H2, ?H3, ?dones_app, ?adds_app, ?H4, ?H5, ?app_nil_r; auto.
  - now apply rbr_quiet.
  - now apply ofr_quiet.
Qed.

Lemma post_inv : forall st nn, Inv st -> Inv (fst (post st nn)).
Proof.
  intros st nn H. destruct (post st nn) as [st' c] eqn:E. cbn [fst].
  destruct (post_same _ _ _ _ E) as (E1 & E2 & _ & _ & _ & _ & (t & E3 & E4) & _).
  destruct (mounts_quiet _ E4) as (Q1 & Q2 & Q3 & Q4). eapply inv_ext; eauto.
Qed.

Lemma iter_inv : forall st, Inv st -> Inv (fst (iter st)) \/ snd (iter st) = CRaise IndexError.
Proof.
  intros st I. unfold Sim.iter.
  pose proof (pre_update_trace (sm_s st) (sm_o st)) as PT.
  destruct (pre_update (sm_s st) (sm_o st)) as [s1 t1]. cbn [snd] in PT.
  destruct (upd_quiet _ _ PT) as (U1 & U2 & U3 & U4).
  set (now := ob_mjd B (sm_o st)) in *.
  destruct (sc_request B s1 now) as [s2 r].
  assert (I1 : forall s o f m k l, Inv (mkSim s o f m (sm_arr st) (sm_n st) k l (sm_tr st ++ t1 ++ [EvRequest now]))).
  { intros. destruct I as [J1 J2 J3 J4 J5 J6]. constructor; unfold result in *; cbn;
      rewrite ?dones_app, ?adds_app, ?U1, ?U2, ?app_nil_r; auto; cbn; rewrite ?app_nil_r; auto.
    - rewrite app_assoc. apply rbr_req; [now apply rbr_quiet|]. now rewrite dones_app, adds_app, U1, U2, !app_nil_r.
    - rewrite app_assoc. apply ofr_quiet; [now apply ofr_quiet|]. repeat constructor; discriminate. }
  destruct r as [[d|]|e].
  - destruct (ob_observe B (sm_o st) d) as [o1 [done nn]].
    assert (OFR : observe_follows_request ((sm_tr st ++ t1 ++ [EvRequest now]) ++ [EvObserve d now])).
    { rewrite app_assoc. apply ofr_obs. apply ofr_quiet; [apply I|exact U4]. }
    destruct (I1 s2 o1 (sm_f st) (sm_mjd st) 0 0%Q) as [J1 J2 J3 J4 J5 J6]. unfold result in *. cbn [sm_n sm_arr sm_tr] in J1, J2, J3, J4, J5, J6.
    destruct done as [c|].
    + set (o2 := match overhead B with None => o1 | Some f => _ end).
      destruct (set_nth (sm_arr st) (sm_n st) c) as [arr|] eqn:EA; [|now right].
      left. apply post_inv. destruct (set_nth_length _ _ _ _ EA) as (L1 & L2 & L3).
      set (arr' := if Nat.eqb _ _ then _ else _).
      assert (HA : firstn (Datatypes.S (sm_n st)) arr' = firstn (sm_n st) (sm_arr st) ++ [c] /\
                   Datatypes.S (sm_n st) <= List.length arr').
      { unfold arr'. destruct (Nat.eqb _ _); split.
        - rewrite firstn_app, <- L3. replace (Datatypes.S (sm_n st) - List.length arr) with 0 by lia.
          cbn [firstn]. apply app_nil_r.
        - rewrite app_length. lia.
        - exact L3.
        - lia. }
      destruct HA as [HA1 HA2].
      constructor; unfold result; cbn [sm_n sm_arr sm_tr].
      * rewrite HA1, J1. rewrite (dones_app (_ ++ [EvObserve _ _])), (dones_app _ [EvObserve _ _]).
        cbn. now rewrite app_nil_r.
      * exact HA2.
      * rewrite (dones_app (_ ++ [EvObserve _ _])), (dones_app _ [EvObserve _ _]), !app_length, <- J3. cbn. lia.
      * rewrite !dones_app, !adds_app in *. rewrite J4. reflexivity.
      * apply rbr_quiet; [apply rbr_quiet; [exact J5|]|]; repeat constructor; discriminate.
      * apply ofr_quiet; [exact OFR|]. repeat constructor; discriminate.
    + assert (IF : forall s f m k l t, (t = [EvFail] \/ t = [EvFail; EvFlush]) ->
        Inv (mkSim s o1 f m (sm_arr st) (sm_n st) k l (((sm_tr st ++ t1 ++ [EvRequest now]) ++ [EvObserve d now]) ++ t))).
      { intros s f m k l t Ht. constructor; unfold result; cbn [sm_n sm_arr sm_tr].
        - rewrite J1, (dones_app (_ ++ [EvObserve _ _])), (dones_app _ [EvObserve d now]). destruct Ht as [-> | ->]; cbn; now rewrite !app_nil_r.
        - exact J2.
        - rewrite (dones_app (_ ++ [EvObserve _ _])), (dones_app _ [EvObserve d now]), !app_length, <- J3. destruct Ht as [-> | ->]; cbn; lia.
        - rewrite (dones_app (_ ++ [EvObserve _ _])), (dones_app _ [EvObserve d now]).
          rewrite (adds_app (_ ++ [EvObserve _ _])), (adds_app _ [EvObserve d now]), J4.
          destruct Ht as [-> | ->]; reflexivity.
        - apply rbr_quiet; [apply rbr_quiet; [exact J5|]|]; destruct Ht as [-> | ->]; repeat constructor; discriminate.
        - apply ofr_quiet; [exact OFR|]. destruct Ht as [-> | ->]; repeat constructor; discriminate. }
      destruct (Qeq_bool (ob_mjd B o1) (sm_last st)); left.
      * cbn [fst]. apply IF. now left.
      * apply post_inv. rewrite <- app_assoc. apply IF. now right.
  - left. set (o1 := ob_set B (sm_o st) (now + step_none)%Q).
    assert (IN : Inv (mkSim (sc_update B s2 (ob_cond B o1)) o1 (sm_f st) (sm_mjd st) (sm_arr st) (sm_n st)
              (sm_skip st + 1) (sm_last st)
              ((sm_tr st ++ t1 ++ [EvRequest now]) ++ [EvNone; EvUpdate (ob_mjd B o1)]))).
    { eapply inv_ext; [apply (I1 s2 o1 (sm_f st) (sm_mjd st) 0 0%Q)|reflexivity|reflexivity|reflexivity|reflexivity|reflexivity| |];
        repeat constructor; discriminate. }
    destruct (Qltb sim_end (ob_mjd B o1)); exact IN.
  - left. cbn [fst]. apply I1.
Qed.

Lemma init_inv : forall s o f n start, Inv (sim_init B s o f n start).
Proof.
  intros. constructor; unfold sim_init, result; cbn; auto; try lia.
  - intros [|e p] t q E; [discriminate|]. destruct p; discriminate.
  - intros [|e p] d t q E; [discriminate|]. destruct p; discriminate.
Qed.

Lemma loop_inv : forall fuel st st' c, Inv st -> loop fuel st = (st', c) -> c = CRaise IndexError \/ Inv st'.
Proof.
  induction fuel as [|fuel IH]; intros st st' c I H; cbn [Sim.loop] in H.
  - injection H as <- <-. now right.
  - destruct (Qltb (sm_mjd st) sim_end).
    + pose proof (iter_inv st I) as K. destruct (iter st) as [st1 c1]. cbn [fst snd] in K.
      destruct K as [K|K].
      * destruct c1; [eapply IH; eauto|injection H as <- <-; now right|injection H as <- <-; now right].
      * subst c1. injection H as <- <-. now left.
    + injection H as <- <-. now right.
Qed.

Lemma sim_bookkeeping : forall s o f n start fuel st,
  loop fuel (sim_init B s o f n start) = (st, CBreak) ->
  result st = dones (sm_tr st) /\ adds (sm_tr st) = dones (sm_tr st) /\
  reported_before_request (sm_tr st) /\ observe_follows_request (sm_tr st).
Proof.
  intros s o f n start fuel st H. destruct (loop_inv _ _ _ _ (init_inv s o f n start) H) as [E|I]; [discriminate|].
  destruct I. auto.
Qed.

(** With room for at least one visit and a positive growth step, storing never
    fails. *)
Definition Room (st : sim) : Prop := sm_n st < List.length (sm_arr st).

Lemma iter_room : forall st, 0 < append_size -> Room st ->
  (Room (fst (iter st)) /\ snd (iter st) <> CRaise IndexError) \/
  exists s1 s2, sc_request B s1 (ob_mjd B (sm_o st)) = (s2, Raise IndexError).
Proof.
  intros st Ha R. unfold Sim.iter.
  destruct (pre_update (sm_s st) (sm_o st)) as [s1 t1].
  destruct (sc_request B s1 (ob_mjd B (sm_o st))) as [s2 [[d|]|e]] eqn:ER.
  - left. destruct (ob_observe B (sm_o st) d) as [o1 [[c|] nn]].
    + destruct (set_nth_some (sm_arr st) (sm_n st) c R) as [arr EA]. rewrite EA.
      destruct (set_nth_length _ _ _ _ EA) as (L1 & L2 & _).
      match goal with |- context [post ?a nn] => destruct (post a nn) as [st' c'] eqn:EP end.
      destruct (post_same _ _ _ _ EP) as (E1 & E2 & _ & _ & _ & _ & _ & E3 & _). cbn [fst snd].
      unfold Room. rewrite E1, E2. cbn [sm_n sm_arr]. split; [|destruct E3; congruence].
      destruct (Nat.eqb_spec (Datatypes.S (sm_n st)) (List.length arr)) as [E|E];
        rewrite ?app_length, ?repeat_length; lia.
    + destruct (Qeq_bool (ob_mjd B o1) (sm_last st)); [split; [exact R|discriminate]|].
      match goal with |- context [post ?a nn] => destruct (post a nn) as [st' c'] eqn:EP end.
      destruct (post_same _ _ _ _ EP) as (E1 & E2 & _ & _ & _ & _ & _ & E3 & _). cbn [fst snd].
      unfold Room. rewrite E1, E2. cbn [sm_n sm_arr]. split; [exact R|destruct E3; congruence].
  - left. destruct (Qltb _ _); split; try exact R; discriminate.
  - destruct e; try (left; split; [exact R|discriminate]). right. eauto.
Qed.

Lemma loop_room : forall fuel st st' c, 0 < append_size -> Room st ->
  (forall s t s', sc_request B s t <> (s', Raise IndexError)) ->
  loop fuel st = (st', c) -> c <> CRaise IndexError.
Proof.
  intros fuel. induction fuel as [|fuel IH]; intros st st' c Ha R HS H; cbn [Sim.loop] in H.
  - injection H as <- <-. discriminate.
  - destruct (Qltb (sm_mjd st) sim_end); [|injection H as <- <-; discriminate].
    destruct (iter_room st Ha R) as [[K1 K2]|(s1 & s2 & K)]; [|now apply HS in K].
    destruct (iter st) as [st1 c1]. cbn [fst snd] in *.
    destruct c1; [eapply IH; eauto|injection H as <- <-; discriminate|injection H as <- <-; exact K2].
Qed.

(** *** Visit limit *)
Lemma iter_count : forall st, sm_n (fst (iter st)) = sm_n st \/
  (sm_n (fst (iter st)) = Datatypes.S (sm_n st) /\
   forall n, limit = Some n -> (snd (iter st) = CBreak <-> Z.of_nat (sm_n (fst (iter st))) = n)).
Proof.
  intros st. unfold Sim.iter.
  destruct (pre_update (sm_s st) (sm_o st)) as [s1 t1].
  destruct (sc_request B s1 (ob_mjd B (sm_o st))) as [s2 [[d|]|e]].
  - destruct (ob_observe B (sm_o st) d) as [o1 [[c|] nn]].
    + destruct (set_nth (sm_arr st) (sm_n st) c) as [arr|]; [|now left].
      match goal with |- context [post ?a nn] => destruct (post a nn) as [st' c'] eqn:EP end.
      destruct (post_same _ _ _ _ EP) as (E1 & _ & _ & _ & _ & _ & _ & _ & E2). cbn [fst snd].
      right. rewrite E1. split; [reflexivity|]. intros n Hn. now apply E2.
    + destruct (Qeq_bool (ob_mjd B o1) (sm_last st)); [now left|].
      match goal with |- context [post ?a nn] => destruct (post a nn) as [st' c'] eqn:EP end.
      destruct (post_same _ _ _ _ EP) as (E1 & _). left. exact E1.
  - left. destruct (Qltb _ _); reflexivity.
  - now left.
Qed.

Lemma loop_limit : forall fuel st st' c n, limit = Some n -> (Z.of_nat (sm_n st) < n)%Z ->
  loop fuel st = (st', c) -> (Z.of_nat (sm_n st') <= n)%Z.
Proof.
  induction fuel as [|fuel IH]; intros st st' c n Hn Hl H; cbn [Sim.loop] in H.
  - injection H as <- <-. lia.
  - destruct (Qltb (sm_mjd st) sim_end); [|injection H as <- <-; lia].
    pose proof (iter_count st) as K. destruct (iter st) as [st1 c1]. cbn [fst snd] in K.
    destruct K as [K|[K1 K2]].
    + destruct c1; [apply (IH st1 st' c n Hn); [lia|exact H]|injection H as <- <-; lia|injection H as <- <-; lia].
    + specialize (K2 _ Hn). destruct c1.
      * apply (IH st1 st' c n Hn); [|exact H]. assert (Z.of_nat (sm_n st1) <> n) by (intros E; apply K2 in E; discriminate). lia.
      * injection H as <- <-. lia.
      * injection H as <- <-. lia.
Qed.

Lemma sim_limit : forall s o f k start fuel st c n, limit = Some n -> (0 < n)%Z ->
  loop fuel (sim_init B s o f k start) = (st, c) -> (Z.of_nat (List.length (result st)) <= n)%Z.
Proof.
  intros s o f k start fuel st c n Hn Hp H.
  assert (K : (Z.of_nat (sm_n st) <= n)%Z) by (eapply loop_limit; [exact Hn| |exact H]; cbn; lia).
  unfold result. rewrite firstn_length. lia.
Qed.

(** *** Requests stay inside the simulated period *)
Definition SetOK : Prop := forall o t, (ob_mjd B (ob_set B o t) == t)%Q.
Definition MountOK : Prop := forall o l, (ob_mjd B (ob_mount B o l) == ob_mjd B o)%Q.

Lemma post_mjd : forall st nn st' c, post st nn = (st', c) -> sm_mjd st' = ob_mjd B (sm_o st').
Proof. intros st nn st' c H. now destruct (post_same _ _ _ _ H) as (_ & _ & _ & _ & E & _). Qed.

Lemma rb_app : forall te a b, requests_by te a -> requests_by te b -> requests_by te (a ++ b).
Proof. intros te a b Ha Hb t H. apply in_app_iff in H. destruct H; auto. Qed.
Lemma rb_quiet : forall te l, Forall (fun e => forall y, e <> EvRequest y) l -> requests_by te l.
Proof. intros te l H t Ht. rewrite Forall_forall in H. now destruct (H _ Ht t). Qed.

Lemma iter_requests_by : forall st, requests_by sim_end (sm_tr st) ->
  (ob_mjd B (sm_o st) <= sim_end)%Q ->
  requests_by sim_end (sm_tr (fst (iter st))) /\
  (snd (iter st) = CGo -> sm_mjd (fst (iter st)) = ob_mjd B (sm_o (fst (iter st))) \/
     (ob_mjd B (sm_o (fst (iter st))) <= sim_end)%Q).
Proof.
  intros st I Hle. unfold Sim.iter.
  pose proof (pre_update_trace (sm_s st) (sm_o st)) as PT.
  destruct (pre_update (sm_s st) (sm_o st)) as [s1 t1]. cbn [snd] in PT.
  destruct (upd_quiet _ _ PT) as (_ & _ & U3 & _).
  set (now := ob_mjd B (sm_o st)) in *.
  assert (I1 : requests_by sim_end (sm_tr st ++ t1 ++ [EvRequest now])).
  { apply rb_app; [exact I|]. apply rb_app; [now apply rb_quiet|].
    intros t [E|[]]. injection E as <-. exact Hle. }
  assert (QS : forall l, Forall (fun e => forall y, e <> EvRequest y) l ->
     requests_by sim_end ((sm_tr st ++ t1 ++ [EvRequest now]) ++ l)).
  { intros l Hl. apply rb_app; [exact I1|now apply rb_quiet]. }
  assert (PS : forall a nn, requests_by sim_end (sm_tr a) ->
     requests_by sim_end (sm_tr (fst (post a nn))) /\ sm_mjd (fst (post a nn)) = ob_mjd B (sm_o (fst (post a nn)))).
  { intros a nn Ha. destruct (post a nn) as [st' c'] eqn:EP. cbn [fst].
    destruct (post_same _ _ _ _ EP) as (_ & _ & _ & _ & E5 & _ & (t & E7 & E8) & _).
    split; [|exact E5]. rewrite E7. apply rb_app; [exact Ha|]. apply rb_quiet. now destruct (mounts_quiet _ E8) as (_ & _ & K & _). }
  destruct (sc_request B s1 now) as [s2 [[d|]|e]].
  - destruct (ob_observe B (sm_o st) d) as [o1 [[c|] nn]].
    + destruct (set_nth (sm_arr st) (sm_n st) c) as [arr|].
      * match goal with |- context [post ?a nn] => destruct (PS a nn) as [P1 P2] end.
        { cbn [sm_tr]. rewrite <- (app_assoc (_ ++ _) [_]). apply QS. repeat constructor; discriminate. }
        split; [exact P1|]. intros _. now left.
      * cbn [fst snd sm_tr]. split; [|discriminate]. rewrite <- (app_assoc (_ ++ _) [_]).
        apply QS. repeat constructor; discriminate.
    + destruct (Qeq_bool (ob_mjd B o1) (sm_last st)).
      * cbn [fst snd sm_tr]. split; [|discriminate]. rewrite <- (app_assoc (_ ++ _) [_]). apply QS. repeat constructor; discriminate.
      * match goal with |- context [post ?a nn] => destruct (PS a nn) as [P1 P2] end.
        { cbn [sm_tr]. rewrite <- (app_assoc _ [_] [_]), <- (app_assoc (_ ++ _) [_]). apply QS. repeat constructor; discriminate. }
        split; [exact P1|]. intros _. now left.
  - set (o1 := ob_set B (sm_o st) (now + step_none)%Q).
    destruct (Qltb sim_end (ob_mjd B o1)) eqn:EL; cbn [fst snd sm_tr sm_mjd sm_o].
    + split; [|discriminate]. apply QS. repeat constructor; discriminate.
    + split; [apply QS; repeat constructor; discriminate|]. intros _. right. now apply Qltb_false.
  - cbn [fst snd sm_tr]. split; [exact I1|discriminate].
Qed.

Lemma loop_requests_by : forall fuel st st' c, requests_by sim_end (sm_tr st) ->
  (sm_mjd st = ob_mjd B (sm_o st) \/ (ob_mjd B (sm_o st) <= sim_end)%Q) ->
  loop fuel st = (st', c) -> requests_by sim_end (sm_tr st').
Proof.
  induction fuel as [|fuel IH]; intros st st' c R HM H; cbn [Sim.loop] in H.
  - injection H as <- <-. exact R.
  - destruct (Qltb (sm_mjd st) sim_end) eqn:EL; [|injection H as <- <-; exact R].
    assert (Hle : (ob_mjd B (sm_o st) <= sim_end)%Q).
    { destruct HM as [E|E]; [|exact E]. rewrite <- E. apply Qltb_lt in EL. now apply Qlt_le_weak. }
    destruct (iter_requests_by st R Hle) as [K1 K2]. destruct (iter st) as [st1 c1]. cbn [fst snd] in *.
    destruct c1; [eapply IH; eauto|injection H as <- <-; exact K1|injection H as <- <-; exact K1].
Qed.

Lemma sim_requests_by : forall s o f k start fuel st c,
  (match start with None => True | Some t => (t <= sim_end)%Q end) ->
  (match start with None => (ob_mjd B o <= sim_end)%Q | Some _ => True end) ->
  SetOK -> MountOK ->
  loop fuel (sim_init B s o f k start) = (st, c) -> requests_by sim_end (sm_tr st).
Proof.
  intros s o f k start fuel st c H1 H2 HS HM H. eapply loop_requests_by; [| |exact H].
  - intros t [E|[]]. discriminate.
  - right. cbn [sim_init sm_o]. unfold MountOK, SetOK in *. rewrite HM. destruct start; [rewrite HS; exact H1|exact H2].
Qed.

(** *** Fresh conditions *)
Lemma iter_fresh : every_obs = true -> forall st, fresh_requests (sm_tr st) -> fresh_requests (sm_tr (fst (iter st))).
Proof.
  intros He st I. unfold Sim.iter.
  pose proof (pre_update_trace (sm_s st) (sm_o st)) as PT.
  destruct (pre_update_fresh (sm_s st) (sm_o st) He) as [t0 Ht0].
  destruct (pre_update (sm_s st) (sm_o st)) as [s1 t1]. cbn [snd] in PT, Ht0. subst t1.
  destruct (upd_quiet _ _ PT) as (_ & _ & U3 & _).
  set (now := ob_mjd B (sm_o st)) in *.
  assert (I1 : fresh_requests (sm_tr st ++ (t0 ++ [EvUpdate now]) ++ [EvRequest now])).
  { rewrite app_assoc. rewrite (app_assoc (sm_tr st)). apply fr_req. rewrite <- app_assoc. now apply fr_quiet. }
  set (tr0 := sm_tr st ++ (t0 ++ [EvUpdate now]) ++ [EvRequest now]) in *.
  assert (QS : forall l, Forall (fun e => forall y, e <> EvRequest y) l -> fresh_requests (tr0 ++ l)).
  { intros l Hl. now apply fr_quiet. }
  assert (PS : forall a nn, fresh_requests (sm_tr a) -> fresh_requests (sm_tr (fst (post a nn)))).
  { intros a nn Ha. destruct (post a nn) as [st' c'] eqn:EP. cbn [fst].
    destruct (post_same _ _ _ _ EP) as (_ & _ & _ & _ & _ & _ & (t & E7 & E8) & _).
    rewrite E7. apply fr_quiet; [exact Ha|]. now destruct (mounts_quiet _ E8) as (_ & _ & K & _). }
  destruct (sc_request B s1 now) as [s2 [[d|]|e]].
  - destruct (ob_observe B (sm_o st) d) as [o1 [[c|] nn]].
    + destruct (set_nth (sm_arr st) (sm_n st) c) as [arr|].
      * apply PS. cbn [sm_tr]. rewrite <- app_assoc. apply QS. repeat constructor; discriminate.
      * cbn [fst sm_tr]. rewrite <- app_assoc. apply QS. repeat constructor; discriminate.
    + destruct (Qeq_bool (ob_mjd B o1) (sm_last st)).
      * cbn [fst sm_tr]. rewrite <- app_assoc. apply QS. repeat constructor; discriminate.
      * apply PS. cbn [sm_tr]. rewrite <- !app_assoc. apply QS. repeat constructor; discriminate.
  - destruct (Qltb sim_end _); cbn [fst sm_tr]; apply QS; repeat constructor; discriminate.
  - cbn [fst sm_tr]. exact I1.
Qed.

Lemma loop_fresh : every_obs = true -> forall fuel st st' c, fresh_requests (sm_tr st) ->
  loop fuel st = (st', c) -> fresh_requests (sm_tr st').
Proof.
  intros He. induction fuel as [|fuel IH]; intros st st' c R H; cbn [Sim.loop] in H.
  - injection H as <- <-. exact R.
  - destruct (Qltb (sm_mjd st) sim_end); [|injection H as <- <-; exact R].
    pose proof (iter_fresh He st R) as K. destruct (iter st) as [st1 c1]. cbn [fst] in K.
    destruct c1; [eapply IH; eauto|injection H as <- <-; exact K|injection H as <- <-; exact K].
Qed.

Lemma sim_fresh : every_obs = true -> forall s o f k start fuel st c,
  loop fuel (sim_init B s o f k start) = (st, c) -> fresh_requests (sm_tr st).
Proof.
  intros He s o f k start fuel st c H. eapply loop_fresh; [exact He| |exact H].
  intros [|e p] t q E; [discriminate|]. destruct p; discriminate.
Qed.

End Facts.
