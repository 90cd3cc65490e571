(** Recording wrappers for the simulation loop: the scheduler, the observatory and
    the band scheduler write down the calls they receive.  Used to state
    properties about calls really made, independent of the trace kept by the
    loop model. *)
From Coq Require Import List ZArith QArith Bool String Lia.
From Verif Require Import Base Obs Sim Sim_proofs.
Import ListNotations.
Open Scope nat_scope.

Inductive scall : Type := SUpdate (t : Q) | SRequest (t : Q) | SAdd (o : obs) | SFlush.
Inductive ocall : Type := OObserve (d : obs) | ODone (r : option obs) | OMount (l : list string).

Section Rec.
Context {S O F C : Type}.
Variable B : simB S O F C.
Variable tc : C -> Q.                     (* conditions.mjd *)

Definition recSim : simB (S * list scall) (O * list ocall) (F * list obs) C :=
  mkSimB _ _ _ _
    (fun o => ob_mjd B (fst o))
    (fun o t => (ob_set B (fst o) t, snd o))
    (fun o => ob_cond B (fst o))
    (fun o d => let '(o1, (c, nn)) := ob_observe B (fst o) d in
                ((o1, snd o ++ [OObserve d; ODone c]), (c, nn)))
    (fun o l => (ob_mount B (fst o) l, snd o ++ [OMount l]))
    (fun s => sc_has B (fst s))
    (fun s t => sc_check B (fst s) t)
    (fun s c => (sc_update B (fst s) c, snd s ++ [SUpdate (tc c)]))
    (fun s t => let '(s1, r) := sc_request B (fst s) t in ((s1, snd s ++ [SRequest t]), r))
    (fun s o => (sc_add B (fst s) o, snd s ++ [SAdd o]))
    (fun s => (sc_flush B (fst s), snd s ++ [SFlush]))
    (fun f c => bs_call B (fst f) c)
    (fun f o => (bs_add B (fst f) o, snd f ++ [o]))
    (overhead B).

Definition s_view (tr : list ev) : list scall :=
  flat_map (fun e => match e with
    | EvUpdate t => [SUpdate t] | EvRequest t => [SRequest t] | EvAdd o => [SAdd o] | EvFlush => [SFlush]
    | _ => [] end) tr.
Definition o_view (tr : list ev) : list ocall :=
  flat_map (fun e => match e with
    | EvObserve d _ => [OObserve d] | EvDone o => [ODone (Some o)] | EvFail => [ODone None]
    | EvMount l => [OMount l] | _ => [] end) tr.

Lemma s_view_app : forall a b, s_view (a ++ b) = s_view a ++ s_view b.
Proof. intros. apply flat_map_app. Qed.
Lemma o_view_app : forall a b, o_view (a ++ b) = o_view a ++ o_view b.
Proof. intros. apply flat_map_app. Qed.

Variable sim_end step_none : Q.
Variable limit : option Z.
Variable append_size : nat.
Variable every_obs : bool.
Hypothesis HT : forall o, tc (ob_cond B o) = ob_mjd B o.

Notation pre_update := (pre_update recSim every_obs).
Notation iter := (iter recSim sim_end step_none limit append_size every_obs).
Notation loop := (loop recSim sim_end step_none limit append_size every_obs).

Definition LI (st : sim (S * list scall) (O * list ocall) (F * list obs)) : Prop :=
  snd (sm_s st) = s_view (sm_tr st) /\ snd (sm_o st) = o_view (sm_tr st) /\ snd (sm_f st) = adds (sm_tr st).

Lemma adds_app' : forall a b, adds (a ++ b) = adds a ++ adds b.
Proof. intros. apply flat_map_app. Qed.

Lemma pre_rec : forall s o s1 t1, pre_update s o = (s1, t1) ->
  snd s1 = snd s ++ s_view t1 /\ o_view t1 = [] /\ adds t1 = [].
Proof.
  intros s o s1 t1 H. unfold Sim.pre_update in H. cbn in H.
  destruct (sc_has B (fst s)); cbn in H;
  match type of H with context [sc_check B ?a ?b] => destruct (sc_check B a b) end; cbn in H;
  destruct every_obs; cbn in H; injection H as <- <-; cbn; rewrite ?HT, ?app_nil_r, <- ?app_assoc; auto.
Qed.

Lemma post_rec : forall st nn st' c, LI st -> post recSim limit st nn = (st', c) -> LI st'.
Proof.
  intros st nn st' c (A1 & A2 & A3) H. unfold post in H.
  assert (E : LI (mkSim (sm_s st) (if nn then ob_mount recSim (sm_o st) (bs_call recSim (sm_f st) (ob_cond recSim (sm_o st))) else sm_o st)
                    (sm_f st) (ob_mjd recSim (if nn then ob_mount recSim (sm_o st) (bs_call recSim (sm_f st) (ob_cond recSim (sm_o st))) else sm_o st))
                    (sm_arr st) (sm_n st) (sm_skip st) (sm_last st)
                    (sm_tr st ++ if nn then [EvMount (bs_call recSim (sm_f st) (ob_cond recSim (sm_o st)))] else []))).
  { unfold LI. cbn [sm_s sm_o sm_f sm_tr]. rewrite s_view_app, o_view_app, adds_app', A1, A3.
    destruct nn; cbn; rewrite ?app_nil_r, ?A2; auto. }
  destruct nn; cbn [fst snd] in H, E; destruct limit as [z|]; try destruct (Z.eqb _ _); injection H as <- <-; exact E.
Qed.

Lemma iter_rec : forall st st' c, LI st -> iter st = (st', c) -> (forall e, c <> CRaise e) -> LI st'.
Proof.
  intros st st' c I H Hc. destruct I as (A1 & A2 & A3). unfold Sim.iter in H.
  destruct (pre_update (sm_s st) (sm_o st)) as [s1 t1] eqn:EP. destruct (pre_rec _ _ _ _ EP) as (P1 & P2 & P3).
  cbn [recSim sc_request ob_mjd] in H.
  destruct (sc_request B (fst s1) (ob_mjd B (fst (sm_o st)))) as [s2 [[d|]|e]].
  - cbn [recSim ob_observe] in H.
    destruct (ob_observe B (fst (sm_o st)) d) as [o1 [[x|] nn]].
    + destruct (set_nth (sm_arr st) (sm_n st) x) as [arr|].
      2:{ injection H as <- <-. now destruct (Hc IndexError). }
      eapply post_rec; [|exact H]. unfold LI. cbn [sm_s sm_o sm_f sm_tr recSim sc_add bs_add fst snd].
      rewrite !s_view_app, !o_view_app, !adds_app', P2, P3, A1 in *. rewrite P1, A3. cbn.
      split; [rewrite ?app_nil_r, <- ?app_assoc; reflexivity|]. split; [|rewrite ?app_nil_r; reflexivity].
      destruct (overhead B); cbn; rewrite A2, ?app_nil_r, <- ?app_assoc; reflexivity.
    + match type of H with context [Qeq_bool ?a ?b] => destruct (Qeq_bool a b) end;
        [injection H as <- <-; now destruct (Hc RuntimeError)|].
      eapply post_rec; [|exact H]. unfold LI. cbn [sm_s sm_o sm_f sm_tr recSim sc_flush fst snd].
      rewrite !s_view_app, !o_view_app, !adds_app', P2, P3, A1 in *. rewrite P1, A3. cbn.
      split; [rewrite ?app_nil_r, <- ?app_assoc; reflexivity|]. split; [|rewrite ?app_nil_r; reflexivity].
      rewrite A2, ?app_nil_r, <- ?app_assoc; reflexivity.
  - match type of H with (if ?b then (?x, _) else _) = _ => assert (E : st' = x) by (destruct b; congruence) end.
    subst st'. unfold LI. cbn [sm_s sm_o sm_f sm_tr recSim sc_update ob_set ob_cond ob_mjd fst snd].
    rewrite !s_view_app, !o_view_app, !adds_app', P2, P3, A1 in *. rewrite P1, A2, A3, HT. cbn.
    rewrite ?app_nil_r, <- ?app_assoc. auto.
  - injection H as <- <-. now destruct (Hc e).
Qed.

Lemma loop_rec : forall fuel st st', LI st -> loop fuel st = (st', CBreak) -> LI st'.
Proof.
  induction fuel as [|fuel IH]; intros st st' I H; cbn [Sim.loop] in H; [discriminate|].
  destruct (Qltb (sm_mjd st) sim_end); [|injection H as <-; exact I].
  destruct (iter st) as [st1 [| |e]] eqn:EI; [|injection H as <-|discriminate].
  - eapply IH; [|exact H]. eapply iter_rec; eauto. discriminate.
  - eapply iter_rec; eauto. discriminate.
Qed.

(** Completed visits according to the observatory, reports according to the
    scheduler. *)
Definition done_log (l : list ocall) : list obs :=
  flat_map (fun e => match e with ODone (Some o) => [o] | _ => [] end) l.
Definition add_log (l : list scall) : list obs :=
  flat_map (fun e => match e with SAdd o => [o] | _ => [] end) l.
Definition mounts (l : list ocall) : list (list string) :=
  flat_map (fun e => match e with OMount o => [o] | _ => [] end) l.

Lemma view_dones : forall tr, done_log (o_view tr) = dones tr.
Proof. unfold done_log, o_view, dones. induction tr as [|e r IH]; [reflexivity|]. destruct e; cbn; rewrite ?IH; reflexivity. Qed.
Lemma view_adds : forall tr, add_log (s_view tr) = adds tr.
Proof. unfold add_log, s_view, adds. induction tr as [|e r IH]; [reflexivity|]. destruct e; cbn; rewrite ?IH; reflexivity. Qed.

Lemma s_view_split : forall tr p t q, s_view tr = p ++ SRequest t :: q ->
  exists p' q', tr = p' ++ EvRequest t :: q' /\ s_view p' = p.
Proof.
  induction tr as [|e r IH]; intros p t q H; [destruct p; discriminate|].
  assert (G : forall p0, s_view r = p0 ++ SRequest t :: q -> s_view [e] ++ p0 = p ->
     exists p' q', e :: r = p' ++ EvRequest t :: q' /\ s_view p' = p).
  { intros p0 H0 E. destruct (IH _ _ _ H0) as (p' & q' & -> & <-). exists (e :: p'), q'. split; [reflexivity|].
    rewrite <- E. change (e :: p') with ([e] ++ p'). now rewrite s_view_app. }
  destruct e; cbn in H;
    try (apply (G p); [exact H|reflexivity]);
    (destruct p as [|x p]; [try discriminate|cbn in H; injection H as <- H; apply (G p); [exact H|reflexivity]]).
  cbn in H. injection H as <- H. exists [], r. split; reflexivity.
Qed.

Lemma sim_calls : forall s o f n start fuel st,
  loop fuel (sim_init recSim (s, []) (o, []) (f, []) n start) = (st, CBreak) ->
  result st = done_log (snd (sm_o st)) /\
  add_log (snd (sm_s st)) = done_log (snd (sm_o st)) /\
  snd (sm_f st) = done_log (snd (sm_o st)).
Proof.
  intros s o f n start fuel st H.
  assert (I : LI (sim_init recSim (s, []) (o, []) (f, []) n start)).
  { unfold LI, sim_init. cbn. destruct start; cbn; auto. }
  destruct (loop_rec _ _ _ I H) as (A1 & A2 & A3).
  destruct (sim_bookkeeping recSim sim_end step_none limit append_size every_obs _ _ _ _ _ _ _ H) as (B1 & B2 & _).
  rewrite A1, A2, A3, view_dones, view_adds, B2. auto.
Qed.

(** At the moment of any request, the visits reported to the scheduler are a
    prefix of what it will have been given: exactly those completed before. *)
Lemma sim_calls_order : forall s o f n start fuel st,
  loop fuel (sim_init recSim (s, []) (o, []) (f, []) n start) = (st, CBreak) ->
  snd (sm_s st) = s_view (sm_tr st) /\ snd (sm_o st) = o_view (sm_tr st) /\
  (forall p t q, snd (sm_s st) = p ++ SRequest t :: q -> exists tp tq,
     sm_tr st = tp ++ EvRequest t :: tq /\ add_log p = done_log (o_view tp)).
Proof.
  intros s o f n start fuel st H.
  assert (I : LI (sim_init recSim (s, []) (o, []) (f, []) n start)).
  { unfold LI, sim_init. cbn. destruct start; cbn; auto. }
  destruct (loop_rec _ _ _ I H) as (A1 & A2 & A3).
  destruct (sim_bookkeeping recSim sim_end step_none limit append_size every_obs _ _ _ _ _ _ _ H) as (_ & _ & B3 & _).
  split; [exact A1|]. split; [exact A2|]. intros p t q E. rewrite A1 in E.
  destruct (s_view_split _ _ _ _ E) as (tp & tq & E1 & E2). exists tp, tq. split; [exact E1|].
  rewrite <- E2, view_adds, view_dones. eapply B3; eauto.
Qed.
End Rec.
