(** The simulation loop driving the modelled core scheduler.
    /repo/rubin_scheduler/scheduler/sim_runner.py with schedulers/core_scheduler.py. *)
From Coq Require Import List ZArith QArith Bool String Lia.
From Verif Require Import Base IntRounded Obs Queue Core Core_proofs Core_proofs2 Sim Sim_proofs.
Import ListNotations.
Open Scope nat_scope.

Section SC.
Context {W X O F : Type}.
Variable B : behav W X.
Variable shape : list nat.
Variable b2f : list (string * string).
Variable tf : bool.
Variable mjd_of : O -> Q.
Variable set_mjd : O -> Q -> O.
Variable cond_of : O -> cond X.
Variable observe : O -> obs -> O * (option obs * bool).
Variable mount : O -> list string -> O.
Variable call : F -> cond X -> list string.
Variable addf : F -> obs -> F.
Variable ovh : option (obs -> Q).

(** core_scheduler._check_queue_mjd_only lines 304-314: the time passed in, but
    the conditions of the last update. *)
Definition core_check (s : core W X) (t : Q) : bool :=
  match c_cond s with
  | None => false
  | Some c => q_check_mjd t (qm_ok B (c_w s) c) (c_q s)
  end.
(** request_observation(mjd=t) as called at sim_runner.py line 169; the array
    returned by default has one row. *)
Definition core_request (s : core W X) (t : Q) : core W X * res (option obs) :=
  match request B shape b2f s (Some t) false with
  | (s', OutObs (o :: _)) => (s', Ok (Some o))
  | (s', OutObs []) | (s', OutNone) | (s', OutUnit) => (s', Ok None)
  | (s', OutRaise e) => (s', Raise e)
  end.
Definition coreSim : simB (core W X) O F (cond X) :=
  mkSimB _ _ _ _ mjd_of set_mjd cond_of observe mount
    (fun s => match c_cond s with None => false | Some _ => true end)
    core_check (update_conditions B shape tf) core_request (add_obs B shape) (@flush_queue W X)
    call addf ovh.
End SC.

(** ** Executed pointings come from requests *)
Section Gen.
Context {S O F C : Type}.
Variable B : simB S O F C.
Variable sim_end step_none : Q.
Variable limit : option Z.
Variable append_size : nat.
Variable every_obs : bool.
Variable P : obs -> Q -> Prop.
Notation pre_update := (pre_update B every_obs).
Notation iter := (iter B sim_end step_none limit append_size every_obs).
Notation loop := (loop B sim_end step_none limit append_size every_obs).
Hypothesis HP : forall s o s1 t1 s2 d, pre_update s o = (s1, t1) ->
  sc_request B s1 (ob_mjd B o) = (s2, Ok (Some d)) -> P d (ob_mjd B o).

Definition AllObs (tr : list ev) : Prop := forall d t, In (EvObserve d t) tr -> P d t.

Lemma pre_no_observe : forall s o s1 t1, pre_update s o = (s1, t1) -> forall d t, ~ In (EvObserve d t) t1.
Proof.
  intros s o s1 t1 H d t Hin. unfold Sim.pre_update in H.
  destruct (sc_has B s); destruct (sc_check B _ _); destruct every_obs; cbn in H; injection H as <- <-; cbn in Hin;
    repeat (destruct Hin as [Hin|Hin]; [discriminate|]); contradiction.
Qed.

Lemma iter_all : forall st, AllObs (sm_tr st) -> AllObs (sm_tr (fst (iter st))).
Proof.
  intros st I. unfold Sim.iter. destruct (pre_update (sm_s st) (sm_o st)) as [s1 t1] eqn:EP.
  pose proof (pre_no_observe _ _ _ _ EP) as N.
  destruct (sc_request B s1 (ob_mjd B (sm_o st))) as [s2 r] eqn:ER.
  assert (I1 : AllObs (sm_tr st ++ t1 ++ [EvRequest (ob_mjd B (sm_o st))])).
  { intros d t Hin. rewrite !in_app_iff in Hin. destruct Hin as [Hin|[Hin|[Hin|[]]]]; [now apply I|now apply N in Hin|discriminate]. }
  assert (A : forall a l, AllObs a -> (forall d t, In (EvObserve d t) l -> P d t) -> AllObs (a ++ l)).
  { intros a l Ha Hl d t Hin. apply in_app_iff in Hin. destruct Hin; auto. }
  assert (PostA : forall st0 nn, AllObs (sm_tr st0) -> AllObs (sm_tr (fst (post B limit st0 nn)))).
  { intros st0 nn H0. unfold post. destruct nn; destruct limit as [z|]; try destruct (Z.eqb _ _); cbn [fst sm_tr];
      apply A; auto; cbn; intros d t Hin; repeat (destruct Hin as [Hin|Hin]; [discriminate|]); contradiction. }
  destruct r as [[d|]|e].
  - pose proof (HP _ _ _ _ _ _ EP ER) as Hd.
    destruct (ob_observe B (sm_o st) d) as [o1 [[c|] nn]].
    + assert (I2 : AllObs (((sm_tr st ++ t1 ++ [EvRequest (ob_mjd B (sm_o st))]) ++ [EvObserve d (ob_mjd B (sm_o st))]) ++ [EvDone c; EvAdd c])).
      { apply A; [apply A; [exact I1|]|]; intros d' t' [E|Hin].
        - injection E as <- <-. exact Hd.
        - destruct Hin.
        - discriminate.
        - destruct Hin as [E|[]]; discriminate. }
      destruct (set_nth (sm_arr st) (sm_n st) c); [|exact I2]. apply PostA. exact I2.
    + assert (I2 : AllObs (((sm_tr st ++ t1 ++ [EvRequest (ob_mjd B (sm_o st))]) ++ [EvObserve d (ob_mjd B (sm_o st))]) ++ [EvFail])).
      { apply A; [apply A; [exact I1|]|]; intros d' t' [E|Hin].
        - injection E as <- <-. exact Hd.
        - destruct Hin.
        - discriminate.
        - destruct Hin. }
      destruct (Qeq_bool (ob_mjd B o1) (sm_last st)); [exact I2|]. apply PostA. cbn [sm_tr].
      apply A; [exact I2|]. intros d' t' [E|[]]. discriminate.
  - assert (I2 : AllObs ((sm_tr st ++ t1 ++ [EvRequest (ob_mjd B (sm_o st))]) ++
                 [EvNone; EvUpdate (ob_mjd B (ob_set B (sm_o st) (ob_mjd B (sm_o st) + step_none)%Q))])).
    { apply A; [exact I1|]. intros d t [E|[E|[]]]; discriminate. }
    destruct (Qltb sim_end _); exact I2.
  - exact I1.
Qed.

Lemma loop_all : forall fuel st st' c, AllObs (sm_tr st) -> loop fuel st = (st', c) -> AllObs (sm_tr st').
Proof.
  induction fuel as [|fuel IH]; intros st st' c I H; cbn [Sim.loop] in H.
  - injection H as <- <-. exact I.
  - destruct (Qltb (sm_mjd st) sim_end); [|injection H as <- <-; exact I].
    pose proof (iter_all st I) as K. destruct (iter st) as [st1 c1]. cbn [fst] in K.
    destruct c1; [exact (IH _ _ _ K H)|injection H as <- <-; exact K|injection H as <- <-; exact K].
Qed.

Lemma pre_update_fresh : every_obs = true -> forall s o s1 t1, pre_update s o = (s1, t1) ->
  exists s', s1 = sc_update B s' (ob_cond B o).
Proof.
  intros He s o s1 t1 H. unfold Sim.pre_update in H. rewrite He in H.
  destruct (sc_has B s); destruct (sc_check B _ _); cbn in H; injection H as <- <-; eexists; reflexivity.
Qed.
End Gen.

(** ** The core scheduler in the loop, conditions refreshed before every visit *)
Definition det_keeps_flush {W X} (B : behav W X) : Prop :=
  forall w l c o, In o (snd (qm_det B w l c)) -> exists o', In o' l /\ o_flush o = o_flush o'.

Lemma sim_core_fresh : forall W X O F (B : behav W X) shape b2f tf mjd_of set_mjd cond_of observe mount
    (call : F -> cond X -> list string) addf ovh sim_end step_none limit append_size s (o : O) f k start fuel st c,
  det_keeps_flush B -> (forall y, cd_mjd (cond_of y) = mjd_of y) ->
  let SB := coreSim B shape b2f tf mjd_of set_mjd cond_of observe mount call addf ovh in
  loop SB sim_end step_none limit append_size true fuel (sim_init SB s o f k start) = (st, c) ->
  forall d t, In (EvObserve d t) (sm_tr st) -> (o_flush d == 0)%Q \/ (t <= o_flush d + 1)%Q.
Proof.
  intros W X O F B shape b2f tf mjd_of set_mjd cond_of observe mount call addf ovh sim_end step_none limit
    append_size s o f k start fuel st c HK HC SB H.
  assert (G : AllObs (fun d t => (o_flush d == 0)%Q \/ (t <= o_flush d + 1)%Q) (sm_tr st)); [|exact G].
  eapply (loop_all SB sim_end step_none limit append_size true); [| |exact H].
  - intros s0 y s1 t1 s2 d HPre HReq.
    destruct (pre_update_fresh SB true eq_refl _ _ _ _ HPre) as (s' & ->).
    cbn in HReq. unfold core_request in HReq.
    destruct (request B shape b2f (update_conditions B shape tf s' (cond_of y)) (Some (mjd_of y)) false) as [s3 r] eqn:ER.
    destruct r as [| |[|o1 l]|e]; try discriminate. injection HReq as <- <-.
    assert (HS : exists c1, c_cond (update_conditions B shape tf s' (cond_of y)) = Some c1 /\
                            cd_mjd c1 = cd_mjd (cond_of y)) by (eexists; split; reflexivity).
    destruct HS as (c1 & Hc1 & Hm).
    destruct (request_live B shape b2f _ _ _ _ _ _ Hc1 ER) as (w & es & E1 & _ & E3).
    assert (Hin : In o1 (snd (qm_det B w es c1))) by (rewrite <- E1; now left).
    destruct (HK _ _ _ _ Hin) as (o' & Ho' & EF). destruct (E3 o' Ho') as [_ E]. rewrite Hm, HC in E.
    rewrite EF. exact E.
  - intros d t [E|[]]. discriminate.
Qed.
