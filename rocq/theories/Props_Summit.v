(** C43: the look-ahead wrapper of the summit. *)
From Coq Require Import List ZArith QArith Bool String Lia Sorted.
From Verif Require Import Base IntRounded Obs Queue Core Core_proofs Summit Summit_proofs.
Import ListNotations.
Open Scope nat_scope.

(** [quiet B E] (Summit_proofs.v): [E] is an equivalence on survey states that
    rewards, generated visits, updates and detailers stay within, and that reports
    respect; what [E] ignores stands for caches.
    [lasting B]: visits carry no expiry time, the queue manager has no mask, and its
    detailers return the visit they are given with its id and expiry. *)

(** After any sequence of updates, requests, reports and flushes the ahead scheduler
    agrees with the core scheduler given the pending visits: survey state (up to
    [E]), queue of visits still to do, alerts seen, conditions.  It does so whenever
    no replay is due, and none is due after a request with conditions. *)
Theorem C43_ahead_replay_partial :
  forall W X (B : behav W X) shape b2f too_flush fill (E : W -> W -> Prop),
  quiet B E -> lasting B -> (forall c o, o_tid (fill c o) = o_tid o) ->
  forall w ctr ops,
  let s := fst (wrun B shape b2f too_flush fill (sw_init (init w ctr)) ops) in
  let replayed (s : sw W X) := fold_left (add_obs B shape) (sw_obs s) (sw_core s) in
  let agrees (s : sw W X) :=
    E (c_w (sw_ahead s)) (c_w (replayed s)) /\
    map fst (filter snd (c_q (sw_ahead s))) = map fst (filter snd (c_q (replayed s))) /\
    c_seen (sw_ahead s) = c_seen (replayed s) /\ c_cond (sw_ahead s) = c_cond (replayed s) in
  (sw_need s = false -> agrees s) /\
  ((exists c, In (WUpdate c) ops) -> forall m, agrees (fst (wstep B shape b2f too_flush fill s (WRequest m)))).
Proof.
  intros W X B shape b2f tf fill E Q1 L1 F w ctr ops. cbv zeta.
  assert (J0 : J B shape tf E (sw_init (init w ctr))) by (apply J_init; assumption).
  pose proof (wrun_J B shape b2f tf fill E Q1 L1 F ops _ J0) as J1.
  set (s := fst (wrun B shape b2f tf fill (sw_init (init w ctr)) ops)) in *.
  assert (G : forall y, J B shape tf E y -> sw_need y = false ->
    E (c_w (sw_ahead y)) (c_w (fold_left (add_obs B shape) (sw_obs y) (sw_core y))) /\
    map fst (filter snd (c_q (sw_ahead y))) = map fst (filter snd (c_q (fold_left (add_obs B shape) (sw_obs y) (sw_core y)))) /\
    c_seen (sw_ahead y) = c_seen (fold_left (add_obs B shape) (sw_obs y) (sw_core y)) /\
    c_cond (sw_ahead y) = c_cond (fold_left (add_obs B shape) (sw_obs y) (sw_core y))).
  { intros y [a b ac d e f g h] N. destruct (h N) as (h1 & h2 & h3 & h4).
    destruct (fold_add_fields B shape (sw_obs y) (sw_core y)) as (F1 & F2 & _). split; [exact h1|]. split; [|split; congruence].
    fold (q_active (c_q (sw_ahead y))). rewrite h2. symmetry. apply fold_add_active. }
  split; [now apply G|]. intros U m. apply G; [now apply wstep_J|].
  assert (C : sw_cond s <> None) by (apply (wrun_cond B shape b2f tf fill E Q1 L1 F ops); [exact J0|now right]).
  cbn [wstep]. unfold sw_request. destruct (sw_cond s) as [c|] eqn:EC; [|congruence].
  pose proof (replay_sync B shape tf E Q1 s J1) as R. cbv zeta in R.
  destruct (sw_replay B shape tf s) as [s1 ok]. cbn [fst snd] in R. destruct R as (_ & N1 & _).
  destruct m; destruct (negb ok); cbn [fst]; try exact N1;
    destruct (request B shape b2f (sw_ahead s1) _ false) as [a [| |[|o l]|e]]; cbn [fst sw_need]; try exact N1;
    destruct (sw_cond s1); cbn; exact N1.
Qed.
Print Assumptions C43_ahead_replay_partial.

(** The ledger a user keeps: ids handed out so far, visits handed out and not yet
    reported; defined when visits are reported in the order they were handed out. *)
Fixpoint ledger {X} (ops : list (wop (X := X))) (outs : list out) (req : list Z) (pend : list obs) : option (list Z * list obs) :=
  match ops, outs with
  | [], [] => Some (req, pend)
  | WRequest _ :: r, OutObs [o] :: xs => ledger r xs (req ++ [o_tid o]) (pend ++ [o])
  | WRequest _ :: r, OutRaise _ :: xs => ledger r xs req pend
  | WUpdate _ :: r, _ :: xs => ledger r xs req pend
  | WReport o :: r, _ :: xs =>
      match pend with
      | p :: pend' => if Z.eqb (o_tid o) (o_tid p) then ledger r xs req pend' else None
      | [] => None
      end
  | _, _ => None
  end.

(** With reports in order and no flush by hand, the visits replayed are exactly those
    handed out and not reported, and no id is handed out twice. *)
Theorem C43_pending_partial :
  forall W X (B : behav W X) shape b2f too_flush fill (E : W -> W -> Prop),
  quiet B E -> lasting B -> (forall c o, o_tid (fill c o) = o_tid o) ->
  forall w ctr ops req pend,
  let '(s, outs) := wrun B shape b2f too_flush fill (sw_init (init w ctr)) ops in
  ledger ops outs [] [] = Some (req, pend) ->
  Forall2 (fun f o => exists c, f = fill c o) (sw_obs s) pend /\ StronglySorted Z.lt req /\ NoDup req.
Proof.
  intros W X B shape b2f tf fill E Q1 L1 F w ctr ops req pend.
  assert (G : forall ops s r0 p0, J B shape tf E s -> K fill s r0 p0 ->
    let '(s', outs) := wrun B shape b2f tf fill s ops in
    forall req pend, ledger ops outs r0 p0 = Some (req, pend) -> K fill s' req pend).
  { clear ops req pend. induction ops as [|o ops IH]; intros s r0 p0 HJ HK; cbn [wrun].
    - intros req pend H. cbn in H. injection H as <- <-. exact HK.
    - pose proof (wstep_J B shape b2f tf fill E Q1 L1 F s o HJ) as J1.
      destruct o as [c|m|ob|]; cbn [wstep] in *.
      + pose proof (K_update B shape tf fill E Q1 s r0 p0 c HJ HK) as K1. cbn [fst] in *.
        specialize (IH _ r0 p0 J1 K1). destruct (wrun B shape b2f tf fill (sw_update B shape tf s c) ops) as [s2 xs]. exact IH.
      + pose proof (K_request B shape b2f tf fill E Q1 L1 F s r0 p0 m HJ HK) as K1. cbv zeta in K1.
        destruct (sw_request B shape b2f tf fill s m) as [s1 x]. cbn [fst snd] in *.
        destruct x as [| |[|o [|? ?]]|e]; try contradiction.
        * specialize (IH s1 _ _ J1 K1). destruct (wrun B shape b2f tf fill s1 ops) as [s2 xs]. exact IH.
        * specialize (IH s1 _ _ J1 K1). destruct (wrun B shape b2f tf fill s1 ops) as [s2 xs]. exact IH.
      + cbn [fst] in J1. destruct p0 as [|p p0].
        * destruct (wrun B shape b2f tf fill (sw_add B shape s ob) ops) as [s2 xs]. cbn. discriminate.
        * destruct (Z.eqb_spec (o_tid ob) (o_tid p)) as [T|T].
          -- pose proof (K_report B shape tf fill E F s r0 p p0 ob HJ HK T) as K1.
             specialize (IH _ _ _ J1 K1). destruct (wrun B shape b2f tf fill (sw_add B shape s ob) ops) as [s2 xs].
             intros req pend H. cbn [ledger] in H. rewrite T, Z.eqb_refl in H. now apply IH.
          -- apply Z.eqb_neq in T. destruct (wrun B shape b2f tf fill (sw_add B shape s ob) ops) as [s2 xs]. cbn [ledger]. rewrite T. discriminate.
      + destruct (wrun B shape b2f tf fill (sw_flush s) ops) as [s2 xs]. cbn. discriminate. }
  specialize (G ops (sw_init (init w ctr)) [] [] (J_init B shape tf E Q1 w ctr) (K_init fill w ctr)).
  destruct (wrun B shape b2f tf fill (sw_init (init w ctr)) ops) as [s outs]. intros H. destruct (G _ _ H) as [k1 _ k3].
  apply sorted_app_inv in k3. destruct k3 as (k3 & _). split; [exact k1|]. split; [exact k3|].
  clear - k3. induction k3 as [|x l S IH Fx]; constructor; [|exact IH]. intros I. rewrite Forall_forall in Fx. specialize (Fx x I). lia.
Qed.
Print Assumptions C43_pending_partial.

(** When every survey can always be asked ([productive]: no empty tier, no filter
    names to look up, a usable reward and at least one visit from every survey), a
    request after an update always returns one visit. *)
Theorem C43_request_returns_partial :
  forall W X (B : behav W X) shape b2f too_flush fill (E : W -> W -> Prop),
  quiet B E -> lasting B -> (forall c o, o_tid (fill c o) = o_tid o) -> productive B shape b2f ->
  forall w ctr ops m, (exists c, In (WUpdate c) ops) ->
  exists o, snd (wstep B shape b2f too_flush fill
    (fst (wrun B shape b2f too_flush fill (sw_init (init w ctr)) ops)) (WRequest m)) = OutObs [o].
Proof.
  intros W X B shape b2f tf fill E Q1 L1 F P w ctr ops m U. cbn [wstep].
  pose proof (J_init B shape tf E Q1 w ctr) as J0.
  apply (sw_request_ok B shape b2f tf fill E Q1 L1 P); [now apply wrun_J|].
  eapply wrun_cond; eauto.
Qed.
Print Assumptions C43_request_returns_partial.

(** ** Examples: a survey returning three visits, whose state is the list of reported
    ids and a count of its calls (a cache). *)
Definition vis (ra fl : Q) : obs := mkObs 0 (-1) 0 0 fl ra 0 0 30 1 "r"%string ""%string ""%string.
Definition demoB (rew : er) (fl : Q -> Q) : behav (list Z * nat) unit :=
  mkBehav (list Z * nat) unit
    (fun w _ _ _ => ((fst w, S (snd w)), [rew]))
    (fun w _ _ c => (w, GArr [vis (cd_mjd c) (fl (cd_mjd c)); vis (cd_mjd c) (fl (cd_mjd c)); vis (cd_mjd c) (fl (cd_mjd c))]))
    (fun w _ _ o _ => ((fst w ++ [o_tid o])%list, snd w)) (fun w _ _ _ _ => w) (fun w _ _ _ => (fst w, S (snd w)))
    (fun _ _ _ => None) (fun _ _ _ => true) (fun w l _ => (w, l)) (fun w _ => w) (fun w _ _ => w)
    (fun _ => []) (fun _ => []).
Definition fillD (c : cond unit) (o : obs) : obs :=
  mkObs (o_id o) (o_tid o) (cd_mjd c) (o_night o) (o_flush o) (o_ra o) (o_dec o) (o_rsp o)
        (o_exptime o) (o_nexp o) (o_band o) (o_filter o) (o_note o).
Definition condD (m : Q) : cond unit := mkCond m [] [] tt.
Definition runD (rew : er) (fl : Q -> Q) := wrun (demoB rew fl) [1] [] true fillD (sw_init (init ([], 0) 5)).
Definition never (_ : Q) : Q := 0%Q.

Lemma demo_quiet : forall rew fl, quiet (demoB rew fl) (fun a b => fst a = fst b).
Proof. intros. constructor; cbn; intros; try reflexivity; try congruence. Qed.
Lemma demo_lasting : forall rew, lasting (demoB rew never).
Proof.
  intros. constructor; cbn; intros; try reflexivity.
  - injection H as <-. repeat constructor.
  - exists o. auto.
Qed.
Lemma demo_productive : productive (demoB (EFin 1) never) [1] [].
Proof.
  constructor; cbn; intros; try reflexivity; try discriminate.
  - repeat constructor. discriminate.
  - eauto.
  - exists (EFin 1). cbn. auto.
Qed.
Definition rep (t : Z) : obs := set_tid t (vis 0 0).
Definition demo_ops : list wop :=
  [WUpdate (condD 60000); WRequest None; WRequest None; WReport (rep 5); WRequest None; WRequest None; WReport (rep 6)].
Example C43_ex : let r := runD (EFin 1) never demo_ops in
  map o_tid (sw_obs (fst r)) = [7; 8]%Z /\ fst (c_w (sw_core (fst r))) = [5; 6]%Z /\
  exists p, ledger demo_ops (snd r) [] [] = Some ([5; 6; 7; 8]%Z, p) /\ List.length p = 2.
Proof. split; [reflexivity|]. split; [reflexivity|]. eexists. split; [vm_compute; reflexivity|reflexivity]. Qed.
Example C43_ahead_ex : let s := fst (wstep (demoB (EFin 1) never) [1] [] true fillD (fst (runD (EFin 1) never demo_ops)) (WRequest None)) in
  fst (c_w (sw_core s)) = [5; 6]%Z /\ fst (c_w (sw_ahead s)) = [5; 6; 7; 8; 9]%Z /\
  map o_tid (q_active (c_q (sw_ahead s))) = [10]%Z /\ map o_tid (q_active (c_q (sw_core s))) = [7; 8; 8; 9; 10]%Z.
Proof. vm_compute. auto. Qed.

(** ** What fails *)

(** When nothing can be observed the core scheduler answers None; the wrapper raises. *)
Theorem C43_request_none_refuted : exists B : behav (list Z * nat) unit,
  quiet B (fun a b => fst a = fst b) /\ lasting B /\
  let '(s, outs) := wrun B [1] [] true fillD (sw_init (init ([], 0) 5)) [WUpdate (condD 60000); WRequest None] in
  outs = [OutUnit; OutRaise AttributeError] /\
  snd (request B [1] [] (sw_core s) None false) = OutNone.
Proof.
  exists (demoB ENInf never). split; [apply demo_quiet|]. split; [apply demo_lasting|]. vm_compute. auto.
Qed.
Print Assumptions C43_request_none_refuted.

(** Reporting the second visit before the first drops the first from the pending
    ones, and it is handed out again. *)
Theorem C43_out_of_order_refuted : exists B : behav (list Z * nat) unit,
  quiet B (fun a b => fst a = fst b) /\ lasting B /\
  exists a b, o_tid a = o_tid b /\
  let '(s, outs) := wrun B [1] [] true fillD (sw_init (init ([], 0) 5))
     [WUpdate (condD 60000); WRequest None; WRequest None; WReport (rep 6); WRequest None] in
  nth_error outs 1 = Some (OutObs [a]) /\ nth_error outs 4 = Some (OutObs [b]).
Proof.
  exists (demoB (EFin 1) never). split; [apply demo_quiet|]. split; [apply demo_lasting|].
  eexists. eexists. split; [|vm_compute; split; reflexivity]. reflexivity.
Qed.
Print Assumptions C43_out_of_order_refuted.

(** After a flush the ids of visits handed out but not reported are given to new
    visits at other positions. *)
Theorem C43_flush_refuted : exists B : behav (list Z * nat) unit,
  quiet B (fun a b => fst a = fst b) /\ lasting B /\
  exists a b, o_tid a = o_tid b /\ ~ (o_ra a == o_ra b)%Q /\
  let '(s, outs) := wrun B [1] [] true fillD (sw_init (init ([], 0) 5))
     [WUpdate (condD 60000); WRequest None; WFlush; WUpdate (condD 60001); WRequest None] in
  nth_error outs 1 = Some (OutObs [a]) /\ nth_error outs 4 = Some (OutObs [b]).
Proof.
  exists (demoB (EFin 1) never). split; [apply demo_quiet|]. split; [apply demo_lasting|].
  eexists. eexists. split; [|split; [|vm_compute; split; reflexivity]]; [reflexivity|]. vm_compute. discriminate.
Qed.
Print Assumptions C43_flush_refuted.

(** When the rest of the queue expires, the ahead scheduler refills without telling
    the core scheduler: the two no longer agree. *)
Theorem C43_expired_refuted : exists B : behav (list Z * nat) unit,
  quiet B (fun a b => fst a = fst b) /\
  let s := fst (wrun B [1] [] true fillD (sw_init (init ([], 0) 5))
     [WUpdate (condD 60000); WRequest None; WUpdate (condD 60005); WRequest None]) in
  sw_need s = false /\
  map o_tid (q_active (c_q (sw_ahead s))) = [9; 10]%Z /\
  map o_tid (q_active (c_q (fold_left (add_obs B [1]) (sw_obs s) (sw_core s)))) = [6; 7]%Z.
Proof.
  exists (demoB (EFin 1) (fun m => m + 1)%Q). split; [apply demo_quiet|]. vm_compute. auto.
Qed.
Print Assumptions C43_expired_refuted.
