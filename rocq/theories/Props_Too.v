(** Properties C33, C54: the target of opportunity scripted survey. *)
From Coq Require Import List ZArith QArith Qround Bool String Ascii Lia Permutation.
From Verif Require Import Base Obs Labels Script Script_proofs Props_Script Too Too_proofs.
Import ListNotations.
Open Scope nat_scope.

(** A configuration used by the examples: two epochs, bands g and z, then u. *)
Definition tdemo (update0 dither : bool) : tcfg :=
  mkTcfg (demo 9 false 0 [] true) ["GW"%string] [mkPlan (1 # 24) ["g"; "z"]%string 1 30; mkPlan 1 ["u"%string] 2 60] "ToO"
    (1 # 12) (1 # 24) 0 2 5 19 2 1 true dither update0 1000 (fun _ _ l => l)
    (fun a => match a_area a with 0 => [] | n => seq 0 n end) (fun a => Nat.eqb (a_area a) 0) (fun p => (inject_Z (Z.of_nat p), 1%Q))
    (fun n pix => map (fun p => (inject_Z (Z.of_nat (n + p)), 1%Q)) pix)
    (fun s => match s with "1" => Some 1 | "2" => Some 2 | "3" => Some 3 | "4" => Some 4 | "5" => Some 5 | "6" => Some 6 | "7" => Some 7 | "8" => Some 8 | _ => None end%string%Z).
Definition gw (id : string) (start : Q) (area : nat) : alert := mkAlert id (Some "GW_case_A"%string) start (1%Q, 1%Q) area.

(** ** C33 *)
(** Over any sequence of condition updates, reports and generate calls, no
    alert id is scripted twice. *)
Theorem C33_scripted_at_most_once :
  forall K id ops st log, trun K (too_init id) ops = Some (st, log) ->
  NoDup (map (fun e => a_id (snd (fst e))) log).
Proof. intros K id ops st log H. apply run_grows in H. destruct H as (N & _). exact N. Qed.
Print Assumptions C33_scripted_at_most_once.

(** An alert that is not scripted only drops completed and expired rows; one
    that is scripted adds its rows behind the ones kept. *)
Theorem C33_alert_effect :
  forall K st c a st' o, new_event K st c a = (st', Ok o) ->
  let kept := filter (fun s => negb (s_done s) && Qltb (c_mjd c) (s_flush s)) (st_wanted (u_s st)) in
  match o with
  | None => map s_note (st_wanted (u_s st')) = map s_note kept
  | Some rows => exists new, List.length new = List.length rows /\
      map s_note (st_wanted (u_s st')) = map s_note kept ++ map s_note new /\
      map s_mjd new = map s_mjd rows /\ map s_flush new = map s_flush rows /\ map s_done new = map s_done rows
  end.
Proof.
  intros K st c a st' o H kept. apply new_event_ok in H. destruct H as (_ & _ & _ & _ & _ & O).
  assert (BN : forall l, map s_note (map sbackfill l) = map s_note l) by (intros l; rewrite map_map; apply map_ext, sbackfill_note).
  destruct o as [rows|].
  - destruct O as (_ & _ & _ & _ & (s1 & i & W1 & W2) & _). exists (index_notes i (map sbackfill rows)). rewrite W2, W1, map_app, BN.
    assert (F : forall (A : Type) (f : sobs -> A) , (forall n s, f (set_note n s) = f s) -> (forall s, f (sbackfill s) = f s) ->
        forall l i, map f (index_notes i (map sbackfill l)) = map f l).
    { intros A f F1 F2. induction l as [|x l IH]; intros j; cbn; [reflexivity|]. now rewrite IH, F1, F2. }
    split; [|split; [reflexivity|]].
    + rewrite <- (map_length s_mjd), F, map_length; [reflexivity|reflexivity|]. intros s. unfold sbackfill. destruct (String.eqb _ _); reflexivity.
    + repeat split; apply F; try reflexivity; intros s; unfold sbackfill; destruct (String.eqb _ _); reflexivity.
  - destruct O as [O _]. rewrite O. apply BN.
Qed.
Print Assumptions C33_alert_effect.

(** The rows of a scripted alert, in order: for each entry of the plan as many
    visits as asked for, for each visit each band, for each band each pointing.
    [vis] lists the visits with their pointings.  Times count from the start of
    the alert, or from now if update_mjd0 is set. *)
Theorem C33_rows_follow_plan :
  forall K id ops st log c a rows,
  (forall c a l, t_gen K c a l = l) ->
  trun K (too_init id) ops = Some (st, log) -> In (c, a, rows) log ->
  exists mjd0 vis,
    (if t_update0 K then mjd0 = c_mjd c /\ (a_start a < c_mjd c)%Q else mjd0 = a_start a) /\
    map fst vis = visit_entries (t_plan K) /\
    Forall2 (fun k s => row_for K a mjd0 (fst (fst k)) (snd (fst k)) (snd k) s) (keys vis) rows /\
    (t_dither K = false -> exists pts, Forall (fun v => snd v = pts) vis /\
       List.length rows = list_sum (map (fun p => v_n p * (List.length (v_bands p) * List.length pts)) (t_plan K))).
Proof.
  intros K id ops st log c a rows G R I. destruct (log_plan K _ _ _ _ R _ I) as (_ & _ & _ & pts & mjd0 & sp & sp' & l & M & P & RW).
  cbn [fst snd] in *. rewrite G in RW. destruct (plan_spec K _ _ _ _ _ _ _ _ _ P) as (vis & V1 & V2 & V3). exists mjd0, vis. split.
  - unfold too_mjd0 in M. destruct (t_update0 K); [|congruence]. destruct (Qltb (a_start a) (c_mjd c)) eqn:E; [|discriminate].
    apply Qltb_lt in E. split; [congruence|exact E].
  - split; [exact V1|]. subst rows. split; [exact V2|]. intros D. specialize (V3 D). exists pts. split; [exact V3|].
    rewrite <- (Forall2_len _ _ _ _ _ V2). clear - V1 V3. revert vis V1 V3. induction (t_plan K) as [|p ps IH]; intros vis V1 V3; cbn in V1.
    + apply map_eq_nil in V1. subst. reflexivity.
    + apply map_eq_app in V1. destruct V1 as (v1 & v2 & -> & E1 & E2). apply Forall_app in V3. destruct V3 as [F1 F2].
      unfold keys. rewrite flat_map_app, app_length. fold (keys v2). rewrite (IH v2 E2 F2). cbn [map list_sum fold_right]. f_equal.
      clear - E1 F1. revert v1 E1 F1. induction (v_n p) as [|n IHn]; intros v1 E1 F1; cbn in E1.
      * apply map_eq_nil in E1. subst. reflexivity.
      * destruct v1 as [|[q0 qs] v1]; [discriminate|]. cbn in E1. injection E1 as -> E1. pose proof (Forall_inv F1) as F3. pose proof (Forall_inv_tail F1) as F4. cbn in F3. subst qs.
        cbn [flat_map fst snd]. rewrite app_length, (IHn v1 E1 F4). cbn [Nat.mul]. f_equal.
        clear. induction (v_bands p) as [|b bs IHb]; cbn; [reflexivity|]. rewrite app_length, map_length, IHb. reflexivity.
Qed.
Print Assumptions C33_rows_follow_plan.

(** What is offered at a new time are eligible rows of the script (C29 for this
    survey). *)
Theorem C33_offered_rows_eligible :
  forall K id ops st log c out,
  trun K (too_init id) ops = Some (st, log) ->
  let F := t_scr K in
  (0 < g_turn F)%Q -> (f_sort F = None \/ f_sort F = Some "HA"%string) ->
  (0 <= c_lmst c)%Q -> (c_lmst c < 24)%Q ->
  (forall s, In s (st_wanted (u_s st)) -> (0 <= g_hours F (s_ra s))%Q /\ (g_hours F (s_ra s) < 24)%Q) ->
  ~ (c_mjd c == -1)%Q -> (forall c', In (TGen c') ops -> ~ (c_mjd c' == c_mjd c)%Q) ->
  snd (generate F (u_s st) c) = Ok out ->
  exists rows, out = match rows with [] => [] | _ => f_det F c (map to_obs rows) end /\
    (forall s, In s rows -> In s (st_wanted (u_s st)) /\ eligible F c s).
Proof.
  intros K id ops st log c out R F T FS L1 L2 RA N1 NG G.
  destruct (trun_facts K ops (too_init id) st log (init_consistent id) R) as (C & [A|(c1 & I1 & A)] & [B|(c2 & I2 & B)]); cbn in A, B.
  all: assert (FR : fresh (u_s st) c) by (split; intros Q;
    [first [apply N1; rewrite <- Q; exact A | apply (NG _ I1); rewrite A; exact Q] | first [apply N1; rewrite <- Q; exact B | apply (NG _ I2); rewrite B; exact Q]]).
  all: fold F in G; rewrite (generate_fresh F (u_s st) c FR), (check_list_spec F (u_s st) c C FS) in G; cbn [bind] in G; injection G as <-.
  all: destruct (chosen_facts F c (filter (fun s => selected F c s && masked F c s) (st_wanted (u_s st)))) as (rest & P & _).
  all: destruct (chosen F c _) as [|y l] eqn:EC; [exists []; split; [reflexivity|intros s []]|].
  all: destruct (too_long F c (y :: l)); [exists []; split; [reflexivity|intros s []]|exists (y :: l); split; [reflexivity|]].
  all: intros s IS; assert (IE : In s (filter (fun s => selected F c s && masked F c s) (st_wanted (u_s st)))) by (apply (Permutation_in _ P), in_or_app; now left).
  all: apply filter_In in IE; destruct IE as [W SE]; split; [exact W|]; destruct (RA s W); apply andb_true_iff in SE; apply (eligible_iff F T c s); repeat split; assumption || apply SE.
Qed.
Print Assumptions C33_offered_rows_eligible.

Example C33_example : exists st log,
  trun (tdemo false false) (too_init 1) [TUpdate (cnd 8 100) [gw "x" 9 0; gw "x" 9 0]; TAdd (visit "ToO, z, x, i0, 2");
    TUpdate (cnd (81 # 10) 100) [gw "x" 9 0; gw "y" 9 0]] = Some (st, log) /\
  map s_note (st_wanted (u_s st)) = ["ToO, g, x, i0, 1"; "ToO, u, x, i1, 3"; "ToO, u, x, i1, 4";
    "ToO, g, y, i0, 5"; "ToO, z, y, i0, 6"; "ToO, u, y, i1, 7"; "ToO, u, y, i1, 8"]%string /\ List.length log = 2.
Proof. eexists. eexists. split; [vm_compute; reflexivity|]. now vm_compute. Qed.

(** ** C54 *)
(** If no call raises, every alert of a followed type is scripted, provided all
    alerts sent with its id touch the follow-up footprint. *)
Theorem C54_followed_alerts_scripted_unless_raise :
  forall K id ops st log a, trun K (too_init id) ops = Some (st, log) ->
  In a (flat_map (fun o => match o with TUpdate _ l => l | _ => [] end) ops) ->
  (exists t x, a_type a = Some t /\ In x (t_types K) /\ contains x t = true) ->
  (forall a', In a' (flat_map (fun o => match o with TUpdate _ l => l | _ => [] end) ops) -> a_id a' = a_id a ->
     t_pix K a' <> [] \/ t_incenter K a' = true) ->
  exists c a' rows, In (c, a', rows) log /\ a_id a' = a_id a.
Proof.
  intros K id ops st log a R I (t & x & T & X & C) OV.
  assert (F : follows K a = Ok true).
  { unfold follows. rewrite T. destruct (t_types K) as [|y l] eqn:E; [destruct X|]. f_equal. apply existsb_exists. exists x. auto. }
  destruct (run_scripts K ops _ _ _ R a) as [Q|Q].
  - exact I.
  - exact F.
  - intros a' A' E _. apply OV; assumption.
  - destruct Q.
  - unfold log_ids in Q. apply in_map_iff in Q. destruct Q as ([[c a'] rows] & E & Q). exists c, a', rows. auto.
Qed.
Print Assumptions C54_followed_alerts_scripted_unless_raise.
Example C54_example : exists st log, trun (tdemo true true) (too_init 1) [TUpdate (cnd 10 100) [gw "x" 9 3]] = Some (st, log) /\
  map (fun e => map s_mjd (snd e)) log <> [].
Proof. eexists. eexists. split; [vm_compute; reflexivity|discriminate]. Qed.

(** As stated the property fails: with update_mjd0 an alert that starts now or
    later raises, and since it is already noted as seen it is never scripted. *)
Theorem C54_refuted :
  exists K id c c' a st1 st2, t_update0 K = true /\ follows K a = Ok true /\ overlaps K a /\ (c_mjd c < c_mjd c')%Q /\ (a_start a < c_mjd c')%Q /\
  new_event K (too_init id) c a = (st1, Raise UnboundLocalError) /\
  new_event K st1 c' a = (st2, Ok None) /\ st_wanted (u_s st2) = [].
Proof.
  exists (tdemo true true), 1%Z, (cnd 9 100), (cnd 10 100), (gw "x" 9 3). eexists. eexists.
  split; [reflexivity|]. split; [reflexivity|]. split; [left; discriminate|]. split; [reflexivity|]. split; [reflexivity|].
  split; [vm_compute; reflexivity|]. split; [vm_compute; reflexivity|reflexivity].
Qed.
Print Assumptions C54_refuted.
(** An alert without a type raises for every survey that follows some type, the
    default of both classes. *)
Theorem C54_no_type_refuted :
  forall K st c a, t_types K <> [] -> a_type a = None -> exists st' e, new_event K st c a = (st', Raise e).
Proof.
  intros K st c a T A. unfold new_event. destruct (flush_script K (u_s st) c) as [s1 [u|e]]; [|eexists; eexists; reflexivity].
  unfold follows. rewrite A. destruct (t_types K); [congruence|]. eexists; eexists; reflexivity.
Qed.
Print Assumptions C54_no_type_refuted.

(** Ids do not keep growing here: each alert, also one already seen, makes the
    next id be read back from the rows of the script. *)
Theorem C32_too_ids_refuted :
  exists K id ops1 ops2 st1 log1 st2 log2,
  trun K (too_init id) ops1 = Some (st1, log1) /\ trun K st1 ops2 = Some (st2, log2) /\ (st_id (u_s st2) < st_id (u_s st1))%Z /\
  st_wanted (u_s st2) <> [].
Proof.
  exists (tdemo false false), 1%Z, [TUpdate (cnd 8 100) [gw "x" 9 0]; TAdd (visit "ToO, u, x, i1, 3"); TAdd (visit "ToO, u, x, i1, 4")],
    [TUpdate (cnd (81 # 10) 100) [gw "x" 9 0]; TUpdate (cnd (82 # 10) 100) [gw "x" 9 0]].
  eexists. eexists. eexists. eexists. split; [vm_compute; reflexivity|]. split; [vm_compute; reflexivity|]. split; [reflexivity|discriminate].
Qed.
Print Assumptions C32_too_ids_refuted.
