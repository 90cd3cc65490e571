(** C157: the rewards recorded along a simulation. *)
From Coq Require Import List ZArith QArith Bool String Lia Lqa Sorted.
From Verif Require Import Base Obs Sim RewardLog Props_Sim.
Import ListNotations.
Open Scope nat_scope.

Section P.
Context {S O F C D : Type}.
Variable B : simB S O F C.
Variable fill : S -> Z.
Variable df : S -> option D.
Variables sim_end step_none : Q.
Variable limit : option Z.
Variable append_size : nat.
Variable every_obs : bool.
Notation L := (logged B fill df).
Notation iter := (iter L sim_end step_none limit append_size every_obs).
Notation loop := (loop L sim_end step_none limit append_size every_obs).
Notation log st := (snd (sm_s st)).

(** Recording changes nothing in the run. *)
Definition bare (st : sim (S * rlog D) O F) : sim S O F :=
  mkSim (fst (sm_s st)) (sm_o st) (sm_f st) (sm_mjd st) (sm_arr st) (sm_n st) (sm_skip st) (sm_last st) (sm_tr st).
Lemma pre_bare : forall s o, pre_update B every_obs (fst s) o = (fst (fst (pre_update L every_obs s o)), snd (pre_update L every_obs s o)) /\
  snd (fst (pre_update L every_obs s o)) = snd s.
Proof.
  intros [s r] o. unfold pre_update. cbn [logged sc_has sc_check sc_update fst snd ob_mjd ob_cond].
  destruct (sc_has B s); cbn [fst snd]; match goal with |- context [sc_check B ?x ?y] => destruct (sc_check B x y) end; destruct every_obs; cbn; auto.
Qed.
Lemma iter_bare : forall st, Sim.iter B sim_end step_none limit append_size every_obs (bare st) = (bare (fst (iter st)), snd (iter st)).
Proof.
  intros st. unfold Sim.iter. cbn [bare sm_s sm_o sm_f sm_mjd sm_arr sm_n sm_skip sm_last sm_tr].
  destruct (pre_bare (sm_s st) (sm_o st)) as [E _]. rewrite E. destruct (pre_update L every_obs (sm_s st) (sm_o st)) as [[s1 r1] t1].
  cbn [fst snd logged sc_request ob_mjd ob_observe ob_set ob_cond sc_update sc_add sc_flush overhead bs_add].
  destruct (sc_request B s1 _) as [s2 [[x|]|e]]; [| |reflexivity].
  - destruct (ob_observe B (sm_o st) x) as [o1 [[c|] nn]].
    + destruct (set_nth (sm_arr st) (sm_n st) c); [|reflexivity]. unfold post. cbn [sm_n sm_o sm_f sm_s sm_arr].
      destruct nn, limit as [z|]; try destruct (Z.eqb _ z); reflexivity.
    + destruct (Qeq_bool _ _); [reflexivity|]. unfold post. cbn [sm_n sm_o sm_f sm_s sm_arr].
      destruct nn, limit as [z|]; try destruct (Z.eqb _ z); reflexivity.
  - cbv zeta. destruct (Qltb sim_end _); reflexivity.
Qed.
Lemma loop_bare : forall n st, Sim.loop B sim_end step_none limit append_size every_obs n (bare st) = (bare (fst (loop n st)), snd (loop n st)).
Proof.
  induction n as [|n IH]; intros st; [reflexivity|]. cbn [Sim.loop]. cbn [bare sm_mjd]. destruct (Qltb (sm_mjd st) sim_end); [|reflexivity].
  rewrite iter_bare. destruct (iter st) as [st' [| |e]]; cbn [fst snd]; [apply IH|reflexivity..].
Qed.

(** ** The notes *)
Definition puts (l : list (Q * option Z)) (d : list (Q * option Z)) : list (Q * option Z) := fold_left (fun d p => put (fst p) (snd p) d) l d.
Definition kept (r : rlog D) (z : Z) : Prop := In z (map fst (r_dfs r)).
Definition sound (tr : list ev) (r : rlog D) : Prop :=
  List.length (r_from r) = List.length (dones tr) /\
  r_obs r = puts (combine (map o_mjd (dones tr)) (map Some (r_from r))) [] /\
  (forall z, In z (r_from r) -> kept r z) /\ (forall z, r_last r = Some z -> kept r z) /\
  (r_dfs r <> [] -> r_last r <> None).
Lemma dones_app : forall a b, dones (a ++ b) = dones a ++ dones b.
Proof. intros a b. unfold dones. apply flat_map_app. Qed.
Lemma sound_tr : forall tr tr' r, dones tr' = dones tr -> sound tr r -> sound tr' r.
Proof. intros tr tr' r E H. unfold sound in *. now rewrite E. Qed.
Lemma noted_last : forall s r, r_last (noted fill df s r) = Some (fill s).
Proof. intros s r. unfold noted. destruct (r_last r) as [z|] eqn:E; [|reflexivity]. destruct (Z.eqb_spec z (fill s)); [now subst|reflexivity]. Qed.
Lemma sound_noted : forall tr s r, sound tr r -> sound tr (noted fill df s r).
Proof.
  intros tr s r H. unfold noted. destruct (match r_last r with None => false | Some z => Z.eqb z (fill s) end) eqn:E; [exact H|].
  destruct H as (H1 & H2 & H3 & H4 & H5). unfold sound, kept. cbn. rewrite map_app. split; [exact H1|]. split; [exact H2|].
  split; [intros z I; apply in_or_app; left; now apply H3|]. split; [|discriminate].
  intros z X. injection X as <-. apply in_or_app. right. now left.
Qed.
Lemma combine_snoc : forall A T (a : list A) (b : list T) x y, List.length a = List.length b -> combine (a ++ [x]) (b ++ [y]) = combine a b ++ [(x, y)].
Proof. induction a as [|p a IH]; intros [|q b] x y E; cbn in *; try lia; [reflexivity|]. rewrite IH by lia. reflexivity. Qed.
Lemma sound_visited : forall tr s r c, r_last r = Some (fill s) -> sound tr r -> sound (tr ++ [EvDone c]) (visited fill s c r).
Proof.
  intros tr s r c E (H1 & H2 & H3 & H4 & H5). unfold sound, kept, visited. cbn. rewrite dones_app. cbn.
  split; [rewrite !app_length, H1; reflexivity|]. split.
  - rewrite !map_app. cbn. rewrite combine_snoc by (rewrite !map_length; now rewrite H1). unfold puts. rewrite fold_left_app. cbn. now rewrite H2, E.
  - split; [|split; [exact H4|exact H5]]. intros z I. apply in_app_or in I as [I|[<-|[]]]; [now apply H3|now apply H4].
Qed.
Lemma dones_pre : forall s o, dones (snd (pre_update L every_obs s o)) = [].
Proof.
  intros s o. unfold pre_update. destruct (sc_has L s); destruct (sc_check L _ _); destruct every_obs; reflexivity.
Qed.
Lemma sound_post : forall st nn st' c, post L limit st nn = (st', c) -> sound (sm_tr st) (log st) -> sound (sm_tr st') (log st').
Proof.
  intros st nn st' c H G. unfold post in H.
  destruct nn, limit as [z|]; try destruct (Z.eqb _ z); injection H as <- _; cbn [sm_tr sm_s];
    (apply (sound_tr (sm_tr st)); [rewrite dones_app; cbn; now rewrite app_nil_r|exact G]).
Qed.
Lemma sound_iter : forall st st' c, iter st = (st', c) -> sound (sm_tr st) (log st) -> sound (sm_tr st') (log st').
Proof.
  intros st st' c H G. unfold Sim.iter in H. pose proof (dones_pre (sm_s st) (sm_o st)) as DP.
  pose proof (proj2 (pre_bare (sm_s st) (sm_o st))) as EP.
  destruct (pre_update L every_obs (sm_s st) (sm_o st)) as [[s1 r1] t1]. cbn [snd fst] in DP, EP. subst r1.
  cbn [logged sc_request ob_mjd ob_observe ob_set ob_cond sc_update sc_add sc_flush overhead bs_add fst snd] in H.
  destruct (sc_request B s1 _) as [s2 [[x|]|e]].
  - pose proof (sound_noted _ s2 _ G) as G'. pose proof (noted_last s2 (log st)) as E.
    destruct (ob_observe B (sm_o st) x) as [o1 [[c0|] nn]].
    + assert (V : forall tr, dones tr = dones (sm_tr st) -> sound (tr ++ [EvDone c0; EvAdd c0]) (visited fill s2 c0 (noted fill df s2 (log st)))).
      { intros tr X. apply (sound_tr (tr ++ [EvDone c0])); [rewrite !dones_app; reflexivity|]. apply sound_visited; [exact E|]. now apply (sound_tr (sm_tr st)). }
      destruct (set_nth (sm_arr st) (sm_n st) c0).
      * apply sound_post in H; [exact H|]. cbn [sm_tr sm_s snd]. apply V. rewrite !dones_app, DP. cbn. now rewrite !app_nil_r.
      * injection H as <- _. cbn [sm_tr sm_s snd]. apply V. rewrite !dones_app, DP. cbn. now rewrite !app_nil_r.
    + destruct (Qeq_bool _ _).
      * injection H as <- _. cbn [sm_tr sm_s snd]. apply (sound_tr (sm_tr st)); [|exact G']. rewrite !dones_app, DP. cbn. now rewrite !app_nil_r.
      * apply sound_post in H; [exact H|]. cbn [sm_tr sm_s snd]. apply (sound_tr (sm_tr st)); [|exact G']. rewrite !dones_app, DP. cbn. now rewrite !app_nil_r.
  - cbv zeta in H. assert (X : forall tr, dones tr = dones (sm_tr st) -> sound tr (noted fill df s2 (log st))).
    { intros tr X. apply (sound_tr (sm_tr st)); [exact X|]. now apply sound_noted. }
    destruct (Qltb sim_end _); injection H as <- _; cbn [sm_tr sm_s snd]; apply X; rewrite !dones_app, DP; cbn; now rewrite !app_nil_r.
  - injection H as <- _. cbn [sm_tr sm_s snd]. apply (sound_tr (sm_tr st)); [|exact G]. rewrite !dones_app, DP. cbn. now rewrite !app_nil_r.
Qed.
Lemma sound_loop : forall n st st' c, loop n st = (st', c) -> sound (sm_tr st) (log st) -> sound (sm_tr st') (log st').
Proof.
  induction n as [|n IH]; intros st st' c H G; cbn [Sim.loop] in H; [injection H as <- _; exact G|].
  destruct (Qltb (sm_mjd st) sim_end); [|injection H as <- _; exact G].
  destruct (iter st) as [s1 c1] eqn:E. pose proof (sound_iter _ _ _ E G) as G'. destruct c1; [now apply (IH _ _ _ H)|now injection H as <- _..].
Qed.

(** ** Stamps that only grow *)
Hypothesis Upd : forall s c, fill (sc_update B s c) = fill s.
Hypothesis Req : forall s t s' r, sc_request B s t = (s', r) -> (fill s <= fill s')%Z.
Hypothesis Add : forall s c, fill (sc_add B s c) = fill s.
Hypothesis Flu : forall s, fill (sc_flush B s) = fill s.
Definition rising (s : S) (r : rlog D) : Prop :=
  StronglySorted Z.lt (map fst (r_dfs r)) /\ (forall z, kept r z -> exists l, r_last r = Some l /\ (z <= l)%Z) /\
  (forall l, r_last r = Some l -> (l <= fill s)%Z).
Lemma rising_fill : forall s s' r, (fill s <= fill s')%Z -> rising s r -> rising s' r.
Proof. intros s s' r H (A & B0 & C0). split; [exact A|]. split; [exact B0|]. intros l E. specialize (C0 l E). lia. Qed.
Lemma sorted_snoc : forall l z, StronglySorted Z.lt l -> (forall x, In x l -> (x < z)%Z) -> StronglySorted Z.lt (l ++ [z]).
Proof.
  induction l as [|x l IH]; intros z H G; cbn; [repeat constructor|]. inversion H as [|? ? H1 H2]; subst. constructor; [apply IH; [exact H1|intros y I; apply G; now right]|].
  rewrite Forall_forall in *. intros y I. apply in_app_or in I as [I|[<-|[]]]; [now apply H2|apply G; now left].
Qed.
Lemma rising_noted : forall s r, rising s r -> rising s (noted fill df s r).
Proof.
  intros s r (A & B0 & C0). unfold noted. destruct (match r_last r with None => false | Some z => Z.eqb z (fill s) end) eqn:E; [now split|].
  unfold rising, kept. cbn. rewrite map_app. cbn. split; [|split].
  - apply sorted_snoc; [exact A|]. intros x I. destruct (B0 x I) as (l & E1 & E2). specialize (C0 l E1). rewrite E1 in E. apply Z.eqb_neq in E. lia.
  - intros z I. exists (fill s). split; [reflexivity|]. apply in_app_or in I as [I|[<-|[]]]; [|lia].
    destruct (B0 z I) as (l & E1 & E2). specialize (C0 l E1). lia.
  - intros l X. injection X as <-. lia.
Qed.
Lemma pre_fill : forall s o, fill (fst (pre_update B every_obs s o)) = fill s.
Proof.
  intros s o. unfold pre_update. destruct (sc_has B s); match goal with |- context [sc_check B ?x ?y] => destruct (sc_check B x y) end; destruct every_obs;
    cbn; rewrite ?Upd; reflexivity.
Qed.
Lemma rising_post : forall st nn st' c, post L limit st nn = (st', c) -> sm_s st' = sm_s st.
Proof. intros st nn st' c H. unfold post in H. destruct nn, limit as [z|]; try destruct (Z.eqb _ z); injection H as <- _; reflexivity. Qed.
Lemma rising_iter : forall st st' c, iter st = (st', c) -> rising (fst (sm_s st)) (log st) -> rising (fst (sm_s st')) (log st').
Proof.
  intros st st' c H G. unfold Sim.iter in H. destruct (pre_bare (sm_s st) (sm_o st)) as [EB EP].
  pose proof (pre_fill (fst (sm_s st)) (sm_o st)) as PF. rewrite EB in PF. cbn [fst] in PF.
  destruct (pre_update L every_obs (sm_s st) (sm_o st)) as [[s1 r1] t1]. cbn [snd fst] in EP, PF. subst r1.
  cbn [logged sc_request ob_mjd ob_observe ob_set ob_cond sc_update sc_add sc_flush overhead bs_add fst snd] in H.
  destruct (sc_request B s1 _) as [s2 r] eqn:ER. apply Req in ER. assert (G2 : rising s2 (log st)) by (apply (rising_fill (fst (sm_s st))); [lia|exact G]).
  pose proof (rising_noted _ _ G2) as G3. destruct r as [[x|]|e].
  - destruct (ob_observe B (sm_o st) x) as [o1 [[c0|] nn]].
    + assert (V : rising (sc_add B s2 c0) (visited fill s2 c0 (noted fill df s2 (log st)))).
      { apply (rising_fill s2); [rewrite Add; lia|]. exact G3. }
      destruct (set_nth (sm_arr st) (sm_n st) c0); [apply rising_post in H; rewrite H; exact V|injection H as <- _; exact V].
    + destruct (Qeq_bool _ _); [injection H as <- _; exact G3|]. apply rising_post in H. rewrite H. cbn [fst snd sm_s].
      apply (rising_fill s2); [rewrite Flu; lia|exact G3].
  - cbv zeta in H. destruct (Qltb sim_end _); injection H as <- _; cbn [fst snd sm_s]; (apply (rising_fill s2); [rewrite Upd; lia|exact G3]).
  - injection H as <- _. exact G2.
Qed.
Lemma rising_loop : forall n st st' c, loop n st = (st', c) -> rising (fst (sm_s st)) (log st) -> rising (fst (sm_s st')) (log st').
Proof.
  induction n as [|n IH]; intros st st' c H G; cbn [Sim.loop] in H; [injection H as <- _; exact G|].
  destruct (Qltb (sm_mjd st) sim_end); [|injection H as <- _; exact G].
  destruct (iter st) as [s1 c1] eqn:E. pose proof (rising_iter _ _ _ E G) as G'. destruct c1; [now apply (IH _ _ _ H)|now injection H as <- _..].
Qed.
End P.

(** ** The dictionary of times *)
Lemma Qeq_bool_false : forall a b, Qeq_bool a b = false <-> ~ (a == b)%Q.
Proof. intros a b. rewrite <- Qeq_bool_iff. destruct (Qeq_bool a b); split; intros H; try congruence; try tauto. Qed.
Lemma get_put : forall V k k' (v : V) d, get k (put k' v d) = if Qeq_bool k k' then Some v else get k d.
Proof.
  intros V k k' v. induction d as [|[x w] r IH]; cbn; [reflexivity|].
  destruct (Qeq_bool k' x) eqn:E1; cbn; destruct (Qeq_bool k x) eqn:E2.
  - apply Qeq_bool_iff in E1, E2. assert (X : Qeq_bool k k' = true) by (apply Qeq_bool_iff; lra). now rewrite X.
  - apply Qeq_bool_iff in E1. apply Qeq_bool_false in E2. assert (X : Qeq_bool k k' = false) by (apply Qeq_bool_false; intros Y; apply E2; lra). now rewrite X.
  - apply Qeq_bool_false in E1. apply Qeq_bool_iff in E2. assert (X : Qeq_bool k k' = false) by (apply Qeq_bool_false; intros Y; apply E1; lra). now rewrite X.
  - exact IH.
Qed.
Lemma get_puts_other : forall l d k, (forall p, In p l -> ~ (fst p == k)%Q) -> get k (puts l d) = get k d.
Proof.
  induction l as [|p l IH]; intros d k H; [reflexivity|]. unfold puts in *. cbn. rewrite IH by (intros q I; apply H; now right).
  rewrite get_put. assert (X : Qeq_bool k (fst p) = false) by (apply Qeq_bool_false; intros Y; apply (H p (or_introl eq_refl)); now symmetry). now rewrite X.
Qed.
Lemma get_puts : forall l d i p, nth_error l i = Some p -> (forall j q, i < j -> nth_error l j = Some q -> ~ (fst q == fst p)%Q) ->
  get (fst p) (puts l d) = Some (snd p).
Proof.
  induction l as [|x l IH]; intros d [|i] p E H; cbn in E; try discriminate.
  - injection E as ->. unfold puts. cbn. change (fold_left _ l ?y) with (puts l y). rewrite get_puts_other.
    + rewrite get_put. assert (X : Qeq_bool (fst p) (fst p) = true) by (apply Qeq_bool_iff; reflexivity). now rewrite X.
    + intros q I. apply In_nth_error in I as [j J]. apply (H (Datatypes.S j) q); [lia|exact J].
  - unfold puts. cbn. change (fold_left _ l ?y) with (puts l y). apply (IH _ i p E). intros j q Lj J. apply (H (Datatypes.S j) q); [lia|exact J].
Qed.
Lemma keys_puts : forall l d k, In k (map fst (puts l d)) -> In k (map fst d) \/ In k (map fst l).
Proof.
  assert (P : forall (d : list (Q * option Z)) x v k, In k (map fst (put x v d)) -> In k (map fst d) \/ k = x).
  { induction d as [|[y w] r IH]; intros x v k; cbn; [intros [<-|[]]; auto|]. destruct (Qeq_bool x y); cbn; [tauto|]. intros [<-|I]; [auto|]. destruct (IH _ _ _ I); auto. }
  induction l as [|p l IH]; intros d k H; [now left|]. unfold puts in H. cbn in H. change (fold_left _ l ?y) with (puts l y) in H.
  apply IH in H as [H|H]; [apply P in H as [H| ->]; [now left|right; now left]|right; now right].
Qed.
Lemma nth_combine : forall A T (a : list A) (b : list T) i x y, nth_error a i = Some x -> nth_error b i = Some y -> nth_error (combine a b) i = Some (x, y).
Proof. induction a as [|p a IH]; intros [|q b] [|i] x y E1 E2; cbn in *; try discriminate; [now injection E1 as ->; injection E2 as ->|]. now apply IH. Qed.

(** Recording makes no difference to the run: it returns the same table, or ends the
    same way, as without. *)
Theorem C157_same_run : forall S O F C D (B : simB S O F C) (fill : S -> Z) (df : S -> option D) sim_end step_none limit append_size every_obs s o f size start n,
  let plain := loop B sim_end step_none limit append_size every_obs n (sim_init B s o f size start) in
  let rec := loop (logged B fill df) sim_end step_none limit append_size every_obs n (sim_init (logged B fill df) (s, rlog0) o f size start) in
  snd plain = snd rec /\ result (fst plain) = result (fst rec) /\ sm_tr (fst plain) = sm_tr (fst rec).
Proof.
  intros S O F C D B fill df sim_end step_none limit append_size every_obs s o f size start n plain rec.
  pose proof (loop_bare B fill df sim_end step_none limit append_size every_obs n (sim_init (logged B fill df) (s, rlog0) o f size start)) as E.
  change (bare (sim_init (logged B fill df) (s, rlog0) o f size start)) with (sim_init B s o f size start) in E.
  unfold plain, rec. rewrite E. repeat split; reflexivity.
Qed.
Print Assumptions C157_same_run.

(** Every visit returned has an entry under its time, unless a later visit has the
    same: the stamp the scheduler had when it was given the visit, under which a table
    is kept.  There are no other entries. *)
Theorem C157_entries : forall S O F C D (B : simB S O F C) (fill : S -> Z) (df : S -> option D) sim_end step_none limit append_size every_obs s o f size start n st,
  loop (logged B fill df) sim_end step_none limit append_size every_obs n (sim_init (logged B fill df) (s, rlog0) o f size start) = (st, CBreak) ->
  let r := snd (sm_s st) in
  List.length (r_from r) = List.length (result st) /\
  (forall i a, nth_error (result st) i = Some a ->
     (forall j b, i < j -> nth_error (result st) j = Some b -> ~ (o_mjd b == o_mjd a)%Q) ->
     exists z, nth_error (r_from r) i = Some z /\ get (o_mjd a) (r_obs r) = Some (Some z) /\ In z (map fst (r_dfs r))) /\
  (forall k, In k (map fst (r_obs r)) -> exists a, In a (result st) /\ o_mjd a = k).
Proof.
  intros S O F C D B fill df sim_end step_none limit append_size every_obs s o f size start n st H r.
  destruct (C15_bookkeeping _ _ _ _ _ _ _ _ _ _ _ _ _ _ _ _ _ H) as (R & _).
  assert (G : sound (sm_tr st) r).
  { apply (sound_loop B fill df sim_end step_none limit append_size every_obs _ _ _ _ H). unfold sound, kept, sim_init, rlog0, puts. destruct start; cbn; intuition congruence. }
  destruct G as (G1 & G2 & G3 & _). rewrite <- R in G1, G2. split; [exact G1|]. split.
  - intros i a E U. assert (Z : exists z, nth_error (r_from r) i = Some z).
    { destruct (nth_error (r_from r) i) eqn:X; [eauto|]. apply nth_error_None in X. assert (i < List.length (result st)) by (apply nth_error_Some; congruence). lia. }
    destruct Z as [z Z]. exists z. split; [exact Z|]. split; [|apply G3; eapply nth_error_In; eauto].
    rewrite G2. apply (get_puts _ [] i (o_mjd a, Some z)).
    + apply nth_combine; rewrite nth_error_map; [now rewrite E|now rewrite Z].
    + intros j q Lj J. assert (J1 : nth_error (map o_mjd (result st)) j = Some (fst q)).
      { clear - J. revert j J. generalize (map Some (r_from r)). induction (map o_mjd (result st)) as [|x l IH]; intros [|y m] [|j] J; cbn in *; try discriminate.
        - now injection J as <-. - now apply (IH m). }
      rewrite nth_error_map in J1. destruct (nth_error (result st) j) as [b|] eqn:Ej; [|discriminate]. injection J1 as <-. now apply (U j b).
  - intros k I. rewrite G2 in I. apply keys_puts in I as [[]|I]. apply in_map_iff in I as ((k', v) & <- & I). apply in_combine_l in I.
    apply in_map_iff in I as (a & <- & I). eauto.
Qed.
Print Assumptions C157_entries.

(** A scheduler that keeps rewards: whenever visits are returned so are the tables,
    one for every stamp, in order, none twice. *)
Theorem C157_tables : forall S O F C D (B : simB S O F C) (fill : S -> Z) (df : S -> option D) sim_end step_none limit append_size every_obs s o f size start n st,
  (forall s c, fill (sc_update B s c) = fill s) -> (forall s t s' r, sc_request B s t = (s', r) -> (fill s <= fill s')%Z) ->
  (forall s c, fill (sc_add B s c) = fill s) -> (forall s, fill (sc_flush B s) = fill s) ->
  loop (logged B fill df) sim_end step_none limit append_size every_obs n (sim_init (logged B fill df) (s, rlog0) o f size start) = (st, CBreak) ->
  let r := snd (sm_s st) in
  StronglySorted Z.lt (map fst (r_dfs r)) /\
  ((forall p, In p (r_dfs r) -> snd p <> None) -> result st <> [] ->
   exists l, reward_result (result st) r = Ok (Some (l, r_obs r)) /\ map fst l = map fst (r_dfs r)).
Proof.
  intros S O F C D B fill df sim_end step_none limit append_size every_obs s o f size start n st U Rq A Fl H r. split.
  - apply (rising_loop B fill df sim_end step_none limit append_size every_obs U Rq A Fl _ _ _ _ H). unfold rising, kept, sim_init, rlog0.
    destruct start; cbn; (split; [constructor|split; [intros z []|discriminate]]).
  - intros K NE. destruct (C157_entries _ _ _ _ _ B fill df sim_end step_none limit append_size every_obs s o f size start n st H) as (L1 & _ & _). fold r in L1.
    assert (T : map fst (tables (r_dfs r)) = map fst (r_dfs r)).
    { clear - K. induction (r_dfs r) as [|[z [d|]] l IH]; cbn; [reflexivity| |exfalso; now apply (K (z, None) (or_introl eq_refl))].
      f_equal. apply IH. intros p I. apply K. now right. }
    exists (tables (r_dfs r)). split; [|exact T]. unfold reward_result. destruct (result st) as [|a l] eqn:E; [congruence|].
    destruct (r_from r) as [|z zs] eqn:Ez; [discriminate|].
    assert (G : sound (sm_tr st) r).
    { apply (sound_loop B fill df sim_end step_none limit append_size every_obs _ _ _ _ H). unfold sound, kept, sim_init, rlog0, puts. destruct start; cbn; intuition congruence. }
    destruct G as (_ & _ & G3 & _). specialize (G3 z). rewrite Ez in G3. specialize (G3 (or_introl eq_refl)). unfold kept in G3. rewrite <- T in G3.
    destruct (tables (r_dfs r)); [contradiction|reflexivity].
Qed.
Print Assumptions C157_tables.

(** Refuted: with record_rewards the rewards are returned.  A scheduler made without
    keep_rewards has no tables, and a run that took visits ends with ValueError once
    it is over. *)
Theorem C157_keep_refuted : forall S O F C D (B : simB S O F C) (fill : S -> Z) (df : S -> option D) sim_end step_none limit append_size every_obs s o f size start n st,
  (forall s, df s = None) ->
  loop (logged B fill df) sim_end step_none limit append_size every_obs n (sim_init (logged B fill df) (s, rlog0) o f size start) = (st, CBreak) ->
  result st <> [] -> reward_result (result st) (snd (sm_s st)) = Raise ValueError.
Proof.
  intros S O F C D B fill df sim_end step_none limit append_size every_obs s o f size start n st N H NE.
  assert (K : tables (r_dfs (snd (sm_s st))) = []).
  { assert (G : forall n st st' c, loop (logged B fill df) sim_end step_none limit append_size every_obs n st = (st', c) ->
      tables (r_dfs (snd (sm_s st))) = [] -> tables (r_dfs (snd (sm_s st'))) = []).
    { clear H NE. assert (T : forall s r, tables (r_dfs r) = [] -> tables (r_dfs (noted fill df s r)) = []).
      { intros x r E. unfold noted. destruct (match r_last r with None => false | Some z => Z.eqb z (fill x) end); [exact E|].
        cbn [r_dfs]. unfold tables in *. rewrite flat_map_app, E. cbn. now rewrite N. }
      induction n0 as [|m IH]; intros x x' c H E; cbn [loop] in H; [injection H as <- _; exact E|].
      destruct (Qltb (sm_mjd x) sim_end); [|injection H as <- _; exact E].
      assert (I : tables (r_dfs (snd (sm_s (fst (iter (logged B fill df) sim_end step_none limit append_size every_obs x))))) = []).
      { unfold iter. pose proof (proj2 (pre_bare B fill df every_obs (sm_s x) (sm_o x))) as EP.
        destruct (pre_update (logged B fill df) every_obs (sm_s x) (sm_o x)) as [[s1 r1] t1]. cbn [snd fst] in EP. subst r1.
        cbn [logged sc_request ob_mjd ob_observe ob_set ob_cond sc_update sc_add sc_flush overhead bs_add fst snd].
        destruct (sc_request B s1 _) as [s2 [[d|]|e]]; [| |exact E].
        - destruct (ob_observe B (sm_o x) d) as [o1 [[c0|] nn]].
          + destruct (set_nth (sm_arr x) (sm_n x) c0); [|cbn; now apply T]. unfold post.
            destruct nn, limit as [z|]; try destruct (Z.eqb _ z); cbn [fst snd sm_s visited r_dfs]; now apply T.
          + destruct (Qeq_bool _ _); [cbn; now apply T|]. unfold post.
            destruct nn, limit as [z|]; try destruct (Z.eqb _ z); cbn [fst snd sm_s]; now apply T.
        - cbv zeta. destruct (Qltb sim_end _); cbn [fst snd sm_s]; now apply T. }
      destruct (iter _ _ _ _ _ _ x) as [s1 c1]. cbn [fst] in I. destruct c1; [now apply (IH _ _ _ H)|now injection H as <- _..]. }
    apply (G _ _ _ _ H). destruct start; reflexivity. }
  unfold reward_result. destruct (result st); [congruence|]. now rewrite K.
Qed.
Print Assumptions C157_keep_refuted.

(** A queue of two visits filled again when it is empty, on a clock; every fill has a
    new stamp and its own table. *)
Definition exQueue (keep : bool) : simB (Z * nat) Q unit unit :=
  mkSimB (Z * nat) Q unit unit (fun t => t) (fun _ t => t) (fun _ => tt)
    (fun t x => ((t + (1 # 10))%Q, (Some (mkObs 0 0 t 0 0 0 0 0 30 1 "r" "r" ""), false))) (fun t _ => t)
    (fun _ => true) (fun _ _ => true) (fun s _ => s)
    (fun s _ => (match s with (z, 0) => ((if keep then z + 10 else z)%Z, 1) | (z, Datatypes.S n) => (z, n) end, Ok (Some obs0)))
    (fun s _ => s) (fun s => (fst s, 0)) (fun _ _ => []) (fun f _ => f) None.
Definition exRun (keep : bool) :=
  let B := logged (exQueue keep) fst (fun s => if keep then Some (fst s * 2)%Z else None) in
  loop B (4 # 10) 1 None 2 false 20 (sim_init B ((-1)%Z, 0, rlog0) 0%Q tt 2 None).
Example C157_example :
  snd (exRun true) = CBreak /\ map (fun o => Qred (o_mjd o)) (result (fst (exRun true))) = [0; 1 # 10; 1 # 5; 3 # 10]%Q /\
  match reward_result (result (fst (exRun true))) (snd (sm_s (fst (exRun true)))) with
  | Ok (Some (l, d)) => l = [(9, 18); (19, 38)]%Z /\ map (fun p => (Qred (fst p), snd p)) d = [(0, Some 9%Z); (1 # 10, Some 9%Z); (1 # 5, Some 19%Z); (3 # 10, Some 19%Z)]%Q
  | _ => False
  end /\
  reward_result (result (fst (exRun false))) (snd (sm_s (fst (exRun false)))) = Raise ValueError /\ List.length (result (fst (exRun false))) = 4.
Proof. vm_compute. auto 8. Qed.
