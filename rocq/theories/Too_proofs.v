(** Proofs about the target of opportunity survey model. *)
From Coq Require Import List ZArith QArith Qround Bool String Ascii Lia.
From Verif Require Import Base Obs Labels Script Script_proofs Too.
Import ListNotations.
Open Scope nat_scope.

Section Too.
Variable K : tcfg.

Definition overlaps (a : alert) : Prop := t_pix K a <> [] \/ t_incenter K a = true.
(** Rows still worth keeping at the time of [c]. *)
Definition relevant (c : scond) (s : sobs) : bool := negb (s_done s) && Qltb (c_mjd c) (s_flush s).

Lemma sbackfill_id : forall s, s_band s <> ""%string -> sbackfill s = s.
Proof. intros s H. unfold sbackfill. apply String.eqb_neq in H. now rewrite H. Qed.

Lemma flush_ok : forall st c st' u, flush_script K st c = (st', Ok u) ->
  st_wanted st' = map sbackfill (filter (relevant c) (st_wanted st)) /\ consistent st'.
Proof.
  intros st c st' u H. unfold flush_script in H. fold (relevant c) in H.
  destruct (filter (relevant c) (st_wanted st)) as [|x l] eqn:E.
  - injection H as <- _. split; [reflexivity|]. split; [constructor|now left].
  - unfold set_script in H. cbv zeta in H. cbn [bind] in H.
    destruct (parse_ids (t_int K) (st_wanted st)) as [ids|e]; [|discriminate]. cbn [bind] in H.
    destruct (nodupb (map s_note (map sbackfill (x :: l)))) eqn:N; [|discriminate]. injection H as <- _.
    split; [reflexivity|]. split; [cbn [st_wanted]; now apply nodupb_iff|right; reflexivity].
Qed.

(** What one alert does to the survey. *)
Definition adds_nothing (st st' : tst) (c : scond) : Prop :=
  st_wanted (u_s st') = map sbackfill (filter (relevant c) (st_wanted (u_s st))).
Lemma new_event_ok : forall st c a st' o, new_event K st c a = (st', Ok o) ->
  consistent (u_s st') /\
  (follows K a = Ok false \/ follows K a = Ok true) /\
  (follows K a = Ok true -> In (a_id a) (u_seen st')) /\
  (forall x, In x (u_seen st) -> In x (u_seen st')) /\
  (forall x, In x (u_seen st') -> In x (u_seen st) \/ (x = a_id a /\ follows K a = Ok true)) /\
  match o with
  | None => adds_nothing st st' c /\
            (follows K a = Ok true -> ~ In (a_id a) (u_seen st) -> ~ overlaps a)
  | Some rows =>
      ~ In (a_id a) (u_seen st) /\ follows K a = Ok true /\ In (a_id a) (u_seen st') /\ overlaps a /\
      (exists s1 id, st_wanted s1 = map sbackfill (filter (relevant c) (st_wanted (u_s st))) /\
         st_wanted (u_s st') = st_wanted s1 ++ index_notes id (map sbackfill rows)) /\
      (exists pts mjd0 spin spin' l, too_mjd0 K c a = Ok mjd0 /\
         too_plan K a mjd0 (t_plan K) 0 spin pts (t_pix K a) = (spin', Ok l) /\ rows = t_gen K c a (List.concat l))
  end.
Proof.
  intros st c a st' o H. unfold new_event in H.
  destruct (flush_script K (u_s st) c) as [s1 fr] eqn:EF. destruct fr as [u|e]; [|discriminate].
  apply flush_ok in EF. destruct EF as [W1 C1].
  destruct (follows K a) as [ok|e] eqn:EFo; [|discriminate].
  destruct ok; cbn [andb] in H.
  2: { injection H as <- <-. cbn. split; [exact C1|]. split; [now left|]. split; [discriminate|]. split; [auto|]. split; [auto|]. split; [exact W1|discriminate]. }
  destruct (smem (a_id a) (u_seen st)) eqn:ES; cbn [negb] in H.
  { apply smem_in in ES. injection H as <- <-. cbn. split; [exact C1|]. split; [now right|]. split; [auto|]. split; [auto|]. split; [auto|].
    split; [exact W1|]. intros _ N. contradiction. }
  assert (NI : ~ In (a_id a) (u_seen st)) by (intros Q; apply smem_in in Q; congruence).
  assert (SEEN : forall s sp, (In (a_id a) (u_seen (mkTst s (u_seen st ++ [a_id a]) sp))) /\
     (forall x, In x (u_seen st) -> In x (u_seen (mkTst s (u_seen st ++ [a_id a]) sp))) /\
     (forall x, In x (u_seen (mkTst s (u_seen st ++ [a_id a]) sp)) -> In x (u_seen st) \/ x = a_id a)).
  { intros s sp. cbn. split; [apply in_or_app; right; now left|]. split; [intros x Q; apply in_or_app; now left|].
    intros x Q. apply in_app_or in Q. destruct Q as [Q|[Q|[]]]; auto. }
  set (PR := match t_pix K a with [] => _ | _ => _ end) in H.
  destruct PR as [spin1 pr] eqn:EPR. destruct pr as [[pts|]|e]; [| |discriminate].
  - assert (OV : overlaps a).
    { unfold PR in EPR. unfold overlaps. destruct (t_pix K a); [|left; discriminate]. right. destruct (t_incenter K a); [reflexivity|discriminate]. }
    destruct (too_mjd0 K c a) as [mjd0|e] eqn:EM; [|discriminate].
    destruct (too_plan K a mjd0 (t_plan K) 0 spin1 pts (t_pix K a)) as [spin2 rr] eqn:EPL. destruct rr as [[|l0 l]|e]; [discriminate| |discriminate].
    set (rows := t_gen K c a (List.concat (l0 :: l))) in *.
    destruct (set_script (t_int K) s1 rows true true) as [s3 [v|e]] eqn:ESS; [|discriminate]. injection H as <- <-.
    apply set_script_ok in ESS. destruct ESS as (new & W3 & N3 & S3 & _ & _ & _ & _ & _ & IX). destruct (IX eq_refl) as [IX1 _].
    cbn in W3. destruct (SEEN s3 spin2) as (P1 & P2 & P3). cbn [u_s].
    split; [split; [exact N3|right; exact S3]|]. split; [now right|]. split; [intros _; exact P1|]. split; [exact P2|].
    split; [intros x X; destruct (P3 x X); auto|].
    split; [exact NI|]. split; [reflexivity|]. split; [exact P1|]. split; [exact OV|]. split.
    + exists s1, (st_id s1). split; [exact W1|]. rewrite W3, IX1. reflexivity.
    + exists pts, mjd0, spin1, spin2, (l0 :: l). auto.
  - injection H as <- <-. destruct (SEEN s1 spin1) as (P1 & P2 & P3). cbn [u_s].
    split; [exact C1|]. split; [now right|]. split; [intros _; exact P1|]. split; [exact P2|].
    split; [intros x X; destruct (P3 x X); auto|]. split; [exact W1|].
    intros _ _ OV. unfold PR in EPR. unfold overlaps in OV. destruct (t_pix K a) as [|p0 ps] eqn:EP.
    + destruct (t_incenter K a); [discriminate|]. destruct OV; congruence.
    + destruct (tesselate K (u_spin st) (p0 :: ps)) as [sp [r|e]]; cbn in EPR; discriminate.
Qed.

Definition log_ids (m : list (scond * alert * list sobs)) : list string := map (fun p => a_id (snd (fst p))) m.
Lemma nodup_cons_app : forall A (l1 l2 : list A), NoDup l1 -> NoDup l2 -> (forall x, In x l1 -> ~ In x l2) -> NoDup (l1 ++ l2).
Proof.
  induction l1 as [|x l1 IH]; intros l2 N1 N2 D; [exact N2|]. inversion N1; subst. cbn. constructor.
  - intros Q. apply in_app_or in Q. destruct Q as [Q|Q]; [contradiction|]. apply (D x); [now left|exact Q].
  - apply IH; auto. intros y Y. apply D. now right.
Qed.
Definition grows (st st' : tst) (m : list (scond * alert * list sobs)) : Prop :=
  NoDup (log_ids m) /\ (forall x, In x (log_ids m) -> ~ In x (u_seen st) /\ In x (u_seen st')) /\
  (forall x, In x (u_seen st) -> In x (u_seen st')).
Lemma grows_trans : forall a b c m n, grows a b m -> grows b c n -> grows a c (m ++ n).
Proof.
  intros a b c m n (N1 & D1 & S1) (N2 & D2 & S2). unfold grows, log_ids in *. rewrite map_app. split; [|split].
  - apply nodup_cons_app; auto. intros x X Y. destruct (D1 x X), (D2 x Y). contradiction.
  - intros x X. apply in_app_or in X. destruct X as [X|X].
    + destruct (D1 x X). auto.
    + destruct (D2 x X). split; auto.
  - auto.
Qed.
Lemma update_grows : forall c l st st' m, too_update K st c l = (st', Ok m) -> grows st st' m.
Proof.
  induction l as [|a r IH]; intros st st' m H; cbn in H.
  - injection H as <- <-. split; [constructor|]. split; [intros x []|auto].
  - destruct (new_event K st c a) as [st1 x] eqn:E. destruct x as [o|e]; [|discriminate].
    destruct (too_update K st1 c r) as [st2 y] eqn:E2. destruct y as [m2|e]; [|discriminate]. cbn in H. injection H as <- <-.
    apply new_event_ok in E. destruct E as (_ & _ & _ & S1 & S2 & O). specialize (IH _ _ _ E2).
    assert (G : grows st st1 (match o with Some rows => [(c, a, rows)] | None => [] end)).
    { destruct o as [rows|].
      - destruct O as (NI & _ & I1 & _). split; [repeat constructor; intros []|]. split; [|exact S1]. intros x [<-|[]]. auto.
      - split; [constructor|]. split; [intros x []|exact S1]. }
    pose proof (grows_trans _ _ _ _ _ G IH) as GT. destruct o; exact GT.
Qed.
Lemma run_grows : forall l st st' m, trun K st l = Some (st', m) -> grows st st' m.
Proof.
  induction l as [|o l IH]; intros st st' m H; cbn in H.
  - injection H as <- <-. split; [constructor|]. split; [intros x []|auto].
  - destruct (tstep K st o) as [[st1 m1]|] eqn:E; [|discriminate]. destruct (trun K st1 l) as [[st2 m2]|] eqn:E2; [|discriminate].
    injection H as <- <-. apply (grows_trans _ st1); [|now apply IH].
    assert (KEEP : forall s, grows st (mkTst s (u_seen st) (u_spin st)) []) by (intros s; split; [constructor|split; [intros x []|auto]]).
    destruct o as [c al|o|al|c]; cbn in E.
    + destruct (too_update K st c al) as [st3 [m3|e]] eqn:EU; [|discriminate]. injection E as <- <-. now apply (update_grows c al).
    + injection E as <- <-. apply KEEP.
    + injection E as <- <-. apply KEEP.
    + destruct (generate (t_scr K) (u_s st) c) as [s [r|e]]; [|discriminate]. injection E as <- <-. apply KEEP.
Qed.

(** Consistency and caches are as for a plain scripted survey. *)
Lemma set_last : forall py st l a i st' u, set_script py st l a i = (st', Ok u) -> st_last st' = st_last st /\ st_last_rough st' = st_last_rough st.
Proof. intros. apply set_script_ok in H. destruct H as (n & _ & _ & _ & _ & L1 & L2 & _). auto. Qed.
Lemma flush_last : forall st c st' u, flush_script K st c = (st', Ok u) -> st_last st' = st_last st /\ st_last_rough st' = st_last_rough st.
Proof.
  intros st c st' u H. unfold flush_script in H. destruct (filter _ _).
  - injection H as <- _. auto.
  - now apply set_last in H.
Qed.
Lemma event_last : forall st c a st' o, new_event K st c a = (st', Ok o) ->
  st_last (u_s st') = st_last (u_s st) /\ st_last_rough (u_s st') = st_last_rough (u_s st).
Proof.
  intros st c a st' o H. unfold new_event in H.
  destruct (flush_script K (u_s st) c) as [s1 fr] eqn:EF. destruct fr as [u|e]; [|discriminate]. apply flush_last in EF. destruct EF as [F1 F2].
  destruct (follows K a) as [ok|e]; [|discriminate]. destruct (ok && negb (smem (a_id a) (u_seen st))); [|injection H as <- _; auto].
  destruct (match t_pix K a with [] => _ | _ => _ end) as [spin1 [[pts|]|e]]; [| |discriminate].
  - destruct (too_mjd0 K c a) as [mjd0|e]; [|discriminate].
    destruct (too_plan K a mjd0 (t_plan K) 0 spin1 pts (t_pix K a)) as [spin2 [[|l0 l]|e]]; [discriminate| |discriminate].
    destruct (set_script (t_int K) s1 _ true true) as [s3 [v|e]] eqn:ES; [|discriminate]. injection H as <- _. apply set_last in ES. destruct ES as [E1 E2].
    cbn. now rewrite E1, E2.
  - injection H as <- _. auto.
Qed.
Lemma update_last : forall c l st st' m, too_update K st c l = (st', Ok m) ->
  st_last (u_s st') = st_last (u_s st) /\ st_last_rough (u_s st') = st_last_rough (u_s st) /\ (consistent (u_s st) -> consistent (u_s st')).
Proof.
  induction l as [|a r IH]; intros st st' m H; cbn in H; [injection H as <- _; auto|].
  destruct (new_event K st c a) as [st1 x] eqn:E. destruct x as [o|e]; [|discriminate].
  destruct (too_update K st1 c r) as [st2 y] eqn:E2. destruct y as [m2|e]; [|discriminate]. cbn in H. injection H as <- _.
  pose proof (event_last _ _ _ _ _ E) as [L1 L2]. apply new_event_ok in E. destruct E as [C1 _].
  destruct (IH _ _ _ E2) as (I1 & I2 & I3). rewrite I1, I2. auto.
Qed.
Definition tgen_at (t : Q) (l : list top) : Prop := exists c, In (TGen c) l /\ (c_mjd c == t)%Q.
Lemma trun_facts : forall l st st' m, consistent (u_s st) -> trun K st l = Some (st', m) ->
  consistent (u_s st') /\
  ((st_last (u_s st') == st_last (u_s st))%Q \/ tgen_at (st_last (u_s st')) l) /\
  ((st_last_rough (u_s st') == st_last_rough (u_s st))%Q \/ tgen_at (st_last_rough (u_s st')) l).
Proof.
  induction l as [|o l IH]; intros st st' m C H; cbn in H.
  - injection H as <- _. split; [exact C|]. split; left; reflexivity.
  - destruct (tstep K st o) as [[st1 m1]|] eqn:E; [|discriminate]. destruct (trun K st1 l) as [[st2 m2]|] eqn:E2; [|discriminate].
    injection H as <- _.
    assert (S : consistent (u_s st1) /\
       ((st_last (u_s st1) == st_last (u_s st))%Q \/ exists c, o = TGen c /\ (c_mjd c == st_last (u_s st1))%Q) /\
       ((st_last_rough (u_s st1) == st_last_rough (u_s st))%Q \/ exists c, o = TGen c /\ (c_mjd c == st_last_rough (u_s st1))%Q)).
    { destruct o as [c al|o|al|c]; cbn in E.
      - destruct (too_update K st c al) as [st3 [m3|e]] eqn:EU; [|discriminate]. injection E as <- _.
        apply update_last in EU. destruct EU as (L1 & L2 & L3). rewrite L1, L2. split; [auto|]. split; left; reflexivity.
      - injection E as <- _. cbn [u_s]. split; [apply (step_consistent (t_scr K) (t_int K) (u_s st) (SAdd o)); [exact C|reflexivity]|].
        unfold add_observation. destruct (st_wanted (u_s st)); [|destruct (good_note _ o)]; cbn; split; left; reflexivity.
      - injection E as <- _. cbn [u_s]. split; [apply (step_consistent (t_scr K) (t_int K) (u_s st) (SArray al)); [exact C|reflexivity]|].
        unfold add_array. destruct (st_wanted (u_s st)); cbn; split; left; reflexivity.
      - pose proof (generate_last (t_scr K) (u_s st) c) as GL. destruct (generate (t_scr K) (u_s st) c) as [s [r|e]] eqn:EG; [|discriminate].
        injection E as <- _. cbn [u_s]. split; [apply (step_consistent (t_scr K) (t_int K) (u_s st) (SGen c)); [exact C|cbn; now rewrite EG]|].
        cbn in GL. destruct (GL r eq_refl) as [G1 G2]. split; [right; exists c; split; [reflexivity|now symmetry]|].
        destruct G2 as [G2|G2]; [now left|right; exists c; split; [reflexivity|now symmetry]]. }
    destruct S as (S0 & S1 & S2). destruct (IH _ _ _ S0 E2) as (I0 & I1 & I2).
    assert (T : forall x y z, ((x == y)%Q \/ tgen_at x l) -> ((y == z)%Q \/ exists c, o = TGen c /\ (c_mjd c == y)%Q) -> (x == z)%Q \/ tgen_at x (o :: l)).
    { intros x y z [A|(c & I & A)] B.
      - destruct B as [B|(c & -> & B)]; [left; rewrite A; exact B|]. right. exists c. split; [now left|]. now rewrite B, A.
      - right. exists c. split; [now right|exact A]. }
    split; [exact I0|]. split; [exact (T _ _ _ I1 S1)|exact (T _ _ _ I2 S2)].
Qed.

(** ** The rows follow the plan *)
Definition row_for (a : alert) (mjd0 : Q) (p : visitplan) (b : string) (q : Q * Q) (s : sobs) : Prop :=
  s_mjd s = (mjd0 + v_time p)%Q /\ s_flush s = (mjd0 + v_time p + t_flush K)%Q /\ s_band s = b /\ s_ra s = fst q /\ s_dec s = snd q /\
  s_exptime s = v_exptime p /\ s_nexp s = (if String.eqb b "u" then t_usnaps K else t_snaps K) /\ s_done s = false /\
  s_tol s = t_tol K /\ s_alt_min s = t_alt_min K /\ s_alt_max s = t_alt_max K /\ s_ha_min s = t_ha_min K /\ s_ha_max s = t_ha_max K.
(** The visits in order: for each entry of the plan as many as asked for. *)
Definition visit_entries (ps : list visitplan) : list visitplan := flat_map (fun p => repeat p (v_n p)) ps.
Definition keys (vis : list (visitplan * list (Q * Q))) : list (visitplan * string * (Q * Q)) :=
  flat_map (fun v => flat_map (fun b => map (fun q => (fst v, b, q)) (snd v)) (v_bands (fst v))) vis.
Definition fits (a : alert) (mjd0 : Q) (k : visitplan * string * (Q * Q)) (s : sobs) : Prop :=
  row_for a mjd0 (fst (fst k)) (snd (fst k)) (snd k) s.

Lemma Forall2_len : forall A B (R : A -> B -> Prop) a b, Forall2 R a b -> List.length a = List.length b.
Proof. induction 1; cbn; congruence. Qed.
Lemma Forall2_app' : forall A B (R : A -> B -> Prop) a b c d, Forall2 R a c -> Forall2 R b d -> Forall2 R (a ++ b) (c ++ d).
Proof. intros. now apply Forall2_app. Qed.
Lemma visits_spec : forall a mjd0 p i n spin pts pix spin' pts' l,
  too_visits K a mjd0 p i n spin pts pix = (spin', Ok (pts', l)) ->
  exists vis, map fst vis = repeat p n /\ Forall2 (fits a mjd0) (keys vis) (List.concat l) /\
  (t_dither K = false -> pts' = pts /\ Forall (fun v => snd v = pts) vis).
Proof.
  induction n as [|n IH]; intros spin pts pix spin' pts' l H; cbn in H.
  - injection H as <- <- <-. exists []. split; [reflexivity|]. split; [constructor|]. intros _. split; [reflexivity|constructor].
  - set (T := match pix with [] => _ | _ => _ end) in H. destruct T as [spin1 r] eqn:ET. destruct r as [pts1|e]; [|discriminate].
    destruct (too_visits K a mjd0 p i n spin1 pts1 pix) as [spin2 r2] eqn:E2. destruct r2 as [[pts2 l2]|e]; [|discriminate].
    cbn in H. injection H as <- <- <-. destruct (IH _ _ _ _ _ _ E2) as (vis & V1 & V2 & V3).
    exists ((p, pts1) :: vis). cbn [map repeat fst]. split; [now rewrite V1|]. split.
    + cbn [keys flat_map fst snd]. rewrite concat_app. apply Forall2_app'; [|exact V2].
      clear. induction (v_bands p) as [|b bs IHb]; cbn; [constructor|]. apply Forall2_app'; [|exact IHb].
      clear. induction pts1 as [|q qs IHq]; cbn; constructor; [|exact IHq]. unfold fits, row_for. cbn. tauto.
    + intros D. assert (P1 : pts1 = pts). { unfold T in ET. rewrite D in ET. destruct pix; injection ET as _ ->; reflexivity. }
      subst pts1. destruct (V3 D) as [V4 V5]. subst. split; [reflexivity|]. constructor; [reflexivity|exact V5].
Qed.
Lemma plan_spec : forall a mjd0 ps i spin pts pix spin' l,
  too_plan K a mjd0 ps i spin pts pix = (spin', Ok l) ->
  exists vis, map fst vis = visit_entries ps /\ Forall2 (fits a mjd0) (keys vis) (List.concat l) /\
  (t_dither K = false -> Forall (fun v => snd v = pts) vis).
Proof.
  induction ps as [|p ps IH]; intros i spin pts pix spin' l H; cbn in H.
  - injection H as <- <-. exists []. split; [reflexivity|]. split; constructor.
  - destruct (too_visits K a mjd0 p i (v_n p) spin pts pix) as [spin1 x] eqn:EV. destruct x as [[pts1 l1]|e]; [|discriminate].
    destruct (too_plan K a mjd0 ps (S i) spin1 pts1 pix) as [spin2 y] eqn:EP. destruct y as [l2|e]; [|discriminate]. cbn in H. injection H as <- <-.
    destruct (visits_spec _ _ _ _ _ _ _ _ _ _ _ EV) as (v1 & A1 & A2 & A3). destruct (IH _ _ _ _ _ _ EP) as (v2 & B1 & B2 & B3).
    exists (v1 ++ v2). rewrite map_app, A1, B1. split; [reflexivity|]. split.
    + unfold keys. rewrite flat_map_app, concat_app. apply Forall2_app'; assumption.
    + intros D. destruct (A3 D) as [-> A5]. apply Forall_app. auto.
Qed.
Lemma log_plan_update : forall c l st st' m, too_update K st c l = (st', Ok m) ->
  forall e, In e m -> fst (fst e) = c /\ In (snd (fst e)) l /\ follows K (snd (fst e)) = Ok true /\ overlaps (snd (fst e)) /\
  exists pts mjd0 spin spin' l, too_mjd0 K c (snd (fst e)) = Ok mjd0 /\
    too_plan K (snd (fst e)) mjd0 (t_plan K) 0 spin pts (t_pix K (snd (fst e))) = (spin', Ok l) /\ snd e = t_gen K c (snd (fst e)) (List.concat l).
Proof.
  induction l as [|a r IH]; intros st st' m H e IE; cbn in H; [injection H as _ <-; destruct IE|].
  destruct (new_event K st c a) as [st1 x] eqn:E. destruct x as [o|ex]; [|discriminate].
  destruct (too_update K st1 c r) as [st2 y] eqn:E2. destruct y as [m2|ex]; [|discriminate]. cbn in H. injection H as _ <-.
  apply new_event_ok in E. destruct E as (_ & _ & _ & _ & _ & O).
  destruct o as [rows|].
  - destruct IE as [<-|IE].
    + destruct O as (_ & F & _ & OV & _ & P). cbn [fst snd]. split; [reflexivity|]. split; [now left|]. split; [exact F|]. split; [exact OV|]. exact P.
    + destruct (IH _ _ _ E2 e IE) as (A & B & D). split; [exact A|]. split; [now right|exact D].
  - destruct (IH _ _ _ E2 e IE) as (A & B & D). split; [exact A|]. split; [now right|exact D].
Qed.
Lemma log_plan : forall l st st' m, trun K st l = Some (st', m) -> forall e, In e m ->
  (exists al, In (TUpdate (fst (fst e)) al) l /\ In (snd (fst e)) al) /\ follows K (snd (fst e)) = Ok true /\ overlaps (snd (fst e)) /\
  exists pts mjd0 spin spin' l, too_mjd0 K (fst (fst e)) (snd (fst e)) = Ok mjd0 /\
    too_plan K (snd (fst e)) mjd0 (t_plan K) 0 spin pts (t_pix K (snd (fst e))) = (spin', Ok l) /\ snd e = t_gen K (fst (fst e)) (snd (fst e)) (List.concat l).
Proof.
  induction l as [|o l IH]; intros st st' m H e IE; cbn in H; [injection H as _ <-; destruct IE|].
  destruct (tstep K st o) as [[st1 m1]|] eqn:E; [|discriminate]. destruct (trun K st1 l) as [[st2 m2]|] eqn:E2; [|discriminate].
  injection H as _ <-. apply in_app_or in IE. destruct IE as [IE|IE].
  - destruct o as [c al|o|al|c]; cbn in E.
    + destruct (too_update K st c al) as [st3 [m3|ex]] eqn:EU; [|discriminate]. injection E as _ <-.
      destruct (log_plan_update _ _ _ _ _ EU e IE) as (<- & B & F & OV & P). split; [|split; [exact F|split; [exact OV|exact P]]].
      exists al. split; [now left|exact B].
    + injection E as _ <-. destruct IE.
    + injection E as _ <-. destruct IE.
    + destruct (generate _ _ _) as [s [r|ex]]; [|discriminate]. injection E as _ <-. destruct IE.
  - destruct (IH _ _ _ E2 e IE) as ((al & A & B) & D). split; [|exact D]. exists al. split; [now right|exact B].
Qed.

(** ** Every followed alert is scripted *)
Lemma update_scripts : forall c l st st' m, too_update K st c l = (st', Ok m) ->
  forall a, In a l -> follows K a = Ok true -> (forall a', In a' l -> a_id a' = a_id a -> follows K a' = Ok true -> overlaps a') ->
  In (a_id a) (u_seen st) \/ In (a_id a) (log_ids m).
Proof.
  induction l as [|x r IH]; intros st st' m H a IA F OV; [destruct IA|]. cbn in H.
  destruct (new_event K st c x) as [st1 y] eqn:E. destruct y as [o|ex]; [|discriminate].
  destruct (too_update K st1 c r) as [st2 z] eqn:E2. destruct z as [m2|ex]; [|discriminate]. cbn in H. injection H as _ <-.
  apply new_event_ok in E. destruct E as (_ & _ & F1 & S1 & S2 & O).
  destruct (in_dec string_dec (a_id a) (u_seen st)) as [I|NI]; [now left|]. right.
  destruct (string_dec (a_id x) (a_id a)) as [EQ|NE].
  - assert (FX : follows K x = Ok true \/ follows K x <> Ok true) by (destruct (follows K x) as [[]|]; [left; reflexivity|right; discriminate|right; discriminate]).
    destruct FX as [FX|FX].
    + destruct o as [rows|]; [left; exact EQ|]. destruct O as [_ O]. exfalso. apply (O FX); [now rewrite EQ|]. apply OV; [now left|exact EQ|exact FX].
    + destruct IA as [->|IA]; [contradiction|].
      destruct (IH _ _ _ E2 a IA F) as [Q|Q]; [intros a' A'; apply OV; now right| |destruct o; [right|]; exact Q].
      exfalso. destruct (S2 _ Q) as [Q'|[_ Q']]; contradiction.
  - destruct IA as [->|IA]; [congruence|].
    destruct (IH _ _ _ E2 a IA F) as [Q|Q]; [intros a' A'; apply OV; now right| |destruct o; [right|]; exact Q].
    exfalso. destruct (S2 _ Q) as [Q'|[Q' _]]; [contradiction|congruence].
Qed.
(** Ids are in the seen list only if an alert with that id was followed. *)
Definition alerts_of (l : list top) : list alert := flat_map (fun o => match o with TUpdate _ al => al | _ => [] end) l.
Lemma update_seen : forall c l st st' m, too_update K st c l = (st', Ok m) ->
  forall x, In x (u_seen st') -> In x (u_seen st) \/
    (exists a, In a l /\ a_id a = x /\ follows K a = Ok true).
Proof.
  induction l as [|a r IH]; intros st st' m H x X; cbn in H; [injection H as <- _; now left|].
  destruct (new_event K st c a) as [st1 y] eqn:E. destruct y as [o|ex]; [|discriminate].
  destruct (too_update K st1 c r) as [st2 z] eqn:E2. destruct z as [m2|ex]; [|discriminate]. cbn in H. injection H as <- _.
  apply new_event_ok in E. destruct E as (_ & _ & _ & _ & S2 & _).
  destruct (IH _ _ _ E2 x X) as [Q|(b & B1 & B2)]; [|right; exists b; split; [now right|exact B2]].
  destruct (S2 x Q) as [Q'|[-> F]]; [now left|]. right. exists a. split; [now left|auto].
Qed.
Lemma run_scripts : forall l st st' m, trun K st l = Some (st', m) ->
  forall a, In a (alerts_of l) -> follows K a = Ok true ->
  (forall a', In a' (alerts_of l) -> a_id a' = a_id a -> follows K a' = Ok true -> overlaps a') ->
  In (a_id a) (u_seen st) \/ In (a_id a) (log_ids m).
Proof.
  induction l as [|o l IH]; intros st st' m H a IA F OV; [destruct IA|]. cbn in H.
  destruct (tstep K st o) as [[st1 m1]|] eqn:E; [|discriminate]. destruct (trun K st1 l) as [[st2 m2]|] eqn:E2; [|discriminate].
  injection H as _ <-. unfold log_ids. rewrite map_app. fold (log_ids m1). fold (log_ids m2).
  destruct (in_dec string_dec (a_id a) (u_seen st)) as [I|NI]; [now left|]. right. apply in_or_app.
  assert (REST : In a (alerts_of l) -> u_seen st1 = u_seen st -> In (a_id a) (log_ids m1) \/ In (a_id a) (log_ids m2)).
  { intros IA' ES. right. destruct (IH _ _ _ E2 a IA' F) as [Q|Q]; [|rewrite ES in Q; contradiction|exact Q].
    intros a' A'. apply OV. cbn. apply in_or_app. now right. }
  destruct o as [c al|o|al|c]; cbn in E, IA.
  - destruct (too_update K st c al) as [st3 [m3|ex]] eqn:EU; [|discriminate]. injection E as <- <-.
    assert (OVal : forall a', In a' al -> a_id a' = a_id a -> follows K a' = Ok true -> overlaps a') by (intros a' A'; apply OV; cbn; apply in_or_app; now left).
    apply in_app_or in IA. destruct IA as [IA|IA].
    + destruct (update_scripts _ _ _ _ _ EU a IA F OVal) as [Q|Q]; [contradiction|now left].
    + destruct (IH _ _ _ E2 a IA F) as [Q|Q]; [intros a' A'; apply OV; cbn; apply in_or_app; now right| |now right].
      destruct (update_seen _ _ _ _ _ EU _ Q) as [Q'|(b & B1 & B2 & B3)]; [contradiction|]. left. rewrite <- B2 in NI |- *.
      destruct (update_scripts _ _ _ _ _ EU b B1 B3) as [Q'|Q']; [|contradiction|exact Q'].
      intros a' A' EA FA. apply OVal; auto. now rewrite EA.
  - injection E as <- <-. now apply REST.
  - injection E as <- <-. now apply REST.
  - destruct (generate _ _ _) as [s [r|ex]]; [|discriminate]. injection E as <- <-. now apply REST.
Qed.
End Too.
