(** Proofs about the scripted survey model. *)
From Coq Require Import List ZArith QArith Qround Bool String Ascii Lia Lqa Permutation DecimalString DecimalZ Decimal.
From Verif Require Import Base Obs Labels Script.
Import ListNotations.
Open Scope nat_scope.

(** ** Modulo *)
Lemma Qmod_range : forall x m, (0 < m)%Q -> (0 <= Qmod x m)%Q /\ (Qmod x m < m)%Q.
Proof.
  intros x m Hm. unfold Qmod. pose proof (Qfloor_le (x / m)) as H1. pose proof (Qlt_floor (x / m)) as H2.
  rewrite inject_Z_plus in H2. change (inject_Z 1) with 1%Q in H2.
  set (f := inject_Z (Qfloor (x / m))) in *.
  assert (E : (x == x / m * m)%Q) by (field; lra). set (y := (x / m)%Q) in *. clearbody y f.
  split; nra.
Qed.
(** [az] lies on the arc from [lo] eastwards to [hi], up to full turns. *)
Definition on_arc (turn lo hi az : Q) : Prop :=
  exists j k : Z, (lo <= az + inject_Z k * turn)%Q /\ (az + inject_Z k * turn <= hi + inject_Z j * turn)%Q /\
    (hi + inject_Z j * turn < lo + turn)%Q.
Lemma Qmod_le_iff : forall turn lo hi az, (0 < turn)%Q ->
  (Qmod (az - lo) turn <= Qmod (hi - lo) turn)%Q <-> on_arc turn lo hi az.
Proof.
  intros turn lo hi az T. destruct (Qmod_range (az - lo) turn T) as [A1 A2]. destruct (Qmod_range (hi - lo) turn T) as [B1 B2].
  unfold Qmod in *. set (p := Qfloor ((az - lo) / turn)) in *. set (q := Qfloor ((hi - lo) / turn)) in *.
  split.
  - intros H. exists (- q)%Z, (- p)%Z. rewrite !inject_Z_opp. repeat split; lra.
  - intros (j & k & H1 & H2 & H3). clearbody p q.
    assert (U : forall x (n m : Z), (0 <= x + inject_Z n * turn)%Q -> (x + inject_Z n * turn < turn)%Q ->
       (0 <= x + inject_Z m * turn)%Q -> (x + inject_Z m * turn < turn)%Q -> n = m).
    { intros x n m N1 N2 M1 M2. destruct (Z.lt_trichotomy n m) as [L|[L|L]]; [|exact L|]; exfalso.
      - assert (inject_Z n + 1 <= inject_Z m)%Q by (change 1%Q with (inject_Z 1); rewrite <- inject_Z_plus, <- Zle_Qle; lia). nra.
      - assert (inject_Z m + 1 <= inject_Z n)%Q by (change 1%Q with (inject_Z 1); rewrite <- inject_Z_plus, <- Zle_Qle; lia). nra. }
    assert (K : k = (- p)%Z) by (apply (U (az - lo)%Q); rewrite ?inject_Z_opp; lra).
    assert (J : j = (- q)%Z) by (apply (U (hi - lo)%Q); rewrite ?inject_Z_opp; lra).
    subst. rewrite !inject_Z_opp in *. lra.
Qed.

Lemma smem_in : forall x l, smem x l = true <-> In x l.
Proof. exact mem_in. Qed.

(** ** What an entry must satisfy to be offered *)
Section Scripted.
Variable F : scfg.
Variable py_int : string -> option Z.
Notation run := (srun F py_int).

(** The hour angle in [0, 24) is above HA_max or below HA_min. *)
Definition hours_ok (c : scond) (s : sobs) : Prop :=
  exists (k : Z) (ha : Q), (ha == c_lmst c - g_hours F (s_ra s) + 24 * inject_Z k)%Q /\ (0 <= ha)%Q /\ (ha < 24)%Q /\
  ((s_ha_max s < ha)%Q \/ (ha < s_ha_min s)%Q).
(** Sidereal time and right ascension in hours are in [0, 24). *)
Definition in_hours (c : scond) (s : sobs) : Prop :=
  (0 <= c_lmst c)%Q /\ (c_lmst c < 24)%Q /\ (0 <= g_hours F (s_ra s))%Q /\ (g_hours F (s_ra s) < 24)%Q.
Lemma hours_iff : forall c s, in_hours c s ->
  (let ha := hour_angle F c s in (s_ha_max s < ha)%Q \/ (ha < s_ha_min s)%Q) <-> hours_ok c s.
Proof.
  intros c s (L1 & L2 & H1 & H2). unfold hour_angle, hours_ok. cbv zeta. set (r := (c_lmst c - g_hours F (s_ra s))%Q).
  assert (R : (- (24) < r)%Q /\ (r < 24)%Q) by (unfold r; split; lra). clearbody r. destruct R as [R1 R2].
  assert (E : Qltb 24 r = false) by (apply Qltb_false; lra). rewrite E.
  destruct (Qltb r 0) eqn:N.
  - apply Qltb_lt in N. split.
    + intros H. exists 1%Z, (r + 24)%Q. change (inject_Z 1) with 1%Q. repeat split; try lra; try exact H.
    + intros (k & ha & K & K0 & K1 & H). assert (k = 1%Z).
      { assert (A : (0 < inject_Z k)%Q) by lra. assert (B : (inject_Z k < 2)%Q) by lra.
        change 0%Q with (inject_Z 0) in A. change 2%Q with (inject_Z 2) in B. rewrite <- Zlt_Qlt in A, B. lia. }
      subst k. change (inject_Z 1) with 1%Q in K. destruct H; [left|right]; lra.
  - apply Qltb_false in N. split.
    + intros H. exists 0%Z, r. change (inject_Z 0) with 0%Q. repeat split; try lra; try exact H.
    + intros (k & ha & K & K0 & K1 & H). assert (k = 0%Z).
      { assert (A : (-1 < inject_Z k)%Q) by lra. assert (B : (inject_Z k < 1)%Q) by lra.
        change (-1)%Q with (inject_Z (-1)) in A. change 1%Q with (inject_Z 1) in B. rewrite <- Zlt_Qlt in A, B. lia. }
      subst k. change (inject_Z 0) with 0%Q in K. destruct H; [left|right]; lra.
Qed.
Definition alt_in (l : Q * Q) (alt : Q) : Prop :=
  ((fst l <= alt)%Q /\ (alt <= snd l)%Q) \/ ((snd l <= alt)%Q /\ (alt <= fst l)%Q).
Definition az_in (l : Q * Q) (az : Q) : Prop :=
  (g_turn F <= snd l - fst l)%Q \/ (g_turn F <= fst l - snd l)%Q \/ on_arc (g_turn F) (fst l) (snd l) az.
Definition eligible (c : scond) (s : sobs) : Prop :=
  let alt := g_alt F c (s_ra s) (s_dec s) in
  let az := g_az F c (s_ra s) (s_dec s) in
  s_done s = false /\
  (s_mjd s - s_tol s < c_mjd c)%Q /\ (c_mjd c < s_flush s)%Q /\
  (f_mounted F = true -> In (s_band s) (c_mounted c)) /\
  (f_active F = true -> s_band s = c_band c) /\
  (s_moon_min s < g_moon F c (s_ra s) (s_dec s))%Q /\
  (s_alt_min s < alt)%Q /\ (alt < s_alt_max s)%Q /\ hours_ok c s /\
  (c_sun_alt c < s_sun_alt_max s)%Q /\
  (forall ls, c_sky_alt c = Some ls -> exists l, In l ls /\ alt_in l alt) /\
  alt_in (c_tel_alt c) alt /\
  (forall ls, c_sky_az c = Some ls -> exists l, In l ls /\ az_in l az) /\
  az_in (c_tel_az c) az /\
  (forall ok, f_mask F c = Some ok -> ok s = true).

Lemma alt_in_iff : forall l a, Qle_bool (Qmin2 l) a && Qle_bool a (Qmax2 l) = true <-> alt_in l a.
Proof.
  intros [x y] a. unfold Qmin2, Qmax2, alt_in; cbn [fst snd]. rewrite andb_true_iff.
  destruct (Qle_bool x y) eqn:E; rewrite !Qle_bool_iff.
  - apply Qle_bool_iff in E. split; [tauto|]. intros [K|[K1 K2]]; [exact K|]. split; lra.
  - apply Qle_bool_false in E. split; [tauto|]. intros [[K1 K2]|K]; [split; lra|exact K].
Qed.
Lemma az_in_iff : (0 < g_turn F)%Q -> forall l a,
  (if Qle_bool (g_turn F) (Qabsb (snd l - fst l)) then true else az_inside F a l) = true <-> az_in l a.
Proof.
  intros T [x y] a. unfold az_in, az_inside, Qabsb; cbn [fst snd].
  rewrite <- (Qmod_le_iff _ x y a T).
  destruct (Qle_bool 0 (y - x)) eqn:S.
  - apply Qle_bool_iff in S. destruct (Qle_bool (g_turn F) (y - x)) eqn:L; rewrite ?Qle_bool_iff.
    + apply Qle_bool_iff in L. tauto.
    + apply Qle_bool_false in L. split; [tauto|]. intros [K|[K|K]]; [lra|lra|exact K].
  - apply Qle_bool_false in S. destruct (Qle_bool (g_turn F) (- (y - x))) eqn:L; rewrite ?Qle_bool_iff.
    + apply Qle_bool_iff in L. split; [|tauto]. intros _. right. left. lra.
    + apply Qle_bool_false in L. split; [tauto|]. intros [K|[K|K]]; [lra|lra|exact K].
Qed.
Lemma tel_az_iff : (0 < g_turn F)%Q -> forall l a,
  (if Qltb (Qabsb (snd l - fst l)) (g_turn F) then az_inside F a l else true) = true <-> az_in l a.
Proof.
  intros T l a. rewrite <- (az_in_iff T l a). unfold Qltb. destruct (Qle_bool (g_turn F) (Qabsb (snd l - fst l))); cbn; tauto.
Qed.

Definition selected (c : scond) (s : sobs) : bool :=
  Qltb (s_mjd s - s_tol s) (c_mjd c) && Qltb (c_mjd c) (s_flush s) && negb (s_done s)
  && check_alts_ha F c s
  && (if f_mounted F then smem (s_band s) (c_mounted c) else true)
  && (if f_active F then String.eqb (s_band s) (c_band c) else true).
Definition masked (c : scond) (s : sobs) : bool := match f_mask F c with None => true | Some ok => ok s end.

Lemma check_alts_iff : (0 < g_turn F)%Q -> forall c s, in_hours c s ->
  let alt := g_alt F c (s_ra s) (s_dec s) in
  let az := g_az F c (s_ra s) (s_dec s) in
  check_alts_ha F c s = true <->
  ((s_moon_min s < g_moon F c (s_ra s) (s_dec s))%Q /\ (s_alt_min s < alt)%Q /\ (alt < s_alt_max s)%Q /\ hours_ok c s /\
  (c_sun_alt c < s_sun_alt_max s)%Q /\
  (forall ls, c_sky_alt c = Some ls -> exists l, In l ls /\ alt_in l alt) /\
  alt_in (c_tel_alt c) alt /\
  (forall ls, c_sky_az c = Some ls -> exists l, In l ls /\ az_in l az) /\
  az_in (c_tel_az c) az).
Proof.
  intros T c s IH alt az. unfold check_alts_ha. fold alt az.
  rewrite !andb_true_iff, orb_true_iff, !Qltb_lt.
  rewrite (tel_az_iff T). rewrite <- (alt_in_iff (c_tel_alt c) alt), andb_true_iff.
  assert (S1 : match c_sky_alt c with None => true | Some ls => existsb (fun l => Qle_bool (Qmin2 l) alt && Qle_bool alt (Qmax2 l)) ls end = true
     <-> (forall ls, c_sky_alt c = Some ls -> exists l, In l ls /\ alt_in l alt)).
  { destruct (c_sky_alt c) as [ls|].
    - rewrite existsb_exists. split.
      + intros (l & I & H) ls' [= <-]. exists l. split; [exact I|]. now apply alt_in_iff.
      + intros H. destruct (H ls eq_refl) as (l & I & K). exists l. split; [exact I|]. now apply alt_in_iff.
    - split; [discriminate|reflexivity]. }
  assert (S2 : match c_sky_az c with None => true | Some ls => existsb (fun l => if Qle_bool (g_turn F) (Qabsb (snd l - fst l)) then true else az_inside F az l) ls end = true
     <-> (forall ls, c_sky_az c = Some ls -> exists l, In l ls /\ az_in l az)).
  { destruct (c_sky_az c) as [ls|].
    - rewrite existsb_exists. split.
      + intros (l & I & H) ls' [= <-]. exists l. split; [exact I|]. now apply (az_in_iff T).
      + intros H. destruct (H ls eq_refl) as (l & I & K). exists l. split; [exact I|]. now apply (az_in_iff T).
    - split; [discriminate|reflexivity]. }
  rewrite S1, S2. rewrite <- (hours_iff c s IH). cbv zeta. tauto.
Qed.

Lemma eligible_iff : (0 < g_turn F)%Q -> forall c s, in_hours c s -> eligible c s <-> selected c s = true /\ masked c s = true.
Proof.
  intros T c s IH. unfold eligible, selected. rewrite !andb_true_iff, !Qltb_lt, negb_true_iff, (check_alts_iff T c s IH).
  assert (M1 : (if f_mounted F then smem (s_band s) (c_mounted c) else true) = true <-> (f_mounted F = true -> In (s_band s) (c_mounted c))).
  { destruct (f_mounted F); [rewrite smem_in; tauto|split; [discriminate|reflexivity]]. }
  assert (M2 : (if f_active F then String.eqb (s_band s) (c_band c) else true) = true <-> (f_active F = true -> s_band s = c_band c)).
  { destruct (f_active F); [rewrite String.eqb_eq; tauto|split; [discriminate|reflexivity]]. }
  assert (M3 : masked c s = true <-> (forall ok, f_mask F c = Some ok -> ok s = true)).
  { unfold masked. destruct (f_mask F c) as [ok|]; [|split; [discriminate|reflexivity]].
    split; [intros H ok' [= <-]; exact H|intros H; now apply H]. }
  rewrite M1, M2, M3. cbn zeta. tauto.
Qed.

(** ** Reachable states *)
Definition consistent (st : sst) : Prop :=
  NoDup (map s_note (st_wanted st)) /\
  (st_wanted st = [] \/ st_start st = Some (map (fun s => (s_mjd s - s_tol s)%Q) (st_wanted st))).

Lemma nodupb_iff : forall l, nodupb l = true <-> NoDup l.
Proof.
  induction l as [|x r IH]; cbn; [split; [constructor|reflexivity]|].
  rewrite andb_true_iff, negb_true_iff, IH. split.
  - intros [H1 H2]. constructor; [|exact H2]. rewrite <- smem_in, H1. discriminate.
  - intros H. inversion H; subst. split; [|assumption]. destruct (smem x r) eqn:E; [|reflexivity]. now apply smem_in in E.
Qed.
Lemma mark_notes : forall n l, map s_note (mark_first n l) = map s_note l.
Proof. induction l as [|s r IH]; cbn; [reflexivity|]. destruct (String.eqb (s_note s) n && negb (s_done s)); cbn; [reflexivity|now rewrite IH]. Qed.
Lemma mark_starts : forall n l, map (fun s => (s_mjd s - s_tol s)%Q) (mark_first n l) = map (fun s => (s_mjd s - s_tol s)%Q) l.
Proof. induction l as [|s r IH]; cbn; [reflexivity|]. destruct (String.eqb (s_note s) n && negb (s_done s)); cbn; [reflexivity|now rewrite IH]. Qed.

Lemma set_script_ok : forall st l a i st' u, set_script py_int st l a i = (st', Ok u) ->
  exists new, st_wanted st' = (if a then st_wanted st ++ new else new) /\ NoDup (map s_note (st_wanted st')) /\
  st_start st' = Some (map (fun s => (s_mjd s - s_tol s)%Q) (st_wanted st')) /\
  st_sched st' = Some (map s_mjd (st_wanted st')) /\
  st_last st' = st_last st /\ st_last_rough st' = st_last_rough st /\ st_rough st' = st_rough st /\ st_obs st' = st_obs st /\
  (i = true -> new = index_notes (st_id st) (map sbackfill l) /\ st_id st' = (st_id st + Z.of_nat (List.length l))%Z).
Proof.
  intros st l a i st' u H. unfold set_script in H.
  set (pre := if i then _ else _) in H.
  destruct pre as [[new id]|e] eqn:EP; [|discriminate].
  set (w := if a then _ else _) in H. destruct (nodupb (map s_note w)) eqn:ND; [|discriminate].
  injection H as <- _. exists new. cbn. split; [reflexivity|]. split; [now apply nodupb_iff|]. repeat (split; [reflexivity|]).
  intros ->. unfold pre in EP. injection EP as <- <-. rewrite map_length. auto.
Qed.

Lemma generate_keeps : forall st c, let st' := fst (generate F st c) in
  st_wanted st' = st_wanted st /\ st_start st' = st_start st /\ st_sched st' = st_sched st /\ st_id st' = st_id st /\ st_seen st' = st_seen st.
Proof.
  intros st c. unfold generate, generate_rough. destruct (Qeq_bool (st_last st) (c_mjd c)); [cbn; tauto|].
  destruct (Qeq_bool (st_last_rough st) (c_mjd c)); [cbn; tauto|].
  destruct (check_list F st c) as [[|x l]|e]; [cbn; tauto| |cbn; tauto].
  destruct (f_twi F && _); cbn; tauto.
Qed.
Lemma generate_last : forall st c l, snd (generate F st c) = Ok l ->
  (st_last (fst (generate F st c)) == c_mjd c)%Q /\
  ((st_last_rough (fst (generate F st c)) == st_last_rough st)%Q \/ (st_last_rough (fst (generate F st c)) == c_mjd c)%Q).
Proof.
  intros st c l H. unfold generate, generate_rough in *. destruct (Qeq_bool (st_last st) (c_mjd c)) eqn:E1.
  { cbn. apply Qeq_bool_iff in E1. split; [exact E1|left; reflexivity]. }
  destruct (Qeq_bool (st_last_rough st) (c_mjd c)) eqn:E2.
  { cbn. split; [reflexivity|left; reflexivity]. }
  destruct (check_list F st c) as [[|x m]|e]; [cbn; split; [reflexivity|right; reflexivity]| |discriminate].
  destruct (f_twi F && _); cbn; (split; [reflexivity|]); [left|right]; reflexivity.
Qed.

Lemma step_consistent : forall st o st', consistent st -> sstep F py_int st o = Some st' -> consistent st'.
Proof.
  intros st o st' [N S] H. unfold consistent. destruct o as [l a i| |o|l|c]; cbn in H.
  - destruct (set_script py_int st l a i) as [st1 [u|e]] eqn:E; [|discriminate]. injection H as <-.
    apply set_script_ok in E. destruct E as (new & _ & N' & S' & _). auto.
  - injection H as <-. cbn. split; [constructor|now left].
  - injection H as <-. unfold add_observation. destruct (st_wanted st) as [|s r] eqn:W; [rewrite W in *; auto|].
    destruct (good_note F o); [|rewrite W in *; auto]. cbn [with_wanted st_wanted st_start with_seen].
    rewrite mark_notes, mark_starts. split; [exact N|]. right. destruct S as [S|S]; [discriminate|exact S].
  - injection H as <-. unfold add_array. destruct (st_wanted st) as [|s r] eqn:W; [cbn; rewrite W in *; auto|].
    cbn [st_wanted st_start]. rewrite !map_map. split.
    + erewrite map_ext; [exact N|]. intros x. destruct (smem _ _); reflexivity.
    + right. destruct S as [S|S]; [discriminate|]. rewrite S. f_equal. apply map_ext. intros x. destruct (smem _ _); reflexivity.
  - pose proof (generate_keeps st c) as (K1 & K2 & _). destruct (generate F st c) as [st1 [u|e]]; [|discriminate]. injection H as <-.
    cbn in K1, K2. rewrite K1, K2. auto.
Qed.
Lemma run_consistent : forall l st st', consistent st -> run st l = Some st' -> consistent st'.
Proof.
  induction l as [|o l IH]; intros st st' C H; cbn in H; [injection H as <-; exact C|].
  destruct (sstep F py_int st o) as [st1|] eqn:E; [|discriminate]. apply (IH st1 st'); [|exact H]. now apply (step_consistent st o).
Qed.
Lemma init_consistent : forall id, consistent (script_init id).
Proof. intros. split; [constructor|now left]. Qed.

(** The cached times are times of earlier generate calls. *)
Definition gen_at (t : Q) (l : list sop) : Prop := exists c, In (SGen c) l /\ (c_mjd c == t)%Q.
Lemma run_last : forall l st st', run st l = Some st' ->
  ((st_last st' == st_last st)%Q \/ gen_at (st_last st') l) /\
  ((st_last_rough st' == st_last_rough st)%Q \/ gen_at (st_last_rough st') l).
Proof.
  induction l as [|o l IH]; intros st st' H; cbn in H; [injection H as <-; split; left; reflexivity|].
  destruct (sstep F py_int st o) as [st1|] eqn:E; [|discriminate]. specialize (IH st1 st' H).
  assert (S : ((st_last st1 == st_last st)%Q \/ exists c, o = SGen c /\ (c_mjd c == st_last st1)%Q) /\
              ((st_last_rough st1 == st_last_rough st)%Q \/ exists c, o = SGen c /\ (c_mjd c == st_last_rough st1)%Q)).
  { destruct o as [m a i| |o|m|c]; cbn in E.
    - destruct (set_script py_int st m a i) as [st2 [u|e]] eqn:E2; [|discriminate]. injection E as <-.
      apply set_script_ok in E2. destruct E2 as (_ & _ & _ & _ & _ & L1 & L2 & _). rewrite L1, L2. split; left; reflexivity.
    - injection E as <-. cbn. split; left; reflexivity.
    - injection E as <-. unfold add_observation. destruct (st_wanted st); [|destruct (good_note F o)]; cbn; split; left; reflexivity.
    - injection E as <-. unfold add_array. destruct (st_wanted st); cbn; split; left; reflexivity.
    - pose proof (generate_last st c) as K. destruct (generate F st c) as [st2 [u|e]] eqn:E2; [|discriminate]. injection E as <-.
      cbn in K. destruct (K u eq_refl) as [K1 K2]. split; [right; exists c; split; [reflexivity|now symmetry]|].
      destruct K2 as [K2|K2]; [now left|right; exists c; split; [reflexivity|now symmetry]]. }
  assert (T : forall x y z, ((x == y)%Q \/ gen_at x l) -> ((y == z)%Q \/ exists c, o = SGen c /\ (c_mjd c == y)%Q) ->
     (x == z)%Q \/ gen_at x (o :: l)).
  { intros x y z [A|(c & I & A)] B.
    - destruct B as [B|(c & -> & B)]; [left; rewrite A; exact B|]. right. exists c. split; [now left|]. now rewrite B, A.
    - right. exists c. split; [now right|exact A]. }
  destruct IH as [I1 I2]. destruct S as [S1 S2]. split; [exact (T _ _ _ I1 S1)|exact (T _ _ _ I2 S2)].
Qed.

(** ** What is offered *)
Lemma combine_map_filter : forall A B (f : A -> B) (p : B * A -> bool) (l : list A),
  map snd (filter p (combine (map f l) l)) = filter (fun x => p (f x, x)) l.
Proof. induction l as [|x l IH]; cbn; [reflexivity|]. destruct (p (f x, x)); cbn; now rewrite IH. Qed.
Lemma filter_filter : forall A (p q : A -> bool) l, filter p (filter q l) = filter (fun x => q x && p x) l.
Proof. induction l as [|x l IH]; cbn; [reflexivity|]. destruct (q x); cbn; [destruct (p x); now rewrite IH|exact IH]. Qed.
Lemma filter_all : forall A (l : list A), filter (fun _ => true) l = l.
Proof. induction l; cbn; congruence. Qed.

Definition chosen (c : scond) (l : list sobs) : list sobs :=
  match f_sort F with
  | None => firstn (f_limit F) l
  | Some _ => if Nat.ltb (f_limit F) (List.length l) then firstn (f_limit F) (isort (ha_le F c) l) else l
  end.
Lemma starts_ok : forall st, st_start st = Some (map (fun s => (s_mjd s - s_tol s)%Q) (st_wanted st)) ->
  starts st = Ok (map (fun s => (s_mjd s - s_tol s)%Q) (st_wanted st)).
Proof.
  intros st S. unfold starts. rewrite S. destruct (st_wanted st) as [|x [|y r]]; cbn; [reflexivity|reflexivity|].
  rewrite !map_length, Nat.eqb_refl. reflexivity.
Qed.
Lemma chosen_nil : forall c, chosen c [] = [].
Proof. intros c. unfold chosen. destruct (f_sort F); [|destruct (f_limit F)]; reflexivity. Qed.
Lemma check_list_spec : forall st c, consistent st -> (f_sort F = None \/ f_sort F = Some "HA"%string) ->
  check_list F st c = Ok (chosen c (filter (fun s => selected c s && masked c s) (st_wanted st))).
Proof.
  intros st c [_ C] FS. unfold check_list.
  destruct C as [C|C]; [rewrite C; cbn; now rewrite chosen_nil|].
  rewrite (starts_ok st C). cbn [bind].
  destruct (st_wanted st) as [|s0 r0] eqn:W; [cbn; now rewrite chosen_nil|]. rewrite <- W in *. clear s0 r0 W.
  rewrite (combine_map_filter _ _ (fun s => (s_mjd s - s_tol s)%Q)). cbn [fst snd].
  rewrite filter_filter.
  set (w := st_wanted st) in *. clearbody w.
  set (m := if f_active F then _ else _).
  assert (EM : m = filter (selected c) w).
  { unfold m, selected. destruct (f_mounted F), (f_active F); rewrite ?filter_filter; apply filter_ext; intros x; rewrite ?andb_true_r, ?andb_assoc; reflexivity. }
  rewrite EM. rewrite <- filter_filter. set (n := filter (selected c) w). clearbody n. clear EM m.
  assert (K : (match f_mask F c with None => n | Some ok => filter ok n end) = filter (masked c) n).
  { unfold masked. destruct (f_mask F c); [reflexivity|now rewrite filter_all]. }
  rewrite K. clear K. destruct n as [|x n]; [cbn; now rewrite chosen_nil|].
  unfold chosen. destruct FS as [-> | ->]; reflexivity.
Qed.

Lemma insert_perm : forall le x l, Permutation (insert le x l) (x :: l).
Proof.
  induction l as [|y r IH]; cbn; [reflexivity|]. destruct (le x y); [reflexivity|].
  rewrite IH. constructor.
Qed.
Lemma isort_perm : forall le l, Permutation (isort le l) l.
Proof. induction l as [|x l IH]; cbn; [reflexivity|]. fold (isort le l). rewrite insert_perm. now constructor. Qed.

Lemma chosen_facts : forall c l, exists rest, Permutation (chosen c l ++ rest) l /\
  (List.length (chosen c l) <= f_limit F \/ rest = []) /\
  (rest <> [] -> List.length (chosen c l) = f_limit F) /\ List.length (chosen c l) <= f_limit F.
Proof.
  intros c l. unfold chosen. destruct (f_sort F) as [k|].
  - destruct (Nat.ltb (f_limit F) (List.length l)) eqn:E.
    + apply Nat.ltb_lt in E. pose proof (isort_perm (ha_le F c) l) as P. pose proof (Permutation_length P) as PL.
      exists (skipn (f_limit F) (isort (ha_le F c) l)). rewrite firstn_skipn, firstn_length. split; [exact P|].
      repeat split; try lia.
    + apply Nat.ltb_ge in E. exists []. rewrite app_nil_r. repeat split; auto. congruence.
  - exists (skipn (f_limit F) l). rewrite firstn_skipn, firstn_length. split; [reflexivity|].
    repeat split; try lia. intros H. destruct (Nat.le_gt_cases (List.length l) (f_limit F)); [|lia].
    rewrite skipn_all2 in H by assumption. congruence.
Qed.

(** What is offered at a time at which nothing has been generated before. *)
Definition fresh (st : sst) (c : scond) : Prop := ~ (st_last st == c_mjd c)%Q /\ ~ (st_last_rough st == c_mjd c)%Q.
Lemma run_fresh : forall id ops st c, run (script_init id) ops = Some st ->
  ~ (c_mjd c == -1)%Q -> (forall c', In (SGen c') ops -> ~ (c_mjd c' == c_mjd c)%Q) -> fresh st c.
Proof.
  intros id ops st c R N1 NG. apply run_last in R. cbn in R. destruct R as [[A|(c1 & I1 & A)] [B|(c2 & I2 & B)]]; split; intros K.
  all: try (apply N1; rewrite <- K; assumption).
  all: try (apply (NG _ I1); rewrite A; assumption).
  all: try (apply (NG _ I2); rewrite B; assumption).
Qed.

Definition apply_det (c : scond) (l : list sobs) : list obs :=
  match l with [] => [] | _ => f_det F c (map to_obs l) end.
Definition too_long (c : scond) (l : list sobs) : bool := f_twi F && Qltb (c_n18 c - c_mjd c) (time_needed F l).
Lemma generate_fresh : forall st c, fresh st c ->
  snd (generate F st c) = bind (check_list F st c) (fun l => Ok (match l with [] => [] | _ => if too_long c l then [] else apply_det c l end)).
Proof.
  intros st c [N1 N2]. unfold generate, generate_rough.
  destruct (Qeq_bool (st_last st) (c_mjd c)) eqn:E1; [apply Qeq_bool_iff in E1; contradiction|].
  destruct (Qeq_bool (st_last_rough st) (c_mjd c)) eqn:E2; [apply Qeq_bool_iff in E2; contradiction|].
  destruct (check_list F st c) as [[|x l]|e]; [reflexivity| |reflexivity]. cbn [bind].
  unfold too_long, apply_det. destruct (f_twi F && _); reflexivity.
Qed.

(** ** Completed notes *)
Definition closed (n : string) (st : sst) : Prop :=
  In n (map s_note (st_wanted st)) /\ forall s, In s (st_wanted st) -> s_note s = n -> s_done s = true.
Definition keeps (o : sop) : Prop := match o with SClear => False | SSet _ a _ => a = true | _ => True end.

Lemma mark_in : forall n l s, In s (mark_first n l) -> In s l \/ s_done s = true.
Proof.
  induction l as [|x r IH]; intros s H; [destruct H|]. cbn in H.
  destruct (String.eqb (s_note x) n && negb (s_done x)).
  - destruct H as [<-|H]; [right; reflexivity|left; now right].
  - destruct H as [<-|H]; [left; now left|]. destruct (IH s H); [left; now right|now right].
Qed.
Lemma mark_closed : forall n l s, NoDup (map s_note l) -> In s (mark_first n l) -> s_note s = n -> s_done s = true.
Proof.
  induction l as [|x r IH]; intros s N H E; [destruct H|]. cbn in N. inversion N as [|? ? N1 N2]; subst. cbn in H.
  destruct (String.eqb (s_note x) (s_note s)) eqn:EX.
  - apply String.eqb_eq in EX. cbn [andb] in H. destruct (s_done x) eqn:D; cbn [negb] in H.
    + destruct H as [<-|H]; [exact D|]. apply (IH s N2 H eq_refl).
    + destruct H as [<-|H]; [reflexivity|]. exfalso. apply N1. rewrite EX. now apply in_map.
  - cbn [andb] in H. destruct H as [<-|H]; [now rewrite String.eqb_refl in EX|]. apply (IH s N2 H eq_refl).
Qed.

Lemma closed_step : forall n st o st', consistent st -> closed n st -> keeps o -> sstep F py_int st o = Some st' -> closed n st'.
Proof.
  intros n st o st' C [I D] K H. pose proof (step_consistent st o st' C H) as C'. destruct o as [l a i| |o|l|c]; cbn in H.
  - cbn in K. subst a. destruct (set_script py_int st l true i) as [st1 [u|e]] eqn:E; [|discriminate]. injection H as <-.
    apply set_script_ok in E. destruct E as (new & W & N & _). cbn in W. unfold closed. rewrite W in *. rewrite map_app in *.
    split; [apply in_or_app; now left|]. intros s Hs Es. apply in_app_or in Hs. destruct Hs as [Hs|Hs]; [now apply D|].
    exfalso. apply in_split in I. destruct I as (a & b & I). rewrite I in N. rewrite <- app_assoc in N. cbn in N.
    apply NoDup_remove_2 in N. apply N. apply in_or_app. right. apply in_or_app. right. rewrite <- Es. now apply in_map.
  - destruct K.
  - injection H as <-. unfold add_observation in *. destruct (st_wanted st) as [|s0 r0] eqn:W; [destruct I|]. rewrite <- W in *.
    destruct (good_note F o); [|split; assumption]. unfold closed. cbn [with_wanted st_wanted]. rewrite mark_notes. split; [exact I|].
    intros s Hs Es. destruct (mark_in _ _ _ Hs) as [Hs'|Hs']; [now apply D|exact Hs'].
  - injection H as <-. unfold add_array. destruct (st_wanted st) as [|s0 r0] eqn:W; [destruct I|]. rewrite <- W in *.
    unfold closed. cbn [st_wanted]. rewrite map_map. split.
    + erewrite map_ext; [exact I|]. intros x. destruct (smem _ _); reflexivity.
    + intros s Hs Es. apply in_map_iff in Hs. destruct Hs as (x & <- & Hx). destruct (smem _ _); [reflexivity|now apply D].
  - pose proof (generate_keeps st c) as (K1 & _). destruct (generate F st c) as [st1 [u|e]]; [|discriminate]. injection H as <-.
    cbn in K1. unfold closed. rewrite K1. split; assumption.
Qed.
Lemma closed_run : forall n l st st', consistent st -> closed n st -> Forall keeps l -> run st l = Some st' -> closed n st'.
Proof.
  induction l as [|o l IH]; intros st st' C D K H; cbn in H; [injection H as <-; exact D|].
  destruct (sstep F py_int st o) as [st1|] eqn:E; [|discriminate]. inversion K; subst.
  apply (IH st1 st'); auto; [now apply (step_consistent st o)|now apply (closed_step n st o)].
Qed.
Lemma closed_add : forall st o, consistent st -> In (o_note o) (map s_note (st_wanted st)) -> good_note F o = true ->
  closed (o_note o) (add_observation F st o).
Proof.
  intros st o [N _] I G. unfold add_observation. destruct (st_wanted st) as [|s0 r0] eqn:W; [destruct I|]. rewrite <- W in *. rewrite G.
  unfold closed. cbn [with_wanted st_wanted]. rewrite mark_notes. split; [exact I|]. intros s Hs Es. apply (mark_closed (o_note o) (st_wanted st)); auto.
Qed.
Lemma closed_array : forall st l n, In n (map s_note (st_wanted st)) -> In n (map o_note l) -> closed n (add_array F st l).
Proof.
  intros st l n I G. unfold add_array. destruct (st_wanted st) as [|s0 r0] eqn:W; [destruct I|]. rewrite <- W in *.
  unfold closed. cbn [st_wanted]. rewrite map_map. split.
  - erewrite map_ext; [exact I|]. intros x. destruct (smem _ _); reflexivity.
  - intros s Hs Es. apply in_map_iff in Hs. destruct Hs as (x & <- & Hx).
    destruct (smem (s_note x) (map o_note l)) eqn:E; [reflexivity|]. exfalso. rewrite <- Es in G. apply smem_in in G. congruence.
Qed.
Lemma run_app : forall a b st, run st (a ++ b) = match run st a with Some st' => run st' b | None => None end.
Proof. induction a as [|o a IH]; intros; cbn; [reflexivity|]. destruct (sstep F py_int st o); [apply IH|reflexivity]. Qed.

(** ** Batch and single reporting *)
Definition mark_note (n : string) (s : sobs) : sobs := if String.eqb (s_note s) n then set_done s else s.
Lemma set_done_id : forall s, s_done s = true -> set_done s = s.
Proof. intros []; cbn. now intros ->. Qed.
Lemma mark_note_other : forall n l, ~ In n (map s_note l) -> map (mark_note n) l = l.
Proof.
  induction l as [|x r IH]; intros H; [reflexivity|]. cbn in *. unfold mark_note at 1.
  destruct (String.eqb (s_note x) n) eqn:E; [apply String.eqb_eq in E; tauto|]. f_equal. apply IH. tauto.
Qed.
Lemma mark_first_other : forall n l, ~ In n (map s_note l) -> mark_first n l = l.
Proof.
  induction l as [|x r IH]; intros H; [reflexivity|]. cbn in *.
  destruct (String.eqb (s_note x) n) eqn:E; [apply String.eqb_eq in E; tauto|]. cbn. f_equal. apply IH. tauto.
Qed.
Lemma mark_first_map : forall n l, NoDup (map s_note l) -> mark_first n l = map (mark_note n) l.
Proof.
  induction l as [|x r IH]; intros N; [reflexivity|]. cbn in *. inversion N as [|? ? N1 N2]; subst. unfold mark_note at 1.
  destruct (String.eqb (s_note x) n) eqn:E; cbn [andb]; [|now rewrite IH].
  apply String.eqb_eq in E. subst n. rewrite (mark_note_other _ _ N1). destruct (s_done x) eqn:D; cbn; [|reflexivity].
  rewrite (mark_first_other _ _ N1). now rewrite set_done_id.
Qed.
Lemma adds_wanted : forall l st, NoDup (map s_note (st_wanted st)) -> Forall (fun o => good_note F o = true) l ->
  st_wanted (fold_left (add_observation F) l st) = map (fun s => if smem (s_note s) (map o_note l) then set_done s else s) (st_wanted st) /\
  (st_wanted st <> [] -> st_seen (fold_left (add_observation F) l st) = st_seen st ++ l).
Proof.
  induction l as [|o l IH]; intros st N G; cbn [fold_left].
  - cbn. rewrite map_id, app_nil_r. auto.
  - inversion G as [|? ? G1 G2]; subst.
    assert (W : st_wanted (add_observation F st o) = map (mark_note (o_note o)) (st_wanted st)).
    { unfold add_observation. destruct (st_wanted st) eqn:W; [now rewrite W|]. rewrite G1. cbn [with_wanted st_wanted]. now apply mark_first_map. }
    assert (NE : map s_note (map (mark_note (o_note o)) (st_wanted st)) = map s_note (st_wanted st)).
    { rewrite map_map. apply map_ext. intros x. unfold mark_note. destruct (String.eqb _ _); reflexivity. }
    destruct (IH (add_observation F st o)) as [I1 I2]; [rewrite W, NE; exact N|exact G2|]. split.
    + rewrite I1, W, map_map. apply map_ext. intros x. unfold mark_note. cbn [map]. unfold smem at 2. cbn [existsb]. fold (smem (s_note x) (map o_note l)).
      destruct (String.eqb (s_note x) (o_note o)) eqn:E; cbn [orb]; [|reflexivity]. cbn [set_done s_note]. destruct (smem _ _); reflexivity.
    + intros NN. rewrite I2.
      * unfold add_observation. destruct (st_wanted st); [congruence|]. rewrite G1. cbn [with_wanted with_seen st_seen]. now rewrite <- app_assoc.
      * rewrite W. destruct (st_wanted st); [congruence|discriminate].
Qed.
Lemma contains_refl : forall s, contains s s = true.
Proof.
  intros s. assert (P : forall p, prefixb p p = true) by (induction p; cbn; [reflexivity|now rewrite Ascii.eqb_refl]).
  destruct s; cbn [contains]; [reflexivity|]. now rewrite P.
Qed.
Lemma good_not_ignored : forall o, good_note F o = true -> smem (o_note o) (f_ignore F) = false.
Proof.
  intros o H. unfold good_note in H. apply negb_true_iff in H. destruct (smem (o_note o) (f_ignore F)) eqn:E; [|reflexivity].
  apply smem_in in E. exfalso. rewrite <- not_true_iff_false in H. apply H. apply existsb_exists. exists (o_note o). split; [exact E|apply contains_refl].
Qed.
Lemma batch_single : forall l st, NoDup (map s_note (st_wanted st)) -> Forall (fun o => good_note F o = true) l ->
  st_wanted (add_array F st l) = st_wanted (fold_left (add_observation F) l st) /\
  (st_wanted st <> [] -> st_seen (add_array F st l) = st_seen (fold_left (add_observation F) l st)).
Proof.
  intros l st N G. destruct (adds_wanted l st N G) as [A1 A2]. rewrite A1. unfold add_array.
  assert (FL : filter (fun o => negb (smem (o_note o) (f_ignore F))) l = l).
  { clear A1 A2. induction G as [|o l G1 G2 IH]; [reflexivity|]. cbn. rewrite (good_not_ignored o G1). cbn. now rewrite IH. }
  rewrite FL. destruct (st_wanted st) as [|s r] eqn:W.
  - cbn. rewrite W. split; [reflexivity|congruence].
  - cbn [st_wanted st_seen with_seen]. split; [reflexivity|]. intros NN. now rewrite A2.
Qed.
End Scripted.

(** ** Notes with an index *)
Lemma zdec_inj : forall a b, zdec a = zdec b -> a = b.
Proof.
  intros a b H. unfold zdec in H. apply (f_equal (fun s => option_map Z.of_int (NilZero.int_of_string s))) in H.
  assert (K : forall d, option_map Z.of_int (NilZero.int_of_string (NilZero.string_of_int d)) = Some (Z.of_int d)).
  { intros d. destruct d as [u|u]; destruct u; (reflexivity || (rewrite NilZero.isi by discriminate; reflexivity)). }
  rewrite !K in H. injection H as H. now rewrite !DecimalZ.of_to in H.
Qed.
Lemma zdec_nospace : forall z, has_space (zdec z) = false.
Proof.
  intros z. unfold zdec. assert (K : forall u, has_space (NilEmpty.string_of_uint u) = false) by (induction u; cbn; auto).
  assert (K0 : forall u, has_space (NilZero.string_of_uint u) = false) by (intros u; destruct u; cbn; auto).
  destruct (Z.to_int z) as [u|u]; [apply K0|]. cbn. apply K0.
Qed.
Lemma trunc_short : forall s n, String.length s <= n -> trunc n s = s.
Proof.
  unfold trunc. induction s as [|c s IH]; intros n H; destruct n; cbn in *; try reflexivity; [lia|]. f_equal. apply IH. lia.
Qed.
Definition labelled (n : string) (i : Z) : string := (n ++ ", " ++ zdec i)%string.
Lemma labelled_inj : forall a b i j, labelled a i = labelled b j -> a = b /\ i = j.
Proof.
  intros a b i j H. unfold labelled in H.
  assert (K : forall x y : string, (x ++ ", " ++ y = (x ++ ",") ++ " " ++ y)%string).
  { induction x; intros; cbn; [reflexivity|]. f_equal. apply IHx. }
  rewrite !K in H. apply last_space in H; [|apply zdec_nospace|apply zdec_nospace]. destruct H as [H1 H2]. apply zdec_inj in H2. split; [|exact H2].
  clear - H1. revert b H1. induction a as [|c a IH]; intros b H; destruct b as [|d b]; cbn in H; auto.
  - injection H as _ H. destruct b; discriminate.
  - injection H as _ H. destruct a; discriminate.
  - injection H as -> H. now rewrite (IH b H).
Qed.
Fixpoint numbered (i : Z) (l : list string) : list string :=
  match l with [] => [] | n :: r => labelled n i :: numbered (i + 1) r end.
Lemma numbered_app : forall a b i, numbered i (a ++ b) = numbered i a ++ numbered (i + Z.of_nat (List.length a)) b.
Proof.
  induction a as [|x a IH]; intros b i; [cbn; now rewrite Z.add_0_r|].
  change ((x :: a) ++ b) with (x :: (a ++ b)). cbn [numbered]. rewrite IH. cbn [List.length app].
  now replace (i + 1 + Z.of_nat (List.length a))%Z with (i + Z.of_nat (S (List.length a)))%Z by lia.
Qed.
Lemma numbered_nth : forall l i k n, nth_error l k = Some n -> nth_error (numbered i l) k = Some (labelled n (i + Z.of_nat k)).
Proof.
  induction l as [|x l IH]; intros i k n H; [destruct k; discriminate|]. destruct k; cbn in *; [injection H as ->; now rewrite Z.add_0_r|].
  rewrite (IH _ _ _ H). now replace (i + 1 + Z.of_nat k)%Z with (i + Z.of_nat (S k))%Z by lia.
Qed.
Lemma numbered_in : forall l i x, In x (numbered i l) -> exists n j, x = labelled n j /\ (i <= j)%Z.
Proof.
  induction l as [|y l IH]; intros i x H; [destruct H|]. destruct H as [<-|H]; [exists y, i; split; [reflexivity|lia]|].
  destruct (IH _ _ H) as (n & j & E & L). exists n, j. split; [exact E|lia].
Qed.
Lemma numbered_nodup : forall l i, NoDup (numbered i l).
Proof.
  induction l as [|x l IH]; intros i; cbn; constructor; [|apply IH]. intros H. apply numbered_in in H.
  destruct H as (n & j & E & L). apply labelled_inj in E. lia.
Qed.
Lemma numbered_length : forall l i, List.length (numbered i l) = List.length l.
Proof. induction l; intros; cbn; auto. Qed.
Lemma sbackfill_note : forall s, s_note (sbackfill s) = s_note s.
Proof. intros s. unfold sbackfill. destruct (String.eqb _ _); reflexivity. Qed.
Lemma index_notes_numbered : forall l i,
  (forall k s, nth_error l k = Some s -> String.length (labelled (s_note s) (i + Z.of_nat k)) <= 60) ->
  map s_note (index_notes i l) = numbered i (map s_note l).
Proof.
  induction l as [|s l IH]; intros i H; [reflexivity|]. cbn [index_notes map numbered].
  assert (H0 := H 0 s eq_refl). rewrite Z.add_0_r in H0. cbn [set_note s_note]. unfold labelled at 1. rewrite (trunc_short _ 60) by exact H0.
  f_equal. apply IH. intros k s' K. specialize (H (S k) s' K). now replace (i + 1 + Z.of_nat k)%Z with (i + Z.of_nat (S k))%Z by lia.
Qed.

Section Appending.
Variable F : scfg.
Variable py_int : string -> option Z.
(** Scripts are only appended, with indexing on. *)
Definition appends (o : sop) : Prop := match o with SSet _ a i => a = true /\ i = true | SClear => False | _ => True end.
Definition script_of (o : sop) : list sobs := match o with SSet l _ _ => l | _ => [] end.

Lemma appends_run : forall ops st base, consistent st -> (f_sort F = None \/ f_sort F = Some "HA"%string) ->
  Forall appends ops ->
  let new := flat_map script_of ops in
  (exists old, map s_note (st_wanted st) = numbered base old /\ st_id st = (base + Z.of_nat (List.length old))%Z) ->
  (forall k s, nth_error new k = Some s -> String.length (labelled (s_note s) (st_id st + Z.of_nat k)) <= 60) ->
  exists st', srun F py_int st ops = Some st' /\
    map s_note (st_wanted st') = map s_note (st_wanted st) ++ numbered (st_id st) (map s_note new) /\
    st_id st' = (st_id st + Z.of_nat (List.length new))%Z.
Proof.
  induction ops as [|o ops IH]; intros st base C FS A new (old & E1 & E2) SH; cbn [srun].
  - exists st. cbn. rewrite app_nil_r, Z.add_0_r. auto.
  - inversion A as [|? ? A1 A2]; subst.
    assert (KEEP : forall st1, sstep F py_int st o = Some st1 -> script_of o = [] -> st_id st1 = st_id st ->
              map s_note (st_wanted st1) = map s_note (st_wanted st) ->
              exists st', match sstep F py_int st o with Some st' => srun F py_int st' ops | None => None end = Some st' /\
                map s_note (st_wanted st') = map s_note (st_wanted st) ++ numbered (st_id st) (map s_note new) /\
                st_id st' = (st_id st + Z.of_nat (List.length new))%Z).
    { intros st1 S1 SO I1 W1. rewrite S1. unfold new in *. cbn [flat_map] in *. rewrite SO in *. cbn [app] in *.
      destruct (IH st1 base) as (st' & R & W' & I'); auto.
      - now apply (step_consistent F py_int st o).
      - exists old. now rewrite W1, I1.
      - now rewrite I1.
      - exists st'. rewrite W', I', W1, I1. auto. }
    destruct o as [l a i| |o|l|c]; cbn in A1.
    + destruct A1 as [-> ->]. cbn [sstep]. unfold new in *. cbn [flat_map script_of] in *.
      unfold set_script.
      assert (IN : map s_note (index_notes (st_id st) (map sbackfill l)) = numbered (st_id st) (map s_note l)).
      { rewrite index_notes_numbered.
        - rewrite map_map. f_equal. apply map_ext. apply sbackfill_note.
        - intros k s K. rewrite nth_error_map in K. destruct (nth_error l k) as [s0|] eqn:EK; [|discriminate]. injection K as <-.
          rewrite sbackfill_note. apply (SH k). rewrite nth_error_app1; [exact EK|]. apply nth_error_Some. congruence. }
      assert (ALL : map s_note (st_wanted st ++ index_notes (st_id st) (map sbackfill l)) = numbered base (old ++ map s_note l)).
      { rewrite map_app, IN, E1, E2, numbered_app. reflexivity. }
      assert (ND : nodupb (map s_note (st_wanted st ++ index_notes (st_id st) (map sbackfill l))) = true).
      { apply nodupb_iff. rewrite ALL. apply numbered_nodup. }
      rewrite ND. match goal with |- context [srun F py_int ?s ops] => set (st1 := s) end.
      assert (ID1 : st_id st1 = (st_id st + Z.of_nat (List.length l))%Z) by (cbn; now rewrite map_length).
      destruct (IH st1 base) as (st' & R & W' & I'); auto.
      * split; [cbn; rewrite ALL; apply numbered_nodup|right; reflexivity].
      * exists (old ++ map s_note l). cbn [st_wanted st1]. rewrite ALL. split; [reflexivity|]. rewrite ID1, E2, app_length, map_length. lia.
      * intros k s K. rewrite ID1. replace (st_id st + Z.of_nat (List.length l) + Z.of_nat k)%Z with (st_id st + Z.of_nat (List.length l + k))%Z by lia.
        apply (SH (List.length l + k)). rewrite nth_error_app2 by lia. replace (List.length l + k - List.length l) with k by lia. exact K.
      * exists st'. split; [exact R|]. rewrite W', I', ID1. cbn [st_wanted st1]. rewrite map_app, IN, <- app_assoc, map_app, numbered_app, map_length, app_length.
        split; [reflexivity|lia].
    + destruct A1.
    + apply (KEEP (add_observation F st o)); [reflexivity|reflexivity| |];
        unfold add_observation; destruct (st_wanted st) eqn:W; try reflexivity; try (now rewrite W);
        destruct (good_note F o); try reflexivity; try (now rewrite W). cbn [with_wanted st_wanted]. apply mark_notes.
    + apply (KEEP (add_array F st l)); [reflexivity|reflexivity| |];
        unfold add_array; destruct (st_wanted st) eqn:W; try reflexivity; try (cbn; now rewrite W).
      cbn [st_wanted]. rewrite map_map. apply map_ext. intros x. destruct (smem _ _); reflexivity.
    + pose proof (generate_keeps F st c) as (K1 & _ & _ & K4 & _).
      assert (OK : exists r, snd (generate F st c) = Ok r).
      { unfold generate, generate_rough. destruct (Qeq_bool (st_last st) (c_mjd c)); [eexists; reflexivity|].
        destruct (Qeq_bool (st_last_rough st) (c_mjd c)); [eexists; reflexivity|].
        rewrite (check_list_spec F st c C FS). destruct (chosen _ _ _); [eexists; reflexivity|].
        destruct (f_twi F && _); eexists; reflexivity. }
      destruct OK as [r OK]. destruct (generate F st c) as [st1 r1] eqn:EG. cbn in K1, K4, OK. subst r1.
      apply (KEEP st1); [cbn; now rewrite EG|reflexivity|exact K4|now rewrite K1].
Qed.
End Appending.
