(** C87: rewards that ask for a number of visits a year or a season. *)
From Coq Require Import List ZArith QArith Qabs Qround Bool String Ascii Lia Lqa Sorted.
From Verif Require Import Base IntRounded Feat Feat_proofs Feat_proofs2 BfCall BfCall_proofs MaskLoop MaskLoop_proofs Script Script_proofs TimeGate_proofs Cadence_proofs SeasonBf SeasonBf_proofs.
Import ListNotations.
Open Scope nat_scope.

Definition covers (p : nat) (v : fvis) : bool := existsb (Nat.eqb p) (fv_pix v).
Fixpoint letter (c : ascii) (s : string) : bool := match s with EmptyString => false | String d r => Ascii.eqb c d || letter c r end.
(** The bands that count: all, or those whose letters are listed. *)
Definition counts (bn : option string) (v : fvis) : bool :=
  match bn with None => true | Some s => match fv_band v with String c EmptyString => letter c s | _ => false end end.
Definition one_band (v : fvis) : Prop := exists c, fv_band v = String c EmptyString.
Lemma counts_in : forall bn v, one_band v -> band_in bn v = counts bn v.
Proof.
  intros [s|] v [c E]; [|reflexivity]. unfold band_in, counts. rewrite E. induction s as [|d s IH]; [reflexivity|]. cbn [letter]. rewrite <- IH. cbn. destruct (ascii_dec c d) as [->|N].
  - rewrite Ascii.eqb_refl. reflexivity.
  - destruct (Ascii.eqb_spec c d) as [->|]; [tauto|reflexivity].
Qed.

(** ** NObsPerYear *)
Definition year_value (F : ycfg) (ops : list (op ycond fvis)) (c : ycond) (p : nat) : er :=
  snd (bf_call yc_mjd (y_cls F) (bf_run yc_mjd (y_cls F) (bf0 (lt0 (y_n F))) ops) c) p.
(** How far the pixel is from the point opposite the sun, up to whole turns. *)
Definition from_mid (F : ycfg) (sun : Q) (p : nat) (k : Z) : Q := (y_ra F p - (sun + y_pi F) + inject_Z k * (2 * y_pi F))%Q.
Definition radians (F : ycfg) (hours : Q) : Q := (hours * y_pi F / 12)%Q.
Definition in_season (F : ycfg) (sun : Q) (p : nat) (k : Z) : Prop := (radians F (y_start F) <= from_mid F sun p k <= radians F (y_end F))%Q.
(** No pixel is almost exactly on the edge of the season. *)
Definition off_edge (F : ycfg) (sun : Q) : Prop := forall q k, q < y_npix F ->
  ((1 # 1000000000) * (radians F (y_end F) - radians F (y_start F)) < Qabs (from_mid F sun q k - radians F (y_start F)))%Q.
(** Visits of the last days in the bands. *)
Definition lately (F : ycfg) (p : nat) (t : Q) (h : list fvis) : Z :=
  count (fun v => counts (y_band F) v && covers p v && Qle_bool (t - fv_mjd v) (y_season F)) h.
Definition wanted (F : ycfg) (p : nat) (c : ycond) (h : list fvis) : Prop :=
  (yc_night c <= y_nmax F)%Z /\ (lately F p (yc_mjd c) h < Z.of_nat (y_n F))%Z /\ (exists q, y_foot F p = EFin q /\ ~ (q == 0)%Q \/ y_foot F p = EPInf \/ y_foot F p = ENInf).
Definition sane (F : ycfg) : Prop := (0 < y_pi F)%Q /\ (y_start F < y_end F)%Q /\ (y_end F - y_start F < 24)%Q /\ 1 <= y_n F.

Lemma span_pos : forall F, sane F -> (0 < radians F (y_end F) - radians F (y_start F) < 2 * y_pi F)%Q.
Proof.
  intros F (P & A & B & _). assert (E : (radians F (y_end F) - radians F (y_start F) == (y_end F - y_start F) * (y_pi F * (1 # 12)))%Q) by (unfold radians; field). rewrite E.
  assert (E2 : (2 * y_pi F == 24 * (y_pi F * (1 # 12)))%Q) by ring. rewrite E2. assert (Pp : (0 < y_pi F * (1 # 12))%Q) by lra. set (k := (y_pi F * (1 # 12))%Q) in *. clearbody k. split.
  - apply Qmult_lt_0_compat; lra.
  - apply Qmult_lt_compat_r; lra.
Qed.
Lemma rel_shift : forall F sun p, sane F -> exists k, (rel_ra F sun p == radians F (y_end F) - from_mid F sun p k)%Q /\ (0 <= rel_ra F sun p < 2 * y_pi F)%Q.
Proof.
  intros F sun p (P & _). unfold rel_ra, from_mid, rad, radians. set (turn := (2 * y_pi F)%Q). assert (T : (0 < turn)%Q) by (unfold turn; lra).
  destruct (Qmod_shift (sun + y_pi F) turn T) as [k1 K1]. destruct (Qmod_shift (y_ra F p - Qmod (sun + y_pi F) turn) turn T) as [k2 K2].
  set (r := Qmod (y_ra F p - Qmod (sun + y_pi F) turn) turn) in *. destruct (Qmod_shift (y_end F * y_pi F / 12 - r) turn T) as [k3 K3].
  exists (k2 - k1 - k3)%Z. split.
  - rewrite K3, K2, K1. unfold Z.sub. rewrite !inject_Z_plus, !inject_Z_opp. ring.
  - apply Qmod_range. exact T.
Qed.
Lemma turn_unique : forall (turn a b : Q) k j, (0 < turn)%Q -> (a == b + inject_Z (k - j) * turn)%Q -> (- turn < a - b < turn)%Q -> k = j.
Proof.
  intros turn a b k j T E [L H]. assert (X : (a - b == inject_Z (k - j) * turn)%Q) by lra. rewrite X in L, H. set (z := (k - j)%Z) in *.
  assert (Z : z = 0%Z); [|lia]. destruct (Z.lt_trichotomy z 0) as [N|[N|N]]; [|exact N|]; exfalso.
  - assert (I : (inject_Z z <= -1)%Q) by (change (-1)%Q with (inject_Z (-1)); rewrite <- Zle_Qle; lia). assert (M : (inject_Z z * turn <= -1 * turn)%Q) by (apply Qmult_le_compat_r; lra). lra.
  - assert (I : (1 <= inject_Z z)%Q) by (change 1%Q with (inject_Z 1); rewrite <- Zle_Qle; lia). assert (M : (1 * turn <= inject_Z z * turn)%Q) by (apply Qmult_le_compat_r; lra). lra.
Qed.
Lemma rel_season : forall F sun p k, sane F -> in_season F sun p k -> (rel_ra F sun p == radians F (y_end F) - from_mid F sun p k)%Q.
Proof.
  intros F sun p k S [A B]. destruct (rel_shift F sun p S) as (j & E & R). pose proof (span_pos F S) as Sp. assert (P := proj1 S).
  assert (K : k = j); [|subst; exact E]. apply (turn_unique (2 * y_pi F) (from_mid F sun p k) (from_mid F sun p j)); [lra| |lra].
  unfold from_mid. unfold Z.sub. rewrite inject_Z_plus, inject_Z_opp. ring.
Qed.
Lemma foot_out : forall F p, out_foot F p = false <-> (exists q, y_foot F p = EFin q /\ ~ (q == 0)%Q \/ y_foot F p = EPInf \/ y_foot F p = ENInf).
Proof.
  intros F p. unfold out_foot. destruct (y_foot F p) as [| |q|]; cbn; rewrite ?orb_false_r; (split; [intro H|intros [q' [[H1 H2]|[H|H]]]]); try discriminate; try reflexivity; try (exists 0%Q; tauto).
  - exists q. left. split; [reflexivity|]. intro X. apply Qeq_bool_iff in X. congruence.
  - injection H1 as <-. destruct (Qeq_bool q 0) eqn:X; [|reflexivity]. apply Qeq_bool_iff in X. tauto.
Qed.
(** The reward at a pixel of the footprint that had fewer visits than asked for in the last days
    rises from 0 to 1 through its season; it is 0 at all other pixels and after the last night. *)
Theorem C87_year_partial : forall F ops c p, sane F -> chrono (reports ops) -> (forall v, In v (reports ops) -> one_band v) ->
  (y_season F < yc_mjd c)%Q -> off_edge F (yc_sun c) -> p < y_npix F ->
  exists q, year_value F ops c p = EFin q /\ (0 <= q <= 1)%Q /\
  (forall k, in_season F (yc_sun c) p k -> wanted F p c (reports ops) -> q == (radians F (y_end F) - from_mid F (yc_sun c) p k) / (radians F (y_end F) - radians F (y_start F)))%Q /\
  (~ wanted F p c (reports ops) \/ (forall k, ~ in_season F (yc_sun c) p k) -> q == 0)%Q.
Proof.
  intros F ops c p S Ch O St Off L. unfold year_value.
  rewrite (BfCall_proofs.fresh yc_mjd eq (y_cls F) (lt0 (y_n F)) ops c p (eq_steady (y_cls F) ltac:(reflexivity)) eq_refl). cbv zeta. cbn [y_cls cl_feas cl_calc cl_add snd].
  set (h := reports ops) in *. set (f := fold_left (lt_one (y_band F)) h (lt0 (y_n F))).
  unfold y_map. destruct (Z.ltb_spec (y_nmax F) (yc_night c)) as [Nm|Nm].
  { exists 0%Q. split; [reflexivity|]. split; [lra|]. split; [|reflexivity]. intros k _ (W & _). lia. }
  set (sun := yc_sun c) in *. set (t := yc_mjd c) in *. pose proof (span_pos F S) as Sp. set (span := (rad F (y_end F) - rad F (y_start F))%Q). change (radians F (y_end F) - radians F (y_start F))%Q with span in *.
  assert (Fa : forall a, In a (map (rel_ra F sun) (seq 0 (y_npix F))) -> far a span).
  { intros a A. apply in_map_iff in A. destruct A as (y & <- & Y). apply in_seq in Y. right. destruct (rel_shift F sun y S) as (k & E & _). specialize (Off y k ltac:(lia)). change (radians F (y_end F) - radians F (y_start F))%Q with span in Off.
    rewrite (Qabs_pos span) by lra. assert (X : (rel_ra F sun y - span == - (from_mid F sun y k - radians F (y_start F)))%Q) by (rewrite E; unfold span, rad, radians; ring). rewrite X, Qabs_opp. exact Off. }
  unfold ir_gt. rewrite cmp_scalar by exact Fa. cbn [keep]. rewrite map_map.
  rewrite (nth_map_seq (fun y => Qltb span (rel_ra F sun y)) (y_npix F) p L).
  assert (Be : Qltb (y_season F) (t - last (f p) 0%Q) = (lately F p t h <? Z.of_nat (y_n F))%Z).
  { unfold f. rewrite behind_iff; [|apply S|exact St|exact Ch]. do 2 f_equal. unfold lately. unfold count. do 2 f_equal. apply filter_ext_in. intros v V. unfold hit. rewrite counts_in by auto. reflexivity. }
  rewrite Be. destruct (out_foot F p) eqn:Of.
  { exists 0%Q. split; [reflexivity|]. split; [lra|]. split; [|reflexivity]. intros k _ (_ & _ & W). apply foot_out in W. congruence. }
  destruct (rel_shift F sun p S) as (j & Ej & Rj). unfold np_div. assert (Sz : Qeq_bool span 0 = false) by (destruct (Qeq_bool span 0) eqn:X; [apply Qeq_bool_iff in X; lra|reflexivity]). rewrite Sz.
  set (rel := rel_ra F sun p) in *. cbn [er_mul]. eexists. split; [reflexivity|].
  assert (D : forall x, (0 <= x <= span)%Q -> (0 <= x / span <= 1)%Q). { intros x [X1 X2]. split; [apply Qle_shift_div_l; lra|apply Qle_shift_div_r; lra]. }
  destruct (Z.ltb_spec (lately F p t h) (Z.of_nat (y_n F))) as [La|La].
  - destruct (Qltb span rel) eqn:Lt.
    + apply Qltb_lt in Lt. assert (Z : (1 * (0 / span) == 0)%Q) by (field; lra). rewrite Z. split; [lra|]. split; [|reflexivity]. intros k Is _. exfalso. pose proof (rel_season F sun p k S Is) as Er. destruct Is as [I1 I2].
      fold rel in Er. change (radians F) with (rad F) in *. unfold span in Lt. lra.
    + apply Qltb_false in Lt. assert (Z : (1 * (rel / span) == rel / span)%Q) by ring. rewrite Z. split; [apply D; lra|]. split.
      * intros k Is _. rewrite <- (rel_season F sun p k S Is). exact Z.
      * intros [W|W].
        -- exfalso. apply W. split; [exact Nm|]. split; [exact La|]. now apply foot_out.
        -- exfalso. apply (W j). unfold in_season. change (radians F) with (rad F) in *. unfold span in Lt. clearbody rel. lra.
  - assert (Z : forall x, (0 * (x / span) == 0)%Q) by (intro; field; intro; lra). split; [rewrite Z; lra|]. split; [|intros _; apply Z]. intros k _ (_ & W & _). fold t in W. lia.
Qed.
Print Assumptions C87_year_partial.
Definition vis (i : Z) (t : Q) (b : string) (see depth : Q) (pix : list nat) : fvis := mkFv i 1 t b "" "" (EFin see) (EFin depth) 0 pix.
(** Radians are sixths of a turn here; pixel [p] is [p] of them from the start of right ascension. *)
Definition year_demo : ycfg := mkYc 6 (fun p => inject_Z (Z.of_nat p)) 3 (Some "r"%string) (fun p => if Nat.eqb p 5 then ENaN else EFin 1) 2 300 (-5) 5 365.
Definition year_ops : list (op ycond fvis) :=
  [Ask (mkYd 60000 1 0); Seen (vis 1 60000 "r" 1 24 [2; 3]); Seen (vis 2 60200 "r" 1 24 [3]); Seen (vis 3 60201 "g" 1 24 [2; 3])].
Lemma year_demo_sane : sane year_demo.
Proof. split; [reflexivity|]. split; [reflexivity|]. split; [reflexivity|cbn; lia]. Qed.
Lemma year_demo_edge : off_edge year_demo 0.
Proof.
  intros q k L. unfold from_mid, radians. cbn [year_demo y_ra y_pi y_end y_start y_npix] in *. set (z := (Z.of_nat q + k * 6)%Z).
  assert (E : (inject_Z (Z.of_nat q) - (0 + 3) + inject_Z k * (2 * 3) - -5 * 3 / 12 == inject_Z z - (7 # 4))%Q) by (unfold z; rewrite inject_Z_plus, inject_Z_mult; change (inject_Z 6) with 6%Q; field). rewrite E.
  assert (H : (z <= 1 \/ 2 <= z)%Z) by lia. destruct H as [H|H].
  - assert (I : (inject_Z z <= 1)%Q) by (change 1%Q with (inject_Z 1); rewrite <- Zle_Qle; exact H). rewrite Qabs_neg by lra. apply Qlt_le_trans with (3 # 4); [reflexivity|lra].
  - assert (I : (2 <= inject_Z z)%Q) by (change 2%Q with (inject_Z 2); rewrite <- Zle_Qle; exact H). rewrite Qabs_pos by lra. apply Qlt_le_trans with (1 # 4); [reflexivity|lra].
Qed.
(** Pixel 3 had its two visits; the season of pixel 2 is further on than that of pixel 4. *)
Example C87_year_ex : map (fun p => match year_value year_demo year_ops (mkYd 60210 300 0) p with EFin q => Some (Qred q) | _ => None end) [0; 1; 2; 3; 4; 5] = [Some 0; Some 0; Some (9 # 10); Some 0; Some (1 # 10); Some 0]%Q /\
  map (fun p => match year_value year_demo year_ops (mkYd 60310 300 0) p with EFin q => Some (Qred q) | _ => None end) [3] = [Some (1 # 2)]%Q.
Proof. split; vm_compute; reflexivity. Qed.

(** Over a run.  [aim v = Some p]: the visit was made for the reward at pixel [p].  It covers [p],
    its band counts, the reward was above 0 when last asked, which was no earlier than the visits
    before, and at most [m] such visits use one answer. *)
Definition yearly (F : ycfg) (aim : fvis -> option nat) (m : Z) (ops : list (op ycond fvis)) : Prop :=
  forall a v b p, ops = a ++ Seen v :: b -> aim v = Some p ->
  p < y_npix F /\ In p (fv_pix v) /\ counts (y_band F) v = true /\
  exists a1 c a2, a = a1 ++ Ask c :: a2 /\ (exists q, year_value F a1 c p = EFin q /\ (0 < q)%Q) /\ off_edge F (yc_sun c) /\ (y_season F < yc_mjd c <= fv_mjd v)%Q /\
    (count (fun w => match aim w with Some q => Nat.eqb q p | None => false end) (reports a2) < m)%Z.
(** In any stretch of so many days no pixel is given more visits than asked for, [m - 1] apart. *)
Theorem C87_year_run : forall F aim m ops p t0, sane F -> (0 <= m)%Z -> chrono (reports ops) -> (forall v, In v (reports ops) -> one_band v) -> yearly F aim m ops ->
  (count (fun v => match aim v with Some q => Nat.eqb q p | None => false end && (Qle_bool t0 (fv_mjd v) && Qle_bool (fv_mjd v) (t0 + y_season F))) (reports ops) <= Z.of_nat (y_n F) - 1 + m)%Z.
Proof.
  intros F aim m ops p t0 S M Ch O G. assert (Hn : 1 <= y_n F) by apply S. apply run_bound; [lia|]. intros a v b E Pv. rewrite !andb_true_iff, !Qle_bool_iff in Pv. destruct Pv as [Pa [P1 P2]].
  destruct (aim v) as [q|] eqn:Av; [|discriminate Pa]. apply Nat.eqb_eq in Pa. subst q.
  destruct (G a v b p E Av) as (Lp & Ip & Bv & a1 & c & a2 & Ea & (q & Vl & Q0) & Off & [T1 T2] & C2). exists a1, c, a2. split; [exact Ea|].
  split. 2: { eapply Z.le_lt_trans; [|exact C2]. apply count_le. intros w _ Pw. apply andb_true_iff in Pw. exact (proj1 Pw). }
  assert (Er : reports ops = reports a1 ++ (reports a2 ++ v :: reports b)). { rewrite E, Ea, !reps_app. cbn [reports flat_map app]. rewrite <- app_assoc. reflexivity. }
  assert (Ch1 : chrono (reports a1)) by (rewrite Er in Ch; now apply chrono_pre in Ch).
  assert (In1 : forall w, In w (reports a1) -> In w (reports ops)) by (intros w W; rewrite Er; apply in_or_app; now left).
  destruct (C87_year_partial F a1 c p S Ch1 (fun w W => O w (In1 w W)) T1 Off Lp) as (q' & V' & _ & _ & Z). rewrite Vl in V'. injection V' as <-.
  assert (Lt : (lately F p (yc_mjd c) (reports a1) < Z.of_nat (y_n F))%Z).
  { destruct (Z.lt_ge_cases (lately F p (yc_mjd c) (reports a1)) (Z.of_nat (y_n F))) as [X|X]; [exact X|]. exfalso. assert (Z0 : (q == 0)%Q) by (apply Z; left; intros (_ & W & _); lia). lra. }
  assert (Le : (count (fun w => match aim w with Some q0 => Nat.eqb q0 p | None => false end && (Qle_bool t0 (fv_mjd w) && Qle_bool (fv_mjd w) (t0 + y_season F))) (reports a1) <= lately F p (yc_mjd c) (reports a1))%Z); [|lia].
  apply count_le. intros w W Pw. rewrite !andb_true_iff, !Qle_bool_iff in Pw. destruct Pw as [Wa [W1 W2]]. destruct (aim w) as [q0|] eqn:Aw; [|discriminate Wa]. apply Nat.eqb_eq in Wa. subst q0.
  destruct (reported a1 w W) as (x & y & Exy). destruct (G x w (y ++ Ask c :: a2 ++ Seen v :: b) p) as (_ & X1 & X2 & _); [rewrite E, Ea, Exy, <- !app_assoc; reflexivity|exact Aw|].
  rewrite X2. cbn [andb]. apply andb_true_iff. split; [apply is_pix_in in X1; exact X1|]. apply Qle_bool_iff. lra.
Qed.
Print Assumptions C87_year_run.
Definition year_run : list (op ycond fvis) := [Ask (mkYd 60000 1 0); Seen (vis 1 60000 "r" 1 24 [2; 3]); Ask (mkYd 60001 2 0); Seen (vis 2 60001 "r" 1 24 [3])].
Example C87_year_run_ex : yearly year_demo (fun _ => Some 3) 1 year_run /\ chrono (reports year_run) /\ (forall v, In v (reports year_run) -> one_band v) /\
  count (fun v => Qle_bool 60000 (fv_mjd v) && Qle_bool (fv_mjd v) 60300) (reports year_run) = 2%Z.
Proof.
  split; [|split; [repeat constructor; vm_compute; congruence|split; [intros v V; cbn in V; repeat (destruct V as [<-|V]); try contradiction; eexists; reflexivity|reflexivity]]].
  intros a v b p E Av. injection Av as <-. destruct a as [|o1 [|o2 [|o3 [|o4 a]]]]; unfold year_run in E; cbn [app] in E; inversion E; subst.
  - split; [cbn; lia|]. split; [right; now left|]. split; [reflexivity|]. exists [], (mkYd 60000 1 0), []. split; [reflexivity|]. split; [eexists; split; [vm_compute; reflexivity|reflexivity]|]. split; [apply year_demo_edge|]. split; [split; vm_compute; congruence|reflexivity].
  - split; [cbn; lia|]. split; [now left|]. split; [reflexivity|]. exists (firstn 2 year_run), (mkYd 60001 2 0), []. split; [reflexivity|]. split; [eexists; split; [vm_compute; reflexivity|reflexivity]|]. split; [apply year_demo_edge|]. split; [split; vm_compute; congruence|reflexivity].
  - exfalso. match goal with H : [] = _ |- _ => destruct a; discriminate H end.
Qed.
(** One pixel exactly on the edge of its season lets pixels past theirs through, with a reward
    above 1. *)
Theorem C87_year_spill_refuted : exists F ops c p q, sane F /\ p < y_npix F /\ (forall k, ~ in_season F (yc_sun c) p k) /\ year_value F ops c p = EFin q /\ (3 # 2 < q)%Q.
Proof.
  exists (mkYc 2 (fun p => if Nat.eqb p 0 then 33 # 14 else 3 # 2)%Q (22 # 7) (Some "r"%string) (fun _ => EFin 1) 2 300 (-3) 3 365), [], (mkYd 60000 1 0), 1.
  eexists. split; [split; [reflexivity|]; split; [reflexivity|]; split; [reflexivity|cbn; lia]|]. split; [cbn; lia|]. split; [|split; [vm_compute; reflexivity|reflexivity]].
  intros k [A B]. unfold from_mid, radians in *. cbn [y_ra y_pi y_end y_start yc_sun Nat.eqb] in *.
  assert (E : ((3 # 2) - (0 + (22 # 7)) + inject_Z k * (2 * (22 # 7)) == inject_Z k * (44 # 7) - (23 # 14))%Q) by ring. rewrite E in A, B.
  assert (Ea : (-3 * (22 # 7) / 12 == - (22 # 28))%Q) by (vm_compute; reflexivity). assert (Eb : (3 * (22 # 7) / 12 == 22 # 28)%Q) by (vm_compute; reflexivity). rewrite Ea in A. rewrite Eb in B.
  assert (H : (k <= 0 \/ 1 <= k)%Z) by lia. destruct H as [H|H].
  - assert (I : (inject_Z k <= 0)%Q) by (change 0%Q with (inject_Z 0); rewrite <- Zle_Qle; exact H). lra.
  - assert (I : (1 <= inject_Z k)%Q) by (change 1%Q with (inject_Z 1); rewrite <- Zle_Qle; exact H). lra.
Qed.
Print Assumptions C87_year_spill_refuted.

(** ** NGoodSeeing *)
Definition good_value (F : gcfg) (ops : list (op gcond fvis)) (c : gcond) (p : nat) : er :=
  snd (bf_call gc_mjd (g_cls F) (bf_run gc_mjd (g_cls F) (bf0 (cs0 (g_ra F) (g_start F))) ops) c) p.
Definition time_of (o : op gcond fvis) : Q := match o with Seen v => fv_mjd v | Ask c => gc_mjd c end.
(** Visits and questions come in order of time, none before the survey started. *)
Definition in_order (F : gcfg) (ops : list (op gcond fvis)) : Prop := StronglySorted (fun a b => (a <= b)%Q) (g_start F :: map time_of ops).
(** The visit's seeing is a number not almost exactly the limit, and its depth is a number. *)
Definition measured (F : gcfg) (v : fvis) : Prop :=
  (exists q, fv_see v = EFin q /\ ~ (q == g_see F)%Q /\ ((g_see F == 0)%Q \/ ((1 # 1000000000) * Qabs (g_see F) < Qabs (q - g_see F))%Q)) /\ exists d, fv_depth v = EFin d.
(** A visit that counts as good at the pixel. *)
Definition good (F : gcfg) (p : nat) (v : fvis) : bool :=
  covers p v && String.eqb (fv_band v) (g_band F) && match fv_see v with EFin q => Qltb q (g_see F) | _ => false end &&
  match g_sky F p, fv_depth v with EFin s, EFin d => Qle_bool (s - d) (g_pen F) | _, _ => false end.
(** Good visits since the pixel's season opened. *)
Definition promising (F : gcfg) (p : nat) (c : gcond) : Prop :=
  (exists b m, g_best F p = EFin b /\ gc_m5 c p = EFin m /\ (b - m <= g_pen F)%Q) /\ (exists s, gc_fwhm c p = EFin s /\ (s <= g_see F)%Q) /\ er_ltb (EFin 0) (g_foot F p) = true.
Definition finite (e : er) : Prop := exists q, e = EFin q.

Lemma good_match : forall F p v, measured F v -> finite (g_sky F p) -> g_match F p v = good F p v.
Proof.
  intros F p v [_ [d D]] [s Sk]. unfold g_match, good, deep_ok, g_sharp, covers, is_pix, band_is. cbn [m5_limit]. unfold penalty. rewrite D, Sk.
  assert (E : er_ltb (EFin (s - d)) (EFin (g_pen F)) || er_eqb (EFin (s - d)) (EFin (g_pen F)) = Qle_bool (s - d) (g_pen F)).
  { cbn. destruct (Qle_bool (s - d) (g_pen F)) eqn:A; destruct (Qle_bool (g_pen F) (s - d)) eqn:B; destruct (Qeq_bool (s - d) (g_pen F)) eqn:X; cbn; try reflexivity; exfalso;
    rewrite ?Qle_bool_iff, ?Qle_bool_false, ?Qeq_bool_iff in *; try lra; apply Qeq_bool_neq in X; apply X; lra. }
  rewrite E. destruct (existsb (Nat.eqb p) (fv_pix v)), (fv_band v =? g_band F)%string, (Qle_bool (s - d) (g_pen F)), (match fv_see v with EFin q => Qltb q (g_see F) | _ => false end); reflexivity.
Qed.
Lemma leb_fin : forall a b, er_leb (EFin a) (EFin b) = Qle_bool a b.
Proof.
  intros a b. unfold er_leb. cbn. destruct (Qle_bool a b) eqn:A; destruct (Qle_bool b a) eqn:B; destruct (Qeq_bool a b) eqn:X; cbn; try reflexivity; exfalso;
    rewrite ?Qle_bool_iff, ?Qle_bool_false, ?Qeq_bool_iff in *; try lra; apply Qeq_bool_neq in X; apply X; lra.
Qed.
(** The reward is 1 at exactly the pixels of the footprint where the image would now be deep and
    sharp enough and that have had fewer good visits than asked for since their season opened. *)
Theorem C87_good_partial : forall F ops c p, in_order F (ops ++ [Ask c]) -> (forall v, In v (reports ops) -> measured F v) ->
  finite (g_sky F p) -> finite (g_best F p) -> finite (gc_m5 c p) -> finite (gc_fwhm c p) ->
  exists mine : fvis -> bool, (forall v, In v (reports ops) -> (mine v = true <-> good F p v = true /\ one_season (g_ra F p) (fv_mjd v) (gc_mjd c))) /\
  (good_value F ops c p = EFin 1 \/ good_value F ops c p = EFin 0) /\
  (good_value F ops c p = EFin 1 <-> promising F p c /\ (count mine (reports ops) < g_n F)%Z).
Proof.
  intros F ops c p Fw Ms Fs [b Fb] [m Fm] [s Fe]. exists (fun v => g_match F p v && (pix_season (g_ra F) (g_start F) p (fv_mjd v) =? pix_season (g_ra F) (g_start F) p (gc_mjd c))%Z).
  assert (Ok : forall v, In v (reports ops) -> seen_ok F v) by (intros v V; destruct (Ms v V) as [(q & A & B & C) _]; exists q; split; [exact A|]; split; [exact B|exact C]).
  assert (Up : forall v, In v (reports ops) -> (fv_mjd v <= gc_mjd c)%Q).
  { intros v V. apply (forward_last (g_start F) ops (Ask c) (fv_mjd v) Fw). right. destruct (reported ops v V) as (x & y & ->). rewrite map_app. apply in_or_app. right. now left. }
  split.
  { intros v V. rewrite andb_true_iff, Z.eqb_eq, good_match by auto. rewrite (one_season_iff (g_ra F) (g_start F) p) by auto. tauto. }
  unfold good_value. rewrite (g_answer F ops c p Fw Ok). rewrite Fb, Fm, Fe. cbn [er_sub]. rewrite !leb_fin. unfold g_count.
  set (n := count _ (reports ops)). destruct (Qle_bool (b - m) (g_pen F)) eqn:A1; destruct (Qle_bool s (g_see F)) eqn:A2; destruct (Z.ltb_spec n (g_n F)) as [A3|A3]; destruct (er_ltb (EFin 0) (g_foot F p)) eqn:A4; cbn [andb];
    rewrite ?Qle_bool_iff, ?Qle_bool_false in *; (split; [auto|]); split; intro X; try discriminate X; try reflexivity.
  all: try (split; [|exact A3]; split; [exists b, m; auto|]; split; [exists s; auto|exact A4]).
  all: exfalso; destruct X as [(Y1 & Y2 & Y3) Y4]; destruct Y1 as (b' & m' & Z1 & Z2 & Z3); destruct Y2 as (s' & Z4 & Z5); rewrite Fb in Z1; rewrite Fm in Z2; rewrite Fe in Z4; injection Z1 as <-; injection Z2 as <-; injection Z4 as <-; try lia; try lra; congruence.
Qed.
Print Assumptions C87_good_partial.
Definition good_demo : gcfg := mkGc (fun p => inject_Z (Z.of_nat p) * 60)%Q 60000 (fun _ => EFin 21) (fun _ => EFin (244 # 10)) "r" (8 # 10) (1 # 2) 2 (fun p => if Nat.eqb p 5 then ENaN else EFin 1).
Definition good_cond (t : Q) : gcond := mkGd t (fun p => if Nat.eqb p 1 then EFin 23 else EFin (242 # 10)) (fun p => if Nat.eqb p 2 then EFin 1 else EFin (7 # 10)).
Definition good_ops : list (op gcond fvis) :=
  [Ask (good_cond 60000); Seen (vis 1 60000 "r" (7 # 10) 24 [1; 2; 3; 4]); Ask (good_cond 60001); Seen (vis 2 60001 "r" (1 # 2) 24 [3; 4]); Seen (vis 3 60001 "r" (9 # 10) 24 [0]); Seen (vis 4 60002 "g" (1 # 2) 24 [0; 3])].
Lemma good_order : forall ops, Sorted (fun a b => (a <= b)%Q) (60000%Q :: map time_of ops) -> in_order good_demo ops.
Proof. intros ops H. apply Sorted_StronglySorted; [|exact H]. intros a b c A B. apply Qle_trans with b; assumption. Qed.
Ltac sorted := apply good_order; cbn; repeat (constructor; try (vm_compute; congruence)).
(** Pixels 3 and 4 have their two visits; pixel 1 is not deep, pixel 2 not sharp enough; a season on
    they are asked for again. *)
Example C87_good_ex : in_order good_demo (good_ops ++ [Ask (good_cond 60003)]) /\ (forall v, In v (reports good_ops) -> measured good_demo v) /\
  map (good_value good_demo good_ops (good_cond 60003)) [0; 1; 2; 3; 4; 5] = [EFin 1; EFin 0; EFin 0; EFin 0; EFin 0; EFin 0] /\
  map (good_value good_demo good_ops (good_cond 60403)) [0; 1; 2; 3; 4; 5] = [EFin 1; EFin 0; EFin 0; EFin 1; EFin 1; EFin 0].
Proof.
  split; [sorted|]. split; [|split; vm_compute; reflexivity]. intros v V. cbn in V.
  repeat (destruct V as [<-|V]; [split; [eexists; split; [reflexivity|]; split; [vm_compute; congruence|right; vm_compute; reflexivity]|eexists; reflexivity]|]). destruct V.
Qed.
(** Over a run.  [aim v = Some p]: the visit was made for the reward at pixel [p], which was 1 when
    last asked, is good there, and at most [m] such visits use one answer. *)
Definition seasonal (F : gcfg) (aim : fvis -> option nat) (m : Z) (ops : list (op gcond fvis)) : Prop :=
  forall a v b p, ops = a ++ Seen v :: b -> aim v = Some p -> good F p v = true /\
  exists a1 c a2, a = a1 ++ Ask c :: a2 /\ good_value F a1 c p = EFin 1 /\ finite (g_best F p) /\ finite (gc_m5 c p) /\ finite (gc_fwhm c p) /\
    (count (fun w => match aim w with Some q => Nat.eqb q p | None => false end) (reports a2) < m)%Z.
(** In any stretch in which no season of the pixel opens, it is given no more good visits than
    asked for, [m - 1] apart. *)
Theorem C87_good_run : forall F aim m ops p lo hi, (1 <= g_n F)%Z -> (0 <= m)%Z -> in_order F ops -> (forall v, In v (reports ops) -> measured F v) -> finite (g_sky F p) ->
  seasonal F aim m ops -> (lo <= hi)%Q -> one_season (g_ra F p) lo hi ->
  (count (fun v => match aim v with Some q => Nat.eqb q p | None => false end && (Qle_bool lo (fv_mjd v) && Qle_bool (fv_mjd v) hi)) (reports ops) <= g_n F - 1 + m)%Z.
Proof.
  intros F aim m ops p lo hi Np M Fw Ms Fs G Lh One. apply run_bound; [lia|]. intros a v b E Pv. rewrite !andb_true_iff, !Qle_bool_iff in Pv. destruct Pv as [Pa [P1 P2]].
  destruct (aim v) as [q|] eqn:Av; [|discriminate Pa]. apply Nat.eqb_eq in Pa. subst q.
  destruct (G a v b p E Av) as (Gv & a1 & c & a2 & Ea & Vl & Fb & Fm & Fe & C2). exists a1, c, a2. split; [exact Ea|].
  split. 2: { eapply Z.le_lt_trans; [|exact C2]. apply count_le. intros w _ Pw. apply andb_true_iff in Pw. exact (proj1 Pw). }
  assert (Eo : ops = (a1 ++ [Ask c]) ++ a2 ++ Seen v :: b) by (rewrite E, Ea, <- !app_assoc; reflexivity).
  assert (Er : reports ops = reports a1 ++ (reports a2 ++ v :: reports b)). { rewrite E, Ea, !reps_app. cbn [reports flat_map app]. rewrite <- app_assoc. reflexivity. }
  assert (In1 : forall w, In w (reports a1) -> In w (reports ops)) by (intros w W; rewrite Er; apply in_or_app; now left).
  assert (Fw1 : in_order F (a1 ++ [Ask c])) by (rewrite Eo in Fw; now apply forward_app in Fw).
  destruct (C87_good_partial F a1 c p Fw1 (fun w W => Ms w (In1 w W)) Fs Fb Fm Fe) as (mine & Hm & _ & Iff). apply Iff in Vl. destruct Vl as [_ Lt].
  assert (Cv : (gc_mjd c <= fv_mjd v)%Q).
  { rewrite E, Ea in Fw. replace ((a1 ++ Ask c :: a2) ++ Seen v :: b) with ((((a1 ++ Ask c :: a2) ++ [Seen v])) ++ b) in Fw by (rewrite <- !app_assoc; reflexivity).
    apply (forward_app (g_start F) _ b) in Fw. apply (forward_last (g_start F) _ (Seen v) (gc_mjd c) Fw). right. rewrite map_app. apply in_or_app. right. now left. }
  assert (Le : (count (fun w => match aim w with Some q0 => Nat.eqb q0 p | None => false end && (Qle_bool lo (fv_mjd w) && Qle_bool (fv_mjd w) hi)) (reports a1) <= count mine (reports a1))%Z); [|lia].
  apply count_le. intros w W Pw. rewrite !andb_true_iff, !Qle_bool_iff in Pw. destruct Pw as [Wa [W1 W2]]. destruct (aim w) as [q0|] eqn:Aw; [|discriminate Wa]. apply Nat.eqb_eq in Wa. subst q0.
  destruct (reported a1 w W) as (x & y & Exy). destruct (G x w (y ++ Ask c :: a2 ++ Seen v :: b) p) as (Gw & _); [rewrite E, Ea, Exy, <- !app_assoc; reflexivity|exact Aw|].
  apply Hm; [exact W|]. split; [exact Gw|]. intros (u & U1 & U2 & U3). apply One. exists u. split; [exact U1|]. split; lra.
Qed.
Print Assumptions C87_good_run.
Definition good_aim (v : fvis) : option nat := if (fv_id v <? 3)%Z then Some 3 else None.
Example C87_good_run_ex : seasonal good_demo good_aim 1 good_ops /\ count (fun v => match good_aim v with Some q => Nat.eqb q 3 | None => false end) (reports good_ops) = 2%Z.
Proof.
  split; [|reflexivity]. intros a v b p E Av.
  destruct a as [|o1 [|o2 [|o3 [|o4 [|o5 [|o6 a]]]]]]; unfold good_ops in E; cbn [app] in E; inversion E; subst; try discriminate Av.
  - injection Av as <-. split; [vm_compute; reflexivity|]. exists [], (good_cond 60000), []. split; [reflexivity|]. split; [vm_compute; reflexivity|]. split; [eexists; reflexivity|]. split; [eexists; reflexivity|]. split; [eexists; reflexivity|reflexivity].
  - injection Av as <-. split; [vm_compute; reflexivity|]. exists (firstn 2 good_ops), (good_cond 60001), []. split; [reflexivity|]. split; [vm_compute; reflexivity|]. split; [eexists; reflexivity|]. split; [eexists; reflexivity|]. split; [eexists; reflexivity|reflexivity].
  - exfalso. match goal with H : [] = _ |- _ => destruct a; discriminate H end.
Qed.
(** A visit's loss of depth is taken from the brightness of the dark sky, not from the best depth:
    visits two magnitudes short of it, with a limit of half a magnitude, use up the season. *)
Theorem C87_good_depth_refuted : exists F ops c p b, in_order F (ops ++ [Ask c]) /\ g_best F p = EFin b /\ g_pen F = (1 # 2)%Q /\
  (forall v d, In v (reports ops) -> fv_depth v = EFin d -> (2 < b - d)%Q) /\ promising F p c /\ good_value F ops c p = EFin 0.
Proof.
  exists good_demo, [Seen (vis 1 60000 "r" (7 # 10) 22 [3]); Seen (vis 2 60001 "r" (7 # 10) 22 [3])], (good_cond 60003), 3, (244 # 10).
  split; [sorted|]. split; [reflexivity|]. split; [reflexivity|]. split; [|split; [|vm_compute; reflexivity]].
  - intros v d [<-|[<-|[]]] D; injection D as <-; reflexivity.
  - split; [exists (244 # 10), (242 # 10); split; [reflexivity|]; split; [reflexivity|vm_compute; congruence]|]. split; [exists (7 # 10); split; [reflexivity|vm_compute; congruence]|reflexivity].
Qed.
Print Assumptions C87_good_depth_refuted.
