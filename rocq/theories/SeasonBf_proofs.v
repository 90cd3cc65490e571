(** Proofs about rewards per year and season. *)
From Coq Require Import List ZArith QArith Qabs Qround Bool String Lia Lqa Sorted.
From Verif Require Import Base IntRounded Feat Feat_proofs Feat_proofs2 BfCall BfCall_proofs MaskLoop MaskLoop_proofs Script Script_proofs TimeGate_proofs Cadence_proofs SeasonBf.
Import ListNotations.
Open Scope nat_scope.

(** ** Runs of any kind of question *)
Section Run.
Context {C : Type}.
Lemma reps_app : forall (a b : list (op C fvis)), reports (a ++ b) = reports a ++ reports b.
Proof. intros. unfold reports. apply flat_map_app. Qed.
Lemma last_report : forall (P : fvis -> bool) (l : list (op C fvis)), existsb P (reports l) = true ->
  exists a v b, l = a ++ Seen v :: b /\ P v = true /\ existsb P (reports b) = false.
Proof.
  intros P l. induction l as [|o l IH]; [discriminate|]. intro H. destruct (existsb P (reports l)) eqn:E.
  - destruct (IH eq_refl) as (a & v & b & -> & A & B). exists (o :: a), v, b. auto.
  - destruct o as [v|c]; [|cbn in H; unfold reports in E; congruence]. exists [], v, l. split; [reflexivity|]. split; [|exact E].
    cbn in H. apply orb_true_iff in H. destruct H as [H|H]; [exact H|]. unfold reports in E. congruence.
Qed.
Lemma run_bound : forall (P : fvis -> bool) (l : list (op C fvis)) n m, (0 <= n + m)%Z ->
  (forall a v b, l = a ++ Seen v :: b -> P v = true -> exists a1 c a2, a = a1 ++ Ask c :: a2 /\ (count P (reports a1) <= n)%Z /\ (count P (reports a2) < m)%Z) ->
  (count P (reports l) <= n + m)%Z.
Proof.
  intros P l n m N H. destruct (existsb P (reports l)) eqn:E; [|rewrite (count_existsb _ _ E); exact N].
  destruct (last_report P l E) as (a & v & b & El & Pv & Eb). destruct (H a v b El Pv) as (a1 & c & a2 & Ea & C1 & C2).
  rewrite El, Ea. rewrite reps_app, reps_app. cbn [reports flat_map app]. change (flat_map _ a2) with (reports a2). change (flat_map _ b) with (reports b).
  rewrite !count_app. cbn [app]. rewrite !count_cons, Pv, (count_existsb _ _ Eb). lia.
Qed.
Lemma reported : forall (l : list (op C fvis)) v, In v (reports l) -> exists a b, l = a ++ Seen v :: b.
Proof.
  intros l v H. unfold reports in H. apply in_flat_map in H. destruct H as (o & O1 & O2). destruct o as [x|d]; [|destruct O2]. destruct O2 as [<-|[]]. apply in_split. exact O1.
Qed.
End Run.

(** ** The last n times *)
Lemma lt_fold : forall bn n h x, 1 <= n -> fold_left (lt_one bn) h (lt0 n) x = firstn n (rev (map fv_mjd (filter (hit bn x) h)) ++ repeat 0%Q n).
Proof.
  intros bn n h x Hn. induction h as [|v h IH] using rev_ind.
  - cbn [fold_left filter map rev app]. unfold lt0. rewrite firstn_all2 by (rewrite repeat_length; lia). f_equal. lia.
  - rewrite fold_left_app. cbn [fold_left]. unfold lt_one at 1. rewrite IH. rewrite filter_app, map_app, rev_app_distr. cbn [filter]. change (hit bn x v) with (band_in bn v && is_pix x (fv_pix v)).
    destruct (band_in bn v && is_pix x (fv_pix v)); [|reflexivity]. cbn [map rev app]. rewrite lt_len.
    destruct n as [|m]; [reflexivity|]. rewrite !firstn_cons. f_equal. rewrite firstn_firstn. replace (Nat.min m (S m)) with m by lia.
    replace (repeat 0%Q (S m)) with (repeat 0%Q m ++ [0%Q]) by (symmetry; apply repeat_cons).
    rewrite app_assoc, (firstn_app m (rev (map fv_mjd (filter (hit bn x) h)) ++ repeat 0%Q m)), app_length, repeat_length.
    replace (m - (_ + m)) with 0 by lia. rewrite firstn_O, app_nil_r. reflexivity.
Qed.
(** In a list of falling times, the last of the first [n] (filled up with 0) is more than [s] ago
    exactly when fewer than [n] are at most [s] ago. *)
Definition recent (s t q : Q) : bool := Qle_bool (t - q) s.
Lemma none_recent : forall s t q l, (s < t - q)%Q -> Forall (fun b => (b <= q)%Q) l -> filter (recent s t) l = [].
Proof.
  intros s t q l R Fa. induction l as [|y l IH]; [reflexivity|]. inversion Fa as [|? ? Fy Fl]; subst. cbn. unfold recent at 1.
  destruct (Qle_bool (t - y) s) eqn:Y; [apply Qle_bool_iff in Y; lra|]. now apply IH.
Qed.
Lemma nth_recent : forall (s t : Q) n (l : list Q), 1 <= n -> (s < t)%Q -> StronglySorted (fun a b => (b <= a)%Q) l ->
  (s < t - last (firstn n (l ++ repeat 0%Q n)) 0)%Q <-> List.length (filter (recent s t) l) < n.
Proof.
  intros s t n l Hn St. revert l. induction n as [|n IH]; [lia|]. intros l So. destruct l as [|q l].
  - cbn [app filter List.length]. rewrite firstn_all2 by (rewrite repeat_length; lia). assert (E : last (repeat 0%Q (S n)) 0%Q = 0%Q) by (clear; induction n as [|n IH]; [reflexivity|exact IH]). rewrite E. split; [lia|]. intros _. lra.
  - inversion So as [|? ? So' Fa]; subst. cbn [app]. destruct n as [|n].
    + cbn [firstn last filter]. unfold recent at 1. destruct (Qle_bool (t - q) s) eqn:R.
      * apply Qle_bool_iff in R. cbn [List.length]. split; [lra|lia].
      * apply Qle_bool_false in R. split; [|lra]. intros _. rewrite (none_recent s t q l R Fa). cbn. lia.
    + assert (Ln : last (firstn (S (S n)) (q :: l ++ repeat 0%Q (S (S n)))) 0%Q = last (firstn (S n) (l ++ repeat 0%Q (S (S n)))) 0%Q) by (destruct l; reflexivity).
      assert (Re : firstn (S n) (l ++ repeat 0%Q (S (S n))) = firstn (S n) (l ++ repeat 0%Q (S n))).
      { replace (repeat 0%Q (S (S n))) with (repeat 0%Q (S n) ++ [0%Q]) by (symmetry; apply repeat_cons). rewrite app_assoc, (firstn_app (S n) (l ++ repeat 0%Q (S n))), app_length, repeat_length.
        replace (S n - (_ + S n)) with 0 by lia. rewrite firstn_O, app_nil_r. reflexivity. }
      rewrite Ln, Re. rewrite (IH ltac:(lia) l So'). cbn [filter]. unfold recent at 2.
      destruct (Qle_bool (t - q) s) eqn:R; [cbn [List.length]; lia|]. apply Qle_bool_false in R. rewrite (none_recent s t q l R Fa). cbn. lia.
Qed.
Lemma rev_sorted : forall l, chrono l -> StronglySorted (fun a b => (b <= a)%Q) (rev (map fv_mjd l)).
Proof.
  induction l as [|v l IH] using rev_ind; intro Ch; [constructor|]. rewrite map_app, rev_app_distr. cbn [map rev app]. apply chrono_app in Ch. destruct Ch as (C1 & _ & C3). constructor; [now apply IH|].
  apply Forall_forall. intros q Q. apply in_rev in Q. apply in_map_iff in Q. destruct Q as (u & <- & U). apply (C3 u v U (or_introl eq_refl)).
Qed.
Lemma behind_iff : forall bn n h x s t, 1 <= n -> (s < t)%Q -> chrono h ->
  Qltb s (t - last (fold_left (lt_one bn) h (lt0 n) x) 0%Q) = (count (fun v => hit bn x v && recent s t (fv_mjd v)) h <? Z.of_nat n)%Z.
Proof.
  intros bn n h x s t Hn St Ch. rewrite lt_fold by exact Hn. apply eq_true_iff_eq. rewrite Qltb_lt, Z.ltb_lt, nth_recent; [|exact Hn|exact St|apply rev_sorted, filter_chrono, Ch].
  assert (E : List.length (filter (recent s t) (rev (map fv_mjd (filter (hit bn x) h)))) = List.length (filter (fun v => hit bn x v && recent s t (fv_mjd v)) h)).
  { clear. induction h as [|v h IH]; [reflexivity|]. cbn [filter]. destruct (hit bn x v); cbn [andb]; [|exact IH]. cbn [map rev]. rewrite filter_app, app_length. cbn [filter]. destruct (recent s t (fv_mjd v)); cbn [List.length]; lia. }
  rewrite E. unfold count. lia.
Qed.

(** ** The season counts, with questions in between *)
Section Good.
Variable F : gcfg.
Notation pse := (pix_season (g_ra F) (g_start F)).
Definition g_sharp (v : fvis) : bool := match fv_see v with EFin q => Qltb q (g_see F) | _ => false end.
Definition g_match (x : nat) (v : fvis) : bool :=
  is_pix x (fv_pix v) && band_is (Some (g_band F)) v && deep_ok (g_sky F) (Some (g_band F)) (Some (g_pen F)) x v && g_sharp v.
Definition g_count (x : nat) (t : Q) (h : list fvis) : Z := count (fun v => g_match x v && (pse x (fv_mjd v) =? pse x t)%Z) h.
Definition g_R (h : list fvis) (s : csst) : Prop :=
  (forall v, In v h -> (fv_mjd v <= cs_mjd s)%Q) /\ (forall x, cs_season s x = pse x (cs_mjd s)) /\ (forall x, cs_map s x = g_count x (cs_mjd s) h).
Lemma g0_R : g_R [] (cs0 (g_ra F) (g_start F)).
Proof. split; [intros v []|]. split; [|reflexivity]. intros x. cbn [cs0 cs_season cs_mjd]. unfold pix_season. apply Qfloor_comp. unfold yr. field. Qed.
Lemma g_update : forall h s t, g_R h s -> (cs_mjd s <= t)%Q -> let s1 := season_update (g_ra F) (g_start F) s t in g_R h s1 /\ cs_mjd s1 = t.
Proof.
  intros h s t (H1 & H2 & H3) L. unfold season_update. cbv zeta. rewrite (proj2 (Qltb_false t (cs_mjd s)) L). split; [|reflexivity]. cbn [cs_mjd cs_season cs_map]. split; [|split].
  - intros v V. cbn [cs_mjd]. specialize (H1 v V). lra.
  - reflexivity.
  - intros x. cbn [cs_map cs_mjd]. rewrite H2. assert (M := pix_season_mono (g_ra F) (g_start F) x _ _ L). destruct (Z.ltb_spec (pse x (cs_mjd s)) (pse x t)) as [D|D].
    + symmetry. apply count_none. intros v Hv. assert (M2 := pix_season_mono (g_ra F) (g_start F) x _ _ (H1 v Hv)). destruct (Z.eqb_spec (pse x (fv_mjd v)) (pse x t)); [lia|apply andb_false_r].
    + rewrite H3. apply count_ext. intros v _. f_equal. replace (pse x t) with (pse x (cs_mjd s)) by lia. reflexivity.
Qed.
Lemma g_one_ok : forall h s v, g_R h s -> (cs_mjd s <= fv_mjd v)%Q -> (exists q, fv_see v = EFin q /\ ~ (q == g_see F)%Q /\ far q (g_see F)) ->
  let s1 := cl_add (g_cls F) s v in g_R (h ++ [v]) s1 /\ cs_mjd s1 = fv_mjd v.
Proof.
  intros h s v H L (q & Eq & Nq & Fq). cbv zeta. destruct (g_update h s (fv_mjd v) H L) as [U0 U1]. cbv zeta in *. cbn [g_cls cl_add].
  assert (SC : see_check (g_see F) v = Ok (g_sharp v)).
  { unfold see_check, g_sharp. rewrite Eq. unfold ir_le. rewrite cmp_scalar by (intros a [<-|[]]; exact Fq). cbn. rewrite orb_false_r, le_lt_far by exact Nq. reflexivity. }
  unfold g_one. rewrite SC. cbn [bind keep]. unfold cs_one.
  set (s1 := season_update (g_ra F) (g_start F) s (fv_mjd v)) in *. clearbody s1. destruct U0 as (V1 & V2 & V3). rewrite U1 in *.
  cbv zeta. rewrite (filter_true _ (fun x => (pse x (fv_mjd v) =? cs_season s1 x)%Z) (fv_pix v)) by (intros x _; rewrite V2; apply Z.eqb_refl).
  assert (N : forall x, g_count x (fv_mjd v) (h ++ [v]) = (cs_map s1 x + if g_match x v then 1 else 0)%Z).
  { intros x. rewrite V3. unfold g_count. rewrite count_app, count_cons, Z.eqb_refl, andb_true_r. unfold count at 2. cbn. lia. }
  assert (Up : forall u, In u (h ++ [v]) -> (fv_mjd u <= fv_mjd v)%Q). { intros u U. apply in_app_or in U. destruct U as [U|[<-|[]]]; [now apply V1|apply Qle_refl]. }
  destruct (g_sharp v) eqn:Sh; [destruct (band_is (Some (g_band F)) v) eqn:B|]; (split; [|cbn [cs_mjd]; rewrite ?U1; reflexivity]); unfold g_R; cbn [cs_mjd cs_season cs_map]; rewrite ?U1; (split; [exact Up|]); (split; [exact V2|]); intro x; rewrite N; unfold g_match; rewrite ?Sh, ?B, ?andb_true_r, ?andb_false_r.
  - unfold deep_ok, bump. cbn [m5_limit]. rewrite is_pix_filter. destruct (is_pix x (fv_pix v) && _); lia.
  - cbn. lia.
  - lia.
Qed.
Definition when (o : op gcond fvis) : Q := match o with Seen v => fv_mjd v | Ask c => gc_mjd c end.
(** Each event is no earlier than those before it, nor than the start. *)
Definition forward (t0 : Q) (l : list (op gcond fvis)) : Prop := StronglySorted (fun a b => (a <= b)%Q) (t0 :: map when l).
Lemma forward_app : forall t0 a b, forward t0 (a ++ b) -> forward t0 a.
Proof.
  intros t0 a b H. unfold forward in *. rewrite map_app in H. change (t0 :: map when a ++ map when b) with ((t0 :: map when a) ++ map when b) in H.
  revert H. generalize (t0 :: map when a) as l. induction l as [|x l IH]; intro H; [constructor|]. cbn in H. inversion H as [|? ? H1 H2]; subst. constructor; [now apply IH|]. apply Forall_app in H2. apply H2.
Qed.
Lemma forward_last : forall t0 a o x, forward t0 (a ++ [o]) -> In x (t0 :: map when a) -> (x <= when o)%Q.
Proof.
  intros t0 a o x H I. unfold forward in H. rewrite map_app in H. change (t0 :: map when a ++ map when [o]) with ((t0 :: map when a) ++ [when o]) in H.
  revert H I. generalize (t0 :: map when a) as l. induction l as [|y l IH]; intros H I; [destruct I|]. cbn in H. inversion H as [|? ? H1 H2]; subst. destruct I as [<-|I]; [|now apply IH].
  rewrite Forall_forall in H2. apply H2. apply in_or_app. right. now left.
Qed.
Definition seen_ok (v : fvis) : Prop := exists q, fv_see v = EFin q /\ ~ (q == g_see F)%Q /\ far q (g_see F).
Lemma g_run : forall l, forward (g_start F) l -> (forall v, In v (reports l) -> seen_ok v) ->
  let b := bf_run gc_mjd (g_cls F) (bf0 (cs0 (g_ra F) (g_start F))) l in
  b_recalc b = true /\ b_last b = None /\ g_R (reports l) (b_feat b) /\ In (cs_mjd (b_feat b)) (g_start F :: map when l).
Proof.
  intros l. cbv zeta. induction l as [|o l IH] using rev_ind; intros Fw Ok.
  - cbn. split; [reflexivity|]. split; [reflexivity|]. split; [apply g0_R|now left].
  - destruct (IH (forward_app _ _ _ Fw) ltac:(intros v V; apply Ok; rewrite reps_app; apply in_or_app; now left)) as (I1 & I2 & I3 & I4).
    unfold bf_run in *. rewrite fold_left_app. cbn [fold_left]. rewrite reps_app.
    set (b := fold_left (bf_step gc_mjd (g_cls F)) l (bf0 (cs0 (g_ra F) (g_start F)))) in *.
    assert (L : (cs_mjd (b_feat b) <= when o)%Q) by (eapply forward_last; eauto).
    assert (W : In (when o) (g_start F :: map when (l ++ [o]))) by (rewrite map_app; right; apply in_or_app; right; now left).
    destruct o as [v|c]; cbn [bf_step reports flat_map app when] in *.
    + unfold bf_add. cbn [b_recalc b_last b_feat]. split; [reflexivity|]. split; [exact I2|].
      destruct (g_one_ok (reports l) (b_feat b) v I3 L) as [A B]; [apply Ok; rewrite reps_app; apply in_or_app; right; now left|]. cbv zeta in *. split; [exact A|]. rewrite B. exact W.
    + destruct (call_inv gc_mjd (g_cls F) b c eq_refl I1 I2) as (A1 & A2 & A3 & _). cbv zeta in *. split; [exact A1|]. split; [exact A2|].
      destruct (A3 eq_refl eq_refl) as [-> _]. cbn [g_cls cl_calc fst]. rewrite app_nil_r. destruct (g_update (reports l) (b_feat b) (gc_mjd c) I3 L) as [G1 G2]. cbv zeta in *.
      destruct (g_update (reports l) _ (gc_mjd c) G1 ltac:(rewrite G2; apply Qle_refl)) as [G3 G4]. cbv zeta in *. split; [exact G3|]. rewrite G4. exact W.
Qed.
Lemma g_answer : forall l c p, forward (g_start F) (l ++ [Ask c]) -> (forall v, In v (reports l) -> seen_ok v) ->
  snd (bf_call gc_mjd (g_cls F) (bf_run gc_mjd (g_cls F) (bf0 (cs0 (g_ra F) (g_start F))) l) c) p =
  if er_leb (er_sub (g_best F p) (gc_m5 c p)) (EFin (g_pen F)) && er_leb (gc_fwhm c p) (EFin (g_see F)) && (g_count p (gc_mjd c) (reports l) <? g_n F)%Z && er_ltb (EFin 0) (g_foot F p)
  then EFin 1 else EFin 0.
Proof.
  intros l c p Fw Ok. destruct (g_run l (forward_app _ _ _ Fw) Ok) as (I1 & I2 & I3 & I4). cbv zeta in *. set (b := bf_run _ _ _ l) in *.
  assert (L : (cs_mjd (b_feat b) <= gc_mjd c)%Q) by (apply (forward_last _ _ (Ask c) _ Fw I4)).
  destruct (call_inv gc_mjd (g_cls F) b c eq_refl I1 I2) as (_ & _ & A3 & _). cbv zeta in *. destruct (A3 eq_refl eq_refl) as [_ ->]. cbn [g_cls cl_calc fst snd].
  destruct (g_update (reports l) (b_feat b) (gc_mjd c) I3 L) as [G1 G2]. cbv zeta in *.
  destruct (g_update (reports l) _ (gc_mjd c) G1 ltac:(rewrite G2; apply Qle_refl)) as [G3 G4]. cbv zeta in *. unfold g_map. destruct G3 as (_ & _ & M). rewrite M, G4. reflexivity.
Qed.
End Good.
