(** Proofs about the survey that revisits pairs. *)
From Coq Require Import List ZArith QArith Qround Bool String Lia Lqa Permutation.
From Verif Require Import Base Obs Core Script Script_proofs SiteData SiteData_proofs LongGap.
Import ListNotations.
Open Scope nat_scope.

(** ** Lists of times *)
Lemma qmin_spec : forall l, l <> [] -> In (qmin l) l /\ forall x, In x l -> (qmin l <= x)%Q.
Proof.
  intros [|x r] H; [congruence|]. clear H. cbn [qmin]. revert x.
  induction r as [|y r IH]; intros x; cbn [fold_left]; [split; [left; reflexivity|intros z [<-|[]]; apply Qle_refl]|].
  destruct (Qle_bool x y) eqn:E.
  - apply Qle_bool_iff in E. destruct (IH x) as [A C]. split; [destruct A as [A|A]; [left; exact A|right; right; exact A]|].
    intros z [<-|[<-|I]]; [apply C; left; reflexivity|apply Qle_trans with x; [apply C; left; reflexivity|exact E]|apply C; right; exact I].
  - apply Qle_bool_false in E. destruct (IH y) as [A C]. split; [right; exact A|].
    intros z [<-|[<-|I]]; [apply Qle_trans with y; [apply C; left; reflexivity|lra]|apply C; left; reflexivity|apply C; right; exact I].
Qed.
Lemma qmax_spec : forall l, l <> [] -> In (qmax l) l /\ forall x, In x l -> (x <= qmax l)%Q.
Proof.
  intros [|x r] H; [congruence|]. clear H. cbn [qmax]. revert x.
  induction r as [|y r IH]; intros x; cbn [fold_left]; [split; [left; reflexivity|intros z [<-|[]]; apply Qle_refl]|].
  destruct (Qle_bool x y) eqn:E.
  - apply Qle_bool_iff in E. destruct (IH y) as [A C]. split; [right; exact A|].
    intros z [<-|[<-|I]]; [apply Qle_trans with y; [exact E|apply C; left; reflexivity]|apply C; left; reflexivity|apply C; right; exact I].
  - apply Qle_bool_false in E. destruct (IH x) as [A C]. split; [destruct A as [A|A]; [left; exact A|right; right; exact A]|].
    intros z [<-|[<-|I]]; [apply C; left; reflexivity|apply Qle_trans with x; [lra|apply C; left; reflexivity]|apply C; right; exact I].
Qed.
Lemma lt_ceil : forall k q, (0 <= k)%Z -> ((k < Qceiling q)%Z <-> (inject_Z k < q)%Q).
Proof.
  intros k q K. split; intros H.
  - apply Qnot_le_lt. intros L. apply Qceiling_resp_le in L. rewrite Qceiling_Z in L. lia.
  - assert (inject_Z k < inject_Z (Qceiling q))%Q by (eapply Qlt_le_trans; [exact H|apply Qle_ceiling]). rewrite <- Zlt_Qlt in H0. exact H0.
Qed.
Lemma arange_in : forall a b d t, In t (arange a b d) <-> (0 < d)%Q /\ exists m : nat, t = (a + inject_Z (Z.of_nat m) * d)%Q /\ (t < b)%Q.
Proof.
  intros a b d t. unfold arange. destruct (Qle_bool d 0) eqn:E.
  - apply Qle_bool_iff in E. split; [intros []|intros [H _]; lra].
  - apply Qle_bool_false in E. rewrite in_map_iff. assert (D : ((b - a) / d * d == b - a)%Q) by (field; lra). set (q := ((b - a) / d)%Q) in *. clearbody q. split.
    + intros (k & <- & I). apply in_seq in I. split; [lra|]. exists k. split; [reflexivity|].
      assert (K : (Z.of_nat k < Qceiling q)%Z) by lia. apply lt_ceil in K; [|lia]. nra.
    + intros [_ (m & -> & L)]. exists m. split; [reflexivity|]. apply in_seq. assert (K : (inject_Z (Z.of_nat m) < q)%Q) by nra.
      apply lt_ceil in K; lia.
Qed.

Section P.
Variable F : scfg.
Variable py_int : string -> option Z.
Variable reward_val : Q.
Variable alt_at : Q -> Q -> Q -> Q.
Variable B : Type.
Variable blob_calc : B -> scond -> B * list er.
Variable blob_gen : B -> scond -> B * option (list obs).
Variable blob_add : B -> list obs -> B.
Variable G : lcfg.
Variable fuel : nat.
Let run := l_run F py_int reward_val alt_at B blob_calc blob_gen blob_add G fuel.

(** ** What the script should hold *)
(** The second visits of pairs of the latest night of a report. *)
Definition pairs (l : list obs) : list obs := filter (second_of_pair G (top_night l)) l.
(** The row for a visit, [k] steps after the gap. *)
Definition base_row (gap : Q) (k : nat) (o : obs) (s : sobs) : Prop :=
  (s_mjd s == o_mjd o + gap + inject_Z (Z.of_nat k) * g_step G)%Q /\ (s_flush s == s_mjd s + g_flush G)%Q /\ s_tol s = g_tol G /\
  s_ra s = o_ra o /\ s_dec s = o_dec o /\ s_rsp s = o_rsp o /\ s_exptime s = o_exptime o /\ s_nexp s = o_nexp o /\ s_filter s = o_filter o /\
  s_alt_min s = g_amin G /\ s_alt_max s = g_amax G /\ s_ha_max s = g_hamax G /\ s_ha_min s = g_hamin G /\ s_sun_alt_max s = g_sunmax G /\ s_moon_min s = 0%Q.
Definition band_of (o : obs) : string := if String.eqb (trunc 1 (o_band o)) "" then trunc 1 (rstrip (o_filter o)) else trunc 1 (o_band o).
Definition follows (gap : Q) (k : nat) (o : obs) (s : sobs) : Prop :=
  base_row gap k o s /\ s_band s = band_of o /\ exists i, s_note s = trunc 60 (trunc 60 (g_long G) ++ ", " ++ zdec i).
(** The times at which altitudes are looked at, and whether one is too high. *)
Definition looked_at (need : list obs) (gap : Q) (k : nat) (t : Q) : Prop :=
  exists first last (m : nat), In first need /\ In last need /\ (forall o, In o need -> (o_mjd first <= o_mjd o)%Q /\ (o_mjd o <= o_mjd last)%Q) /\
    (t == o_mjd first + gap + inject_Z (Z.of_nat k) * g_step G - g_tol G + inject_Z (Z.of_nat m) * g_step G)%Q /\
    (t < o_mjd last + gap + inject_Z (Z.of_nat k) * g_step G + g_step G)%Q.
Definition high (need : list obs) (gap : Q) (k : nat) : Prop := exists o t, In o need /\ looked_at need gap k t /\ (g_amax G < alt_at (o_ra o) (o_dec o) t)%Q.
(** The rows of one report. *)
Definition part (l : list obs) (rows : list sobs) : Prop :=
  exists gap k, py_get (g_gaps G) (top_night l) = Ok gap /\ Forall2 (follows gap k) (pairs l) rows /\
    (g_zen G = false -> k = 0) /\ (g_zen G = true -> pairs l <> [] -> ~ high (pairs l) gap k /\ forall j, j < k -> high (pairs l) gap j).
Inductive explained : list (list obs) -> list sobs -> Prop :=
| ex_none : explained [] []
| ex_one : forall rs w l rows, explained rs w -> part l rows -> explained (rs ++ [l]) (w ++ rows).
(** The reports since the survey last saw a new night. *)
Fixpoint live (night : Z) (acc : list (list obs)) (ops : list lop) : list (list obs) :=
  match ops with
  | [] => acc
  | Report _ l :: r => live night (acc ++ [l]) r
  | Calc n _ :: r => if (n =? night)%Z then live night acc r else live n [] r
  | Gen _ :: r => live night acc r
  end.

(** *** Zenith *)
Hypothesis alt_eq : forall ra dec t t', (t == t')%Q -> (alt_at ra dec t == alt_at ra dec t')%Q.

Lemma base_later : forall gap k o s, base_row gap k o s -> base_row gap (S k) o (later (g_step G) s).
Proof.
  intros gap k o s (A & C & D). unfold base_row. cbn [later s_mjd s_flush s_tol s_ra s_dec s_rsp s_exptime s_nexp s_filter s_alt_min s_alt_max s_ha_max s_ha_min s_sun_alt_max s_moon_min].
  split; [|split; [|exact D]]; [|lra]. rewrite Nat2Z.inj_succ. unfold Z.succ. rewrite inject_Z_plus. change (inject_Z 1) with 1%Q. lra.
Qed.
Lemma Forall2_in_r : forall A C (R : A -> C -> Prop) l m y, Forall2 R l m -> In y m -> exists x, In x l /\ R x y.
Proof. intros A C R l m y H. induction H as [|a c l m H1 H2 IH]; intros I; [contradiction|]. destruct I as [<-|I]; [exists a; split; [left; reflexivity|exact H1]|]. destruct (IH I) as (x & Ix & Rx). exists x. split; [right; exact Ix|exact Rx]. Qed.
Lemma Forall2_in_l : forall A C (R : A -> C -> Prop) l m x, Forall2 R l m -> In x l -> exists y, In y m /\ R x y.
Proof. intros A C R l m x H. induction H as [|a c l m H1 H2 IH]; intros I; [contradiction|]. destruct I as [<-|I]; [exists c; split; [left; reflexivity|exact H1]|]. destruct (IH I) as (y & Iy & Ry). exists y. split; [right; exact Iy|exact Ry]. Qed.
Lemma Forall2_len : forall A C (R : A -> C -> Prop) l m, Forall2 R l m -> List.length l = List.length m.
Proof. intros A C R l m H. induction H; cbn; congruence. Qed.

Lemma times_iff : forall need gap k rows, need <> [] -> Forall2 (base_row gap k) need rows -> forall t,
  ((exists t', In t' (times G rows) /\ (t == t')%Q) <-> (0 < g_step G)%Q /\ looked_at need gap k t).
Proof.
  intros need gap k rows Ne H t. assert (Nr : rows <> []) by (intros ->; apply Forall2_len in H; destruct need; [congruence|discriminate]).
  assert (N1 : map (fun s => (s_mjd s - s_tol s)%Q) rows <> []) by (destruct rows; [congruence|discriminate]). assert (N2 : map s_mjd rows <> []) by (destruct rows; [congruence|discriminate]).
  destruct (qmin_spec _ N1) as [A1 A2]. destruct (qmax_spec _ N2) as [C1 C2]. unfold times. set (lo := qmin (map (fun s => (s_mjd s - s_tol s)%Q) rows)) in *. set (hi := qmax (map s_mjd rows)) in *. clearbody lo hi.
  apply in_map_iff in A1. destruct A1 as (s1 & E1 & I1). apply in_map_iff in C1. destruct C1 as (s2 & E2 & I2).
  destruct (Forall2_in_r _ _ _ _ _ _ H I1) as (o1 & J1 & R1). destruct (Forall2_in_r _ _ _ _ _ _ H I2) as (o2 & J2 & R2).
  assert (M1 : forall o, In o need -> (o_mjd o1 <= o_mjd o)%Q).
  { intros o Io. destruct (Forall2_in_l _ _ _ _ _ _ H Io) as (s & Is & Rs). assert (lo <= s_mjd s - s_tol s)%Q by (apply A2; apply in_map_iff; exists s; split; [reflexivity|exact Is]).
    destruct R1 as (X & _ & Y & _). destruct Rs as (X' & _ & Y' & _). rewrite Y in E1. rewrite Y' in H0. subst lo. lra. }
  assert (M2 : forall o, In o need -> (o_mjd o <= o_mjd o2)%Q).
  { intros o Io. destruct (Forall2_in_l _ _ _ _ _ _ H Io) as (s & Is & Rs). assert (s_mjd s <= hi)%Q by (apply C2; apply in_map; exact Is).
    destruct R2 as (X & _). destruct Rs as (X' & _). subst hi. lra. }
  assert (L : (lo == o_mjd o1 + gap + inject_Z (Z.of_nat k) * g_step G - g_tol G)%Q) by (destruct R1 as (X & _ & Y & _); rewrite <- E1, Y, X; lra).
  assert (U : (hi == o_mjd o2 + gap + inject_Z (Z.of_nat k) * g_step G)%Q) by (destruct R2 as (X & _); rewrite <- E2, X; lra).
  split.
  - intros (t' & It & Et). apply arange_in in It. destruct It as (P & m & -> & Lt). split; [exact P|]. exists o1, o2, m. split; [exact J1|]. split; [exact J2|]. split; [intros o Io; split; [apply M1|apply M2]; exact Io|]. split; lra.
  - intros (P & f & l & m & If & Il & Ord & Et & Lt). exists (lo + inject_Z (Z.of_nat m) * g_step G)%Q.
    assert (Ef : (o_mjd f == o_mjd o1)%Q) by (destruct (Ord o1 J1); pose proof (M1 f If); lra). assert (El : (o_mjd l == o_mjd o2)%Q) by (destruct (Ord o2 J2); pose proof (M2 l Il); lra).
    split; [|lra]. apply arange_in. split; [exact P|]. exists m. split; [reflexivity|]. lra.
Qed.

Lemma high_iff : forall need gap k rows h, need <> [] -> Forall2 (base_row gap k) need rows -> too_high alt_at G rows = Ok h -> (h = true <-> high need gap k).
Proof.
  intros need gap k rows h Ne H E. pose proof (times_iff need gap k rows Ne H) as T. unfold too_high in E. destruct (times G rows) as [|t0 ts] eqn:Et; [discriminate|]. destruct (g_site G); [discriminate|].
  assert (Eh : h = existsb (fun t => existsb (fun s => Qltb (g_amax G) (alt_at (s_ra s) (s_dec s) t)) rows) (t0 :: ts)) by congruence. rewrite Eh, existsb_exists. clear Eh E. split.
  - intros (t & It & Ht). apply existsb_exists in Ht. destruct Ht as (s & Is & Hs). apply Qltb_lt in Hs. destruct (Forall2_in_r _ _ _ _ _ _ H Is) as (o & Io & (_ & _ & _ & Era & Edec & _)).
    exists o, t. split; [exact Io|]. split; [apply T; exists t; split; [exact It|reflexivity]|]. rewrite <- Era, <- Edec. exact Hs.
  - intros (o & t & Io & Lt & Ht). assert (P : (0 < g_step G)%Q).
    { assert (X : exists t', In t' (t0 :: ts) /\ (t0 == t')%Q) by (exists t0; split; [left; reflexivity|reflexivity]). apply T in X. apply X. }
    destruct (proj2 (T t) (conj P Lt)) as (t' & It' & Et'). exists t'. split; [exact It'|]. apply existsb_exists. destruct (Forall2_in_l _ _ _ _ _ _ H Io) as (s & Is & (_ & _ & _ & Era & Edec & _)).
    exists s. split; [exact Is|]. apply Qltb_lt. rewrite Era, Edec. rewrite <- (alt_eq _ _ _ _ Et'). exact Ht.
Qed.

Lemma clear_spec : forall need gap n k rows rows', need <> [] -> Forall2 (base_row gap k) need rows ->
  clear_zenith alt_at G n rows = Ok rows' -> exists j, j <= n /\ rows' = Nat.iter j (map (later (g_step G))) rows /\ Forall2 (base_row gap (k + j)) need rows' /\
    ~ high need gap (k + j) /\ forall i, i < j -> high need gap (k + i).
Proof.
  intros need gap. induction n as [|n IH]; intros k rows rows' Ne H E; cbn [clear_zenith] in E; destruct (too_high alt_at G rows) as [h|e] eqn:Eh; cbn [bind] in E; try discriminate;
    pose proof (high_iff need gap k rows h Ne H Eh) as Hi; destruct h; try discriminate.
  - injection E as <-. exists 0. rewrite Nat.add_0_r. split; [lia|]. split; [reflexivity|]. split; [exact H|]. split; [intros K; apply Hi in K; discriminate|intros i Li; lia].
  - assert (H' : Forall2 (base_row gap (S k)) need (map (later (g_step G)) rows)).
    { clear -H. induction H; cbn; [constructor|]. constructor; [apply base_later; assumption|exact IHForall2]. }
    destruct (IH (S k) _ rows' Ne H' E) as (j & Lj & Ej & Hj & Nj & Aj). exists (S j). split; [lia|]. split; [|split; [|split]].
    + rewrite Ej. clear. induction j as [|j IH]; [reflexivity|]. cbn [Nat.iter] in *. cbn. f_equal. exact IH.
    + replace (k + S j) with (S k + j) by lia. exact Hj.
    + replace (k + S j) with (S k + j) by lia. exact Nj.
    + intros [|i] Li; [rewrite Nat.add_0_r; apply Hi; reflexivity|]. replace (k + S i) with (S k + i) by lia. apply Aj. lia.
  - injection E as <-. exists 0. rewrite Nat.add_0_r. split; [lia|]. split; [reflexivity|]. split; [exact H|]. split; [intros K; apply Hi in K; discriminate|intros i Li; lia].
Qed.

(** *** One report *)
Lemma row_base : forall gap o, base_row gap 0 o (row_of G gap o).
Proof.
  intros gap o. split; [cbn [row_of s_mjd]; change (inject_Z (Z.of_nat 0)) with 0%Q; ring|]. split; [cbn [row_of s_mjd s_flush]; ring|]. repeat split.
Qed.
Definition keeps_row (gap : Q) (o : obs) (s : sobs) : Prop := s_note s = trunc 60 (g_long G) /\ s_band s = trunc 1 (o_band o).
Lemma iter_keeps : forall gap j need rows, Forall2 (keeps_row gap) need rows -> Forall2 (keeps_row gap) need (Nat.iter j (map (later (g_step G))) rows).
Proof.
  assert (One : forall gap need rows, Forall2 (keeps_row gap) need rows -> Forall2 (keeps_row gap) need (map (later (g_step G)) rows)).
  { intros gap need rows H. induction H; cbn [map]; constructor; assumption. }
  intros gap. induction j as [|j IH]; intros need rows H; [exact H|]. cbn. apply One. exact (IH need rows H).
Qed.
Lemma index_follows : forall gap k need rows i, Forall2 (base_row gap k) need rows -> Forall2 (keeps_row gap) need rows ->
  Forall2 (follows gap k) need (index_notes i (map sbackfill rows)).
Proof.
  intros gap k need rows i H. revert i. induction H as [|o s need rows Hb H IH]; intros i K; cbn; [constructor|]. inversion K; subst. constructor; [|apply IH; assumption].
  destruct H3 as [Nn Nb]. assert (Ef : s_filter s = o_filter o) by (destruct Hb as (_ & _ & _ & _ & _ & _ & _ & _ & X & _); exact X). split.
  - unfold sbackfill. destruct (String.eqb (s_band s) ""); exact Hb.
  - split.
    + cbn [set_note s_band]. unfold band_of, sbackfill. rewrite Nb. destruct (String.eqb (trunc 1 (o_band o)) ""); cbn [set_sband s_band]; rewrite ?Ef; [reflexivity|exact Nb].
    + exists i. cbn [set_note s_note]. rewrite sbackfill_note, Nn. reflexivity.
Qed.

Lemma schedule_part : forall s l s' u, schedule py_int alt_at B G fuel s l = (s', Ok u) ->
  l_night B s' = l_night B s /\ l_r2 B s' = l_r2 B s /\ l_blob B s' = l_blob B s /\
  exists rows, part l rows /\ st_wanted (l_scr B s') = st_wanted (l_scr B s) ++ rows /\
    (l_scr B s' = l_scr B s \/ exists new, set_script py_int (l_scr B s) new true true = (l_scr B s', Ok u)).
Proof.
  intros s l s' u H. unfold schedule in H. destruct l as [|o0 l0]; [discriminate|]. set (l := o0 :: l0) in *. clearbody l.
  destruct (py_get (g_gaps G) (top_night l)) as [gap|e] eqn:Eg; [|discriminate].
  assert (Need : filter (second_of_pair G (top_night l)) l = pairs l) by reflexivity. rewrite Need in H. destruct (pairs l) as [|o r] eqn:Ep.
  - injection H as <- <-. repeat (split; [reflexivity|]). exists []. split; [|split; [rewrite app_nil_r; reflexivity|left; reflexivity]].
    exists gap, 0. split; [exact Eg|]. rewrite Ep. split; [constructor|]. split; [reflexivity|]. intros _ X. congruence.
  - set (need := o :: r) in *. assert (Ne : need <> []) by discriminate. clearbody need.
    set (rows0 := map (row_of G gap) need) in *.
    assert (B0 : Forall2 (base_row gap 0) need rows0) by (subst rows0; clear; induction need; cbn; constructor; [apply row_base|assumption]).
    assert (K0 : Forall2 (keeps_row gap) need rows0) by (subst rows0; clear; induction need; cbn; constructor; [split; reflexivity|assumption]).
    destruct (if g_zen G then clear_zenith alt_at G fuel rows0 else Ok rows0) as [rows|e] eqn:Ez; [|discriminate].
    destruct (set_script py_int _ rows true true) as [st [v|e]] eqn:Es; [|discriminate]. injection H as <- <-.
    cbn [l_night l_gap l_scr l_r2 l_blob] in *. repeat (split; [reflexivity|]).
    pose proof (set_script_ok _ _ _ _ _ _ _ Es) as (new & W & _ & _ & _ & _ & _ & _ & _ & N). destruct (N eq_refl) as [-> _].
    assert (Z : exists k, Forall2 (base_row gap k) need rows /\ Forall2 (keeps_row gap) need rows /\ (g_zen G = false -> k = 0) /\ (g_zen G = true -> ~ high need gap k /\ forall j, j < k -> high need gap j)).
    { destruct (g_zen G).
      - destruct (clear_spec need gap fuel 0 rows0 rows Ne B0 Ez) as (j & _ & -> & Hb & Nh & Ah). exists j. split; [exact Hb|]. split; [apply iter_keeps; exact K0|]. split; [discriminate|]. intros _. split; [exact Nh|exact Ah].
      - injection Ez as <-. exists 0. split; [exact B0|]. split; [exact K0|]. split; [reflexivity|discriminate]. }
    destruct Z as (k & Hb & Hk & Z1 & Z2). eexists. split; [|split; [exact W|right; exists rows; exact Es]].
    exists gap, k. split; [exact Eg|]. rewrite Ep. split; [apply index_follows; assumption|]. split; [exact Z1|]. intros Z _. apply Z2. exact Z.
Qed.

(** *** Completed marks *)
Definition same (s s' : sobs) : Prop := s' = s \/ s' = set_done s.
Lemma same_follows : forall gap k o s s', same s s' -> follows gap k o s -> follows gap k o s'.
Proof. intros gap k o s s' [->| ->] H; exact H. Qed.
Lemma Forall2_same : forall gap k need rows rows', Forall2 (follows gap k) need rows -> Forall2 same rows rows' -> Forall2 (follows gap k) need rows'.
Proof. intros gap k need rows rows' H. revert rows'. induction H; intros rows' S; inversion S; subst; constructor; [eapply same_follows; eassumption|apply IHForall2; assumption]. Qed.
Lemma explained_same : forall rs w, explained rs w -> forall w', Forall2 same w w' -> explained rs w'.
Proof.
  intros rs w H. induction H as [|rs w l rows H IH P]; intros w' S; [inversion S; subst; constructor|].
  apply Forall2_app_inv_l in S. destruct S as (w1 & w2 & S1 & S2 & ->). constructor; [apply IH; exact S1|].
  destruct P as (gap & k & A & C & D). exists gap, k. split; [exact A|]. split; [eapply Forall2_same; eassumption|exact D].
Qed.
Lemma same_refl : forall w, Forall2 same w w.
Proof. induction w; constructor; [left; reflexivity|assumption]. Qed.
Lemma same_mark : forall n w, Forall2 same w (mark_first n w).
Proof. intros n. induction w as [|s w IH]; cbn; [constructor|]. destruct (_ && _); constructor; [right; reflexivity|apply same_refl|left; reflexivity|exact IH]. Qed.
Lemma same_add : forall st o, Forall2 same (st_wanted st) (st_wanted (add_observation F st o)).
Proof.
  intros st o. unfold add_observation. destruct (st_wanted st) as [|s w] eqn:E; [rewrite E; constructor|]. destruct (good_note F o); [apply same_mark|rewrite E; apply same_refl].
Qed.
Lemma same_array : forall st l, Forall2 same (st_wanted st) (st_wanted (add_array F st l)).
Proof.
  intros st l. unfold add_array. destruct (st_wanted st) as [|s w] eqn:E; [cbn; rewrite E; constructor|]. cbn [st_wanted]. generalize (s :: w). clear.
  induction l0 as [|x r IH]; cbn; [constructor|]. constructor; [destruct (smem _ _); [right|left]; reflexivity|exact IH].
Qed.

(** *** Whole histories *)
Lemma report_facts : forall b s l s' u, l_report F py_int alt_at B blob_add G fuel b s l = (s', Ok u) -> (b = true -> List.length l = 1) ->
  l_night B s' = l_night B s /\ l_r2 B s' = l_r2 B s /\
  (forall rs, explained rs (st_wanted (l_scr B s)) -> explained (rs ++ [l]) (st_wanted (l_scr B s'))) /\
  (exists sops, srun F py_int (l_scr B s) sops = Some (l_scr B s') /\ forall c, ~ In (SGen c) sops).
Proof.
  intros b s l s' u H L1. unfold l_report in H. destruct (schedule py_int alt_at B G fuel s l) as [s1 [v|e]] eqn:Es; [|discriminate]. injection H as <- _.
  destruct (schedule_part _ _ _ _ Es) as (A1 & A2 & A3 & rows & P & W & St). cbn [l_night l_r2 l_scr]. split; [exact A1|]. split; [exact A2|]. split.
  - intros rs E. apply explained_same with (w := st_wanted (l_scr B s1)); [rewrite W; constructor; assumption|].
    destruct b; [destruct l as [|o l]; [apply same_refl|apply same_add]|apply same_array].
  - assert (Tail : exists sop, srun F py_int (l_scr B s1) [sop] = Some (if b then match l with [] => l_scr B s1 | o :: _ => add_observation F (l_scr B s1) o end else add_array F (l_scr B s1) l) /\ forall c, sop <> SGen c).
    { destruct b; [destruct l as [|o l]; [specialize (L1 eq_refl); discriminate|]; exists (SAdd o); split; [reflexivity|discriminate]|exists (SArray l); split; [reflexivity|discriminate]]. }
    destruct Tail as (sop & T1 & T2). destruct St as [St|(new & St)].
    + exists [sop]. rewrite <- St. split; [exact T1|]. intros c [X|[]]. apply (T2 c X).
    + exists [SSet new true true; sop]. split; [|intros c [X|[X|[]]]; [discriminate|apply (T2 c X)]]. cbn [srun sstep]. rewrite St. exact T1.
Qed.
Definition well_formed (o : lop) : Prop := match o with Report b l => b = true -> List.length l = 1 | _ => True end.

Lemma calc_facts : forall s n c s' r, l_calc F reward_val B blob_calc G s n c = (s', Ok r) ->
  let s0 := if (n =? l_night B s)%Z then l_scr B s else clear_script (l_scr B s) in
  l_night B s' = n /\ st_wanted (l_scr B s') = (if (n =? l_night B s)%Z then st_wanted (l_scr B s) else []) /\
  exists l, generate F s0 c = (l_scr B s', Ok l) /\ l_r2 B s' = Some (match l with [] => ENInf | _ => EFin reward_val end) /\
    l_blob B s' = fst (blob_calc (l_blob B s) c) /\ r = nanmax [nanmax (snd (blob_calc (l_blob B s) c)); match l with [] => ENInf | _ => EFin reward_val end].
Proof.
  intros s n c s' r H. cbv zeta. unfold l_calc in H. destruct (Z.eqb_spec n (l_night B s)) as [E|E].
  - destruct (blob_calc (l_blob B s) c) as [b r1] eqn:Eb. unfold has_reward in H. destruct (generate F (l_scr B s) c) as [scr [l|e]] eqn:Eg; [|discriminate]. pose proof (generate_keeps F (l_scr B s) c) as (K & _). rewrite Eg in K. cbn [fst] in K.
    destruct l as [|o l]; injection H as <- <-; cbn [l_night l_scr l_r2 l_blob fst snd]; (split; [congruence|split; [exact K|]]); eexists; (split; [reflexivity|]); repeat split; reflexivity.
  - destruct (py_get (g_gaps G) n) as [gap|e]; [|discriminate]. cbn [l_blob l_scr l_night l_gap l_r2] in H. destruct (blob_calc (l_blob B s) c) as [b r1] eqn:Eb. unfold has_reward in H.
    destruct (generate F (clear_script (l_scr B s)) c) as [scr [l|e]] eqn:Eg; [|discriminate]. pose proof (generate_keeps F (clear_script (l_scr B s)) c) as (K & _). rewrite Eg in K. cbn [fst clear_script st_wanted] in K.
    destruct l as [|o l]; injection H as <- <-; cbn [l_night l_scr l_r2 l_blob fst snd]; (split; [reflexivity|split; [exact K|]]); eexists; (split; [reflexivity|]); repeat split; reflexivity.
Qed.

Lemma live_app : forall a b night acc, exists night' acc', live night acc (a ++ b) = live night' acc' b.
Proof. intros a b. induction a as [|[x l|n c|c] a IH]; intros night acc; cbn; [exists night, acc; reflexivity|apply IH|destruct (n =? night)%Z; apply IH|apply IH]. Qed.

Lemma run_facts : forall ops s0 s acc sops id, Forall well_formed ops -> run s0 ops = Some s -> explained acc (st_wanted (l_scr B s0)) ->
  srun F py_int (script_init id) sops = Some (l_scr B s0) ->
  explained (live (l_night B s0) acc ops) (st_wanted (l_scr B s)) /\
  exists sops', srun F py_int (script_init id) (sops ++ sops') = Some (l_scr B s) /\ forall c, In (SGen c) sops' -> (exists n, In (Calc n c) ops) \/ In (Gen c) ops.
Proof.
  induction ops as [|o ops IH]; intros s0 s acc sops id Wf R E S.
  - injection R as <-. split; [exact E|]. exists []. rewrite app_nil_r. split; [exact S|intros c []].
  - inversion Wf; subst. unfold run in R. cbn [l_run] in R. destruct (l_step F py_int reward_val alt_at B blob_calc blob_gen blob_add G fuel s0 o) as [s1|] eqn:Es; [|discriminate]. fold run in R.
    assert (Step : exists acc1 more, explained acc1 (st_wanted (l_scr B s1)) /\ live (l_night B s0) acc (o :: ops) = live (l_night B s1) acc1 ops /\
      srun F py_int (l_scr B s0) more = Some (l_scr B s1) /\ forall c, In (SGen c) more -> (exists n, o = Calc n c) \/ o = Gen c).
    { destruct o as [b l|n c|c]; cbn [l_step] in Es.
      - destruct (l_report F py_int alt_at B blob_add G fuel b s0 l) as [s2 [u|e]] eqn:Er; [|discriminate]. injection Es as <-.
        destruct (report_facts b s0 l s2 u Er H1) as (A & _ & X & more & M1 & M2). exists (acc ++ [l]), more. split; [apply X; exact E|]. split; [cbn; rewrite A; reflexivity|]. split; [exact M1|]. intros c I. exfalso. apply (M2 c I).
      - destruct (l_calc F reward_val B blob_calc G s0 n c) as [s2 [u|e]] eqn:Er; [|discriminate]. injection Es as <-. destruct (calc_facts _ _ _ _ _ Er) as (A & W & l & Gn & _).
        destruct (Z.eqb_spec n (l_night B s0)) as [En|En].
        + exists acc, [SGen c]. split; [rewrite W; exact E|]. split; [cbn; rewrite A; destruct (Z.eqb_spec n (l_night B s0)); [congruence|contradiction]|]. split; [cbn; rewrite Gn; reflexivity|]. intros c' [X|[]]. injection X as <-. left. exists n. reflexivity.
        + exists [], [SClear; SGen c]. split; [rewrite W; constructor|]. split; [cbn; rewrite A; destruct (Z.eqb_spec n (l_night B s0)); [contradiction|reflexivity]|]. split; [cbn; rewrite Gn; reflexivity|]. intros c' [X|[X|[]]]; [discriminate|]. injection X as <-. left. exists n. reflexivity.
      - unfold l_gen in Es. destruct (l_r2 B s0) as [r2|]; [|discriminate]. destruct (er_ltb ENInf r2).
        + destruct (generate F (l_scr B s0) c) as [scr [l|e]] eqn:Eg; [|discriminate]. injection Es as <-. pose proof (generate_keeps F (l_scr B s0) c) as (K & _). rewrite Eg in K. cbn [fst] in K.
          exists acc, [SGen c]. cbn [l_scr l_night]. split; [rewrite K; exact E|]. split; [reflexivity|]. split; [cbn; rewrite Eg; reflexivity|]. intros c' [X|[]]. injection X as <-. right. reflexivity.
        + destruct (blob_gen (l_blob B s0) c) as [b r]. injection Es as <-. exists acc, []. cbn [l_scr l_night]. split; [exact E|]. split; [reflexivity|]. split; [reflexivity|intros c' []]. }
    destruct Step as (acc1 & more & E1 & L1 & R1 & M1). rewrite L1.
    destruct (IH s1 s acc1 (sops ++ more) id H2 R E1) as [A (sops' & B1 & B2)].
    { pose proof (run_app F py_int sops more (script_init id)) as X. rewrite X, S. exact R1. }
    split; [exact A|]. exists (more ++ sops'). rewrite app_assoc. split; [exact B1|]. intros c I. apply in_app_or in I. destruct I as [I|I].
    + destruct (M1 c I) as [(n & ->)| ->]; [left; exists n; left; reflexivity|right; left; reflexivity].
    + destruct (B2 c I) as [(n & X)|X]; [left; exists n; right; exact X|right; right; exact X].
Qed.
Lemma explained_in : forall rs w s, explained rs w -> In s w -> exists l o gap k, In l rs /\ In o (pairs l) /\ py_get (g_gaps G) (top_night l) = Ok gap /\ follows gap k o s /\ (g_zen G = false -> k = 0).
Proof.
  intros rs w s H. induction H as [|rs w l rows H IH P]; intros I; [contradiction|]. apply in_app_or in I. destruct I as [I|I].
  - destruct (IH I) as (l' & o & gap & k & X & Y). exists l', o, gap, k. split; [apply in_or_app; left; exact X|exact Y].
  - destruct P as (gap & k & A & C & D & _). destruct (Forall2_in_r _ _ _ _ _ _ C I) as (o & Io & Fo). exists l, o, gap, k. split; [apply in_or_app; right; left; reflexivity|]. split; [exact Io|]. split; [exact A|]. split; [exact Fo|exact D].
Qed.

(** The offer at a new time: rows of the script inside their windows. *)
Lemma generate_window : forall st c l, consistent st -> (f_sort F = None \/ f_sort F = Some "HA"%string) -> fresh st c -> snd (generate F st c) = Ok l -> l <> [] ->
  exists rows, rows <> [] /\ l = f_det F c (map to_obs rows) /\ forall s, In s rows -> In s (st_wanted st) /\ (s_mjd s - s_tol s < c_mjd c)%Q /\ (c_mjd c < s_flush s)%Q /\ s_done s = false.
Proof.
  intros st c l C FS Fr H Ne. rewrite (generate_fresh F st c Fr), (check_list_spec F st c C FS) in H. cbn [bind] in H.
  set (el := filter (fun s => selected F c s && masked F c s) (st_wanted st)) in *. destruct (chosen_facts F c el) as (rest & P & _). set (ch := chosen F c el) in *. clearbody ch.
  injection H as H. destruct ch as [|x ch]; [congruence|]. destruct (too_long F c (x :: ch)); [congruence|]. exists (x :: ch). split; [discriminate|]. split; [symmetry; exact H|].
  intros s I. assert (Ie : In s el) by (apply (Permutation_in _ P); apply in_or_app; left; exact I). unfold el in Ie. apply filter_In in Ie. destruct Ie as [W X]. apply andb_true_iff in X. destruct X as [X _].
  unfold selected in X. rewrite !andb_true_iff, !Qltb_lt, negb_true_iff in X. split; [exact W|]. tauto.
Qed.
Lemma generate_again : forall st c st1 l, generate F st c = (st1, Ok l) -> generate F st1 c = (st1, Ok l).
Proof.
  intros st c st1 l H. assert (K : st_obs st1 = l /\ (st_last st1 == c_mjd c)%Q).
  { unfold generate in H. destruct (Qeq_bool (st_last st) (c_mjd c)) eqn:E; [injection H as <- <-; split; [reflexivity|apply Qeq_bool_iff; exact E]|].
    destruct (generate_rough F st c) as [st2 [m|e]]; [|discriminate]. injection H as <- <-. cbn. split; reflexivity. }
  destruct K as [K1 K2]. unfold generate. apply Qeq_bool_iff in K2. rewrite K2, K1. reflexivity.
Qed.
End P.
