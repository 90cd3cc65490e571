(** Proofs about masks on past visits. *)
From Coq Require Import List ZArith QArith Qabs Qround Bool String Lia Lqa Sorted.
From Verif Require Import Base IntRounded IntRounded_proofs Feat Feat_proofs Feat_proofs2 BfCall BfCall_proofs MaskLoop.
Import ListNotations.
Open Scope nat_scope.

(** ** Feature states after visits told one at a time *)
Lemma after_fold : forall n bn lim h x, no_C bn lim 100 h -> fold_left (cl_add (after_cls n bn lim)) h (fun _ => 0%Z) x = count (no_match None bn lim 100 x) h.
Proof.
  intros n bn lim h. assert (G : no_C bn lim 100 h -> no_R None bn lim 100 h (fold_left (cl_add (after_cls n bn lim)) h (fun _ => 0%Z))).
  { induction h as [|v h IH] using rev_ind; intro C; [intro x; reflexivity|]. rewrite fold_left_app. cbn [fold_left].
    assert (C' : no_C bn lim 100 h) by (intros u U; apply C, in_or_app; now left).
    destruct (no_one_ok None bn lim 100 h _ v (IH C') C) as (f & E & R). unfold after_cls at 1. cbn [cl_add]. rewrite E. exact R. }
  intros x C. apply (G C).
Qed.
Lemma night_fold : forall n bn h, nb_C bn h -> nb_R bn h (fold_left (cl_add (night_cls n bn)) h nb0).
Proof.
  intros n bn h. induction h as [|v h IH] using rev_ind; intro C; [split; [reflexivity|intros w W; discriminate W]|].
  rewrite fold_left_app. cbn [fold_left]. change (cl_add (night_cls n bn)) with (nb_one bn). apply nb_one_ok; [|exact C]. apply IH.
  destruct C as (C1 & C2 & C3). split; [now apply chrono_pre in C1|]. split; [exact C2|exact (all_pre _ _ _ C3)].
Qed.
Lemma gap_fold : forall npix gap pen bn h, ld_C bn h -> ld_R bn h (fold_left (cl_add (gap_cls npix gap pen bn)) h (fun _ => None)).
Proof.
  intros npix gap pen bn h. induction h as [|v h IH] using rev_ind; intro C; [intro x; exact I|].
  rewrite fold_left_app. cbn [fold_left]. change (cl_add (gap_cls npix gap pen bn)) with (ld_one bn). apply ld_one_ok; [|exact C]. apply IH.
  destruct C as (C1 & C2). split; [now apply chrono_pre in C1|exact (all_pre _ _ _ C2)].
Qed.

(** ** The season *)
Section Season.
Variable pix_ra : nat -> Q.
Variable start : Q.
Variable bn : option string.
Variable lim : Q.
Notation pse := (pix_season pix_ra start).
Definition cu_C (h : list fvis) : Prop := chrono h /\ forall v, In v h -> (start <= fv_mjd v)%Q /\ (exists q, fv_see v = EFin q /\ ~ (q == lim)%Q /\ far q lim).
Definition sharp (v : fvis) : bool := match fv_see v with EFin q => Qltb q lim | _ => false end.
Definition cu_match (x : nat) (v : fvis) : bool := is_pix x (fv_pix v) && band_is bn v && sharp v.
Definition cu_count (x : nat) (t : Q) (h : list fvis) : Z := count (fun v => cu_match x v && (pse x (fv_mjd v) =? pse x t)%Z) h.
Definition cu_R (h : list fvis) (s : csst) : Prop :=
  cs_mjd s = match last_opt h with Some w => fv_mjd w | None => start end /\
  (forall x, cs_season s x = pse x (cs_mjd s)) /\ (forall x, cs_map s x = cu_count x (cs_mjd s) h).
Lemma cu_update : forall h s t, cu_R h s -> chrono h -> (start <= t)%Q -> (forall v, In v h -> (fv_mjd v <= t)%Q) ->
  let s1 := season_update pix_ra start s t in
  cs_mjd s1 = t /\ (forall x, cs_season s1 x = pse x t) /\ (forall x, cs_map s1 x = cu_count x t h).
Proof.
  intros h s t (H1 & H2 & H3) Ch St Up. unfold season_update. cbv zeta.
  assert (L : (cs_mjd s <= t)%Q).
  { rewrite H1. destruct (last_opt h) as [w|] eqn:L; [|exact St]. apply Up. destruct (last_opt_split _ _ _ L) as (r & ->). apply in_or_app. right. now left. }
  rewrite (proj2 (Qltb_false t (cs_mjd s)) L). cbn [cs_mjd cs_season cs_map]. split; [reflexivity|]. split; [reflexivity|].
  intros x. rewrite H2. assert (M := pix_season_mono pix_ra start x _ _ L). destruct (Z.ltb_spec (pse x (cs_mjd s)) (pse x t)) as [D|D].
  - symmetry. apply count_none. intros v Hv. assert (V : (fv_mjd v <= cs_mjd s)%Q).
    { rewrite H1. destruct (last_opt h) as [w|] eqn:Lw; [now apply (chrono_last_mjd h)|]. apply last_opt_none in Lw. subst. destruct Hv. }
    assert (M2 := pix_season_mono pix_ra start x _ _ V). destruct (Z.eqb_spec (pse x (fv_mjd v)) (pse x t)); [lia|apply andb_false_r].
  - rewrite H3. apply count_ext. intros v _. f_equal. replace (pse x t) with (pse x (cs_mjd s)) by lia. reflexivity.
Qed.
Lemma cu_one_ok : forall h s v, cu_R h s -> cu_C (h ++ [v]) -> exists s', cu_one pix_ra start bn lim s v = Ok s' /\ cu_R (h ++ [v]) s'.
Proof.
  intros h s v H [Ch C]. destruct (C v (in_last h v)) as [St [q [Eq [Nq Fq]]]].
  apply chrono_app in Ch. destruct Ch as (C1 & _ & C3).
  assert (U := cu_update h s (fv_mjd v) H C1 St (fun u Hu => proj1 (C3 u v Hu (or_introl eq_refl)))).
  assert (SC : see_check lim v = Ok (sharp v)).
  { unfold see_check, sharp. rewrite Eq. unfold ir_le. rewrite cmp_scalar by (intros a [<-|[]]; exact Fq). cbn. rewrite orb_false_r, le_lt_far by exact Nq. reflexivity. }
  unfold cu_one. rewrite SC. cbn [bind]. eexists. split; [reflexivity|]. unfold cs_one.
  set (s1 := season_update pix_ra start s (fv_mjd v)) in *. clearbody s1. cbv zeta in U. destruct U as (U1 & U2 & U3).
  cbv zeta. rewrite (filter_true _ (fun x => (pse x (fv_mjd v) =? cs_season s1 x)%Z) (fv_pix v)) by (intros x _; rewrite U2; apply Z.eqb_refl).
  assert (N : forall x, cu_count x (fv_mjd v) (h ++ [v]) = (cs_map s1 x + if cu_match x v then 1 else 0)%Z).
  { intros x. rewrite U3. unfold cu_count. rewrite count_app, count_cons, Z.eqb_refl, andb_true_r. unfold count at 2. cbn. lia. }
  assert (ML : m5_limit bn None = None) by (destruct bn; reflexivity). rewrite ML. unfold cu_R. rewrite last_one. 
  destruct (sharp v) eqn:S; [destruct (band_is bn v) eqn:B|]; cbn [cs_mjd cs_season cs_map]; rewrite U1; (split; [reflexivity|]); (split; [exact U2|]); intro x; rewrite N; unfold cu_match; rewrite ?S, ?B, ?andb_true_r, ?andb_false_r.
  - unfold bump. destruct (is_pix x (fv_pix v)); lia.
  - cbn. lia.
  - lia.
Qed.
Lemma season_fold : forall n h, cu_C h -> cu_R h (fold_left (cl_add (season_cls pix_ra start bn n lim)) h (cs0 pix_ra start)).
Proof.
  intros n h. induction h as [|v h IH] using rev_ind; intro C.
  - split; [reflexivity|]. split; [|reflexivity]. intros x. cbn [fold_left cs0 cs_season cs_mjd]. unfold pix_season. apply Qfloor_comp. unfold yr. field.
  - rewrite fold_left_app. cbn [fold_left]. assert (C' : cu_C h) by (destruct C as [A B]; split; [now apply chrono_pre in A|exact (all_pre _ _ _ B)]).
    destruct (cu_one_ok h _ v (IH C') C) as (s & E & R). unfold season_cls at 1. cbn [cl_add]. rewrite E. exact R.
Qed.
(** Two times are in one season of the pixel when no start of a season is between them. *)
Definition opens (ra u : Q) : Prop := exists k : Z, (u == ref_time + (ra - ref_sun) / 360 * yr + inject_Z k * yr)%Q.
Definition one_season (ra a b : Q) : Prop := ~ exists u, opens ra u /\ (a < u <= b)%Q.
Lemma pse_at : forall x t k, pse x t = k <-> (inject_Z k <= calc_season (pix_ra x) t start < inject_Z (k + 1))%Q.
Proof.
  intros x t k. rewrite pix_season_calc. set (q := calc_season _ _ _). clearbody q. split.
  - intros <-. split; [apply Qfloor_le|apply Qlt_floor].
  - intros [A B]. assert (C := Qfloor_le q). assert (D := Qlt_floor q).
    assert (X : (inject_Z k < inject_Z (Qfloor q + 1))%Q) by lra. assert (Y : (inject_Z (Qfloor q) < inject_Z (k + 1))%Q) by lra.
    rewrite <- Zlt_Qlt in X, Y. lia.
Qed.
Lemma opens_at : forall x u, opens (pix_ra x) u <-> exists k : Z, (calc_season (pix_ra x) u start == inject_Z k)%Q.
Proof.
  intros x u. unfold opens, calc_season, season_began. set (b := (ref_time + (pix_ra x - ref_sun) / 360 * yr)%Q). set (m := Qfloor ((b - start) / yr)). split.
  - intros [k E]. exists (k + m)%Z. rewrite E, inject_Z_plus. unfold yr. field.
  - intros [k E]. exists (k - m)%Z. assert (E' : (u == (u - (b - inject_Z m * yr)) / yr * yr + (b - inject_Z m * yr))%Q) by (unfold yr; field).
    rewrite E', E. unfold Z.sub. rewrite inject_Z_plus, inject_Z_opp. ring.
Qed.
Lemma one_season_iff : forall x a b, (a <= b)%Q -> (one_season (pix_ra x) a b <-> pse x a = pse x b).
Proof.
  intros x a b L. assert (V : forall s t, (calc_season (pix_ra x) t start - calc_season (pix_ra x) s start == (t - s) * (4 # 1461))%Q) by (intros; unfold calc_season, yr; field).
  split.
  - intro N. assert (M := pix_season_mono pix_ra start x a b L). destruct (Z.eq_dec (pse x a) (pse x b)) as [E|E]; [exact E|]. exfalso. apply N.
    exists (b - (calc_season (pix_ra x) b start - inject_Z (pse x b)) * yr)%Q.
    assert (U : (calc_season (pix_ra x) (b - (calc_season (pix_ra x) b start - inject_Z (pse x b)) * yr) start == inject_Z (pse x b))%Q).
    { set (u := (b - (calc_season (pix_ra x) b start - inject_Z (pse x b)) * yr)%Q). pose proof (V b u) as Vu.
      assert (D : ((u - b) * (4 # 1461) == inject_Z (pse x b) - calc_season (pix_ra x) b start)%Q) by (unfold u, yr; field). lra. }
    split; [apply opens_at; eexists; exact U|].
    pose proof (proj1 (pse_at x b _) eq_refl) as [B1 B2]. pose proof (proj1 (pse_at x a _) eq_refl) as [A1 A2].
    assert (Z : (inject_Z (pse x a + 1) <= inject_Z (pse x b))%Q) by (rewrite <- Zle_Qle; lia).
    set (u := (b - (calc_season (pix_ra x) b start - inject_Z (pse x b)) * yr)%Q) in *. pose proof (V a u) as Va. pose proof (V b u) as Vb. clearbody u. split; lra.
  - intros E [u [O [U1 U2]]]. apply opens_at in O. destruct O as [k K].
    pose proof (proj1 (pse_at x a _) eq_refl) as [A1 A2]. pose proof (proj1 (pse_at x b _) eq_refl) as [B1 B2]. pose proof (V a u) as Va. pose proof (V u b) as Vb.
    assert (X : (inject_Z (pse x a) < inject_Z k)%Q) by lra. assert (Y : (inject_Z k < inject_Z (pse x b + 1))%Q) by lra.
    rewrite <- Zlt_Qlt in X, Y. lia.
Qed.
End Season.

(** ** The gap *)
Lemma nth_map_seq : forall (f : nat -> bool) n x, x < n -> nth x (map f (seq 0 n)) false = f x.
Proof. intros f n x L. rewrite (nth_indep _ false (f 0)) by (rewrite map_length, seq_length; exact L). rewrite map_nth, seq_nth by exact L. reflexivity. Qed.
Lemma gap_map_at : forall npix gap pen f t x, x < npix -> (forall y, y < npix -> far (since f t y) (gap / 60 / 24)) ->
  gap_map npix gap pen f t x = if Qltb (since f t x) (gap / 60 / 24) then pen else EFin 1.
Proof.
  intros npix gap pen f t x L F. unfold gap_map, ir_lt. rewrite cmp_scalar.
  - cbn [keep]. rewrite map_map, nth_map_seq by exact L. reflexivity.
  - intros a A. apply in_map_iff in A. destruct A as (y & <- & Y). apply in_seq in Y. apply F. lia.
Qed.

(** ** The last of the visits a run makes *)
Lemma last_seen : forall (P : fvis -> bool) (l : list (op mcond fvis)), existsb P (reports l) = true ->
  exists a v b, l = a ++ Seen v :: b /\ P v = true /\ existsb P (reports b) = false.
Proof.
  intros P l. induction l as [|o l IH]; [discriminate|]. intro H. destruct (existsb P (reports l)) eqn:E.
  - destruct (IH eq_refl) as (a & v & b & -> & A & B). exists (o :: a), v, b. auto.
  - destruct o as [v|c]; [|cbn in H; unfold reports in E; congruence]. exists [], v, l. split; [reflexivity|]. split; [|exact E].
    cbn in H. apply orb_true_iff in H. destruct H as [H|H]; [exact H|]. unfold reports in E. congruence.
Qed.
Lemma reports_app : forall (a b : list (op mcond fvis)), reports (a ++ b) = reports a ++ reports b.
Proof. intros. unfold reports. apply flat_map_app. Qed.
Lemma count_le : forall (p q : fvis -> bool) l, (forall v, In v l -> p v = true -> q v = true) -> (count p l <= count q l)%Z.
Proof.
  intros p q l. induction l as [|v l IH]; intro H; [apply Z.le_refl|]. rewrite !count_cons. assert (IH' := IH (fun u U => H u (or_intror U))).
  pose proof (H v (or_introl eq_refl)). destruct (p v); [rewrite H0 by reflexivity; lia|destruct (q v); lia].
Qed.
Lemma count_existsb : forall (p : fvis -> bool) l, existsb p l = false -> count p l = 0%Z.
Proof. intros p l H. apply count_none. intros v V. destruct (p v) eqn:E; [|reflexivity]. assert (existsb p l = true) by (apply existsb_exists; eauto). congruence. Qed.
(** Masked from [n] counted visits on, at most [n - 1 + m] are made. *)
Lemma bound : forall (P : fvis -> bool) (l : list (op mcond fvis)) n m, (0 <= n + m)%Z ->
  (forall a v b, l = a ++ Seen v :: b -> P v = true -> exists a1 c a2, a = a1 ++ Ask c :: a2 /\ (count P (reports a1) <= n)%Z /\ (count P (reports a2) < m)%Z) ->
  (count P (reports l) <= n + m)%Z.
Proof.
  intros P l n m N H. destruct (existsb P (reports l)) eqn:E; [|rewrite (count_existsb _ _ E); exact N].
  destruct (last_seen P l E) as (a & v & b & El & Pv & Eb). destruct (H a v b El Pv) as (a1 & c & a2 & Ea & C1 & C2).
  rewrite El, Ea. rewrite reports_app, reports_app. cbn [reports flat_map app]. change (flat_map _ a2) with (reports a2). change (flat_map _ b) with (reports b).
  rewrite !count_app. cbn [app]. rewrite !count_cons, Pv, (count_existsb _ _ Eb). lia.
Qed.
