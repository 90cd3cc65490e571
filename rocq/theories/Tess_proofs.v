(** Lemmas about [Tess]. *)
From Coq Require Import List Bool Reals Lra Lia ZArith Machin.
From Verif Require Import Base Sphere Angles Tess.
Import ListNotations.
Open Scope R_scope.

Lemma PI_lo : 31 / 10 < PI.
Proof. destruct (PI_2_3_7_ineq 0) as (H & _). cbn in H. unfold tg_alt, PI_2_3_7_tg, Ratan_seq in H. cbn in H. lra. Qed.
Lemma ceil_bounds : forall x, IZR (ceil x) - 1 < x <= IZR (ceil x).
Proof. intros x. unfold ceil. rewrite opp_IZR. destruct (base_Int_part (- x)). lra. Qed.
Lemma ceil_above : forall x n, IZR n < x -> (n + 1 <= ceil x)%Z.
Proof. intros x n H. destruct (ceil_bounds x) as (_ & B). assert (L : IZR n < IZR (ceil x)) by lra. apply lt_IZR in L. lia. Qed.
Lemma nearest : forall x h m, 0 < h -> 0 <= x -> x <= INR m * h -> exists i, (i <= m)%nat /\ Rabs (x - INR i * h) <= h / 2.
Proof.
  intros x h m H X M. assert (E : x = x / h * h) by (field; lra). set (q := x / h) in *. clearbody q. subst x.
  assert (Q0 : 0 <= q) by (apply (Rmult_le_reg_r h); lra). assert (QM : q <= INR m) by (apply (Rmult_le_reg_r h); lra).
  destruct (base_Int_part (q + 1 / 2)) as (B1 & B2). set (z := Int_part (q + 1 / 2)) in *. clearbody z.
  assert (Z0 : (0 <= z)%Z) by (assert (L : IZR (-1) < IZR z) by (cbn; lra); apply lt_IZR in L; lia).
  assert (ZM : (z <= Z.of_nat m)%Z) by (rewrite INR_IZR_INZ in QM; assert (L : IZR z < IZR (Z.of_nat m + 1)) by (rewrite plus_IZR; lra); apply lt_IZR in L; lia).
  exists (Z.to_nat z). split; [lia|]. rewrite INR_IZR_INZ, Z2Nat.id by exact Z0. rewrite <- Rmult_minus_distr_r, Rabs_mult, (Rabs_pos_eq h) by lra.
  replace (h / 2) with (1 / 2 * h) by field. apply Rmult_le_compat_r; [lra|]. apply Rabs_le. lra.
Qed.
Lemma linspace_in : forall b n l i, linspace b n = Ok l -> (2 <= n)%Z -> (Z.of_nat i < n)%Z -> In (INR i * (b / IZR (n - 1))) l.
Proof.
  intros b n l i E N I. unfold linspace in E. destruct (n <? 0)%Z eqn:A; [discriminate|]. destruct (n =? 1)%Z eqn:B; [apply Z.eqb_eq in B; lia|]. injection E as <-.
  apply (in_map (fun i => INR i * (b / IZR (n - 1)))), in_seq. lia.
Qed.
Lemma linspace_ok : forall b n, (0 <= n)%Z -> exists l, linspace b n = Ok l.
Proof. intros b n N. unfold linspace. destruct (n <? 0)%Z eqn:A; [apply Z.ltb_lt in A; lia|]. destruct (n =? 1)%Z; eexists; reflexivity. Qed.
Lemma linspace_out : forall b n l x, linspace b n = Ok l -> In x l -> exists i, (Z.of_nat i < n)%Z /\ ((2 <= n)%Z /\ x = INR i * (b / IZR (n - 1)) \/ x = 0 /\ i = 0%nat /\ n = 1%Z).
Proof.
  intros b n l x E I. unfold linspace in E. destruct (n <? 0)%Z eqn:A; [discriminate|]. destruct (n =? 1)%Z eqn:B; injection E as <-.
  - apply Z.eqb_eq in B. destruct I as [<-|[]]. exists 0%nat. split; [lia|]. right. auto.
  - apply Z.eqb_neq in B. apply Z.ltb_ge in A. apply in_map_iff in I as (i & <- & I). apply in_seq in I. exists i. split; [lia|]. left. split; [lia|reflexivity].
Qed.
Lemma linspace_range : forall b n l x, 0 <= b -> linspace b n = Ok l -> In x l -> 0 <= x <= b.
Proof.
  intros b n l x B E I. destruct (linspace_out _ _ _ _ E I) as (i & L & [(N & ->)|(-> & _)]); [|lra].
  assert (P : 1 <= IZR (n - 1)) by (apply IZR_le; lia). assert (Q : INR i <= IZR (n - 1)) by (rewrite INR_IZR_INZ; apply IZR_le; lia). assert (I0 := pos_INR i).
  assert (QQ : b = b / IZR (n - 1) * IZR (n - 1)) by (field; lra). set (q := b / IZR (n - 1)) in *. clearbody q. assert (0 <= q) by (apply (Rmult_le_reg_r (IZR (n - 1))); lra).
  split; [apply Rmult_le_pos; lra|]. rewrite QQ, (Rmult_comm q). apply Rmult_le_compat_r; lra.
Qed.

(** Each stripe's fields are there, turned by some angle, and nothing else is. *)
Lemma stripes_in : forall ap rs s decs run l dec, stripes ap rs s decs run = Ok l -> In dec decs ->
  exists ras t, linspace (2 * PI) (steps (largest s dec) s) = Ok ras /\ forall x, In x ras -> In (Rmod (x + t) (2 * PI), dec) l.
Proof.
  intros ap rs s decs. induction decs as [|d decs IH]; intros run l dec E I; [destruct I|]. cbn [stripes] in E.
  destruct (linspace (2 * PI) (steps (largest s d) s)) as [ras|e] eqn:L; [|discriminate]. cbn [bind] in E. destruct (stripes ap rs s decs _) as [rest|e] eqn:R; [|discriminate]. cbn [bind] in E. injection E as <-.
  destruct I as [<-|I].
  - exists ras, (run + advance ap rs d). split; [exact L|]. intros x X. apply in_or_app. left. apply (in_map (fun ra => (Rmod (ra + (run + advance ap rs d)) (2 * PI), d))), X.
  - destruct (IH _ _ _ R I) as (ras' & t & A & B). exists ras', t. split; [exact A|]. intros x X. apply in_or_app. right. now apply B.
Qed.
Lemma stripes_out : forall ap rs s decs run l f, stripes ap rs s decs run = Ok l -> In f l -> In (snd f) decs /\ 0 <= fst f < 2 * PI.
Proof.
  intros ap rs s decs. induction decs as [|d decs IH]; intros run l f E I; cbn [stripes] in E; [injection E as <-; destruct I|].
  destruct (linspace (2 * PI) (steps (largest s d) s)) as [ras|e] eqn:L; [|discriminate]. cbn [bind] in E. destruct (stripes ap rs s decs _) as [rest|e] eqn:R; [|discriminate]. cbn [bind] in E. injection E as <-.
  apply in_app_or in I as [I|I].
  - apply in_map_iff in I as (x & <- & X). cbn [fst snd]. split; [now left|]. apply Rmod_range. assert (P := PI_RGT_0). lra.
  - destruct (IH _ _ _ R I) as (A & B). split; [now right|exact B].
Qed.
Lemma stripes_ok : forall ap rs s decs run, (forall dec, In dec decs -> (0 <= steps (largest s dec) s)%Z) -> exists l, stripes ap rs s decs run = Ok l.
Proof.
  intros ap rs s decs. induction decs as [|d decs IH]; intros run H; cbn [stripes]; [eexists; reflexivity|].
  destruct (linspace_ok (2 * PI) _ (H d (or_introl eq_refl))) as (ras & ->). cbn [bind]. destruct (IH (run + advance ap rs d)) as (rest & ->); [intros; apply H; now right|]. cbn [bind]. eexists. reflexivity.
Qed.

(** The whole list: each stripe, and its mirror. *)
Lemma tess_shape : forall ap side over l, comcam_tessellate ap side over = Ok l ->
  exists decs fields, linspace (PI / 2) (steps (PI / 2) (radians side - radians over)) = Ok decs /\ stripes ap (radians side / 2) (radians side - radians over) decs 0 = Ok fields /\
  l = fields ++ map (fun f => (Rmod (-1 * fst f) (2 * PI), -1 * snd f)) (filter (fun f => if Rlt_dec 0 (snd f) then true else false) fields).
Proof.
  intros ap side over l E. unfold comcam_tessellate in E. cbv zeta in E. destruct (linspace _ _) as [decs|e]; [|discriminate]. cbn [bind] in E. destruct (stripes _ _ _ _ _) as [fields|e] eqn:S; [|discriminate]. cbn [bind] in E. injection E as <-.
  exists decs, fields. auto.
Qed.
Lemma mirror_in : forall fields f, In f fields -> 0 < snd f ->
  In (Rmod (- fst f) (2 * PI), - snd f) (fields ++ map (fun f => (Rmod (-1 * fst f) (2 * PI), -1 * snd f)) (filter (fun f => if Rlt_dec 0 (snd f) then true else false) fields)).
Proof.
  intros fields f I P. apply in_or_app. right. apply in_map_iff. exists f. split; [f_equal; [f_equal; ring|ring]|]. apply filter_In. split; [exact I|]. destruct (Rlt_dec 0 (snd f)); [reflexivity|contradiction].
Qed.

Lemma cos_low : forall s, 0 <= s -> 1 - s * s / 2 <= cos s.
Proof.
  intros s S0. replace (cos s) with (cos (2 * (s / 2))) by (f_equal; field). rewrite cos_2a_sin. destruct (Req_dec s 0) as [->|N]; [replace (0 / 2) with 0 by field; rewrite sin_0; lra|].
  assert (A := sin_lt_x (s / 2) ltac:(lra)). destruct (Rle_dec (s / 2) PI) as [L|L].
  - assert (B : 0 <= sin (s / 2)) by (apply sin_ge_0; lra). nra.
  - assert (P := PI_lo). assert (B := SIN_bound (s / 2)). nra.
Qed.
Lemma sin_low : forall s, 0 < s <= 1 / 4 -> 31 / 32 * s < sin s.
Proof.
  intros s S. assert (PP := PI_lo). assert (G : s * cos s < sin s).
  { destruct (MVT_cor2 (fun u => sin u - u * cos u) (fun u => u * sin u) 0 s ltac:(lra)) as (c & M & C).
    { intros c _. replace (c * sin c) with (cos c - (1 * cos c + c * (- sin c))) by ring. apply derivable_pt_lim_minus; [apply derivable_pt_lim_sin|].
      apply (derivable_pt_lim_mult id cos); [apply derivable_pt_lim_id|apply derivable_pt_lim_cos]. }
    rewrite sin_0 in M. assert (0 < sin c) by (apply sin_gt_0; lra). assert (0 < c * sin c * (s - 0)) by (repeat apply Rmult_lt_0_compat; lra). lra. }
  assert (C := cos_low s ltac:(lra)). assert (31 / 32 <= cos s) by nra. nra.
Qed.

Section Cover.
Variables (s : R).
Hypothesis SB : 0 < s <= 1 / 4.
Let n := steps (PI / 2) s.
Let h := PI / 2 / IZR (n - 1).
Lemma steps_pos : forall x, steps x s = ceil (x / s).
Proof. intros x. unfold steps. destruct (Req_EM_T s 0); [lra|reflexivity]. Qed.
Lemma many : forall x, 6 * s < x -> let m := ceil (x / s) in (7 <= m)%Z /\ 1 <= IZR (m - 1) /\ s < x / IZR (m - 1) <= 7 / 6 * s.
Proof.
  intros x X m. assert (E : x = x / s * s) by (field; lra). set (q := x / s) in *. assert (Q : 6 < q) by (apply (Rmult_lt_reg_r s); lra). assert (M7 : (7 <= m)%Z) by (apply (ceil_above q 6); exact Q).
  split; [exact M7|]. assert (M6 : 6 <= IZR (m - 1)) by (apply IZR_le; lia). split; [lra|]. destruct (ceil_bounds q) as (B1 & B2). fold m in B1, B2. assert (MM : IZR m = IZR (m - 1) + 1) by (rewrite minus_IZR; ring).
  rewrite MM in *. set (k := IZR (m - 1)) in *. clearbody k q. split.
  - apply (Rmult_lt_reg_r k); [lra|]. replace (x / k * k) with x by (field; lra). rewrite E. nra.
  - apply (Rmult_le_reg_r k); [lra|]. replace (x / k * k) with x by (field; lra). rewrite E. nra.
Qed.
Lemma dec_steps : (7 <= n)%Z /\ 1 <= IZR (n - 1) /\ s < h <= 7 / 6 * s.
Proof. unfold h, n. rewrite steps_pos. apply many. assert (P := PI_lo). lra. Qed.
Lemma wide : forall i, (Z.of_nat i < n)%Z -> let d := INR i * h in 6 * s < largest s d /\
  forall dec, 0 <= dec -> Rabs (dec - d) <= h / 2 -> 2 * PI * cos dec <= largest s d.
Proof.
  intros i I d. destruct dec_steps as (N7 & N1 & H1 & H2). assert (P := PI_lo). assert (SL := sin_low s SB). assert (I0 := pos_INR i).
  assert (HN : h * IZR (n - 1) = PI / 2) by (unfold h; field; lra). assert (IN : INR i <= IZR (n - 1)) by (rewrite INR_IZR_INZ; apply IZR_le; lia).
  assert (DH : d <= PI / 2) by (unfold d; rewrite <- HN, Rmult_comm; apply Rmult_le_compat_l; lra).
  assert (L1 : 2 * PI * cos (- s + d) <= largest s d) by (unfold largest; eapply Rle_trans; [apply Rmax_l|apply Rmax_l]).
  assert (L2 : 2 * PI * cos (0 + d) <= largest s d) by (unfold largest; eapply Rle_trans; [apply Rmax_r|apply Rmax_l]).
  destruct i as [|i].
  - assert (D0 : d = 0) by (unfold d; cbn; ring). rewrite D0 in *. rewrite Rplus_0_l, cos_0 in L2. split; [lra|]. intros dec _ _. assert (B := COS_bound dec). nra.
  - assert (DS : s < d) by (unfold d; rewrite S_INR; rewrite S_INR in I0; assert (0 <= INR i) by apply pos_INR; nra). split.
    + assert (C : sin s <= cos (- s + d)) by (rewrite <- (cos_shift s); apply cos_decr_1; lra). nra.
    + intros dec D A. assert (AB : - (h / 2) <= dec - d <= h / 2) by (revert A; unfold Rabs; destruct (Rcase_abs _); lra).
      eapply Rle_trans; [|exact L1]. apply Rmult_le_compat_l; [lra|]. apply cos_decr_1; lra.
Qed.
Lemma around : forall i ras t ra dec, (Z.of_nat i < n)%Z -> linspace (2 * PI) (steps (largest s (INR i * h)) s) = Ok ras -> 0 <= dec <= PI / 2 -> Rabs (dec - INR i * h) <= h / 2 ->
  exists x k, In x ras /\ Rabs (ra - Rmod (x + t) (2 * PI) - IZR k * (2 * PI)) * cos dec <= 7 / 12 * s.
Proof.
  intros i ras t ra dec I E D A. destruct (wide i I) as (W1 & W2). specialize (W2 dec (proj1 D) A). set (g := largest s (INR i * h)) in *. rewrite steps_pos in E. destruct (many g W1) as (M7 & M1 & G1 & G2). set (m := ceil (g / s)) in *.
  assert (P := PI_lo). set (b := 2 * PI / IZR (m - 1)) in *. assert (B0 : 0 < b) by (apply Rdiv_lt_0_compat; lra).
  set (y := Rmod (ra - t) (2 * PI)). assert (Y := Rmod_range (ra - t) (2 * PI) ltac:(lra)). fold y in Y.
  assert (BM : INR (Z.to_nat (m - 1)) * b = 2 * PI) by (rewrite INR_IZR_INZ, Z2Nat.id by lia; unfold b; field; lra).
  destruct (nearest y b (Z.to_nat (m - 1)) B0 (proj1 Y)) as (j & J & JA); [rewrite BM; lra|].
  exists (INR j * b). assert (C1 : congr (2 * PI) (ra - Rmod (INR j * b + t) (2 * PI)) (y - INR j * b)).
  { apply congr_trans with (ra - (INR j * b + t)); [apply congr_sub; [apply congr_refl|apply Rmod_congr]|]. replace (ra - (INR j * b + t)) with (ra - t - INR j * b) by ring. apply congr_sub; [apply congr_sym, Rmod_congr|apply congr_refl]. }
  destruct C1 as (k & K). exists k. split; [apply (linspace_in _ m); [exact E|lia|lia]|]. rewrite K. replace (y - INR j * b + IZR k * (2 * PI) - IZR k * (2 * PI)) with (y - INR j * b) by ring.
  assert (C0 : 0 <= cos dec) by (apply cos_ge_0; lra). apply Rle_trans with (b / 2 * cos dec); [apply Rmult_le_compat_r; lra|].
  assert (BC : b * cos dec <= g / IZR (m - 1)).
  { unfold b. apply (Rmult_le_reg_r (IZR (m - 1))); [lra|]. replace (2 * PI / IZR (m - 1) * cos dec * IZR (m - 1)) with (2 * PI * cos dec) by (field; lra). replace (g / IZR (m - 1) * IZR (m - 1)) with g by (field; lra). exact W2. }
  lra.
Qed.
End Cover.
