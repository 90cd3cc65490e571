(** C141: the depths aimed for. *)
From Coq Require Import List Bool String ZArith QArith Qround Qabs Reals Qreals Lra Lia Lqa.
From Verif Require Import Base Seeing Seeing_proofs Props_Seeing VaryExpt TargetM5.
Import ListNotations.
Local Open Scope string_scope.
Open Scope list_scope.
Open Scope Q_scope.

(** ** Altitudes *)
(** The altitude at which a declination crosses the meridian. *)
Definition culm (lat dec : Q) : Q := 90 - Qabs (lat - dec).
Definition rad (x : R) : R := (x * (PI / 180))%R.
Definition globe (x : Q) : Prop := -90 <= x <= 90.

Lemma Q2R_abs : forall x, Q2R (Qabs x) = Rabs (Q2R x).
Proof.
  intros x. apply Qabs_case; intros H; apply Qle_Rle in H; replace (Q2R 0) with 0%R in H by (unfold Q2R; cbn; Lra.lra).
  - symmetry. apply Rabs_pos_eq. exact H.
  - rewrite Q2R_opp. symmetry. rewrite Rabs_left1 by exact H. reflexivity.
Qed.
Lemma Q2R_int : forall z, Q2R (inject_Z z) = IZR z.
Proof. intros z. unfold Q2R. cbn. Lra.lra. Qed.
Lemma globe_R : forall x, globe x -> (- (PI / 2) <= rad (Q2R x) <= PI / 2)%R.
Proof.
  intros x [A B]. apply Qle_Rle in A. apply Qle_Rle in B. change (-90) with (inject_Z (-90)) in A. change 90 with (inject_Z 90) in B. rewrite Q2R_int in A, B. pose proof PI_RGT_0. unfold rad. split.
  - replace (- (PI / 2))%R with (-90 * (PI / 180))%R by field. apply Rmult_le_compat_r; Lra.lra.
  - replace (PI / 2)%R with (90 * (PI / 180))%R by field. apply Rmult_le_compat_r; Lra.lra.
Qed.
Lemma culm_R : forall lat dec, rad (Q2R (culm lat dec)) = (PI / 2 - Rabs (rad (Q2R lat) - rad (Q2R dec)))%R.
Proof.
  intros lat dec. unfold culm, rad. rewrite Q2R_minus, Q2R_abs, Q2R_minus. change 90 with (inject_Z 90). rewrite Q2R_int.
  replace (Q2R lat * (PI / 180) - Q2R dec * (PI / 180))%R with ((Q2R lat - Q2R dec) * (PI / 180))%R by ring.
  rewrite Rabs_mult. rewrite (Rabs_pos_eq (PI / 180)) by (pose proof PI_RGT_0; Lra.lra). field.
Qed.
(** It is an altitude of the pixel, on the meridian, and none of its altitudes is higher. *)
Theorem C141_transit : forall lat dec, globe lat -> globe dec ->
  at_alt (rad (Q2R dec)) (rad (Q2R lat)) 0 (rad (Q2R (culm lat dec))) /\
  forall ha alt, at_alt (rad (Q2R dec)) (rad (Q2R lat)) ha alt -> (alt <= rad (Q2R (culm lat dec)))%R.
Proof.
  intros lat dec L D. rewrite culm_R. apply globe_R in L. apply globe_R in D. revert L D. generalize (rad (Q2R lat)) (rad (Q2R dec)). clear. intros l d [L1 L2] [D1 D2].
  pose proof PI_RGT_0.
  assert (A0 : (0 <= Rabs (l - d) <= PI)%R) by (split; [apply Rabs_pos|]; apply Rabs_le; Lra.lra).
  assert (E : (sin (PI / 2 - Rabs (l - d)) = cos d * cos l + sin d * sin l)%R).
  { rewrite sin_shift. rewrite <- cos_minus. unfold Rabs. destruct (Rcase_abs (l - d)); [f_equal; Lra.lra|]. rewrite <- cos_neg. f_equal. Lra.lra. }
  split.
  - split; [Lra.lra|]. rewrite E, cos_0. ring.
  - intros ha alt [[A1 A2] A]. destruct (Rle_or_lt alt (PI / 2 - Rabs (l - d))) as [|G]; [assumption|]. exfalso.
    assert (sin (PI / 2 - Rabs (l - d)) < sin alt)%R by (apply sin_increasing_1; Lra.lra).
    rewrite E, A in *. pose proof (cos_ge_0 d ltac:(Lra.lra) ltac:(Lra.lra)). pose proof (cos_ge_0 l ltac:(Lra.lra) ltac:(Lra.lra)). pose proof (COS_bound ha) as [_ C].
    assert (0 <= cos d * cos l)%R by (apply Rmult_le_pos; assumption).
    assert (cos d * cos l * cos ha <= cos d * cos l * 1)%R by (apply Rmult_le_compat_l; assumption). Lra.lra.
Qed.
Print Assumptions C141_transit.

(** Pixels that cross the meridian towards the equator are put at that altitude; those that cross it
    towards the pole, in the south, at their distance from the zenith instead. *)
Theorem C141_listed : forall lat dec, (lat <= dec -> listed lat dec == culm lat dec) /\ (dec < lat -> listed lat dec == 90 - culm lat dec).
Proof.
  intros lat dec. unfold listed, culm. split; intros H.
  - rewrite (proj2 (Qltb_false _ _)) by lra. rewrite Qabs_neg by lra. lra.
  - rewrite (proj2 (Qltb_lt _ _)) by lra. rewrite Qabs_pos by lra. lra.
Qed.
Print Assumptions C141_listed.
Example C141_listed_ex : culm (-30) 20 == 40 /\ listed (-30) 20 == 40 /\ culm (-30) (-80) == 40 /\ listed (-30) (-80) == 50 /\ culm (-30) (-31) == 89 /\ listed (-30) (-31) == 1.
Proof. repeat split; reflexivity. Qed.
(** So these are wrong, but at 45 degrees. *)
Theorem C141_south_refuted : forall lat dec, dec < lat -> ~ culm lat dec == 45 -> ~ listed lat dec == culm lat dec.
Proof. intros lat dec H N E. apply (proj2 (C141_listed lat dec)) in H. apply N. lra. Qed.
Print Assumptions C141_south_refuted.

(** ** The sky *)
(** [a] is the average over the pixels with the property, none of them a nan, at least one. *)
Definition averages (m : list pixel) (P : pixel -> Prop) (a : Q) : Prop :=
  exists f vs, (forall p, In p m -> (f p = true <-> P p)) /\ map px_sky (filter f m) = map Some vs /\ vs <> [] /\
    a * inject_Z (Z.of_nat (List.length vs)) == fold_right Qplus 0 vs.
(** An altitude in the five degrees of a bin. *)
Definition five (i : Z) (a : Q) : Prop := 5 * inject_Z i <= a /\ (a < 5 * inject_Z i + 5 \/ (i = 17%Z /\ a == 90)).

Lemma total_some : forall l t, total l = Some t -> exists vs, l = map Some vs /\ t = fold_right Qplus 0 vs.
Proof.
  induction l as [|[x|] l IH]; cbn; intros t H; [|destruct (total l) as [u|] eqn:E; [|discriminate]|discriminate].
  - injection H as <-. exists []. split; reflexivity.
  - injection H as <-. destruct (IH _ eq_refl) as (vs & -> & ->). exists (x :: vs). split; reflexivity.
Qed.
Lemma total_map : forall vs, total (map Some vs) = Some (fold_right Qplus 0 vs).
Proof. induction vs as [|x vs IH]; cbn; [reflexivity|]. rewrite IH. reflexivity. Qed.
Lemma len_pos : forall n, ~ inject_Z (Z.of_nat (S n)) == 0.
Proof. intros n E. unfold Qeq in E. cbn [inject_Z Qnum Qden] in E. lia. Qed.
Lemma mean_some : forall l a, mean l = Some a -> exists vs, l = map Some vs /\ vs <> [] /\ a * inject_Z (Z.of_nat (List.length vs)) == fold_right Qplus 0 vs.
Proof.
  intros l a H. assert (K : l <> []) by (intros ->; discriminate).
  assert (E : mean l = option_map (fun t => t / inject_Z (Z.of_nat (List.length l))) (total l)) by (destruct l; [contradiction|reflexivity]).
  rewrite E in H. destruct (total l) as [t|] eqn:T; [|discriminate]. destruct (total_some _ _ T) as (vs & -> & ->). cbn [option_map] in H. rewrite map_length in H. injection H as <-.
  exists vs. split; [reflexivity|]. destruct vs as [|v vs]; [contradiction|]. split; [discriminate|]. pose proof (len_pos (List.length vs)) as P. change (S (List.length vs)) with (List.length (v :: vs)) in P. field. exact P.
Qed.
Lemma floor_five : forall a i, 0 <= a -> a < 90 -> (Qfloor (a / 5) = i <-> five i a).
Proof.
  intros a i A B. assert (D : a == 5 * (a / 5)) by field. pose proof (Qfloor_le (a / 5)) as F1. pose proof (Qlt_floor (a / 5)) as F2. rewrite inject_Z_plus in F2. change (inject_Z 1) with 1 in F2.
  revert D F1 F2. generalize (a / 5). intros x D F1 F2. unfold five. split.
  - intros <-. split; [lra|]. left. lra.
  - intros [L [U|[_ U]]]; [|lra]. apply Z.le_antisymm.
    + assert (inject_Z (Qfloor x) < inject_Z (i + 1)) as G by (rewrite inject_Z_plus; change (inject_Z 1) with 1; lra). rewrite <- Zlt_Qlt in G. lia.
    + assert (inject_Z i < inject_Z (Qfloor x + 1)) as G by (rewrite inject_Z_plus; change (inject_Z 1) with 1; lra). rewrite <- Zlt_Qlt in G. lia.
Qed.
Lemma in_bin_five : forall i a, (0 <= i <= 17)%Z -> 0 <= a <= 90 -> (in_bin i a = true <-> five i a).
Proof.
  intros i a I [A B]. unfold in_bin, bin_of. destruct (Qeq_bool a 90) eqn:E.
  - apply Qeq_bool_iff in E. rewrite Z.eqb_eq. unfold five. split.
    + intros ->. change (inject_Z 17) with 17. split; [lra|]. right. split; [reflexivity|exact E].
    + intros [L [U|[-> _]]]; [|reflexivity]. assert (inject_Z 17 < inject_Z i) as G by (change (inject_Z 17) with 17; lra). rewrite <- Zlt_Qlt in G. lia.
  - assert (N : ~ a == 90) by (intros C; apply Qeq_bool_iff in C; congruence).
    assert (L : a < 90) by (destruct (Qlt_le_dec a 90) as [|G]; [assumption|]; exfalso; apply N; lra).
    rewrite (proj2 (Qle_bool_iff _ _) A), (proj2 (Qltb_lt _ _) L). cbn [andb]. rewrite Z.eqb_eq. rewrite <- (floor_five a i A L). split; intros H; congruence.
Qed.
Lemma listed_range : forall lat dec, globe lat -> globe dec -> lat <= 0 -> listed lat dec <= 90.
Proof. intros lat dec [A B] [C D] E. destruct (Qlt_le_dec dec lat) as [H|H]; [apply (proj2 (C141_listed lat dec)) in H as F|apply (proj1 (C141_listed lat dec)) in H as F]; unfold culm in F. rewrite Qabs_pos in F by lra. lra. rewrite Qabs_neg in F by lra. lra. Qed.
(** What a bin holds. *)
Lemma bin_averages : forall lat m i a, lat <= 0 -> globe lat -> (forall p, In p m -> globe (px_dec p)) -> (0 <= i <= 17)%Z -> bin_sky lat m i = Some a ->
  averages m (fun p => 0 < listed lat (px_dec p) /\ five i (listed lat (px_dec p))) a.
Proof.
  intros lat m i a L G M I H. apply mean_some in H. destruct H as (vs & V & N & A). eexists. exists vs. split; [|split; [exact V|split; assumption]].
  intros p P. cbn beta. rewrite andb_true_iff, Qltb_lt. pose proof (listed_range lat (px_dec p) G (M p P) L) as U.
  split; intros [Q1 Q2]; (split; [exact Q1|]); apply (in_bin_five i (listed lat (px_dec p)) I); try assumption; lra.
Qed.
Lemma averages_ext : forall m P P' a, (forall p, In p m -> (P p <-> P' p)) -> averages m P a -> averages m P' a.
Proof. intros m P P' a E (f & vs & F & R). exists f, vs. split; [|exact R]. intros p I. rewrite (F p I). apply E. exact I. Qed.

(** The sky aimed at lies on the straight line between the averages of two neighbouring bins. *)
Definition on_line (f : Z -> Q -> Prop) (alt s : Q) : Prop :=
  (alt <= (5 # 2) /\ f 0%Z s) \/ ((175 # 2) <= alt /\ f 17%Z s) \/
  exists i, (0 <= i <= 16)%Z /\ mid i <= alt < mid (i + 1) /\
    ((alt == mid i /\ f i s) \/ exists a b, f i a /\ f (i + 1)%Z b /\ s == a + (b - a) * ((alt - mid i) / 5)).
Lemma interp_line : forall f alt s, interp f alt = Some s -> on_line (fun i a => f i = Some a) alt s.
Proof.
  intros f alt s H. unfold interp in H. destruct (Qle_bool alt (mid 0)) eqn:E0.
  { apply Qle_bool_iff in E0. left. split; [exact E0|exact H]. }
  destruct (Qle_bool (mid 17) alt) eqn:E1.
  { apply Qle_bool_iff in E1. right. left. split; [exact E1|exact H]. }
  apply Qle_bool_false in E0. apply Qle_bool_false in E1. right. right. revert H. set (x := (alt - (5 # 2)) / 5). cbv zeta. intros H.
  assert (D : alt == 5 * x + (5 # 2)) by (unfold x; field). pose proof (Qfloor_le x) as F1. pose proof (Qlt_floor x) as F2. set (j := Qfloor x) in *.
  rewrite inject_Z_plus in F2. change (inject_Z 1) with 1 in F2. unfold mid in E0, E1. change (inject_Z 0) with 0 in E0. change (inject_Z 17) with 17 in E1.
  assert (J0 : (-1 < j)%Z) by (rewrite Zlt_Qlt; change (inject_Z (-1)) with (-1); lra).
  assert (J1 : (j < 17)%Z) by (rewrite Zlt_Qlt; change (inject_Z 17) with 17; lra).
  exists j. split; [lia|]. split. { unfold mid. rewrite inject_Z_plus. change (inject_Z 1) with 1. lra. }
  destruct (Qeq_bool alt (mid j)) eqn:E2.
  - left. apply Qeq_bool_iff in E2. split; assumption.
  - right. destruct (f j) as [a|]; [|discriminate]. destruct (f (j + 1)%Z) as [b|]; [|discriminate]. injection H as <-. exists a, b. split; [reflexivity|]. split; [reflexivity|]. field.
Qed.
Lemma on_line_mono : forall (f g : Z -> Q -> Prop) alt s, (forall i a, (0 <= i <= 17)%Z -> f i a -> g i a) -> on_line f alt s -> on_line g alt s.
Proof.
  intros f g alt s M [[A B]|[[A B]|(i & I & A & B)]].
  - left. split; [exact A|apply M; [lia|exact B]].
  - right. left. split; [exact A|apply M; [lia|exact B]].
  - right. right. exists i. split; [exact I|]. split; [exact A|]. destruct B as [[B C]|(a & b & B & C & D)].
    + left. split; [exact B|apply M; [lia|exact C]].
    + right. exists a, b. split; [apply M; [lia|exact B]|]. split; [apply M; [lia|exact C]|exact D].
Qed.
Theorem C141_line : forall lat m alt s, globe lat -> lat <= 0 -> (forall p, In p m -> globe (px_dec p)) -> sky_at lat m alt = Some s ->
  on_line (fun i => averages m (fun p => 0 < listed lat (px_dec p) /\ five i (listed lat (px_dec p)))) alt s.
Proof. intros lat m alt s G L M H. apply interp_line in H. revert H. apply on_line_mono. intros i a I B. apply bin_averages; assumption. Qed.
Print Assumptions C141_line.

(** From 62.5 degrees up, as by default, at a site south of -30: only pixels which do
    cross the meridian at the altitude of their bin are averaged, those towards the equator. *)
Theorem C141_high : forall lat m alt s, globe lat -> lat < -30 -> (forall p, In p m -> globe (px_dec p)) -> (125 # 2) <= alt -> sky_at lat m alt = Some s ->
  on_line (fun i => averages m (fun p => lat <= px_dec p /\ five i (culm lat (px_dec p)))) alt s.
Proof.
  intros lat m alt s G L M A H. apply C141_line in H; try assumption; [|lra].
  assert (K : forall i a, (12 <= i <= 17)%Z -> averages m (fun p => 0 < listed lat (px_dec p) /\ five i (listed lat (px_dec p))) a -> averages m (fun p => lat <= px_dec p /\ five i (culm lat (px_dec p))) a).
  { intros i a I. apply averages_ext. intros p P. pose proof (M p P) as [D1 D2]. destruct G as [G1 G2].
    assert (B : 60 <= 5 * inject_Z i). { assert (inject_Z 12 <= inject_Z i) as B by (rewrite <- Zle_Qle; lia). change (inject_Z 12) with 12 in B. lra. }
    destruct (Qlt_le_dec (px_dec p) lat) as [S|N].
    - pose proof (proj2 (C141_listed lat (px_dec p)) S) as E. unfold culm in E. rewrite Qabs_pos in E by lra. split.
      + intros [_ [F1 F2]]. lra.
      + intros [C _]. lra.
    - pose proof (proj1 (C141_listed lat (px_dec p)) N) as E. unfold five. split.
      + intros [_ [F1 F2]]. split; [exact N|]. split; [lra|]. destruct F2 as [F2|[F2 F3]]; [left; lra|right; split; [exact F2|lra]].
      + intros [_ [F1 F2]]. split; [lra|]. split; [lra|]. destruct F2 as [F2|[F2 F3]]; [left; lra|right; split; [exact F2|lra]]. }
  destruct H as [[B C]|[[B C]|(i & I & B & C)]].
  - lra.
  - right. left. split; [exact B|]. apply K; [lia|exact C].
  - assert (J : (11 < i)%Z). { unfold mid in B. rewrite inject_Z_plus in B. change (inject_Z 1) with 1 in B. rewrite Zlt_Qlt. change (inject_Z 11) with 11. lra. }
    right. right. exists i. split; [exact I|]. split; [exact B|]. destruct C as [[C D]|(a & b & C & D & E)].
    + left. split; [exact C|apply K; [lia|exact D]].
    + right. exists a, b. split; [apply K; [lia|exact C]|]. split; [apply K; [lia|exact D]|exact E].
Qed.
Print Assumptions C141_high.

(** It is never outside the values of the pixels averaged. *)
Lemma sum_between : forall lo hi vs, (forall v, In v vs -> lo <= v <= hi) -> lo * inject_Z (Z.of_nat (List.length vs)) <= fold_right Qplus 0 vs <= hi * inject_Z (Z.of_nat (List.length vs)).
Proof.
  intros lo hi. induction vs as [|v vs IH]; intros H.
  - cbn. change (inject_Z 0) with 0. lra.
  - pose proof (H v (or_introl eq_refl)). assert (H' : forall w, In w vs -> lo <= w <= hi) by (intros w W; apply H; right; exact W). specialize (IH H').
    cbn [fold_right List.length]. rewrite Nat2Z.inj_succ. unfold Z.succ. rewrite inject_Z_plus. change (inject_Z 1) with 1. nra.
Qed.
Lemma averages_between : forall m P a lo hi, averages m P a -> (forall p v, In p m -> P p -> px_sky p = Some v -> lo <= v <= hi) -> lo <= a <= hi.
Proof.
  intros m P a lo hi (f & vs & F & V & N & A) B.
  assert (C : forall v, In v vs -> lo <= v <= hi).
  { intros v I. assert (J : In (Some v) (map px_sky (filter f m))) by (rewrite V; apply in_map; exact I). apply in_map_iff in J. destruct J as (p & S & J). apply filter_In in J. destruct J as [J1 J2]. apply (B p v J1); [apply F; assumption|exact S]. }
  apply sum_between in C. assert (0 < inject_Z (Z.of_nat (List.length vs))) as L by (change 0 with (inject_Z 0); rewrite <- Zlt_Qlt; destruct vs; [contradiction|cbn; lia]).
  set (n := inject_Z (Z.of_nat (List.length vs))) in *. split; apply Qmult_le_r with n; try exact L; lra.
Qed.
Theorem C141_between : forall lat m alt s lo hi, globe lat -> lat <= 0 -> (forall p, In p m -> globe (px_dec p)) -> sky_at lat m alt = Some s ->
  (forall p v, In p m -> 0 < listed lat (px_dec p) -> px_sky p = Some v -> lo <= v <= hi) -> lo <= s <= hi.
Proof.
  intros lat m alt s lo hi G L M H B. apply C141_line in H; try assumption.
  assert (K : forall i a, averages m (fun p => 0 < listed lat (px_dec p) /\ five i (listed lat (px_dec p))) a -> lo <= a <= hi).
  { intros i a A. apply (averages_between _ _ _ _ _ A). intros p v P [P1 _]. apply B; assumption. }
  destruct H as [[_ C]|[[_ C]|(i & I & A & C)]]; [exact (K _ _ C)|exact (K _ _ C)|].
  destruct C as [[_ D]|(a & b & D & E & F)]; [exact (K _ _ D)|]. apply K in D. apply K in E. unfold mid in A. rewrite inject_Z_plus in A. change (inject_Z 1) with 1 in A. unfold mid in F.
  set (t := (alt - (5 * inject_Z i + (5 # 2))) / 5) in *. assert (T : alt == 5 * t + (5 * inject_Z i + (5 # 2))) by (unfold t; field). assert (0 <= t <= 1) by lra. rewrite F. nra.
Qed.
Print Assumptions C141_between.
(** A bin without pixels, or with a nan, gives none. *)
Theorem C141_known : forall lat m i, bin_sky lat m i = None <->
  let l := filter (fun p => Qltb 0 (listed lat (px_dec p)) && in_bin i (listed lat (px_dec p))) m in l = [] \/ exists p, In p l /\ px_sky p = None.
Proof.
  intros lat m i. unfold bin_sky. cbv zeta. set (l := filter _ m). clearbody l. split.
  - intros H. destruct l as [|p l]; [left; reflexivity|]. right. unfold mean in H. cbn [map] in H. destruct (total (px_sky p :: map px_sky l)) as [t|] eqn:E; [discriminate|]. clear H. change (total (map px_sky (p :: l)) = None) in E. revert E. generalize (p :: l). clear.
    induction l as [|q l IH]; cbn; [discriminate|]. intros E. destruct (px_sky q) as [x|] eqn:S; [|exists q; split; [left; reflexivity|exact S]].
    destruct (total (map px_sky l)); [discriminate|]. destruct (IH eq_refl) as (p & I & N). exists p. split; [right; exact I|exact N].
  - intros [->|(p & I & N)]; [reflexivity|]. assert (T : total (map px_sky l) = None).
    { revert I. induction l as [|q l IH]; cbn; [intros []|]. intros [->|I]; [rewrite N; reflexivity|]. rewrite (IH I). destruct (px_sky q); reflexivity. }
    destruct l as [|q l]; [destruct I|]. unfold mean. cbn [map] in *. rewrite T. reflexivity.
Qed.
Print Assumptions C141_known.

Definition demo : list pixel := [mkPx 57 (Some 20); mkPx (-7) (Some 22); mkPx (-2) (Some 21); mkPx (-8) (Some 23); mkPx (-31) (Some 19); mkPx (-90) None].
(** Half way between two bins at 65 degrees, the default; the pixel just south of the zenith is averaged
    into the bin of the horizon, and there is none for the zenith. *)
Example C141_sky_ex : globe (-301 # 10) /\ (-301 # 10) < -30 /\ (forall p, In p demo -> globe (px_dec p)) /\
  option_map Qred (sky_at (-301 # 10) demo 65) = Some (87 # 4) /\ option_map Qred (sky_at (-301 # 10) demo (135 # 2)) = Some (45 # 2) /\
  option_map Qred (sky_at (-301 # 10) demo (5 # 2)) = Some (39 # 2) /\ sky_at (-301 # 10) demo (175 # 2) = None /\ bin_sky (-301 # 10) demo 17 = None /\
  Qred (culm (-301 # 10) (-31)) = (891 # 10) /\
  bin_sky (-301 # 10) demo 11 = None /\ Qred (listed (-301 # 10) (-90)) = (599 # 10) /\
  (forall p v, In p demo -> 0 < listed (-301 # 10) (px_dec p) -> px_sky p = Some v -> 19 <= v <= 23).
Proof.
  split; [split; discriminate|]. split; [reflexivity|]. split. { intros p P. repeat (destruct P as [<-|P]; [split; discriminate|]). destruct P. }
  do 8 (split; [vm_compute; reflexivity|]).
  intros p v P _ S. repeat (destruct P as [<-|P]; [cbn in S; try discriminate S; injection S as <-; split; discriminate|]). destruct P.
Qed.
(** ** Depths *)
(** One entry for each band of the dark sky, in its order; a band that is not known raises. *)
Definition known_band (b : string) : Prop := In b ["u"; "g"; "r"; "i"; "z"; "y"].
Lemma goal_known : forall lat m b alt f e, known_band b -> exists d, goal lat m b alt f e = Ok d /\ (d = None <-> sky_at lat m alt = None).
Proof.
  intros lat m b alt f e K. unfold goal. destruct (sky_at lat m alt) as [s|].
  - destruct (proj1 (C91_bands b (Q2R s) f e (airmass_at alt) 1 0) K) as [d E]. rewrite E. exists (Some d). split; [reflexivity|]. split; discriminate.
  - destruct (proj1 (C91_bands b 0 f e (airmass_at alt) 1 0) K) as [d E]. rewrite E. exists None. split; [reflexivity|]. split; reflexivity.
Qed.
Theorem C141_bands : forall lat dark alt f e, Forall (fun bm => known_band (fst bm)) dark ->
  exists out, targets lat dark alt f e = Ok out /\ map fst out = map fst dark /\
    forall i b d, nth_error out i = Some (b, d) -> exists m, nth_error dark i = Some (b, m) /\ goal lat m b alt f e = Ok d /\ (d = None <-> sky_at lat m alt = None).
Proof.
  intros lat dark alt f e. induction 1 as [|[b m] dark K F IH]; cbn [targets TargetM5.mapM].
  - exists []. split; [reflexivity|]. split; [reflexivity|]. intros [|i] b d; discriminate.
  - cbn [fst snd] in *. destruct (goal_known lat m b alt f e K) as (d & E & N). rewrite E. cbn [bind]. destruct IH as (out & O & M & H). unfold targets in O. rewrite O. cbn [bind].
    exists ((b, d) :: out). split; [reflexivity|]. split; [cbn [map fst]; rewrite M; reflexivity|]. intros [|i] b' d' I; cbn [nth_error] in *; [injection I as <- <-; exists m; split; [reflexivity|split; assumption]|apply H; exact I].
Qed.
Print Assumptions C141_bands.

Lemma airmass_deg : forall alt, airmass_at alt = (1 / sin (rad (Q2R alt)))%R.
Proof. intros alt. unfold airmass_at, rad. rewrite cos_shift. reflexivity. Qed.
Lemma deg_bounds : forall a b x : Q, a < x -> x < b -> (rad (Q2R a) < rad (Q2R x) < rad (Q2R b))%R.
Proof. intros a b x A B. apply Qlt_Rlt in A. apply Qlt_Rlt in B. pose proof PI_RGT_0. unfold rad. split; apply Rmult_lt_compat_r; Lra.lra. Qed.
Lemma rad_int : forall z, rad (Q2R (inject_Z z)) = (IZR z * (PI / 180))%R.
Proof. intros z. unfold rad. rewrite Q2R_int. reflexivity. Qed.
Lemma goal_some : forall lat m b alt f e d, goal lat m b alt f e = Ok (Some d) -> exists s, sky_at lat m alt = Some s /\ m5_flat_sed b (Q2R s) f e (airmass_at alt) 1 0 = Ok d.
Proof.
  intros lat m b alt f e d H. unfold goal in H. destruct (sky_at lat m alt) as [s|].
  - exists s. split; [reflexivity|]. destruct (m5_flat_sed b (Q2R s) f e (airmass_at alt) 1 0); [injection H as <-; reflexivity|discriminate].
  - destruct (m5_flat_sed b 0 f e (airmass_at alt) 1 0); discriminate.
Qed.
(** Higher on a sky no brighter there, with sharper images or a longer exposure, the depth is greater. *)
Theorem C141_deeper : forall lat m b alt alt' f f' e e' d d' s s', 0 < alt -> alt <= alt' -> alt' <= 90 -> (0 < f' <= f)%R -> (0 < e <= e')%R ->
  sky_at lat m alt = Some s -> sky_at lat m alt' = Some s' -> s <= s' ->
  goal lat m b alt f e = Ok (Some d) -> goal lat m b alt' f' e' = Ok (Some d') ->
  (d <= d')%R /\ (alt < alt' \/ s < s' \/ (f' < f)%R \/ (e < e')%R -> (d < d')%R).
Proof.
  intros lat m b alt alt' f f' e e' d d' s s' A A' A9 F E S S' L H H'. apply goal_some in H. apply goal_some in H'. destruct H as (t & T & H). destruct H' as (t' & T' & H').
  rewrite S in T. injection T as <-. rewrite S' in T'. injection T' as <-. pose proof (Qle_Rle _ _ L) as LR.
  assert (P : (0 < rad (Q2R alt))%R). { apply Qlt_Rlt in A. replace (Q2R 0) with 0%R in A by (unfold Q2R; cbn; Lra.lra). pose proof PI_RGT_0. unfold rad. apply Rmult_lt_0_compat; Lra.lra. }
  assert (P9 : (rad (Q2R alt') <= PI / 2)%R). { apply Qle_Rle in A9. change 90 with (inject_Z 90) in A9. rewrite Q2R_int in A9. pose proof PI_RGT_0. unfold rad. replace (PI / 2)%R with (90 * (PI / 180))%R by field. apply Rmult_le_compat_r; Lra.lra. }
  assert (X : (airmass_at alt' <= airmass_at alt)%R /\ (alt < alt' -> (airmass_at alt' < airmass_at alt)%R)).
  { rewrite !airmass_deg. assert (0 < sin (rad (Q2R alt)))%R as P1 by (apply sin_gt_0; [exact P|]; apply Qle_Rle in A'; pose proof PI_RGT_0; assert (rad (Q2R alt) <= rad (Q2R alt'))%R by (apply Rmult_le_compat_r; Lra.lra); Lra.lra).
    assert (K : alt < alt' -> (1 / sin (rad (Q2R alt')) < 1 / sin (rad (Q2R alt)))%R).
    { intros G. apply Qlt_Rlt in G. pose proof PI_RGT_0. assert (rad (Q2R alt) < rad (Q2R alt'))%R by (apply Rmult_lt_compat_r; Lra.lra). assert (sin (rad (Q2R alt)) < sin (rad (Q2R alt')))%R by (apply sin_increasing_1; Lra.lra).
      unfold Rdiv. rewrite !Rmult_1_l. apply Rinv_lt_contravar; [apply Rmult_lt_0_compat; Lra.lra|assumption]. }
    split; [|exact K]. destruct (Qlt_le_dec alt alt') as [G|G]; [left; apply K; exact G|]. right. assert (Q : alt == alt') by (apply Qle_antisym; assumption). apply Qeq_eqR in Q. rewrite Q. reflexivity. }
  destruct X as [X1 X2]. destruct (C91_depth_better b (Q2R s) (Q2R s') f f' e e' (airmass_at alt) (airmass_at alt') 1 1 0 0 d d' LR F E X1 ltac:(lia) ltac:(Lra.lra) H H') as [B1 B2].
  split; [exact B1|]. intros C. apply B2. destruct C as [C|[C|[C|C]]]; [right; right; right; left; apply X2; exact C|left; apply Qlt_Rlt; exact C|tauto|tauto].
Qed.
Print Assumptions C141_deeper.
(** Below the horizon the airmass is negative and the depth greater than at any altitude above it. *)
Theorem C141_below_refuted : forall lat m b alt alt' f e d d' s, -180 < alt -> alt < 0 -> 0 < alt' -> alt' < 180 -> (0 < f)%R -> (0 < e)%R ->
  sky_at lat m alt = Some s -> sky_at lat m alt' = Some s -> goal lat m b alt f e = Ok (Some d) -> goal lat m b alt' f e = Ok (Some d') -> (d' < d)%R.
Proof.
  intros lat m b alt alt' f e d d' s A A0 B B0 F E S S' H H'. apply goal_some in H. apply goal_some in H'. destruct H as (t & T & H). destruct H' as (t' & T' & H').
  rewrite S in T. injection T as <-. rewrite S' in T'. injection T' as <-.
  pose proof (deg_bounds _ _ _ A A0) as G. pose proof (deg_bounds _ _ _ B B0) as G'. change (-180) with (inject_Z (-180)) in G. change 0 with (inject_Z 0) in G, G'. change 180 with (inject_Z 180) in G'. rewrite !rad_int in G, G'.
  assert (N : (airmass_at alt < 0)%R). { rewrite airmass_deg. assert (sin (rad (Q2R alt)) < 0)%R by (apply sin_lt_0_var; Lra.lra). unfold Rdiv. rewrite Rmult_1_l. apply Rinv_lt_0_compat. assumption. }
  assert (P : (0 < airmass_at alt')%R). { rewrite airmass_deg. assert (0 < sin (rad (Q2R alt')))%R by (apply sin_gt_0; Lra.lra). unfold Rdiv. rewrite Rmult_1_l. apply Rinv_0_lt_compat. assumption. }
  destruct (C91_depth_better b (Q2R s) (Q2R s) f f e e (airmass_at alt') (airmass_at alt) 1 1 0 0 d' d ltac:(Lra.lra) ltac:(Lra.lra) ltac:(Lra.lra) ltac:(Lra.lra) ltac:(lia) ltac:(Lra.lra) H' H) as [_ K]. apply K. Lra.lra.
Qed.
Print Assumptions C141_below_refuted.

(** A visit under the very conditions aimed at is given the exposure time aimed at (within the limits,
    to a second), and a longer one, as far as the limit, where it would not be as deep. *)
Theorem C141_kept : forall lat m b alt f e d lo hi k maps r, goal lat m b alt f e = Ok (Some d) -> s_exptime k = e -> s_m5 k (v_band r) = Some maps -> v_band r = b ->
  forall x, depth k maps (v_pix r) = Ok x ->
  exists y, new_exptime lo hi (fun c => if String.eqb c b then Some d else None) k r = Ok (IZR (rround (clip y lo hi))) /\
    (x = d -> y = e) /\ ((0 < e)%R -> (x < d -> e < y)%R /\ (d < x -> y < e)%R).
Proof.
  intros lat m b alt f e d lo hi k maps r H K M B x D. subst b. exists (e * Rpower 10 ((d - x) / (5 / 4)))%R. split.
  - unfold new_exptime. rewrite String.eqb_refl, M, D. cbn [bind]. rewrite K. reflexivity.
  - assert (L : (0 < ln 10)%R) by (apply ln10_pos). split.
    + intros ->. replace ((d - d) / (5 / 4))%R with 0%R by field. rewrite Rpower_O by Lra.lra. ring.
    + intros E. split; intros G.
      * assert (1 < Rpower 10 ((d - x) / (5 / 4)))%R. { rewrite <- (Rpower_O 10) by Lra.lra. apply Rpower_lt; Lra.lra. } Lra.nra.
      * assert (Rpower 10 ((d - x) / (5 / 4)) < 1)%R. { rewrite <- (Rpower_O 10) by Lra.lra. apply Rpower_lt; Lra.lra. } Lra.nra.
Qed.
Print Assumptions C141_kept.
Example C141_depth_ex : let m := demo in exists d d' d2 s s', known_band "r" /\
  sky_at (-301 # 10) m 65 = Some s /\ sky_at (-301 # 10) m (135 # 2) = Some s' /\ s <= s' /\
  goal (-301 # 10) m "r" 65 1 30 = Ok (Some d) /\ goal (-301 # 10) m "r" (135 # 2) 1 30 = Ok (Some d') /\ (d < d')%R /\
  sky_at (-301 # 10) m (-30) = sky_at (-301 # 10) m (5 # 2) /\ goal (-301 # 10) m "r" (-30) 1 30 = Ok (Some d2).
Proof.
  cbv zeta. assert (K : known_band "r") by (cbn; tauto).
  destruct (goal_known (-301 # 10) demo "r" 65 1 30 K) as ([d|] & E & N); [|exfalso; destruct N as [N _]; specialize (N eq_refl); vm_compute in N; discriminate].
  destruct (goal_known (-301 # 10) demo "r" (135 # 2) 1 30 K) as ([d'|] & E' & N'); [|exfalso; destruct N' as [N' _]; specialize (N' eq_refl); vm_compute in N'; discriminate].
  destruct (goal_known (-301 # 10) demo "r" (-30) 1 30 K) as ([d2|] & E2 & N2); [|exfalso; destruct N2 as [N2 _]; specialize (N2 eq_refl); vm_compute in N2; discriminate].
  destruct (sky_at (-301 # 10) demo 65) as [s|] eqn:S; [|vm_compute in S; discriminate]. destruct (sky_at (-301 # 10) demo (135 # 2)) as [s'|] eqn:S'; [|vm_compute in S'; discriminate].
  exists d, d', d2, s, s'. split; [exact K|]. split; [reflexivity|]. split; [reflexivity|].
  assert (L : s <= s') by (vm_compute in S, S'; injection S as <-; injection S' as <-; discriminate). split; [exact L|]. split; [exact E|]. split; [exact E'|].
  split; [|split; [vm_compute; reflexivity|exact E2]].
  destruct (C141_deeper (-301 # 10) demo "r" 65 (135 # 2) 1 1 30 30 d d' s s' eq_refl ltac:(discriminate) ltac:(discriminate) ltac:(Lra.lra) ltac:(Lra.lra) S S' L E E') as [_ B]. apply B. left. reflexivity.
Qed.
