(** C146: what the gates of dd_bfs promise for the sequences of a deep drilling field. *)
From Coq Require Import List ZArith QArith Qround Qabs Bool String Lia Lqa Sorted.
From Verif Require Import Base IntRounded IntRounded_proofs Script Script_proofs Feat TimeGate TimeGate_proofs Props_TimeGate GateLoop GateLoop_proofs Props_GateLoop DdBfs.
Import ListNotations.
Local Open Scope string_scope.
Open Scope list_scope.
Open Scope nat_scope.

Definition share (a : nat) (h : list fvis) : Q := (inject_Z (Z.of_nat a) / inject_Z (Z.of_nat (List.length h)))%Q.
(** The state the gates have after the visits of a history. *)
Definition told (s : dd) (h : list fvis) : ddst := fold_left (ds_add s) h ds0.
Lemma told_parts : forall s h, told s h = mkDst (fold_left (fo_add (d_note s)) h fo0) (fold_left (fo_add (d_note s)) h fo0) (fold_left (sd_add (d_note s)) h sd0).
Proof.
  intros s h. unfold told. change ds0 with (mkDst fo0 fo0 sd0). generalize fo0 at 1 3. generalize fo0. generalize sd0.
  induction h as [|v h IH]; intros a b c; [reflexivity|]. cbn [fold_left]. unfold ds_add at 2. cbn [ds_frac ds_ahead ds_soft]. apply IH.
Qed.
Lemma then_true : forall a b, then_gate a b = Ok true -> a = Ok true /\ b = Ok true.
Proof. intros [[|]|e] b H; cbn in H; try discriminate. auto. Qed.
Lemma counts : forall s h a, count (carries (d_note s)) h a ->
  nn_count (fst (fold_left (fo_add (d_note s)) h fo0)) = Z.of_nat (List.length h) /\ nn_count (snd (fold_left (fo_add (d_note s)) h fo0)) = Z.of_nat a.
Proof.
  intros s h a C. rewrite fo_fold. cbn [fst snd fo0]. rewrite !nc_fold, tally_all, <- (count_tally _ _ _ C). cbn [nc0 nn_count]. split; lia.
Qed.
Lemma sched_iff : forall m c, time_to_scheduled m c = Ok true <-> forall x, In x (tc_sched c) -> (tc_mjd c + days m < x)%Q.
Proof.
  intros m c. pose proof (minutes_days m) as E. unfold time_to_scheduled. destruct (tc_sched c) as [|x0 l0]; [split; [intros _ x []|reflexivity]|].
  destruct (np_min_ok (x0 :: l0)) as [mn [E1 [Im Bm]]]; [discriminate|]. rewrite E1. cbn [bind]. split.
  - intros H x Ix. assert (G : Qltb (minutes m) (mn - tc_mjd c) = true) by congruence. apply Qltb_lt in G. pose proof (Bm x Ix). lra.
  - intros H. f_equal. apply Qltb_lt. pose proof (H mn Im). lra.
Qed.

(** ** Construction *)
(** The list is made exactly when the aggressive fraction is not above the fraction and there are three delays. *)
Theorem C146_made : forall s,
  ((d_agg s <= d_frac s)%Q /\ List.length (d_delays s) = 3 -> dd_bfs s = Ok s) /\
  ((d_frac s < d_agg s)%Q \/ List.length (d_delays s) <> 3 -> dd_bfs s = Raise ValueError).
Proof.
  intros s. unfold dd_bfs. cbn [d_fractions List.length]. split.
  - intros [A B]. rewrite (proj2 (Qltb_false _ _) A). rewrite B. reflexivity.
  - intros H. destruct (Qltb (d_frac s) (d_agg s)) eqn:E; [reflexivity|]. apply Qltb_false in E. destruct H as [H|H]; [lra|].
    destruct (Nat.eqb_spec 3 (List.length (d_delays s))); [congruence|reflexivity].
Qed.
Print Assumptions C146_made.

(** ** What an open check promises *)
Theorem C146_only : forall s h c a, (forall l, In l (d_ha s) -> (0 <= fst l /\ snd l <= 24)%Q) -> count (carries (d_note s)) h a ->
  dd_check s (told s h) c = Ok true ->
  (forall d, (0 <= d <= days (d_needed s))%Q -> (tc_n18_set c <= tc_mjd c + d /\ tc_mjd c + d < tc_n18_rise c)%Q) /\
  (forall d x, (0 <= d <= days (d_needed s))%Q -> In x (tc_sched c) -> (tc_mjd c + d < x)%Q) /\
  (exists l k, In l (d_ha s) /\ (fst l <= tc_lmst c - d_ra s * (1 # 15) + inject_Z k * 24 /\ tc_lmst c - d_ra s * (1 # 15) + inject_Z k * 24 < snd l)%Q) /\
  (tc_moon_alt c <= 0)%Q /\ h <> [] /\ (share a h <= d_frac s)%Q.
Proof.
  intros s h c a Hl Ca H. rewrite told_parts in H. unfold dd_check in H. cbn [ds_frac ds_ahead ds_soft] in H.
  apply then_true in H as [H1 H]. apply then_true in H as [H2 H]. apply then_true in H as [H3 H]. apply then_true in H as [H4 H].
  apply then_true in H as [H5 H]. apply then_true in H as [H6 H]. apply then_true in H as [H7 H8].
  assert (Hh : h <> []) by (intros ->; destruct (counts s [] a Ca) as [E _]; unfold sd_check in H7; cbn in H7; discriminate).
  assert (Hp : (0 < inject_Z (Z.of_nat (List.length h)))%Q).
  { change 0%Q with (inject_Z 0). rewrite <- Zlt_Qlt. destruct h; [contradiction|cbn [List.length]; lia]. }
  split; [|split; [|split; [|split; [|split]]]].
  - intros d D. eapply C80_dark_block; [right; split; reflexivity|right; split; reflexivity|exact H1|exact H2|exact D].
  - intros d x D I. pose proof (proj1 (sched_iff _ _) H8 x I). lra.
  - apply (C80_hour_angle_partial _ _ _ Hl). congruence.
  - assert (G : moon_down c = true) by congruence. unfold moon_down in G. apply negb_true_iff, Qltb_false in G. exact G.
  - exact Hh.
  - assert (G : fo_check (d_frac s) (fold_left (fo_add (d_note s)) h fo0) = true) by congruence. apply (C78_fraction_open _ _ _ a Ca) in G.
    unfold share. apply Qle_shift_div_r; [exact Hp|]. exact G.
Qed.
Print Assumptions C146_only.

(** ** The wait between sequences *)
Lemma three_ordered : forall a b, (0 <= a)%Q -> (a <= b)%Q -> ordered [0%Q; a; b].
Proof.
  intros a b A B i j x y L Ex Ey. destruct i as [|[|[|i]]], j as [|[|[|j]]]; cbn in Ex, Ey; try lia; try discriminate;
    try (destruct i; discriminate); try (destruct j; discriminate); injection Ex as <-; injection Ey as <-; lra.
Qed.
(** A field with a share already waits the second delay after its last visit while it is not above the aggressive fraction, the third above. *)
Theorem C146_delay : forall s h c a d0 d1 d2 w, (0 <= d_agg s)%Q -> dd_bfs s = Ok s -> d_delays s = [d0; d1; d2] ->
  (d0 <= tc_mjd c /\ d1 <= tc_mjd c /\ d2 <= tc_mjd c)%Q ->
  StronglySorted (fun u v => (fv_mjd u <= fv_mjd v)%Q) h -> count (carries (d_note s)) h a ->
  dd_check s (told s h) c = Ok true -> In w h -> carries (d_note s) w ->
  ((0 < share a h <= d_agg s)%Q -> (fv_mjd w + d1 <= tc_mjd c)%Q) /\ ((d_agg s < share a h)%Q -> (fv_mjd w + d2 <= tc_mjd c)%Q).
Proof.
  intros s h c a d0 d1 d2 w Ag Mk Ed [L0 [L1 L2]] So Ca H Iw Cw.
  assert (F : (d_agg s <= d_frac s)%Q).
  { destruct (Qlt_le_dec (d_frac s) (d_agg s)) as [G|G]; [|exact G]. rewrite (proj2 (C146_made s) (or_introl G)) in Mk. discriminate. }
  rewrite told_parts in H. unfold dd_check in H. cbn [ds_frac ds_ahead ds_soft] in H.
  apply then_true in H as [_ H]. apply then_true in H as [_ H]. apply then_true in H as [_ H]. apply then_true in H as [_ H].
  apply then_true in H as [_ H]. apply then_true in H as [_ H]. apply then_true in H as [H _].
  destruct (C78_soft_partial (d_fractions s) (d_delays s) (d_note s) h (tc_mjd c) a) as (d & b & (i & Ni & Li & Lo & Hi) & E & B).
  - apply three_ordered; assumption.
  - discriminate.
  - rewrite Ed. reflexivity.
  - intros ->. destruct Iw.
  - exact So.
  - rewrite Ed. intros d [<-|[<-|[<-|[]]]]; assumption.
  - exact Ca.
  - assert (b = true) by congruence. subst b. pose proof (proj1 B eq_refl w Iw Cw) as W. clear B E. fold (share a h) in *. rewrite Ed in Ni. unfold d_fractions in *.
    destruct i as [|[|[|i]]]; cbn in Ni; try (destruct i; discriminate Ni).
    + destruct Hi as [Hi|(x & Ex & Hx)]; [discriminate|]. injection Ex as <-. split; intros; exfalso; lra.
    + injection Ni as <-. destruct Hi as [Hi|(x & Ex & Hx)]; [discriminate|]. injection Ex as <-. split; intros; [exact W|exfalso; lra].
    + injection Ni as <-. pose proof (Lo 1 (d_agg s) ltac:(lia) eq_refl). split; intros; [exfalso; lra|exact W].
Qed.
Print Assumptions C146_delay.

(** ** Past the meridian the gates ask for nothing else *)
Theorem C146_west : forall s h c a d0 d1 d2, (0 <= d_agg s)%Q -> dd_bfs s = Ok s -> d_delays s = [d0; d1; d2] -> (0 <= d_needed s)%Q ->
  (d0 <= tc_mjd c /\ d1 <= tc_mjd c /\ d2 <= tc_mjd c)%Q -> (forall l, In l (d_ha s) -> (0 <= fst l /\ snd l <= 24)%Q) ->
  StronglySorted (fun u v => (fv_mjd u <= fv_mjd v)%Q) h -> count (carries (d_note s)) h a -> h <> [] ->
  (tc_n18_set c <= tc_mjd c)%Q -> (tc_mjd c + days (d_needed s) < tc_n18_rise c)%Q ->
  (forall x, In x (tc_sched c) -> (tc_mjd c + days (d_needed s) < x)%Q) ->
  (exists l k, In l (d_ha s) /\ (fst l <= tc_lmst c - d_ra s * (1 # 15) + inject_Z k * 24 /\ tc_lmst c - d_ra s * (1 # 15) + inject_Z k * 24 < snd l)%Q) ->
  (exists k, 0 <= tc_lmst c - d_ra s * (1 # 15) + inject_Z k * 24 <= 12)%Q -> (tc_moon_alt c <= 0)%Q -> (share a h <= d_frac s)%Q ->
  (forall w, In w h -> carries (d_note s) w -> fv_mjd w + d0 <= tc_mjd c /\ fv_mjd w + d1 <= tc_mjd c /\ fv_mjd w + d2 <= tc_mjd c)%Q ->
  dd_check s (told s h) c = Ok true.
Proof.
  intros s h c a d0 d1 d2 Ag Mk Ed Nn [L0 [L1 L2]] Hl So Ca Hh T1 T2 T3 Ha We Mo Sh De.
  assert (F : (d_agg s <= d_frac s)%Q).
  { destruct (Qlt_le_dec (d_frac s) (d_agg s)) as [G|G]; [|exact G]. rewrite (proj2 (C146_made s) (or_introl G)) in Mk. discriminate. }
  assert (Dn : (0 <= days (d_needed s))%Q) by (unfold days; lra).
  assert (Hp : (0 < inject_Z (Z.of_nat (List.length h)))%Q).
  { change 0%Q with (inject_Z 0). rewrite <- Zlt_Qlt. destruct h; [contradiction|cbn [List.length]; lia]. }
  assert (R : rises 18 c (tc_n18_rise c)) by (right; split; reflexivity).
  rewrite told_parts. unfold dd_check. cbn [ds_frac ds_ahead ds_soft]. destruct (counts s h a Ca) as [-> ->].
  destruct (C80_not_twilight 18 c (tc_n18_set c) (tc_n18_rise c)) as (b1 & E1 & B1); [right; split; reflexivity|exact R|].
  assert (b1 = true) by (apply B1; lra). subst b1. rewrite E1. cbn [then_gate bind].
  destruct (C80_to_twilight (d_needed s) 18 c (tc_n18_rise c) R) as (b2 & E2 & B2).
  assert (b2 = true) by (apply B2; intros; lra). subst b2. rewrite E2. cbn [then_gate bind].
  rewrite (proj2 (C80_hour_angle_partial (d_ra s) (d_ha s) c Hl) Ha). cbn [then_gate bind].
  unfold moon_down. rewrite (proj2 (Qltb_false 0 (tc_moon_alt c)) Mo). cbn [then_gate bind negb].
  rewrite (proj2 (C78_fraction_open (d_frac s) (d_note s) h a Ca)).
  2:{ unfold share in Sh. apply (Qmult_le_r _ _ _ Hp) in Sh. assert (X : (inject_Z (Z.of_nat a) / inject_Z (Z.of_nat (List.length h)) * inject_Z (Z.of_nat (List.length h)) == inject_Z (Z.of_nat a))%Q) by (field; lra). lra. }
  cbn [then_gate bind]. rewrite (C80_ahead_west _ _ _ _ _ _ _ _ c (tc_n18_rise c)); [|exact F|destruct h; [contradiction|cbn [List.length]; lia]|exact R|exact We|exact Mo].
  cbn [then_gate bind].
  destruct (C78_soft_partial (d_fractions s) (d_delays s) (d_note s) h (tc_mjd c) a) as (d & b & (i & Ni & Li & Lo & Hi) & E & B);
    [apply three_ordered; assumption|discriminate|rewrite Ed; reflexivity|exact Hh|exact So|rewrite Ed; intros d [<-|[<-|[<-|[]]]]; assumption|exact Ca|].
  assert (b = true).
  { apply B. intros w Iw Cw. destruct (De w Iw Cw) as (W0 & W1 & W2). rewrite Ed in Ni.
    destruct i as [|[|[|i]]]; cbn in Ni; try (destruct i; discriminate Ni); injection Ni as <-; assumption. }
  subst b. rewrite E. cbn [then_gate bind]. apply sched_iff. exact T3.
Qed.
Print Assumptions C146_west.

(** ** Along a run *)
(** Whatever else is observed in between, a field whose sequences of at most k visits were each asked for under an open check
    never has more than its fraction of all visits and one sequence. *)
Theorem C146_share : forall s k l a, (0 <= d_frac s)%Q ->
  (forall pre t vs post, l = pre ++ Own t vs :: post -> exists c, tc_mjd c = t /\ dd_check s (told s (history pre)) c = Ok true) ->
  (forall t vs, In (Own t vs) l -> List.length vs <= k) -> (forall v, In (Other v) l -> ~ carries (d_note s) v) ->
  count (carries (d_note s)) (history l) a ->
  (inject_Z (Z.of_nat a) <= d_frac s * inject_Z (Z.of_nat (List.length (history l))) + inject_Z (Z.of_nat k))%Q.
Proof.
  intros s k l a F Ob Bk Ot Ca. apply (C78_fraction_partial (d_frac s) (d_note s) k l a F); try assumption.
  intros pre t vs post E. destruct (Ob pre t vs post E) as (c & _ & H). rewrite told_parts in H. unfold dd_check in H. cbn [ds_frac] in H.
  apply then_true in H as [_ H]. apply then_true in H as [_ H]. apply then_true in H as [_ H]. apply then_true in H as [_ H]. apply then_true in H as [H _]. congruence.
Qed.
Print Assumptions C146_share.
(** And, its share above the aggressive fraction, no two of its sequences are closer than the last delay. *)
Theorem C146_spaced : forall s l pre t vs post a d0 d1 d2 w v, (0 <= d_agg s)%Q -> dd_bfs s = Ok s -> d_delays s = [d0; d1; d2] ->
  (d0 <= t /\ d1 <= t /\ d2 <= t)%Q -> timely l ->
  (forall pre t vs post, l = pre ++ Own t vs :: post -> exists c, tc_mjd c = t /\ dd_check s (told s (history pre)) c = Ok true) ->
  l = pre ++ Own t vs :: post -> count (carries (d_note s)) (history pre) a -> (d_agg s < share a (history pre))%Q ->
  In w (history pre) -> carries (d_note s) w -> In v vs -> (fv_mjd w + d2 <= fv_mjd v)%Q.
Proof.
  intros s l pre t vs post a d0 d1 d2 w v Ag Mk Ed Ld [Ts Tb] Ob El Ca Sh Iw Cw Iv.
  destruct (Ob pre t vs post El) as (c & Ec & H). subst l.
  assert (So : StronglySorted (fun u v => (fv_mjd u <= fv_mjd v)%Q) (history pre)) by (rewrite history_app in Ts; apply sorted_app_l in Ts; exact Ts).
  rewrite <- Ec in Ld.
  destruct (C146_delay s (history pre) c a d0 d1 d2 w Ag Mk Ed Ld So Ca H Iw Cw) as [_ X]. specialize (X Sh).
  pose proof (Tb t vs v ltac:(apply in_or_app; right; left; reflexivity) Iv). rewrite Ec in X. lra.
Qed.
Print Assumptions C146_spaced.

(** ** The first visit of a survey *)
(** Before any visit is known, a field that is up on a dark moonless night raises instead of answering. *)
Theorem C146_first_refuted : forall s c, dd_bfs s = Ok s -> (forall l, In l (d_ha s) -> (0 <= fst l /\ snd l <= 24)%Q) -> (0 <= d_needed s)%Q ->
  (tc_n18_set c <= tc_mjd c)%Q -> (tc_mjd c + days (d_needed s) < tc_n18_rise c)%Q -> (tc_moon_alt c <= 0)%Q ->
  (exists l k, In l (d_ha s) /\ (fst l <= tc_lmst c - d_ra s * (1 # 15) + inject_Z k * 24 /\ tc_lmst c - d_ra s * (1 # 15) + inject_Z k * 24 < snd l)%Q) ->
  dd_check s (told s []) c = Raise ZeroDivisionError.
Proof.
  intros s c Mk Hl Nn T1 T2 Mo Ha.
  assert (F : (d_agg s <= d_frac s)%Q).
  { destruct (Qlt_le_dec (d_frac s) (d_agg s)) as [G|G]; [|exact G]. rewrite (proj2 (C146_made s) (or_introl G)) in Mk. discriminate. }
  assert (Dn : (0 <= days (d_needed s))%Q) by (unfold days; lra).
  assert (R : rises 18 c (tc_n18_rise c)) by (right; split; reflexivity).
  unfold dd_check.
  destruct (C80_not_twilight 18 c (tc_n18_set c) (tc_n18_rise c)) as (b1 & E1 & B1); [right; split; reflexivity|exact R|].
  assert (b1 = true) by (apply B1; lra). subst b1. rewrite E1. cbn [then_gate bind].
  destruct (C80_to_twilight (d_needed s) 18 c (tc_n18_rise c) R) as (b2 & E2 & B2).
  assert (b2 = true) by (apply B2; intros; lra). subst b2. rewrite E2. cbn [then_gate bind].
  rewrite (proj2 (C80_hour_angle_partial (d_ra s) (d_ha s) c Hl) Ha). cbn [then_gate bind].
  unfold moon_down. rewrite (proj2 (Qltb_false 0 (tc_moon_alt c)) Mo). cbn [then_gate bind negb].
  unfold told. cbn [fold_left ds0 ds_frac ds_ahead ds_soft]. change (fo_check (d_frac s) fo0) with true. cbn [then_gate bind].
  unfold look_ahead. rewrite (proj2 (Qltb_false _ _) F). reflexivity.
Qed.
Print Assumptions C146_first_refuted.

(** ** Examples *)
Definition ex_dd : dd := mkDd 15 (Some "DD:A") [(22, 24); (0, 2)]%Q (37 # 4000) (11 # 2000) [0; 1 # 2; 3 # 2]%Q 62.
Definition ex_v (n : Z) (t : Q) (note : string) : fvis := mkFv n 0 t "g" note "p" ENaN ENaN 0%Q [].
(** 199 other visits before one of the field's own: a share of 1/200. *)
Definition ex_h : list fvis := map (fun n => ex_v n 60000 "pair") (map Z.of_nat (seq 0 199)) ++ [ex_v 199 60001 "DD:A"].
Definition ex_now (t : Q) : tcond := mkTc t 2 (-30) (-20) 2 (t - 1) (t - (1#4)) (t + (1#4)) (t + 1) (t + 1) (t - 1) [] [t + (1#8)]%Q.
Example C146_ex_made : dd_bfs ex_dd = Ok ex_dd /\ dd_bfs (mkDd 15 None [] (1#100) (2#100) [0; 1; 2]%Q 62) = Raise ValueError /\
  dd_bfs (mkDd 15 None [] (2#100) (1#100) [0; 1]%Q 62) = Raise ValueError.
Proof. repeat split; vm_compute; reflexivity. Qed.
Example C146_ex_check : dd_check ex_dd (told ex_dd ex_h) (ex_now (60001 + (1#2))) = Ok true /\ dd_check ex_dd (told ex_dd ex_h) (ex_now (60001 + (1#4))) = Ok false.
Proof. split; vm_compute; reflexivity. Qed.
Example C146_ex_share : count (carries (d_note ex_dd)) ex_h 1 /\ (share 1 ex_h == 1 # 200)%Q.
Proof.
  split; [|vm_compute; reflexivity]. exists [ex_v 199 60001 "DD:A"]. split; [reflexivity|]. exists (note_has (Some "DD:A")). split; [vm_compute; reflexivity|]. intros v. apply note_has_iff.
Qed.
(** With 99 others the share is 1/100, above the fraction. *)
Example C146_ex_full : dd_check ex_dd (told ex_dd (skipn 100 ex_h)) (ex_now 60010) = Ok false.
Proof. vm_compute; reflexivity. Qed.
Example C146_ex_first : dd_check ex_dd (told ex_dd []) (ex_now 60010) = Raise ZeroDivisionError.
Proof. vm_compute; reflexivity. Qed.
