(** C84, C85: the wanted footprint grows in season, rolling moves visits between years without
    changing their sum, and the footprint reward keeps visits near their shares. *)
From Coq Require Import List ZArith QArith Qround Qabs Qfield Bool Lia Lqa Permutation.
From Verif Require Import Base VaryExpt Foot Foot_proofs Foot_proofs2 Foot_proofs3.
Import ListNotations.
Open Scope nat_scope.

(** ** C84: growth of one pixel *)
(** The coverage never falls, has no jumps, and rises by [rise] every period. *)
Theorem C84_line : forall per rise t0 ph t t', (0 < per)%Q -> (0 <= rise)%Q -> (t0 <= t + ph)%Q -> (t <= t')%Q ->
  (0 <= line_at per rise t0 t' ph - line_at per rise t0 t ph <= 2 * rise * (t' - t) / per)%Q /\
  (line_at per rise t0 (t + per) ph == line_at per rise t0 t ph + rise)%Q.
Proof.
  intros per rise t0 ph t t' P R X T. split.
  - rewrite !line_stair by lra. pose proof (stair_mono per (line_plat rise) (line_step rise) P (line_climb rise) ltac:(intros; exact R) (t + ph - t0) (t' + ph - t0) ltac:(lra) ltac:(lra)) as H0.
    pose proof (stair_slope per (line_plat rise) (line_step rise) P (line_climb rise) rise ltac:(intros; unfold line_step; split; [exact R|apply Qle_refl]) (t + ph - t0) (t' + ph - t0) ltac:(lra) ltac:(lra)) as H.
    setoid_replace (t' + ph - t0 - (t + ph - t0))%Q with (t' - t)%Q in H by ring. split; lra.
  - rewrite !line_stair by lra. destruct (qrem_spec (t + ph - t0) per P) as [A B].
    destruct (qrem_unique (t + per + ph - t0) per (Qfloor ((t + ph - t0) / per) + 1) (qrem (t + ph - t0) per) P A) as [C D].
    { rewrite inject_Z_plus. change (inject_Z 1) with 1%Q. lra. }
    unfold stair, line_plat, line_step. rewrite C. assert (E : (ramp per (qrem (t + per + ph - t0) per) == ramp per (qrem (t + ph - t0) per))%Q).
    { apply Qle_antisym; apply ramp_mono; try exact P; rewrite D; apply Qle_refl. }
    rewrite E, inject_Z_plus. change (inject_Z 1) with 1%Q. ring.
Qed.
Print Assumptions C84_line.
Lemma line_val : forall per rise t0 t ph n r, (0 < per)%Q -> (0 <= t + ph - t0)%Q -> (t + ph - t0 == per * inject_Z n + r)%Q -> (0 <= r <= per)%Q ->
  ((r <= per / 2)%Q -> (line_at per rise t0 t ph == inject_Z n * rise)%Q) /\ ((per / 2 <= r)%Q -> (line_at per rise t0 t ph == inject_Z n * rise + rise * (2 * r / per - 1))%Q).
Proof.
  intros per rise t0 t ph n r P X E [R1 R2]. rewrite line_stair by assumption. unfold stair, line_plat, line_step. assert (Hh : (per / 2 < per)%Q) by (unfold Qdiv; change (/ 2)%Q with (1 # 2)%Q; lra). assert (Hh0 : (0 < per / 2)%Q) by (unfold Qdiv; change (/ 2)%Q with (1 # 2)%Q; lra).
  destruct (Qlt_le_dec r per) as [L|L].
  - destruct (qrem_unique (t + ph - t0) per n r P (conj R1 L) E) as [A B]. rewrite A. set (q := qrem _ _) in *. clearbody q. unfold ramp. split; intro H.
    + rewrite (proj2 (Qltb_false _ _)) by lra. ring.
    + destruct (Qltb (per / 2) q) eqn:Q1.
      * rewrite B. field. lra.
      * apply Qltb_false in Q1. assert (r == per / 2)%Q by lra. rewrite H0. field. lra.
  - assert (Er : (r == per)%Q) by lra. destruct (qrem_unique (t + ph - t0) per (n + 1) 0 P ltac:(lra)) as [A B]; [rewrite inject_Z_plus; change (inject_Z 1) with 1%Q; lra|].
    rewrite A. set (q := qrem _ _) in *. clearbody q. unfold ramp. rewrite (proj2 (Qltb_false _ _)) by lra. rewrite inject_Z_plus. change (inject_Z 1) with 1%Q. split; intro H; [lra|]. rewrite Er. field. lra.
Qed.
(** With the sun moving once round in right ascension every period: the coverage stands still while
    the sun is within a quarter turn of the pixel and grows all the rest of the time. *)
Theorem C84_season : forall per rise sun ra t t' (k : Z), (0 < per)%Q -> (0 < rise)%Q -> (0 <= t)%Q -> (t < t')%Q ->
  let away s := (sun + s / per - ra)%Q in let ph := pix_phase per sun ra in
  ((inject_Z k - (1 # 4) <= away t)%Q -> (away t' <= inject_Z k + (1 # 4))%Q -> (line_at per rise 0 t' ph == line_at per rise 0 t ph)%Q) /\
  ((inject_Z k + (1 # 4) <= away t)%Q -> (away t' <= inject_Z k + (3 # 4))%Q -> (line_at per rise 0 t ph < line_at per rise 0 t' ph)%Q).
Proof.
  intros per rise sun ra t t' k P R T T' away ph.
  set (y := (0 - ra + sun + (1 # 4))%Q). set (m := Qfloor (y / 1)). destruct (qrem_spec y 1 ltac:(lra)) as [Y1 Y2]. fold m in Y2.
  assert (Ph : (ph == (y - inject_Z m) * per)%Q) by (unfold ph, pix_phase; fold y; apply Qmult_comp; [lra|reflexivity]).
  assert (Ph0 : (0 <= ph)%Q) by (unfold ph, pix_phase; fold y; apply Qmult_le_0_compat; lra).
  assert (Form : forall s, (s + ph - 0 == per * inject_Z (k - m) + (away s + (1 # 4) - inject_Z k) * per)%Q).
  { intro s. unfold Z.sub. rewrite inject_Z_plus, inject_Z_opp, Ph. unfold away, y. field. lra. }
  assert (M : (away t < away t')%Q).
  { unfold away. assert (t / per < t' / per)%Q by (apply Qlt_shift_div_l; [exact P|]; setoid_replace (t / per * per)%Q with t by (field; lra); exact T'). lra. }
  assert (Half : (per / 2 == (1 # 2) * per)%Q) by (field). assert (V : forall s, (0 <= s)%Q -> (0 <= s + ph - 0)%Q) by (intros; lra).
  split; intros A B.
  - destruct (line_val per rise 0 t ph (k - m) _ P (V t T) (Form t) ltac:(split; nra)) as [E _]. destruct (line_val per rise 0 t' ph (k - m) _ P (V t' ltac:(lra)) (Form t') ltac:(split; nra)) as [E' _].
    rewrite E, E' by nra. reflexivity.
  - destruct (line_val per rise 0 t ph (k - m) _ P (V t T) (Form t) ltac:(split; nra)) as [_ E]. destruct (line_val per rise 0 t' ph (k - m) _ P (V t' ltac:(lra)) (Form t') ltac:(split; nra)) as [_ E'].
    rewrite E, E' by nra. setoid_replace (2 * ((away t + (1 # 4) - inject_Z k) * per) / per)%Q with (2 * (away t + (1 # 4) - inject_Z k))%Q by (field; lra).
    setoid_replace (2 * ((away t' + (1 # 4) - inject_Z k) * per) / per)%Q with (2 * (away t' + (1 # 4) - inject_Z k))%Q by (field; lra). nra.
Qed.
Print Assumptions C84_season.
(** a pixel a tenth of a turn behind the sun: it sets within three months and is back after another six *)
Example C84_season_ex :
  map (fun t => Qred (line_at 100 1 0 t (pix_phase 100 (6 # 10) (5 # 10)) - line_at 100 1 0 0 (pix_phase 100 (6 # 10) (5 # 10)))) [0; 10; 15; 40; 65; 90; 115; 116]%Q = [0; 0; 0; (1 # 2); 1; 1; 1; (51 # 50)]%Q.
Proof. vm_compute. reflexivity. Qed.

(** With a list of steps: defined up to the last but one season of the list, never falling, without
    jumps, rising by the step of the season; the first step has no part in it. *)
Theorem C84_slopes : forall per steps c t0 ph t t', (0 < per)%Q -> (forall s, In s steps -> (0 <= s <= c)%Q) -> (0 <= c)%Q -> (t0 <= t + ph)%Q -> (t <= t')%Q ->
  (slopes_at per steps t0 t' ph = Raise IndexError <-> (per * (inject_Z (Z.of_nat (List.length steps)) - 1) <= t' + ph - t0)%Q) /\
  forall v', slopes_at per steps t0 t' ph = Ok v' -> exists v, slopes_at per steps t0 t ph = Ok v /\ (0 <= v' - v <= 2 * c * (t' - t) / per)%Q.
Proof.
  intros per steps c t0 ph t t' P S C X T.
  assert (Sk : forall k, (0 < k)%Z -> (0 <= step_of steps k <= c)%Q).
  { intros k _. unfold step_of. destruct (nth_in_or_default (Z.to_nat k) steps 0%Q) as [I| ->]; [apply S; exact I|lra]. }
  assert (Hfl : forall x, (0 <= x)%Q -> ((Z.of_nat (List.length steps) <= Qfloor (x / per) + 1)%Z <-> (per * (inject_Z (Z.of_nat (List.length steps)) - 1) <= x)%Q)).
  { intros x Hx. set (L := Z.of_nat (List.length steps)). split; intro H.
    - assert (H' : (inject_Z (L - 1) <= x / per)%Q) by (apply Qle_trans with (inject_Z (Qfloor (x / per))); [rewrite <- Zle_Qle; lia|apply Qfloor_le]).
      unfold Z.sub in H'. rewrite inject_Z_plus in H'. change (inject_Z (- (1))) with (-1)%Q in H'. apply (Qmult_le_l _ _ per P) in H'. setoid_replace (per * (x / per))%Q with x in H' by (field; lra). lra.
    - enough (H' : (L - 1 <= Qfloor (x / per))%Z) by lia. assert (H' : (inject_Z (L - 1) <= x / per)%Q).
      { apply Qle_shift_div_l; [exact P|]. unfold Z.sub. rewrite inject_Z_plus. change (inject_Z (- (1))) with (-1)%Q. lra. }
      rewrite <- (Qfloor_Z (L - 1)). apply Qfloor_resp_le. exact H'. }
  assert (Hok : forall s, (t0 <= s + ph)%Q -> (Qfloor ((s + ph - t0) / per) + 1 < Z.of_nat (List.length steps))%Z -> exists v, slopes_at per steps t0 s ph = Ok v /\ (v == stair per (plat steps) (step_of steps) (s + ph - t0))%Q).
  { intros s Hs Hl. apply slopes_stair; [exact P|lra|exact Hl]. }
  split.
  - rewrite <- Hfl by lra. split; intro H; [|apply slopes_past; [exact P|lra|exact H]].
    destruct (Z_lt_le_dec (Qfloor ((t' + ph - t0) / per) + 1) (Z.of_nat (List.length steps))) as [G|G]; [|exact G]. destruct (Hok t' ltac:(lra) G) as (v & V & _). congruence.
  - intros v' V'. destruct (Z_lt_le_dec (Qfloor ((t' + ph - t0) / per) + 1) (Z.of_nat (List.length steps))) as [G|G]; [|rewrite slopes_past in V' by (try exact P; try lra; exact G); discriminate].
    assert (G' : (Qfloor ((t + ph - t0) / per) + 1 < Z.of_nat (List.length steps))%Z).
    { assert (Qfloor ((t + ph - t0) / per) <= Qfloor ((t' + ph - t0) / per))%Z; [|lia]. apply floor_mono. apply Qle_shift_div_l; [exact P|]. setoid_replace ((t + ph - t0) / per * per)%Q with (t + ph - t0)%Q by (field; lra). lra. }
    destruct (Hok t ltac:(lra) G') as (v & V1 & V2). destruct (Hok t' ltac:(lra) G) as (w & W1 & W2). rewrite W1 in V'. injection V' as ->. exists v. split; [exact V1|]. rewrite V2, W2.
    pose proof (stair_mono per (plat steps) (step_of steps) P (plat_climb steps) ltac:(intros; apply Sk; assumption) (t + ph - t0) (t' + ph - t0) ltac:(lra) ltac:(lra)) as H0.
    pose proof (stair_slope per (plat steps) (step_of steps) P (plat_climb steps) c Sk (t + ph - t0) (t' + ph - t0) ltac:(lra) ltac:(lra)) as H1.
    setoid_replace (t' + ph - t0 - (t + ph - t0))%Q with (t' - t)%Q in H1 by ring. split; lra.
Qed.
Print Assumptions C84_slopes.
Theorem C84_slopes_step : forall per first steps t0 ph t (n : nat) r, (0 < per)%Q -> (0 <= r <= per / 2)%Q -> (t + ph - t0 == per * inject_Z (Z.of_nat n) + r)%Q -> n < List.length steps ->
  exists v, slopes_at per (first :: steps) t0 t ph = Ok v /\ (v == qsum (firstn n steps))%Q.
Proof.
  intros per first steps t0 ph t n r P R E N. assert (Hh : (per / 2 < per)%Q) by (unfold Qdiv; change (/ 2)%Q with (1 # 2)%Q; lra).
  assert (X : (0 <= t + ph - t0)%Q). { rewrite E. assert (0 <= inject_Z (Z.of_nat n))%Q by (change 0%Q with (inject_Z 0); rewrite <- Zle_Qle; lia). nra. }
  destruct (qrem_unique (t + ph - t0) per (Z.of_nat n) r P ltac:(lra) E) as [A B].
  destruct (slopes_stair per (first :: steps) t0 t ph P X) as (v & V1 & V2); [rewrite A; cbn [List.length]; lia|]. exists v. split; [exact V1|]. rewrite V2. unfold stair. rewrite A.
  unfold ramp. rewrite (proj2 (Qltb_false _ _)) by lra. unfold plat. rewrite Nat2Z.id. replace (n + 1) with (S n) by lia. cbn [firstn hd]. change (qsum (first :: firstn n steps)) with (first + qsum (firstn n steps))%Q. ring.
Qed.
Print Assumptions C84_slopes_step.
Example C84_slopes_ex : map (fun t => bind (slopes_at 100 [5; 1; (19 # 10); (1 # 10)]%Q 0 t 0) (fun q => Ok (Qred q))) [0; 50; 75; 120; 220; 299; 300]%Q =
  [Ok 0; Ok 0; Ok (1 # 2); Ok 1; Ok (29 # 10); Ok (1499 # 500); Raise IndexError]%Q.
Proof. vm_compute. reflexivity. Qed.

(** ** C84: the steps of the slices *)
(** Every slice has, over the constant seasons at the start and any number of whole cycles, the same
    sum as a survey which does not roll. *)
Theorem C84_cycles : forall nslice scale order n_start n_end n_cycles uniform s c, 2 <= nslice -> c <= n_cycles ->
  In s (all_slopes nslice scale order n_start n_end n_cycles uniform) ->
  let cycle := nslice + if uniform then 1 else 0 in
  List.length s = n_start + n_cycles * cycle + n_end /\ (qsum (firstn (n_start + c * cycle)%nat s) == inject_Z (Z.of_nat (n_start + c * cycle)))%Q.
Proof.
  intros nslice scale order n_start n_end n_cycles uniform s c N C I cycle.
  destruct (slopes_form nslice scale order n_start n_end n_cycles uniform N s I) as (cy & -> & L & M). unfold cycle_len in L. fold cycle in L. rewrite <- L. split; [apply one_len|]. apply sum_cycles; assumption.
Qed.
Print Assumptions C84_cycles.
(** Every season the slices of either half of the sky have mean one. *)
Theorem C84_share : forall nslice scale order n_start n_end n_cycles (uniform : bool) k, 2 <= nslice -> k < n_start + n_cycles * (nslice + if uniform then 1 else 0) + n_end ->
  let steps i := nth k (nth i (all_slopes nslice scale order n_start n_end n_cycles uniform) []) 0%Q in
  (qsum (map steps (seq 0 nslice)) == inject_Z (Z.of_nat nslice))%Q /\ (qsum (map (fun i => steps (nslice + i)%nat) (seq 0 nslice)) == inject_Z (Z.of_nat nslice))%Q.
Proof. intros nslice scale order n_start n_end n_cycles uniform k N K. exact (season_share nslice scale order n_start n_end n_cycles uniform k N K). Qed.
Print Assumptions C84_share.
Example C84_share_ex : map (map Qred) (all_slopes 2 (9 # 10) 0 2 1 1 true) =
  [[1; 1; (19 # 10); (1 # 10); 1; 1]; [1; 1; (1 # 10); (19 # 10); 1; 1]; [1; 1; 1; (1 # 10); (19 # 10); 1]; [1; 1; 1; (19 # 10); (1 # 10); 1]]%Q.
Proof. vm_compute. reflexivity. Qed.
(** Every pixel of the wide area is in exactly one slice, and slices differ in size by four at most. *)
Theorem C84_slices : forall nslice north wfd, 1 <= nslice -> NoDup wfd ->
  (forall p, In p wfd -> exists j, (j < nslice /\ In p (slice_indx nslice north wfd j)) /\ forall j', j' < nslice -> In p (slice_indx nslice north wfd j') -> j' = j) /\
  (forall i j, i < nslice -> j < nslice -> List.length (slice_indx nslice north wfd i) <= List.length (slice_indx nslice north wfd j) + 4).
Proof.
  intros nslice north wfd N D. split; [intros p I; exact (slice_one nslice north wfd p N D I)|]. intros i j I J. unfold slice_indx. cbn [flat_map]. rewrite !app_nil_r, !app_length.
  pose proof (fun l => piece_size nslice l (i + 1) N ltac:(lia)) as A. pose proof (fun l => piece_size nslice l (i + 1 + nslice) N ltac:(lia)) as B.
  pose proof (fun l => piece_size nslice l (j + 1) N ltac:(lia)) as C. pose proof (fun l => piece_size nslice l (j + 1 + nslice) N ltac:(lia)) as E.
  set (n := filter north wfd) in *. set (s := filter (fun p => negb (north p)) wfd) in *.
  specialize (A n) as A1. specialize (A s) as A2. specialize (B n) as B1. specialize (B s) as B2. specialize (C n) as C1. specialize (C s) as C2. specialize (E n) as E1. specialize (E s) as E2. lia.
Qed.
Print Assumptions C84_slices.
Example C84_slices_ex : map (slice_indx 2 (fun p => p <? 7) (seq 0 12)) [0; 1] = [[0; 7; 3; 4; 9]; [1; 2; 8; 5; 6; 10; 11]].
Proof. vm_compute. reflexivity. Qed.

(** ** C84: the rolling footprint against one that does not roll *)
Lemma plain_fp : forall maps start sun ras, (forall m, In m maps -> List.length m = List.length ras) ->
  exists P, new_fp (List.length maps) start sun year ras (Line year 1 0) = Ok P /\ f_mjd (set_all maps P) = None /\
    forall mjd, exists h, wanted (set_all maps P) false mjd = Ok h /\ (forall norm, wanted (set_all maps P) norm mjd = Ok (normed norm h)) /\ shape (List.length maps) (List.length ras) h /\
      forall b p, b < List.length maps -> p < List.length ras -> (cell h b p == cell maps b p * (line_at year 1 0 (mjd - start) (phase_of sun ras p) - line_at year 1 0 0 (phase_of sun ras p)))%Q.
Proof.
  intros maps start sun ras F. unfold new_fp. cbn [cover bind]. eexists. split; [reflexivity|]. split; [reflexivity|]. intro mjd. unfold wanted, set_all. cbn [f_step f_maps f_start f_phase f_zero cover bind normed].
  eexists. split; [reflexivity|]. split; [reflexivity|]. set (nb := List.length maps). set (np := List.length ras). assert (Sm : shape nb np maps) by (split; [reflexivity|exact F]).
  assert (Sr : forall t, shape nb np (repeat (map (line_at year 1 0 t) (map (pix_phase year sun) ras)) nb)) by (intro t; apply shape_repeat; rewrite !map_length; reflexivity).
  split; [apply shape_op; [exact Sm|apply shape_op; apply Sr]|]. intros b p B P. unfold gmul, gsub. rewrite (cell_op Qmult nb np) by (try apply shape_op; auto). rewrite (cell_op Qminus nb np) by auto. rewrite !cell_repeat by exact B.
  unfold phase_of. rewrite !map_map. rewrite !(nth_indep (map _ ras) 0%Q (line_at year 1 0 (mjd - start) (pix_phase year sun 0))) by (rewrite map_length; exact P). rewrite (map_nth (fun x => line_at year 1 0 (mjd - start) (pix_phase year sun x))).
  rewrite (nth_indep (map _ ras) _ (line_at year 1 0 0 (pix_phase year sun 0))) by (rewrite map_length; exact P). rewrite (map_nth (fun x => line_at year 1 0 0 (pix_phase year sun x))). reflexivity.
Qed.
Lemma normed_ext : forall nb np g h, shape nb np g -> shape nb np h -> (forall b p, b < nb -> p < np -> (cell g b p == cell h b p)%Q) -> forall b p, b < nb -> p < np -> (cell (normed true g) b p == cell (normed true h) b p)%Q.
Proof.
  intros nb np g h G H E b p B P. assert (S : (gsum g == gsum h)%Q) by (apply (gsum_ext nb np); assumption). unfold normed.
  replace (Qeq_bool (gsum h) 0) with (Qeq_bool (gsum g) 0). { destruct (Qeq_bool (gsum g) 0); [apply E; assumption|]. unfold gdiv. rewrite !(cell_map _ nb np) by assumption. rewrite S, (E b p B P). reflexivity. }
  apply Bool.eq_iff_eq_true. rewrite !Qeq_bool_iff. rewrite S. reflexivity.
Qed.
(** Asked for any dates in any order, the maps of the rolling footprint add up to the goal maps; and
    where a pixel is not in a rolling season the wanted visits are those without rolling.  The
    pixels must not lie on the edges where the sky is halved, and the last two seasons of the
    list of steps are left out. *)
Theorem C84_rolling_partial : forall nslice scale order n_start n_end n_cycles (uniform : bool) maps start sun ras north wfd,
  2 <= nslice -> 2 <= n_start -> 1 <= n_end -> (forall m, In m maps -> List.length m = List.length ras) -> NoDup wfd -> (forall r, In r ras -> (0 <= r < 1)%Q) ->
  let seasons := n_start + n_cycles * (nslice + if uniform then 1 else 0) + n_end in
  let rolls mjd p := let season := (Qfloor ((mjd - start + pix_phase year sun (nth p ras 0%Q)) / year)%Q + 1)%Z in (Z.of_nat n_start <= season < Z.of_nat (seasons - n_end))%Z in
  let edge p := uniform = true /\ ((nth p ras 0 == qrem (sun + (1 # 4)) 1)%Q \/ (nth p ras 0 == qrem (sun + (3 # 4)) 1)%Q) in
  exists F P, make_rolling maps start sun ras north wfd nslice scale order n_start n_end n_cycles uniform = Ok F /\ new_fp (List.length maps) start sun year ras (Line year 1 0) = Ok P /\
  (forall b p, b < List.length maps -> p < List.length ras -> ~ edge p -> (cell (p_maps F) b p == cell maps b p)%Q) /\
  forall ms, alike ms -> (forall m, In m ms -> (0 <= m - start < inject_Z (Z.of_nat seasons - 2) * year)%Q) ->
  forall i m, nth_error ms i = Some m -> forall norm, exists g h,
    nth_error (asks_sum norm F ms) i = Some (Ok g) /\ nth_error (asks norm (set_all maps P) ms) i = Some (Ok h) /\
    ((forall p, p < List.length ras -> norm = true -> ~ edge p /\ ~ rolls m p) ->
     forall b p, b < List.length maps -> p < List.length ras -> ~ edge p -> ~ rolls m p -> (cell g b p == cell h b p)%Q).
Proof.
  intros nslice scale order n_start n_end n_cycles uniform maps start sun ras north wfd N S E Fit D Ra seasons rolls edge.
  destruct (rolling_spec nslice scale order n_start n_end n_cycles uniform N S E maps start sun ras north wfd Fit D Ra) as (F & HF & F0 & F1 & F2 & F3 & F4).
  destruct (plain_fp maps start sun ras Fit) as (P & HP & P0 & P1). exists F, P. split; [exact HF|]. split; [exact HP|].
  assert (Oe : forall p, ~ edge p -> off_edge uniform sun ras p) by (intros p O U; unfold edge in O; tauto).
  assert (Os : forall m p, ~ rolls m p -> still nslice n_start n_cycles uniform (m - start) (phase_of sun ras p)).
  { intros m p R. unfold still, phase_of. unfold rolls in R. cbv zeta in R. assert (Q0 : Qfloor ((m - start + pix_phase year sun (nth p ras 0%Q) - 0) / year)%Q = Qfloor ((m - start + pix_phase year sun (nth p ras 0%Q)) / year)%Q).
    { apply Qfloor_comp. apply Qdiv_comp; [ring|reflexivity]. } rewrite Q0. unfold seasons, cycle_len in *. lia. }
  split; [intros b p B Pp O; apply F3; auto|]. intros ms A R i m I norm. set (nb := List.length maps) in *. set (np := List.length ras) in *.
  assert (Im : In m ms) by (eapply nth_error_In; exact I).
  assert (Ws : forall m', In m' ms -> exists gs, wanted_parts (p_parts F) m' = Ok gs) by (intros m' M'; destruct (F4 m' (R m' M')) as (gs & G & _); exists gs; exact G).
  destruct (F4 m (R m Im)) as (gs & G1 & G2 & G3). destruct (P1 m) as (h & H1 & H2 & H3 & H4).
  set (sum := fold_left gadd gs (map (map (fun _ => 0%Q)) (p_maps F))).
  assert (Sz : shape nb np (map (map (fun _ => 0%Q)) (p_maps F))) by (apply shape_map; exact F2).
  assert (Ss : shape nb np sum).
  { unfold sum. clear - G2 Sz. revert G2 Sz. generalize (map (map (fun _ : Q => 0%Q)) (p_maps F)). induction gs as [|g gs IH]; intros z G Z; [exact Z|]. inversion G; subst. cbn. apply IH; [assumption|]. apply shape_op; assumption. }
  assert (Cs : forall b p, b < nb -> p < np -> ~ edge p -> ~ rolls m p -> (cell sum b p == cell h b p)%Q).
  { intros b p B Pp O Rr. unfold sum. destruct (fold_gadd nb np gs _ b p G2 Sz B Pp) as [_ Q1]. rewrite Q1. rewrite (cell_map _ nb np) by assumption. rewrite (G3 b p B Pp (Oe p O) (Os m p Rr)), (H4 b p B Pp). ring. }
  exists (normed norm sum), (normed norm h). split; [|split].
  - rewrite (asks_sum_wanted norm ms ms F F A (incl_refl ms)).
    + rewrite (map_nth_error _ _ _ I). unfold wanted_sum. rewrite G1. reflexivity.
    + split; [|rewrite F0; exact Logic.I]. apply Forall_forall. intros f Hf. rewrite Forall_forall in F1. unfold steady. rewrite (F1 f Hf). exact Logic.I.
    + clear. generalize (p_parts F). intro l. induction l; constructor; auto. repeat split.
    + reflexivity.
    + intros m' M'. destruct (Ws m' M') as [gs' G']. unfold wanted_sum. rewrite G'. eexists. reflexivity.
  - rewrite (asks_wanted norm ms ms (set_all maps P) (set_all maps P) A (incl_refl ms)).
    + rewrite (map_nth_error _ _ _ I), H2. reflexivity.
    + unfold steady. rewrite P0. exact Logic.I.
    + repeat split.
    + intros m' M'. destruct (P1 m') as (h' & _ & H' & _). exists (normed norm h'). apply H'.
  - intros All b p B Pp O Rr. destruct norm; [|apply Cs; assumption]. apply (normed_ext nb np); try assumption. intros b' p' B' P'. destruct (All p' P' eq_refl). apply Cs; assumption.
Qed.
Print Assumptions C84_rolling_partial.
(** At the end of every cycle, while the pixel is out of season, the wanted visits are again those
    without rolling. *)
Theorem C84_cycle_end : forall nslice scale order n_start n_end n_cycles uniform s c t ph, 2 <= nslice -> 1 <= n_start -> 1 <= n_end -> c <= n_cycles ->
  In s (all_slopes nslice scale order n_start n_end n_cycles uniform) -> (0 <= t + ph)%Q ->
  let season := (n_start + c * (nslice + if uniform then 1 else 0) - 1)%nat in
  (inject_Z (Z.of_nat season) * year <= t + ph <= (inject_Z (Z.of_nat season) + (1 # 2)) * year)%Q ->
  exists v, slopes_at year s 0 t ph = Ok v /\ (v == line_at year 1 0 t ph)%Q.
Proof.
  intros nslice scale order n_start n_end n_cycles uniform s c t ph N S E C I X season R.
  destruct (slopes_form nslice scale order n_start n_end n_cycles uniform N s I) as (cy & -> & L & M). unfold cycle_len in L. assert (Y : (0 < year)%Q) by reflexivity.
  assert (Hy : (year / 2 == (1 # 2) * year)%Q) by (field).
  destruct (qrem_unique (t + ph - 0) year (Z.of_nat season) (t + ph - inject_Z (Z.of_nat season) * year)%Q Y) as [A B]; [set (y := year) in *; clearbody y; lra|ring|].
  apply (slopes_line_cycle n_start n_end n_cycles cy M year 0 t ph c Y); [exact S|lra|exact C|exact E| |].
  - rewrite A, L. unfold season. lia.
  - set (q := qrem _ _) in *. set (y := year) in *. clearbody q y. lra.
Qed.
Print Assumptions C84_cycle_end.
(** four pixels in two bands, three of them rolling: the footprint differs from the plain one in the
    middle and agrees before and after; seven seasons of steps last for less than six years *)
Definition ex_ras : list Q := [(1 # 10); (4 # 10); (55 # 100); (9 # 10)]%Q.
Definition ex_maps : grid := [[1; 1; 2; 1]; [3; 0; 1; 1]]%Q.
Definition ex_roll (u : bool) (ras : list Q) : res fps := make_rolling ex_maps 0 0 ras (fun _ => true) [0; 1; 2] 2 (9 # 10) 0 2 2 1 u.
Definition tidy (r : res grid) : res grid := bind r (fun g => Ok (map (map Qred) g)).
Definition ex_ask (r : res fps) (m : Q) : res grid := bind r (fun F => tidy (snd (ask_fps m false F))).
Definition ex_plain (ras : list Q) (m : Q) : res grid := bind (new_fp 2 0 0 year ras (Line year 1 0)) (fun P => tidy (snd (ask_fp m false (set_all ex_maps P)))).
Example C84_rolling_ex :
  map (ex_ask (ex_roll true ex_ras)) [(year * (3 # 4))%Q; (year * 2)%Q; (year * 5)%Q] =
    [Ok [[4 # 5; 1 # 2; 6 # 5; 1]; [12 # 5; 0; 3 # 5; 1]]; Ok [[11 # 10; 137 # 100; 118 # 25; 2]; [33 # 10; 0; 59 # 25; 2]]; Ok [[5; 5; 10; 5]; [15; 0; 5; 5]]]%Q /\
  map (ex_plain ex_ras) [(year * (3 # 4))%Q; (year * 2)%Q; (year * 5)%Q] =
    [Ok [[4 # 5; 1 # 2; 6 # 5; 1]; [12 # 5; 0; 3 # 5; 1]]; Ok [[2; 2; 4; 2]; [6; 0; 2; 2]]; Ok [[5; 5; 10; 5]; [15; 0; 5; 5]]]%Q.
Proof. split; vm_compute; reflexivity. Qed.
(** A list of steps for seven seasons does not last seven years, nor six. *)
Theorem C84_years_refuted : ex_ask (ex_roll true ex_ras) (year * 6) = Raise IndexError /\ List.length (nth 0 (all_slopes 2 (9 # 10) 0 2 2 1 true) []) = 7.
Proof. split; vm_compute; reflexivity. Qed.
Print Assumptions C84_years_refuted.
(** A rolling pixel on an edge of the halves is counted twice, in the goal map and in the visits. *)
Theorem C84_edge_refuted : exists F, ex_roll true ((1 # 4) :: tl ex_ras) = Ok F /\ (cell (p_maps F) 0 0 == 2)%Q /\ (cell ex_maps 0 0 == 1)%Q /\
  ex_ask (Ok F) (year * 5) = Ok [[10; 5; 10; 5]; [30; 0; 5; 5]]%Q /\ ex_plain ((1 # 4) :: tl ex_ras)%Q (year * 5) = Ok [[5; 5; 10; 5]; [15; 0; 5; 5]]%Q.
Proof. eexists. split; [vm_compute; reflexivity|]. repeat split; vm_compute; reflexivity. Qed.
Print Assumptions C84_edge_refuted.

(** ** C84: bands loaded on given nights *)
(** A band listed with its nights goes from nothing to all of its share as they pass. *)
Lemma filter_le_len : forall {A} (f : A -> bool) l, List.length (filter f l) <= List.length l.
Proof. induction l as [|x l IH]; [reflexivity|]. cbn. destruct (f x); cbn; lia. Qed.
Theorem C84_loaded : forall len ns t t', ns <> [] -> (t <= t')%Q ->
  (0 <= loaded_at len (Some ns) t <= loaded_at len (Some ns) t')%Q /\ (loaded_at len (Some ns) t' <= 1)%Q /\ ((forall n, In n ns -> (n <= t')%Q) -> (loaded_at len (Some ns) t' == 1)%Q).
Proof.
  intros len ns t t' N T. unfold loaded_at. set (c := fun t => filter (fun n => Qle_bool n t) ns). fold (c t). fold (c t').
  assert (L : 0 < List.length ns) by (destruct ns; [congruence|cbn; lia]). assert (Lq : (0 < inject_Z (Z.of_nat (List.length ns)))%Q) by (change 0%Q with (inject_Z 0); rewrite <- Zlt_Qlt; lia).
  assert (I : (0 < 1 / inject_Z (Z.of_nat (List.length ns)))%Q) by (apply Qlt_shift_div_l; lra).
  assert (M : List.length (c t) <= List.length (c t')).
  { unfold c. clear - T. induction ns as [|n ns IH]; [reflexivity|]. cbn [filter]. destruct (Qle_bool n t) eqn:E1, (Qle_bool n t') eqn:E2; cbn [List.length]; try lia. apply Qle_bool_iff in E1. apply Qle_bool_false in E2. lra. }
  assert (B : List.length (c t') <= List.length ns) by apply filter_le_len.
  assert (Z : forall a b, a <= b -> (inject_Z (Z.of_nat a) <= inject_Z (Z.of_nat b))%Q) by (intros; rewrite <- Zle_Qle; lia).
  pose proof (Z 0 (List.length (c t)) ltac:(lia)) as Z0. change (inject_Z (Z.of_nat 0)) with 0%Q in Z0. pose proof (Z _ _ M) as Z1. pose proof (Z _ _ B) as Z2.
  assert (O : (inject_Z (Z.of_nat (List.length ns)) * (1 / inject_Z (Z.of_nat (List.length ns))) == 1)%Q) by (field; lra).
  split; [split; [apply Qmult_le_0_compat; lra|apply Qmult_le_compat_r; lra]|]. split; [apply Qle_trans with (inject_Z (Z.of_nat (List.length ns)) * (1 / inject_Z (Z.of_nat (List.length ns))))%Q; [apply Qmult_le_compat_r; lra|rewrite O; apply Qle_refl]|].
  intro H. replace (c t') with ns; [exact O|]. unfold c. symmetry. clear - H. induction ns as [|n ns IH]; [reflexivity|]. cbn. rewrite (proj2 (Qle_bool_iff n t')) by (apply H; now left). f_equal. apply IH. intros; apply H; now right.
Qed.
Print Assumptions C84_loaded.
(** In a footprint the nights up to the start are taken off again: a band loaded only on the first
    night is never asked for, and one of its two nights is lost for a band loaded on night 0 and 30. *)
Theorem C84_loaded_first_refuted : forall mjd, (60000 + 30 <= mjd)%Q ->
  exists P g, new_fp 2 60000 0 year [0]%Q (PerFilter 3652 [Some [0]; Some [0; 30]]%Q) = Ok P /\ snd (ask_fp mjd false (set_all [[1]; [1]]%Q P)) = Ok g /\ (cell g 0 0 == 0)%Q /\ (cell g 1 0 == 1 # 2)%Q.
Proof.
  intros mjd M. do 2 eexists. split; [reflexivity|]. unfold ask_fp, update_fp, set_all. cbn [f_mjd same_mjd f_step f_maps f_phase f_start cover fst snd f_cur normed]. split; [reflexivity|].
  unfold cell. cbn. rewrite (proj2 (Qle_bool_iff 0 (mjd - 60000))) by lra. rewrite (proj2 (Qle_bool_iff 30 (mjd - 60000))) by lra. cbn. split; reflexivity.
Qed.
Print Assumptions C84_loaded_first_refuted.

(** ** C85: what a footprint answers *)
(** Asked for any dates in any order with one setting of [norm], a footprint answers for each date
    what a new one would, and the normed answer adds up to one unless its sum is zero. *)
Theorem C85_calls_partial : forall nb start sun per ras sf maps f norm ms, new_fp nb start sun per ras sf = Ok f -> alike ms ->
  (forall m, In m ms -> exists g, snd (ask_fp m norm (set_all maps f)) = Ok g) ->
  forall i m, nth_error ms i = Some m -> exists g, nth_error (asks norm (set_all maps f) ms) i = Some (Ok g) /\ snd (ask_fp m norm (set_all maps f)) = Ok g /\ (norm = true -> (gsum g == 1 \/ gsum g == 0)%Q).
Proof.
  intros nb start sun per ras sf maps f norm ms N A Ok1 i m I.
  assert (Fm : f_mjd f = None) by (unfold new_fp in N; destruct (cover sf nb 0 _); [|discriminate]; cbn in N; injection N as <-; reflexivity).
  assert (W : forall m', snd (ask_fp m' norm (set_all maps f)) = wanted (set_all maps f) norm m').
  { intro m'. unfold ask_fp, update_fp, wanted, set_all. cbn [f_mjd f_step f_maps f_start f_phase f_zero]. rewrite Fm. cbn [same_mjd]. destruct (cover _ _ _ _) as [c|e]; reflexivity. }
  rewrite (asks_wanted norm ms ms (set_all maps f) (set_all maps f) A (incl_refl ms)).
  - destruct (Ok1 m (nth_error_In _ _ I)) as [g G]. exists g. rewrite (map_nth_error _ _ _ I), <- W, G. split; [reflexivity|]. split; [reflexivity|]. intros ->. rewrite W in G. unfold wanted in G. destruct (cover _ _ _ _) as [c|e]; [|discriminate].
    change (Ok (normed true (gmul (f_maps (set_all maps f)) (gsub c (f_zero (set_all maps f))))) = Ok g) in G. assert (G' : g = normed true (gmul (f_maps (set_all maps f)) (gsub c (f_zero (set_all maps f))))) by congruence. rewrite G'. destruct (normed_sum (gmul (f_maps (set_all maps f)) (gsub c (f_zero (set_all maps f))))) as [H|[H1 H2]]; [left; exact H|right; rewrite H2; exact H1].
  - unfold steady, set_all. cbn [f_mjd]. rewrite Fm. exact Logic.I.
  - repeat split.
  - intros m' M'. destruct (Ok1 m' M') as [g G]. exists g. rewrite <- W. exact G.
Qed.
Print Assumptions C85_calls_partial.
(** For the default growth, maps without negative numbers and dates from the start on, the answer is
    a share: nothing below zero, and a sum of one or nothing anywhere. *)
Theorem C85_share : forall start sun per rise ras maps f m g, (0 < per)%Q -> (0 <= rise)%Q -> (start <= m)%Q ->
  (forall r, In r maps -> List.length r = List.length ras /\ forall x, In x r -> (0 <= x)%Q) ->
  new_fp (List.length maps) start sun per ras (Line per rise 0) = Ok f -> snd (ask_fp m true (set_all maps f)) = Ok g ->
  (forall b p, (0 <= cell g b p)%Q) /\ ((gsum g == 1)%Q \/ forall b p, (cell g b p == 0)%Q).
Proof.
  intros start sun per rise ras maps f m g P R T M N A. set (nb := List.length maps). set (np := List.length ras).
  unfold new_fp in N. cbn [cover bind] in N. injection N as <-. unfold ask_fp, update_fp, set_all in A. cbn [f_mjd same_mjd f_step f_maps f_start f_phase f_zero cover fst snd f_cur] in A. injection A as <-.
  set (phase := map (pix_phase per sun) ras). set (h := gmul maps _). assert (Sm : shape nb np maps) by (split; [reflexivity|intros r Hr; apply M; exact Hr]).
  assert (Sr : forall t, shape nb np (repeat (map (line_at per rise 0 t) phase) nb)) by (intro t; apply shape_repeat; unfold phase; rewrite !map_length; reflexivity).
  assert (Sh : shape nb np h) by (apply shape_op; [exact Sm|apply shape_op; apply Sr]).
  assert (Hp : forall ph, In ph phase -> (0 <= ph)%Q).
  { intros ph I. unfold phase in I. apply in_map_iff in I. destruct I as (r & <- & _). unfold pix_phase. destruct (qrem_spec (0 - r + sun + (1 # 4)) 1 ltac:(lra)) as [[Y _] _]. apply Qmult_le_0_compat; lra. }
  assert (Out : forall k, shape nb np k -> forall b p, ~ (b < nb /\ p < np) -> cell k b p = 0%Q).
  { intros k [K1 K2] b p O. unfold cell. destruct (Nat.lt_ge_cases b nb) as [B|B]; [|rewrite (nth_overflow k) by lia; destruct p; reflexivity]. apply nth_overflow. rewrite (K2 (nth b k [])) by (apply nth_In; lia). lia. }
  assert (Hc : forall b p, (0 <= cell h b p)%Q).
  { intros b p. destruct (Nat.lt_ge_cases b nb) as [B|B]; [destruct (Nat.lt_ge_cases p np) as [Pp|Pp]|]; [|rewrite (Out h Sh) by lia; apply Qle_refl|rewrite (Out h Sh) by lia; apply Qle_refl].
    unfold h, gmul, gsub. fold nb. rewrite (cell_op Qmult nb np) by (try apply shape_op; auto). rewrite (cell_op Qminus nb np) by auto. rewrite !cell_repeat by exact B.
    assert (Lph : List.length phase = np) by apply map_length. rewrite (nth_indep (map _ phase) 0%Q (line_at per rise 0 (m - start) 0)) by (rewrite map_length; lia). rewrite (map_nth (line_at per rise 0 (m - start))).
    rewrite (nth_indep (map (line_at per rise 0 0) phase) 0%Q (line_at per rise 0 0 0)) by (rewrite map_length; lia). rewrite (map_nth (line_at per rise 0 0)).
    assert (Ip : In (nth p phase 0%Q) phase) by (apply nth_In; lia). pose proof (Hp _ Ip). destruct (C84_line per rise 0 (nth p phase 0%Q) 0 (m - start) P R ltac:(lra) ltac:(lra)) as [[G _] _].
    apply Qmult_le_0_compat; [|exact G]. unfold cell. destruct (nth_in_or_default p (nth b maps []) 0%Q) as [I|E]; [|rewrite E; apply Qle_refl]. apply (M (nth b maps [])); [apply nth_In; exact B|exact I]. }
  assert (S0 : (0 <= gsum h)%Q).
  { rewrite (gsum_cells nb np h Sh). unfold qsum. induction (cells nb np) as [|c l IH]; cbn [map fold_right]; [apply Qle_refl|]. pose proof (Hc (fst c) (snd c)). lra. }
  assert (Zc : (gsum h == 0)%Q -> forall b p, (cell h b p == 0)%Q).
  { intros Z b p. destruct (Nat.lt_ge_cases b nb) as [B|B]; [destruct (Nat.lt_ge_cases p np) as [Pp|Pp]|]; [|rewrite (Out h Sh) by lia; reflexivity|rewrite (Out h Sh) by lia; reflexivity].
    assert (I : In (b, p) (cells nb np)) by (apply in_cells; auto). rewrite (gsum_cells nb np h Sh) in Z. revert I Z. generalize (cells nb np). intro l. clear - Hc. unfold qsum. intros I Z.
    assert (G : forall l, (0 <= fold_right Qplus 0 (map (fun c => cell h (fst c) (snd c)) l))%Q) by (induction l0 as [|c l0 IH]; cbn [map fold_right]; [apply Qle_refl|]; pose proof (Hc (fst c) (snd c)); lra).
    induction l as [|c l IH]; [destruct I|]. cbn [map fold_right] in Z. pose proof (G l). pose proof (Hc (fst c) (snd c)). destruct I as [->|I]; [cbn [fst snd] in *; lra|]. apply IH; [exact I|lra]. }
  unfold normed. destruct (Qeq_bool (gsum h) 0) eqn:E.
  - apply Qeq_bool_iff in E. split; [exact Hc|]. right. apply Zc. exact E.
  - apply Qeq_bool_neq in E. split; [|left; rewrite gsum_div by exact E; field; exact E]. intros b p. assert (Sd : shape nb np (gdiv h (gsum h))) by (apply shape_map; exact Sh).
    destruct (Nat.lt_ge_cases b nb) as [B|B]; [destruct (Nat.lt_ge_cases p np) as [Pp|Pp]|]; [|rewrite (Out _ Sd) by lia; apply Qle_refl|rewrite (Out _ Sd) by lia; apply Qle_refl].
    unfold gdiv. rewrite (cell_map _ nb np) by assumption. pose proof (Hc b p). apply Qle_shift_div_l; lra.
Qed.
Print Assumptions C85_share.
(** a footprint and a day in its first year *)
Definition ex_fp : fp := match new_fp 2 0 0 100 ex_ras (Line 100 1 0) with Ok f => set_all ex_maps f | Raise _ => mkFp [] [] None [] 0 [] (Line 1 1 0) end.
Example C85_calls_ex : map tidy (asks true ex_fp [0; 40; 10; 40]%Q) =
  [Ok [[0; 0; 0; 0]; [0; 0; 0; 0]]; Ok [[1 # 35; 3 # 35; 12 # 35; 1 # 7]; [3 # 35; 0; 6 # 35; 1 # 7]];
   Ok [[0; 1 # 4; 1 # 2; 0]; [0; 0; 1 # 4; 0]]; Ok [[1 # 35; 3 # 35; 12 # 35; 1 # 7]; [3 # 35; 0; 6 # 35; 1 # 7]]]%Q.
Proof. vm_compute. reflexivity. Qed.
(** The same for a sum of footprints. *)
Theorem C85_sum_calls_partial : forall parts F norm ms, new_fps parts = Ok F -> Forall (fun f => f_mjd f = None) parts -> alike ms ->
  (forall m, In m ms -> exists g, snd (ask_fps m norm F) = Ok g) ->
  forall i m, nth_error ms i = Some m -> exists g, nth_error (asks_sum norm F ms) i = Some (Ok g) /\ snd (ask_fps m norm F) = Ok g /\ (norm = true -> (gsum g == 1 \/ gsum g == 0)%Q).
Proof.
  intros parts F norm ms N Fp A Ok1 i m I. destruct parts as [|f0 rest] eqn:Ep; [discriminate|]. cbn [new_fps] in N. rewrite <- Ep in *.
  assert (P0 : p_parts F = parts /\ p_mjd F = None) by (injection N as <-; split; reflexivity). destruct P0 as [P0 P1]. clear N Ep.
  assert (Par : forall m' ps cur, Forall (fun f => f_mjd f = None) ps -> match wanted_parts ps m' with Ok gs => exists ps', update_parts m' cur ps = (ps', fold_left gadd gs cur, None) | Raise e => exists ps' c', update_parts m' cur ps = (ps', c', Some e) end).
  { intro m'. induction ps as [|f ps IH]; intros cur H; [exists []; reflexivity|]. inversion H as [|? ? H1 H2]; subst. unfold wanted_parts. cbn [mapM update_parts]. unfold wanted at 1. unfold update_fp. rewrite H1. cbn [same_mjd].
    destruct (cover (f_step f) _ _ _) as [c|e]; cbn [bind fst snd]; [|do 2 eexists; reflexivity]. cbn [f_cur]. specialize (IH (gadd cur (normed false (gmul (f_maps f) (gsub c (f_zero f))))) H2). unfold wanted_parts in IH.
    destruct (mapM (fun f => wanted f false m') ps) as [gs|e]; cbn [bind].
    - destruct IH as [ps' E]. rewrite E. cbn [fst snd fold_left]. eexists. reflexivity.
    - destruct IH as (ps' & c' & E). rewrite E. do 2 eexists. reflexivity. }
  assert (W : forall m', snd (ask_fps m' norm F) = wanted_sum F norm m').
  { intro m'. unfold ask_fps, wanted_sum. rewrite P1, P0. cbn [same_mjd]. pose proof (Par m' parts (map (map (fun _ => 0%Q)) (p_maps F)) Fp) as H. destruct (wanted_parts parts m') as [gs|e].
    - destruct H as [ps' E]. rewrite E. reflexivity.
    - destruct H as (ps' & c' & E). rewrite E. reflexivity. }
  rewrite (asks_sum_wanted norm ms ms F F A (incl_refl ms)).
  - destruct (Ok1 m (nth_error_In _ _ I)) as [g G]. exists g. rewrite (map_nth_error _ _ _ I), <- W, G. split; [reflexivity|]. split; [reflexivity|]. intros ->. rewrite W in G. unfold wanted_sum in G. destruct (wanted_parts _ _) as [gs|e]; [|discriminate].
    cbn [bind] in G. assert (G' : g = normed true (fold_left gadd gs (map (map (fun _ => 0%Q)) (p_maps F)))) by congruence. rewrite G'. destruct (normed_sum (fold_left gadd gs (map (map (fun _ => 0%Q)) (p_maps F)))) as [H|[H1 H2]]; [left; exact H|right; rewrite H2; exact H1].
  - split; [|rewrite P1; exact Logic.I]. rewrite P0. eapply Forall_impl; [|exact Fp]. intros f H. unfold steady. rewrite H. exact Logic.I.
  - clear. generalize (p_parts F). intro l. induction l; constructor; auto. repeat split.
  - reflexivity.
  - intros m' M'. destruct (Ok1 m' M') as [g G]. exists g. rewrite <- W. exact G.
Qed.
Print Assumptions C85_sum_calls_partial.
(** Once a date has been asked for without norming, the normed answer for it adds up to something else. *)
Theorem C85_norm_refuted : exists g, snd (ask_fp 40 true (fst (ask_fp 40 false ex_fp))) = Ok g /\ (gsum g == 7 # 2)%Q.
Proof. eexists. split; [vm_compute; reflexivity|]. vm_compute. reflexivity. Qed.
Print Assumptions C85_norm_refuted.
(** A map changed after a date was asked for is not used for that date. *)
Theorem C85_changed_refuted : exists g h, let f := set_fp 1 [0; 0; 0; 0]%Q (fst (ask_fp 40 true ex_fp)) in
  get_fp 1 f = [0; 0; 0; 0]%Q /\ snd (ask_fp 40 true f) = Ok g /\ (cell g 1 0 == 3 # 35)%Q /\ snd (ask_fp 41 true f) = Ok h /\ (cell h 1 0 == 0)%Q.
Proof. do 2 eexists. cbv zeta. split; [reflexivity|]. split; [vm_compute; reflexivity|]. split; [vm_compute; reflexivity|]. split; vm_compute; reflexivity. Qed.
Print Assumptions C85_changed_refuted.
(** A date for which no answer could be given is answered with an old one when asked for again. *)
Theorem C85_again_refuted : exists f, new_fp 1 0 0 100 [0; (1 # 2)]%Q (Slopes 100 [1; 1; 1]%Q 0) = Ok f /\
  map tidy (asks true (set_all [[1; 1]]%Q f) [50; 150; 150]%Q) = [Ok [[1 # 2; 1 # 2]]; Raise IndexError; Ok [[1 # 2; 1 # 2]]]%Q.
Proof. eexists. split; [vm_compute; reflexivity|]. vm_compute. reflexivity. Qed.
Print Assumptions C85_again_refuted.
(** A part asked for the date by itself weighs too little or too much in the sum. *)
Theorem C85_part_refuted : exists F G, new_fps [ex_fp; ex_fp] = Ok F /\ new_fps [fst (ask_fp 40 true ex_fp); ex_fp] = Ok G /\
  (exists g, snd (ask_fps 40 false F) = Ok g /\ (gsum g == 7)%Q) /\ (exists g, snd (ask_fps 40 false G) = Ok g /\ (gsum g == 9 # 2)%Q).
Proof. do 2 eexists. split; [vm_compute; reflexivity|]. split; [vm_compute; reflexivity|]. split; eexists; (split; [vm_compute; reflexivity|vm_compute; reflexivity]). Qed.
Print Assumptions C85_part_refuted.
(** The estimate of counts adds up to the pixels of all visits. *)
Theorem C85_estimate : forall m nvisits ppv f g, snd (ask_fp m true f) = Ok g -> (gsum g == 1)%Q -> exists e, snd (estimate_fp m nvisits ppv f) = Ok e /\ (gsum e == ppv * nvisits)%Q.
Proof.
  intros m nvisits ppv f g A G. unfold estimate_fp. cbn [snd]. rewrite A. cbn [bind]. eexists. split; [reflexivity|].
  assert (E : forall c d g, (gsum (map (map (fun x => (x * c * d)%Q)) g) == gsum g * (c * d))%Q).
  { clear. intros c d g. unfold gsum. induction g as [|r g IH]; [cbn; ring|]. cbn [map]. change (qsum (?x :: ?l)) with (x + qsum l)%Q. rewrite IH. assert (R : (qsum (map (fun x => (x * c * d)%Q) r) == qsum r * (c * d))%Q) by (clear; unfold qsum; induction r as [|x r IH]; cbn [map fold_right]; [ring|rewrite IH; ring]). rewrite R. ring. }
  rewrite E, G. ring.
Qed.
Print Assumptions C85_estimate.

(** ** C85: the reward *)
Section Reward.
Variables (nb np : nat) (w maps : grid) (out : er).
(** [w]: the wanted shares of the date, [maps]: the goal maps *)
Hypothesis w_fit : shape nb np w.
Hypothesis maps_fit : shape nb np maps.
Definition inside (c : nat * nat) : bool := negb (Qle_bool (cell maps (fst c) (snd c)) 0).
Definition reward (vis : list (nat * nat)) (c : nat * nat) : er := nth (snd c) (foot_reward w maps np (fst c) out vis) ENaN.
Definition finite (e : er) : Q := match e with EFin x => x | _ => 0%Q end.
Definition on_sky (vis : list (nat * nat)) : Prop := forall v, In v vis -> fst v < nb /\ snd v < np.
(** In the footprint the reward is the number of visits short of the share of all visits; elsewhere
    it is the value for out of bounds. *)
Theorem C85_reward : forall vis b p, on_sky vis -> b < nb -> p < np ->
  if inside (b, p) then exists x, reward vis (b, p) = EFin x /\ (x == cell w b p * inject_Z (Z.of_nat (List.length vis)) - inject_Z (Z.of_nat (hits vis b p)))%Q else reward vis (b, p) = out.
Proof.
  intros vis b p V B P. destruct (foot_reward_at nb np w maps b p out vis w_fit maps_fit B P V) as (x & X & R). unfold reward, inside. cbn [fst snd]. rewrite R. destruct (Qle_bool (cell maps b p) 0); cbn [negb]; [reflexivity|]. exists x. auto.
Qed.
Hypothesis w_one : (gsum w == 1)%Q.
Hypothesis w_out : forall b p, b < nb -> p < np -> inside (b, p) = false -> (cell w b p == 0)%Q.
(** The rewards in the footprint add up to the number of visits out of it. *)
Theorem C85_balance : forall vis, on_sky vis ->
  (qsum (map (fun c => finite (reward vis c)) (filter inside (cells nb np))) == inject_Z (Z.of_nat (List.length (filter (fun v => negb (inside v)) vis))))%Q.
Proof.
  intros vis V. set (need := fun c : nat * nat => (cell w (fst c) (snd c) * qn (List.length vis) - qn (hits vis (fst c) (snd c)))%Q).
  assert (E : (qsum (map (fun c => finite (reward vis c)) (filter inside (cells nb np))) == qsum (map need (filter inside (cells nb np))))%Q).
  { apply qsum_ext_in. intros [b p] I. apply filter_In in I. destruct I as [I1 I2]. apply in_cells in I1. pose proof (C85_reward vis b p V (proj1 I1) (proj2 I1)) as H. rewrite I2 in H. destruct H as (x & -> & X). exact X. }
  pose proof (needs_balance nb np w vis w_fit w_one V) as Z. fold need in Z. rewrite (qsum_filter inside) in Z.
  assert (O : (qsum (map need (filter (fun c => negb (inside c)) (cells nb np))) == - qn (List.length (filter (fun v => negb (inside v)) vis)))%Q).
  { transitivity (qsum (map (fun c => 0 - qn (hits vis (fst c) (snd c)))%Q (filter (fun c => negb (inside c)) (cells nb np)))).
    - apply qsum_ext_in. intros [b p] I. apply filter_In in I. destruct I as [I1 I2]. apply in_cells in I1. unfold need. cbn [fst snd]. assert (W0 : (cell w b p == 0)%Q) by (apply w_out; try tauto; destruct (inside (b, p)); [discriminate|reflexivity]). rewrite W0. ring.
    - rewrite (qsum_minus (fun _ : nat * nat => 0%Q) (fun c => qn (hits vis (fst c) (snd c)))). rewrite (qsum_zero (fun _ : nat * nat => 0%Q)) by reflexivity.
      set (vo := filter (fun v => negb (inside v)) vis). assert (Vo : on_sky vo) by (intros v Hv; apply filter_In in Hv; apply V; tauto).
      rewrite <- (hits_sum nb np vo Vo). rewrite (qsum_filter inside (fun c => qn (hits vo (fst c) (snd c)))).
      assert (Hz : forall c, In c (filter inside (cells nb np)) -> (qn (hits vo (fst c) (snd c)) == 0)%Q).
      { intros [b p] I. apply filter_In in I. destruct I as [_ I]. replace (hits vo (fst (b, p)) (snd (b, p))) with 0; [reflexivity|]. symmetry. unfold hits. cbn [fst snd]. unfold vo. clear - I. induction vis as [|v l IH]; [reflexivity|]. cbn [filter]. destruct (inside v) eqn:Iv; cbn [negb]; [exact IH|]. cbn [filter].
        destruct (Nat.eqb_spec (fst v) b) as [E1|E1]; [|exact IH]. destruct (Nat.eqb_spec (snd v) p) as [E2|E2]; [|exact IH]. destruct v. cbn in E1, E2. subst. congruence. }
      rewrite (qsum_zero _ _ Hz).
      assert (He : (qsum (map (fun c => qn (hits vo (fst c) (snd c))) (filter (fun c => negb (inside c)) (cells nb np))) == qsum (map (fun c => qn (hits vis (fst c) (snd c))) (filter (fun c => negb (inside c)) (cells nb np))))%Q).
      { apply qsum_ext_in. intros [b p] I. apply filter_In in I. destruct I as [_ I]. replace (hits vo (fst (b, p)) (snd (b, p))) with (hits vis (fst (b, p)) (snd (b, p))); [reflexivity|]. unfold hits. cbn [fst snd]. unfold vo. clear - I. induction vis as [|v l IH]; [reflexivity|]. cbn [filter].
        destruct (Nat.eqb_spec (fst v) b) as [E1|E1]; [destruct (Nat.eqb_spec (snd v) p) as [E2|E2]|]; cbn [andb].
        - destruct v. cbn in E1, E2. subst. rewrite I. cbn [filter fst snd]. rewrite !Nat.eqb_refl. cbn [andb List.length]. f_equal. exact IH.
        - rewrite IH. destruct (negb (inside v)); [|reflexivity]. cbn [filter]. destruct (Nat.eqb_spec (fst v) b); [|reflexivity]. destruct (Nat.eqb_spec (snd v) p); [contradiction|reflexivity].
        - rewrite IH. destruct (negb (inside v)); [|reflexivity]. cbn [filter]. destruct (Nat.eqb_spec (fst v) b); [contradiction|reflexivity]. }
      rewrite He. ring. }
  rewrite O in Z. rewrite E. unfold qn in *. lra.
Qed.
(** A cell of the highest reward in the footprint never has more visits than its share. *)
Definition best (vis : list (nat * nat)) (c : nat * nat) : Prop :=
  In c (cells nb np) /\ inside c = true /\ forall c', In c' (cells nb np) -> inside c' = true -> (finite (reward vis c') <= finite (reward vis c))%Q.
Theorem C85_pick : forall vis c, on_sky vis -> best vis c -> (inject_Z (Z.of_nat (hits vis (fst c) (snd c))) <= cell w (fst c) (snd c) * inject_Z (Z.of_nat (List.length vis)))%Q.
Proof.
  intros vis c V (C1 & C2 & C3). assert (N : filter inside (cells nb np) <> []) by (intro E; assert (I : In c (filter inside (cells nb np))) by (apply filter_In; auto); rewrite E in I; destruct I).
  destruct (some_nonneg (fun c => finite (reward vis c)) (filter inside (cells nb np)) N) as (x & X1 & X2).
  - rewrite C85_balance by exact V. change 0%Q with (inject_Z 0). rewrite <- Zle_Qle. lia.
  - apply filter_In in X1. destruct X1 as [X1 X3]. pose proof (C3 x X1 X3) as H. destruct c as [b p]. apply in_cells in C1. pose proof (C85_reward vis b p V (proj1 C1) (proj2 C1)) as R. rewrite C2 in R. destruct R as (y & R & Y). rewrite R in H. cbn [finite fst snd] in *. lra.
Qed.
Hypothesis w_nonneg : forall b p, (0 <= cell w b p)%Q.
(** Visits each made to a cell of the highest reward: none has more than its share and one, and
    none lacks as many as there are cells. *)
Inductive followed : list (nat * nat) -> Prop :=
| followed_nil : followed []
| followed_add : forall vis c, followed vis -> best vis c -> followed (vis ++ [c]).
Lemma followed_in : forall vis, followed vis -> on_sky vis /\ forall v, In v vis -> inside v = true.
Proof.
  induction 1 as [|vis c F [I1 I2] B]; [split; intros v []|]. destruct B as (B1 & B2 & _). split; intros v Hv; apply in_app_or in Hv; destruct Hv as [Hv|[<-|[]]]; try (apply I1; exact Hv); try (apply I2; exact Hv); [|exact B2]. destruct c. apply in_cells in B1. exact B1.
Qed.
Lemma hits_app : forall vis c b p, hits (vis ++ [c]) b p = hits vis b p + if Nat.eqb (fst c) b && Nat.eqb (snd c) p then 1 else 0.
Proof. intros. unfold hits. rewrite filter_app, app_length. cbn [filter]. destruct (Nat.eqb (fst c) b && Nat.eqb (snd c) p); reflexivity. Qed.
Theorem C85_followed : forall vis, followed vis -> forall b p, b < nb -> p < np -> inside (b, p) = true ->
  let share := (cell w b p * inject_Z (Z.of_nat (List.length vis)))%Q in let n := inject_Z (Z.of_nat (hits vis b p)) in
  (n <= share + 1 /\ share - n <= inject_Z (Z.of_nat (List.length (filter inside (cells nb np)))) - 1)%Q.
Proof.
  assert (Up : forall vis, followed vis -> forall b p, (qn (hits vis b p) <= cell w b p * qn (List.length vis) + 1)%Q).
  { induction 1 as [|vis c F IH B]; intros b p; [change (0 <= cell w b p * 0 + 1)%Q; lra|]. rewrite hits_app, app_length, !qn_add. cbn [List.length]. change (qn 1) with 1%Q. pose proof (w_nonneg b p) as W. pose proof (IH b p) as I.
    destruct (Nat.eqb_spec (fst c) b) as [E1|E1]; [destruct (Nat.eqb_spec (snd c) p) as [E2|E2]|]; cbn [andb].
    - pose proof (C85_pick vis c (proj1 (followed_in vis F)) B) as H. rewrite E1, E2 in H. unfold qn in *. change (inject_Z (Z.of_nat 1)) with 1%Q. lra.
    - change (qn 0) with 0%Q. lra.
    - change (qn 0) with 0%Q. lra. }
  intros vis F b p B P I share n. destruct (followed_in vis F) as [V In1]. split; [exact (Up vis F b p)|].
  pose proof (C85_balance vis V) as Z. replace (filter (fun v => negb (inside v)) vis) with (@nil (nat * nat)) in Z.
  2:{ symmetry. clear - In1. induction vis as [|v l IH]; [reflexivity|]. cbn [filter]. rewrite (In1 v (or_introl eq_refl)). cbn [negb]. apply IH. intros u U. apply In1. now right. }
  pose proof (sum_lower (fun c => finite (reward vis c)) (filter inside (cells nb np)) (b, p)) as L. assert (Ic : In (b, p) (filter inside (cells nb np))) by (apply filter_In; split; [apply in_cells; auto|exact I]).
  specialize (L Ic). cbn [List.length] in Z. change (inject_Z (Z.of_nat 0)) with 0%Q in Z.
  assert (Hr : forall c, In c (filter inside (cells nb np)) -> (finite (reward vis c) == cell w (fst c) (snd c) * qn (List.length vis) - qn (hits vis (fst c) (snd c)))%Q).
  { intros [b' p'] I'. apply filter_In in I'. destruct I' as [I1 I2]. apply in_cells in I1. pose proof (C85_reward vis b' p' V (proj1 I1) (proj2 I1)) as R. rewrite I2 in R. destruct R as (y & -> & Y). exact Y. }
  rewrite (Hr _ Ic) in L. cbn [fst snd] in L. fold (qn (List.length (filter inside (cells nb np)))). fold (qn (List.length vis)) in *. unfold share, n. fold (qn (List.length vis)). fold (qn (hits vis b p)).
  assert (G : forall y, In y (filter inside (cells nb np)) -> (-1 <= finite (reward vis y))%Q) by (intros y Y; rewrite (Hr y Y); pose proof (Up vis F (fst y) (snd y)); lra).
  specialize (L G). rewrite Z in L. lra.
Qed.
End Reward.
Print Assumptions C85_reward.
Print Assumptions C85_balance.
Print Assumptions C85_pick.
Print Assumptions C85_followed.
(** two bands and two pixels, one of them out of bounds in the second band *)
Definition ex_w : grid := [[1 # 2; 1 # 4]; [1 # 4; 0]]%Q.
Definition ex_visits : list (nat * nat) := [(0, 0); (0, 1); (1, 0); (0, 0); (0, 0)].
Example C85_ex : map (foot_reward ex_w ex_w 2 0 (EFin (-10))) [[(0, 0)]; ex_visits] = [[EFin (-1 # 2); EFin (1 # 4)]; [EFin (-1 # 2); EFin (1 # 4)]]%Q /\
  map (foot_reward ex_w ex_w 2 1 (EFin (-10))) [[(0, 0)]; ex_visits] = [[EFin (1 # 4); EFin (-10)]; [EFin (1 # 4); EFin (-10)]]%Q.
Proof. split; vm_compute; reflexivity. Qed.
Example C85_followed_ex : shape 2 2 ex_w /\ (gsum ex_w == 1)%Q /\ followed 2 2 ex_w ex_w (EFin (-10)) ex_visits.
Proof.
  split; [split; [reflexivity|intros r [<-|[<-|[]]]; reflexivity]|]. split; [reflexivity|].
  assert (B : forall vis c, In c (cells 2 2) -> inside ex_w c = true -> forallb (fun c' => implb (inside ex_w c') (Qle_bool (finite (reward 2 ex_w ex_w (EFin (-10)) vis c')) (finite (reward 2 ex_w ex_w (EFin (-10)) vis c)))) (cells 2 2) = true -> best 2 2 ex_w ex_w (EFin (-10)) vis c).
  { intros vis c C I F. split; [exact C|]. split; [exact I|]. intros c' C' I'. rewrite forallb_forall in F. specialize (F c' C'). rewrite I' in F. apply Qle_bool_iff. exact F. }
  unfold ex_visits. apply (followed_add 2 2 ex_w ex_w (EFin (-10)) [(0, 0); (0, 1); (1, 0); (0, 0)] (0, 0)); [|apply B; [cbn; tauto|reflexivity|vm_compute; reflexivity]].
  apply (followed_add 2 2 ex_w ex_w (EFin (-10)) [(0, 0); (0, 1); (1, 0)] (0, 0)); [|apply B; [cbn; tauto|reflexivity|vm_compute; reflexivity]].
  apply (followed_add 2 2 ex_w ex_w (EFin (-10)) [(0, 0); (0, 1)] (1, 0)); [|apply B; [cbn; tauto|reflexivity|vm_compute; reflexivity]].
  apply (followed_add 2 2 ex_w ex_w (EFin (-10)) [(0, 0)] (0, 1)); [|apply B; [cbn; tauto|reflexivity|vm_compute; reflexivity]].
  apply (followed_add 2 2 ex_w ex_w (EFin (-10)) [] (0, 0)); [|apply B; [cbn; tauto|reflexivity|vm_compute; reflexivity]]. apply followed_nil.
Qed.
(** A constant footprint answers with its maps as they are; unless they add up to one the rewards do
    not balance: here every pixel lacks visits however the visits were made. *)
Theorem C85_constant_refuted : let w := [[1; 1]; [1; 1]]%Q in
  forall vis, (forall v, In v vis -> fst v < 2 /\ snd v < 2) -> vis <> [] -> (0 < qsum (map (fun c => finite (reward 2 w w (EFin (-10)) vis c)) (cells 2 2)))%Q.
Proof.
  intros w vis V N. assert (Sw : shape 2 2 w) by (split; [reflexivity|intros r [<-|[<-|[]]]; reflexivity]).
  rewrite (qsum_ext_in _ (fun c => cell w (fst c) (snd c) * qn (List.length vis) - qn (hits vis (fst c) (snd c)))%Q).
  - rewrite (qsum_minus (fun c => (cell w (fst c) (snd c) * qn (List.length vis))%Q) (fun c => qn (hits vis (fst c) (snd c)))). rewrite qsum_scale, hits_sum by exact V.
    change (qsum (map (fun c => cell w (fst c) (snd c)) (cells 2 2))) with 4%Q. assert (L : (1 <= qn (List.length vis))%Q) by (destruct vis; [congruence|]; unfold qn; change 1%Q with (inject_Z 1); rewrite <- Zle_Qle; cbn [List.length]; lia). lra.
  - intros [b p] I. apply in_cells in I. pose proof (C85_reward 2 2 w w (EFin (-10)) Sw Sw vis b p V (proj1 I) (proj2 I)) as R.
    assert (Ii : inside w (b, p) = true) by (destruct I; destruct b as [|[|b]]; [| |lia]; (destruct p as [|[|p]]; [| |lia]; reflexivity)). rewrite Ii in R. destruct R as (x & -> & X). exact X.
Qed.
Print Assumptions C85_constant_refuted.
