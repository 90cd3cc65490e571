(** C133: the survey of a place given by altitude and azimuth. *)
From Coq Require Import List Bool String Reals Lia Lra.
From Verif Require Import Base Sphere Angles Horizon FieldAltAz.
From Verif Require Props_Horizon.
Import ListNotations.
Open Scope R_scope.

(** A visit is at the place: the altitude and azimuth are those asked for, and the RA and
    dec are those of that place at that time, so that they convert back to it. *)
Definition at_place (alt az : R) (c : cond) (v : visit) : Prop :=
  v_alt v = alt /\ v_az v = az /\ exists ra dec, v_ra v = Some ra /\ v_dec v = Some dec /\ - (PI / 2) <= dec <= PI / 2 /\
    exists az', ra_dec2_alt_az ra dec (c_lat c) (c_lon c) (c_mjd c) None = Some (alt, Some az') /\ 0 <= az' <= 2 * PI /\ exists k : Z, az' = az + IZR k * (2 * PI).
(** Detailers that leave the positions: each visit returned has those of one it was given. *)
Definition moves_nothing (d : detailer) : Prop :=
  match d with ToRaDec => True | Other f => forall c l v, In v (f c l) -> exists u, In u l /\ v_ra v = v_ra u /\ v_dec v = v_dec u /\ v_alt v = v_alt u /\ v_az v = v_az u end.

Lemma place_in : forall alt az l v, In v (map (place alt az) l) -> v_ra v = None /\ v_dec v = None /\ v_alt v = alt /\ v_az v = az.
Proof. intros alt az l v H. apply in_map_iff in H. destruct H as (u & <- & _). repeat split. Qed.
Lemma locate_at : forall c alt az v, - (PI / 2) < alt < PI / 2 -> - (PI / 2) < c_lat c < PI / 2 -> v_alt v = alt -> v_az v = az -> at_place alt az c (locate c v).
Proof.
  intros c alt az v Ha Hl <- <-. unfold locate.
  destruct (Props_Horizon.C100_radec (v_alt v) (v_az v) (c_lat c) (c_lon c) (c_mjd c) None) as (ra & dec & E & D & _). rewrite E.
  split; [reflexivity|]. split; [reflexivity|]. exists ra, dec. split; [reflexivity|]. split; [reflexivity|]. split; [exact D|].
  apply (Props_Horizon.C100_round _ _ _ _ _ _ _ _ Ha Hl E).
Qed.
Lemma details_at : forall c alt az dets l, - (PI / 2) < alt < PI / 2 -> - (PI / 2) < c_lat c < PI / 2 -> (forall d, In d dets -> moves_nothing d) ->
  (forall v, In v l -> v_alt v = alt /\ v_az v = az) -> (forall v, In v l -> at_place alt az c v) \/ In ToRaDec dets ->
  forall v, In v (fold_left (detail c) dets l) -> at_place alt az c v.
Proof.
  intros c alt az dets. induction dets as [|d dets IH]; intros l Ha Hl Hm Hp Hw v Hv; cbn [fold_left] in Hv.
  - destruct Hw as [Hw|[]]. auto.
  - assert (Hd := Hm d (or_introl eq_refl)). apply (IH (detail c l d)) in Hv; auto.
    + intros u Hu. apply Hm. right. exact Hu.
    + intros u Hu. destruct d as [|f]; cbn [detail] in Hu.
      * apply in_map_iff in Hu. destruct Hu as (x & <- & Hx). destruct (Hp x Hx) as [A B]. destruct (locate_at c alt az x Ha Hl A B) as (P & Q & _). auto.
      * destruct (Hd c l u Hu) as (x & Hx & _ & _ & P & Q). rewrite P, Q. auto.
    + destruct d as [|f]; cbn [detail].
      * left. intros u Hu. apply in_map_iff in Hu. destruct Hu as (x & <- & Hx). destruct (Hp x Hx) as [A B]. apply locate_at; assumption.
      * destruct Hw as [Hw|[Hw|Hw]]; [|discriminate|right; exact Hw]. left. intros u Hu. destruct (Hd c l u Hu) as (x & Hx & R1 & R2 & P & Q).
        unfold at_place. rewrite R1, R2, P, Q. apply Hw. exact Hx.
Qed.

(** What every survey built keeps, as long as no later one is given the same array. *)
Lemma at_update : forall w i j f, (i < List.length w)%nat -> at_ (update w i f) j = if Nat.eqb j i then f (at_ w i) else at_ w j.
Proof.
  unfold at_. induction w as [|l w IH]; intros i j f H; cbn in H; [lia|]. destruct i as [|i], j as [|j]; cbn; try reflexivity. apply IH. lia.
Qed.
Lemma update_length : forall w i f, List.length (update w i f) = List.length w.
Proof. induction w as [|l w IH]; intros [|i] f; cbn; auto. Qed.
Definition known (n : nat) (src : source) : Prop := match src with Shared i => (i < n)%nat | _ => True end.
Lemma build_at : forall w src alt az w' i, known (List.length w) src -> build w src alt az = (w', i) ->
  (List.length w <= List.length w')%nat /\ (i < List.length w')%nat /\ (forall v, In v (at_ w' i) -> v_ra v = None /\ v_dec v = None /\ v_alt v = alt /\ v_az v = az) /\
  (forall j, (j < List.length w)%nat -> src <> Shared j -> at_ w' j = at_ w j).
Proof.
  intros w src alt az w' i K H. destruct src as [rows|j|is]; cbn in H; injection H as <- <-.
  - rewrite app_length. cbn. split; [lia|]. split; [lia|]. split.
    + intros v Hv. unfold at_ in Hv. rewrite app_nth2, Nat.sub_diag in Hv by lia. cbn in Hv. eapply place_in. exact Hv.
    + intros j Hj _. unfold at_. apply app_nth1. exact Hj.
  - rewrite update_length. cbn in K. split; [lia|]. split; [exact K|]. split.
    + intros v Hv. rewrite at_update, Nat.eqb_refl in Hv by exact K. eapply place_in. exact Hv.
    + intros x Hx N. rewrite at_update by exact K. destruct (Nat.eqb_spec x j) as [->|_]; [congruence|reflexivity].
  - rewrite app_length. cbn. split; [lia|]. split; [lia|]. split.
    + intros v Hv. unfold at_ in Hv. rewrite app_nth2, Nat.sub_diag in Hv by lia. cbn in Hv. eapply place_in. exact Hv.
    + intros j Hj _. unfold at_. apply app_nth1. exact Hj.
Qed.
(** Every array given exists when it is given. *)
Fixpoint all_known (w : world) (l : list (source * R * R)) : Prop :=
  match l with [] => True | (src, alt, az) :: r => known (List.length w) src /\ all_known (fst (build w src alt az)) r end.
Lemma builds_keep : forall l w w' is j, all_known w l -> builds w l = (w', is) -> (j < List.length w)%nat -> (forall src alt az, In (src, alt, az) l -> src <> Shared j) -> at_ w' j = at_ w j.
Proof.
  induction l as [|[[src alt] az] l IH]; intros w w' is j K H Hj N; cbn in *.
  - injection H as <- <-. reflexivity.
  - destruct K as [K1 K2]. destruct (build w src alt az) as [w1 i] eqn:E. destruct (builds w1 l) as [w2 is'] eqn:E2. injection H as <- <-.
    destruct (build_at _ _ _ _ _ _ K1 E) as (L & _ & _ & P). cbn in K2. rewrite (IH w1 w2 is' j K2 E2); [|lia|].
    + apply P; [exact Hj|]. eapply N. left. reflexivity.
    + intros s a z Hs. eapply N. right. exact Hs.
Qed.
Lemma builds_at : forall l w w' is k src alt az i, all_known w l -> builds w l = (w', is) -> nth_error l k = Some (src, alt, az) -> nth_error is k = Some i ->
  (forall k' src' alt' az', (k < k')%nat -> nth_error l k' = Some (src', alt', az') -> src' <> Shared i) ->
  forall v, In v (at_ w' i) -> v_ra v = None /\ v_dec v = None /\ v_alt v = alt /\ v_az v = az.
Proof.
  induction l as [|[[s0 a0] z0] l IH]; intros w w' is k src alt az i K H Hk Hi N v Hv; [destruct k; discriminate|].
  cbn in K, H. destruct K as [K1 K2]. destruct (build w s0 a0 z0) as [w1 i0] eqn:E. destruct (builds w1 l) as [w2 is'] eqn:E2. injection H as <- <-. cbn in K2.
  destruct k as [|k]; cbn in Hk, Hi.
  - injection Hk as -> -> ->. injection Hi as ->. destruct (build_at _ _ _ _ _ _ K1 E) as (_ & B & P & _). apply P.
    rewrite <- (builds_keep l w1 w2 is' i K2 E2 B); [exact Hv|]. intros s a z Hs. apply In_nth_error in Hs. destruct Hs as [m Hm]. apply (N (S m) s a z); [lia|exact Hm].
  - eapply (IH w1 w2 is' k); eauto. intros k' s' a' z' Lt Hn. apply (N (S k') s' a' z'); [lia|exact Hn].
Qed.

(** After any surveys have been built, each that was not given the array of a later one
    returns only visits at its place at that time, whatever the time, when the detailer for
    RA and dec is among its detailers and the others do not move visits. *)
Theorem C133_place : forall l w w' is k src alt az i held dets feasible c v, all_known w l -> builds w l = (w', is) ->
  nth_error l k = Some (src, alt, az) -> nth_error is k = Some i ->
  (forall k' src' alt' az', (k < k')%nat -> nth_error l k' = Some (src', alt', az') -> src' <> Shared i) ->
  - (PI / 2) < alt < PI / 2 -> - (PI / 2) < c_lat c < PI / 2 -> In ToRaDec dets -> (forall d, In d dets -> moves_nothing d) ->
  In v (generate w' i held dets feasible c) -> at_place alt az c v.
Proof.
  intros l w w' is k src alt az i held dets feasible c v K H Hk Hi N Ha Hl T M Hv.
  assert (P := builds_at l w w' is k src alt az i K H Hk Hi N).
  unfold generate in Hv. destruct feasible; [|destruct Hv].
  set (r := filter _ _) in Hv. assert (Q : forall u, In u r -> v_alt u = alt /\ v_az u = az).
  { intros u Hu. unfold r in Hu. apply filter_In in Hu. destruct Hu as [Hu _]. apply in_map_iff in Hu. destruct Hu as (x & <- & Hx). destruct (P x Hx) as (_ & _ & A & B). split; assumption. }
  clearbody r. destruct r as [|x r]; [destruct Hv|]. revert Hv. apply details_at; auto.
Qed.
Print Assumptions C133_place.

(** With the detailers left out the visits returned are the visits of the mounted bands in
    their order, held until the time given, and none when not feasible. *)
Theorem C133_visits : forall w' i held c,
  map (fun v => (v_band v, v_exptime v, v_note v)) (generate w' i held [ToRaDec] true c) =
    filter (fun t => existsb (String.eqb (fst (fst t))) (c_mounted c)) (map (fun v => (v_band v, v_exptime v, v_note v)) (at_ w' i)) /\
  (forall v, In v (generate w' i held [ToRaDec] true c) -> v_flush v = c_mjd c + held) /\ generate w' i held [ToRaDec] false c = [].
Proof.
  intros w' i held c. split; [|split; [|reflexivity]].
  - unfold generate. set (g := fun v : visit => existsb (String.eqb (v_band v)) (c_mounted c)).
    assert (A : forall L, map (fun v => (v_band v, v_exptime v, v_note v)) (map (locate c) (filter g (map (hold (c_mjd c + held)) L))) =
      filter (fun t => existsb (String.eqb (fst (fst t))) (c_mounted c)) (map (fun v => (v_band v, v_exptime v, v_note v)) L)).
    { induction L as [|u L IH]; [reflexivity|]. cbn [map filter]. replace (g (hold (c_mjd c + held) u)) with (existsb (String.eqb (v_band u)) (c_mounted c)) by reflexivity.
      cbn [fst]. destruct (existsb (String.eqb (v_band u)) (c_mounted c)); cbn [map]; rewrite IH; [|reflexivity]. f_equal.
      unfold locate. destruct (alt_az2_ra_dec _ _ _ _ _ _) as [[ra dec]|]; reflexivity. }
    rewrite <- A. cbn [fold_left detail]. destruct (filter g (map (hold (c_mjd c + held)) (at_ w' i))); reflexivity.
  - intros v Hv. unfold generate in Hv. set (r := filter _ _) in Hv.
    assert (Q : forall u, In u r -> v_flush u = c_mjd c + held). { intros u Hu. unfold r in Hu. apply filter_In in Hu. destruct Hu as [Hu _]. apply in_map_iff in Hu. destruct Hu as (x & <- & _). reflexivity. }
    clearbody r. cbn [fold_left detail] in Hv. assert (Hv' : In v (map (locate c) r)) by (destruct r; [destruct Hv|exact Hv]). apply in_map_iff in Hv'. destruct Hv' as (u & <- & Hu).
    unfold locate. destruct (alt_az2_ra_dec _ _ _ _ _ _) as [[ra dec]|]; cbn; apply Q; exact Hu.
Qed.
Print Assumptions C133_visits.

(** The visits of a list of arrays are copied: the caller's arrays stay as they were, and so
    they do for bands. *)
Theorem C133_caller : forall l w w' is j, all_known w l -> builds w l = (w', is) -> (j < List.length w)%nat -> (forall i alt az, ~ In (Shared i, alt, az) l) -> at_ w' j = at_ w j.
Proof. intros l w w' is j K H Hj N. eapply builds_keep; eauto. intros src alt az Hs ->. eapply N. exact Hs. Qed.
Print Assumptions C133_caller.
Definition ex_row (b : string) : visit := mkV (Some 1) (Some 0) 0 0 b 30 "n" 0.
Example C133_ex : let l := [(Bands [ex_row "u"; ex_row "r"], 1, 0); (Listed [0%nat; 0%nat], 1 / 2, 3)] in
  all_known [[ex_row "g"]] l /\ snd (builds [[ex_row "g"]] l) = [1%nat; 2%nat] /\ at_ (fst (builds [[ex_row "g"]] l)) 2 = [place (1 / 2) 3 (ex_row "g"); place (1 / 2) 3 (ex_row "g")] /\
  List.length (generate (fst (builds [[ex_row "g"]] l)) 1 1 [ToRaDec] true (mkC 60000 (- (1 / 2)) 0 ["r"%string; "g"%string])) = 1%nat /\ - (PI / 2) < 1 < PI / 2.
Proof. assert (P := PI_4). assert (P2 := PI2_1). repeat split; lra. Qed.

(** Refuted: a survey without the detailer for RA and dec is refused; it is built, and every
    visit it returns has no RA. *)
Theorem C133_detailer_refuted : forall w src alt az w' i held dets feasible c v, known (List.length w) src -> build w src alt az = (w', i) ->
  ~ In ToRaDec dets -> (forall d, In d dets -> moves_nothing d) -> In v (generate w' i held dets feasible c) -> v_ra v = None /\ v_dec v = None.
Proof.
  intros w src alt az w' i held dets feasible c v K H T M Hv. destruct (build_at _ _ _ _ _ _ K H) as (_ & _ & P & _).
  unfold generate in Hv. destruct feasible; [|destruct Hv]. set (r := filter _ _) in Hv.
  assert (Q : forall u, In u r -> v_ra u = None /\ v_dec u = None).
  { intros u Hu. unfold r in Hu. apply filter_In in Hu. destruct Hu as [Hu _]. apply in_map_iff in Hu. destruct Hu as (x & <- & Hx). destruct (P x Hx) as (A & B & _). split; assumption. }
  clearbody r. assert (Hv' : In v (fold_left (detail c) dets r)) by (destruct r; [destruct Hv|exact Hv]). clear Hv. revert r Q Hv'.
  induction dets as [|d dets IH]; intros r Q Hv; cbn [fold_left] in Hv; [auto|].
  apply (IH (fun h => T (or_intror h)) (fun d' h => M d' (or_intror h)) (detail c r d)); [|exact Hv].
  intros u Hu. destruct d as [|f]; [exfalso; apply T; left; reflexivity|]. cbn [detail] in Hu. destruct (M (Other f) (or_introl eq_refl) c r u Hu) as (x & Hx & -> & -> & _). auto.
Qed.
Print Assumptions C133_detailer_refuted.
Example C133_detailer_refuted_ex : exists v, In v (generate (fst (build [] (Bands [ex_row "r"]) 1 0)) 0 1 [] true (mkC 60000 0 0 ["r"%string])) /\ v_ra v = None.
Proof. eexists. split; [left; reflexivity|reflexivity]. Qed.

(** Refuted: a survey keeps its place.  Of two built from one array the first observes the
    place of the second, and the array of the caller has lost its RA. *)
Theorem C133_shared_refuted : forall w j alt1 az1 alt2 az2 w' is held c v, (j < List.length w)%nat -> - (PI / 2) < alt2 < PI / 2 -> - (PI / 2) < c_lat c < PI / 2 ->
  builds w [(Shared j, alt1, az1); (Shared j, alt2, az2)] = (w', is) ->
  is = [j; j] /\ (In v (generate w' j held [ToRaDec] true c) -> at_place alt2 az2 c v) /\ forall u, In u (at_ w' j) -> v_ra u = None.
Proof.
  intros w j alt1 az1 alt2 az2 w' is held c v Hj Ha Hl H.
  assert (K : all_known w [(Shared j, alt1, az1); (Shared j, alt2, az2)]) by (cbn; rewrite update_length; auto).
  assert (I : is = [j; j]) by (cbn in H; injection H as _ <-; reflexivity). split; [exact I|]. subst is. split.
  - intros Hv. apply (C133_place _ _ _ _ 1 (Shared j) alt2 az2 j held [ToRaDec] true c v K H); auto.
    + intros [|[|k']] s' a' z' Lt E; try lia. destruct k'; discriminate.
    + left. reflexivity.
    + intros d [<-|[]]. exact Logic.I.
  - intros u Hu. apply (builds_at _ _ _ _ 1 (Shared j) alt2 az2 j K H eq_refl eq_refl) in Hu; [tauto|]. intros [|[|k']] s' a' z' Lt E; try lia. destruct k'; discriminate.
Qed.
Print Assumptions C133_shared_refuted.
Example C133_shared_refuted_ex : exists v, In v (generate (fst (builds [[ex_row "r"]] [(Shared 0, 1, 0); (Shared 0, 1 / 2, 0)])) 0 1 [ToRaDec] true (mkC 60000 0 0 ["r"%string])).
Proof. eexists. left. reflexivity. Qed.
