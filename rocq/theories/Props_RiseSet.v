(** C112: rising and setting times. *)
From Coq Require Import List Bool Reals Lra Lia ZArith String.
From Verif Require Import Base Sphere Angles RiseSet.
Import ListNotations.
Open Scope R_scope.

Lemma max_in : forall l x, (forall y, In y l -> y <= fold_left Rmax l x) /\ x <= fold_left Rmax l x.
Proof.
  intros l. induction l as [|z l IH]; intros x; cbn [fold_left]; [split; [intros y []|lra]|]. destruct (IH (Rmax x z)) as (A & B). split; [|eapply Rle_trans; [apply Rmax_l|exact B]].
  intros y [<-|I]; [eapply Rle_trans; [apply Rmax_r|exact B]|now apply A].
Qed.
Lemma max_is : forall l x, fold_left Rmax l x = x \/ In (fold_left Rmax l x) l.
Proof.
  intros l. induction l as [|z l IH]; intros x; cbn [fold_left]; [now left|]. destruct (IH (Rmax x z)) as [E|I]; [|right; now right]. rewrite E. unfold Rmax. destruct (Rle_dec x z); [right; now left|now left].
Qed.
Lemma np_max_lt : forall l m t, np_max l = Ok m -> (ltb m t = true <-> forall x, In x l -> x < t).
Proof.
  intros [|x l] m t E; [discriminate|]. injection E as <-. unfold ltb. destruct (max_in l x) as (A & B). destruct (Rlt_dec _ t) as [L|L]; split; try discriminate; auto.
  - intros _ y [<-|I]; [lra|]. specialize (A y I). lra.
  - intros H. exfalso. apply L. destruct (max_is l x) as [E|I]; [rewrite E; apply H; now left|apply H; now right].
Qed.
Lemma np_max_ok : forall l, l <> [] -> exists m, np_max l = Ok m.
Proof. intros [|x l] H; [contradiction|]. eexists. reflexivity. Qed.

Lemma iter_r : forall (f : R -> R) k x, Nat.iter (S k) f x = Nat.iter k f (f x).
Proof. intros f k x. induction k as [|k IH]; [reflexivity|]. change (f (Nat.iter (S k) f x) = f (Nat.iter k f (f x))). now rewrite IH. Qed.

Section Body.
Variables (lst body_ra body_dec : R -> R) (lat : R) (altitude : R -> R).
Let step (alt : R) (k : nat) (t : R) : R := Nat.iter k (newton lst body_ra body_dec lat altitude alt) t.

Lemma refine_stop : forall alt tol n mjds last k, mjds <> [] -> (k < n)%nat -> (forall t, In t mjds -> Rabs (altitude (step alt k t) - alt) < tol) ->
  exists j alts, (j <= k)%nat /\ refine lst body_ra body_dec lat altitude alt tol n mjds last = Ok (map (step alt j) mjds, Some (true, alts)) /\ (forall t, In t mjds -> Rabs (altitude (step alt j t) - alt) < tol).
Proof.
  intros alt tol n. induction n as [|n IH]; intros mjds last k NE K H; [lia|]. cbn [refine]. destruct (np_max_ok (map (fun a => Rabs (a - alt)) (map altitude mjds))) as (m & M); [destruct mjds; [contradiction|discriminate]|]. rewrite M. cbn [bind].
  destruct (ltb m tol) eqn:L.
  - exists 0%nat, (map altitude mjds). split; [lia|]. split; [now rewrite map_id|]. intros t I. apply (proj1 (np_max_lt _ _ _ M) L). rewrite map_map. apply in_map_iff. exists t. auto.
  - destruct k as [|k].
    + exfalso. assert (B : ltb m tol = true) by (apply (np_max_lt _ _ _ M); intros x X; rewrite map_map in X; apply in_map_iff in X as (t & <- & I); now apply H). congruence.
    + destruct (IH (map (newton lst body_ra body_dec lat altitude alt) mjds) (Some (false, map altitude mjds)) k) as (j & alts & J & E & Q).
      * destruct mjds; [contradiction|discriminate].
      * lia.
      * intros t I. apply in_map_iff in I as (t' & <- & I). unfold step. rewrite <- iter_r. now apply H.
      * exists (S j), alts. split; [lia|]. rewrite E. split.
        { rewrite map_map. do 2 f_equal. apply map_ext. intros t. unfold step. now rewrite iter_r. }
        { intros t I. unfold step. rewrite iter_r. apply Q, in_map, I. }
Qed.
End Body.

Definition words (which_night : string) : Prop := which_night = "previous"%string \/ which_night = "nearest"%string \/ which_night = "next"%string.
Lemma words_ok : forall w, words w -> exists d, night_wrap w = Ok d /\ (d = 0 \/ d = 180 \/ d = 360).
Proof. intros w [-> |[-> | ->]]; eexists; (split; [reflexivity|]); auto. Qed.

(** If Newton's method, from the first guesses, has all nights within the tolerance after some number
    of steps below max_iter, there is a time for each night, the body is within the tolerance of the
    altitude at each of them, and no warning of convergence is given. *)
Theorem C112_converges : forall lst body_ra body_dec lat altitude nights dir which_night alt tol max_iter k wrap, nights <> [] -> night_wrap which_night = Ok wrap -> (k < max_iter)%nat ->
  (forall t, In t nights -> Rabs (altitude (Nat.iter k (newton lst body_ra body_dec lat altitude alt) (guess lst body_ra body_dec lat (event_direction dir) alt wrap t)) - alt) < tol) ->
  exists l w, riseset_times lst body_ra body_dec lat altitude nights dir which_night alt tol max_iter = Ok (l, w) /\ List.length l = List.length nights /\
  Forall (fun t => Rabs (altitude t - alt) < tol) l /\ forall n, ~ In (NotConverged n) w.
Proof.
  intros lst bra bdec lat altitude nights dir wn alt tol mi k wrap NE W K H. unfold riseset_times. rewrite W. cbn [bind].
  destruct (refine_stop lst bra bdec lat altitude alt tol mi (map (guess lst bra bdec lat (event_direction dir) alt wrap) nights) None k) as (j & alts & J & E & Q); [destruct nights; [contradiction|discriminate]|exact K| |].
  { intros t I. apply in_map_iff in I as (t' & <- & I). now apply H. }
  rewrite E. cbn [bind]. set (l := map _ (map _ nights)) in *. assert (LL : List.length l = List.length nights) by (unfold l; now rewrite !map_length).
  destruct (np_max_ok (map (fun p => Rabs (fst p - snd p)) (combine l nights))) as (m & M).
  { destruct nights as [|n nights]; [contradiction|]. destruct l; [discriminate|]. discriminate. }
  rewrite M. cbn [bind]. do 2 eexists. split; [reflexivity|]. split; [exact LL|]. split.
  - apply Forall_forall. intros t I. unfold l in I. apply in_map_iff in I as (t' & <- & I). now apply Q.
  - intros n. destruct (ltb 1 m); [intros [X|[]]; discriminate X|intros []].
Qed.
Print Assumptions C112_converges.

(** A body that keeps its place among the stars, over a site with uniform sidereal time. *)
Record fixed (lst body_ra body_dec : R -> R) (lat : R) (altitude : R -> R) (dec : R) : Prop := {
  even : forall a b, lst a - body_ra a - (lst b - body_ra b) = (a - b) * (2 * PI / (9972696 / 10000000));
  still : forall t, body_dec t = dec;
  place : forall t, -90 <= altitude t <= 90;
  horizon : forall t, sin (radians (altitude t)) = sin dec * sin lat + cos dec * cos lat * cos (lst t - body_ra t) }.

(** For such a body every answer is exact: the body is at the altitude, sinking for "down" and rising
    otherwise (its hour angle west or east), within the sidereal day before, around or after the night,
    and nothing is warned of. *)
Theorem C112_star : forall lst body_ra body_dec lat altitude dec nights dir which_night alt tol max_iter,
  fixed lst body_ra body_dec lat altitude dec -> nights <> [] -> words which_night -> 0 < cos dec -> 0 < cos lat -> -90 <= alt <= 90 ->
  -1 <= (sin (radians alt) - sin dec * sin lat) / (cos dec * cos lat) <= 1 -> 0 < tol -> (0 < max_iter)%nat ->
  exists l, riseset_times lst body_ra body_dec lat altitude nights dir which_night alt tol max_iter = Ok (l, []) /\
  Forall2 (fun night t => altitude t = alt /\
    (if String.eqb dir "down" then 0 <= sin (lst t - body_ra t) else sin (lst t - body_ra t) <= 0) /\
    (which_night = "previous"%string -> - (9972696 / 10000000) <= t - night < 0) /\
    (which_night = "nearest"%string -> - (9972696 / 10000000) / 2 <= t - night < (9972696 / 10000000) / 2) /\
    (which_night = "next"%string -> 0 <= t - night < 9972696 / 10000000)) nights l.
Proof.
  intros lst bra bdec lat altitude dec nights dir wn alt tol mi FX NE WD CD CL AL ARG TOL MI. assert (PP := PI_RGT_0). destruct (words_ok wn WD) as (wrap & WE & WV).
  set (P := 9972696 / 10000000) in *. assert (P0 : 0 < P < 1) by (unfold P; lra). set (arg := (sin (radians alt) - sin dec * sin lat) / (cos dec * cos lat)) in *.
  assert (G : forall night, let t := guess lst bra bdec lat (event_direction dir) alt wrap night in altitude t = alt /\
    (if String.eqb dir "down" then 0 <= sin (lst t - bra t) else sin (lst t - bra t) <= 0) /\ P * ((wrap - 360) / 360) <= t - night < P * (wrap / 360)).
  { intros night t. set (d := wrap_at (event_direction dir * acos arg - (lst night - bra night)) wrap).
    assert (TE : t = night + d * (P / (2 * PI))) by (unfold t, guess; rewrite (still _ _ _ _ _ _ FX); reflexivity).
    assert (HA : lst t - bra t = lst night - bra night + d).
    { assert (E := even _ _ _ _ _ _ FX t night). fold P in E. rewrite TE in E at 3. replace ((night + d * (P / (2 * PI)) - night) * (2 * PI / P)) with d in E by (field; lra). lra. }
    assert (DB : radians wrap - 2 * PI <= d < radians wrap) by (unfold d, wrap_at; match goal with |- context [Rmod ?x _] => assert (R := Rmod_range x (2 * PI) ltac:(lra)) end; lra).
    assert (DC : congr (2 * PI) d (event_direction dir * acos arg - (lst night - bra night))).
    { unfold d, wrap_at. match goal with |- context [Rmod ?x _] => destruct (Rmod_congr x (2 * PI)) as (k & K) end. exists k. rewrite K. ring. }
    destruct DC as (k & K). assert (HE : lst t - bra t = event_direction dir * acos arg + 2 * IZR k * PI) by (rewrite HA, K; ring).
    assert (AB := acos_bound arg). assert (COS : cos (lst t - bra t) = arg).
    { rewrite HE. assert (C : forall x, cos (x + 2 * IZR k * PI) = cos x).
      { intros x. destruct (Z_le_gt_dec 0 k) as [L|L].
        - rewrite <- (Z2Nat.id k L), <- INR_IZR_INZ. apply cos_period.
        - replace k with (- Z.of_nat (Z.to_nat (- k)))%Z by lia. rewrite opp_IZR, <- INR_IZR_INZ. rewrite <- (cos_period (x + _) (Z.to_nat (- k))). f_equal. ring. }
      rewrite C. unfold event_direction. destruct (String.eqb dir "down"); [rewrite Rmult_1_l; apply cos_acos, ARG|]. replace (-1 * acos arg) with (- acos arg) by ring. rewrite cos_neg. apply cos_acos, ARG. }
    assert (SIN : sin (lst t - bra t) = event_direction dir * sin (acos arg)).
    { rewrite HE. assert (C : forall x, sin (x + 2 * IZR k * PI) = sin x).
      { intros x. destruct (Z_le_gt_dec 0 k) as [L|L].
        - rewrite <- (Z2Nat.id k L), <- INR_IZR_INZ. apply sin_period.
        - replace k with (- Z.of_nat (Z.to_nat (- k)))%Z by lia. rewrite opp_IZR, <- INR_IZR_INZ. rewrite <- (sin_period (x + _) (Z.to_nat (- k))). f_equal. ring. }
      rewrite C. unfold event_direction. destruct (String.eqb dir "down"); [now rewrite !Rmult_1_l|]. replace (-1 * acos arg) with (- acos arg) by ring. rewrite sin_neg. ring. }
    split; [|split].
    - assert (HO := horizon _ _ _ _ _ _ FX t). rewrite COS in HO. assert (EQ : cos dec * cos lat * arg = sin (radians alt) - sin dec * sin lat) by (unfold arg; field; lra). rewrite EQ in HO. assert (PL := place _ _ _ _ _ _ FX t).
      assert (I : radians (altitude t) = radians alt).
      { assert (R : forall a, -90 <= a <= 90 -> - (PI / 2) <= radians a <= PI / 2) by (intros a A; unfold radians; split; nra).
        assert (RA := R _ PL). assert (RB := R _ AL). apply Rle_antisym; apply sin_incr_0; lra. }
      unfold radians in I. apply (Rmult_eq_reg_r (PI / 180)); [|lra]. unfold Rdiv in *. lra.
    - assert (S0 : 0 <= sin (acos arg)) by (apply sin_ge_0; lra). rewrite SIN. unfold event_direction. destruct (String.eqb dir "down"); lra.
    - rewrite TE. replace (night + d * (P / (2 * PI)) - night) with (d * (P / (2 * PI))) by ring. assert (Q0 : 0 < P / (2 * PI)) by (apply Rdiv_lt_0_compat; lra).
      replace (P * ((wrap - 360) / 360)) with ((radians wrap - 2 * PI) * (P / (2 * PI))) by (unfold radians; field; lra). replace (P * (wrap / 360)) with (radians wrap * (P / (2 * PI))) by (unfold radians; field; lra).
      split; [apply Rmult_le_compat_r; lra|apply Rmult_lt_compat_r; lra]. }
  unfold riseset_times. rewrite WE. cbn [bind]. set (gs := map _ nights).
  destruct (refine_stop lst bra bdec lat altitude alt tol mi gs None 0) as (j & alts & J & E & Q); [unfold gs; destruct nights; [contradiction|discriminate]|exact MI| |].
  { intros t I. unfold gs in I. apply in_map_iff in I as (n & <- & I). cbn. destruct (G n) as (-> & _). rewrite Rminus_diag_eq by reflexivity. now rewrite Rabs_R0. }
  rewrite E. cbn [bind]. assert (j = 0%nat) by lia. subst j. cbn [Nat.iter]. rewrite map_id.
  destruct (np_max_ok (map (fun p => Rabs (fst p - snd p)) (combine gs nights))) as (m & M); [unfold gs; destruct nights; [contradiction|discriminate]|]. rewrite M. cbn [bind].
  assert (NF : ltb 1 m = false).
  { unfold ltb. destruct (Rlt_dec 1 m) as [L|L]; [|reflexivity]. exfalso. assert (T : ltb m (1 + 1 / 2 * (m - 1)) = true).
    { apply (np_max_lt _ _ _ M). intros x X. apply in_map_iff in X as ((t, n) & <- & X). cbn [fst snd]. unfold gs in X. clear - X G WV P0 L.
      assert (TG : t = guess lst bra bdec lat (event_direction dir) alt wrap n).
      { revert X. induction nights as [|a nights IH]; cbn [map combine]; [intros []|]. intros [X|X]; [injection X as <- <-; reflexivity|now apply IH]. }
      destruct (G n) as (_ & _ & B). rewrite <- TG in B. assert (Rabs (t - n) <= 1) by (apply Rabs_le; destruct WV as [->|[->| ->]]; lra). lra. }
    unfold ltb in T. destruct (Rlt_dec _ _); [lra|discriminate]. }
  rewrite NF. exists gs. split; [reflexivity|]. unfold gs. clear - G WE. induction nights as [|n nights IH]; cbn [map]; constructor; [|exact IH]. destruct (G n) as (A & B & C & D). split; [exact A|]. split; [exact B|].
  split; [|split]; intros Q; subst wn; cbn in WE; injection WE as <-; lra.
Qed.
Print Assumptions C112_star.
(** There is such a body: on the equator, seen from the equator. *)
Example C112_ex : fixed (fun t => t * (2 * PI / (9972696 / 10000000))) (fun _ => 0) (fun _ => 0) 0 (fun t => degrees (asin (cos (t * (2 * PI / (9972696 / 10000000)))))) 0 /\ -1 <= (sin (radians (-14)) - sin 0 * sin 0) / (cos 0 * cos 0) <= 1.
Proof.
  assert (PP := PI_RGT_0). split.
  - constructor; intros; try reflexivity.
    + ring.
    + assert (B := asin_bound (cos (t * (2 * PI / (9972696 / 10000000))))). set (a := asin _) in *. unfold degrees. assert (E : a = a * 180 / PI * PI / 180) by (field; lra). set (q := a * 180 / PI) in *. clearbody q a. subst a. split; apply (Rmult_le_reg_r (PI / 180)); lra.
    + replace (radians (degrees (asin (cos (t * (2 * PI / (9972696 / 10000000))))))) with (asin (cos (t * (2 * PI / (9972696 / 10000000))))) by (unfold radians, degrees; field; lra). rewrite sin_asin by apply COS_bound. rewrite sin_0, cos_0, Rminus_0_r. ring.
  - rewrite sin_0, cos_0. replace ((sin (radians (-14)) - 0 * 0) / (1 * 1)) with (sin (radians (-14))) by field. apply SIN_bound.
Qed.

(** With one night nothing is ever said about convergence. *)
Theorem C112_single : forall lst bra bdec lat altitude night dir wn alt tol mi l w, riseset_times lst bra bdec lat altitude [night] dir wn alt tol mi = Ok (l, w) -> forall n, ~ In (NotConverged n) w.
Proof.
  intros lst bra bdec lat altitude night dir wn alt tol mi l w E. unfold riseset_times in E. destruct (night_wrap wn) as [wrap|]; [|discriminate]. cbn [bind map] in E.
  assert (H : forall mi t last l' last', (forall b alts, last = Some (b, alts) -> exists a, alts = [a] /\ b = ltb (Rabs (a - alt)) tol) -> refine lst bra bdec lat altitude alt tol mi [t] last = Ok (l', last') ->
    forall b alts, last' = Some (b, alts) -> exists a, alts = [a] /\ b = ltb (Rabs (a - alt)) tol).
  { clear. intros mi. induction mi as [|mi IH]; intros t last l' last' H E; cbn [refine] in E; [injection E as <- <-; exact H|]. cbn [map np_max fold_left bind] in E. destruct (ltb (Rabs (altitude t - alt)) tol) eqn:L.
    - injection E as <- <-. intros b alts Q. injection Q as <- <-. exists (altitude t). split; [reflexivity|]. now rewrite L.
    - eapply IH; [|exact E]. intros b alts Q. injection Q as <- <-. exists (altitude t). split; [reflexivity|]. now rewrite L. }
  destruct (refine _ _ _ _ _ _ _ _ _ _) as [(l', last')|] eqn:RF; [|discriminate]. cbn [bind] in E. assert (H0 : forall b alts, @None (bool * list R) = Some (b, alts) -> exists a, alts = [a] /\ b = ltb (Rabs (a - alt)) tol) by (intros b alts Q; discriminate Q). assert (K := H _ _ _ _ _ H0 RF). clear H H0. destruct (np_max _) as [m|]; [|discriminate]. cbn [bind] in E.
  destruct last' as [([|], alts)|]; [| |discriminate].
  - injection E as <- <-. intros n. destruct (ltb 1 m); [intros [X|[]]; discriminate X|intros []].
  - destruct (K false alts eq_refl) as (a & -> & F). cbn [map combine filter] in E. rewrite <- F in E. cbn [fst filter] in E. injection E as <- <-. intros n. destruct (ltb 1 m); [intros [X|[]]; discriminate X|intros []].
Qed.
Print Assumptions C112_single.
Definition quarter : R -> R := fun _ => PI / 2.
Definition nought : R -> R := fun _ => 0.
Lemma guess_quarter : forall night, guess quarter nought nought 0 (event_direction "down") 0 180 night = night.
Proof.
  intros night. unfold guess, quarter, nought. assert (PP := PI_RGT_0). replace (radians 0) with 0 by (unfold radians; field). rewrite sin_0, cos_0. replace ((0 - 0 * 0) / (1 * 1)) with 0 by field. rewrite acos_0. cbn [event_direction String.eqb Ascii.eqb Bool.eqb].
  unfold wrap_at. replace (1 * (PI / 2) - (PI / 2 - 0) - (radians 180 - 2 * PI)) with PI by (unfold radians; field).
  rewrite <- (Rmod_unique PI PI (2 * PI)) by (try apply congr_refl; lra). unfold radians. field. lra.
Qed.
Lemma newton_quarter : forall altitude t, newton quarter nought nought 0 altitude 0 t = t + sin (radians (altitude t)) * ((9972696 / 10000000) / (2 * PI)).
Proof. intros altitude t. assert (PP := PI_RGT_0). unfold newton, quarter, nought. replace (radians 0) with 0 by (unfold radians; field). rewrite Rminus_0_r, sin_0, cos_0, sin_PI2. field. lra. Qed.
Lemma ltb_false : forall x y, y <= x -> ltb x y = false.
Proof. intros x y H. unfold ltb. destruct (Rlt_dec x y); [lra|reflexivity]. Qed.
Lemma ltb_true : forall x y, x < y -> ltb x y = true.
Proof. intros x y H. unfold ltb. destruct (Rlt_dec x y); [reflexivity|lra]. Qed.
Lemma radians_30 : sin (radians 30) = 1 / 2.
Proof. replace (radians 30) with (PI / 6) by (unfold radians; field). apply sin_PI6. Qed.
Lemma small_move : 0 < 1 / 2 * (9972696 / 10000000 / (2 * PI)) < 1.
Proof. assert (P2 := PI2_3_2). set (q := 9972696 / 10000000 / (2 * PI)). assert (E : q * (2 * PI) = 9972696 / 10000000) by (unfold q; field; lra). clearbody q. nra. Qed.
(** Refuted: that a time which did not converge is warned of.  Here the body stands thirty degrees above
    the altitude asked for. *)
Theorem C112_quiet_refuted : exists lst body_ra body_dec lat altitude night dir which_night alt tol max_iter t,
  riseset_times lst body_ra body_dec lat altitude [night] dir which_night alt tol max_iter = Ok ([t], []) /\ tol < Rabs (altitude t - alt).
Proof.
  exists quarter, nought, nought, 0, (fun _ => 30), 0, "down"%string, "nearest"%string, 0, (1 / 2), 1%nat, (0 + 1 / 2 * ((9972696 / 10000000) / (2 * PI))). split; [|rewrite Rabs_pos_eq; lra].
  unfold riseset_times. change (night_wrap "nearest") with (Ok 180). cbn [bind map]. rewrite guess_quarter. cbn [refine map np_max fold_left bind].
  rewrite ltb_false by (rewrite Rabs_pos_eq; lra). rewrite newton_quarter, radians_30. cbn [combine map fst snd np_max fold_left bind]. assert (SM := small_move). rewrite ltb_false by (rewrite Rabs_pos_eq; lra).
  rewrite ltb_false by (rewrite Rabs_pos_eq; lra). reflexivity.
Qed.
Print Assumptions C112_quiet_refuted.

(** Refuted: that the night a warning names did not converge.  Of two nights the one that did is named. *)
Definition two_nights (t : R) : R := if Rlt_dec t 100 then 0 else 30.
Theorem C112_names_refuted : exists lst body_ra body_dec lat altitude n1 n2 dir which_night alt tol max_iter t1 t2,
  riseset_times lst body_ra body_dec lat altitude [n1; n2] dir which_night alt tol max_iter = Ok ([t1; t2], [NotConverged n1]) /\ altitude t1 = alt /\ tol < Rabs (altitude t2 - alt).
Proof.
  assert (SM := small_move). exists quarter, nought, nought, 0, two_nights, 0, 200, "down"%string, "nearest"%string, 0, (1 / 2), 1%nat, 0, (200 + 1 / 2 * ((9972696 / 10000000) / (2 * PI))).
  assert (A0 : two_nights 0 = 0) by (unfold two_nights; destruct (Rlt_dec 0 100); lra). assert (A1 : two_nights 200 = 30) by (unfold two_nights; destruct (Rlt_dec 200 100); lra).
  assert (A2 : two_nights (200 + 1 / 2 * ((9972696 / 10000000) / (2 * PI))) = 30) by (unfold two_nights; destruct (Rlt_dec _ 100); lra).
  split; [|split; [exact A0|rewrite A2, Rabs_pos_eq; lra]].
  unfold riseset_times. change (night_wrap "nearest") with (Ok 180). cbn [bind map]. rewrite !guess_quarter. cbn [refine map np_max fold_left bind]. rewrite A0, A1.
  rewrite (ltb_false (Rmax _ _)) by (eapply Rle_trans; [|apply Rmax_r]; rewrite Rabs_pos_eq; lra). rewrite !newton_quarter, A0, A1, radians_30. replace (radians 0) with 0 by (unfold radians; field). rewrite sin_0, Rmult_0_l, Rplus_0_r.
  cbn [combine map fst snd np_max fold_left bind]. rewrite (ltb_false 1) by (apply Rmax_lub; rewrite Rabs_pos_eq; lra). rewrite (ltb_true (Rabs (0 - 0))) by (rewrite Rminus_0_r, Rabs_R0; lra). reflexivity.
Qed.
Print Assumptions C112_names_refuted.

(** Refuted: that the time for a night does not depend on the other nights asked about.  Steps go on
    for all nights until the last one is within the tolerance. *)
Definition high_later (t : R) : R := if Rlt_dec t 100 then 30 else 90.
Theorem C112_alone_refuted : exists lst body_ra body_dec lat altitude n1 n2 dir which_night alt tol max_iter t l w,
  riseset_times lst body_ra body_dec lat altitude [n1] dir which_night alt tol max_iter = Ok ([t], []) /\
  riseset_times lst body_ra body_dec lat altitude [n1; n2] dir which_night alt tol max_iter = Ok (l, w) /\ forall t', nth_error l 0 = Some t' -> t' <> t.
Proof.
  assert (SM := small_move). exists quarter, nought, nought, 0, high_later, 0, 200, "down"%string, "nearest"%string, 0, 40, 1%nat, 0.
  assert (A0 : high_later 0 = 30) by (unfold high_later; destruct (Rlt_dec 0 100); lra). assert (A1 : high_later 200 = 90) by (unfold high_later; destruct (Rlt_dec 200 100); lra).
  do 2 eexists. split; [|split].
  - unfold riseset_times. change (night_wrap "nearest") with (Ok 180). cbn [bind map]. rewrite !guess_quarter. cbn [refine map np_max fold_left bind]. rewrite A0. rewrite ltb_true by (rewrite Rabs_pos_eq; lra). cbn [bind combine map fst snd np_max fold_left]. rewrite ltb_false by (rewrite Rminus_0_r, Rabs_R0; lra). reflexivity.
  - unfold riseset_times. change (night_wrap "nearest") with (Ok 180). cbn [bind map]. rewrite !guess_quarter. cbn [refine map np_max fold_left bind]. rewrite A0, A1.
    rewrite (ltb_false (Rmax _ _)) by (eapply Rle_trans; [|apply Rmax_r]; rewrite Rabs_pos_eq; lra). rewrite !newton_quarter, A0, A1, radians_30. cbn [combine map fst snd np_max fold_left bind]. rewrite (ltb_true (Rabs (30 - 0))) by (rewrite Rabs_pos_eq; lra). cbn [fst filter combine]. reflexivity.
  - cbn [nth_error]. intros t' E. injection E as <-. lra.
Qed.
Print Assumptions C112_alone_refuted.

(** Refuted: that which_direction takes 'evening' or 'morning', as documented: both mean rising. *)
Theorem C112_words_refuted : forall lst body_ra body_dec lat altitude nights which_night alt tol max_iter,
  riseset_times lst body_ra body_dec lat altitude nights "evening" which_night alt tol max_iter = riseset_times lst body_ra body_dec lat altitude nights "morning" which_night alt tol max_iter.
Proof. reflexivity. Qed.
Print Assumptions C112_words_refuted.

(** No steps allowed, or no nights, and there is no answer. *)
Theorem C112_steps : forall lst body_ra body_dec lat altitude nights dir which_night alt tol max_iter, words which_night ->
  (nights <> [] -> riseset_times lst body_ra body_dec lat altitude nights dir which_night alt tol 0 = Raise UnboundLocalError) /\
  riseset_times lst body_ra body_dec lat altitude [] dir which_night alt tol max_iter = Raise ValueError.
Proof.
  intros lst bra bdec lat altitude nights dir wn alt tol mi WD. destruct (words_ok wn WD) as (wrap & WE & _). unfold riseset_times. rewrite WE. cbn [bind]. split.
  - intros NE. cbn [refine bind]. destruct (np_max_ok (map (fun p => Rabs (fst p - snd p)) (combine (map (guess lst bra bdec lat (event_direction dir) alt wrap) nights) nights))) as (m & ->); [destruct nights; [contradiction|discriminate]|]. reflexivity.
  - cbn [map]. destruct mi; reflexivity.
Qed.
Print Assumptions C112_steps.
