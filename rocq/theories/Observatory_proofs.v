(** Proofs about the observatory clock. *)
From Coq Require Import List ZArith QArith Qround Bool Lia Lqa Sorted.
From Verif Require Import Base Obs Downtime Observatory.
Import ListNotations.
Open Scope nat_scope.

(** Nights sorted: each starts before it ends and ends before the next starts. *)
Definition nights_ok (l : list (Q * Q)) : Prop :=
  StronglySorted (fun a b : Q * Q => (snd a < fst b)%Q /\ (fst a < fst b)%Q) l /\
  Forall (fun a : Q * Q => (fst a <= snd a)%Q) l.

Lemma nights_starts : forall l, nights_ok l -> StronglySorted Qle (map fst l).
Proof.
  intros l [H _]. induction H as [|a r Hr IH Ha]; cbn; constructor; auto.
  rewrite Forall_forall in *. intros x Hx. apply in_map_iff in Hx. destruct Hx as [d [<- Hd]].
  destruct (Ha d Hd). lra.
Qed.

Section Check.
Variable cloudy : Q -> bool.
Variable nights downs : list (Q * Q).
Hypothesis HN : nights_ok nights.
Hypothesis HD : disjoint downs.

Lemma skip_clouds_spec : forall fuel t r, skip_clouds cloudy fuel t = Ok r ->
  cloudy r = false /\ (t <= r)%Q /\ (cloudy t = true -> (t < r)%Q).
Proof.
  induction fuel as [|fuel IH]; intros t r H; cbn in H; destruct (cloudy t) eqn:E; try discriminate.
  - injection H as <-. split; [exact E|]. split; [lra|discriminate].
  - destruct (IH _ _ H) as (A & L & _). split; [exact A|]. split; intros; lra.
  - injection H as <-. split; [exact E|]. split; [lra|discriminate].
Qed.

Lemma ss_nights : forall m k a b, nth_error nights k = Some (a, b) ->
  (k < ss_right (map fst nights) m <-> (a <= m)%Q).
Proof.
  intros m k a b H. destruct (ss_right_spec _ m (nights_starts _ HN)) as [K _].
  apply K. now rewrite nth_error_map, H.
Qed.

Lemma ss_le : forall m, ss_right (map fst nights) m <= length nights.
Proof.
  intros m. destruct (ss_right_spec _ m (nights_starts _ HN)) as [_ K]. now rewrite map_length in K.
Qed.

Lemma py_nth_nat : forall A (l : list A) i, py_nth l (Z.of_nat i) = nth_error l i.
Proof. intros A l i. unfold py_nth. destruct (Z.ltb_spec (Z.of_nat i) 0); [lia|]. now rewrite Nat2Z.id. Qed.

(** The start of the next night is later than the time looked up. *)
Lemma next_start : forall m a b, py_nth nights (Z.of_nat (ss_right (map fst nights) m) - 1 + 1) = Some (a, b) ->
  (m < a)%Q.
Proof.
  intros m a b H. replace (Z.of_nat (ss_right (map fst nights) m) - 1 + 1)%Z
    with (Z.of_nat (ss_right (map fst nights) m)) in H by lia.
  rewrite py_nth_nat in H. pose proof (ss_nights m _ _ _ H) as K.
  destruct (Qlt_le_dec m a) as [L|L]; [exact L|]. apply K in L. lia.
Qed.

Lemma check_once_spec : forall fuel m p t, check_once cloudy nights downs fuel m = Ok (p, t) ->
  (p = true -> good_time cloudy nights downs m) /\ (p = false -> (m < t)%Q).
Proof.
  intros fuel m p t H. unfold check_once in H.
  set (i := (Z.of_nat (ss_right (map fst nights) m) - 1)%Z) in *.
  set (r0 := if cloudy m then _ else _) in H.
  assert (H0 : forall q u, r0 = Ok (q, u) -> (q = true -> cloudy m = false) /\ (q = false -> (m < u)%Q)).
  { intros q u Hr. unfold r0 in Hr. destruct (cloudy m) eqn:EC.
    - destruct (skip_clouds cloudy fuel m) as [r|] eqn:ES; [|discriminate]. cbn in Hr. injection Hr as <- <-.
      split; [discriminate|]. intros _. now apply (skip_clouds_spec _ _ _ ES).
    - injection Hr as <- <-. split; [auto|discriminate]. }
  destruct r0 as [[q0 u0]|]; [|discriminate]. cbn [bind] in H.
  specialize (H0 q0 u0 eq_refl) as [H0a H0b].
  destruct (py_nth nights i) as [[a b]|] eqn:EN; [|discriminate].
  destruct (Qltb b m) eqn:EB.
  - (* after the end of the night: some later start, or its override *)
    destruct (py_nth nights (i + 1)) as [[a' b']|] eqn:EN1; [|discriminate]. cbn [bind] in H.
    pose proof (next_start m a' b' EN1) as NS.
    assert (X : exists u, bind (if Qltb m a then Ok (false, a') else Ok (false, a')) (fun r2 : bool * Q =>
       let '(up, t) := check_up downs m in Ok (if up then r2 else (false, t))) = Ok (false, u) /\ (m < u)%Q).
    { assert (Y : (if Qltb m a then Ok (false, a') else Ok (false, a')) = Ok (false, a')) by (destruct (Qltb m a); reflexivity).
      rewrite Y. cbn [bind]. destruct (check_up_exact downs m HD) as [U1 U2].
      destruct (check_up downs m) as [[|] u]; [exists a'; auto|].
      destruct (U1 u eq_refl) as (s & _ & _ & L). exists u; auto. }
    destruct X as (u & X1 & X2). destruct (Qltb m a); cbn [bind] in H, X1; rewrite X1 in H; injection H as <- <-;
      (split; [discriminate|auto]).
  - apply Qltb_false in EB. cbn [bind] in H. destruct (Qltb m a) eqn:EA.
    + destruct (py_nth nights (i + 1)) as [[a' b']|] eqn:EN1; [|discriminate]. cbn [bind] in H.
      pose proof (next_start m a' b' EN1) as NS. destruct (check_up_exact downs m HD) as [U1 U2].
      destruct (check_up downs m) as [[|] u]; injection H as <- <-; (split; [discriminate|]); intros _; [exact NS|].
      now destruct (U1 u eq_refl) as (s & _ & _ & L).
    + apply Qltb_false in EA. cbn [bind] in H. destruct (check_up_exact downs m HD) as [U1 U2].
      destruct (check_up downs m) as [[|] u].
      * injection H as <- <-. split; [|exact H0b]. intros Hp. split; [auto|]. split; [|now destruct (U2 u eq_refl)].
        exists a, b. split; [|auto]. unfold py_nth in EN. destruct (Z.ltb i 0).
        -- destruct (Z.ltb _ 0); [discriminate|]. eapply nth_error_In; eauto.
        -- eapply nth_error_In; eauto.
      * injection H as <- <-. split; [discriminate|]. intros _. now destruct (U1 u eq_refl) as (s & _ & _ & L).
Qed.

Lemma check_mjd_spec : forall fuel m p t, check_mjd cloudy nights downs fuel m = Ok (p, t) ->
  good_time cloudy nights downs t /\ (p = true -> t = m) /\ (p = false -> (m < t)%Q).
Proof.
  induction fuel as [|f IH]; intros m p t H; [discriminate|]. cbn [check_mjd] in H.
  destruct (check_once cloudy nights downs f m) as [[q u]|] eqn:EO; [|discriminate]. cbn [bind fst snd] in H.
  destruct (check_once_spec _ _ _ _ EO) as [S1 S2]. destruct q.
  - injection H as <- <-. split; [auto|]. split; [auto|discriminate].
  - specialize (S2 eq_refl). clear EO S1.
    assert (G : forall g x, (m < x)%Q ->
      (fix wl (g : nat) (m : Q) : res (bool * Q) :=
                match g with
                | 0 => Raise OutOfFuel
                | S g' => bind (check_mjd cloudy nights downs f m) (fun r' => if fst r' then Ok (false, snd r') else wl g' (snd r'))
                end) g x = Ok (p, t) -> good_time cloudy nights downs t /\ p = false /\ (m < t)%Q).
    { induction g as [|g IHg]; intros x Hx Hw; [discriminate|].
      destruct (check_mjd cloudy nights downs f x) as [[p' x']|] eqn:EC; [|discriminate]. cbn [bind fst snd] in Hw.
      destruct (IH _ _ _ EC) as (G1 & G2 & G3). destruct p'.
      - injection Hw as <- <-. split; [exact G1|]. split; [reflexivity|]. rewrite (G2 eq_refl). exact Hx.
      - apply (IHg x'); [specialize (G3 eq_refl); lra|exact Hw]. }
    destruct (G _ _ S2 H) as (G1 & G2 & G3). split; [exact G1|]. split; [congruence|auto].
Qed.

(** Conversely a good time is accepted as it is. *)
Lemma check_mjd_accepts : forall f m, good_time cloudy nights downs m ->
  check_mjd cloudy nights downs (S f) m = Ok (true, m).
Proof.
  intros f m (G1 & (a & b & Hin & Hab) & G3). cbn [check_mjd].
  assert (E : check_once cloudy nights downs f m = Ok (true, m)); [|now rewrite E].
  unfold check_once. rewrite G1. cbn [bind].
  apply In_nth_error in Hin. destruct Hin as [k Hk].
  assert (Ek : ss_right (map fst nights) m = S k).
  { assert (k < ss_right (map fst nights) m) by (apply (ss_nights m k a b Hk); apply Hab).
    destruct (Nat.eq_dec (ss_right (map fst nights) m) (S k)) as [E|E]; [exact E|]. exfalso.
    pose proof (ss_le m). destruct (nth_error nights (S k)) as [[a' b']|] eqn:E1.
    - assert (S k < ss_right (map fst nights) m) by lia. apply (ss_nights m _ _ _ E1) in H1.
      assert (L : k < S k) by lia.
      pose proof (sorted_nth _ _ _ _ _ _ _ (proj1 HN) L Hk E1) as [K _]. cbn in K. lra.
    - apply nth_error_None in E1. lia. }
  rewrite Ek. replace (Z.of_nat (S k) - 1)%Z with (Z.of_nat k) by lia. rewrite py_nth_nat, Hk.
  assert (E1 : Qltb b m = false) by (apply Qltb_false; apply Hab).
  assert (E2 : Qltb m a = false) by (apply Qltb_false; apply Hab).
  rewrite E1. cbn [bind]. rewrite E2. cbn [bind].
  destruct (check_up_exact downs m HD) as [U1 U2]. destruct (check_up downs m) as [[|] u]; [reflexivity|].
  exfalso. apply G3. destruct (U1 u eq_refl) as (s & A1 & A2 & A3). exists s, u. auto.
Qed.

End Check.

Section Obsy.
Context {K : Type}.
Variable B : kinB K.
Variable cloudy : Q -> bool.
Variable nights downs : list (Q * Q).
Variable mjd_start park_after : Q.
Variable fuel : nat.
Hypothesis HN : nights_ok nights.
Hypothesis HD : disjoint downs.
Hypothesis HP : forall k d m k' s v, k_observe B k d m = (k', Some (s, v)) -> (0 <= s)%Q /\ (0 <= v)%Q.

Notation observe := (observe B cloudy nights downs mjd_start park_after fuel).
Notation orun := (orun B cloudy nights downs mjd_start park_after fuel).

(** What one completed visit looks like. *)
Lemma observe_done : forall y d y' v nn, observe y d = (y', Ok (Some v, nn)) ->
  o_id (v_obs v) = y_ctr y /\ y_ctr y' = (y_ctr y + 1)%Z /\ nn = false /\
  (o_mjd (v_obs v) == y_mjd y + v_slew v / 86400)%Q /\
  (y_mjd y' == o_mjd (v_obs v) + v_time v / 86400)%Q /\
  (0 <= v_slew v)%Q /\ (0 <= v_time v)%Q /\
  o_night (v_obs v) = night_of mjd_start (o_mjd (v_obs v)) /\
  good_time cloudy nights downs (y_mjd y + (v_slew v + v_time v) / 86400)%Q.
Proof.
  intros y d y' v nn H. unfold Observatory.observe in H.
  destruct (k_observe B _ d (y_mjd y)) as [k1 [[s vt]|]] eqn:EK; [|discriminate].
  destruct (HP _ _ _ _ _ _ EK) as [P1 P2].
  destruct (check_mjd cloudy nights downs fuel (y_mjd y + (s + vt) / 86400)) as [[[|] m]|] eqn:EC; try discriminate.
  injection H as <- <- <-. cbn [v_obs v_slew v_time set_done o_id o_mjd o_night y_ctr y_mjd].
  destruct (check_mjd_spec _ _ _ HN HD _ _ _ _ EC) as (G & E & _). rewrite (E eq_refl) in G.
  repeat split; auto; try reflexivity; apply G.
Qed.

Lemma observe_other : forall y d y' r, observe y d = (y', r) ->
  (forall v nn, r <> Ok (Some v, nn)) -> y_ctr y' = y_ctr y /\ (y_mjd y <= y_mjd y')%Q.
Proof.
  intros y d y' r H Hr. unfold Observatory.observe in H.
  destruct (k_observe B _ d (y_mjd y)) as [k1 [[s vt]|]] eqn:EK; [|injection H as <- <-; split; [reflexivity|apply Qle_refl]].
  destruct (HP _ _ _ _ _ _ EK) as [P1 P2].
  destruct (check_mjd cloudy nights downs fuel (y_mjd y + (s + vt) / 86400)) as [[[|] m]|] eqn:EC.
  - injection H as <- <-. exfalso. eapply Hr. reflexivity.
  - injection H as <- <-. split; [reflexivity|]. cbn.
    destruct (check_mjd_spec _ _ _ HN HD _ _ _ _ EC) as (_ & _ & L). specialize (L eq_refl).
    assert (0 <= (s + vt) / 86400)%Q by (apply Qle_shift_div_l; [reflexivity|lra]). lra.
  - injection H as <- <-. split; [reflexivity|apply Qle_refl].
Qed.

(** Consecutive ids from [id]; each visit begins no earlier than [t], the end of
    the previous one. *)
Fixpoint well_timed (id : Z) (t : Q) (vs : list visit) : Prop :=
  match vs with
  | [] => True
  | v :: r => o_id (v_obs v) = id /\ (t <= o_mjd (v_obs v))%Q /\
              o_night (v_obs v) = night_of mjd_start (o_mjd (v_obs v)) /\
              well_timed (id + 1)%Z (o_mjd (v_obs v) + v_time v / 86400)%Q r
  end.

Lemma well_timed_weaken : forall vs id t t', (t' <= t)%Q -> well_timed id t vs -> well_timed id t' vs.
Proof.
  intros [|v r] id t t' H W; cbn in *; [exact I|]. destruct W as (A & L & N & R).
  repeat split; auto. lra.
Qed.

Definition forward_op (o : oop) : Prop := match o with YAdvance dt => (0 <= dt)%Q | _ => True end.

Lemma orun_well_timed : forall l y y' vs, Forall forward_op l -> orun y l = (y', vs) ->
  well_timed (y_ctr y) (y_mjd y) vs /\ (y_mjd y <= y_mjd y')%Q /\
  y_ctr y' = (y_ctr y + Z.of_nat (length vs))%Z.
Proof.
  induction l as [|o l IH]; intros y y' vs HF H; cbn [Observatory.orun] in H.
  - injection H as <- <-. cbn. split; [exact I|]. split; [apply Qle_refl|lia].
  - inversion HF; subst. destruct o as [d|dt].
    + destruct (observe y d) as [y1 [[[v|] nn]|e]] eqn:EO.
      * destruct (orun y1 l) as [y2 vs2] eqn:ER. injection H as <- <-.
        destruct (observe_done _ _ _ _ _ EO) as (A1 & A2 & _ & A4 & A5 & A6 & A7 & A8 & _).
        destruct (IH _ _ _ H3 ER) as (W & L & C).
        assert (S1 : (0 <= v_slew v / 86400)%Q) by (apply Qle_shift_div_l; [reflexivity|lra]).
        assert (S2 : (0 <= v_time v / 86400)%Q) by (apply Qle_shift_div_l; [reflexivity|lra]).
        cbn [well_timed length]. split; [|split; [lra|rewrite C, A2; lia]].
        split; [exact A1|]. split; [lra|]. split; [exact A8|]. rewrite <- A2.
        eapply well_timed_weaken; [|exact W]. lra.
      * destruct (observe_other _ _ _ _ EO) as [C L]; [discriminate|].
        destruct (IH _ _ _ H3 H) as (W & L2 & C2). split; [|split; [lra|congruence]].
        rewrite <- C. eapply well_timed_weaken; [exact L|exact W].
      * injection H as <- <-. destruct (observe_other _ _ _ _ EO) as [C L]; [discriminate|].
        cbn. split; [exact I|]. split; [exact L|lia].
    + destruct (IH _ _ _ H3 H) as (W & L2 & C2). cbn [y_mjd y_ctr] in *. cbn in H2.
      split; [eapply well_timed_weaken; [|exact W]; lra|]. split; [lra|exact C2].
Qed.

(** When no downtime is shorter than the slew and visit together, and the clock
    is at a good time when [observe] is called, no downtime touches the visit. *)
Lemma visit_outside_downtime : forall y d y' v nn, observe y d = (y', Ok (Some v, nn)) ->
  ~ covered downs (y_mjd y) ->
  (forall s e, In (s, e) downs -> ((v_slew v + v_time v) / 86400 <= e - s)%Q) ->
  forall m, (y_mjd y <= m)%Q -> (m <= y_mjd y')%Q -> ~ covered downs m.
Proof.
  intros y d y' v nn H N L m M1 M2 (s & e & Hin & C1 & C2).
  destruct (observe_done _ _ _ _ _ H) as (_ & _ & _ & A4 & A5 & _ & _ & _ & (_ & _ & G)).
  specialize (L s e Hin).
  assert (E : ((v_slew v + v_time v) / 86400 == v_slew v / 86400 + v_time v / 86400)%Q) by field.
  rewrite E in *.
  assert (S1 : (y_mjd y < s)%Q).
  { destruct (Qlt_le_dec (y_mjd y) s) as [X|X]; [exact X|]. exfalso. apply N. exists s, e. repeat split; auto; lra. }
  apply G. exists s, e. split; [exact Hin|]. split; lra.
Qed.

End Obsy.
