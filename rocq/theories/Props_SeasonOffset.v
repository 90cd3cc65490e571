(** C147: with the offsets of create_season_offset the season of a pixel changes when the sun passes it. *)
From Coq Require Import List ZArith QArith Qround Bool Lia Lqa.
From Verif Require Import Base Util Util_proofs Props_Util SeasonOffset.
Import ListNotations.
Open Scope nat_scope.

(** The mean sun, which goes round once a year from where it was at night 0, has the RA of the pixel. *)
Definition passes (sun ra t : Q) : Prop := exists k, (ra == sun + t / year + inject_Z k)%Q.
(** Seasons counted from the first such night. *)
Definition season_is (sun ra night : Q) (r : Z) : Prop := exists first, (0 <= first < year)%Q /\ passes sun ra first /\
  (first + inject_Z (r + 1) * year <= night)%Q /\ (night < first + inject_Z (r + 2) * year)%Q.

Lemma year_pos : (0 < year)%Q.
Proof. reflexivity. Qed.
Lemma year_nz : ~ (year == 0)%Q.
Proof. discriminate. Qed.
Lemma qmod1 : forall x, (0 <= qmod x 1 < 1)%Q /\ (qmod x 1 == x - inject_Z (Qfloor x))%Q.
Proof.
  intros x. assert (E : (qmod x 1 == x - inject_Z (Qfloor x))%Q).
  { unfold qmod. assert (D : Qfloor (x / 1) = Qfloor x) by (apply Qfloor_comp; field). rewrite D. ring. }
  split; [|exact E]. rewrite E. pose proof (Qfloor_le x). pose proof (Qlt_floor x) as H'. rewrite inject_Z_plus in H'. change (inject_Z 1) with 1%Q in H'. split; lra.
Qed.
(** The nights since night 0 at which the sun first passes the pixel. *)
Definition wait (sun ra : Q) : Q := (qmod (ra - sun + 1) 1 * year)%Q.
Lemma wait_range : forall sun ra, (0 <= wait sun ra < year)%Q.
Proof. intros sun ra. unfold wait. destruct (qmod1 (ra - sun + 1)) as [[A B] _]. pose proof year_pos. unfold year in *. split; lra. Qed.
Lemma wait_passes : forall sun ra, passes sun ra (wait sun ra).
Proof.
  intros sun ra. destruct (qmod1 (ra - sun + 1)) as [_ E]. exists (Qfloor (ra - sun + 1) - 1)%Z. unfold wait.
  assert (D : (qmod (ra - sun + 1) 1 * year / year == qmod (ra - sun + 1) 1)%Q) by (field; apply year_nz). rewrite D, E.
  unfold Z.sub. rewrite inject_Z_plus. change (inject_Z (- (1))) with (-1)%Q. ring.
Qed.
(** All the nights at which it passes are whole years apart. *)
Lemma passes_years : forall sun ra t u, passes sun ra t -> passes sun ra u -> exists k, (u == t + inject_Z k * year)%Q.
Proof.
  intros sun ra t u [k K] [j J]. exists (k - j)%Z. assert (E : (t / year + inject_Z k == u / year + inject_Z j)%Q) by lra.
  assert (U : (u == (u / year) * year)%Q) by (field; apply year_nz). assert (T : (t == (t / year) * year)%Q) by (field; apply year_nz).
  unfold Z.sub. rewrite inject_Z_plus, inject_Z_opp. rewrite U, T at 1. assert (X : (u / year == t / year + inject_Z k - inject_Z j)%Q) by lra. rewrite X. ring.
Qed.

(** Every offset is at least one year of 365.25 nights back and less than two. *)
Theorem C147_range : forall ras sun, List.length (create_season_offset ras sun) = List.length ras /\
  forall o, In o (create_season_offset ras sun) -> (- (1461 # 2) < o /\ o <= - (1461 # 4))%Q.
Proof.
  intros ras sun. split; [apply map_length|]. intros o I. apply in_map_iff in I as (ra & <- & _). unfold season_offset. fold (wait sun ra).
  pose proof (wait_range sun ra). unfold year in *. split; lra.
Qed.
Print Assumptions C147_range.

(** Season r of a pixel runs from one passage of the sun to the next; before the first passage it is -2. *)
Theorem C147_season : forall ras sun night, exists rs,
  season_calc [night] (create_season_offset ras sun) None None year true = Ok (map inject_Z rs) /\ Forall2 (fun ra r => season_is sun ra night r) ras rs.
Proof.
  intros ras sun night.
  assert (P : paired [night] (create_season_offset ras sun) (map (fun o => (night, o)) (create_season_offset ras sun))) by (right; right; exists night; auto).
  destruct (C40_season _ _ _ None None year P year_pos ltac:(discriminate)) as (rs & E & F). exists rs. split; [exact E|]. clear P E.
  unfold create_season_offset in F. revert rs F. induction ras as [|ra ras IH]; intros rs F; cbn [map] in F; inversion F as [|p r ps' rs' H1 H2]; subst; constructor; [|apply IH; exact H2].
  destruct H1 as (s & [S1 S2] & [_ Rp]). cbn [fst snd] in *. rewrite (Rp (fun x => x)). exists (wait sun ra). split; [apply wait_range|]. split; [apply wait_passes|].
  unfold season_offset in S1, S2. fold (wait sun ra) in S1, S2. rewrite !inject_Z_plus. change (inject_Z 1) with 1%Q. change (inject_Z 2) with 2%Q. pose proof year_pos. unfold year in *. split; lra.
Qed.
Print Assumptions C147_season.
(** The number is fixed by that. *)
Theorem C147_unique : forall sun ra night r r', season_is sun ra night r -> season_is sun ra night r' -> r = r'.
Proof.
  intros sun ra night r r' (f & Rf & Pf & A1 & A2) (g & Rg & Pg & B1 & B2). destruct (passes_years _ _ _ _ Pf Pg) as [k K].
  assert (k = 0%Z).
  { assert (X : (-1 < inject_Z k)%Q) by (unfold year in *; lra). assert (Y : (inject_Z k < 1)%Q) by (unfold year in *; lra).
    change (-1)%Q with (inject_Z (-1)) in X. change 1%Q with (inject_Z 1) in Y. rewrite <- Zlt_Qlt in X, Y. lia. }
  subst k. change (inject_Z 0) with 0%Q in K.
  assert (X : (inject_Z (r + 1) < inject_Z (r' + 2))%Q) by (unfold year in *; lra). assert (Y : (inject_Z (r' + 1) < inject_Z (r + 2))%Q) by (unfold year in *; lra).
  rewrite <- Zlt_Qlt in X, Y. lia.
Qed.
Print Assumptions C147_unique.
(** Between two nights it goes up exactly when the sun passes the pixel, and never down. *)
Theorem C147_rolls : forall sun ra n m r s, (n <= m)%Q -> season_is sun ra n r -> season_is sun ra m s ->
  (r <= s)%Z /\ ((r < s)%Z <-> exists t, passes sun ra t /\ (n < t /\ t <= m)%Q).
Proof.
  intros sun ra n m r s L (f & Rf & Pf & A1 & A2) (g & Rg & Pg & B1 & B2). destruct (passes_years _ _ _ _ Pf Pg) as [k K].
  assert (k = 0%Z).
  { assert (X : (-1 < inject_Z k)%Q) by (unfold year in *; lra). assert (Y : (inject_Z k < 1)%Q) by (unfold year in *; lra).
    change (-1)%Q with (inject_Z (-1)) in X. change 1%Q with (inject_Z 1) in Y. rewrite <- Zlt_Qlt in X, Y. lia. }
  subst k. change (inject_Z 0) with 0%Q in K.
  assert (X : (inject_Z (r + 1) < inject_Z (s + 2))%Q) by (unfold year in *; lra). rewrite <- Zlt_Qlt in X. split; [lia|]. split.
  - intros Lt. exists (f + inject_Z (r + 2) * year)%Q. split; [|split].
    + destruct Pf as [j J]. exists (j - (r + 2))%Z. assert (I : (inject_Z (j - (r + 2)) == inject_Z j - inject_Z (r + 2))%Q) by (unfold Z.sub; rewrite inject_Z_plus, inject_Z_opp; ring). rewrite I.
      assert (D : ((f + inject_Z (r + 2) * year) / year == f / year + inject_Z (r + 2))%Q) by (field; apply year_nz). rewrite D. lra.
    + exact A2.
    + assert (Y : (inject_Z (r + 2) <= inject_Z (s + 1))%Q) by (rewrite <- Zle_Qle; lia). unfold year in *; lra.
  - intros (t & Pt & T1 & T2). destruct (passes_years _ _ _ _ Pf Pt) as [j J].
    assert (Y : (inject_Z (r + 1) < inject_Z j)%Q) by (unfold year in *; lra). assert (W : (inject_Z j < inject_Z (s + 2))%Q) by (unfold year in *; lra).
    rewrite <- Zlt_Qlt in Y, W. lia.
Qed.
Print Assumptions C147_rolls.
(** On the first night every pixel is in season -2, but one the sun is on, which is in season -1. *)
Theorem C147_first : forall sun ra r, season_is sun ra 0 r -> (passes sun ra 0 -> r = (-1)%Z) /\ (~ passes sun ra 0 -> r = (-2)%Z).
Proof.
  intros sun ra r (f & Rf & Pf & A1 & A2). split.
  - intros P0. destruct (passes_years _ _ _ _ P0 Pf) as [k K].
    assert (k = 0%Z).
    { assert (X : (-1 < inject_Z k)%Q) by (unfold year in *; lra). assert (Y : (inject_Z k < 1)%Q) by (unfold year in *; lra).
      change (-1)%Q with (inject_Z (-1)) in X. change 1%Q with (inject_Z 1) in Y. rewrite <- Zlt_Qlt in X, Y. lia. }
    subst k. change (inject_Z 0) with 0%Q in K.
    assert (X : (inject_Z (r + 1) <= inject_Z 0)%Q) by (change (inject_Z 0) with 0%Q; unfold year in *; lra).
    assert (Y : (inject_Z 0 < inject_Z (r + 2))%Q) by (change (inject_Z 0) with 0%Q; unfold year in *; lra). rewrite <- Zle_Qle in X. rewrite <- Zlt_Qlt in Y. lia.
  - intros N. assert (Fp : (0 < f)%Q).
    { destruct Rf as [R0 _]. destruct (Qlt_le_dec 0 f) as [G|G]; [exact G|]. exfalso. apply N. destruct Pf as [k K]. exists k. assert (Z0' : (f == 0)%Q) by lra. rewrite Z0' in K. exact K. }
    assert (X : (inject_Z (r + 1) < inject_Z 0)%Q) by (change (inject_Z 0) with 0%Q; unfold year in *; lra).
    assert (Y : (inject_Z (-1) < inject_Z (r + 2))%Q) by (change (inject_Z (-1)) with (-1)%Q; unfold year in *; lra). rewrite <- Zlt_Qlt in X, Y. lia.
Qed.
Print Assumptions C147_first.
(** Whole turns of a pixel or of the sun make no difference, nor does a turn of both together. *)
Theorem C147_turns : forall sun ra d k, (season_offset (sun + d) (ra + d + inject_Z k) == season_offset sun ra)%Q.
Proof.
  intros sun ra d k. unfold season_offset. destruct (qmod1 (ra + d + inject_Z k - (sun + d) + 1)) as [_ E1]. destruct (qmod1 (ra - sun + 1)) as [_ E2]. rewrite E1, E2.
  assert (F : Qfloor (ra + d + inject_Z k - (sun + d) + 1) = (Qfloor (ra - sun + 1) + k)%Z).
  { assert (X : (ra + d + inject_Z k - (sun + d) + 1 == (ra - sun + 1) + inject_Z k)%Q) by ring. rewrite (Qfloor_comp _ _ X).
    pose proof (Qfloor_le (ra - sun + 1)) as A. pose proof (Qlt_floor (ra - sun + 1)) as B.
    pose proof (Qfloor_le (ra - sun + 1 + inject_Z k)) as C. pose proof (Qlt_floor (ra - sun + 1 + inject_Z k)) as D. rewrite inject_Z_plus in B, D. change (inject_Z 1) with 1%Q in B, D.
    set (p := Qfloor (ra - sun + 1)) in *. set (q := Qfloor (ra - sun + 1 + inject_Z k)) in *.
    assert (U : (inject_Z q < inject_Z (p + k + 1))%Q) by (rewrite !inject_Z_plus; change (inject_Z 1) with 1%Q; lra).
    assert (W : (inject_Z (p + k) < inject_Z (q + 1))%Q) by (rewrite !inject_Z_plus; change (inject_Z 1) with 1%Q; lra). rewrite <- Zlt_Qlt in U, W. lia. }
  rewrite F, inject_Z_plus. ring.
Qed.
Print Assumptions C147_turns.

(** Pixels on the sun, a quarter and three quarters of a turn ahead of it. *)
Example C147_ex : map Qred (create_season_offset [1 # 10; 7 # 20; 17 # 20]%Q (1 # 10)) = [-1461 # 4; -7305 # 16; -10227 # 16]%Q /\
  map (fun n => season_calc [n] (create_season_offset [1 # 10; 7 # 20; 17 # 20]%Q (1 # 10)) None None year true) [0; 92; 274; 366]%Q =
  [Ok [-1; -2; -2]; Ok [-1; -1; -2]; Ok [-1; -1; -1]; Ok [0; -1; -1]]%Q.
Proof. split; vm_compute; reflexivity. Qed.
(** A pixel a quarter of a turn ahead of the sun: passed a quarter of a year later, its season changes there. *)
Example C147_ex_rolls : season_is (1 # 10) (7 # 20) 91 (-2) /\ season_is (1 # 10) (7 # 20) 92 (-1) /\ passes (1 # 10) (7 # 20) (1461 # 16) /\ ~ passes (1 # 10) (7 # 20) 0.
Proof.
  assert (P : passes (1 # 10) (7 # 20) (1461 # 16)) by (exists 0%Z; vm_compute; reflexivity).
  split; [exists (1461 # 16); repeat split; try exact P; vm_compute; congruence|].
  split; [exists (1461 # 16); repeat split; try exact P; vm_compute; congruence|]. split; [exact P|].
  intros [k K]. assert (E : (inject_Z k == 1 # 4)%Q) by (assert (Z0 : (0 / year == 0)%Q) by reflexivity; lra). unfold Qeq in E. cbn in E. lia.
Qed.
