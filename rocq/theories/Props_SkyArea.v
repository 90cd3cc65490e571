(** C97: the footprint gives every pixel the weights of the first region that contains it,
    leaves no holes, and the visits estimated from it add up. *)
From Coq Require Import List ZArith QArith Qround Qabs Bool String Lqa Lia.
From Verif Require Import Base Script Script_proofs TimeGate_proofs SiteData_proofs IntRounded IntRounded_proofs SkyArea SkyArea_proofs.
Import ListNotations.
Open Scope nat_scope.

(** ** The regions as the documentation describes them *)
Inductive region := RClouds | RLowdust | RVirgo | RBulge | RNes | RDusty | REuclid | RScp.

Section Geometry.
Variable sep : Q -> Q -> Q -> Q -> Q.
Variable inpoly : Q -> Q -> bool.
Variable P : area.
Variable k : kind.
Variable px : list spix.

Definition in_cloud (g : spix) : Prop :=
  (sep (fst (a_lmc P)) (snd (a_lmc P)) (g_ra g) (g_dec g) < a_lmcr P \/
   sep (fst (a_smc P)) (snd (a_smc P)) (g_ra g) (g_dec g) < a_smcr P)%Q.
(** In one of the circles, or between the clouds in right ascension and between two pixels
    of the circles in declination. *)
Definition in_clouds (g : spix) : Prop :=
  in_cloud g \/
  ((fst (a_smc P) < g_ra g /\ g_ra g < fst (a_lmc P))%Q /\
   exists g1 g2, In g1 px /\ In g2 px /\ in_cloud g1 /\ in_cloud g2 /\ (g_dec g1 < g_dec g /\ g_dec g < g_dec g2)%Q).
Definition in_lowdust (g : spix) : Prop :=
  (a_ldmin P < g_dec g /\ g_dec g < a_ldmax P)%Q /\ g_low g = true /\
  ~ (0 < a_halves P /\ g_glat g < 0 /\ a_ldmax P - a_halves P < g_dec g)%Q.
Definition in_virgo (g : spix) : Prop :=
  (sep (fst (a_vir P)) (snd (a_vir P)) (g_ra g) (g_dec g) < a_virr P)%Q.
(** [at_long len t g]: going east from [gal_long1] the region is [len] degrees long and the
    pixel is [t] degrees along it. *)
Definition at_long (len t : Q) (g : spix) : Prop :=
  (0 <= len /\ len < 360)%Q /\ (exists m : Z, a_long2 P - a_long1 P == len + inject_Z m * 360)%Q /\
  (len == 0 \/ ((0 <= t /\ t < len) /\ exists n : Z, g_glon g == a_long1 P + t + inject_Z n * 360))%Q.
(** The width goes down from the centre to the ends of the region in a straight line. *)
Definition width (len t : Q) : Q := (a_center P - (a_center P - a_end P) * (Qabs (t - len / 2) / (len / 2)))%Q.
Definition in_bulge (g : spix) : Prop :=
  (Qabs (g_glat g) <= a_latmax P)%Q /\
  exists len t, at_long len t g /\
    ((Qabs (g_glat g) < a_center P /\ (len == 0 \/ Qabs (g_glat g) < width len t)) \/
     (g_glat g <= 0 /\ Qabs (g_glat g) < a_latmax P))%Q.
Definition in_bulgy (g : spix) : Prop :=
  exists ra dec r, In (ra, dec, r) (match k with KThree => points_three | _ => points_gal end) /\
    (sep (g_ra g) (g_dec g) ra dec < r)%Q.
Definition in_nes (g : spix) : Prop :=
  (a_emin P < g_elat g \/ a_edec P < g_dec g)%Q /\ (g_elat g < a_emax P)%Q /\
  (a_glon P <= g_glon g /\ g_glon g <= 360 - a_glon P)%Q.
Definition in_dusty (g : spix) : Prop := (a_dpmin P < g_dec g /\ g_dec g < a_dpmax P)%Q /\ g_low g = false.
Definition in_euclid (g : spix) : Prop :=
  exists ra, inpoly ra (g_dec g) = true /\
    ((g_ra g <= 180 /\ ra = g_ra g) \/ (180 < g_ra g /\ ra = g_ra g - 360))%Q.
Definition in_scp (g : spix) : Prop := (g_dec g < a_scp P)%Q.

Definition contains (r : region) (g : spix) : Prop :=
  match r with
  | RClouds => in_clouds g | RLowdust => in_lowdust g | RVirgo => in_virgo g
  | RBulge => match k with KBase => in_bulge g | _ => in_bulgy g end
  | RNes => in_nes g | RDusty => in_dusty g | REuclid => in_euclid g | RScp => in_scp g
  end.
End Geometry.

Definition order (k : kind) : list region :=
  [RClouds; RLowdust; RVirgo; RBulge; RNes; RDusty] ++
  (match k with KEuclid | KThree => [REuclid] | _ => [] end) ++ [RScp].
Definition name (k : kind) (r : region) : string :=
  match r with
  | RClouds => "LMC_SMC" | RLowdust => "lowdust" | RVirgo => "virgo"
  | RBulge => match k with KBase => "bulge" | _ => "bulgy" end
  | RNes => "nes" | RDusty => "dusty_plane" | REuclid => "euclid_overlap" | RScp => "scp"
  end.
Definition given (R : rset) (r : region) : ratios :=
  match r with
  | RClouds => r_mc R | RLowdust => r_ld R | RVirgo => r_vir R | RBulge => r_bul R
  | RNes => r_nes R | RDusty => r_dp R | REuclid => r_euc R | RScp => r_scp R
  end.

(** ** The code's tests are the regions *)
Lemma Qltb_iff : forall a b, Qltb a b = true <-> (a < b)%Q.
Proof. exact Qltb_lt. Qed.

Ltac qb := repeat match goal with
  | H : _ && _ = true |- _ => apply andb_true_iff in H as [? ?]
  | H : Qltb _ _ = true |- _ => apply Qltb_lt in H
  | H : Qltb _ _ = false |- _ => apply Qltb_false in H
  end.

Lemma cloud_iff : forall sep P g, clouds sep P g = true <-> in_cloud sep P g.
Proof.
  intros sep P g. unfold clouds, in_cloud, circle. rewrite orb_true_iff, !Qltb_lt. reflexivity.
Qed.
Lemma lowdust_iff : forall P g, lowdust P g = true <-> in_lowdust P g.
Proof.
  intros P g. unfold lowdust, in_lowdust. destruct (g_low g) eqn:L; cbn [negb].
  - destruct (Qltb 0 (a_halves P)) eqn:H.
    + destruct (Qltb (g_glat g) 0) eqn:B; [destruct (Qltb (a_ldmax P - a_halves P) (g_dec g)) eqn:D|]; cbn [andb].
      * qb. split; [discriminate|]. intros (_ & _ & N). exfalso. apply N. now repeat split.
      * qb. rewrite !andb_true_iff, !Qltb_lt. split; [intros ((A1 & A2) & _); repeat split; [exact A1|exact A2|]|intros ((A1 & A2) & _ & _); now repeat split].
        intros (_ & _ & N). lra.
      * qb. rewrite !andb_true_iff, !Qltb_lt. split; [intros ((A1 & A2) & _); repeat split; [exact A1|exact A2|]|intros ((A1 & A2) & _ & _); now repeat split].
        intros (_ & N & _). lra.
    + qb. rewrite !andb_true_iff, !Qltb_lt. split; [intros ((A1 & A2) & _); repeat split; [exact A1|exact A2|]|intros ((A1 & A2) & _ & _); now repeat split].
      intros (N & _). lra.
  - destruct (Qltb 0 (a_halves P)); [destruct (Qltb (g_glat g) 0 && _)|]; (split; [discriminate|intros (_ & N & _); discriminate]).
Qed.
Lemma nes_iff : forall P g, nes P g = true <-> in_nes P g.
Proof.
  intros P g. unfold nes, in_nes. destruct (Qltb (360 - a_glon P) (g_glon g)) eqn:A; [|destruct (Qltb (g_glon g) (a_glon P)) eqn:B].
  - qb. split; [discriminate|]. intros (_ & _ & N). lra.
  - qb. split; [discriminate|]. intros (_ & _ & N). lra.
  - qb. rewrite andb_true_iff, orb_true_iff, !Qltb_lt. split; [intros (A1 & A2); repeat split; assumption|tauto].
Qed.
Lemma dusty_iff : forall P g, dusty P g = true <-> in_dusty P g.
Proof.
  intros P g. unfold dusty, in_dusty. rewrite !andb_true_iff, !Qltb_lt, negb_true_iff. reflexivity.
Qed.
Lemma euclid_iff : forall inpoly g, euclid inpoly g = true <-> in_euclid inpoly g.
Proof.
  intros inpoly g. unfold euclid, in_euclid. destruct (Qltb 180 (g_ra g)) eqn:A; qb; split.
  - intros H. exists (g_ra g - 360)%Q. split; [exact H|right; now split].
  - intros (ra & H & [[B _]|[_ ->]]); [lra|exact H].
  - intros H. exists (g_ra g). split; [exact H|left; now split].
  - intros (ra & H & [[_ ->]|[B _]]); [exact H|lra].
Qed.

(** ** The galactic bulge *)
Lemma long_total : forall P, exists len, (len = Qmod (a_long2 P - a_long1 P) 360)%Q /\
  (0 <= len /\ len < 360)%Q /\ (exists m : Z, a_long2 P - a_long1 P == len + inject_Z m * 360)%Q.
Proof.
  intros P. exists (Qmod (a_long2 P - a_long1 P) 360). split; [reflexivity|]. split; [now apply Qmod_range|].
  destruct (Qmod_shift (a_long2 P - a_long1 P) 360 ltac:(reflexivity)) as [n E]. exists (- n)%Z. rewrite E, inject_Z_opp. ring.
Qed.
Lemma mod_eq : forall x r (m : Z), (0 <= r)%Q -> (r < 360)%Q -> (x == r + inject_Z m * 360)%Q -> (Qmod x 360 == r)%Q.
Proof.
  intros x r m A B E. assert (E' : (x + inject_Z (- m) * 360 == r)%Q) by (rewrite E, inject_Z_opp; ring).
  rewrite (Qmod_unique x 360 (- m)); [exact E'|reflexivity|rewrite E'; exact A|rewrite E'; exact B].
Qed.
Lemma cut_iff : forall P g len, len = Qmod (a_long2 P - a_long1 P) 360 ->
  Qltb (Qmod (g_glon g - a_long1 P) 360) len = true <->
  exists t, (0 <= t /\ t < len)%Q /\ exists n : Z, (g_glon g == a_long1 P + t + inject_Z n * 360)%Q.
Proof.
  intros P g len EL. rewrite Qltb_lt. split.
  - intros H. exists (Qmod (g_glon g - a_long1 P) 360). destruct (Qmod_range (g_glon g - a_long1 P) 360 ltac:(reflexivity)) as [A B].
    split; [now split|]. destruct (Qmod_shift (g_glon g - a_long1 P) 360 ltac:(reflexivity)) as [n E]. exists (- n)%Z.
    rewrite E, inject_Z_opp. ring.
  - intros (t & [A B] & n & E). assert (L : (len < 360)%Q) by (rewrite EL; now apply Qmod_range).
    rewrite (mod_eq _ t n); [exact B|exact A|lra|]. rewrite E. ring.
Qed.
Lemma dist_eq : forall P g len t (n : Z), (0 <= t)%Q -> (t < len)%Q -> (len < 360)%Q -> (g_glon g == a_long1 P + t + inject_Z n * 360)%Q ->
  let d := Qmod (g_glon g - Qmod (a_long1 P + len / 2) 360) 360 in
  (Qabs (if Qltb 180 d then Qmod (180 - d) 180 else d) == Qabs (t - len / 2))%Q.
Proof.
  intros P g len t n T0 T1 L E d.
  assert (HH : (len / 2 == len * (1 # 2))%Q) by field.
  destruct (Qmod_shift (a_long1 P + len / 2) 360 ltac:(reflexivity)) as [c C].
  set (h := (len / 2)%Q) in *. clearbody h.
  assert (X : (g_glon g - Qmod (a_long1 P + h) 360 == (t - h) + inject_Z (n - c) * 360)%Q).
  { rewrite C, E. unfold Zminus. rewrite inject_Z_plus, inject_Z_opp. ring. }
  destruct (Qlt_le_dec t h) as [Lt|Ge].
  - assert (D : (d == t - h + 360)%Q).
    { unfold d. apply mod_eq with (m := (n - c - 1)%Z); [lra|lra|]. rewrite X.
      replace (n - c - 1)%Z with (n - c + - (1))%Z by lia. rewrite (inject_Z_plus (n - c)). change (inject_Z (- (1))) with (-1)%Q. ring. }
    destruct (Qltb 180 d) eqn:B; qb; [|lra].
    assert (M : (Qmod (180 - d) 180 == h - t)%Q).
    { assert (Y : (180 - d + inject_Z 1 * 180 == h - t)%Q) by (rewrite D; change (inject_Z 1) with 1%Q; ring).
      rewrite (Qmod_unique (180 - d) 180 1); [exact Y|reflexivity|rewrite Y; lra|rewrite Y; lra]. }
    rewrite M. rewrite <- (Qabs_opp (h - t)). apply Qabs_wd. ring.
  - assert (D : (d == t - h)%Q) by (unfold d; apply mod_eq with (m := (n - c)%Z); [lra|lra|exact X]).
    destruct (Qltb 180 d) eqn:B; qb; [lra|]. now rewrite D.
Qed.
Lemma width_nonneg : forall P len t, (0 <= a_center P)%Q -> (0 <= a_end P)%Q -> (0 < len)%Q -> (0 <= t)%Q -> (t < len)%Q -> (0 <= width P len t)%Q.
Proof.
  intros P len t C E L A B. unfold width.
  assert (HH : (len / 2 == len * (1 # 2))%Q) by field. set (h := (len / 2)%Q) in *. clearbody h.
  assert (H : (0 < h)%Q) by lra.
  assert (D0 : (0 <= Qabs (t - h) / h)%Q) by (apply Qle_shift_div_l; [exact H|]; rewrite Qmult_0_l; apply Qabs_nonneg).
  assert (D1 : (Qabs (t - h) / h <= 1)%Q).
  { apply Qle_shift_div_r; [exact H|]. rewrite Qmult_1_l. apply Qabs_Qle_condition. split; lra. }
  set (r := (Qabs (t - h) / h)%Q) in *. clearbody r. nra.
Qed.
Lemma diamond_iff : forall P g len, len = Qmod (a_long2 P - a_long1 P) 360 -> (0 <= a_center P)%Q -> (0 <= a_end P)%Q ->
  diamond P g = true <->
  (Qabs (g_glat g) < a_center P)%Q /\
  (len == 0 \/ exists t, ((0 <= t /\ t < len) /\ exists n : Z, g_glon g == a_long1 P + t + inject_Z n * 360) /\ Qabs (g_glat g) < width P len t)%Q.
Proof.
  intros P g len EL C0 E0. unfold diamond. rewrite <- EL.
  assert (LR : (0 <= len /\ len < 360)%Q) by (rewrite EL; now apply Qmod_range).
  cbv zeta. destruct (Qltb 0 len) eqn:L; qb.
  - set (d := Qabs (if Qltb 180 _ then _ else _)). rewrite !andb_true_iff, (cut_iff P g len EL), !Qltb_lt.
    assert (HW : forall t n, (0 <= t)%Q -> (t < len)%Q -> (g_glon g == a_long1 P + t + inject_Z n * 360)%Q ->
       (Qabs (a_center P - (a_center P - a_end P) / (len / 2) * d) == width P len t)%Q).
    { intros t n A B E. rewrite <- (Qabs_pos (width P len t)) by (now apply width_nonneg). apply Qabs_wd. unfold width.
      assert (D : (d == Qabs (t - len / 2))%Q) by (exact (dist_eq P g len t n A B (proj2 LR) E)). rewrite D.
      assert (HH : ~ (len / 2 == 0)%Q) by (intros HH; apply (Qlt_not_eq 0 (len / 2)); [apply Qlt_shift_div_l; [reflexivity|lra]|now symmetry]).
      set (h := (len / 2)%Q) in *. clearbody h. field. exact HH. }
    split.
    + intros ((A & t & [T0 T1] & n & E) & W). split; [exact A|]. right. exists t. split; [split; [now split|now exists n]|].
      rewrite <- (HW t n T0 T1 E). exact W.
    + intros (A & [Z|(t & ((T0 & T1) & n & E) & W)]); [lra|]. repeat split; [exact A|exists t; split; [now split|now exists n]|].
      rewrite (HW t n T0 T1 E). exact W.
  - rewrite Qltb_lt. split; [intros A; split; [exact A|left; lra]|tauto].
Qed.
Lemma rectangle_iff : forall P g len, len = Qmod (a_long2 P - a_long1 P) 360 ->
  rectangle P g = true <->
  (Qabs (g_glat g) < a_latmax P)%Q /\
  (len == 0 \/ exists t, ((0 <= t /\ t < len) /\ exists n : Z, g_glon g == a_long1 P + t + inject_Z n * 360))%Q.
Proof.
  intros P g len EL. unfold rectangle. rewrite <- EL. assert (LR : (0 <= len /\ len < 360)%Q) by (rewrite EL; now apply Qmod_range).
  cbv zeta. destruct (Qltb 0 len) eqn:L; qb.
  - rewrite andb_true_iff, (cut_iff P g len EL), Qltb_lt. split; [tauto|]. intros (A & [Z|B]); [lra|now split].
  - rewrite Qltb_lt. split; [intros A; split; [exact A|left; lra]|tauto].
Qed.
Lemma len_unique : forall x l1 l2 (m1 m2 : Z), (0 <= l1 /\ l1 < 360)%Q -> (0 <= l2 /\ l2 < 360)%Q ->
  (x == l1 + inject_Z m1 * 360)%Q -> (x == l2 + inject_Z m2 * 360)%Q -> (l1 == l2)%Q.
Proof.
  intros x l1 l2 m1 m2 [A B] [C D] E1 E2. rewrite <- (mod_eq x l1 m1 A B E1). now apply mod_eq with (m := m2).
Qed.
Lemma width_wd : forall P l1 l2 t, (l1 == l2)%Q -> (width P l1 t == width P l2 t)%Q.
Proof. intros P l1 l2 t E. unfold width. now rewrite E. Qed.
Lemma bulge_iff : forall P g, (0 <= a_center P)%Q -> (0 <= a_end P)%Q -> bulge P g = true <-> in_bulge P g.
Proof.
  intros P g C0 E0. destruct (long_total P) as (len & EL & LR & m & EM). unfold bulge, in_bulge.
  assert (W : diamond P g || (if Qltb 0 (g_glat g) then false else rectangle P g) = true <->
    exists len t, at_long P len t g /\
    ((Qabs (g_glat g) < a_center P /\ (len == 0 \/ Qabs (g_glat g) < width P len t)) \/
     (g_glat g <= 0 /\ Qabs (g_glat g) < a_latmax P))%Q).
  { rewrite orb_true_iff, (diamond_iff P g len EL C0 E0).
    assert (RI : (if Qltb 0 (g_glat g) then false else rectangle P g) = true <-> (g_glat g <= 0)%Q /\ rectangle P g = true).
    { destruct (Qltb 0 (g_glat g)) eqn:B; qb; split; try discriminate; try tauto. intros [N _]. lra. }
    rewrite RI, (rectangle_iff P g len EL). split.
    - intros [(A & [Z|(t & T & B)])|(N & A & [Z|(t & T)])].
      + exists len, 0%Q. repeat split; try apply LR; [now exists m|now left|left; split; [exact A|now left]].
      + exists len, t. repeat split; try apply LR; [now exists m|now right|left; split; [exact A|now right]].
      + exists len, 0%Q. repeat split; try apply LR; [now exists m|now left|right; now split].
      + exists len, t. repeat split; try apply LR; [now exists m|now right|right; now split].
    - intros (l & t & (LR' & (m' & EM') & T) & D). pose proof (len_unique _ _ _ _ _ LR LR' EM EM') as EQ.
      assert (T' : (len == 0 \/ ((0 <= t /\ t < len) /\ exists n : Z, g_glon g == a_long1 P + t + inject_Z n * 360))%Q).
      { destruct T as [T|((A & B) & T)]; [left; lra|right]. split; [split; lra|exact T]. }
      destruct D as [(A & [Z|B])|(N & A)].
      + left. split; [exact A|left; lra].
      + destruct T' as [Z|T']; left; (split; [exact A|]); [now left|]. right. exists t. split; [exact T'|]. now rewrite (width_wd P len l t EQ).
      + right. repeat split; [exact N|exact A|]. destruct T' as [Z|T']; [now left|right; now exists t]. }
  destruct (Qltb (a_latmax P) (Qabs (g_glat g))) eqn:LM; qb.
  - split; [discriminate|]. intros [N _]. lra.
  - rewrite W. split; [intros H; now split|tauto].
Qed.

(** ** C97_first *)
Lemma find_split : forall A (f : A -> bool) l, match find f l with
  | Some x => exists a b, l = a ++ x :: b /\ f x = true /\ forall y, In y a -> f y = false
  | None => forall y, In y l -> f y = false end.
Proof.
  intros A f l. induction l as [|x r IH]; cbn; [contradiction|]. destruct (f x) eqn:E.
  - exists [], r. now repeat split.
  - destruct (find f r) as [z|].
    + destruct IH as (a & b & -> & F & N). exists (x :: a), b. repeat split; [exact F|]. intros y [<-|I]; [exact E|exact (N y I)].
    + intros y [<-|I]; [exact E|exact (IH y I)].
Qed.

Section First.
Variable sep : Q -> Q -> Q -> Q -> Q.
Variable inpoly : Q -> Q -> bool.
Variable P : area.
Variable k : kind.
Variable px : list spix.
Variable R : rset.
Hypothesis C0 : (0 <= a_center P)%Q.
Hypothesis E0 : (0 <= a_end P)%Q.

Lemma clouds_iff : forall lo hi g,
  qmin_of (map g_dec (filter (clouds sep P) px)) = Ok lo -> qmax_of (map g_dec (filter (clouds sep P) px)) = Ok hi ->
  clouds sep P g || bridge P lo hi g = true <-> in_clouds sep P px g.
Proof.
  intros lo hi g LO HI. destruct (qmin_of_spec _ _ LO) as [L1 L2]. destruct (qmax_of_spec _ _ HI) as [H1 H2].
  unfold in_clouds. rewrite orb_true_iff, cloud_iff. unfold bridge. rewrite !andb_true_iff, !Qltb_lt. split.
  - intros [A|[A [B C]]]; [now left|right]. split; [exact A|].
    apply in_map_iff in L1 as (g1 & G1 & I1). apply in_map_iff in H1 as (g2 & G2 & I2). apply filter_In in I1 as [I1 K1]. apply filter_In in I2 as [I2 K2].
    exists g1, g2. rewrite G1, G2. repeat split; try assumption; now apply cloud_iff.
  - intros [A|[A (g1 & g2 & I1 & I2 & K1 & K2 & B & C)]]; [now left|right]. split; [exact A|].
    assert (lo <= g_dec g1)%Q by (apply L2, in_map, filter_In; split; [exact I1|now apply cloud_iff]).
    assert (g_dec g2 <= hi)%Q by (apply H2, in_map, filter_In; split; [exact I2|now apply cloud_iff]). lra.
Qed.

(** The steps by region: the flags that a region's steps put on a pixel. *)
Definition steps_of (lo hi : Q) (r : region) : list (string * ratios * (spix -> bool)) :=
  match r with
  | RClouds => [("LMC_SMC"%string, r_mc R, fun g => clouds sep P g || bridge P lo hi g)]
  | RLowdust => [("lowdust"%string, r_ld R, lowdust P)]
  | RVirgo => [("virgo"%string, r_vir R, circle sep (a_vir P) (a_virr P))]
  | RBulge => match k with
              | KBase => [("bulge"%string, r_bul R, bulge P)]
              | _ => map (fun p => ("bulgy"%string, r_bul R, in_point sep p)) (bulge_points k)
              end
  | RNes => [("nes"%string, r_nes R, nes P)]
  | RDusty => [("dusty_plane"%string, r_dp R, dusty P)]
  | REuclid => [("euclid_overlap"%string, r_euc R, euclid inpoly)]
  | RScp => [("scp"%string, r_scp R, scp P)]
  end.
Definition flat (lo hi : Q) (l : list region) : list pstep :=
  flat_map (fun r => map (fun s => (fst (fst s), snd (fst s), map (snd s) px)) (steps_of lo hi r)) l.
Lemma steps_flat : forall lo hi, first_step sep P px R lo hi :: later sep inpoly P k px R = flat lo hi (order k).
Proof.
  intros lo hi. unfold flat, order, later, first_step, steps_of. destruct k; cbn; unfold bulge_points; try rewrite !map_map; reflexivity.
Qed.

Lemma step_sound : forall lo hi r s g,
  qmin_of (map g_dec (filter (clouds sep P) px)) = Ok lo -> qmax_of (map g_dec (filter (clouds sep P) px)) = Ok hi ->
  In s (steps_of lo hi r) -> fst (fst s) = name k r /\ snd (fst s) = given R r /\ (snd s g = true -> contains sep inpoly P k px r g).
Proof.
  intros lo hi r s g LO HI I.
  destruct r; cbn [steps_of] in I; try (destruct I as [<-|[]]; cbn [fst snd name given contains]; (split; [reflexivity|split; [reflexivity|]])).
  - apply (clouds_iff lo hi g LO HI).
  - apply lowdust_iff.
  - unfold in_virgo, circle. apply Qltb_lt.
  - assert (B : forall p, In p (bulge_points k) -> in_point sep p g = true -> in_bulgy sep k g).
    { intros [[ra dec] rad] Ip H. exists ra, dec, rad. split; [exact Ip|]. unfold in_point in H. cbn in H. now apply Qltb_lt. }
    unfold contains, name, given. destruct k.
    + destruct I as [<-|[]]. split; [reflexivity|split; [reflexivity|]]. cbn. now apply bulge_iff.
    + apply in_map_iff in I as (p & <- & Ip). split; [reflexivity|split; [reflexivity|]]. cbn [snd]. now apply B.
    + apply in_map_iff in I as (p & <- & Ip). split; [reflexivity|split; [reflexivity|]]. cbn [snd]. now apply B.
    + apply in_map_iff in I as (p & <- & Ip). split; [reflexivity|split; [reflexivity|]]. cbn [snd]. now apply B.
  - apply nes_iff.
  - apply dusty_iff.
  - apply euclid_iff.
  - unfold in_scp, scp. apply Qltb_lt.
Qed.
Lemma step_complete : forall lo hi r g,
  qmin_of (map g_dec (filter (clouds sep P) px)) = Ok lo -> qmax_of (map g_dec (filter (clouds sep P) px)) = Ok hi ->
  contains sep inpoly P k px r g -> exists s, In s (steps_of lo hi r) /\ snd s g = true.
Proof.
  intros lo hi r g LO HI H.
  destruct r; cbn [steps_of contains] in *; try (eexists; split; [left; reflexivity|cbn [snd]]).
  - now apply (clouds_iff lo hi g LO HI).
  - now apply lowdust_iff.
  - unfold in_virgo in H. unfold circle. now apply Qltb_lt.
  - unfold bulge_points. unfold in_bulgy in H. destruct k.
    + eexists; split; [left; reflexivity|]. now apply bulge_iff.
    + destruct H as (ra & dec & rad & I & H). eexists. split; [apply in_map; exact I|]. cbn [snd]. unfold in_point. now apply Qltb_lt.
    + destruct H as (ra & dec & rad & I & H). eexists. split; [apply in_map; exact I|]. cbn [snd]. unfold in_point. now apply Qltb_lt.
    + destruct H as (ra & dec & rad & I & H). eexists. split; [apply in_map; exact I|]. cbn [snd]. unfold in_point. now apply Qltb_lt.
  - now apply nes_iff.
  - now apply dusty_iff.
  - now apply euclid_iff.
  - unfold in_scp in H. unfold scp. now apply Qltb_lt.
Qed.
End First.

Lemma flag_nth : forall (f : spix -> bool) px i g, nth_error px i = Some g -> nth i (map f px) false = f g.
Proof.
  intros f px i g H. apply nth_error_nth. now rewrite nth_error_map, H.
Qed.
Lemma Forall2_nth_error_intro : forall A B (R : A -> B -> Prop) a b, List.length a = List.length b ->
  (forall i x y, nth_error a i = Some x -> nth_error b i = Some y -> R x y) -> Forall2 R a b.
Proof.
  intros A B R a. induction a as [|x a IH]; intros [|y b] L H; try discriminate L; constructor.
  - exact (H 0 x y eq_refl eq_refl).
  - apply IH; [now injection L|]. intros i u v U V. exact (H (S i) u v U V).
Qed.
Lemma Forall2_right : forall A B (R : A -> B -> Prop) a b, Forall2 R a b -> forall y, In y b -> exists x, In x a /\ R x y.
Proof.
  induction 1 as [|x y a b H F IH]; intros z I; [contradiction|]. destruct I as [<-|I]; [exists x; split; [now left|exact H]|].
  destruct (IH z I) as (u & U & V). exists u. split; [now right|exact V].
Qed.
Lemma Forall2_at : forall A B (R : A -> B -> Prop) a b, Forall2 R a b -> forall i x y, nth_error a i = Some x -> nth_error b i = Some y -> R x y.
Proof.
  induction 1 as [|u v a b H F IH]; intros [|i] x y X Y; try discriminate; cbn in X, Y; [congruence|exact (IH i x y X Y)].
Qed.
Lemma find_app2 : forall A (f : A -> bool) a b, find f (a ++ b) = match find f a with Some x => Some x | None => find f b end.
Proof. induction a as [|x a IH]; intros b; cbn; [reflexivity|]. destruct (f x); [reflexivity|apply IH]. Qed.
Lemma find_flat : forall A B (f : B -> bool) (h : A -> list B) l,
  match find f (flat_map h l) with
  | Some x => exists a r b, l = a ++ r :: b /\ In x (h r) /\ f x = true /\ forall q, In q a -> forall y, In y (h q) -> f y = false
  | None => forall r, In r l -> forall y, In y (h r) -> f y = false
  end.
Proof.
  intros A B f h l. induction l as [|r l IH]; [intros r []|].
  cbn [flat_map]. rewrite find_app2. pose proof (find_split B f (h r)) as FS. destruct (find f (h r)) as [x|].
  - destruct FS as (a & b & E & F & _). exists [], r, l. repeat split; [rewrite E; apply in_elt|exact F|intros q []].
  - destruct (find f (flat_map h l)) as [x|].
    + destruct IH as (a & r' & b & -> & I & F & N). exists (r :: a), r', b. repeat split; [exact I|exact F|].
      intros q [<-|Iq]; [exact FS|exact (N q Iq)].
    + intros q [<-|Iq]; [exact FS|exact (IH q Iq)].
Qed.

(** Each pixel belongs to the first region of the order that contains it, has that region's
    label, and in each band the region's ratio, 0 for a band the region does not name; a
    pixel of no region has no label and weight 0. *)
Definition first_of (sep : Q -> Q -> Q -> Q -> Q) inpoly P k px (R : rset) (g : spix) (l : string) (w : row) : Prop :=
  (exists a r b, order k = a ++ r :: b /\ contains sep inpoly P k px r g /\
     (forall q, In q a -> ~ contains sep inpoly P k px q g) /\ l = name k r /\
     Forall2 (wanted (given R r)) ["u"; "g"; "r"; "i"; "z"; "y"]%string w) \/
  ((forall r, In r (order k) -> ~ contains sep inpoly P k px r g) /\ l = ""%string /\ w = [0; 0; 0; 0; 0; 0]%Q).

Theorem C97_first : forall sep inpoly P k px R s, (0 <= a_center P)%Q -> (0 <= a_end P)%Q ->
  (forall r, NoDup (map fst (given R r))) ->
  return_maps sep inpoly P k px R = Ok s ->
  Forall2 (fun g x => first_of sep inpoly P k px R g (fst x) (snd x)) px s.
Proof.
  intros sep inpoly P k px R s C0 E0 ND H. rewrite maps_all in H.
  apply bind_inv in H as (lo & LO & H). apply bind_inv in H as (hi & HI & H).
  destruct (paint_all_spec _ _ _ H) as [L A].
  { intros lab rs ins I. unfold zero_sky. rewrite repeat_length. exact (later_len sep inpoly P k px R lo hi lab rs ins I). }
  unfold zero_sky in L. rewrite repeat_length in L. rewrite steps_flat in A.
  apply Forall2_nth_error_intro; [now symmetry|]. intros i g [l w] G S.
  assert (Z : nth_error (zero_sky (List.length px)) i = Some (""%string, [0; 0; 0; 0; 0; 0]%Q)).
  { unfold zero_sky. rewrite nth_error_repeat; [reflexivity|]. apply nth_error_Some. congruence. }
  destruct (A i _ _ Z) as (l' & w' & N & D). rewrite S in N. injection N as <- <-. cbn [String.eqb fst snd] in *.
  pose proof (find_flat _ _ (fun p : pstep => nth i (snd p) false)
    (fun r => map (fun s => (fst (fst s), snd (fst s), map (snd s) px)) (steps_of sep inpoly P k R lo hi r)) (order k)) as F.
  unfold flat in D. set (fd := find _ _) in *. destruct fd as [[[lab rs] ins]|].
  - left. destruct F as (a & r & b & E & I & T & NB). exists a, r, b.
    apply in_map_iff in I as (st & ES & I). destruct (step_sound sep inpoly P k px R C0 E0 lo hi r st g LO HI I) as (N1 & N2 & N3).
    injection ES as ES1 ES2 ES3. cbn [snd] in T. rewrite <- ES3, (flag_nth _ _ _ _ G) in T.
    split; [exact E|]. split; [exact (N3 T)|]. split.
    + intros q Q C. destruct (step_complete sep inpoly P k px R C0 E0 lo hi q g LO HI C) as (sq & Iq & Tq).
      assert (FF := NB q Q _ (in_map (fun s => (fst (fst s), snd (fst s), map (snd s) px)) _ _ Iq)). cbn [snd] in FF. rewrite (flag_nth _ _ _ _ G) in FF. congruence.
    + destruct D as [DL DW]. split.
      * rewrite DL, <- ES1, N1. unfold name. destruct r; try reflexivity. now destruct k.
      * rewrite <- ES2, N2 in DW. exact (fill_zero _ _ DW (ND r)).
  - right. destruct D as [-> ->]. repeat split. intros r I C.
    destruct (step_complete sep inpoly P k px R C0 E0 lo hi r g LO HI C) as (sq & Iq & Tq).
    assert (FF := F r I _ (in_map (fun s => (fst (fst s), snd (fst s), map (snd s) px)) _ _ Iq)). cbn [snd] in FF. rewrite (flag_nth _ _ _ _ G) in FF. congruence.
Qed.
Print Assumptions C97_first.

(** A small sky, with the sum of the differences for the separation. *)
Definition ex_sep (a b c d : Q) : Q := (Qabs (a - c) + Qabs (b - d))%Q.
Definition ex_poly (x y : Q) : bool := Qltb (-20) x && Qltb x (-10).
Definition ex_area : area :=
  Area (80893860#1000000, -69756126#1000000)%Q 6 (13186588#1000000, -72828599#1000000)%Q 4 (18675#100, 12717#1000)%Q (875#100)
    (-60) 335 25 23 12 4 12 (-70) 15 12 (-90) 15 (-10) 10 0 45.
Definition ex_px : list spix :=
  [SPix 80 (-70) (-80) 280 (-33) true; SPix 50 (-71) (-80) 290 (-40) true; SPix 14 (-73) (-60) 300 (-44) true;
   SPix 200 (-20) (-10) 310 40 true; SPix 186 13 14 280 74 true; SPix 266 (-29) (-5) 0 0 false;
   SPix 100 20 (-3) 195 7 false; SPix 250 (-10) 12 10 20 false; SPix 345 5 11 80 (-50) true;
   SPix 10 (-85) (-70) 302 (-31) true; SPix 20 80 60 120 20 true].
Definition bq (b : string) (q : Q) : string * Q := (b, q).
Definition ex_r : rset :=
  RSet [bq "u" (65#100); bq "r" (11#10)] [bq "r" 1; bq "y" (9#10)] [bq "g" (4#10)] [bq "i" (98#100)] [bq "g" (255#1000)] [bq "z" (26#100)]
    [bq "u" (35#100)] [bq "u" (1#10)].
Example C97_first_example : exists s, return_maps ex_sep ex_poly ex_area KThree ex_px ex_r = Ok s /\
  map fst s = ["LMC_SMC"; "LMC_SMC"; "LMC_SMC"; "lowdust"; "lowdust"; "bulgy"; "nes"; "dusty_plane"; "euclid_overlap"; "scp"; ""]%string /\
  map (fun x => nth 0 (snd x) 0%Q) s = [65#100; 65#100; 65#100; 0; 0; 0; 0; 0; 35#100; 1#10; 0]%Q /\
  (forall r, NoDup (map fst (given ex_r r))) /\ (0 <= a_center ex_area)%Q /\ (0 <= a_end ex_area)%Q.
Proof.
  eexists. split; [vm_compute; reflexivity|]. split; [reflexivity|]. split; [reflexivity|]. split; [|split; vm_compute; congruence].
  intros r. destruct r; vm_compute; repeat (apply NoDup_cons; [intros I; cbn in I; destruct I as [I|[]] || contradiction; discriminate I|]); apply NoDup_nil.
Qed.

(** Pixels with the same label have the same weights. *)
Theorem C97_same : forall sep inpoly P k px R s, (0 <= a_center P)%Q -> (0 <= a_end P)%Q ->
  (forall r, NoDup (map fst (given R r))) ->
  return_maps sep inpoly P k px R = Ok s ->
  forall l w w', In (l, w) s -> In (l, w') s -> w = w'.
Proof.
  intros sep inpoly P k px R s C0 E0 ND H l w w' I I'. pose proof (C97_first _ _ _ _ _ _ _ C0 E0 ND H) as F.
  assert (U : forall v, In (l, v) s -> (l = ""%string /\ v = [0; 0; 0; 0; 0; 0]%Q) \/
     exists r, l = name k r /\ Forall2 (wanted (given R r)) ["u"; "g"; "r"; "i"; "z"; "y"]%string v).
  { intros v Iv. destruct (In_nth_error _ _ Iv) as [i Ei].
    assert (G : exists g, first_of sep inpoly P k px R g l v).
    { destruct (Forall2_right _ _ _ _ _ F _ Iv) as (g & _ & G). now exists g. }
    destruct G as [g [(a & r & b & _ & _ & _ & N & W)|(_ & N & W)]]; [right; exists r; now split|left; now split]. }
  assert (NE : forall r, name k r <> ""%string) by (intros []; cbn; try discriminate; destruct k; discriminate).
  assert (NI : forall r q, name k r = name k q -> r = q) by (intros r q; destruct r, q; cbn; destruct k; congruence).
  destruct (U w I) as [(E1 & ->)|(r & E1 & W1)]; destruct (U w' I') as [(E2 & ->)|(q & E2 & W2)].
  - reflexivity.
  - exfalso. apply (NE q). congruence.
  - exfalso. apply (NE r). congruence.
  - assert (r = q) as <- by (apply NI; congruence). clear - W1 W2 ND. revert w' W2.
    induction W1 as [|b v bs vs A B IH]; intros w' W2; inversion W2 as [|? v' ? vs' A' B']; subst; [reflexivity|].
    f_equal; [|exact (IH vs' B')]. destruct A as [A|[N ->]]; destruct A' as [A'|[N' ->]].
    + specialize (ND r). clear - A A' ND. induction (given R r) as [|[b0 q0] l IH]; [contradiction|]. cbn in ND. apply NoDup_cons_iff in ND as [N1 N2].
      destruct A as [A|A]; destruct A' as [A'|A'].
      * congruence.
      * exfalso. apply N1. apply (in_map fst) in A'. cbn in A'. congruence.
      * exfalso. apply N1. apply (in_map fst) in A. cbn in A. congruence.
      * exact (IH N2 A A').
    + exfalso. apply N'. now apply (in_map fst) in A.
    + exfalso. apply N. now apply (in_map fst) in A'.
    + reflexivity.
Qed.
Print Assumptions C97_same.

(** The maps come back if and only if some pixel lies in a circle of the clouds and all
    ratios are for bands of the survey; else the call raises. *)
Definition bands_ok (k : kind) (R : rset) : Prop :=
  forall r b q, In r (order k) -> In (b, q) (given R r) -> In b ["u"; "g"; "r"; "i"; "z"; "y"]%string.
Lemma given_steps : forall sep inpoly P k px R lo hi, 
  (forall lab rs ins, In (lab, rs, ins) (flat sep inpoly P k px R lo hi (order k)) -> known rs) <-> bands_ok k R.
Proof.
  intros sep inpoly P k px R lo hi. unfold flat. split.
  - intros H r b q O I.
    assert (S : exists s, In s (steps_of sep inpoly P k R lo hi r) /\ snd (fst s) = given R r).
    { destruct r; cbn [steps_of]; try (eexists; split; [left; reflexivity|reflexivity]).
      unfold bulge_points. destruct k; (eexists; split; [left; reflexivity|reflexivity]). }
    destruct S as (s & IS & E). apply (H (fst (fst s)) (snd (fst s)) (map (snd s) px)) with (q := q).
    + apply in_flat_map. exists r. split; [exact O|]. now apply in_map with (f := fun s => (fst (fst s), snd (fst s), map (snd s) px)).
    + now rewrite E.
  - intros B lab rs ins I. apply in_flat_map in I as (r & O & I). apply in_map_iff in I as (s & E & I). injection E as _ <- _.
    assert (G : snd (fst s) = given R r).
    { destruct r; cbn [steps_of] in I; try (now destruct I as [<-|[]]). unfold bulge_points in I.
      destruct k; [now destruct I as [<-|[]]|apply in_map_iff in I as (p & <- & _); reflexivity..]. }
    rewrite G. intros b q Ib. exact (B r b q O Ib).
Qed.
Lemma known_dec : forall rs, known rs \/ ~ known rs.
Proof.
  intros rs. destruct (fill rs [0; 0; 0; 0; 0; 0]%Q) as [w|e] eqn:E; [left; exact (fill_known _ _ _ E)|right].
  intros K. destruct (fill_ok rs [0; 0; 0; 0; 0; 0]%Q K). congruence.
Qed.
Lemma all_known_dec : forall ps : list pstep, (forall lab rs ins, In (lab, rs, ins) ps -> known rs) \/ exists lab rs ins, In (lab, rs, ins) ps /\ ~ known rs.
Proof.
  induction ps as [|[[lab rs] ins] r IH]; [left; intros ? ? ? []|].
  destruct (known_dec rs) as [K|K]; [|right; exists lab, rs, ins; split; [now left|exact K]].
  destruct IH as [IH|(l & r' & i & I & N)]; [left|right; exists l, r', i; split; [now right|exact N]].
  intros l r' i [E|I]; [injection E as _ <- _; exact K|exact (IH l r' i I)].
Qed.
Theorem C97_total : forall sep inpoly P k px R,
  ((exists s, return_maps sep inpoly P k px R = Ok s) <-> (exists g, In g px /\ in_cloud sep P g) /\ bands_ok k R) /\
  ((exists s, return_maps sep inpoly P k px R = Ok s) \/ return_maps sep inpoly P k px R = Raise ValueError).
Proof.
  intros sep inpoly P k px R. rewrite maps_all.
  destruct (map g_dec (filter (clouds sep P) px)) as [|d ds] eqn:D.
  - cbn. split; [|now right]. split; [intros [s H]; discriminate|]. intros [(g & I & C) _]. exfalso.
    assert (X : In g (filter (clouds sep P) px)) by (apply filter_In; split; [exact I|now apply cloud_iff]).
    apply (in_map g_dec) in X. rewrite D in X. contradiction.
  - cbn [qmin_of qmax_of bind]. set (lo := fold_left _ ds d). set (hi := fold_left _ ds d). rewrite steps_flat.
    destruct (all_known_dec (flat sep inpoly P k px R lo hi (order k))) as [K|(lab & rs & ins & I & N)].
    + destruct (paint_all_total _ (zero_sky (List.length px)) K) as [s E]. rewrite E. split; [|left; now exists s].
      split; [intros _|intros _; now exists s]. split; [|now apply (given_steps sep inpoly P k px R lo hi)].
      assert (X : In d (map g_dec (filter (clouds sep P) px))) by (rewrite D; now left).
      apply in_map_iff in X as (g & _ & X). apply filter_In in X as [X1 X2]. exists g. split; [exact X1|now apply cloud_iff].
    + rewrite (paint_all_bad _ _ _ _ _ I N). split; [|now right]. split; [intros [s H]; discriminate|]. intros [_ B]. exfalso. apply N.
      exact (proj2 (given_steps sep inpoly P k px R lo hi) B lab rs ins I).
Qed.
Print Assumptions C97_total.
Example C97_total_example :
  return_maps ex_sep ex_poly ex_area KBase [SPix 45 (42) 0 0 0 true; SPix 45 (-42) 0 0 0 true; SPix 45 0 0 0 0 true] ex_r = Raise ValueError /\
  return_maps ex_sep ex_poly ex_area KBase ex_px (RSet [bq "w" 1] [] [] [] [] [] [] []) = Raise ValueError.
Proof. split; vm_compute; reflexivity. Qed.

(** No holes: south of the northern limits every pixel has a label, if the polar cap
    reaches over the southern limits. *)
Theorem C97_cover : forall sep inpoly P k px R s, (0 <= a_center P)%Q -> (0 <= a_end P)%Q ->
  (forall r, NoDup (map fst (given R r))) ->
  (a_ldmin P < a_scp P)%Q -> (a_dpmin P < a_scp P)%Q ->
  return_maps sep inpoly P k px R = Ok s ->
  forall i g l w, nth_error px i = Some g -> nth_error s i = Some (l, w) ->
  (g_dec g < a_ldmax P)%Q -> (g_dec g < a_dpmax P)%Q -> (g_dec g <= a_ldmax P - a_halves P \/ 0 <= g_glat g)%Q ->
  l <> ""%string.
Proof.
  intros sep inpoly P k px R s C0 E0 ND S1 S2 H i g l w G S A B C.
  assert (F : first_of sep inpoly P k px R g l w).
  { pose proof (C97_first _ _ _ _ _ _ _ C0 E0 ND H) as F. exact (Forall2_at _ _ _ _ _ F i _ _ G S). }
  destruct F as [(a & r & b & _ & _ & _ & N & _)|(N & _ & _)].
  - rewrite N. destruct r; cbn; try discriminate. destruct k; discriminate.
  - exfalso. assert (IS : In RScp (order k)) by (unfold order; destruct k; cbn; tauto).
    destruct (Qlt_le_dec (g_dec g) (a_scp P)) as [L|L]; [exact (N RScp IS L)|]. destruct (g_low g) eqn:LW.
    + apply (N RLowdust); [right; now left|]. repeat split; [lra|exact A|exact LW|]. intros (X & Y & Z). destruct C; lra.
    + apply (N RDusty); [unfold order; destruct k; cbn; tauto|]. repeat split; [lra|exact B|exact LW].
Qed.
Print Assumptions C97_cover.
Example C97_cover_example : (a_ldmin ex_area < a_scp ex_area)%Q /\ (a_dpmin ex_area < a_scp ex_area)%Q /\
  (g_dec (nth 7 ex_px (SPix 0 0 0 0 0 true)) < a_ldmax ex_area)%Q /\ (g_dec (nth 7 ex_px (SPix 0 0 0 0 0 true)) <= a_ldmax ex_area - a_halves ex_area)%Q.
Proof. repeat split; vm_compute; congruence. Qed.

(** Refuted: [gal_dec_max], "Maximum declination for the galactic plane region", has no
    effect: a pixel north of it gets the label and the weights of the bulge. *)
Theorem C97_decmax_refuted : exists P g s,
  return_maps ex_sep ex_poly P KBase [SPix 80 (-70) (-80) 280 (-33) true; g] ex_r = Ok s /\
  (a_gdec P < g_dec g)%Q /\ map fst s = ["LMC_SMC"; "bulge"]%string /\ map (fun x => nth 3 (snd x) 0%Q) s = [0; 98#100]%Q.
Proof.
  exists (Area (80893860#1000000, -69756126#1000000)%Q 6 (13186588#1000000, -72828599#1000000)%Q 4 (18675#100, 12717#1000)%Q (875#100)
    (-60) 335 50 23 12 4 (-30) (-70) 15 12 (-90) 15 (-10) 10 0 45), (SPix 284 3 25 36 0 false).
  eexists. split; [vm_compute; reflexivity|]. repeat split; reflexivity.
Qed.
Print Assumptions C97_decmax_refuted.

(** Refuted: a dust map file can be named. *)
Theorem C97_dustfile_refuted : forall A (load : string -> A) name f d, read_dustmap load name (Some f) d = Raise UnboundLocalError.
Proof. reflexivity. Qed.
Print Assumptions C97_dustfile_refuted.
Example C97_dustfile_example : read_dustmap (fun f => f) (fun d => d ++ "/dust_nside_32.npz")%string None (Some "data"%string) = Ok "data/dust_nside_32.npz"%string.
Proof. reflexivity. Qed.

(** A higher cutoff takes less area, pixel by pixel. *)
Theorem C97_cutoff : forall smooth limit c c' dust, (c <= c')%Q ->
  Forall2 (fun hi lo : bool => hi = true -> lo = true) (low_dust smooth limit c' dust) (low_dust smooth limit c dust).
Proof.
  intros smooth limit c c' dust H. unfold low_dust. induction (smooth _) as [|x l IH]; cbn; constructor; [|exact IH].
  rewrite !Qltb_lt. lra.
Qed.
Print Assumptions C97_cutoff.
(** Less dust takes no less area, for a smoothing that keeps order. *)
Theorem C97_dust : forall smooth limit c dust dust', (forall l l', Forall2 Qle l l' -> Forall2 Qle (smooth l) (smooth l')) ->
  Forall2 Qle dust dust' ->
  Forall2 (fun more less : bool => more = true -> less = true) (low_dust smooth limit c dust') (low_dust smooth limit c dust).
Proof.
  intros smooth limit c dust dust' M D. unfold low_dust.
  assert (F : Forall2 Qle (map (fun d => if Qltb d limit then 1%Q else 0%Q) dust') (map (fun d => if Qltb d limit then 1%Q else 0%Q) dust)).
  { induction D as [|d d' l l' H D IH]; cbn; constructor; [|exact IH].
    destruct (Qltb d' limit) eqn:E'; destruct (Qltb d limit) eqn:E; try lra.
    apply Qltb_lt in E'. apply Qltb_false in E. lra. }
  apply M in F. induction F as [|x y l l' H F IH]; cbn; constructor; [|exact IH]. rewrite !Qltb_lt. lra.
Qed.
Print Assumptions C97_dust.
Example C97_dust_ex : Forall2 Qle [1#10; 3#10]%Q [2#10; 3#10]%Q /\ low_dust (fun l => l) (199#1000) (45#100) [2#10; 3#10]%Q = [false; false].
Proof. split; [repeat constructor; vm_compute; congruence|reflexivity]. Qed.
Example C97_cutoff_example : low_dust (fun l => l) (199#1000) (45#100) [1#10; 3#10]%Q = [true; false].
Proof. reflexivity. Qed.

(** ** Visits *)
Lemma qsum_map_mul : forall A (f : A -> Q) (c : Q) l, (qsum (map (fun x => f x * c)%Q l) == qsum (map f l) * c)%Q.
Proof. induction l as [|x l IH]; cbn; [ring|]. unfold qsum in IH. rewrite IH. ring. Qed.
Lemma qsum_ext : forall A (f h : A -> Q) l, (forall x, In x l -> f x == h x)%Q -> (qsum (map f l) == qsum (map h l))%Q.
Proof. induction l as [|x l IH]; intros H; cbn; [reflexivity|]. rewrite (H x (or_introl eq_refl)). unfold qsum in IH. rewrite IH; [reflexivity|]. intros y I. apply H. now right. Qed.
Lemma fold_sum : forall A (f : A -> Q) l a, (fold_left (fun a x => a + f x)%Q l a == a + qsum (map f l))%Q.
Proof. induction l as [|x l IH]; intros a; cbn; [ring|]. rewrite IH. unfold qsum. ring. Qed.

(** The pixel numbers of visits add up, over all pixels, to the area of all visits counted
    in pixels; each pixel has in each band its share of the weights, and the second map is
    the sum over the bands. *)
Theorem C97_visits : forall nvis fov area s rows tot, ~ (qsum (sum_map s) == 0)%Q -> ~ (area == 0)%Q ->
  estimate_visits nvis fov area s = (rows, tot) ->
  (qsum tot * area == nvis * fov)%Q /\
  Forall2 (fun r t => qsum r == t)%Q rows tot /\
  Forall2 (fun x r => Forall2 (fun w v => v * qsum (sum_map s) * area == w * nvis * fov)%Q (snd x) r) s rows.
Proof.
  intros nvis fov area s rows tot N A H. unfold estimate_visits in H. injection H as <- <-. set (norm := qsum (sum_map s)) in *.
  assert (E : forall w, (w / norm * (fov / area) * nvis == w * (fov / area * nvis / norm))%Q) by (intros w; field; now split).
  split; [|split].
  - rewrite (qsum_ext _ _ (fun w => w * (fov / area * nvis / norm))%Q _ (fun x _ => E x)).
    rewrite (qsum_map_mul _ (fun w => w)). rewrite map_id. fold norm. field. now split.
  - unfold sum_map. clearbody norm. clear - E. induction s as [|[l w] s IH]; cbn [map snd]; constructor; [|exact IH].
    rewrite (qsum_ext _ _ (fun w => w * (fov / area * nvis / norm))%Q _ (fun x _ => E x)), (qsum_map_mul _ (fun w => w)), map_id. now rewrite E.
  - clearbody norm. clear - N A. induction s as [|[l w] s IH]; cbn [map snd]; constructor; [|exact IH]. clear IH.
    induction w as [|q w IH]; cbn; constructor; [|exact IH]. field. now split.
Qed.
Print Assumptions C97_visits.

Lemma once_in : forall l x, In x (once l) <-> In x l.
Proof.
  induction l as [|y l IH]; intros x; [reflexivity|]. cbn [once]. split.
  - intros [<-|I]; [now left|]. apply filter_In in I as [I _]. right. now apply IH.
  - intros [<-|I]; [now left|]. destruct (string_dec x y) as [->|N]; [now left|]. right. apply filter_In. split; [now apply IH|].
    now apply negb_true_iff, String.eqb_neq.
Qed.
Lemma once_nodup : forall l, NoDup (once l).
Proof.
  induction l as [|y l IH]; cbn [once]; constructor; [|now apply NoDup_filter].
  intros I. apply filter_In in I as [_ I]. now rewrite String.eqb_refl in I.
Qed.
Lemma qsum_app : forall a b, (qsum (a ++ b) == qsum a + qsum b)%Q.
Proof. induction a as [|x a IH]; intros b; cbn; [unfold qsum; ring|]. unfold qsum in *. rewrite IH. ring. Qed.
Lemma qsum_cons : forall x l, (qsum (x :: l) == x + qsum l)%Q.
Proof. reflexivity. Qed.
Lemma label_sum_cons : forall l w s u, (label_sum ((l, w) :: s) u == (if String.eqb l u then qsum w else 0) + label_sum s u)%Q.
Proof.
  intros l w s u. unfold label_sum. cbn [filter fst]. destruct (String.eqb l u); cbn [map snd]; [apply qsum_cons|]. ring.
Qed.
(** Summing by label is summing over all. *)
Lemma by_label : forall ul (s : sky), NoDup ul -> (forall x, In x s -> In (fst x) ul) ->
  (qsum (map (label_sum s) ul) == qsum (sum_map s))%Q.
Proof.
  intros ul s ND. revert s. induction s as [|[l w] s IH]; intros C.
  - clear. induction ul as [|u ul IH]; [reflexivity|]. cbn [map]. rewrite qsum_cons, IH. reflexivity.
  - assert (E : (qsum (map (label_sum ((l, w) :: s)) ul) == qsum w + qsum (map (label_sum s) ul))%Q).
    { assert (I : In l ul) by (exact (C (l, w) (or_introl eq_refl))). clear IH C. induction ul as [|u ul IHu]; [contradiction|].
      apply NoDup_cons_iff in ND as [N1 N2]. cbn [map]. rewrite !qsum_cons, label_sum_cons.
      destruct (String.eqb_spec l u) as [->|NE].
      - assert (S : (qsum (map (label_sum ((u, w) :: s)) ul) == qsum (map (label_sum s) ul))%Q).
        { apply qsum_ext. intros v Iv. rewrite label_sum_cons. destruct (String.eqb_spec u v) as [->|_]; [contradiction|]. ring. }
        rewrite S. ring.
      - destruct I as [I|I]; [congruence|]. rewrite (IHu N2 I). ring. }
    rewrite E, IH by (intros x I; apply C; now right). unfold sum_map. cbn [map snd]. now rewrite qsum_cons.
Qed.

(** The visits of the regions add up to all visits, and a region's visits are those the
    map of [estimate_visits] gives its pixels. *)
Theorem C97_labels : forall nvis fov area s rows tot, ~ (qsum (sum_map s) == 0)%Q -> ~ (area == 0)%Q ->
  estimate_visits nvis fov area s = (rows, tot) ->
  (qsum (map snd (per_label nvis s)) == nvis)%Q /\
  NoDup (map fst (per_label nvis s)) /\ (forall l, In l (map fst (per_label nvis s)) <-> In l (map fst s)) /\
  forall l v, In (l, v) (per_label nvis s) ->
    (v * fov == qsum (map snd (filter (fun p => String.eqb (fst p) l) (combine (map fst s) tot))) * area)%Q.
Proof.
  intros nvis fov area s rows tot N A H. unfold estimate_visits in H. injection H as _ <-. unfold per_label.
  set (ul := once (map fst s)). set (norm' := fold_left _ ul 0%Q).
  assert (EN : (norm' == qsum (sum_map s))%Q).
  { unfold norm'. rewrite fold_sum, Qplus_0_l. apply by_label; [apply once_nodup|]. intros x I. apply once_in. now apply in_map. }
  assert (N' : ~ (norm' == 0)%Q) by (now rewrite EN).
  split; [|split; [|split]].
  - rewrite map_map. cbn [snd]. rewrite (qsum_ext _ _ (fun l => label_sum s l * (nvis / norm'))%Q) by (intros; field; exact N').
    rewrite qsum_map_mul. rewrite by_label; [|apply once_nodup|intros x I; apply once_in; now apply in_map]. rewrite <- EN. field. exact N'.
  - rewrite map_map. cbn [fst]. rewrite map_id. apply once_nodup.
  - intros l. rewrite map_map. cbn [fst]. rewrite map_id. apply once_in.
  - intros l v I. apply in_map_iff in I as (l' & E & _). injection E as <- <-.
    assert (S : (qsum (map snd (filter (fun p => String.eqb (fst p) l') (combine (map fst s)
        (map (fun w => w / qsum (sum_map s) * (fov / area) * nvis)%Q (sum_map s))))) == label_sum s l' * (fov / area * nvis / norm'))%Q).
    { rewrite EN. set (norm := qsum (sum_map s)) in *. assert (NN : ~ (norm == 0)%Q) by exact N. clearbody norm. clear - NN A.
      unfold label_sum. induction s as [|[l w] s IH]; [cbn; ring|]. cbn [map sum_map combine filter fst snd].
      destruct (String.eqb l l'); [|exact IH]. cbn [map snd]. rewrite !qsum_cons. unfold sum_map in IH. rewrite IH.
      field. now split. }
    rewrite S. field. now split.
Qed.
Print Assumptions C97_labels.
Example C97_labels_example : exists s rows tot, return_maps ex_sep ex_poly ex_area KThree ex_px ex_r = Ok s /\
  ~ (qsum (sum_map s) == 0)%Q /\ estimate_visits 1000 (96#10) (336#100) s = (rows, tot) /\
  (Qred (nth 3 tot 0) = (7600000#15393))%Q /\
  (Qred (qsum (map snd (per_label 1000 s))) = 1000)%Q /\ List.length (per_label 1000 s) = 8.
Proof.
  eexists. eexists. eexists. split; [vm_compute; reflexivity|]. split; [vm_compute; congruence|]. split; [reflexivity|].
  repeat split; vm_compute; reflexivity.
Qed.

(** The ratios of the bands add up to 1 and are in proportion to the sums of the positive
    weights; nan and negative entries (masked pixels) do not count. *)
Inductive psum : list (option Q) -> Q -> Prop :=
| PNil : psum [] 0
| PPos : forall q l s, (0 < q)%Q -> psum l s -> psum (Some q :: l) (q + s)
| PNeg : forall q l s, (q <= 0)%Q -> psum l s -> psum (Some q :: l) s
| PNan : forall l s, psum l s -> psum (None :: l) s.
Lemma psum_good : forall l, psum l (qsum (flat_map (fun x => match x with Some q => if Qltb 0 q then [q] else [] | None => [] end) l)).
Proof.
  induction l as [|[q|] l IH]; cbn [flat_map]; [constructor| |now constructor]. destruct (Qltb 0 q) eqn:E.
  - apply Qltb_lt in E. cbn [app qsum fold_right]. now constructor.
  - apply Qltb_false in E. now constructor.
Qed.
Lemma psum_nonneg : forall l s, psum l s -> (0 <= s)%Q.
Proof. induction 1; lra. Qed.
Lemma psum_pos : forall l s q, psum l s -> In (Some q) l -> (0 < q)%Q -> (0 < s)%Q.
Proof.
  induction 1 as [|x l s X H IH|x l s X H IH|l s H IH]; intros I Pq; [contradiction| | |].
  - pose proof (psum_nonneg _ _ H). lra.
  - destruct I as [I|I]; [injection I as ->; lra|exact (IH I Pq)].
  - destruct I as [I|I]; [discriminate|exact (IH I Pq)].
Qed.
Theorem C97_ratios : forall m k0 l0 q0, In (k0, l0) m -> In (Some q0) l0 -> (0 < q0)%Q ->
  (qsum (map snd (band_counts m)) == 1)%Q /\
  exists tot, (0 < tot)%Q /\
    Forall2 (fun kv o => fst o = fst kv /\ exists s, psum (snd kv) s /\ (snd o * tot == s)%Q) m (band_counts m).
Proof.
  intros m k0 l0 q0 I0 J0 Q0. unfold band_counts. cbv zeta.
  set (good := fun l : list (option Q) => flat_map (fun x => match x with Some q => if Qltb 0 q then [q] else [] | None => [] end) l). set (sums := map _ m).
  assert (SN : (fold_left (fun a kv => a + snd kv)%Q sums 0 == qsum (map (fun kv => qsum (good (snd kv))) m))%Q).
  { rewrite (fold_sum _ (fun kv : string * Q => snd kv)), Qplus_0_l. unfold sums. rewrite map_map. reflexivity. }
  set (norm := fold_left _ sums 0%Q) in *.
  assert (PN : (0 < norm)%Q).
  { rewrite SN. clear - I0 J0 Q0. induction m as [|[k l] m IH]; [contradiction|]. cbn [map snd qsum fold_right].
    assert (G : forall m', (0 <= fold_right Qplus 0 (map (fun kv : string * list (option Q) => qsum (good (snd kv))) m'))%Q).
    { induction m' as [|[k' l'] m' IHm]; cbn [map fold_right]; [lra|]. pose proof (psum_nonneg _ _ (psum_good l')). cbn [snd] in *. unfold good at 1. lra. }
    destruct I0 as [E|I]; [injection E as -> ->|].
    - pose proof (psum_pos _ _ q0 (psum_good l0) J0 Q0). specialize (G m). unfold good at 1. lra.
    - specialize (IH I). unfold qsum at 1 in IH. pose proof (psum_nonneg _ _ (psum_good l)). unfold good at 1. lra. }
  clearbody norm. assert (NZ : ~ (norm == 0)%Q) by lra. split.
  - rewrite map_map. cbn [snd]. rewrite (qsum_ext _ _ (fun kv => snd kv * (1 / norm))%Q) by (intros; field; exact NZ).
    rewrite qsum_map_mul. unfold sums. rewrite map_map. cbn [snd]. rewrite <- SN. field. exact NZ.
  - exists norm. split; [exact PN|]. unfold sums. rewrite map_map. clear - NZ. induction m as [|[k l] m IH]; cbn [map]; constructor; [|exact IH].
    cbn [fst snd]. split; [reflexivity|]. exists (qsum (good l)). split; [apply psum_good|]. field. exact NZ.
Qed.
Print Assumptions C97_ratios.
Example C97_ratios_example : map (fun x => Qred (snd x)) (band_counts [("u"%string, [Some 1; None; Some 2]); ("g"%string, [Some (-5); Some 1])]%Q) = [3#4; 1#4]%Q.
Proof. reflexivity. Qed.

(** ** The map of the whole sky *)
(** Away from ties pixels whose highest elevation is under the limit are masked, others 0. *)
Theorem C97_allsky : forall halfpi lat limit mask decs, ~ (limit == 0)%Q ->
  (forall d, In d decs -> (1 # 1000000000) * Qabs limit < Qabs (halfpi - Qabs (d - lat) - limit))%Q ->
  exists m, all_sky halfpi lat limit mask decs = Ok m /\
    Forall2 (fun d x => x = if Qle_bool limit (halfpi - Qabs (d - lat)) then EFin 0 else mask) decs m.
Proof.
  intros halfpi lat limit mask decs NZ A. unfold all_sky. set (f := fun d => (halfpi - Qabs (d - lat))%Q).
  destruct decs as [|d0 [|d1 r]] eqn:ED.
  - exists []. split; [reflexivity|constructor].
  - destruct (cmp_exact_args (fun a b => Qle_bool b a) (map f [d0]) [limit] limit) as (bs & E & L & B);
      [now left|right; now left|exact NZ| |].
    { intros i x y X Y. cbn in X, Y. injection X as <-. injection Y as <-. apply A. now left. }
    unfold ir_ge. rewrite E. cbn [bind]. eexists. split; [reflexivity|]. cbn in L. destruct bs as [|b [|? ?]]; try discriminate L.
    constructor; [|constructor]. destruct (B 0 ltac:(cbn; lia)) as (x & y & X & Y & N). cbn in X, Y, N. injection X as <-. injection Y as <-. injection N as ->. reflexivity.
  - rewrite <- ED in *. assert (LN : List.length (map f decs) <> 1) by (rewrite ED; cbn; lia).
    destruct (cmp_exact_args (fun a b => Qle_bool b a) (map f decs) [limit] limit) as (bs & E & L & B);
      [right; now left|right; now left|exact NZ| |].
    { intros i x y X Y. rewrite bget_general in X by exact LN. cbn in Y. injection Y as <-. rewrite nth_error_map in X.
      destruct (nth_error decs i) as [d|] eqn:D; [|discriminate]. injection X as <-. apply A. now apply nth_error_In in D. }
    unfold ir_ge. rewrite E. cbn [bind]. eexists. split; [reflexivity|].
    unfold blen in *. rewrite (proj2 (Nat.eqb_neq _ _) LN), map_length in L, B.
    apply Forall2_nth_error_intro; [now rewrite map_length|]. intros i d x D X. rewrite nth_error_map in X.
    destruct (B i) as (u & v & U & V & N); [apply nth_error_Some; congruence|].
    rewrite bget_general in U by exact LN. rewrite nth_error_map, D in U. injection U as <-. cbn in V. injection V as <-.
    rewrite N in X. injection X as <-. reflexivity.
Qed.
Print Assumptions C97_allsky.
Example C97_allsky_example : all_sky (157#100) (-53#100) (35#100) (EFin (-1)) [0; -1; 1; (3#2)]%Q = Ok [EFin 0; EFin 0; EFin (-1); EFin (-1)].
Proof. vm_compute. reflexivity. Qed.

(** Refuted without the guard: one pixel whose highest elevation is the limit, and parts of
    the sky that never reach the limit, or even rise, are no more masked. *)
Theorem C97_allsky_refuted : exists halfpi lat limit decs d, In d decs /\
  (halfpi - Qabs (d - lat) < 0)%Q /\ (0 < limit)%Q /\
  all_sky halfpi lat limit (EFin (-1)) decs = Ok (map (fun _ => EFin 0) decs) /\
  all_sky halfpi lat limit (EFin (-1)) [d] = Ok [EFin (-1)].
Proof.
  exists (157#100)%Q, (-53#100)%Q, (35#100)%Q, [69#100; 13#10]%Q, (13#10)%Q.
  split; [right; now left|]. split; [reflexivity|]. split; [reflexivity|]. split; vm_compute; reflexivity.
Qed.
Print Assumptions C97_allsky_refuted.
