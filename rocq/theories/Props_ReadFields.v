(** C162: the fields of a file of positions. *)
From Coq Require Import List Bool Reals Lra Lia Arith.
From Verif Require Import Base Angles Sphere Sphere_proofs Props_Sphere ReadFields.
Import ListNotations.
Open Scope R_scope.

(** The file of a list of points: three numbers for each. *)
Definition file_of (vs : list vec) : list R := flat_map (fun v => [vx v; vy v; vz v]) vs.

Lemma stride_file : forall vs, stride 0 (file_of vs) = map vx vs /\ stride 1 (file_of vs) = map vy vs /\ stride 2 (file_of vs) = map vz vs.
Proof.
  unfold stride. induction vs as [|v vs (I0 & I1 & I2)]; [repeat split|]. cbn in I0.
  change (file_of (v :: vs)) with (vx v :: vy v :: vz v :: file_of vs). cbn [map skipn]. split; [cbn [every3]; now rewrite I0|]. split.
  - destruct vs as [|w vs]; [reflexivity|]. change (file_of (w :: vs)) with (vx w :: vy w :: vz w :: file_of vs) in *.
    cbn [skipn] in I1. cbn [every3]. f_equal. exact I1.
  - destruct vs as [|w vs]; [reflexivity|]. change (file_of (w :: vs)) with (vx w :: vy w :: vz w :: file_of vs) in *.
    cbn [skipn] in I2. cbn [every3]. f_equal. exact I2.
Qed.
Lemma arr2_same : forall A B (x : list A) (y : list B), length x = length y -> arr2 x y = Ok (combine x y).
Proof.
  intros A B x y E. unfold arr2, width. rewrite <- E. destruct (Nat.eqb (length x) 1); unfold stretch; rewrite <- E, Nat.eqb_refl; reflexivity.
Qed.
Lemma ok_pair : forall A B (a c : A) (b d : B), Ok (a, b) = Ok (c, d) -> a = c /\ b = d.
Proof. intros A B a c b d E. now injection E. Qed.
Lemma read_file : forall vs, read_fields_rad (file_of vs) =
  Ok (map (fun v => fst (ra_dec_from_xyz (vx v) (vy v) (vz v))) vs, map (fun v => snd (ra_dec_from_xyz (vx v) (vy v) (vz v))) vs).
Proof.
  intros vs. destruct (stride_file vs) as (S0 & S1 & S2).
  assert (E : read_fields_rad (file_of vs) = radec_arrays (stride 0 (file_of vs)) (stride 1 (file_of vs)) (stride 2 (file_of vs)))
    by (destruct vs; reflexivity).
  rewrite E, S0, S1, S2. clear. unfold radec_arrays. rewrite arr2_same by now rewrite !map_length. cbn [bind].
  rewrite arr2_same by (rewrite combine_length, !map_length; apply Nat.min_id). cbn [bind]. f_equal.
  induction vs as [|v vs I]; [reflexivity|]. injection I as I1 I2. cbn [map combine fst snd]. f_equal; f_equal; assumption.
Qed.

(** Every point of the file but the origin makes a field, in the order of the file, in the
    direction of the point, whatever its distance. *)
Theorem C162_fields : forall vs, (forall v, In v vs -> v <> V 0 0 0) ->
  exists ras decs, read_fields_rad (file_of vs) = Ok (ras, map Some decs) /\ length ras = length vs /\ length decs = length vs /\
  forall i, (i < length vs)%nat -> - PI < nth i ras 0 <= PI /\ - (PI / 2) <= nth i decs 0 <= PI / 2 /\
    exists n, 0 < n /\ nth i vs (V 0 0 0) = times n (pos (nth i ras 0) (nth i decs 0)).
Proof.
  intros vs H. rewrite read_file. induction vs as [|v vs I].
  - exists [], []. repeat split; cbn in *; lia.
  - destruct I as (ras & decs & E & LR & LD & P); [intros w W; apply H; now right|]. destruct (ok_pair _ _ _ _ _ _ E) as (E1 & E2).
    destruct (C98_direction (vx v) (vy v) (vz v)) as (ra & dec & EV & RR & RD & N).
    { intros (X & Y & Z). apply (H v); [now left|]. destruct v; cbn in *; now subst. }
    exists (ra :: ras), (dec :: decs). cbn [map]. rewrite EV, E1, E2. split; [reflexivity|]. cbn [length].
    split; [now rewrite LR|]. split; [now rewrite LD|]. intros [|i] L; cbn [nth].
    + split; [exact RR|]. split; [exact RD|]. destruct v; exact N.
    + apply P. cbn in L. lia.
Qed.
Print Assumptions C162_fields.
Example C162_fields_example : (forall v, In v [V 0 (-2) 0; V 0 (-2) 0] -> v <> V 0 0 0) /\
  read_fields_rad [0; -2; 0; 0; -2; 0] = Ok ([- (PI / 2); - (PI / 2)], [Some 0; Some 0]).
Proof.
  split.
  - intros v [E|[E|[]]] Z; subst v; injection Z; intros; lra.
  - pose proof (read_file [V 0 (-2) 0; V 0 (-2) 0]) as E. cbn [map vx vy vz] in E. rewrite C98_direction_ex in E. exact E.
Qed.

(** Fields written as positions come back: dec as it was, ra up to whole turns. *)
Theorem C162_round : forall fs, (forall f, In f fs -> - (PI / 2) < snd f < PI / 2) ->
  exists ras, read_fields_rad (file_of (map (fun f => pos (fst f) (snd f)) fs)) = Ok (ras, map (fun f => Some (snd f)) fs) /\
  length ras = length fs /\ forall i, (i < length fs)%nat -> exists k : Z, nth i ras 0 = fst (nth i fs (0, 0)) + IZR k * (2 * PI).
Proof.
  intros fs H. rewrite read_file. induction fs as [|f fs I].
  - exists []. repeat split; cbn in *; lia.
  - destruct I as (ras & E & L & P); [intros g G; apply H; now right|]. destruct (ok_pair _ _ _ _ _ _ E) as (E1 & E2).
    assert (B : - (PI / 2) < snd f < PI / 2) by (apply H; now left).
    destruct (C98_round (fst f) (snd f)) as (RD & RR); [lra|]. rewrite <- pos_xyz in RD, RR. specialize (RR B).
    cbn [map]. rewrite E1, E2. eexists. split; [rewrite RD; reflexivity|]. split; [cbn; now rewrite L|].
    intros [|i] LI; cbn [nth]; [exact RR|]. apply P. cbn in LI. lia.
Qed.
Print Assumptions C162_round.
Example C162_round_example : let f := (1, 1 / 2) in - (PI / 2) < snd f < PI / 2.
Proof. cbn. pose proof PI2_3_2. lra. Qed.

(** [read_fields] gives the same fields in degrees. *)
Theorem C162_degrees : forall cov ras decs, read_fields_rad cov = Ok (ras, map Some decs) ->
  exists a d, read_fields cov = Ok (a, map Some d) /\ map radians a = ras /\ map radians d = decs.
Proof.
  intros cov ras decs E. unfold read_fields. rewrite E. cbn [bind fst snd]. exists (map degrees ras), (map degrees decs).
  assert (R : forall l, map radians (map degrees l) = l).
  { intros l. rewrite map_map. rewrite <- (map_id l) at 2. apply map_ext. intros x. unfold radians, degrees. field. apply PI_neq0. }
  rewrite !R, !map_map. repeat split.
Qed.
Print Assumptions C162_degrees.

(** A file cut short is refused, if two points or more are left of it. *)
Lemma every3_length : forall A n (l : list A), (length l <= n)%nat -> length (every3 l) = ((length l + 2) / 3)%nat.
Proof.
  induction n as [|n I]; intros [|a [|b [|c l]]] L; cbn [length] in L; try lia; try reflexivity.
  cbn [every3 length]. rewrite I by lia. replace (S (S (S (length l))) + 2)%nat with (length l + 2 + 1 * 3)%nat by lia.
  rewrite Nat.div_add by lia. lia.
Qed.
Lemma stretch_other : forall A n (l : list A), length l <> n -> length l <> 1%nat -> stretch n l = Raise ValueError.
Proof.
  intros A n l H1 H2. unfold stretch. apply Nat.eqb_neq in H1. rewrite H1. destruct l as [|a [|b l]]; try reflexivity. now cbn in H2.
Qed.
Lemma stretch_len : forall A (l : list A), stretch (length l) l = Ok l.
Proof. intros. unfold stretch. now rewrite Nat.eqb_refl. Qed.
Theorem C162_cut : forall cov, (6 <= length cov)%nat -> (length cov mod 3 <> 0)%nat -> read_fields cov = Raise ValueError.
Proof.
  intros cov L M. unfold read_fields. enough (E : read_fields_rad cov = Raise ValueError) by now rewrite E.
  assert (E : read_fields_rad cov = radec_arrays (stride 0 cov) (stride 1 cov) (stride 2 cov)).
  { destruct cov as [|a [|b c]]; try reflexivity. cbn in L. lia. }
  rewrite E. clear E.
  assert (S : forall k, length (stride k cov) = ((length cov - k + 2) / 3)%nat).
  { intros k. unfold stride. rewrite (every3_length _ (length (skipn k cov)) _ (le_n _)), skipn_length. reflexivity. }
  pose proof (S 0%nat) as S0. pose proof (S 1%nat) as S1. pose proof (S 2%nat) as S2. clear S.
  remember (stride 0 cov) as x. remember (stride 1 cov) as y. remember (stride 2 cov) as z.
  pose proof (Nat.div_mod (length cov) 3 ltac:(lia)) as D. pose proof (Nat.mod_upper_bound (length cov) 3 ltac:(lia)) as B.
  set (q := (length cov / 3)%nat) in *. set (r := (length cov mod 3)%nat) in *.
  assert (Q : (2 <= q)%nat) by lia.
  assert (DV : forall a b, (a < 3)%nat -> ((3 * b + a) / 3 = b)%nat).
  { intros a b A. symmetry. now apply (Nat.div_unique _ _ _ a). }
  assert (R : r = 1%nat \/ r = 2%nat) by lia. unfold radec_arrays. destruct R as [R|R].
  - replace (length cov - 0 + 2)%nat with (3 * (q + 1) + 0)%nat in S0 by lia. rewrite DV in S0 by lia.
    replace (length cov - 1 + 2)%nat with (3 * q + 2)%nat in S1 by lia. rewrite DV in S1 by lia.
    unfold arr2 at 1, width. destruct (Nat.eqb_spec (length x) 1); [lia|]. rewrite stretch_len. cbn [bind].
    rewrite stretch_other by lia. reflexivity.
  - replace (length cov - 0 + 2)%nat with (3 * (q + 1) + 1)%nat in S0 by lia. rewrite DV in S0 by lia.
    replace (length cov - 1 + 2)%nat with (3 * (q + 1) + 0)%nat in S1 by lia. rewrite DV in S1 by lia.
    replace (length cov - 2 + 2)%nat with (3 * q + 2)%nat in S2 by lia. rewrite DV in S2 by lia.
    rewrite arr2_same by lia. cbn [bind]. assert (C : length (combine x y) = (q + 1)%nat) by (rewrite combine_length; lia).
    unfold arr2, width. destruct (Nat.eqb_spec (length (combine x y)) 1); [lia|]. rewrite stretch_len. cbn [bind].
    rewrite stretch_other by lia. reflexivity.
Qed.
Print Assumptions C162_cut.
Example C162_cut_example : read_fields [1; 0; 0; 0; 1; 0; 0] = Raise ValueError.
Proof. apply C162_cut; cbn; lia. Qed.

(** One cut within its second point is not: the missing numbers are those of the first point. *)
Theorem C162_cut_refuted : forall a b c d, read_fields [a; b; c; d] = read_fields [a; b; c; d; b; c].
Proof. reflexivity. Qed.
Print Assumptions C162_cut_refuted.
(** Cut within its first point, there is one ra and no dec. *)
Theorem C162_two_refuted : forall a b, exists ra, read_fields [a; b] = Ok ([ra], []).
Proof. intros. eexists. reflexivity. Qed.
Print Assumptions C162_two_refuted.
