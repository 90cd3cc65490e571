(** C113: nights by the calendar and visits from the consolidated database. *)
From Coq Require Import List Bool Reals Lra Lia ZArith String Permutation.
From Verif Require Import Base Sphere Sphere_proofs Angles ConsDb.
Import ListNotations.
Open Scope R_scope.

(** A date of the Gregorian calendar. *)
Definition valid (d : date) : Prop := (1 <= month d <= 12 /\ 1 <= day d <= mdays (year d) (month d))%Z.

Lemma mdays_range : forall y m, (28 <= mdays y m <= 31)%Z.
Proof. intros y m. unfold mdays. destruct (m =? 2)%Z, (leap y), ((m =? 4) || (m =? 6) || (m =? 9) || (m =? 11))%Z; lia. Qed.
Lemma next_valid : forall d, valid d -> valid (next_day d).
Proof.
  intros [y m d] (M & D). unfold next_day, valid in *. cbn [year month day] in *. pose proof (mdays_range y m). pose proof (mdays_range y (m + 1)). pose proof (mdays_range (y + 1) 1).
  destruct (Z.ltb_spec d (mdays y m)); cbn [year month day]; [lia|]. destruct (Z.ltb_spec m 12); cbn [year month day]; lia.
Qed.
Lemma prev_valid : forall d, valid d -> valid (prev_day d).
Proof.
  intros [y m d] (M & D). unfold prev_day, valid in *. cbn [year month day] in *. pose proof (mdays_range y m). pose proof (mdays_range y (m - 1)).
  destruct (Z.ltb_spec 1 d); cbn [year month day]; [lia|]. destruct (Z.ltb_spec 1 m); cbn [year month day]; [lia|]. assert (E : mdays (y - 1) 12 = 31%Z) by reflexivity. lia.
Qed.
Lemma prev_next : forall d, valid d -> prev_day (next_day d) = d.
Proof.
  intros [y m d] (M & D). unfold next_day, prev_day. cbn [year month day] in *. pose proof (mdays_range y m).
  destruct (Z.ltb_spec d (mdays y m)); cbn [year month day].
  - destruct (Z.ltb_spec 1 (d + 1)); [|lia]. f_equal; lia.
  - destruct (Z.ltb_spec m 12); cbn [year month day].
    + destruct (Z.ltb_spec 1 1); [lia|]. destruct (Z.ltb_spec 1 (m + 1)); [|lia]. replace (m + 1 - 1)%Z with m by lia. f_equal. lia.
    + destruct (Z.ltb_spec 1 1); [lia|]. assert (m = 12)%Z by lia. subst m. assert (E : mdays y 12 = 31%Z) by reflexivity. f_equal; lia.
Qed.
Lemma next_prev : forall d, valid d -> next_day (prev_day d) = d.
Proof.
  intros [y m d] (M & D). unfold next_day, prev_day. cbn [year month day] in *.
  destruct (Z.ltb_spec 1 d); cbn [year month day].
  - destruct (Z.ltb_spec (d - 1) (mdays y m)); [|lia]. f_equal; lia.
  - destruct (Z.ltb_spec 1 m); cbn [year month day].
    + destruct (Z.ltb_spec (mdays y (m - 1)) (mdays y (m - 1))); [lia|]. destruct (Z.ltb_spec (m - 1) 12); [|lia]. f_equal; lia.
    + assert (m = 1)%Z by lia. subst m. change (mdays (y - 1) 12) with 31%Z. change (31 <? 31)%Z with false. change (12 <? 12)%Z with false. cbv iota. f_equal; lia.
Qed.
Lemma code_inj : forall d e, valid d -> valid e -> code d = code e -> d = e.
Proof.
  intros [y m d] [y' m' d'] (M & D) (M' & D') E. unfold code in E. cbn [year month day] in *. pose proof (mdays_range y m). pose proof (mdays_range y' m').
  assert (y = y') by lia. subst y'. assert (m = m') by lia. subst m'. f_equal. lia.
Qed.
(** The integer yyyymmdd of the next day is the next one there is. *)
Lemma code_next : forall d e, valid d -> valid e -> ((code d < code e) <-> (code (next_day d) <= code e))%Z.
Proof.
  intros [y m d] [y' m' d'] (M & D) (M' & D'). unfold code, next_day in *. cbn [year month day] in *. pose proof (mdays_range y m). pose proof (mdays_range y' m').
  destruct (Z.ltb_spec d (mdays y m)); cbn [year month day]; [lia|]. destruct (Z.ltb_spec m 12); cbn [year month day];
  (split; intros L; [|lia]); (destruct (Z.eq_dec y y') as [<-|]; [|lia]); (destruct (Z.eq_dec m m') as [<-|]; lia).
Qed.
Lemma code_up : forall d, valid d -> (code d < code (next_day d))%Z.
Proof. intros d V. apply code_next; [auto|now apply next_valid|lia]. Qed.
Lemma code_prev : forall d e, valid d -> valid e -> ((code e < code d) <-> (code e <= code (prev_day d)))%Z.
Proof.
  intros d e D E. pose proof (prev_valid d D) as P. pose proof (code_next (prev_day d) e P E) as A. rewrite (next_prev d D) in A. split; intros L.
  - destruct (Z.le_gt_cases (code e) (code (prev_day d))) as [|G]; [auto|]. assert (code d <= code e)%Z by (apply A; lia). lia.
  - pose proof (code_up _ P) as U. rewrite (next_prev d D) in U. lia.
Qed.
Lemma iter_prev_valid : forall n d, valid d -> valid (Nat.iter n prev_day d).
Proof. intros n d D. induction n as [|n IH]; [auto|]. now apply prev_valid. Qed.
Lemma iter_next_valid : forall n d, valid d -> valid (Nat.iter n next_day d).
Proof. intros n d D. induction n as [|n IH]; [auto|]. now apply next_valid. Qed.

(** The visits selected are those of the day given and the num_nights - 1 calendar days before it. *)
Theorem C113_window : forall D n e, valid D -> valid e ->
  (selected D n (code e) = true <-> exists k, (k < n)%nat /\ e = Nat.iter k prev_day D).
Proof.
  intros D n e VD VE. unfold selected. rewrite Bool.andb_true_iff, Z.leb_le, Z.ltb_lt. induction n as [|n IH].
  - change (Nat.iter 0 prev_day D) with D. split; [intros (A & B); exfalso; lia|]. intros (k & K & _). lia.
  - change (Nat.iter (S n) prev_day D) with (prev_day (Nat.iter n prev_day D)). pose proof (iter_prev_valid n D VD) as V. pose proof (code_up _ (prev_valid _ V)) as U. rewrite (next_prev _ V) in U. split.
    + intros (A & B). destruct (Z.le_gt_cases (code e) (code (Nat.iter n prev_day D))) as [L|L].
      * exists n. split; [lia|]. apply code_inj; auto. pose proof (proj2 (code_prev (Nat.iter n prev_day D) e V VE)) as Q.
        destruct (Z.lt_ge_cases (code e) (code (Nat.iter n prev_day D))) as [G|G]; [|lia]. apply (code_prev _ _ V VE) in G. lia.
      * assert (L' : (code (Nat.iter n prev_day D) < code e)%Z) by lia. destruct (proj1 IH (conj A L')) as (k & K & E). exists k. split; [lia|auto].
    + intros (k & K & E). destruct (Nat.eq_dec k n) as [->|NE].
      * subst e. split; [|lia]. clear - VD. induction n as [|n IH]; [change (Nat.iter 0 prev_day D) with D; lia|change (Nat.iter (S n) prev_day D) with (prev_day (Nat.iter n prev_day D))]. pose proof (iter_prev_valid n D VD) as V. pose proof (code_up _ (prev_valid _ V)) as U. rewrite (next_prev _ V) in U. lia.
      * assert (K' : (k < n)%nat) by lia. destruct (proj2 IH (ex_intro _ k (conj K' E))) as (A & B). split; [auto|lia].
Qed.
Print Assumptions C113_window.

(** Two nights from the first of March of a leap year reach back over the leap day. *)
Example C113_window_ex : selected (Date 2028 3 1) 2 20280229 = true /\ selected (Date 2028 3 1) 2 20280228 = false /\ selected (Date 2027 3 1) 2 20270228 = true.
Proof. repeat split. Qed.

(** ** The day of observation *)
Lemma mjd_valid : forall n, valid (mjd_date n).
Proof. intros n. apply iter_next_valid. unfold valid. cbn. lia. Qed.
Lemma mjd_code_up : forall n m, (n < m)%nat -> (code (mjd_date n) < code (mjd_date m))%Z.
Proof.
  intros n m L. induction m as [|m IH]; [lia|]. pose proof (code_up _ (mjd_valid m)) as U. change (next_day (mjd_date m)) with (mjd_date (S m)) in U.
  destruct (Nat.eq_dec n m) as [->|]; [auto|]. specialize (IH ltac:(lia)). lia.
Qed.
Lemma Int_part_is : forall x (z : Z), IZR z <= x < IZR z + 1 -> Int_part x = z.
Proof. intros x z H. unfold Int_part. rewrite <- (tech_up x (z + 1)); [lia|rewrite plus_IZR; lra|rewrite plus_IZR; lra]. Qed.
Lemma Int_part_bounds : forall x, IZR (Int_part x) <= x < IZR (Int_part x) + 1.
Proof. intros x. pose proof (base_Int_part x). lra. Qed.

(** The day of observation is a date of the calendar, the same for two times exactly if both lie between
    the same two noons (times, less the offset, with the same whole part), later for a later night, and
    the next day's after one day. *)
Theorem C113_dayobs : forall a b offset, 0 <= a + offset -> 0 <= b + offset ->
  (exists d, valid d /\ mjd2dayobs a offset = code d /\ mjd2dayobs (a + 1) offset = code (next_day d)) /\
  (mjd2dayobs a offset = mjd2dayobs b offset <-> exists k : Z, IZR k <= a + offset < IZR k + 1 /\ IZR k <= b + offset < IZR k + 1) /\
  (a <= b -> (mjd2dayobs a offset <= mjd2dayobs b offset)%Z).
Proof.
  intros a b o A B. unfold mjd2dayobs. pose proof (Int_part_bounds (a + o)) as P. pose proof (Int_part_bounds (b + o)) as Q.
  assert (PA : (0 <= Int_part (a + o))%Z) by (assert (IZR (-1) < IZR (Int_part (a + o))) by (simpl; lra); apply lt_IZR in H; lia).
  assert (PB : (0 <= Int_part (b + o))%Z) by (assert (IZR (-1) < IZR (Int_part (b + o))) by (simpl; lra); apply lt_IZR in H; lia).
  split; [|split].
  - exists (mjd_date (Z.to_nat (Int_part (a + o)))). split; [apply mjd_valid|]. split; [reflexivity|]. replace (Int_part (a + 1 + o)) with (Int_part (a + o) + 1)%Z.
    + rewrite Z2Nat.inj_add by lia. rewrite Nat.add_1_r. reflexivity.
    + symmetry. apply Int_part_is. rewrite plus_IZR. lra.
  - split.
    + intros E. exists (Int_part (a + o)). assert (N : Z.to_nat (Int_part (a + o)) = Z.to_nat (Int_part (b + o))).
      { destruct (Nat.lt_trichotomy (Z.to_nat (Int_part (a + o))) (Z.to_nat (Int_part (b + o)))) as [L|[L|L]]; auto; apply mjd_code_up in L; lia. }
      apply Z2Nat.inj in N; auto. rewrite <- N in Q. auto.
    + intros (k & K & L). now rewrite (Int_part_is _ _ K), (Int_part_is _ _ L).
  - intros L. assert (I : (Int_part (a + o) <= Int_part (b + o))%Z).
    { apply Z.lt_succ_r. apply lt_IZR. rewrite succ_IZR. lra. }
    destruct (Z.eq_dec (Int_part (a + o)) (Int_part (b + o))) as [->|N]; [lia|]. apply Z.lt_le_incl, mjd_code_up. apply Z2Nat.inj_lt; lia.
Qed.
Print Assumptions C113_dayobs.

(** MJD 61001.4 to 61002.4: the day changes at 12h. *)
Example C113_dayobs_ex : mjd2dayobs (61001 + 49 / 100) (-1 / 2) = 20251121%Z /\ mjd2dayobs (61001 + 51 / 100) (-1 / 2) = 20251122%Z /\ mjd2dayobs (61002 + 49 / 100) (-1 / 2) = 20251122%Z.
Proof.
  unfold mjd2dayobs. rewrite (Int_part_is (61001 + 49 / 100 + -1 / 2) 61000) by lra. rewrite (Int_part_is (61001 + 51 / 100 + -1 / 2) 61001) by lra. rewrite (Int_part_is (61002 + 49 / 100 + -1 / 2) 61001) by lra.
  vm_compute. repeat split.
Qed.

(** ** The query *)
(** The first good reply of three is returned; where there is none and the third is an error of the
    server or the client, that is raised. *)
Theorem C113_query : forall A (answer : nat -> Z * A) fuel, (3 <= fuel)%nat ->
  (forall k, (k < 3)%nat -> fst (answer k) = 200%Z -> (forall j, (j < k)%nat -> fst (answer j) <> 200%Z) -> ask answer fuel 0 0 = Ok (snd (answer k))) /\
  ((forall k, (k < 3)%nat -> fst (answer k) <> 200%Z) -> (400 <= fst (answer 2%nat) < 600)%Z -> ask answer fuel 0 0 = Raise RuntimeError).
Proof.
  intros A answer fuel F. destruct fuel as [|[|[|f]]]; try lia. cbn [ask Nat.ltb Nat.leb]. destruct (answer 0%nat) as (s0, b0) eqn:E0, (answer 1%nat) as (s1, b1) eqn:E1, (answer 2%nat) as (s2, b2) eqn:E2.
  assert (F0 : fst (answer 0%nat) = s0) by now rewrite E0. assert (F1 : fst (answer 1%nat) = s1) by now rewrite E1. assert (F2 : fst (answer 2%nat) = s2) by now rewrite E2. split.
  - intros k K G N. destruct k as [|[|[|k]]]; try lia.
    + rewrite E0. rewrite F0 in G. rewrite G. reflexivity.
    + pose proof (N 0%nat ltac:(lia)) as N0. rewrite F0 in N0. rewrite F1 in G. rewrite E1, G. destruct (Z.eqb_spec s0 200); [congruence|]. reflexivity.
    + pose proof (N 0%nat ltac:(lia)) as N0. pose proof (N 1%nat ltac:(lia)) as N1. rewrite F0 in N0. rewrite F1 in N1. rewrite F2 in G. rewrite E2, G. destruct (Z.eqb_spec s0 200); [congruence|]. destruct (Z.eqb_spec s1 200); [congruence|]. reflexivity.
  - intros N R2. pose proof (N 0%nat ltac:(lia)) as N0. pose proof (N 1%nat ltac:(lia)) as N1. pose proof (N 2%nat ltac:(lia)) as N2. rewrite F0 in N0. rewrite F1 in N1. rewrite F2 in N2. cbn [fst] in R2.
    destruct (Z.eqb_spec s0 200); [congruence|]. destruct (Z.eqb_spec s1 200); [congruence|]. destruct (Z.eqb_spec s2 200); [congruence|].
    destruct (Z.leb_spec 400 s2); [|lia]. destruct (Z.ltb_spec s2 600); [|lia]. reflexivity.
Qed.
Print Assumptions C113_query.

Example C113_query_ex : ask (fun k => if Nat.eqb k 2 then (200%Z, 7) else (500%Z, 0)) 3 0 0 = Ok 7.
Proof. reflexivity. Qed.

(** Replies of any other status, such as 204 or an unfollowed redirection, are asked for again without
    end. *)
Theorem C113_endless_refuted : forall A (answer : nat -> Z * A), (forall k, fst (answer k) <> 200%Z /\ ~ (400 <= fst (answer k) < 600)%Z) ->
  forall fuel, ask answer fuel 0 0 = Raise OutOfFuel.
Proof.
  intros A answer H fuel. assert (G : forall k f, ask answer fuel k f = Raise OutOfFuel); [|apply G]. induction fuel as [|fuel IH]; intros k f; [reflexivity|]. cbn [ask].
  destruct (H k) as (N & M). destruct (answer k) as (s, b). cbn in *. destruct (Z.eqb_spec s 200); [contradiction|]. destruct ((400 <=? s) && (s <? 600))%Z eqn:E.
  - apply Bool.andb_true_iff in E as (E & F). apply Z.leb_le in E. apply Z.ltb_lt in F. lia.
  - match goal with |- (if ?c then _ else _) = _ => destruct c end; apply IH.
Qed.
Print Assumptions C113_endless_refuted.

Example C113_endless_ex : ask (fun k => (204%Z, k)) 1000 0 0 = Raise OutOfFuel.
Proof. apply C113_endless_refuted. intros k. cbn. lia. Qed.

(** ** Altitude and airmass *)
(** A table with a numeric column of this name. *)
Definition has (t : table) (c : string) (l : list (option R)) : Prop := numbers t c = Some l.
Definition lacks (t : table) (c : string) : Prop := numbers t c = None.

Lemma map1_nth : forall f l i, nth_error (map1 f l) i = option_map (option_map f) (nth_error l i).
Proof. intros f l i. unfold map1. apply nth_error_map. Qed.
Lemma map2_nth : forall f l m i x y, nth_error l i = Some (Some x) -> nth_error m i = Some (Some y) -> nth_error (map2 f l m) i = Some (Some (f x y)).
Proof.
  intros f l. induction l as [|a l IH]; intros [|b m] [|i] x y A B; try discriminate.
  - cbn in *. injection A as ->. injection B as ->. reflexivity.
  - cbn in A, B. exact (IH m i x y A B).
Qed.

(** Cassini's airmass. *)
Definition cassini (alt : R) : R := sqrt ((470 * sin (radians alt)) ^ 2 + 941) - 470 * sin (radians alt).
Lemma rad_range : forall a, 0 <= a <= 90 -> 0 <= radians a <= PI / 2.
Proof. intros a H. unfold radians. pose proof PI_RGT_0. split; nra. Qed.
Lemma cos_zd : forall a, cos (radians (90 - a)) = sin (radians a).
Proof. intros a. replace (radians (90 - a)) with (PI / 2 - radians a) by (unfold radians; field). apply cos_shift. Qed.
Lemma shell_down : forall x y, 0 <= x -> x < y -> sqrt (y ^ 2 + 941) - y < sqrt (x ^ 2 + 941) - x.
Proof.
  intros x y X L. assert (A := sqrt_sqrt (x ^ 2 + 941) ltac:(nra)). assert (B := sqrt_sqrt (y ^ 2 + 941) ltac:(nra)). assert (P := sqrt_lt_R0 (x ^ 2 + 941) ltac:(nra)). assert (Q := sqrt_lt_R0 (y ^ 2 + 941) ltac:(nra)).
  set (u := sqrt (x ^ 2 + 941)) in *. set (v := sqrt (y ^ 2 + 941)) in *. clearbody u v.
  assert (u > x) by nra. assert (v > y) by nra. assert ((v - u) * (v + u) = (y - x) * (y + x)) by nra. nra.
Qed.

(** Without an airmass column the airmass is that of the altitude: 1 at the zenith, more the lower the
    telescope points, and at most 1 / sin(altitude) above the horizon. *)
Theorem C113_airmass : forall t i a, lacks t "airmass" -> nth_error (altitude t) i = Some (Some a) -> nth_error (airmass t) i = Some (Some (cassini a)) /\
  cassini 90 = 1 /\ (0 <= a <= 90 -> 1 <= cassini a <= sqrt 941 /\ (0 < a -> cassini a <= 1 / sin (radians a)) /\ (forall b, a < b <= 90 -> cassini b < cassini a)).
Proof.
  intros t i a N A. assert (Z90 : sin (radians 90) = 1) by (replace (radians 90) with (PI / 2) by (unfold radians; field); apply sin_PI2).
  assert (C90 : cassini 90 = 1). { unfold cassini. rewrite Z90. replace ((470 * 1) ^ 2 + 941) with (471 * 471) by ring. rewrite sqrt_square by lra. ring. }
  assert (MON : forall x y, 0 <= x -> x < y <= 90 -> cassini y < cassini x).
  { intros x y X L. unfold cassini. apply shell_down.
    - pose proof (rad_range x ltac:(lra)). assert (0 <= sin (radians x)) by (apply sin_ge_0; lra). lra.
    - pose proof (rad_range x ltac:(lra)). pose proof (rad_range y ltac:(lra)). assert (sin (radians x) < sin (radians y)); [|lra]. apply sin_increasing_1; try lra. unfold radians. pose proof PI_RGT_0. nra. }
  split; [|split; [exact C90|]].
  - unfold airmass. unfold lacks in N. rewrite N. rewrite map1_nth. unfold zd. rewrite map1_nth, A. cbn [option_map]. rewrite cos_zd. reflexivity.
  - intros H. split; [split|split].
    + destruct (Req_dec a 90) as [->|NE]; [lra|]. rewrite <- C90. apply Rlt_le, MON; lra.
    + destruct (Req_dec a 0) as [->|NE].
      * unfold cassini. replace (radians 0) with 0 by (unfold radians; field). rewrite sin_0. replace ((470 * 0) ^ 2 + 941) with 941 by ring. lra.
      * assert (L := MON 0 a ltac:(lra) ltac:(lra)). unfold cassini in L at 2. replace (radians 0) with 0 in L by (unfold radians; field). rewrite sin_0 in L. replace ((470 * 0) ^ 2 + 941) with 941 in L by ring. lra.
    + intros P. pose proof (rad_range a H) as RR. assert (S0 : 0 < sin (radians a)) by (apply sin_gt_0; [unfold radians; pose proof PI_RGT_0; nra|pose proof PI_RGT_0; lra]). pose proof (SIN_bound (radians a)) as SB. unfold cassini. set (c := sin (radians a)) in *. clearbody c.
      assert (I : 1 / c >= 1). { apply Rle_ge. apply (Rmult_le_reg_r c); [lra|]. unfold Rdiv. rewrite Rmult_assoc, Rinv_l by lra. lra. }
      assert (CI : c * (1 / c) = 1) by (field; lra). set (u := 1 / c) in *. clearbody u.
      assert (sqrt ((470 * c) ^ 2 + 941) <= 470 * c + u); [|lra]. rewrite <- (sqrt_square (470 * c + u)) by nra. apply sqrt_le_1_alt. nra.
    + intros b B. apply MON; lra.
Qed.
Print Assumptions C113_airmass.

(** A visit with start and end altitudes 29 and 31 degrees: 1.995, less than 2. *)
Example C113_airmass_ex : exists m, airmass (Table 1 [("altitude_start", Numbers [Some 29]); ("altitude_end", Numbers [Some 31])]%string) = [Some m] /\ 199 / 100 < m < 2.
Proof.
  exists (cassini 30). split.
  - unfold airmass, zd, altitude, between_ends, map1, map2. cbn -[cos sqrt radians pow]. rewrite cos_zd. unfold cassini. replace ((29 + 31) / 2) with 30 by lra. reflexivity.
  - unfold cassini. replace (radians 30) with (PI / 6) by (unfold radians; field). rewrite sin_PI6. replace ((470 * (1 / 2)) ^ 2 + 941) with 56166 by field.
    pose proof (sqrt_sqrt 56166 ltac:(lra)) as E. pose proof (sqrt_pos 56166) as P. set (u := sqrt 56166) in *. clearbody u. split; nra.
Qed.

(** Between the ends of a visit: the mean of start and end, so an altitude between them. *)
Theorem C113_altitude : forall t s e i x y, lacks t "altitude" -> has t "altitude_start" s -> has t "altitude_end" e ->
  nth_error s i = Some (Some x) -> nth_error e i = Some (Some y) -> exists a, nth_error (altitude t) i = Some (Some a) /\ Rmin x y <= a <= Rmax x y /\ a - x = y - a.
Proof.
  intros t s e i x y N A B X Y. exists ((x + y) / 2). split; [|split].
  - unfold altitude, between_ends. unfold lacks, has in *. rewrite N, A, B. now apply map2_nth with (f := fun x y => (x + y) / 2).
  - unfold Rmin, Rmax. destruct (Rle_dec x y); split; lra.
  - lra.
Qed.
Print Assumptions C113_altitude.

(** The azimuth of a visit that passes north is given as south: a path of any List.length from one side of
    north to the other, however short, has its middle on the far side of the sky. *)
Theorem C113_azimuth_refuted : forall t s e i h, lacks t "azimuth" -> has t "azimuth_start" s -> has t "azimuth_end" e -> 0 < h < 90 ->
  nth_error s i = Some (Some (360 - h)) -> nth_error e i = Some (Some h) ->
  nth_error (azimuth t) i = Some (Some 180).
Proof.
  intros t s e i h N A B H X Y. unfold azimuth, between_ends. unfold lacks, has in *. rewrite N, A, B. rewrite (map2_nth _ _ _ _ _ _ X Y). do 2 f_equal. field.
Qed.
Print Assumptions C113_azimuth_refuted.

Example C113_azimuth_ex : azimuth (Table 1 [("azimuth_start", Numbers [Some (360 - 1 / 100)]); ("azimuth_end", Numbers [Some (1 / 100)])]%string) = [Some 180].
Proof. cbn. do 2 f_equal. field. Qed.

(** ** Middle of the exposure *)
(** Without a middle the mean of start and end; without an end half the exposure after the start. *)
Theorem C113_midpoint : forall exptime t s, lacks t "obs_midpt_mjd" -> has t "obs_start_mjd" s ->
  exists m, obs_midpt_mjd exptime t = Ok m /\ forall i x, nth_error s i = Some (Some x) ->
  (forall e y, has t "obs_end_mjd" e -> nth_error e i = Some (Some y) -> exists z, nth_error m i = Some (Some z) /\ z - x = y - z) /\
  (forall w, lacks t "obs_end_mjd" -> nth_error (shut_time exptime t) i = Some (Some w) -> exists z, nth_error m i = Some (Some z) /\ 86400 * (z - x) = w / 2).
Proof.
  intros exptime t s N A. unfold obs_midpt_mjd, lacks, has in *. rewrite N. assert (NE : need t "obs_start_mjd" = Ok s). { unfold need, numbers in *. destruct (get t "obs_start_mjd") as [[l|l]|]; congruence. }
  rewrite NE. cbn [bind]. destruct (numbers t "obs_end_mjd") as [e|] eqn:E; eexists; (split; [reflexivity|]); intros i x X; (split; [intros e' y H Y|intros w H W]); try discriminate.
  - injection H as <-. eexists. split; [apply map2_nth; eauto|]. lra.
  - eexists. split; [apply map2_nth; eauto|]. cbv beta. lra.
Qed.
Print Assumptions C113_midpoint.

Example C113_midpoint_ex : exists z, obs_midpt_mjd 30 (Table 1 [("obs_start_mjd", Numbers [Some 61000]); ("obs_end_mjd", Objects [None])]%string) = Ok [Some z] /\ z = 61000 + 15 / 86400.
Proof. eexists. split; [reflexivity|]. lra. Qed.

(** ** The identifier *)
(** Without visit_id the identifier tells visits of fewer than 10000 a day apart. *)
Theorem C113_id : forall clock t ds ss i j (d e s r : Z), lacks t "visit_id" -> has t "day_obs" ds -> has t "seq_num" ss ->
  nth_error ds i = Some (Some (IZR d)) -> nth_error ss i = Some (Some (IZR s)) -> nth_error ds j = Some (Some (IZR e)) -> nth_error ss j = Some (Some (IZR r)) ->
  (0 <= s < 10000)%Z -> (0 <= r < 10000)%Z ->
  (nth_error (observation_id clock t) i = nth_error (observation_id clock t) j <-> d = e /\ s = r).
Proof.
  intros clock t ds ss i j d e s r N A B D S' E R' L M. unfold observation_id, lacks, has in *. rewrite N, A, B. rewrite (map2_nth _ _ _ _ _ _ D S'), (map2_nth _ _ _ _ _ _ E R'). split.
  - intros H. injection H as H. assert (IZR (d * 10000 + s) = IZR (e * 10000 + r)) as G by (rewrite !plus_IZR, !mult_IZR; exact H). apply eq_IZR in G. lia.
  - intros (-> & ->). reflexivity.
Qed.
Print Assumptions C113_id.

Example C113_id_ex : observation_id [] (Table 2 [("day_obs", Numbers [Some 20251121; Some 20251122]); ("seq_num", Numbers [Some 9999; Some 0])]%string) = [Some 202511219999; Some 202511220000].
Proof. cbn. f_equal; f_equal; [|f_equal]; ring. Qed.

(** With more visits in a day two of them share an identifier, and the made-up one is shared by the
    visits that begin in the same second. *)
Theorem C113_id_refuted : (exists t, lacks t "visit_id" /\ has t "day_obs" [Some 20251121; Some 20251122] /\ has t "seq_num" [Some 10000; Some 0] /\
    nth_error (observation_id [] t) 0 = nth_error (observation_id [] t) 1) /\
  (forall t c clock i j, lacks t "visit_id" -> lacks t "seq_num" -> nth_error clock i = Some c -> nth_error clock j = Some c -> nth_error (observation_id clock t) i = nth_error (observation_id clock t) j).
Proof.
  split.
  - exists (Table 2 [("day_obs", Numbers [Some 20251121; Some 20251122]); ("seq_num", Numbers [Some 10000; Some 0])]%string). repeat split. cbn. do 2 f_equal. ring.
  - intros t c clock i j A B I J. unfold observation_id, lacks in *. rewrite A, B. destruct (numbers t "day_obs"); rewrite !nth_error_map, I, J; reflexivity.
Qed.
Print Assumptions C113_id_refuted.

(** ** The night *)
Lemma min_le : forall l x, fold_left Rmin l x <= x /\ forall y, In y l -> fold_left Rmin l x <= y.
Proof.
  intros l. induction l as [|z l IH]; intros x; cbn [fold_left]; [split; [lra|intros y []]|]. destruct (IH (Rmin x z)) as (A & B). split; [eapply Rle_trans; [exact A|apply Rmin_l]|].
  intros y [<-|I]; [eapply Rle_trans; [exact A|apply Rmin_r]|now apply B].
Qed.
Lemma min_ge : forall l x b, b <= x -> (forall y, In y l -> b <= y) -> b <= fold_left Rmin l x.
Proof. intros l. induction l as [|z l IH]; intros x b X H; cbn [fold_left]; [auto|]. apply IH; [|intros y I; apply H; now right]. apply Rmin_glb; [auto|apply H; now left]. Qed.
Lemma Int_part_mono : forall x y, x <= y -> (Int_part x <= Int_part y)%Z.
Proof. intros x y L. apply Z.lt_succ_r. apply lt_IZR. rewrite succ_IZR. pose proof (Int_part_bounds x). pose proof (Int_part_bounds y). lra. Qed.

(** Nights are never negative, and two visits have the same night exactly if they lie between the same
    two noons; where all visits are of the survey the night is counted from its start whatever else was
    loaded. *)
Theorem C113_night : forall start l i x, nth_error l i = Some x ->
  exists n, nth_error (night start l) i = Some n /\ (0 <= n)%Z /\
  (forall j y m, nth_error l j = Some y -> nth_error (night start l) j = Some m -> (m - n = Int_part (y - 1 / 2) - Int_part (x - 1 / 2))%Z) /\
  ((forall y, In y l -> start <= y) -> n = (Int_part (x - 1 / 2) - Int_part (start - 1 / 2))%Z).
Proof.
  intros start l i x I. unfold night. destruct l as [|a l]; [destruct i; discriminate|]. destruct (min_le l a) as (A & B). set (m := fold_left Rmin l a) in *.
  assert (ML : forall y, In y (a :: l) -> m <= y) by (intros y [<-|Y]; auto). exists (Int_part (x - 1 / 2) - Int_part (Rmin m start - 1 / 2))%Z. split; [|split; [|split]].
  - rewrite nth_error_map, I. reflexivity.
  - pose proof (ML x (nth_error_In _ _ I)). pose proof (Rmin_l m start). pose proof (Int_part_mono (Rmin m start - 1 / 2) (x - 1 / 2) ltac:(lra)). lia.
  - intros j y n J E. rewrite nth_error_map, J in E. cbn [option_map] in E. injection E as <-. lia.
  - intros H. rewrite Rmin_right; [reflexivity|]. apply min_ge; [apply H; now left|]. intros y Y. apply H. now right.
Qed.
Print Assumptions C113_night.

Example C113_night_ex : night 61000 [61010 + 49 / 100; 61010 + 51 / 100] = [10; 11]%Z.
Proof.
  unfold night. cbn [fold_left map]. rewrite (Rmin_left (61010 + 49 / 100) (61010 + 51 / 100)) by lra. rewrite Rmin_right by lra. rewrite (Int_part_is (61010 + 49 / 100 - 1 / 2) 61009) by lra. rewrite (Int_part_is (61010 + 51 / 100 - 1 / 2) 61010) by lra. rewrite (Int_part_is (61000 - 1 / 2) 60999) by lra. reflexivity.
Qed.

(** The night of a visit depends on the others loaded with it, where one is from before the survey. *)
Theorem C113_night_refuted : forall start x, exists y n m, nth_error (night start [x]) 0 = Some n /\ nth_error (night start [x; y]) 0 = Some m /\ n <> m.
Proof.
  intros start x. exists (Rmin x start - 1). do 2 eexists. split; [reflexivity|]. split; [reflexivity|]. cbn [fold_left]. pose proof (Rmin_l x start). pose proof (Rmin_r x start).
  rewrite (Rmin_right x (Rmin x start - 1)) by lra. rewrite (Rmin_left (Rmin x start - 1) start) by lra. rewrite (Int_part_is (Rmin x start - 1 - 1 / 2) (Int_part (Rmin x start - 1 / 2) - 1)); [set (u := Int_part (x - 1 / 2)); set (w := Int_part (Rmin x start - 1 / 2)); clearbody u w; clear; intros E; lia|].
  rewrite minus_IZR. pose proof (Int_part_bounds (Rmin x start - 1 / 2)). lra.
Qed.
Print Assumptions C113_night_refuted.

(** ** Slews *)
Lemma slews_nth : forall sep l prev i p q, nth_error l i = Some p -> nth_error l (S i) = Some q ->
  nth_error (slews sep prev l) (S i) = Some (Some (degrees (sep (radians (fst p)) (radians (snd p)) (radians (fst q)) (radians (snd q))))).
Proof.
  intros sep l. induction l as [|a l IH]; intros prev i p q P Q; [destruct i; discriminate|]. destruct i as [|i].
  - cbn in P. injection P as <-. destruct l as [|b l]; [discriminate|]. cbn in Q. injection Q as <-. reflexivity.
  - cbn [slews nth_error]. apply IH; [exact P|exact Q].
Qed.
(** One slew for each visit, none for the first, and each the separation from the row above. *)
Theorem C113_slew : forall sep l, List.length (slew_distance sep l) = List.length l /\ (forall p l', l = p :: l' -> nth_error (slew_distance sep l) 0 = Some None) /\
  (forall i p q, nth_error l i = Some p -> nth_error l (S i) = Some q ->
   nth_error (slew_distance sep l) (S i) = Some (Some (degrees (sep (radians (fst p)) (radians (snd p)) (radians (fst q)) (radians (snd q)))))).
Proof.
  intros sep l. unfold slew_distance. split; [|split].
  - assert (G : forall prev, List.length (slews sep prev l) = List.length l); [|apply G]. induction l as [|p l IH]; intros prev; [reflexivity|]. cbn. now rewrite IH.
  - intros p l' ->. reflexivity.
  - intros i p q. apply slews_nth.
Qed.
Print Assumptions C113_slew.

Example C113_slew_ex : slew_distance (fun ra1 _ ra2 _ => Rabs (ra1 - ra2)) [(10, 0); (13, 0)] = [None; Some 3].
Proof. cbn. do 3 f_equal. unfold radians. rewrite Rabs_left by (pose proof PI_RGT_0; lra). unfold degrees. field. apply PI_neq0. Qed.

(** The query asks for no order, so the row above need not be the visit before: the same visits in
    another order give a visit another slew. *)
Theorem C113_order_refuted : forall sep, (exists a b c, sep (radians (fst a)) (radians (snd a)) (radians (fst c)) (radians (snd c)) <> sep (radians (fst b)) (radians (snd b)) (radians (fst c)) (radians (snd c))) ->
  exists l l' i j, Permutation l l' /\ nth_error l i = nth_error l' j /\ (0 < i)%nat /\ (0 < j)%nat /\ (i < List.length l)%nat /\ nth_error (slew_distance sep l) i <> nth_error (slew_distance sep l') j.
Proof.
  intros sep (a & b & c & N). exists [a; b; c], [a; c; b], 2%nat, 1%nat. split; [apply perm_skip, perm_swap|]. split; [reflexivity|]. repeat split; try (cbn; lia).
  cbn. intros E. injection E as E. apply N. unfold degrees in E. pose proof PI_RGT_0. assert (K : forall u v, u * (180 / PI) = v * (180 / PI) -> u = v). { intros u v H'. apply Rmult_eq_reg_r in H'; auto. unfold Rdiv. apply Rmult_integral_contrapositive. split; [lra|apply Rinv_neq_0_compat; lra]. }
  symmetry. apply K. unfold Rdiv in *. rewrite <- !Rmult_assoc. exact E.
Qed.
Print Assumptions C113_order_refuted.

(** ** Sky brightness *)
Lemma ln10 : 0 < ln 10.
Proof. rewrite <- ln_1. apply ln_increasing; lra. Qed.
Lemma log10_mult : forall x y, 0 < x -> 0 < y -> log10 (x * y) = log10 x + log10 y.
Proof. intros x y X Y. unfold log10. rewrite ln_mult by auto. pose proof ln10. field. lra. Qed.

(** The measured zero point has no say in the sky brightness (clouds do not dim the sky); an exposure
    longer by some factor with the sky brighter by the same factor gives the same; a hundredth of the
    electrons is five magnitudes fainter, and so are pixels of ten times the side. *)
Theorem C113_sky : forall zp zp' zt shut sky pix k, 0 < shut -> 0 < sky -> 0 < pix -> 0 < k ->
  sky_mag_per_asec zp zt shut sky pix = sky_mag_per_asec zp' zt shut sky pix /\
  sky_mag_per_asec zp zt (k * shut) (k * sky) pix = sky_mag_per_asec zp zt shut sky pix /\
  sky_mag_per_asec zp zt shut (sky / 100) pix = sky_mag_per_asec zp zt shut sky pix + 5 /\
  sky_mag_per_asec zp zt shut sky (10 * pix) = sky_mag_per_asec zp zt shut sky pix + 5 /\
  sky_mag_per_asec zp (zt + k) shut sky pix = sky_mag_per_asec zp zt shut sky pix + k.
Proof.
  intros zp zp' zt shut sky pix k SH SK PX K. unfold sky_mag_per_asec, extinction.
  assert (Q : 0 < sky / pix ^ 2) by (apply Rmult_lt_0_compat; [auto|]; apply Rinv_0_lt_compat, pow_lt; auto).
  assert (H100 : log10 (sky / pix ^ 2) = log10 (sky / 100 / pix ^ 2) + 2).
  { replace (sky / pix ^ 2) with (sky / 100 / pix ^ 2 * (10 * 10)) at 1 by (field; lra). assert (P : 0 < sky / 100 / pix ^ 2) by (replace (sky / 100 / pix ^ 2) with (sky / pix ^ 2 / 100) by (field; lra); lra).
    rewrite (log10_mult _ (10 * 10)), (log10_mult 10 10) by lra. unfold log10 at 2 3. pose proof ln10. field. lra. }
  split; [ring|]. split; [|split; [|split]].
  - rewrite log10_mult by auto. replace (k * sky / pix ^ 2) with (k * (sky / pix ^ 2)) by (field; lra). rewrite log10_mult by auto. ring.
  - rewrite H100. field.
  - replace (sky / (10 * pix) ^ 2) with (sky / 100 / pix ^ 2) by (field; lra). rewrite H100. field.
  - ring.
Qed.
Print Assumptions C113_sky.

(** A sky of as many electrons per square arc second as the exposure has seconds has the magnitude of
    one electron in a second. *)
Example C113_sky_ex : sky_mag_per_asec 25 28 30 30 1 = 28.
Proof. unfold sky_mag_per_asec, extinction. replace (30 / 1 ^ 2) with 30 by field. ring. Qed.

(** ** Depth for LATISS *)
(** Where the column tested for is there and the column read is not, an error is raised instead of nan;
    where only the column read is there, it is not used. *)
Theorem C113_latiss_refuted : (forall t l, has t "eff_time" l -> get t "eff_time_m5" = Raise KeyError -> latiss_eff_time_m5 t = Raise KeyError) /\
  (forall t l, lacks t "eff_time" -> has t "eff_time_m5" l -> latiss_eff_time_m5 t = Ok (nans t)).
Proof. unfold latiss_eff_time_m5, has, lacks, need. split; intros t l A B; rewrite A; [now rewrite B|reflexivity]. Qed.
Print Assumptions C113_latiss_refuted.

Example C113_latiss_ex : latiss_eff_time_m5 (Table 1 [("eff_time", Numbers [Some 30])]%string) = Raise KeyError /\ latiss_eff_time_m5 (Table 1 [("eff_time_m5", Numbers [Some 23])]%string) = Ok [None].
Proof. split; reflexivity. Qed.
