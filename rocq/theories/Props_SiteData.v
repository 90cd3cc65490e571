(** C88: site records answer with the entry nearest in time. *)
From Coq Require Import List ZArith QArith Qround Qabs Qfield Bool Lia Lqa Permutation Sorted.
From Verif Require Import Base IntRounded Bisect Script Script_proofs TimeGate_proofs GateLoop_proofs SiteData SiteData_proofs.
Import ListNotations.
Open Scope nat_scope.

(** [lo] is the first date of a table, [hi] the last. *)
Definition spans (table : list (Q * Q)) (lo hi : Q) : Prop :=
  (exists r, In r table /\ (fst r == lo)%Q) /\ (forall r, In r table -> (lo <= fst r)%Q) /\
  (exists r, In r table /\ (fst r == hi)%Q) /\ (forall r, In r table -> (fst r <= hi)%Q).

Lemma spans_sort : forall table lo hi, spans table lo hi ->
  r_sort table <> [] /\ (first_date (r_sort table) == lo)%Q /\ (last_date (r_sort table) == hi)%Q.
Proof. intros table lo hi (A & B & C & D). apply sorted_ends; assumption. Qed.
Lemma last_fst : forall l, last (map fst l) 0%Q = last_date l.
Proof. intros l. unfold last_date. rewrite <- (last_map _ _ fst). reflexivity. Qed.
Lemma last_snd : forall (l : list (Q * Q)), last (map snd l) 0%Q = snd (last l (0, 0)%Q).
Proof. intros l. rewrite <- (last_map _ _ snd). reflexivity. Qed.

(** The number of a moment within the record: [delta] less whole lengths. *)
Lemma within : forall delta len, (0 < len)%Q -> exists k : Z,
  (Qmod delta len == delta - inject_Z k * len)%Q /\ (0 <= delta - inject_Z k * len < len)%Q.
Proof.
  intros delta len H. destruct (Qmod_shift delta len H) as [k K]. exists (- k)%Z.
  destruct (Qmod_range delta len H) as [A B]. rewrite inject_Z_opp. rewrite K in A, B |- *. split; [ring|]. split; lra.
Qed.

(** Seeing: except exactly at the ends of the record, the value belongs to a
    date nearest to the moment asked for; the record repeats from its first to
    its last date. *)
Theorem C88_seeing_partial : forall table lo hi delta, spans table lo hi -> (lo < hi)%Q ->
  (forall k : Z, ~ (delta == inject_Z k * (hi - lo))%Q) ->
  exists (k : Z) r, let now := (lo + delta - inject_Z k * (hi - lo))%Q in
    (lo < now < hi)%Q /\ In r table /\ seeing_at table delta = Ok (snd r) /\
    forall r', In r' table -> (Qabs (fst r - now) <= Qabs (fst r' - now))%Q.
Proof.
  intros table lo hi delta S H Off. destruct (spans_sort _ _ _ S) as (N & F & L).
  assert (P := r_sort_perm table). assert (O := r_sort_asc table). set (l := r_sort table) in *.
  assert (R : (last_date l - first_date l == hi - lo)%Q) by lra.
  assert (Rp : (0 < last_date l - first_date l)%Q) by lra.
  destruct (within delta _ Rp) as (k & K & K1).
  assert (KR : (inject_Z k * (last_date l - first_date l) == inject_Z k * (hi - lo))%Q) by (rewrite R; reflexivity).
  assert (K2 : (0 < delta - inject_Z k * (hi - lo))%Q).
  { destruct (Qlt_le_dec 0 (delta - inject_Z k * (hi - lo))) as [C|C]; [exact C|]. exfalso. apply (Off k). lra. }
  assert (H0 : nth_error (map fst l) 0 = Some (first_date l)) by (rewrite first_date_hd; apply first_nth; exact N).
  destruct (closer_spec (map fst l) (map snd l) (Qmod delta (last_date l - first_date l) + first_date l) (first_date l)) as (i & d & v & Hd & Hv & C & Near).
  - exact O.
  - rewrite !map_length. reflexivity.
  - exact H0.
  - lra.
  - rewrite last_fst. lra.
  - rewrite nth_error_map in Hd, Hv. destruct (nth_error l i) as [r|] eqn:E; [|discriminate]. inversion Hd; inversion Hv; subst d v.
    exists k, r. cbv zeta. split; [lra|]. split; [apply (Permutation_in _ P); eapply nth_error_In; eauto|]. split.
    + unfold seeing_at. fold l. destruct l as [|a l'] eqn:El; [contradiction|]. rewrite <- El in *. cbv zeta.
      destruct (Qeq_bool (last_date l - first_date l) 0) eqn:Z; [apply Qeq_bool_iff in Z; lra|]. exact C.
    + intros r' Hr. specialize (Near (fst r')).
      assert (I : In (fst r') (map fst l)) by (apply in_map; apply (Permutation_in _ (Permutation_sym P)); exact Hr).
      specialize (Near I).
      assert (Eq : (Qmod delta (last_date l - first_date l) + first_date l == lo + delta - inject_Z k * (hi - lo))%Q) by lra.
      rewrite Eq in Near. exact Near.
Qed.
Print Assumptions C88_seeing_partial.
Definition rec1 : list (Q * Q) := [(300, 7 # 10); (0, 9 # 10); (900, 12 # 10); (600, 8 # 10)]%Q.
Example C88_seeing_ex : spans rec1 0 900 /\ (0 < 900)%Q /\
  seeing_at rec1 (900 + 440)%Q = Ok (7 # 10)%Q /\ seeing_at rec1 (-300 - 140)%Q = Ok (8 # 10)%Q.
Proof.
  split; [|split; [reflexivity|split; vm_compute; reflexivity]]. unfold spans, rec1. repeat split.
  - exists (0, 9 # 10)%Q. split; [cbn; auto|reflexivity].
  - intros r [E|[E|[E|[E|[]]]]]; subst; vm_compute; congruence.
  - exists (900, 12 # 10)%Q. split; [cbn; auto|reflexivity].
  - intros r [E|[E|[E|[E|[]]]]]; subst; vm_compute; congruence.
Qed.

(** A whole number of lengths later the answer is the same. *)
Theorem C88_seeing_repeats : forall table lo hi delta (k : Z), spans table lo hi -> (lo < hi)%Q ->
  seeing_at table (delta + inject_Z k * (hi - lo)) = seeing_at table delta.
Proof.
  intros table lo hi delta k S H. destruct (spans_sort _ _ _ S) as (N & F & L).
  unfold seeing_at. set (l := r_sort table) in *. clearbody l. destruct l as [|a l'] eqn:El; [contradiction|]. rewrite <- El in *. cbv zeta.
  destruct (Qeq_bool (last_date l - first_date l) 0) eqn:Z; [reflexivity|]. apply closer_compat.
  assert (Rp : (0 < last_date l - first_date l)%Q) by lra.
  assert (E : (delta + inject_Z k * (hi - lo) == delta + inject_Z k * (last_date l - first_date l))%Q) by (rewrite F, L; reflexivity).
  rewrite (Qmod_compat _ _ _ E), (Qmod_add _ _ _ Rp). reflexivity.
Qed.
Print Assumptions C88_seeing_repeats.
Example C88_seeing_repeats_ex : seeing_at rec1 (440 + 3 * 900)%Q = Ok (7 # 10)%Q /\ seeing_at rec1 440%Q = Ok (7 # 10)%Q.
Proof. split; vm_compute; reflexivity. Qed.

(** Exactly at the start of the record, and after every whole length, the value
    of a last date is returned, not that of the first. *)
Theorem C88_seeing_wraps : forall table lo hi delta (k : Z), spans table lo hi -> (lo < hi)%Q ->
  (delta == inject_Z k * (hi - lo))%Q ->
  exists r, In r table /\ (fst r == hi)%Q /\ seeing_at table delta = Ok (snd r).
Proof.
  intros table lo hi delta k S H E. destruct (spans_sort _ _ _ S) as (N & F & L).
  assert (P := r_sort_perm table). assert (O := r_sort_asc table). set (l := r_sort table) in *.
  exists (last l (0, 0)%Q). split; [apply (Permutation_in _ P); apply last_In; exact N|]. split; [exact L|].
  unfold seeing_at. fold l. destruct l as [|a l'] eqn:El; [contradiction|]. rewrite <- El in *. cbv zeta.
  destruct (Qeq_bool (last_date l - first_date l) 0) eqn:Z; [apply Qeq_bool_iff in Z; lra|].
  assert (Rp : (0 < last_date l - first_date l)%Q) by lra.
  assert (E1 : (Qmod delta (last_date l - first_date l) == 0)%Q).
  { assert (Ez : (delta == 0 + inject_Z k * (last_date l - first_date l))%Q) by (rewrite E, F, L; ring).
    rewrite (Qmod_compat _ _ _ Ez), (Qmod_add _ _ _ Rp). rewrite (Qmod_unique 0 _ 0 Rp); [ring| |].
    - change (inject_Z 0) with 0%Q. lra.
    - change (inject_Z 0) with 0%Q. lra. }
  rewrite <- last_snd. apply (closer_first _ _ _ (first_date l)).
  - exact O.
  - rewrite !map_length. reflexivity.
  - rewrite first_date_hd. apply first_nth. exact N.
  - lra.
  - rewrite last_fst. lra.
Qed.
Print Assumptions C88_seeing_wraps.
Theorem C88_seeing_refuted : exists table delta v w,
  In (delta, v) table /\ (forall r, In r table -> (delta <= fst r)%Q) /\ seeing_at table delta = Ok w /\ ~ (v == w)%Q.
Proof.
  exists rec1, 0%Q, (9 # 10)%Q, (12 # 10)%Q. split; [cbn; auto|]. split.
  - intros r [E|[E|[E|[E|[]]]]]; subst; vm_compute; congruence.
  - split; [vm_compute; reflexivity|]. vm_compute. congruence.
Qed.
Print Assumptions C88_seeing_refuted.

(** Clouds: for a record of one year or more counted from zero, the value
    belongs to a date nearest to the moment asked for, up to the rounding by
    [1/scale], when that moment is past the first date; the record repeats
    after the whole years [n] it covers. *)
Lemma cloud_years : forall table lo hi, spans table lo hi -> (year_s <= hi - lo)%Q ->
  exists n : Z, (1 <= n)%Z /\ (inject_Z n * year_s <= hi - lo)%Q /\ (hi - lo < inject_Z (n + 1) * year_s)%Q /\
    cloud_range (r_sort table) = (inject_Z n * year_s)%Q.
Proof.
  intros table lo hi S H. destruct (spans_sort _ _ _ S) as (N & F & L). exists (Qfloor ((last_date (r_sort table) - first_date (r_sort table)) / year_s)).
  set (x := ((last_date (r_sort table) - first_date (r_sort table)) / year_s)%Q).
  assert (X : (x * year_s == hi - lo)%Q) by (unfold x; rewrite F, L; unfold year_s; field).
  assert (Y : (0 < year_s)%Q) by (unfold year_s; lra).
  destruct (Qfloor_bounds x) as [A B]. split; [|split; [|split; [|reflexivity]]].
  - change 1%Z with (Qfloor 1). apply Qfloor_resp_le. apply (Qmult_le_r _ _ year_s); [exact Y|]. lra.
  - rewrite <- X. apply Qmult_le_compat_r; lra.
  - rewrite <- X. apply (Qmult_lt_r _ _ year_s); [exact Y|]. rewrite inject_Z_plus. exact B.
Qed.
Lemma cloud_call : forall s table lo hi delta n, spans table lo hi -> cloud_range (r_sort table) = (inject_Z n * year_s)%Q -> (1 <= n)%Z ->
  cloud_at (Some s) table delta = closer_of (map (scaled (Some s)) (map fst (r_sort table))) (map snd (r_sort table)) (scaled (Some s) (Qmod delta (inject_Z n * year_s))).
Proof.
  intros s table lo hi delta n S C Hn. destruct (spans_sort _ _ _ S) as (N & _ & _). unfold cloud_at. rewrite map_map.
  destruct (r_sort table) as [|a l'] eqn:El; [contradiction|]. rewrite <- El in *. cbv zeta. rewrite C.
  assert (Y : (0 < inject_Z n * year_s)%Q).
  { apply Qmult_lt_0_compat; [change 0%Q with (inject_Z 0); apply inject_Z_lt_iff; lia|unfold year_s; lra]. }
  destruct (Qeq_bool (inject_Z n * year_s) 0) eqn:Z; [apply Qeq_bool_iff in Z; lra|]. reflexivity.
Qed.
Lemma last_scaled : forall s l, l <> [] -> last (map (scaled s) (map fst l)) 0%Q = scaled s (last_date l).
Proof.
  intros s l N. destruct (exists_last N) as (l' & a & E). subst l. unfold last_date. rewrite !map_app. cbn [map]. rewrite !last_last. reflexivity.
Qed.
Lemma n_pos : forall n : Z, (1 <= n)%Z -> (0 < inject_Z n * year_s)%Q.
Proof.
  intros n H. apply Qmult_lt_0_compat; [change 0%Q with (inject_Z 0); apply inject_Z_lt_iff; lia|unfold year_s; lra].
Qed.

Lemma abs_or : forall x, ((Qabs x == x /\ 0 <= x) \/ (Qabs x == - x /\ x <= 0))%Q.
Proof.
  intros x. destruct (Qlt_le_dec x 0) as [H|H]; [right|left]; split; try lra; [apply Qabs_neg; lra|apply Qabs_pos; exact H].
Qed.
(** A year of 365.25 days in seconds. *)
Local Notation year := 31557600%Q.
Theorem C88_cloud_partial : forall s table lo hi delta, (0 < s)%Q -> spans table lo hi -> (0 <= lo)%Q -> (year <= hi - lo)%Q ->
  exists n k : Z, (1 <= n)%Z /\ (inject_Z n * year <= hi - lo < inject_Z (n + 1) * year)%Q /\
    let now := (delta - inject_Z k * (inject_Z n * year))%Q in
    (0 <= now < inject_Z n * year)%Q /\
    ((lo + 1 / s < now)%Q -> exists r, In r table /\ cloud_at (Some s) table delta = Ok (snd r) /\
       forall r', In r' table -> (Qabs (fst r - now) <= Qabs (fst r' - now) + 2 / s)%Q).
Proof.
  change year with year_s.
  intros s table lo hi delta Hs S H0 H. destruct (cloud_years _ _ _ S H) as (n & Hn & N1 & N2 & C).
  pose proof (n_pos n Hn) as Y. destruct (within delta _ Y) as (k & K & K1).
  exists n, k. split; [exact Hn|]. split; [split; assumption|]. cbv zeta. split; [exact K1|].
  set (now := (delta - inject_Z k * (inject_Z n * year_s))%Q) in *. intros Past.
  destruct (spans_sort _ _ _ S) as (N & F & L). rewrite (cloud_call s _ _ _ delta n S C Hn).
  assert (P := r_sort_perm table). assert (O := r_sort_asc table). set (l := r_sort table) in *.
  rewrite (closer_compat_any (Some s) _ _ _ _ K).
  assert (Si : (s * (1 / s) == 1)%Q) by (field; lra).
  assert (Fst : nth_error (map (scaled (Some s)) (map fst l)) 0 = Some (scaled (Some s) (first_date l))).
  { rewrite first_date_hd. destruct l; [contradiction|reflexivity]. }
  destruct (closer_spec (map (scaled (Some s)) (map fst l)) (map snd l) (scaled (Some s) now) (scaled (Some s) (first_date l))) as (i & d & v & Hd & Hv & E & Near).
  - apply ordered_map_mono; [|exact O]. intros x y Hxy. apply scaled_mono; [lra|exact Hxy].
  - rewrite !map_length. reflexivity.
  - exact Fst.
  - assert (G : (scaled (Some s) (first_date l) <= first_date l * s + (1 # 2))%Q) by apply scaled_near.
    assert (G2 : (now * s - (1 # 2) <= scaled (Some s) now)%Q) by apply scaled_near.
    assert (G3 : ((lo + 1 / s) * s < now * s)%Q) by (apply Qmult_lt_r; assumption).
    assert (G4 : (first_date l * s == lo * s)%Q) by (rewrite F; reflexivity).
    assert (G5 : ((lo + 1 / s) * s == lo * s + 1)%Q) by (field; lra). lra.
  - rewrite last_scaled by exact N. apply scaled_mono; [lra|]. lra.
  - rewrite !nth_error_map in Hd. rewrite nth_error_map in Hv. destruct (nth_error l i) as [r|] eqn:Er; [|discriminate]. inversion Hd; inversion Hv; subst d v.
    exists r. split; [apply (Permutation_in _ P); eapply nth_error_In; eauto|]. split; [exact E|].
    intros r' Hr. assert (I : In (fst r') (map fst l)) by (apply in_map; apply (Permutation_in _ (Permutation_sym P)); exact Hr).
    specialize (Near _ (in_map (scaled (Some s)) _ _ I)).
    pose proof (scaled_near s (fst r)) as A1. pose proof (scaled_near s (fst r')) as A2. pose proof (scaled_near s now) as A3.
    change (inject_Z (Qround_even (fst r * s))) with (scaled (Some s) (fst r)) in Near. set (a := scaled (Some s) (fst r)) in *. set (b := scaled (Some s) (fst r')) in *. set (c := scaled (Some s) now) in *. clearbody a b c.
    apply (Qmult_le_r _ _ s); [exact Hs|].
    assert (T : ((Qabs (fst r' - now) + 2 / s) * s == Qabs (fst r' - now) * s + 2)%Q) by (field; lra). rewrite T.
    assert (Abs : forall x, (Qabs x * s == Qabs (x * s))%Q) by (intros x; rewrite Qabs_Qmult, (Qabs_pos s) by lra; reflexivity).
    rewrite !Abs. destruct (abs_or (a - c)), (abs_or (b - c)), (abs_or ((fst r - now) * s)), (abs_or ((fst r' - now) * s)); lra.
Qed.
Print Assumptions C88_cloud_partial.
Definition rec2 : list (Q * Q) := [(100, 1 # 8); (20000000, 2 # 8); (40000000, 3 # 8)]%Q.
Lemma rec2_spans : spans rec2 100 40000000.
Proof.
  unfold spans, rec2. repeat split.
  - exists (100, 1 # 8)%Q. split; [cbn; auto|reflexivity].
  - intros r [E|[E|[E|[]]]]; subst; vm_compute; congruence.
  - exists (40000000, 3 # 8)%Q. split; [cbn; auto|reflexivity].
  - intros r [E|[E|[E|[]]]]; subst; vm_compute; congruence.
Qed.
Example C88_cloud_ex : spans rec2 100 40000000 /\ (year <= 40000000 - 100)%Q /\
  cloud_at (Some 1000000)%Q rec2 10001%Q = Ok (1 # 8)%Q /\ cloud_at (Some 1000000)%Q rec2 (31557600 + 10001000)%Q = Ok (2 # 8)%Q.
Proof. split; [apply rec2_spans|]. split; [vm_compute; congruence|]. split; vm_compute; reflexivity. Qed.

Theorem C88_cloud_repeats : forall s table lo hi delta, (0 < s)%Q -> spans table lo hi -> (year <= hi - lo)%Q ->
  exists n : Z, (1 <= n)%Z /\ (inject_Z n * year <= hi - lo < inject_Z (n + 1) * year)%Q /\
    forall k : Z, cloud_at (Some s) table (delta + inject_Z k * (inject_Z n * year)) = cloud_at (Some s) table delta.
Proof.
  change year with year_s.
  intros s table lo hi delta Hs S H. destruct (cloud_years _ _ _ S H) as (n & Hn & N1 & N2 & C). exists n.
  split; [exact Hn|]. split; [split; assumption|]. intros k. rewrite !(cloud_call s _ _ _ _ n S C Hn).
  apply closer_compat_any. apply Qmod_add. apply n_pos. exact Hn.
Qed.
Print Assumptions C88_cloud_repeats.

(** At or before the first date the value of a last date is returned; the last
    entry of the record lies past the years used and is otherwise never asked. *)
Theorem C88_cloud_wraps : forall s table lo hi (n k : Z) now, (1 <= s)%Q -> spans table lo hi -> (1 <= n)%Z ->
  (inject_Z n * year <= hi - lo < inject_Z (n + 1) * year)%Q -> (0 <= now < inject_Z n * year)%Q -> (now <= lo)%Q ->
  exists r, In r table /\ (fst r == hi)%Q /\ cloud_at (Some s) table (now + inject_Z k * (inject_Z n * year)) = Ok (snd r).
Proof.
  change year with year_s.
  intros s table lo hi n k now Hs S Hn Len W B.
  assert (Y : (year_s <= inject_Z n * year_s)%Q).
  { setoid_replace year_s with (1 * year_s)%Q at 1 by ring. apply Qmult_le_compat_r; [change 1%Q with (inject_Z 1); apply inject_Z_le_iff; lia|unfold year_s; lra]. }
  destruct (cloud_years _ _ _ S ltac:(lra)) as (m & Hm & M1 & M2 & C).
  assert (Em : m = n).
  { assert (P : (0 < year_s)%Q) by (unfold year_s; lra).
    assert (A : (inject_Z m * year_s < inject_Z (n + 1) * year_s)%Q) by lra. assert (A' : (inject_Z n * year_s < inject_Z (m + 1) * year_s)%Q) by lra.
    apply (proj1 (Qmult_lt_r _ _ _ P)) in A. apply (proj1 (Qmult_lt_r _ _ _ P)) in A'.
    apply (proj1 (inject_Z_lt_iff _ _)) in A. apply (proj1 (inject_Z_lt_iff _ _)) in A'. lia. }
  subst m. destruct (spans_sort _ _ _ S) as (N & F & L). rewrite (cloud_call s _ _ _ _ n S C Hn).
  assert (P := r_sort_perm table). assert (O := r_sort_asc table). set (l := r_sort table) in *.
  exists (last l (0, 0)%Q). split; [apply (Permutation_in _ P); apply last_In; exact N|]. split; [exact L|].
  rewrite (closer_compat_any (Some s) _ _ _ now).
  2:{ rewrite Qmod_add by (apply n_pos; exact Hn). destruct W as [W1 W2]. rewrite (Qmod_unique now _ 0 (n_pos n Hn)); change (inject_Z 0) with 0%Q; rewrite Qmult_0_l, Qplus_0_r; [reflexivity|exact W1|exact W2]. }
  rewrite <- last_snd. apply (closer_first _ _ _ (scaled (Some s) (first_date l))).
  - apply ordered_map_mono; [|exact O]. intros x y Hxy. apply scaled_mono; [lra|exact Hxy].
  - rewrite !map_length. reflexivity.
  - rewrite first_date_hd. destruct l; [contradiction|reflexivity].
  - apply scaled_mono; lra.
  - rewrite last_scaled by exact N. pose proof (scaled_near s now) as A1. pose proof (scaled_near s (last_date l)) as A2.
    assert (A3 : (last_date l * s == hi * s)%Q) by (rewrite L; reflexivity).
    assert (A4 : (1 * 2 <= s * (hi - now))%Q).
    { apply (Qle_trans _ (s * 2)); [apply Qmult_le_compat_r; lra|]. rewrite !(Qmult_comm s). apply Qmult_le_compat_r; [|lra].
      assert ((2 <= year_s)%Q) by (unfold year_s; lra). lra. }
    assert (A5 : (s * (hi - now) == hi * s - now * s)%Q) by ring. lra.
Qed.
Print Assumptions C88_cloud_wraps.
Theorem C88_cloud_refuted : exists table lo hi v w, spans table lo hi /\ (year <= hi - lo)%Q /\
  In (lo, v) table /\ cloud_at (Some 1000000)%Q table lo = Ok w /\ ~ (v == w)%Q.
Proof.
  exists rec2, 100%Q, 40000000%Q, (1 # 8)%Q, (3 # 8)%Q. split; [apply rec2_spans|]. split; [vm_compute; congruence|].
  split; [cbn; auto|]. split; [vm_compute; reflexivity|]. vm_compute. congruence.
Qed.
Print Assumptions C88_cloud_refuted.

(** ** Cloud maps *)
(** Whatever frames are kept, in whatever order: the frame nearest in time, the
    earliest added of several, or zero when none is within the limit. *)
Theorem C88_closest : forall M limit (l : list (Q * M)) t, l <> [] ->
  (exists i f, nth_error l i = Some f /\ extinction_closest limit l t = Ok (Some (snd f)) /\ (Qabs (fst f - t) <= limit)%Q /\
     forall j g, nth_error l j = Some g -> (Qabs (fst f - t) <= Qabs (fst g - t))%Q /\ (j < i -> (Qabs (fst f - t) < Qabs (fst g - t))%Q)) \/
  (extinction_closest limit l t = Ok None /\ forall g, In g l -> (limit < Qabs (fst g - t))%Q).
Proof. exact @closest_spec. Qed.
Print Assumptions C88_closest.
Example C88_closest_ex :
  extinction_closest (1 # 72) [(1, 10); (102 # 100, 11); (101 # 100, 12)]%Q (1015 # 1000) = Ok (Some 11%Q) /\
  extinction_closest (1 # 72) [(1, 10); (102 # 100, 11); (101 # 100, 12)]%Q 2 = Ok None.
Proof. split; vm_compute; reflexivity. Qed.

(** Frames added in order of time are all taken; the latest [max] are kept. *)
Theorem C88_frames_partial : forall M max (fs : list (Q * M)), StronglySorted (fun f g => (fst f <= fst g)%Q) fs ->
  exists kept dropped, add_all max [] fs = (kept, Ok tt) /\ fs = dropped ++ kept /\ length kept = Nat.min max (length fs).
Proof.
  intros M max fs S. exists (skipn (length fs - max) fs), (firstn (length fs - max) fs).
  split; [|split; [symmetry; apply firstn_skipn|rewrite skipn_length; lia]].
  apply (add_all_up max fs []); [|cbn; lia]. cbn [app]. clear max. induction S as [|f r _ IH Hf].
  - intros i j a b _ Ha. destruct i; discriminate.
  - cbn [map]. apply ordered_cons; [|exact IH]. intros y Hy. apply in_map_iff in Hy. destruct Hy as (g & E & Hg). subst y.
    rewrite Forall_forall in Hf. apply Hf. exact Hg.
Qed.
Print Assumptions C88_frames_partial.
Example C88_frames_ex : add_all 2 [] [(1, 10); (2, 11); (2, 12); (3, 13)]%Q = ([(2, 12); (3, 13)]%Q, Ok tt).
Proof. vm_compute. reflexivity. Qed.

(** A late frame: dropping goes by order of arrival, so the frame of time 2 is
    lost while the older one of time 1 stays, without any exception. *)
Theorem C88_late_frame_refuted : exists (fs kept : list (Q * Q)) t old new,
  add_all 3 [] fs = (kept, Ok tt) /\ In (t, new) fs /\ (exists u, In (u, old) kept /\ (u < t)%Q) /\
  ~ In (t, new) kept /\ extinction_closest 10 kept t = Ok (Some old).
Proof.
  exists [(2, 20); (5, 50); (1, 10); (6, 60)]%Q, [(5, 50); (1, 10); (6, 60)]%Q, 2%Q, 10%Q, 20%Q.
  split; [vm_compute; reflexivity|]. split; [cbn; auto|]. split; [exists 1%Q; split; [cbn; auto|reflexivity]|].
  split; [|vm_compute; reflexivity]. intros [E|[E|[E|[]]]]; inversion E.
Qed.
Print Assumptions C88_late_frame_refuted.

(** Once the two oldest arrivals kept are out of order every further call raises
    TypeError, though the frame is stored and nothing is dropped any more. *)
Theorem C88_stuck : forall M max (a b : Q * M) l f, (fst b < fst a)%Q ->
  snd (add_frame max (a :: b :: l) f) = Raise TypeError /\
  fst (add_frame max (a :: b :: l) f) = (a :: b :: l) ++ [f].
Proof. intros M max a b l f H. rewrite (stuck_step max a b l f H). split; reflexivity. Qed.
Print Assumptions C88_stuck.
Example C88_stuck_ex :
  add_all 3 [] [(2, 20); (5, 50); (1, 10); (6, 60); (7, 70)]%Q = ([(5, 50); (1, 10); (6, 60); (7, 70)]%Q, Raise TypeError).
Proof. vm_compute. reflexivity. Qed.
