(** C90: nights are found and numbered by their sunsets. *)
From Coq Require Import List ZArith QArith Qround Bool Lia Lqa.
From Verif Require Import Base Bisect IntRounded GateLoop_proofs SiteData SiteData_proofs DownGen_proofs Almanac.
Import ListNotations.
Open Scope nat_scope.

(** Sunsets in order, each night numbered one more than the one before. *)
Definition table (l : list arow) : Prop :=
  (forall i j a b, i < j -> nth_error l i = Some a -> nth_error l j = Some b -> (a_sunset a < a_sunset b)%Q) /\
  (forall i j a b, nth_error l i = Some a -> nth_error l j = Some b -> (a_night b - a_night a = Z.of_nat j - Z.of_nat i)%Z).

Lemma table_ordered : forall l, table l -> ordered (map a_sunset l).
Proof.
  intros l [S _] i j a b Hij Ha Hb. rewrite nth_error_map in Ha, Hb.
  destruct (nth_error l i) as [x|] eqn:E1; [|discriminate]. destruct (nth_error l j) as [y|] eqn:E2; [|discriminate].
  inversion Ha; inversion Hb; subst. destruct (Nat.eq_dec i j) as [E|E]; [subst; rewrite E1 in E2; inversion E2; subst; lra|].
  specialize (S i j x y ltac:(lia) E1 E2). lra.
Qed.
(** Position by bisection, both sides. *)
Lemma right_pos : forall l t, ordered (map a_sunset l) ->
  let k := searchsorted (fun x => Qle_bool x t) 0%Q (map a_sunset l) in
  k <= length l /\ (forall i d, nth_error l i = Some d -> (i < k <-> (a_sunset d <= t)%Q)).
Proof.
  intros l t O. destruct (searchsorted_ok _ 0%Q _ (ordered_parted_le _ t O)) as (R & R1 & R2). rewrite map_length in R. cbv zeta.
  split; [exact R|]. intros i d E.
  assert (E' : nth_error (map a_sunset l) i = Some (a_sunset d)) by (rewrite nth_error_map, E; reflexivity). split.
  - intros H. apply Qle_bool_iff. apply (R1 i _ H E').
  - intros H. destruct (le_lt_dec (searchsorted (fun x => Qle_bool x t) 0%Q (map a_sunset l)) i) as [C|C]; [|exact C].
    specialize (R2 i _ C E'). apply Qle_bool_false in R2. lra.
Qed.
Lemma left_pos : forall l t, ordered (map a_sunset l) ->
  let k := searchsorted (fun x => Qltb x t) 0%Q (map a_sunset l) in
  k <= length l /\ (forall i d, nth_error l i = Some d -> (i < k <-> (a_sunset d < t)%Q)).
Proof.
  intros l t O. destruct (searchsorted_ok _ 0%Q _ (ordered_parted _ t O)) as (R & R1 & R2). rewrite map_length in R. cbv zeta.
  split; [exact R|]. intros i d E.
  assert (E' : nth_error (map a_sunset l) i = Some (a_sunset d)) by (rewrite nth_error_map, E; reflexivity). split.
  - intros H. apply Qltb_lt. apply (R1 i _ H E').
  - intros H. destruct (le_lt_dec (searchsorted (fun x => Qltb x t) 0%Q (map a_sunset l)) i) as [C|C]; [|exact C].
    specialize (R2 i _ C E'). apply Qltb_false in R2. lra.
Qed.

(** From the first sunset on: the row whose sunset is the latest not after the
    time. *)
Theorem C90_lookup_partial : forall l zone now t lon r0, table l -> nth_error l 0 = Some r0 -> (a_sunset r0 <= t)%Q ->
  exists i r, nth_error l i = Some r /\ mjd_indx l t = Z.of_nat i /\ get_sunset_info l zone now (Some t) None lon = Ok r /\
    (a_sunset r <= t)%Q /\ (forall r', In r' l -> (a_sunset r' <= t)%Q -> (a_sunset r' <= a_sunset r)%Q) /\
    (forall r', nth_error l (S i) = Some r' -> (t < a_sunset r')%Q).
Proof.
  intros l zone now t lon r0 T H0 H. pose proof (table_ordered l T) as O. destruct (right_pos l t O) as [K P].
  assert (X : mjd_indx l t = (Z.of_nat (searchsorted (fun x => Qle_bool x t) 0%Q (map a_sunset l)) - 1)%Z) by reflexivity.
  set (k := searchsorted (fun x => Qle_bool x t) 0%Q (map a_sunset l)) in *. clearbody k.
  assert (0 < k) by (apply (P 0 r0 H0); exact H).
  destruct (nth_error l (k - 1)) as [r|] eqn:E; [|apply nth_error_None in E; lia].
  assert (X' : mjd_indx l t = Z.of_nat (k - 1)) by lia.
  exists (k - 1), r. split; [exact E|]. split; [exact X'|]. split.
  { unfold get_sunset_info. rewrite X'. apply py_get_nat. exact E. }
  split; [apply (P (k - 1) r E); lia|]. split.
  - intros r' I L. apply In_nth_error in I. destruct I as [j Hj]. apply (P j r' Hj) in L.
    apply (O j (k - 1)); [lia| |]; rewrite nth_error_map, ?Hj, ?E; reflexivity.
  - intros r' Hr. destruct (Qlt_le_dec t (a_sunset r')) as [C|C]; [exact C|]. apply (P _ _ Hr) in C. lia.
Qed.
Print Assumptions C90_lookup_partial.
Definition alm : list arow := [mkRow 7 (59 # 10) (62 # 10); mkRow 8 (69 # 10) (72 # 10); mkRow 9 (79 # 10) (82 # 10)].
Lemma alm_table : table alm.
Proof.
  split; intros [|[|[|i]]] [|[|[|j]]] a b; intros; cbn in *;
    try (destruct i; discriminate); try (destruct j; discriminate); try lia;
    repeat match goal with H : Some _ = Some _ |- _ => inversion H; clear H; subst end; cbn; try lia; try (vm_compute; reflexivity).
Qed.
Example C90_lookup_ex : table alm /\ get_sunset_info alm 0 0 (Some 7%Q) None None = Ok (mkRow 8 (69 # 10) (72 # 10)).
Proof. split; [apply alm_table|vm_compute; reflexivity]. Qed.

(** Before the first sunset of the table the last row is returned. *)
Theorem C90_before_first : forall l zone now t lon r0, table l -> nth_error l 0 = Some r0 -> (t < a_sunset r0)%Q ->
  mjd_indx l t = (-1)%Z /\ get_sunset_info l zone now (Some t) None lon = Ok (last l r0).
Proof.
  intros l zone now t lon r0 T H0 H. destruct (right_pos l t (table_ordered l T)) as [K P].
  assert (X : mjd_indx l t = (Z.of_nat (searchsorted (fun x => Qle_bool x t) 0%Q (map a_sunset l)) - 1)%Z) by reflexivity.
  set (k := searchsorted (fun x => Qle_bool x t) 0%Q (map a_sunset l)) in *. clearbody k.
  assert (k = 0). { destruct k; [reflexivity|]. assert (L : 0 < S k) by lia. apply (P 0 r0 H0) in L. lra. } subst k.
  split; [exact X|]. unfold get_sunset_info. rewrite X. apply py_get_last. destruct l; discriminate.
Qed.
Print Assumptions C90_before_first.
Theorem C90_lookup_refuted : exists l t r, table l /\ get_sunset_info l 0 0 (Some t) None None = Ok r /\ (t < a_sunset r)%Q /\ (forall r', In r' l -> (a_sunset r' <= a_sunset r)%Q).
Proof.
  exists alm, 5%Q, (mkRow 9 (79 # 10) (82 # 10)). split; [apply alm_table|]. split; [vm_compute; reflexivity|]. split; [reflexivity|].
  intros r' [E|[E|[E|[]]]]; subst; vm_compute; congruence.
Qed.
Print Assumptions C90_lookup_refuted.

(** ** Night numbers *)
(** Number of sunsets [s] with [lo <= s <= hi], and with [lo < s < hi]. *)
Definition sunsets_in (l : list arow) (lo hi : Q) : nat := length (filter (fun r => Qle_bool lo (a_sunset r) && Qle_bool (a_sunset r) hi) l).
Definition sunsets_between (l : list arow) (lo hi : Q) : nat := length (filter (fun r => Qltb lo (a_sunset r) && Qltb (a_sunset r) hi) l).
Lemma filter_range : forall A (p : A -> bool) l a b, a <= b <= length l -> (forall i x, nth_error l i = Some x -> p x = true <-> a <= i < b) -> length (filter p l) = b - a.
Proof.
  intros A p. induction l as [|x r IH]; intros a b L H; cbn [length] in *.
  - cbn. lia.
  - cbn [filter]. destruct b as [|b].
    + assert (p x = false). { destruct (p x) eqn:E; [|reflexivity]. apply (H 0 x eq_refl) in E. lia. } rewrite H0.
      rewrite (IH 0 0); [lia|lia|]. intros i y E. rewrite (H (S i) y E). lia.
    + destruct a as [|a].
      * replace (p x) with true by (symmetry; apply (H 0 x eq_refl); lia). cbn [length]. rewrite (IH 0 b); [lia|lia|].
        intros i y E. rewrite (H (S i) y E). lia.
      * assert (p x = false). { destruct (p x) eqn:E; [|reflexivity]. apply (H 0 x eq_refl) in E. lia. } rewrite H0.
        rewrite (IH a b); [lia|lia|]. intros i y E. rewrite (H (S i) y E). lia.
Qed.
Lemma renumber_sunsets : forall l z, map a_sunset (map (fun x => mkRow (a_night x - z) (a_sunset x) (a_sunrise x)) l) = map a_sunset l.
Proof. intros l z. rewrite map_map. apply map_ext. reflexivity. Qed.

(** Counted from a start after the first sunset, the night number at a time is
    the number of sunsets from the start (included) to it, negative before. *)
Theorem C90_number_partial : forall l start t zone now lon r0, table l -> nth_error l 0 = Some r0 ->
  (a_sunset r0 < start)%Q -> (a_sunset r0 <= t)%Q ->
  exists l' r, renumber l (Some start) = Ok l' /\ get_sunset_info l' zone now (Some t) None lon = Ok r /\
    ((start <= t)%Q -> a_night r = Z.of_nat (sunsets_in l start t)) /\
    ((t < start)%Q -> a_night r = (- Z.of_nat (sunsets_between l t start))%Z).
Proof.
  intros l start t zone now lon r0 T H0 Hs Ht. pose proof (table_ordered l T) as O. destruct T as [T1 T2].
  destruct (left_pos l start O) as [A P]. destruct (right_pos l t O) as [B Q]. unfold renumber.
  set (a := searchsorted (fun x => Qltb x start) 0%Q (map a_sunset l)) in *. set (b := searchsorted (fun x => Qle_bool x t) 0%Q (map a_sunset l)) in *.
  assert (A0 : 0 < a) by (apply (P 0 r0 H0); exact Hs). assert (B0 : 0 < b) by (apply (Q 0 r0 H0); exact Ht).
  destruct (nth_error l (a - 1)) as [ra|] eqn:Ea; [|apply nth_error_None in Ea; lia].
  destruct (nth_error l (b - 1)) as [rb|] eqn:Eb; [|apply nth_error_None in Eb; lia].
  replace (Z.of_nat a - 1)%Z with (Z.of_nat (a - 1)) by lia. rewrite (py_get_nat _ _ _ _ Ea). cbn [bind].
  set (f := fun x => mkRow (a_night x - a_night ra) (a_sunset x) (a_sunrise x)).
  exists (map f l), (f rb). split; [reflexivity|]. split.
  - unfold get_sunset_info, mjd_indx. unfold f at 2. rewrite renumber_sunsets. fold b. replace (Z.of_nat b - 1)%Z with (Z.of_nat (b - 1)) by lia.
    apply py_get_nat. rewrite nth_error_map, Eb. reflexivity.
  - unfold f. cbn [a_night]. pose proof (T2 _ _ _ _ Ea Eb) as D. clearbody a b. split; intros L.
    + assert (a <= b). { destruct (le_lt_dec a b) as [C|C]; [exact C|]. exfalso.
        assert (X : a - 1 < a) by lia. apply (P _ _ Ea) in X. assert (Y : (a_sunset ra <= t)%Q) by lra. apply (Q _ _ Ea) in Y. lia. }
      unfold sunsets_in. rewrite (filter_range _ _ l a b); [lia|lia|]. intros i x E. rewrite andb_true_iff, !Qle_bool_iff.
      specialize (P i x E). specialize (Q i x E). rewrite <- Q.
      split; intros [U V]; split; try exact V; try lia.
      * destruct (le_lt_dec a i) as [C|C]; [exact C|]. apply P in C. lra.
      * destruct (Qlt_le_dec (a_sunset x) start) as [C|C]; [|exact C]. apply P in C. lia.
    + assert (b <= a). { destruct (le_lt_dec b a) as [C|C]; [exact C|]. exfalso.
        assert (X : b - 1 < b) by lia. apply (Q _ _ Eb) in X. assert (Y : (a_sunset rb < start)%Q) by lra. apply (P _ _ Eb) in Y. lia. }
      unfold sunsets_between. rewrite (filter_range _ _ l b a); [lia|lia|]. intros i x E. rewrite andb_true_iff, !Qltb_lt.
      specialize (P i x E). specialize (Q i x E). rewrite <- P.
      split; intros [U V]; split; try exact V; try lia.
      * destruct (le_lt_dec b i) as [C|C]; [exact C|]. apply Q in C. lra.
      * destruct (Qlt_le_dec t (a_sunset x)) as [C|C]; [exact C|]. apply Q in C. lia.
Qed.
Print Assumptions C90_number_partial.
Example C90_number_ex : bind (renumber alm (Some (65 # 10)%Q)) (fun l => Ok (map a_night l)) = Ok [0; 1; 2]%Z /\
  bind (renumber alm (Some (70 # 10)%Q)) (fun l => Ok (map a_night l)) = Ok [-1; 0; 1]%Z.
Proof. split; vm_compute; reflexivity. Qed.

(** The comment in the code says the start is night 1: for a start between
    sunset and sunrise that night is number 0. *)
Theorem C90_start_night_refuted : exists l start l' r, table l /\ renumber l (Some start) = Ok l' /\
  get_sunset_info l' 0 0 (Some start) None None = Ok r /\ (a_sunset r < start < a_sunrise r)%Q /\ a_night r = 0%Z.
Proof.
  exists alm, 7%Q. eexists. eexists. split; [apply alm_table|]. split; [vm_compute; reflexivity|]. split; [vm_compute; reflexivity|].
  split; [split; vm_compute; congruence|reflexivity].
Qed.
Print Assumptions C90_start_night_refuted.

(** The observatory's own number is one through a night exactly when no whole
    number of days from the start falls within it. *)
Theorem C90_one_number : forall start s r, (s <= r)%Q ->
  ((forall t t', (s <= t <= r)%Q -> (s <= t' <= r)%Q -> obs_night start t = obs_night start t') <->
   ~ exists k : Z, (s < start + inject_Z k <= r)%Q).
Proof.
  intros start s r H. unfold obs_night. split.
  - intros Same (k & K1 & K2). specialize (Same s (start + inject_Z k)%Q ltac:(lra) ltac:(lra)).
    destruct (Qfloor_bounds (s - start)) as [A B]. rewrite Same in A.
    assert (E : Qfloor (start + inject_Z k - start) = k).
    { rewrite (Qfloor_comp _ (inject_Z k)); [apply Qfloor_Z|ring]. } rewrite E in A. lra.
  - intros No t t' [T1 T2] [U1 U2].
    assert (Le : forall x, (s <= x <= r)%Q -> Qfloor (x - start) = Qfloor (s - start)).
    { intros x [X1 X2]. destruct (Z.eq_dec (Qfloor (x - start)) (Qfloor (s - start))) as [E|E]; [exact E|]. exfalso. apply No.
      exists (Qfloor (x - start)). destruct (Qfloor_bounds (x - start)) as [A B]. split; [|lra].
      pose proof (Qfloor_mono (s - start) (x - start) ltac:(lra)) as M.
      destruct (Qfloor_bounds (s - start)) as [C D].
      assert (G : (Qfloor (s - start) + 1 <= Qfloor (x - start))%Z) by lia. apply inject_Z_le_iff in G. rewrite inject_Z_plus in G. change (inject_Z 1) with 1%Q in G. lra. }
    rewrite (Le t), (Le t'); auto.
Qed.
Print Assumptions C90_one_number.
Example C90_one_number_ex : obs_night (1 # 2) (69 # 10) = 6%Z /\ obs_night (1 # 2) (72 # 10) = 6%Z /\ obs_night (1 # 2) (79 # 10) = 7%Z.
Proof. repeat split; vm_compute; reflexivity. Qed.
Theorem C90_split_refuted : exists start s r t t', (s <= t <= r)%Q /\ (s <= t' <= r)%Q /\ (r - s < 1)%Q /\ obs_night start t <> obs_night start t'.
Proof.
  exists 0%Q, (69 # 10)%Q, (72 # 10)%Q, (69 # 10)%Q, 7%Q. repeat split; try (vm_compute; congruence).
Qed.
Print Assumptions C90_split_refuted.

(** Counted from a start by day, with one sunset in each day from it, almanac and
    observatory differ by one at any time after that day's sunset. *)
Lemma count_split : forall (l : list arow) lo mid hi, (lo <= mid)%Q -> (mid <= hi)%Q ->
  length (filter (fun r => Qle_bool lo (a_sunset r) && Qltb (a_sunset r) hi) l) =
  length (filter (fun r => Qle_bool lo (a_sunset r) && Qltb (a_sunset r) mid) l) + length (filter (fun r => Qle_bool mid (a_sunset r) && Qltb (a_sunset r) hi) l).
Proof.
  intros l lo mid hi H1 H2. induction l as [|r l IH]; [reflexivity|]. cbn [filter]. set (s := a_sunset r). 
  destruct (Qle_bool lo s) eqn:A, (Qltb s hi) eqn:B, (Qltb s mid) eqn:C, (Qle_bool mid s) eqn:D; cbn [andb length]; try lia; exfalso;
    rewrite ?Qle_bool_iff, ?Qltb_lt in *; try apply Qle_bool_false in A; try apply Qle_bool_false in D; try apply Qltb_false in B; try apply Qltb_false in C; lra.
Qed.
Theorem C90_agree_partial : forall l start t zone now lon r0, table l -> nth_error l 0 = Some r0 -> (a_sunset r0 < start <= t)%Q ->
  (forall k, (k <= Z.to_nat (obs_night start t)) ->
     length (filter (fun r => Qle_bool (start + inject_Z (Z.of_nat k)) (a_sunset r) && Qltb (a_sunset r) (start + inject_Z (Z.of_nat k) + 1)) l) = 1) ->
  (forall r, In r l -> (start + inject_Z (obs_night start t) <= a_sunset r < start + inject_Z (obs_night start t) + 1)%Q -> (a_sunset r <= t)%Q) ->
  exists l' r, renumber l (Some start) = Ok l' /\ get_sunset_info l' zone now (Some t) None lon = Ok r /\
    a_night r = (obs_night start t + 1)%Z.
Proof.
  intros l start t zone now lon r0 T H0 [Hs Ht] One Dusk. destruct (C90_number_partial l start t zone now lon r0 T H0 Hs ltac:(lra)) as (l' & r & A & B & C & _).
  exists l', r. split; [exact A|]. split; [exact B|]. rewrite (C Ht). clear A B C.
  destruct (Qfloor_bounds (t - start)) as [F1 F2]. fold (obs_night start t) in F1, F2.
  assert (N0 : (0 <= obs_night start t)%Z). { change 0%Z with (Qfloor 0). unfold obs_night. apply Qfloor_resp_le. lra. }
  set (n := Z.to_nat (obs_night start t)) in *. assert (En : obs_night start t = Z.of_nat n) by lia. rewrite En in *. clearbody n. clear En.
  assert (Count : forall k, k <= n + 1 -> length (filter (fun r => Qle_bool start (a_sunset r) && Qltb (a_sunset r) (start + inject_Z (Z.of_nat k))) l) = k).
  { induction k as [|k IH]; intros K.
    - cbn [Z.of_nat]. apply length_zero_iff_nil. clear. induction l as [|r l IH]; [reflexivity|]. cbn [filter].
      destruct (Qle_bool start (a_sunset r)) eqn:A; [|exact IH]. destruct (Qltb (a_sunset r) _) eqn:B; [|exact IH].
      apply Qle_bool_iff in A. apply Qltb_lt in B. change (inject_Z 0) with 0%Q in B. lra.
    - assert (P : (0 <= inject_Z (Z.of_nat k))%Q) by (change 0%Q with (inject_Z 0); apply inject_Z_le_iff; lia).
      rewrite (count_split l start (start + inject_Z (Z.of_nat k)) (start + inject_Z (Z.of_nat (S k)))).
      + rewrite IH by lia.
        assert (Ex : length (filter (fun r => Qle_bool (start + inject_Z (Z.of_nat k)) (a_sunset r) && Qltb (a_sunset r) (start + inject_Z (Z.of_nat (S k)))) l) = 1).
        { rewrite <- (One k) by lia. f_equal. apply filter_ext. intros x. f_equal. apply Qltb_compat; [reflexivity|].
          rewrite Nat2Z.inj_succ. unfold Z.succ. rewrite inject_Z_plus. change (inject_Z 1) with 1%Q. ring. }
        rewrite Ex. lia.
      + lra.
      + rewrite Nat2Z.inj_succ. unfold Z.succ. rewrite inject_Z_plus. change (inject_Z 1) with 1%Q. lra. }
  specialize (Count (n + 1) (le_n _)).
  assert (E : sunsets_in l start t = n + 1).
  { rewrite <- Count. unfold sunsets_in. f_equal. apply filter_ext_in. intros x I. apply Bool.eq_iff_eq_true. rewrite !andb_true_iff, !Qle_bool_iff, Qltb_lt.
    rewrite Nat2Z.inj_add, inject_Z_plus. change (inject_Z (Z.of_nat 1)) with 1%Q. specialize (Dusk x I). split; intros [U V]; (split; [exact U|]); [lra|].
    destruct (Qlt_le_dec (a_sunset x) (start + inject_Z (Z.of_nat n))) as [Lt|Lt]; [lra|]. apply Dusk. lra. }
  rewrite E. lia.
Qed.
Print Assumptions C90_agree_partial.
Example C90_agree_ex : bind (renumber alm (Some (65 # 10)%Q)) (fun l => get_sunset_info l 0 0 (Some 8%Q) None None) = Ok (mkRow 2 (79 # 10) (82 # 10)) /\
  obs_night (65 # 10) 8 = 1%Z.
Proof. split; vm_compute; reflexivity. Qed.

(** ** Lookup by date of the evening *)
(** [r] is the night whose sunset falls on local date [d]. *)
Definition on_date (lon : Q) (d : Z) (r : arow) : Prop := (inject_Z d <= a_sunset r + lon < inject_Z d + 1)%Q.
Lemma on_date_floor : forall lon d r, on_date lon d r <-> Qfloor (a_sunset r + lon) = d.
Proof.
  intros lon d r. unfold on_date. destruct (Qfloor_bounds (a_sunset r + lon)) as [A B]. split.
  - intros [C D]. assert (X : (inject_Z d < inject_Z (Qfloor (a_sunset r + lon)) + 1)%Q) by lra. assert (Y : (inject_Z (Qfloor (a_sunset r + lon)) < inject_Z d + 1)%Q) by lra.
    change 1%Q with (inject_Z 1) in X, Y. rewrite <- inject_Z_plus in X, Y. apply (proj1 (inject_Z_lt_iff _ _)) in X. apply (proj1 (inject_Z_lt_iff _ _)) in Y. lia.
  - intros E. subst d. split; assumption.
Qed.
Lemma evening_spec : forall l zone date lon d, Qfloor (inject_Z date - zone) = d ->
  (forall i r, nth_error l i = Some r -> on_date lon d r -> (forall j r', nth_error l j = Some r' -> on_date lon d r' -> j = i) ->
     evening_indx l zone date lon = Ok (Z.of_nat i)) /\
  ((forall r, In r l -> ~ on_date lon d r) -> evening_indx l zone date lon = Raise ValueError).
Proof.
  intros l zone date lon d D. unfold evening_indx. rewrite D. split.
  - intros i r Hi On Un.
    assert (W : forall k, In k (np_where (fun r => (Qfloor (a_sunset r + lon) =? d)%Z) l) <-> k = i).
    { intros k. rewrite np_where_spec. split.
      - intros (x & Hx & Ex). apply Z.eqb_eq in Ex. apply (Un k x Hx). apply on_date_floor. exact Ex.
      - intros E. subst k. exists r. split; [exact Hi|]. apply Z.eqb_eq. apply on_date_floor. exact On. }
    assert (ND : forall A (p : A -> bool) l i, NoDup (where_from p i l)).
    { clear. intros A p l. induction l as [|x l IH]; intros i; cbn; [constructor|]. destruct (p x); [|apply IH]. constructor; [|apply IH].
      intros H. apply where_from_spec in H. destruct H as (j & y & E & _). lia. }
    specialize (ND _ (fun r => (Qfloor (a_sunset r + lon) =? d)%Z) l 0). change (where_from _ 0 l) with (np_where (fun r => (Qfloor (a_sunset r + lon) =? d)%Z) l) in ND.
    destruct (np_where _ l) as [|a [|b w]].
    + exfalso. apply (W i). reflexivity.
    + f_equal. f_equal. apply W. left. reflexivity.
    + exfalso. assert (a = i) by (apply W; left; reflexivity). assert (b = i) by (apply W; right; left; reflexivity). subst. inversion ND; subst. apply H1. left. reflexivity.
  - intros No. destruct (np_where _ l) as [|a w] eqn:E; [reflexivity|]. exfalso.
    assert (I : In a (np_where (fun r => (Qfloor (a_sunset r + lon) =? d)%Z) l)) by (rewrite E; left; reflexivity).
    apply np_where_spec in I. destruct I as (x & Hx & Ex). apply (No x (nth_error_In _ _ Hx)). apply on_date_floor. apply Z.eqb_eq. exact Ex.
Qed.

(** On a machine whose zone is UTC or west of it: the night with its sunset on
    that local date; an exception when there is none. *)
Theorem C90_evening_partial : forall l zone now date lon, (-1 < zone <= 0)%Q ->
  (forall i r, nth_error l i = Some r -> on_date lon date r -> (forall j r', nth_error l j = Some r' -> on_date lon date r' -> j = i) ->
     get_sunset_info l zone now None (Some date) (Some lon) = Ok r) /\
  ((forall r, In r l -> ~ on_date lon date r) -> get_sunset_info l zone now None (Some date) (Some lon) = Raise ValueError).
Proof.
  intros l zone now date lon [Z1 Z2].
  assert (D : Qfloor (inject_Z date - zone) = date).
  { destruct (Qfloor_bounds (inject_Z date - zone)) as [A B].
    assert (X : (inject_Z (Qfloor (inject_Z date - zone)) < inject_Z date + 1)%Q) by lra. assert (Y : (inject_Z date < inject_Z (Qfloor (inject_Z date - zone)) + 1)%Q) by lra.
    change 1%Q with (inject_Z 1) in X, Y. rewrite <- inject_Z_plus in X, Y. apply (proj1 (inject_Z_lt_iff _ _)) in X. apply (proj1 (inject_Z_lt_iff _ _)) in Y. lia. }
  destruct (evening_spec l zone date lon date D) as [P N]. unfold get_sunset_info. split.
  - intros i r Hi On Un. rewrite (P i r Hi On Un). cbn [bind]. apply py_get_nat. exact Hi.
  - intros No. rewrite (N No). reflexivity.
Qed.
Print Assumptions C90_evening_partial.
Example C90_evening_ex : get_sunset_info alm (-4 # 24) 0 None (Some 6%Z) (Some (-1 # 5)%Q) = Ok (mkRow 8 (69 # 10) (72 # 10)) /\
  get_sunset_info alm (-4 # 24) 0 None (Some 9%Z) (Some (-1 # 5)%Q) = Raise ValueError.
Proof. split; vm_compute; reflexivity. Qed.

(** On a machine east of UTC it is the night before the one asked for. *)
Theorem C90_evening_east : forall l zone now date lon, (0 < zone <= 1)%Q ->
  forall i r, nth_error l i = Some r -> on_date lon (date - 1) r -> (forall j r', nth_error l j = Some r' -> on_date lon (date - 1) r' -> j = i) ->
     get_sunset_info l zone now None (Some date) (Some lon) = Ok r.
Proof.
  intros l zone now date lon [Z1 Z2].
  assert (D : Qfloor (inject_Z date - zone) = (date - 1)%Z).
  { destruct (Qfloor_bounds (inject_Z date - zone)) as [A B].
    assert (X : (inject_Z (Qfloor (inject_Z date - zone)) < inject_Z date)%Q) by lra. assert (Y : (inject_Z date < inject_Z (Qfloor (inject_Z date - zone)) + 2)%Q) by lra.
    change 2%Q with (inject_Z 2) in Y. rewrite <- inject_Z_plus in Y. apply (proj1 (inject_Z_lt_iff _ _)) in X. apply (proj1 (inject_Z_lt_iff _ _)) in Y. lia. }
  destruct (evening_spec l zone date lon (date - 1) D) as [P N]. unfold get_sunset_info.
  intros i r Hi On Un. rewrite (P i r Hi On Un). cbn [bind]. apply py_get_nat. exact Hi.
Qed.
Print Assumptions C90_evening_east.
Theorem C90_evening_refuted : exists l zone date lon r r', table l /\ (0 < zone <= 1)%Q /\ In r' l /\ on_date lon date r' /\
  get_sunset_info l zone 0 None (Some date) (Some lon) = Ok r /\ ~ on_date lon date r.
Proof.
  exists alm, (1 # 24)%Q, 6%Z, (-1 # 5)%Q, (mkRow 7 (59 # 10) (62 # 10)), (mkRow 8 (69 # 10) (72 # 10)).
  split; [apply alm_table|]. split; [split; vm_compute; congruence|]. split; [right; left; reflexivity|].
  split; [split; vm_compute; congruence|]. split; [vm_compute; reflexivity|]. intros [A B]. vm_compute in A. congruence.
Qed.
Print Assumptions C90_evening_refuted.
