(** C115: rough times of sunset, twilight and the moon. *)
From Coq Require Import List Bool Reals Lra Lia ZArith Arith Sorted.
From Verif Require Import Base NightTimes.
Import ListNotations.
Open Scope R_scope.

Definition increasing (times : list R) : Prop := forall i j, (i < j)%nat -> (j < length times)%nat -> nth i times 0 < nth j times 0.
(** From the j-th altitude to the next (from the last to the first) the goal is passed. *)
Definition step (alts : list R) (goal : R) (rising : bool) (j : nat) : Prop :=
  (j < length alts)%nat /\
  let a := nth j alts 0 in let b := if Nat.eqb (S j) (length alts) then nth 0 alts 0 else nth (S j) alts 0 in
  if rising then a < goal < b else b < goal < a.
(** The straight line from the j-th altitude to the next has the goal at time x. *)
Definition passes (times alts : list R) (goal : R) (j : nat) (x : R) : Prop :=
  (S j < length alts)%nat /\ nth j times 0 < x < nth (S j) times 0 /\
  (x - nth j times 0) * (nth (S j) alts 0 - nth j alts 0) = (goal - nth j alts 0) * (nth (S j) times 0 - nth j times 0).

Lemma ltb_lt : forall x y, ltb x y = true <-> x < y.
Proof. intros x y. unfold ltb. destruct (Rlt_dec x y); split; intros; auto; discriminate. Qed.
Lemma crossings_in : forall alts goal rising j, In j (crossings alts goal rising) <-> step alts goal rising j.
Proof.
  intros alts goal rising j. unfold crossings, step. rewrite filter_In, in_seq. cbv zeta. assert (E : (j < length alts)%nat -> nth (S j mod length alts) alts 0 = if Nat.eqb (S j) (length alts) then nth 0 alts 0 else nth (S j) alts 0).
  { intros L. destruct (Nat.eqb_spec (S j) (length alts)) as [E|N]; [rewrite E, Nat.mod_same by lia; reflexivity|rewrite Nat.mod_small by lia; reflexivity]. }
  split.
  - intros (L & H). split; [lia|]. rewrite E in H by lia. destruct rising; apply Bool.andb_true_iff in H as (A & B); apply ltb_lt in A, B; lra.
  - intros (L & H). split; [lia|]. rewrite E by lia. destruct rising; apply Bool.andb_true_iff; split; apply ltb_lt; lra.
Qed.
Lemma seq_sorted : forall n s, StronglySorted lt (seq s n).
Proof. intros n. induction n as [|n IH]; intros s; cbn; constructor; [apply IH|]. apply Forall_forall. intros x I. apply in_seq in I. lia. Qed.
Lemma filter_sorted : forall A (R : A -> A -> Prop) p l, StronglySorted R l -> StronglySorted R (filter p l).
Proof.
  intros A R p l H. induction H as [|x l H IH F]; cbn; [constructor|]. destruct (p x); [|exact IH]. constructor; [exact IH|]. apply Forall_forall. intros y I. apply filter_In in I as (I & _). rewrite Forall_forall in F. now apply F.
Qed.
Lemma crossings_sorted : forall alts goal rising, StronglySorted lt (crossings alts goal rising).
Proof. intros. apply filter_sorted, seq_sorted. Qed.
Lemma sorted_nodup : forall l, StronglySorted lt l -> NoDup l.
Proof. intros l H. induction H as [|x l H IH F]; constructor; [|exact IH]. intros I. rewrite Forall_forall in F. specialize (F x I). lia. Qed.
Lemma removelast_in : forall (l : list nat) j, StronglySorted lt l -> (In j (removelast l) <-> In j l /\ exists k, In k l /\ (j < k)%nat).
Proof.
  intros l j H. induction H as [|x l H IH F]; [cbn; firstorder|]. destruct l as [|y l]; [cbn; split; [intros []|intros ([<-|[]] & k & [<-|[]] & L); lia]|].
  change (removelast (x :: y :: l)) with (x :: removelast (y :: l)). rewrite Forall_forall in F. split.
  - intros [<-|I]; [split; [now left|]; exists y; split; [right; now left|]; apply F; now left|]. apply IH in I as (I & k & K & L). split; [now right|]. exists k. split; [now right|exact L].
  - intros ([<-|I] & k & K & L); [now left|]. right. apply IH. split; [exact I|]. destruct K as [<-|K]; [specialize (F j I); lia|]. exists k. auto.
Qed.
Lemma removelast_map : forall A B (f : A -> B) l, removelast (map f l) = map f (removelast l).
Proof. intros A B f l. induction l as [|x l IH]; [reflexivity|]. destruct l as [|y l]; [reflexivity|]. change (removelast (map f (x :: y :: l))) with (f x :: removelast (map f (y :: l))). rewrite IH. reflexivity. Qed.
Lemma removelast_sorted : forall A (R : A -> A -> Prop) l, StronglySorted R l -> StronglySorted R (removelast l).
Proof.
  intros A R l H. induction H as [|x l H IH F]; [constructor|]. destruct l as [|y l]; [constructor|]. change (removelast (x :: y :: l)) with (x :: removelast (y :: l)). constructor; [exact IH|]. apply Forall_forall. intros z I. rewrite Forall_forall in F. apply F.
  clear - I. revert y I. induction l as [|w l IH]; intros y I; [destruct I|]. destruct I as [<-|I]; [now left|]. right. now apply IH.
Qed.
Lemma max_ge : forall l x, (x <= fold_left Nat.max l x)%nat /\ forall y, In y l -> (y <= fold_left Nat.max l x)%nat.
Proof.
  intros l. induction l as [|z l IH]; intros x; cbn [fold_left]; [split; [lia|intros y []]|]. destruct (IH (Nat.max x z)) as (A & B). split; [lia|]. intros y [<-|I]; [lia|now apply B].
Qed.
Lemma max_len : forall js m, js <> [] -> NoDup js -> np_max (map S js) = Ok m -> (length js <= m)%nat.
Proof.
  intros js m NE ND E. assert (B : forall j, In j js -> (S j <= m)%nat).
  { destruct js as [|j js]; [contradiction|]. cbn in E. injection E as <-. destruct (max_ge (map S js) (S j)) as (P & Q). intros k [<-|I]; [exact P|]. apply Q. now apply in_map. }
  replace m with (length (seq 0 m)) by apply seq_length. apply NoDup_incl_length; [exact ND|]. intros j I. apply in_seq. specialize (B j I). lia.
Qed.
Lemma np_max_some : forall l, l <> [] -> exists m, np_max l = Ok m.
Proof. intros [|x l] H; [contradiction|]. eexists. reflexivity. Qed.
Lemma collect_ok : forall A B (f : A -> res B) g l, (forall x, In x l -> f x = Ok (g x)) -> collect f l = Ok (map g l).
Proof. intros A B f g l H. induction l as [|x l IH]; [reflexivity|]. cbn. rewrite (H x (or_introl eq_refl)). cbn. rewrite IH by (intros y I; apply H; now right). reflexivity. Qed.
Lemma item_ok : forall l i, (i < length l)%nat -> item l i = Ok (nth i l 0).
Proof. intros l i L. unfold item. rewrite (nth_error_nth' l 0 L). reflexivity. Qed.

Definition ctime (times alts : list R) (goal : R) (rising : bool) (j : nat) : R :=
  if rising then lin_interp goal (nth (S j) alts 0) (nth j alts 0) (nth (S j) times 0) (nth j times 0)
  else lin_interp goal (nth j alts 0) (nth (S j) alts 0) (nth j times 0) (nth (S j) times 0).
Lemma interp_ok : forall times alts goal rising, length times = length alts ->
  alt_passing_interp times alts goal rising =
  match crossings alts goal rising with [] => Raise ValueError | js => Ok (map (ctime times alts goal rising) (removelast js)) end.
Proof.
  intros times alts goal rising LEN. unfold alt_passing_interp. pose proof (crossings_sorted alts goal rising) as SS. pose proof (crossings_in alts goal rising) as CI. set (js := crossings alts goal rising) in *. clearbody js.
  assert (IN : forall j, In j (removelast js) -> (S j < length alts)%nat). { intros j I. apply removelast_in in I as (_ & k & K & L); [|exact SS]. apply CI in K as (K & _). lia. }
  destruct js as [|j0 js0] eqn:E; [destruct rising; reflexivity|]. rewrite <- E in *. assert (NE : js <> []) by (rewrite E; discriminate). assert (NE' : map S js <> []) by (rewrite E; discriminate).
  destruct (np_max_some js NE) as (m & M), (np_max_some (map S js) NE') as (m' & M'). pose proof (max_len js m' NE (sorted_nodup _ SS) M') as L.
  replace (match js with [] => Raise ValueError | _ :: _ => Ok (map (ctime times alts goal rising) (removelast js)) end) with (Ok (map (ctime times alts goal rising) (removelast js))) by (destruct js; [contradiction|reflexivity]).
  assert (CUT : forall b, (Nat.leb (length js) m || b || Nat.leb (length js) m')%bool = true) by (intros b; apply Bool.orb_true_iff; right; apply Nat.leb_le; exact L).
  destruct rising; rewrite M, M'; cbn [bind]; rewrite map_length.
  - specialize (CUT false). rewrite Bool.orb_false_r in CUT. rewrite CUT, removelast_map. set (ks := removelast js) in *. clearbody ks. replace (combine (map S ks) ks) with (map (fun j => (S j, j)) ks) by (clear; induction ks as [|k ks IH]; cbn; congruence).
    rewrite collect_ok with (g := fun ab => lin_interp goal (nth (fst ab) alts 0) (nth (snd ab) alts 0) (nth (fst ab) times 0) (nth (snd ab) times 0)); [rewrite map_map; reflexivity|].
    intros ab I. apply in_map_iff in I as (j & <- & J). cbn [fst snd]. specialize (IN j J). rewrite !item_ok by lia. reflexivity.
  - specialize (CUT false). rewrite Bool.orb_false_r in CUT. rewrite Bool.orb_comm in CUT. rewrite CUT, removelast_map. set (ks := removelast js) in *. clearbody ks. replace (combine ks (map S ks)) with (map (fun j => (j, S j)) ks) by (clear; induction ks as [|k ks IH]; cbn; congruence).
    rewrite collect_ok with (g := fun ab => lin_interp goal (nth (fst ab) alts 0) (nth (snd ab) alts 0) (nth (fst ab) times 0) (nth (snd ab) times 0)); [rewrite map_map; reflexivity|].
    intros ab I. apply in_map_iff in I as (j & <- & J). cbn [fst snd]. specialize (IN j J). rewrite !item_ok by lia. reflexivity.
Qed.
(** The time given for a passage between two times of the grid is where the line has the goal. *)
Lemma between : forall t u a b g x, t < u -> (x - t) * (b - a) = (g - a) * (u - t) -> (a < g < b \/ b < g < a) -> t < x < u.
Proof. intros t u a b g x T E [H|H]; split; nra. Qed.
Lemma ctime_passes : forall times alts goal rising j, length times = length alts -> increasing times -> step alts goal rising j -> (S j < length alts)%nat -> passes times alts goal j (ctime times alts goal rising j).
Proof.
  intros times alts goal rising j LEN INC (L & H) N. pose proof (INC j (S j) ltac:(lia) ltac:(lia)) as T. cbv zeta in H. destruct (Nat.eqb_spec (S j) (length alts)); [lia|]. split; [exact N|].
  set (t := nth j times 0) in *. set (u := nth (S j) times 0) in *. set (a := nth j alts 0) in *. set (b := nth (S j) alts 0) in *. assert (E : (ctime times alts goal rising j - t) * (b - a) = (goal - a) * (u - t)).
  { unfold ctime. fold t u a b. clearbody t u a b. destruct rising; unfold lin_interp; field; lra. }
  split; [|exact E]. eapply between; [exact T|exact E|]. clearbody a b. destruct rising; [left|right]; lra.
Qed.
Lemma passes_unique : forall times alts goal rising j x y, step alts goal rising j -> passes times alts goal j x -> passes times alts goal j y -> x = y.
Proof.
  intros times alts goal rising j x y (L & H) (N & A & E) (_ & B & F). cbv zeta in H. destruct (Nat.eqb_spec (S j) (length alts)); [lia|]. destruct rising; nra.
Qed.
Lemma passes_order : forall times alts goal alts' goal' j k x y, length times = length alts -> length times = length alts' -> increasing times -> (j < k)%nat -> passes times alts goal j x -> passes times alts' goal' k y -> x < y.
Proof.
  intros times alts goal alts' goal' j k x y LEN LEN' INC L (N & A & _) (M & B & _). destruct (Nat.eq_dec (S j) k) as [<-|NE]; [lra|]. pose proof (INC (S j) k ltac:(lia) ltac:(lia)). lra.
Qed.

(** alt_passing_interp fails where the goal is nowhere passed; otherwise it gives, in order of time,
    the times of all passages between grid times but the last. *)
Theorem C115_passages : forall times alts goal rising, length times = length alts -> increasing times ->
  ((forall j, ~ step alts goal rising j) /\ alt_passing_interp times alts goal rising = Raise ValueError) \/
  ((exists j, step alts goal rising j) /\ exists l, alt_passing_interp times alts goal rising = Ok l /\ StronglySorted Rlt l /\
   forall x, In x l <-> exists j k, step alts goal rising j /\ step alts goal rising k /\ (j < k)%nat /\ passes times alts goal j x).
Proof.
  intros times alts goal rising LEN INC. rewrite interp_ok by auto. pose proof (crossings_sorted alts goal rising) as SS. pose proof (crossings_in alts goal rising) as CI. set (js := crossings alts goal rising) in *. clearbody js.
  destruct js as [|j0 js0] eqn:E; [left; split; [intros j H; now apply CI in H|reflexivity]|]. rewrite <- E in *. right. split; [exists j0; apply CI; rewrite E; now left|]. exists (map (ctime times alts goal rising) (removelast js)). split; [reflexivity|].
  assert (RI : forall j, In j (removelast js) <-> step alts goal rising j /\ exists k, step alts goal rising k /\ (j < k)%nat).
  { intros j. rewrite (removelast_in js j SS). split; intros (A & k & B & C); (split; [now apply CI|exists k; split; [now apply CI|exact C]]). }
  assert (PA : forall j, In j (removelast js) -> passes times alts goal j (ctime times alts goal rising j)).
  { intros j I. apply RI in I as (A & k & (K & _) & L). apply ctime_passes; auto. lia. }
  split.
  - pose proof (removelast_sorted _ _ _ SS) as RS. set (ks := removelast js) in *. clearbody ks. clear - RS PA LEN INC. induction RS as [|k ks RS IH F]; cbn; [constructor|]. constructor; [apply IH; intros j I; apply PA; now right|]. apply Forall_forall. intros x X. apply in_map_iff in X as (j & <- & J). rewrite Forall_forall in F.
    apply (passes_order times alts goal alts goal k j); auto; apply PA; [now left|now right].
  - intros x. rewrite in_map_iff. split.
    + intros (j & <- & J). pose proof (PA j J) as P. apply RI in J as (A & k & B & C). exists j, k. auto.
    + intros (j & k & A & B & C & P). assert (J : In j (removelast js)) by (apply RI; split; [exact A|exists k; auto]). exists j. split; [|exact J]. eapply passes_unique; [exact A|now apply PA|exact P].
Qed.
Print Assumptions C115_passages.

Ltac decide_lt := unfold ltb; repeat match goal with |- context [Rlt_dec ?a ?b] => destruct (Rlt_dec a b); [first [exfalso; lra | idtac]|first [exfalso; lra | idtac]] end.
Example C115_passages_ex : alt_passing_interp [0; 1; 2; 3; 4; 5] [-3; 1; -1; -1; 1; 1] 0 true = Ok [1 * (1 - (0 - 1) / (-3 - 1)) + 0 * (0 - 1) / (-3 - 1)] /\ 1 * (1 - (0 - 1) / (-3 - 1)) + 0 * (0 - 1) / (-3 - 1) = 3 / 4.
Proof.
  split; [|field]. rewrite interp_ok by reflexivity. replace (crossings [-3; 1; -1; -1; 1; 1] 0 true) with [0; 3]%nat; [reflexivity|]. unfold crossings. cbn [length seq filter]. cbn [nth Nat.modulo Nat.divmod snd Nat.sub]. decide_lt. reflexivity.
Qed.

(** The last passage is left out also where it is well inside the grid. *)
Theorem C115_last_refuted : forall times alts goal rising j, length times = length alts -> increasing times -> step alts goal rising j -> (S j < length alts)%nat -> (forall k, (j < k)%nat -> ~ step alts goal rising k) ->
  exists x l, passes times alts goal j x /\ alt_passing_interp times alts goal rising = Ok l /\ ~ In x l.
Proof.
  intros times alts goal rising j LEN INC ST N LAST. destruct (C115_passages times alts goal rising LEN INC) as [(NO & _)|(_ & l & E & _ & IN)]; [destruct (NO j ST)|].
  exists (ctime times alts goal rising j), l. pose proof (ctime_passes times alts goal rising j LEN INC ST N) as P. split; [exact P|]. split; [exact E|]. intros I. apply IN in I as (i & k & A & B & C & Q).
  destruct (Nat.lt_trichotomy i j) as [L|[->|L]]; [|exact (LAST k C B)|exact (LAST i L A)]. pose proof (passes_order times alts goal alts goal i j _ _ LEN LEN INC L Q P). lra.
Qed.
Print Assumptions C115_last_refuted.

(** One sunrise in the middle of the grid, and none is given. *)
Example C115_last_ex : alt_passing_interp [0; 1; 2; 3] [-1; -1; 1; 1] 0 true = Ok [].
Proof. rewrite interp_ok by reflexivity. replace (crossings [-1; -1; 1; 1] 0 true) with [1]%nat; [reflexivity|]. unfold crossings. cbn [length seq filter nth Nat.modulo Nat.divmod snd Nat.sub]. decide_lt. reflexivity. Qed.

(** A passage that has the goal exactly at a time of the grid is not seen. *)
Theorem C115_exact_refuted : alt_passing_interp [0; 1; 2] [-1; 0; 1] 0 true = Raise ValueError.
Proof. rewrite interp_ok by reflexivity. replace (crossings [-1; 0; 1] 0 true) with (@nil nat); [reflexivity|]. unfold crossings. cbn [length seq filter nth Nat.modulo Nat.divmod snd Nat.sub]. decide_lt. reflexivity. Qed.
Print Assumptions C115_exact_refuted.

(** ** The table *)
Lemma ss_lt : forall S p i, StronglySorted Rlt S -> (i < length S)%nat -> (nth i S 0 < p <-> (i < searchsorted S p)%nat).
Proof.
  intros S0 p i H. revert i. induction H as [|x l H IH F]; intros i L; [cbn in L; lia|]. unfold searchsorted in *. cbn [filter]. rewrite Forall_forall in F. destruct (ltb x p) eqn:B.
  - apply ltb_lt in B. cbn [length]. destruct i as [|i]; cbn [nth]; [split; intros; [lia|exact B]|]. cbn [length] in L. rewrite IH by lia. lia.
  - assert (NB : ~ x < p) by (intros C; apply ltb_lt in C; congruence). assert (Z : length (filter (fun y => ltb y p) l) = 0%nat).
    { destruct (filter (fun y => ltb y p) l) as [|y ys] eqn:E; [reflexivity|]. assert (I : In y (filter (fun y => ltb y p) l)) by (rewrite E; now left). apply filter_In in I as (I & C). apply ltb_lt in C. specialize (F y I). lra. }
    rewrite Z. split; [|lia]. intros C. destruct i as [|i]; cbn [nth] in C; [contradiction|]. cbn [length] in L. assert (L' : (i < length l)%nat) by lia. specialize (F (nth i l 0) (nth_In l 0 L')). lra.
Qed.
Lemma ss_le : forall S p, (searchsorted S p <= length S)%nat.
Proof. intros S0 p. unfold searchsorted. induction S0 as [|x l IH]; cbn; [lia|]. destruct (ltb x p); cbn; lia. Qed.
Lemma set_length : forall l i x, length (set i x l) = length l.
Proof. intros l. induction l as [|y l IH]; intros [|i] x; cbn; auto. Qed.
Lemma set_nth : forall l i k x, (k < length l)%nat -> nth i (set k x l) 0 = if Nat.eqb i k then x else nth i l 0.
Proof.
  intros l. induction l as [|y l IH]; intros i k x L; [cbn in L; lia|]. destruct k as [|k], i as [|i]; cbn; try reflexivity. cbn in L. apply IH. lia.
Qed.
Lemma fill_spec : forall S P i, (1 <= i)%nat -> (i < length S)%nat ->
  (In (nth i (fill S P) 0) P /\ searchsorted S (nth i (fill S P) 0) = Datatypes.S i) \/ (nth i (fill S P) 0 = 0 /\ forall p, In p P -> searchsorted S p <> Datatypes.S i).
Proof.
  intros S0 P i I L. unfold fill. set (st := fun col p => _). assert (G : forall Q col, length col = length S0 -> length (fold_left st Q col) = length S0 /\
    ((In (nth i (fold_left st Q col) 0) Q /\ searchsorted S0 (nth i (fold_left st Q col) 0) = Datatypes.S i) \/ (nth i (fold_left st Q col) 0 = nth i col 0 /\ forall p, In p Q -> searchsorted S0 p <> Datatypes.S i))).
  { intros Q. induction Q as [|p Q IH]; intros col LC; cbn [fold_left]; [split; [exact LC|right; split; [reflexivity|intros p []]]|].
    assert (LS : length (st col p) = length S0) by (unfold st; destruct (Z.ltb_spec 0 (Z.of_nat (searchsorted S0 p) - 1)); [rewrite set_length|]; exact LC).
    destruct (IH (st col p) LS) as (LF & [(A & B)|(A & B)]); (split; [exact LF|]); [left; split; [now right|exact B]|].
    destruct (Nat.eq_dec (searchsorted S0 p) (Datatypes.S i)) as [E|N].
    - left. assert (V : nth i (st col p) 0 = p). { unfold st. rewrite E. destruct (Z.ltb_spec 0 (Z.of_nat (Datatypes.S i) - 1)); [|lia]. replace (Z.to_nat (Z.of_nat (Datatypes.S i) - 1)) with i by lia. rewrite set_nth by lia. now rewrite Nat.eqb_refl. }
      rewrite A, V. split; [now left|exact E].
    - right. split; [|intros q [<-|J]; [exact N|now apply B]]. rewrite A. unfold st. destruct (Z.ltb_spec 0 (Z.of_nat (searchsorted S0 p) - 1)); [|reflexivity]. pose proof (ss_le S0 p). rewrite set_nth by lia. destruct (Nat.eqb_spec i (Z.to_nat (Z.of_nat (searchsorted S0 p) - 1))); [lia|reflexivity]. }
  destruct (G P (repeat 0 (length S0))) as (_ & [H|(A & B)]); [apply repeat_length|now left|]. right. split; [|exact B]. rewrite A. apply nth_repeat.
Qed.

Lemma rows_cut : forall A (f : nat -> A) (p : A -> bool) n a, (a < n)%nat -> (forall i, p (f i) = Nat.leb a i) -> removelast (filter p (map f (seq 0 n))) = map f (seq a (n - 1 - a)).
Proof.
  intros A f p n a L P. replace n with (Datatypes.S (n - 1)) by lia. rewrite seq_S, map_app, filter_app. cbn [Nat.add map filter]. rewrite P. destruct (Nat.leb_spec a (n - 1)); [|lia]. rewrite removelast_last. replace (Datatypes.S (n - 1) - 1 - a)%nat with (n - 1 - a)%nat by lia.
  replace (seq 0 (n - 1)) with (seq 0 a ++ seq a (n - 1 - a)) by (rewrite <- seq_app; f_equal; lia). rewrite map_app, filter_app.
  replace (filter p (map f (seq 0 a))) with (@nil A). 2:{ symmetry. assert (Q : forall l, (forall x, In x l -> (x < a)%nat) -> filter p (map f l) = []); [|apply Q; intros x I; apply in_seq in I; lia]. intros l. induction l as [|x l IH]; intros H'; [reflexivity|]. cbn. rewrite P. destruct (Nat.leb_spec a x); [specialize (H' x (or_introl eq_refl)); lia|]. apply IH. intros y Y. apply H'. now right. }
  cbn [app]. assert (Q : forall l, (forall x, In x l -> (a <= x)%nat) -> filter p (map f l) = map f l); [|apply Q; intros x I; apply in_seq in I; lia]. intros l. induction l as [|x l IH]; intros H'; [reflexivity|]. cbn. rewrite P. destruct (Nat.leb_spec a x); [|specialize (H' x (or_introl eq_refl)); lia]. f_equal. apply IH. intros y Y. apply H'. now right.
Qed.

(** The columns and the passages they are filled from. *)
Definition columns (sun moon : list R) : list ((row -> R) * (list R * R * bool)) :=
  [(n12_setting, (sun, -12, false)); (n18_setting, (sun, -18, false)); (n18_rising, (sun, -18, true)); (n12_rising, (sun, -12, true)); (sunrise, (sun, 0, true)); (moonrise, (moon, 0, true)); (moonset, (moon, 0, false))].
Lemma table : forall mjd_start times sun moon rows, rough_nights mjd_start times sun moon = Ok rows ->
  exists sunsets, alt_passing_interp times sun 0 false = Ok sunsets /\ (searchsorted sunsets mjd_start < length sunsets)%nat /\
  length rows = (length sunsets - 1 - searchsorted sunsets mjd_start)%nat /\
  (forall k r, nth_error rows k = Some r -> let i := (searchsorted sunsets mjd_start + k)%nat in night r = Z.of_nat (S k) /\ sunset r = nth i sunsets 0 /\
     (forall f alts goal rising, In (f, (alts, goal, rising)) (columns sun moon) -> exists points, alt_passing_interp times alts goal rising = Ok points /\ f r = nth i (fill sunsets points) 0)).
Proof.
  intros mjd_start times sun moon rows H. unfold rough_nights in H. destruct (alt_passing_interp times sun 0 false) as [sunsets|] eqn:E0; [|discriminate]. cbn [bind] in H. set (a := searchsorted sunsets mjd_start) in *.
  destruct (Nat.leb_spec (length sunsets) a) as [|L]; [discriminate|].
  destruct (alt_passing_interp times sun 0 true) as [p1|] eqn:E1; [|discriminate]. destruct (alt_passing_interp times sun (-12) false) as [p2|] eqn:E2; [|discriminate]. destruct (alt_passing_interp times sun (-12) true) as [p3|] eqn:E3; [|discriminate].
  destruct (alt_passing_interp times sun (-18) true) as [p4|] eqn:E4; [|discriminate]. destruct (alt_passing_interp times sun (-18) false) as [p5|] eqn:E5; [|discriminate]. destruct (alt_passing_interp times moon 0 true) as [p6|] eqn:E6; [|discriminate]. destruct (alt_passing_interp times moon 0 false) as [p7|] eqn:E7; [|discriminate].
  cbn [bind] in H. assert (EQ : forall u v : list row, Ok u = Ok v -> v = u) by (intros u v Q; now injection Q). apply EQ in H. subst rows. clear EQ. exists sunsets. split; [reflexivity|]. split; [exact L|]. rewrite (rows_cut _ _ _ _ a L). 2:{ intros i. cbn [night]. destruct (Z.ltb_spec 0 (Z.of_nat i + (1 - Z.of_nat a))), (Nat.leb_spec a i); try reflexivity; lia. }
  split; [rewrite map_length, seq_length; reflexivity|]. intros k r K. rewrite nth_error_map in K. destruct (nth_error (seq a (length sunsets - 1 - a)) k) as [i|] eqn:EK; [|discriminate]. cbn [option_map] in K. assert (EQ : forall u v : row, Some u = Some v -> v = u) by (intros u v Q; now injection Q). apply EQ in K. subst r. clear EQ.
  assert (i = a + k)%nat. { assert (KL : (k < length (seq a (length sunsets - 1 - a)))%nat) by (apply nth_error_Some; congruence). rewrite seq_length in KL. apply (nth_error_nth _ _ 0%nat) in EK. rewrite seq_nth in EK by lia. lia. }
  subst i. cbv zeta. split; [cbv beta iota delta [night]; lia|]. split; [reflexivity|]. intros f alts goal rising I. unfold columns in I. cbn [In] in I.
  repeat (destruct I as [I|I]; [injection I as <- <- <- <-; eexists; split; [eassumption|reflexivity]|]). destruct I.
Qed.

(** Nights are numbered from 1; their sunsets are the passages given from mjd_start on, in order, but
    the last. *)
Theorem C115_nights : forall mjd_start times sun moon rows sunsets, length times = length sun -> increasing times -> rough_nights mjd_start times sun moon = Ok rows -> alt_passing_interp times sun 0 false = Ok sunsets ->
  map night rows = map Z.of_nat (seq 1 (length rows)) /\ map sunset rows = removelast (filter (fun s => if Rle_dec mjd_start s then true else false) sunsets).
Proof.
  intros mjd_start times sun moon rows sunsets LEN INC H ES. destruct (table _ _ _ _ _ H) as (sunsets' & E & L & RL & T). rewrite ES in E. injection E as <-. set (a := searchsorted sunsets mjd_start) in *. split.
  - apply nth_ext with (d := 0%Z) (d' := 0%Z); [rewrite !map_length, seq_length; reflexivity|]. intros k K. rewrite map_length in K. destruct (nth_error rows k) as [r|] eqn:ER; [|apply nth_error_None in ER; lia]. destruct (T k r ER) as (N & _).
    rewrite (nth_indep _ _ (night r)) by (rewrite map_length; exact K). rewrite map_nth. rewrite (nth_error_nth _ _ _ ER). rewrite (nth_indep _ 0%Z (Z.of_nat 0)) by (rewrite map_length, seq_length; exact K). rewrite map_nth, seq_nth by exact K. lia.
  - destruct (C115_passages times sun 0 false LEN INC) as [(_ & F)|(_ & l & F & SS & _)]; [congruence|]. rewrite ES in F. injection F as <-.
    assert (FE : filter (fun s => if Rle_dec mjd_start s then true else false) sunsets = skipn a sunsets).
    { unfold a. clear - SS. induction SS as [|x l SS IH FA]; [reflexivity|]. unfold searchsorted in *. cbn [filter]. destruct (Rle_dec mjd_start x) as [C|C].
      - assert (B : ltb x mjd_start = false) by (unfold ltb; destruct (Rlt_dec x mjd_start); [lra|reflexivity]). rewrite B. rewrite Forall_forall in FA. replace (length (filter (fun y => ltb y mjd_start) l)) with 0%nat in *.
        + cbn [skipn] in *. now rewrite IH.
        + destruct (filter (fun y => ltb y mjd_start) l) as [|y ys] eqn:EE; [reflexivity|]. assert (I : In y (filter (fun y => ltb y mjd_start) l)) by (rewrite EE; now left). apply filter_In in I as (I & D). apply ltb_lt in D. specialize (FA y I). lra.
      - assert (B : ltb x mjd_start = true) by (apply ltb_lt; lra). rewrite B. cbn [length skipn]. exact IH. }
    rewrite FE. assert (RM : forall (l : list R) n, removelast (skipn n l) = firstn (length l - 1 - n) (skipn n l)).
    { clear. intros l n. rewrite removelast_firstn_len. rewrite skipn_length. f_equal. lia. }
    rewrite RM. apply nth_ext with (d := 0) (d' := 0); [rewrite map_length, firstn_length, skipn_length, RL; lia|]. intros k K. rewrite map_length in K. destruct (nth_error rows k) as [r|] eqn:ER; [|apply nth_error_None in ER; lia]. destruct (T k r ER) as (_ & S0 & _).
    rewrite (nth_indep _ _ (sunset r)) by (rewrite map_length; exact K). rewrite map_nth. rewrite (nth_error_nth _ _ _ ER). rewrite S0.
    replace (nth (a + k) sunsets 0) with (nth k (skipn a sunsets) 0).
    + rewrite <- (firstn_skipn (length sunsets - 1 - a) (skipn a sunsets)) at 1. apply app_nth1. rewrite firstn_length, skipn_length. lia.
    + rewrite <- (firstn_skipn a sunsets) at 2. rewrite app_nth2; [|rewrite firstn_length; lia]. f_equal. rewrite firstn_length. lia.
Qed.
Print Assumptions C115_nights.

Lemma sorted_nth : forall l i j, StronglySorted Rlt l -> (i < j)%nat -> (j < length l)%nat -> nth i l 0 < nth j l 0.
Proof.
  intros l i j H. revert i j. induction H as [|x l H IH F]; intros i j L M; [cbn in M; lia|]. destruct j as [|j]; [lia|]. cbn [length] in M. assert (M' : (j < length l)%nat) by lia. destruct i as [|i]; cbn [nth]; [|apply IH; lia]. rewrite Forall_forall in F. apply F. now apply nth_In.
Qed.
Lemma ss_eq : forall S p i, StronglySorted Rlt S -> (Datatypes.S i < length S)%nat -> (searchsorted S p = Datatypes.S i <-> nth i S 0 < p <= nth (Datatypes.S i) S 0).
Proof.
  intros S0 p i H L. pose proof (ss_lt S0 p i H ltac:(lia)) as A. pose proof (ss_lt S0 p (Datatypes.S i) H L) as B. split.
  - intros E. rewrite E in A, B. split; [apply A; lia|]. destruct (Rle_dec p (nth (Datatypes.S i) S0 0)) as [C|C]; [exact C|]. assert (D : nth (Datatypes.S i) S0 0 < p) by lra. apply B in D. lia.
  - intros (C & D). apply A in C. assert (N : ~ (Datatypes.S i < searchsorted S0 p)%nat) by (intros Q; apply B in Q; lra). lia.
Qed.
Lemma started : forall S m s, StronglySorted Rlt S -> In s S -> s < m -> (1 <= searchsorted S m)%nat.
Proof.
  intros S0 m s H I L. destruct (In_nth S0 s 0 I) as (j & J & E). subst s. apply (ss_lt S0 m j H J) in L. lia.
Qed.

(** An entry of a night is one of its column's passages, after the sunset of that night and not after
    any later sunset; it is 0 exactly where that night has none. *)
Theorem C115_entries : forall mjd_start times sun moon rows sunsets r f alts goal rising points, length times = length sun -> increasing times -> rough_nights mjd_start times sun moon = Ok rows -> alt_passing_interp times sun 0 false = Ok sunsets ->
  (exists s, In s sunsets /\ s < mjd_start) -> In r rows -> In (f, (alts, goal, rising)) (columns sun moon) -> alt_passing_interp times alts goal rising = Ok points ->
  (In (f r) points /\ sunset r < f r /\ forall s, In s sunsets -> sunset r < s -> f r <= s) \/
  (f r = 0 /\ forall p, In p points -> sunset r < p -> exists s, In s sunsets /\ sunset r < s < p).
Proof.
  intros mjd_start times sun moon rows sunsets r f alts goal rising points LEN INC H ES (s0 & I0 & L0) IR IC EP. destruct (table _ _ _ _ _ H) as (sunsets' & E & L & RL & T). rewrite ES in E. injection E as <-.
  destruct (C115_passages times sun 0 false LEN INC) as [(_ & F)|(_ & l & F & SS & _)]; [congruence|]. rewrite ES in F. injection F as <-. pose proof (started _ _ _ SS I0 L0) as A1. set (a := searchsorted sunsets mjd_start) in *.
  apply In_nth_error in IR as (k & K). assert (KL : (k < length rows)%nat) by (apply nth_error_Some; congruence). destruct (T k r K) as (_ & SR & C). destruct (C f alts goal rising IC) as (points' & EP' & V). rewrite EP in EP'. injection EP' as <-. set (i := (a + k)%nat) in *. assert (IL : (S i < length sunsets)%nat) by lia. assert (I1 : (1 <= i)%nat) by lia.
  pose proof (sorted_nth sunsets i (S i) SS ltac:(lia) IL) as NX. destruct (fill_spec sunsets points i I1 ltac:(lia)) as [(P & Q)|(Z & Q)]; rewrite <- V in *; rewrite SR.
  - left. apply ss_eq in Q; [|exact SS|exact IL]. split; [exact P|]. split; [lra|]. intros s I B. destruct (In_nth sunsets s 0 I) as (j & J & <-). destruct (Nat.lt_trichotomy j (S i)) as [D|[->|D]]; [|lra|pose proof (sorted_nth sunsets (S i) j SS D J); lra].
    destruct (Nat.eq_dec j i) as [->|N]; [lra|]. pose proof (sorted_nth sunsets j i SS ltac:(lia) ltac:(lia)). lra.
  - right. split; [exact Z|]. intros p I B. exists (nth (S i) sunsets 0). split; [now apply nth_In|]. split; [exact NX|]. destruct (Rlt_dec (nth (S i) sunsets 0) p) as [D|D]; [exact D|]. exfalso. apply (Q p I). apply ss_eq; [exact SS|exact IL|lra].
Qed.
Print Assumptions C115_entries.

(** A night without a moonrise has its moonrise at time 0. *)
Theorem C115_missing_refuted : forall mjd_start times sun moon rows sunsets moonrises r, length times = length sun -> increasing times -> rough_nights mjd_start times sun moon = Ok rows -> alt_passing_interp times sun 0 false = Ok sunsets -> alt_passing_interp times moon 0 true = Ok moonrises ->
  (exists s, In s sunsets /\ s < mjd_start) -> In r rows -> (exists s, In s sunsets /\ sunset r < s /\ forall p, In p moonrises -> ~ sunset r < p <= s) -> moonrise r = 0.
Proof.
  intros mjd_start times sun moon rows sunsets moonrises r LEN INC H ES EM B IR (s & IS & LS & NO). destruct (C115_entries mjd_start times sun moon rows sunsets r moonrise moon 0 true moonrises LEN INC H ES B IR ltac:(unfold columns; cbn; tauto) EM) as [(P & Q & M)|(Z & _)]; [|exact Z].
  exfalso. apply (NO _ P). split; [exact Q|]. now apply M.
Qed.
Print Assumptions C115_missing_refuted.

(** Between two settings the sun rises. *)
Lemma rises : forall alts i n, (forall x, In x alts -> x <> 0) -> (i + n < length alts)%nat -> nth i alts 0 < 0 -> 0 < nth (i + n) alts 0 -> exists m, (i <= m < i + n)%nat /\ nth m alts 0 < 0 < nth (S m) alts 0.
Proof.
  intros alts i n NZ. revert i. induction n as [|n IH]; intros i L A B; [rewrite Nat.add_0_r in B; lra|]. assert (L' : (S i < length alts)%nat) by lia. pose proof (NZ _ (nth_In alts 0 L')) as N. destruct (Rlt_dec 0 (nth (S i) alts 0)) as [C|C]; [exists i; split; [lia|lra]|].
  destruct (IH (S i)) as (m & M & P); [lia|lra|replace (S i + n)%nat with (i + S n)%nat by lia; exact B|]. exists m. split; [lia|exact P].
Qed.
Lemma rises_between : forall alts j k, (forall x, In x alts -> x <> 0) -> step alts 0 false j -> step alts 0 false k -> (j < k)%nat -> exists m, (j < m < k)%nat /\ step alts 0 true m.
Proof.
  intros alts j k NZ (L & A) (M & B) JK. cbv zeta in A, B. destruct (Nat.eqb_spec (S j) (length alts)); [lia|]. assert (KB : 0 < nth k alts 0) by lra. assert (JA : nth (S j) alts 0 < 0) by lra. clear A B. destruct (Nat.eq_dec (S j) k) as [<-|N]; [lra|].
  destruct (rises alts (S j) (k - S j) NZ) as (m & R1 & R2); [lia|exact JA|replace (S j + (k - S j))%nat with k by lia; exact KB|]. exists m. split; [lia|]. split; [lia|]. cbv zeta. destruct (Nat.eqb_spec (S m) (length alts)); [lia|]. exact R2.
Qed.
(** If the altitude of the sun is never exactly 0 on the grid, every night has a sunrise, and it is
    after its sunset and before the next one. *)
Theorem C115_sunrise : forall mjd_start times sun moon rows sunsets r, length times = length sun -> increasing times -> (forall x, In x sun -> x <> 0) -> rough_nights mjd_start times sun moon = Ok rows -> alt_passing_interp times sun 0 false = Ok sunsets ->
  (exists s, In s sunsets /\ s < mjd_start) -> In r rows -> (exists j, step sun 0 true j /\ passes times sun 0 j (sunrise r)) /\ sunset r < sunrise r /\ forall s, In s sunsets -> sunset r < s -> sunrise r < s.
Proof.
  intros mjd_start times sun moon rows sunsets r LEN INC NZ H ES B IR. destruct (table _ _ _ _ _ H) as (sunsets' & E & L & RL & T). rewrite ES in E. injection E as <-.
  destruct (C115_passages times sun 0 false LEN INC) as [(_ & F)|(_ & l & F & SS & IN)]; [congruence|]. rewrite ES in F. injection F as <-. set (a := searchsorted sunsets mjd_start) in *.
  apply In_nth_error in IR as (k & K). assert (KL : (k < length rows)%nat) by (apply nth_error_Some; congruence). destruct (T k r K) as (_ & SR & C). destruct (C sunrise sun 0 true ltac:(unfold columns; cbn; tauto)) as (points & EP & _). set (i := (a + k)%nat) in *. assert (IL : (S i < length sunsets)%nat) by lia.
  destruct (C115_entries mjd_start times sun moon rows sunsets r sunrise sun 0 true points LEN INC H ES B (nth_error_In _ _ K) ltac:(unfold columns; cbn; tauto) EP) as [(P & Q & M)|(_ & NO)].
  - destruct (C115_passages times sun 0 true LEN INC) as [(_ & F)|(_ & l & F & _ & INP)]; [congruence|]. rewrite EP in F. injection F as <-. apply INP in P as (j & j' & ST & ST' & JJ & PA). split; [exists j; auto|]. split; [exact Q|]. intros s I LS. specialize (M s I LS). destruct (Rle_lt_or_eq_dec _ _ M) as [D|D]; [exact D|]. exfalso.
    apply IN in I as (m & m' & SM & _ & _ & PM). destruct (Nat.lt_trichotomy j m) as [O|[->|O]].
    + pose proof (passes_order times sun 0 sun 0 j m _ _ LEN LEN INC O PA PM). lra.
    + destruct ST as (_ & ST), SM as (_ & SM). cbv zeta in ST, SM. lra.
    + pose proof (passes_order times sun 0 sun 0 m j _ _ LEN LEN INC O PM PA). lra.
  - exfalso. pose proof (sorted_nth sunsets i (S i) SS ltac:(lia) IL) as NX. assert (IL' : (i < length sunsets)%nat) by lia. pose proof (nth_In sunsets 0 IL') as J1. pose proof (nth_In sunsets 0 IL) as J2. apply IN in J1 as (j1 & _ & S1 & _ & _ & P1). apply IN in J2 as (j2 & j3 & S2 & S3 & L23 & P2).
    assert (L12 : (j1 < j2)%nat). { destruct (Nat.lt_trichotomy j1 j2) as [O|[O|O]]; [exact O|subst j2; pose proof (passes_unique _ _ _ _ _ _ _ S1 P1 P2); lra|pose proof (passes_order times sun 0 sun 0 _ _ _ _ LEN LEN INC O P2 P1); lra]. }
    destruct (rises_between sun j1 j2 NZ S1 S2 L12) as (m & M1 & SM). destruct (rises_between sun j2 j3 NZ S2 S3 L23) as (m' & M2 & SM'). assert (ML : (S m < length sun)%nat) by (destruct S2 as (S2 & _); lia). pose proof (ctime_passes times sun 0 true m LEN INC SM ML) as PM.
    destruct (C115_passages times sun 0 true LEN INC) as [(_ & F)|(_ & l & F & _ & INP)]; [congruence|]. rewrite EP in F. injection F as <-. assert (IM : In (ctime times sun 0 true m) points) by (apply INP; exists m, m'; split; [exact SM|]; split; [exact SM'|]; split; [lia|exact PM]).
    pose proof (passes_order times sun 0 sun 0 j1 m _ _ LEN LEN INC ltac:(lia) P1 PM) as O1. pose proof (passes_order times sun 0 sun 0 m j2 _ _ LEN LEN INC ltac:(lia) PM P2) as O2. destruct (NO _ IM) as (s & I & B1 & B2); [rewrite SR; exact O1|].
    rewrite SR in B1. destruct (In_nth sunsets s 0 I) as (q & QL & <-). destruct (Nat.le_gt_cases q i) as [D|D]; [destruct (Nat.eq_dec q i) as [->|N]; [lra|pose proof (sorted_nth sunsets q i SS ltac:(lia) IL'); lra]|]. destruct (Nat.eq_dec q (S i)) as [->|N]; [lra|]. pose proof (sorted_nth sunsets (S i) q SS ltac:(lia) QL). lra.
Qed.
Print Assumptions C115_sunrise.

(** Four days and nights, the moon up for the first and fourth: mjd_start is after the first sunset,
    the second night has times of its own and no moon. *)
Definition ex_times : list R := [0; 1; 2; 3; 4; 5; 6; 7; 8].
Definition ex_sun : list R := [1; -20; 1; -20; 1; -20; 1; -20; 1].
Definition ex_moon : list R := [1; -1; -1; -1; -1; -1; 1; -1; 1].
Lemma ex_down : forall g, -20 < g < 1 -> crossings ex_sun g false = [0; 2; 4; 6]%nat.
Proof. intros g H. unfold crossings, ex_sun. cbn [length seq filter nth Nat.modulo Nat.divmod snd Nat.sub]. decide_lt. reflexivity. Qed.
Lemma ex_up : forall g, -20 < g < 1 -> crossings ex_sun g true = [1; 3; 5; 7]%nat.
Proof. intros g H. unfold crossings, ex_sun. cbn [length seq filter nth Nat.modulo Nat.divmod snd Nat.sub]. decide_lt. reflexivity. Qed.
Lemma ex_mup : crossings ex_moon 0 true = [5; 7]%nat.
Proof. unfold crossings, ex_moon. cbn [length seq filter nth Nat.modulo Nat.divmod snd Nat.sub]. decide_lt. reflexivity. Qed.
Lemma ex_mdown : crossings ex_moon 0 false = [0; 6]%nat.
Proof. unfold crossings, ex_moon. cbn [length seq filter nth Nat.modulo Nat.divmod snd Nat.sub]. decide_lt. reflexivity. Qed.
Lemma ex_increasing : increasing ex_times.
Proof.
  intros i j L M. unfold ex_times in *. cbn [length] in M. do 9 (destruct j as [|j]; [do 9 (destruct i as [|i]; [cbn [nth]; first [lra|lia]|]); lia|]). lia.
Qed.
Example C115_table_ex : exists r, rough_nights 1 ex_times ex_sun ex_moon = Ok [r] /\ night r = 1%Z /\ 2 < sunset r < n12_setting r /\ n12_setting r < n18_setting r < n18_rising r /\ n18_rising r < n12_rising r < sunrise r /\ sunrise r < 4 /\ moonrise r = 0 /\ moonset r = 0.
Proof.
  unfold rough_nights. rewrite !interp_ok by reflexivity. rewrite !ex_down, !ex_up, ex_mup, ex_mdown by lra. cbn [bind removelast map]. unfold searchsorted, ctime, lin_interp, ex_times, ex_sun, ex_moon. cbn [nth filter]. decide_lt. cbn [length Nat.leb]. unfold fill, searchsorted. cbn [fold_left filter]. decide_lt. cbn [length repeat].
  cbn [Z.of_nat Pos.of_succ_nat Pos.succ Z.sub Z.opp Z.add Z.pos_sub Pos.pred_double Z.ltb Z.compare Z.to_nat Pos.to_nat Pos.iter_op Nat.add set seq map nth night filter removelast Pos.compare Pos.compare_cont]. eexists. split; [reflexivity|]. cbn [night sunset n12_setting n18_setting n18_rising n12_rising sunrise moonrise moonset]. change (Pos.to_nat 1) with 1%nat. change (Pos.to_nat 2) with 2%nat. cbn [set nth]. repeat split; try reflexivity; lra.
Qed.
