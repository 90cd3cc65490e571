(** C125: scheduled downtimes read from a database. *)
From Coq Require Import List ZArith QArith Bool String Lia Lqa Permutation.
From Verif Require Import Base Bisect SchedDown.
Import ListNotations.
Open Scope nat_scope.

(** ** What the table means: the nights lost, counted from 1 January. *)
Definition lost (table : list row) (n : Z) : Prop := exists r, In r table /\ (r_night r <= n < r_night r + r_days r)%Z.
(** Downtimes one after the other. *)
Definition in_order (table : list row) : Prop :=
  (forall r, In r table -> (0 < r_days r)%Z) /\
  (forall i j a b, i < j -> nth_error table i = Some a -> nth_error table j = Some b -> (r_night a + r_days a <= r_night b)%Z).

Lemma Qltb_lt : forall x y, Qltb x y = true <-> (x < y)%Q.
Proof. intros x y. unfold Qltb. rewrite negb_true_iff. split; intro H; [apply Qnot_le_lt; intro E; apply Qle_bool_iff in E; congruence|]. destruct (Qle_bool y x) eqn:E; [|reflexivity]. apply Qle_bool_iff in E. lra. Qed.
Lemma Qle_bool_false : forall x y, Qle_bool x y = false -> (y < x)%Q.
Proof. intros x y H. apply Qnot_le_lt. intro E. apply Qle_bool_iff in E. congruence. Qed.
Lemma ss_map : forall (f : down -> Q) l t, (forall i j a b, i <= j -> nth_error l i = Some a -> nth_error l j = Some b -> (f a <= f b)%Q) ->
  let k := searchsorted (fun x => Qle_bool x t) 0%Q (map f l) in
  k <= List.length l /\ (forall i d, i < k -> nth_error l i = Some d -> (f d <= t)%Q) /\ (forall i d, k <= i -> nth_error l i = Some d -> (t < f d)%Q).
Proof.
  intros f l t O. assert (P : parted (fun x => Qle_bool x t) (map f l)).
  { intros i j x y Hij Hx Hy E. rewrite nth_error_map in Hx, Hy. destruct (nth_error l i) as [a|] eqn:A; [|discriminate]. destruct (nth_error l j) as [b|] eqn:B; [|discriminate].
    injection Hx as <-. injection Hy as <-. apply Qle_bool_iff in E. apply Qle_bool_iff. specialize (O i j a b Hij A B). lra. }
  destruct (searchsorted_ok _ 0%Q _ P) as (R1 & R2 & R3). rewrite map_length in R1. cbv zeta. split; [exact R1|]. split.
  - intros i d H E. apply Qle_bool_iff. apply (R2 i); [exact H|]. rewrite nth_error_map, E. reflexivity.
  - intros i d H E. apply Qle_bool_false. apply (R3 i); [exact H|]. rewrite nth_error_map, E. reflexivity.
Qed.
Lemma skip_filter : forall A (p : A -> bool) l k, (forall i d, i < k -> nth_error l i = Some d -> p d = false) ->
  (forall i d, k <= i -> nth_error l i = Some d -> p d = true) -> skipn k l = filter p l.
Proof.
  intros A p. induction l as [|x r IH]; intros k H1 H2; [destruct k; reflexivity|]. destruct k as [|k].
  - cbn [skipn filter]. rewrite (H2 0 x) by (auto; lia). f_equal. rewrite <- (IH 0); [reflexivity|intros; lia|].
    intros i d _ E. apply (H2 (S i)); [lia|exact E].
  - cbn [skipn filter]. rewrite (H1 0 x) by (auto; lia). apply IH.
    + intros i d Hi E. apply (H1 (S i)); [lia|exact E].
    + intros i d Hi E. apply (H2 (S i)); [lia|exact E].
Qed.

(** ** The calendar and the rows. *)
(** Years have 366 days if divisible by 4 and not by 100, or by 400, and 365 otherwise; 1 January 2000 is 51544. *)
Theorem C125_calendar : jan1 2000 = 51544%Z /\ forall y,
  ((y mod 4 = 0 /\ y mod 100 <> 0) \/ y mod 400 = 0 -> jan1 (y + 1) = jan1 y + 366)%Z /\
  (~ ((y mod 4 = 0 /\ y mod 100 <> 0) \/ y mod 400 = 0) -> jan1 (y + 1) = jan1 y + 365)%Z.
Proof.
  split; [reflexivity|]. intro y. unfold jan1. replace (y + 1 - 1)%Z with y by ring.
  assert (D : forall k, (0 < k)%Z -> ((y mod k = 0 -> y / k = (y - 1) / k + 1) /\ (y mod k <> 0 -> y / k = (y - 1) / k))%Z).
  { intros k K. pose proof (Z.div_mod y k ltac:(lia)) as E. pose proof (Z.mod_pos_bound y k K) as B. split; intro M.
    - replace ((y - 1) / k)%Z with (y / k - 1)%Z; [ring|]. apply Z.div_unique with (k - 1)%Z; [left; lia|]. rewrite M in E. rewrite E at 1. ring.
    - apply Z.div_unique with (y mod k - 1)%Z; [left; lia|]. rewrite E at 1. ring. }
  assert (M4 : (y mod 100 = 0 -> y mod 4 = 0)%Z) by (intro H; apply Z.mod_divide in H; [|lia]; apply Z.mod_divide; [lia|]; apply Z.divide_trans with 100%Z; [exists 25%Z; reflexivity|exact H]).
  assert (M1 : (y mod 400 = 0 -> y mod 100 = 0)%Z) by (intro H; apply Z.mod_divide in H; [|lia]; apply Z.mod_divide; [lia|]; apply Z.divide_trans with 400%Z; [exists 4%Z; reflexivity|exact H]).
  destruct (D 4%Z ltac:(lia)) as (A1 & A2). destruct (D 100%Z ltac:(lia)) as (B1 & B2). destruct (D 400%Z ltac:(lia)) as (C1 & C2).
  destruct (Z.eq_dec (y mod 4) 0) as [E4|E4], (Z.eq_dec (y mod 100) 0) as [E1|E1], (Z.eq_dec (y mod 400) 0) as [E0|E0]; try tauto;
    repeat match goal with H : ?A -> _, K : ?A |- _ => specialize (H K) end; split; intro H; try (exfalso; tauto); lia.
Qed.
Print Assumptions C125_calendar.

(** Every row is a downtime, in the order of the table: from its night, counted from the noon before 1 January of the year in which the
    simulation starts, for its days. *)
Theorem C125_rows : forall year table,
  Forall2 (fun r d => (d_start d == inject_Z (jan1 year) - (34 # 100) + inject_Z (r_night r))%Q /\ (d_end d - d_start d == inject_Z (r_days r))%Q /\ d_act d = r_act r)
    table (read_data year default_offset table).
Proof.
  intros year table. unfold read_data. induction table as [|r table IH]; constructor; [|exact IH]. cbn [read_row d_start d_end d_act]. unfold night0, default_offset. split; [ring|]. split; [ring|reflexivity].
Qed.
Print Assumptions C125_rows.

(** ** The total. *)
Definition days (r : row) : list Z := map (fun k => (r_night r + Z.of_nat k)%Z) (seq 0 (Z.to_nat (r_days r))).
Lemma in_days : forall r n, In n (days r) <-> (r_night r <= n < r_night r + r_days r)%Z.
Proof.
  intros r n. unfold days. rewrite in_map_iff. split.
  - intros (k & <- & I). apply in_seq in I. lia.
  - intro H. exists (Z.to_nat (n - r_night r)). split; [lia|]. apply in_seq. lia.
Qed.
Lemma nodup_map : forall (A B : Type) (f : A -> B) l, (forall x y, f x = f y -> x = y) -> NoDup l -> NoDup (map f l).
Proof. intros A B f l I N. induction N as [|x l H N IH]; constructor; [|exact IH]. intro K. apply in_map_iff in K. destruct K as (y & E & K). apply I in E. subst y. exact (H K). Qed.
Lemma in_order_cons : forall r table, in_order (r :: table) -> in_order table /\ (0 < r_days r)%Z /\ forall s, In s table -> (r_night r + r_days r <= r_night s)%Z.
Proof.
  intros r table (P & O). split; [split|split].
  - intros s I. apply P. right. exact I.
  - intros i j a b H A B. apply (O (S i) (S j) a b); [lia|exact A|exact B].
  - apply P. left. reflexivity.
  - intros s I. apply In_nth_error in I. destruct I as (j & E). apply (O 0 (S j) r s); [lia|reflexivity|exact E].
Qed.
Lemma nodup_days : forall table, in_order table -> NoDup (flat_map days table).
Proof.
  induction table as [|r table IH]; intro O; [constructor|]. destruct (in_order_cons _ _ O) as (O' & P & B). cbn [flat_map].
  assert (N : NoDup (days r)) by (apply nodup_map; [intros x y; lia|apply seq_NoDup]).
  assert (X : forall n, In n (days r) -> ~ In n (flat_map days table)).
  { intros n I K. apply in_flat_map in K. destruct K as (s & S1 & S2). rewrite in_days in I, S2. specialize (B s S1). lia. }
  clear B P O. induction N as [|x l H N IHN]; [exact (IH O')|]. cbn [app]. constructor.
  - rewrite in_app_iff. intros [K|K]; [exact (H K)|]. exact (X x (or_introl eq_refl) K).
  - apply IHN. intros n I. apply X. right. exact I.
Qed.
Lemma total_acc : forall l t, (fold_left (fun t d => t + (d_end d - d_start d)) l t == t + fold_right (fun d s => d_end d - d_start d + s) 0 l)%Q.
Proof. induction l as [|d l IH]; intro t; cbn [fold_left fold_right]; [ring|]. rewrite IH. ring. Qed.
Lemma total_sum : forall year off table, (total_downtime (read_data year off table) == inject_Z (fold_right Z.add 0%Z (map r_days table)))%Q.
Proof.
  intros year off table. unfold total_downtime. rewrite total_acc. rewrite Qplus_0_l. induction table as [|r table IH]; [reflexivity|]. cbn [read_data map fold_right]. unfold read_data in IH.
  rewrite IH. cbn [read_row d_start d_end]. rewrite inject_Z_plus. ring.
Qed.
Lemma length_days : forall table, (forall r, In r table -> (0 < r_days r)%Z) -> Z.of_nat (List.length (flat_map days table)) = fold_right Z.add 0%Z (map r_days table).
Proof.
  induction table as [|r table IH]; intro P; [reflexivity|]. cbn [flat_map map fold_right]. rewrite app_length, Nat2Z.inj_add, IH by (intros s I; apply P; right; exact I).
  unfold days. rewrite map_length, seq_length. specialize (P r (or_introl eq_refl)). lia.
Qed.
(** The total is the number of nights lost. *)
Theorem C125_total_partial : forall year off table nights, in_order table -> NoDup nights -> (forall n, In n nights <-> lost table n) ->
  (total_downtime (read_data year off table) == inject_Z (Z.of_nat (List.length nights)))%Q.
Proof.
  intros year off table nights O N M. rewrite total_sum, <- (length_days table (proj1 O)).
  replace (List.length nights) with (List.length (flat_map days table)); [reflexivity|]. apply Permutation_length. apply NoDup_Permutation; [apply nodup_days; exact O|exact N|].
  intro n. rewrite M, in_flat_map. unfold lost. split; intros (r & I & H); exists r; (split; [exact I|]); apply in_days; exact H.
Qed.
Print Assumptions C125_total_partial.

(** ** The downtime in progress and those to come. *)
Lemma read_order : forall year off table i j a b, in_order table -> i < j -> nth_error (read_data year off table) i = Some a -> nth_error (read_data year off table) j = Some b ->
  (d_start a < d_end a /\ d_end a <= d_start b /\ d_start b < d_end b)%Q.
Proof.
  intros year off table i j a b (P & O) H A B. unfold read_data in A, B. rewrite nth_error_map in A, B. destruct (nth_error table i) as [r|] eqn:R1; [|discriminate A]. destruct (nth_error table j) as [s|] eqn:R2; [|discriminate B].
  injection A as <-. injection B as <-. cbn [read_row d_start d_end].
  pose proof (P r (nth_error_In _ _ R1)) as P1. pose proof (P s (nth_error_In _ _ R2)) as P2. specialize (O i j r s H R1 R2).
  rewrite Zlt_Qlt in P1, P2. change (inject_Z 0) with 0%Q in P1, P2. rewrite Zle_Qle, inject_Z_plus in O. split; [lra|]. split; lra.
Qed.
Lemma read_positive : forall year off table d, in_order table -> In d (read_data year off table) -> (d_start d < d_end d)%Q.
Proof.
  intros year off table d (P & _) I. unfold read_data in I. apply in_map_iff in I. destruct I as (r & <- & I). cbn [read_row d_start d_end]. specialize (P r I). rewrite Zlt_Qlt in P. change (inject_Z 0) with 0%Q in P. lra.
Qed.
(** For a table in order the downtime found is the one in progress, none if there is none, with all that start later, in order. *)
Theorem C125_status_partial : forall year off table t, in_order table -> exists cur,
  status (read_data year off table) t = Ok (cur, filter (fun d => Qltb t (d_start d)) (read_data year off table)) /\
  forall d, cur = Some d <-> In d (read_data year off table) /\ (d_start d <= t < d_end d)%Q.
Proof.
  intros year off table t O. set (l := read_data year off table).
  assert (S0 : forall i j a b, i <= j -> nth_error l i = Some a -> nth_error l j = Some b -> (d_start a <= d_start b)%Q).
  { intros i j a b H A B. destruct (Nat.eq_dec i j) as [E|E]; [subst j; rewrite A in B; injection B as <-; lra|]. destruct (read_order year off table i j a b O ltac:(lia) A B) as (X & Y & _). lra. }
  assert (E0 : forall i j a b, i <= j -> nth_error l i = Some a -> nth_error l j = Some b -> (d_end a <= d_end b)%Q).
  { intros i j a b H A B. destruct (Nat.eq_dec i j) as [E|E]; [subst j; rewrite A in B; injection B as <-; lra|]. destruct (read_order year off table i j a b O ltac:(lia) A B) as (_ & X & Y). lra. }
  unfold status. destruct (ss_map d_start l t S0) as (A & A1 & A2). destruct (ss_map d_end l t E0) as (B & B1 & B2).
  set (ns := searchsorted (fun s => Qle_bool s t) 0%Q (map d_start l)) in *. set (ne := searchsorted (fun s => Qle_bool s t) 0%Q (map d_end l)) in *. clearbody ns ne.
  assert (F : skipn ns l = filter (fun d => Qltb t (d_start d)) l).
  { apply skip_filter; intros i d H E; [|apply Qltb_lt; eapply A2; eauto]. destruct (Qltb t (d_start d)) eqn:G; [|reflexivity]. apply Qltb_lt in G. specialize (A1 i d H E). lra. }
  rewrite F. assert (Idx : forall d, In d l -> (d_start d <= t < d_end d)%Q -> ne < ns /\ nth_error l ne = Some d).
  { intros d Hd [H1 H2]. apply In_nth_error in Hd. destruct Hd as [i Hi].
    assert (i < ns) by (destruct (le_lt_dec ns i) as [C|C]; [specialize (A2 i d C Hi); lra|exact C]).
    assert (ne <= i) by (destruct (le_lt_dec ne i) as [C|C]; [exact C|specialize (B1 i d C Hi); lra]).
    split; [lia|]. destruct (Nat.eq_dec ne i) as [E|E]; [subst; exact Hi|]. exfalso.
    destruct (nth_error l ne) as [e|] eqn:En; [|apply nth_error_None in En; lia].
    specialize (B2 ne e (le_n _) En). destruct (read_order year off table ne i e d O ltac:(lia) En Hi) as (_ & X & _). lra. }
  destruct (Nat.ltb_spec ne ns) as [L|L].
  - destruct (nth_error l ne) as [c|] eqn:E; [|apply nth_error_None in E; lia]. exists (Some c). split; [reflexivity|]. intros d. split.
    + intros H. injection H as ->. split; [eapply nth_error_In; eauto|]. split; [apply (A1 ne d L E)|apply (B2 ne d (le_n _) E)].
    + intros [Hd Hh]. destruct (Idx d Hd Hh) as [_ G]. congruence.
  - exists None. split; [reflexivity|]. intros d. split; [discriminate|]. intros [Hd Hh]. destruct (Idx d Hd Hh). lia.
Qed.
Print Assumptions C125_status_partial.

(** ** Where the property fails. *)
(** Nights are not counted from the start of the simulation: every downtime is early by the time since 1 January. *)
Theorem C125_from_start_refuted : forall year start table, (inject_Z (jan1 year) <= start < inject_Z (jan1 (year + 1)))%Q ->
  Forall2 (fun r d => (d_start d < start + inject_Z (r_night r))%Q) table (read_data year default_offset table).
Proof.
  intros year start table (H & _). pose proof (C125_rows year table) as R'. induction R' as [|r d table l (A & _) R' IH]; constructor; [|exact IH]. rewrite A. lra.
Qed.
Print Assumptions C125_from_start_refuted.

Definition coat : row := Row 100 14 "recoat mirror".
Definition maint : row := Row 10 7 "general maintenance".
(** A table in another order: a downtime that has not begun is said to be in progress, and none to come. *)
Theorem C125_order_refuted : exists year table t d, In d (read_data year default_offset table) /\ (t < d_start d)%Q /\ in_order (rev table) /\ status (read_data year default_offset table) t = Ok (Some d, []).
Proof.
  exists 2025%Z, [coat; maint], (inject_Z (jan1 2025) + 12)%Q, (read_row (night0 2025 default_offset) coat).
  split; [left; reflexivity|]. split; [apply Qltb_lt; reflexivity|]. split; [|reflexivity].
  split.
  - intros r I. cbn in I. destruct I as [<-|[<-|[]]]; reflexivity.
  - intros [|[|i]] [|[|j]] a b H A B; cbn in *; try lia; try (destruct i; discriminate A); try (destruct j; discriminate B). injection A as <-. injection B as <-. discriminate.
Qed.
Print Assumptions C125_order_refuted.
(** A downtime within another: in the longer one nothing is found. *)
Theorem C125_nested_refuted : exists year table t d later, In d (read_data year default_offset table) /\ (d_start d <= t < d_end d)%Q /\
  (forall i j a b, i < j -> nth_error table i = Some a -> nth_error table j = Some b -> (r_night a < r_night b)%Z) /\
  status (read_data year default_offset table) t = Ok (None, later).
Proof.
  exists 2025%Z, [Row 0 100 "upgrade"; maint], (inject_Z (jan1 2025) + 50)%Q, (read_row (night0 2025 default_offset) (Row 0 100 "upgrade")). eexists.
  split; [left; reflexivity|]. split; [split; [apply Qle_bool_iff; reflexivity|apply Qltb_lt; reflexivity]|]. split; [|reflexivity].
  intros [|[|i]] [|[|j]] a b H A B; cbn in *; try lia; try (destruct i; discriminate A); try (destruct j; discriminate B). injection A as <-. injection B as <-. reflexivity.
Qed.
Print Assumptions C125_nested_refuted.
(** Overlapping downtimes count twice: 14 days for 10 nights. *)
Theorem C125_overlap_refuted : exists year table nights, NoDup nights /\ (forall n, In n nights <-> lost table n) /\ List.length nights = 10 /\
  (total_downtime (read_data year default_offset table) == 14)%Q.
Proof.
  exists 2025%Z, [Row 0 7 "one"; Row 3 7 "two"], (map Z.of_nat (seq 0 10)). split; [apply nodup_map; [intros; lia|apply seq_NoDup]|]. split; [|split; reflexivity].
  intro n. rewrite in_map_iff. unfold lost. split.
  - intros (k & <- & I). apply in_seq in I. destruct (le_lt_dec k 6) as [C|C]; [exists (Row 0 7 "one")|exists (Row 3 7 "two")]; cbn; split; try tauto; lia.
  - intros (r & [<-|[<-|[]]] & H); cbn in H; exists (Z.to_nat n); (split; [lia|apply in_seq; lia]).
Qed.
Print Assumptions C125_overlap_refuted.

(** ** Examples. *)
Example C125_ex_order : in_order [maint; coat].
Proof.
  split.
  - intros r I. cbn in I. destruct I as [<-|[<-|[]]]; reflexivity.
  - intros [|[|i]] [|[|j]] a b H A B; cbn in *; try lia; try (destruct i; discriminate A); try (destruct j; discriminate B). injection A as <-. injection B as <-. discriminate.
Qed.
Example C125_ex_status : status (read_data 2025 default_offset [maint; coat]) 60688 =
  Ok (Some (read_row (night0 2025 default_offset) maint), [read_row (night0 2025 default_offset) coat]).
Proof. reflexivity. Qed.
Example C125_ex_jan1 : jan1 2025 = 60676%Z /\ jan1 2026 = 61041%Z.
Proof. split; reflexivity. Qed.
Example C125_ex_total : (total_downtime (read_data 2025 default_offset [maint; coat]) == 21)%Q.
Proof. reflexivity. Qed.
