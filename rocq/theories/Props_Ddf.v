(** C95: deep drilling sequences are prescheduled at safe times, as many and as evenly as asked. *)
From Coq Require Import List ZArith QArith Qround Qabs Bool String Lia Lqa Sorted Permutation.
From Verif Require Import Base Bisect IntRounded Blob Blob_proofs Pointings SeasonBf Feat Script Ddf Ddf_proofs.
Import ListNotations.
Open Scope nat_scope.

(** ** Matching a curve *)
(** The nights at which the rounded curve rises. *)
Definition rise_nights (cum : list Q) : list nat :=
  filter (fun s => (Qround_even (nth (s - 1)%nat cum 0%Q) <? Qround_even (nth s cum 0%Q))%Z) (seq 1 (List.length cum - 1)).
Definition how_many (mask : list bool) : nat := List.length (filter (fun b => b) mask).
Definition total_of (l : list Z) : Z := fold_right Z.add 0%Z l.
Lemma sorted_ext : forall a b, sorted a -> sorted b -> (forall x, In x a <-> In x b) -> a = b.
Proof.
  induction a as [|x a IH]; intros [|y b] A B H.
  - reflexivity.
  - exfalso. apply (H y). left. reflexivity.
  - exfalso. apply (H x). left. reflexivity.
  - inversion A as [|x' a' A1 A2]; subst. inversion B as [|y' b' B1 B2]; subst. rewrite Forall_forall in A2, B2. assert (x = y).
    { destruct (proj1 (H x) (or_introl eq_refl)) as [E|E]; [congruence|]. destruct (proj2 (H y) (or_introl eq_refl)) as [F|F]; [congruence|]. apply B2 in E. apply A2 in F. lia. }
    subst y. f_equal. apply IH; [exact A1|exact B1|]. intros z. split; intros I.
    + destruct (proj1 (H z) (or_intror I)) as [E|E]; [subst z; apply A2 in I; lia|exact E].
    + destruct (proj2 (H z) (or_intror I)) as [E|E]; [subst z; apply B2 in I; lia|exact E].
Qed.
Lemma steps_are : forall cum, step_points cum = rise_nights cum.
Proof.
  intros cum. apply sorted_ext.
  - unfold step_points. destruct (map Qround_even cum); [constructor|apply rises_sorted].
  - apply filter_ss, seq_sorted.
  - intros s. unfold rise_nights. rewrite filter_In, in_seq, Z.ltb_lt. destruct cum as [|x r]; [cbn; lia|]. unfold step_points. cbn [map]. rewrite rises_in. split.
    + intros (k & z & -> & E & L). assert (Lk : k < List.length r) by (rewrite <- (map_length Qround_even); apply nth_error_Some; congruence). split; [cbn [List.length]; lia|]. apply nth_error_nth with (d := 0%Z) in E. rewrite nth_map_round in E. replace (1 + k - 1) with k by lia. cbn [plus nth]. rewrite E. destruct k as [|k]; [exact L|]. rewrite nth_map_round in L. exact L.
    + intros [R L]. cbn [List.length] in R. exists (s - 1), (Qround_even (nth s (x :: r) 0%Q)). split; [lia|]. destruct s as [|k]; [lia|]. cbn [nth] in *. replace (S k - 1) with k in * by lia. split; [rewrite nth_error_map, (nth_error_nth' r 0%Q) by lia; reflexivity|]. destruct k as [|k]; [exact L|]. rewrite nth_map_round. exact L.
Qed.
Lemma how_many_where : forall mask, List.length (np_where (fun b => b) mask) = how_many mask.
Proof. unfold how_many, np_where. intros mask. generalize 0. induction mask as [|b m IH]; intros k; cbn; [reflexivity|]. destruct b; cbn; rewrite IH; reflexivity. Qed.

(** Without duplicates: one number per night, 0 or 1, 1 only on free nights, as many as rises;
    an error exactly if there are more rises than free nights. *)
Theorem C95_match : forall cum mask, List.length mask = List.length cum ->
  (forall out, match_cumulative cum mask true = Ok out ->
     List.length out = List.length cum /\ total_of out = Z.of_nat (List.length (rise_nights cum)) /\
     forall j, nth j out 0%Z = 0%Z \/ (nth j out 0%Z = 1%Z /\ nth j mask false = true)) /\
  (match_cumulative cum mask true = Raise IndexError <-> how_many mask < List.length (rise_nights cum)) /\
  (List.length (rise_nights cum) <= how_many mask -> exists out, match_cumulative cum mask true = Ok out).
Proof.
  intros cum mask L. rewrite <- steps_are, <- how_many_where. split; [|apply match_total; exact L]. intros out H. destruct (match_trace _ _ _ _ H) as (_ & _ & Lo & _). split; [exact Lo|]. split; [exact (match_sum _ _ _ _ L H)|]. exact (match_entries _ _ _ L H).
Qed.
Print Assumptions C95_match.
(** With duplicates: as many as rises, on free nights; an error only with no free night. *)
Theorem C95_match_dup : forall cum mask, List.length mask = List.length cum ->
  (forall out, match_cumulative cum mask false = Ok out ->
     List.length out = List.length cum /\ total_of out = Z.of_nat (List.length (rise_nights cum)) /\
     forall j, (0 <= nth j out 0)%Z /\ (nth j out 0%Z <> 0%Z -> nth j mask false = true)) /\
  (In true mask -> exists out, match_cumulative cum mask false = Ok out).
Proof.
  intros cum mask L. rewrite <- steps_are. split.
  - intros out H. destruct (match_trace _ _ _ _ H) as (chosen & C & Lo & O). split; [exact Lo|]. split; [exact (match_sum _ _ _ _ L H)|]. intros j. destruct (Nat.lt_ge_cases j (List.length cum)) as [X|X]; [|rewrite nth_overflow by lia; split; [lia|congruence]]. rewrite (O j X). unfold occ. split; [lia|]. intros N. apply match_in. apply (proj2 (placed_in _ _ _ _ C)). destruct (in_dec Nat.eq_dec j chosen) as [I|I]; [exact I|]. apply (count_occ_not_In Nat.eq_dec) in I. rewrite I in N. cbn in N. congruence.
  - intros I. apply place_total_dup; [apply where_sorted|]. destruct (In_nth_error _ _ I) as [k E]. intros X. assert (Y : In k (np_where (fun b : bool => b) mask)) by (apply np_where_spec; exists true; split; [exact E|reflexivity]). rewrite X in Y. contradiction.
Qed.
Print Assumptions C95_match_dup.
Definition ex_cum : list Q := [0; 2 # 5; 4 # 5; 1; 8 # 5; 2; 2; 3]%Q.
Example C95_ex_match : rise_nights ex_cum = [2; 4; 7] /\
  match_cumulative ex_cum [true; true; false; true; true; true; true; true] true = Ok [0; 0; 0; 1; 0; 1; 0; 1]%Z /\
  match_cumulative ex_cum [false; true; false; false; true; false; false; false] true = Raise IndexError /\
  match_cumulative ex_cum [false; true; false; false; true; false; false; false] false = Ok [0; 0; 0; 0; 3; 0; 0; 0]%Z.
Proof. vm_compute. repeat split. Qed.

(** A single rise: that night if it and all before are free, otherwise the next free night after
    it, or, if there is none, the last free night. *)
Theorem C95_single : forall cum mask nodup s out, List.length mask = List.length cum -> rise_nights cum = [s] -> match_cumulative cum mask nodup = Ok out ->
  exists v, nth v mask false = true /\ (forall j, nth j out 0%Z = if Nat.eqb j v then 1%Z else 0%Z) /\
  ((v = s /\ forall j, j <= s -> nth j mask false = true) \/
   ((exists j, j <= s /\ nth j mask false = false) /\ s < v /\ forall j, s < j < v -> nth j mask false = false) \/
   ((exists j, j <= s /\ nth j mask false = false) /\ (forall j, s < j -> nth j mask false = false) /\ forall j, nth j mask false = true -> j <= v)).
Proof.
  intros cum mask nodup s out L R H. rewrite <- steps_are in R. destruct (match_trace _ _ _ _ H) as (chosen & C & Lo & O). rewrite R in C. inversion C as [|s' r valid v ch E P]; subst. inversion P; subst.
  destruct (pick_spec (np_where (fun b => b) mask) s (where_sorted _ _ _)) as (v' & E' & Sp). { intros X. rewrite X in E. destruct (pick [] s); discriminate. } rewrite E in E'. injection E' as <-.
  assert (Iv : In v (np_where (fun b => b) mask)) by (apply nth_error_In in E; exact E). exists v. split; [apply match_in; exact Iv|]. split.
  { intros j. destruct (Nat.lt_ge_cases j (List.length cum)) as [X|X].
    - rewrite (O j X). unfold occ. cbn [count_occ]. destruct (Nat.eq_dec v j) as [->|N]; [rewrite Nat.eqb_refl; reflexivity|]. destruct (Nat.eqb_spec j v); [congruence|reflexivity].
    - rewrite nth_overflow by lia. apply match_in in Iv. destruct (Nat.eqb_spec j v) as [->|N]; [|reflexivity]. rewrite nth_overflow in Iv by lia. discriminate. }
  assert (Ex : ~ (forall j, j <= s -> In j (np_where (fun b => b) mask)) -> exists j, j <= s /\ nth j mask false = false).
  { intros N. destruct (existsb (fun j => negb (nth j mask false)) (seq 0 (S s))) eqn:B.
    - apply existsb_exists in B. destruct B as (j & I & B). apply in_seq in I. exists j. split; [lia|]. apply negb_true_iff in B. exact B.
    - exfalso. apply N. intros j Lj. apply match_in. destruct (nth j mask false) eqn:F; [reflexivity|]. exfalso. assert (X : existsb (fun j => negb (nth j mask false)) (seq 0 (S s)) = true) by (apply existsb_exists; exists j; split; [apply in_seq; lia|rewrite F; reflexivity]). congruence. }
  destruct Sp as [[-> A]|[(A & B & M)|(A & B & M)]].
  - left. split; [reflexivity|]. intros j Lj. apply match_in. apply A. exact Lj.
  - right. left. split; [apply Ex; exact A|]. split; [exact B|]. intros j Lj. destruct (nth j mask false) eqn:F; [|reflexivity]. apply match_in in F. apply M in F; lia.
  - right. right. split; [apply Ex; exact A|]. split; [|intros j F; apply M; apply match_in; exact F]. intros j Lj. destruct (nth j mask false) eqn:F; [|reflexivity]. apply match_in in F. apply B in F. lia.
Qed.
Print Assumptions C95_single.
Example C95_ex_single : rise_nights [0; 0; 1; 1; 1]%Q = [2] /\ match_cumulative [0; 0; 1; 1; 1]%Q [true; true; true; true; true] true = Ok [0; 0; 1; 0; 0]%Z /\
  match_cumulative [0; 0; 1; 1; 1]%Q [true; false; true; false; true] true = Ok [0; 0; 0; 0; 1]%Z /\ match_cumulative [0; 0; 1; 1; 1]%Q [true; true; false; false; false] true = Ok [0; 1; 0; 0; 0]%Z.
Proof. vm_compute. repeat split. Qed.

(** All nights free: the first event on the night of its rise, every other exactly one night late. *)
Lemma clear_rest : forall N steps valid chosen, placed true steps valid chosen -> sorted valid -> sorted steps -> (forall s, In s steps -> S s < N) ->
  (forall s, In s steps -> (forall j, s < j < N -> In j valid) /\ exists j, j <= s /\ ~ In j valid) -> (forall j, In j valid -> j < N) -> chosen = map S steps.
Proof.
  intros N steps valid chosen P. remember true as nd eqn:Hn. induction P as [|s r valid v chosen E P IH]; intros So St Le Cl Bo; [reflexivity|]. subst nd. cbn [map]. assert (Ne : valid <> []) by (intros X; rewrite X in E; destruct (pick [] s); discriminate).
  destruct (pick_spec valid s So Ne) as (v' & E' & Sp). rewrite E in E'. injection E' as <-. destruct (Cl s (or_introl eq_refl)) as [C1 (j0 & J1 & J2)]. specialize (Le s (or_introl eq_refl)) as Ls. assert (Iv : In v valid) by (apply nth_error_In in E; exact E).
  assert (V : v = Datatypes.S s).
  { destruct Sp as [[_ A]|[(_ & A & M)|(_ & A & _)]]; [exfalso; apply J2; apply A; exact J1| |].
    - specialize (M (Datatypes.S s) ltac:(apply C1; lia)). lia.
    - specialize (A (Datatypes.S s) ltac:(apply C1; lia)). lia. }
  subst v. f_equal. inversion St as [|s' r' St1 St2]; subst. rewrite Forall_forall in St2. pose proof (remove_at_in _ _ _ _ E) as Pm. apply IH; try assumption.
  - apply remove_at_sorted. exact So.
  - intros x I. apply Le. right. exact I.
  - intros x I. specialize (St2 x I). split.
    + intros j Lj. assert (Ij : In j valid) by (apply C1; lia). apply (Permutation_in j Pm) in Ij. destruct Ij as [<-|Ij]; [lia|exact Ij].
    + exists (Datatypes.S s). split; [lia|]. intros X. assert (ND : NoDup (Datatypes.S s :: remove_at (pick valid s) valid)) by (apply (Permutation_NoDup Pm), sorted_nodup; exact So). inversion ND; contradiction.
  - intros j I. apply Bo. apply (Permutation_in j (Permutation_sym Pm)). right. exact I.
Qed.
Theorem C95_clear : forall cum s rest out, rise_nights cum = s :: rest -> (forall t, In t rest -> S t < List.length cum) ->
  match_cumulative cum (map (fun _ => true) cum) true = Ok out ->
  forall j, nth j out 0%Z = if existsb (Nat.eqb j) (s :: map S rest) then 1%Z else 0%Z.
Proof.
  intros cum s rest out R Le H j. rewrite <- steps_are in R. destruct (match_trace _ _ _ _ H) as (chosen & C & Lo & O). rewrite R in C.
  set (valid := np_where (fun b : bool => b) (map (fun _ : Q => true) cum)) in *. assert (So : sorted valid) by apply where_sorted.
  assert (Iv : forall j, In j valid <-> j < List.length cum).
  { intros k. unfold valid. rewrite np_where_spec. split; [intros (x & E & _); rewrite <- (map_length (fun _ : Q => true)); apply nth_error_Some; congruence|]. intros L. exists true. split; [|reflexivity]. rewrite nth_error_map. destruct (nth_error cum k) eqn:E; [reflexivity|]. apply nth_error_None in E. lia. }
  assert (St : sorted (s :: rest)). { rewrite <- R, steps_are. apply filter_ss, seq_sorted. } assert (Ls : s < List.length cum). { assert (I : In s (rise_nights cum)) by (rewrite <- steps_are, R; left; reflexivity). unfold rise_nights in I. apply filter_In in I. destruct I as [I _]. apply in_seq in I. lia. }
  inversion C as [|s' r va v ch E P]; subst. inversion St as [|s' r' St1 St2]; subst. rewrite Forall_forall in St2. assert (Ne : valid <> []) by (intros X; rewrite X in E; destruct (pick [] s); discriminate).
  destruct (pick_spec valid s So Ne) as (v' & E' & Sp). rewrite E in E'. injection E' as <-. assert (All : forall k, k <= s -> In k valid) by (intros k Lk; apply Iv; lia). destruct Sp as [[-> _]|[(A & _)|(A & _)]]; [|contradiction|contradiction].
  pose proof (remove_at_in _ _ _ _ E) as Pm. assert (ND : NoDup (s :: remove_at (pick valid s) valid)) by (apply (Permutation_NoDup Pm), sorted_nodup; exact So).
  assert (Cr : ch = map Datatypes.S rest).
  { apply (clear_rest (List.length cum) rest (remove_at (pick valid s) valid) ch P); [apply remove_at_sorted; exact So|exact St1|exact Le| |].
    - intros t It. specialize (St2 t It). split.
      + intros k Lk. assert (Ik : In k valid) by (apply Iv; lia). apply (Permutation_in k Pm) in Ik. destruct Ik as [<-|Ik]; [lia|exact Ik].
      + exists s. split; [lia|]. inversion ND; assumption.
    - intros k Ik. apply Iv. apply (Permutation_in k (Permutation_sym Pm)). right. exact Ik. }
  subst ch. assert (NDc : NoDup (s :: map Datatypes.S rest)) by (apply (placed_nodup _ _ _ C), sorted_nodup; exact So).
  destruct (existsb (Nat.eqb j) (s :: map Datatypes.S rest)) eqn:B.
  - apply existsb_exists in B. destruct B as (x & Ix & B). apply Nat.eqb_eq in B. subst x. assert (Lj : j < List.length cum) by (destruct Ix as [<-|Ix]; [exact Ls|apply in_map_iff in Ix; destruct Ix as (t & <- & It); apply Le; exact It]). rewrite (O j Lj). unfold occ. rewrite (proj1 (NoDup_count_occ' Nat.eq_dec _) NDc j Ix). reflexivity.
  - destruct (Nat.lt_ge_cases j (List.length cum)) as [Lj|Lj]; [|apply nth_overflow; lia]. rewrite (O j Lj). unfold occ. destruct (in_dec Nat.eq_dec j (s :: map Datatypes.S rest)) as [I|I].
    + exfalso. assert (X : existsb (Nat.eqb j) (s :: map Datatypes.S rest) = true) by (apply existsb_exists; exists j; split; [exact I|apply Nat.eqb_refl]). congruence.
    + apply (count_occ_not_In Nat.eq_dec) in I. rewrite I. reflexivity.
Qed.
Print Assumptions C95_clear.
Example C95_ex_clear : rise_nights [0; 1; 1; 2; 2; 3; 3]%Q = [1; 3; 5] /\ match_cumulative [0; 1; 1; 2; 2; 3; 3]%Q (map (fun _ => true) [0; 1; 1; 2; 2; 3; 3]%Q) true = Ok [0; 1; 0; 0; 1; 0; 1]%Z.
Proof. vm_compute. split; reflexivity. Qed.

(** Never more events so far than wanted so far, if enough free nights follow the last rise. *)
Lemma placed_le : forall steps valid chosen, placed true steps valid chosen -> sorted valid -> (forall s, In s steps -> List.length steps <= List.length (filter (fun j => Nat.ltb s j) valid)) -> Forall2 le steps chosen.
Proof.
  intros steps valid chosen P. remember true as nd eqn:Hn. induction P as [|s r valid v chosen E P IH]; intros So En; [constructor|]. subst nd. assert (Ne : valid <> []) by (intros X; rewrite X in E; destruct (pick [] s); discriminate).
  destruct (pick_spec valid s So Ne) as (v' & E' & Sp). rewrite E in E'. injection E' as <-. pose proof (remove_at_in _ _ _ _ E) as Pm. constructor.
  - destruct Sp as [[-> _]|[(_ & A & _)|(_ & A & _)]]; [lia|lia|]. exfalso. specialize (En s (or_introl eq_refl)). assert (X : filter (fun j => Nat.ltb s j) valid = []).
    { destruct (filter (fun j => Nat.ltb s j) valid) as [|x l] eqn:F; [reflexivity|]. exfalso. assert (I : In x (filter (fun j => Nat.ltb s j) valid)) by (rewrite F; left; reflexivity). apply filter_In in I. destruct I as [I1 I2]. apply Nat.ltb_lt in I2. apply A in I1. lia. }
    rewrite X in En. cbn in En. lia.
  - apply IH; [apply remove_at_sorted; exact So|]. intros t It. specialize (En t (or_intror It)). cbn [List.length] in En.
    assert (Pf : Permutation (filter (fun j => Nat.ltb t j) valid) (filter (fun j => Nat.ltb t j) (v :: remove_at (pick valid s) valid))).
    { clear - Pm. induction Pm as [|x l l' Pm IHp|x y l|l l' l'' P1 I1 P2 I2]; cbn [filter]; [reflexivity|destruct (Nat.ltb t x); [apply perm_skip|]; exact IHp|destruct (Nat.ltb t x), (Nat.ltb t y); try apply perm_swap; apply Permutation_refl|exact (perm_trans I1 I2)]. }
    apply Permutation_length in Pf. cbn [filter] in Pf. destruct (Nat.ltb t v); cbn [List.length] in Pf; lia.
Qed.
Lemma count_first : forall j out chosen, (forall i, i < List.length out -> nth i out 0%Z = occ i chosen) -> j < List.length out ->
  total_of (firstn (S j) out) = Z.of_nat (List.length (filter (fun c => Nat.leb c j) chosen)).
Proof.
  intros j out chosen H L. assert (G : forall m, m <= List.length out -> total_of (firstn m out) = Z.of_nat (List.length (filter (fun c => Nat.ltb c m) chosen))).
  { induction m as [|m IH]; intros Lm.
    - assert (X : filter (fun c => Nat.ltb c 0) chosen = []) by (clear; induction chosen as [|c l IHl]; [reflexivity|exact IHl]). rewrite X. reflexivity.
    - assert (F : firstn (S m) out = firstn m out ++ [nth m out 0%Z]).
      { clear - Lm. revert out Lm. induction m as [|m IHm]; intros [|x out] Lm; cbn in Lm; try lia; [reflexivity|]. cbn [firstn app nth]. f_equal. apply IHm. lia. }
      rewrite F. assert (A : forall a b, total_of (a ++ b) = (total_of a + total_of b)%Z) by (clear; unfold total_of; induction a as [|x a IHa]; intros b; cbn; [reflexivity|]; rewrite IHa; lia). rewrite A, IH by lia. cbn [total_of fold_right]. rewrite H by lia. unfold occ. clear. induction chosen as [|c l IHl]; [reflexivity|]. cbn [filter count_occ]. destruct (Nat.eq_dec c m) as [->|N]; destruct (Nat.ltb_spec m m), (Nat.ltb_spec m (S m)); try lia; cbn [List.length]; try lia; destruct (Nat.ltb_spec c m), (Nat.ltb_spec c (S m)); try lia; cbn [List.length]; lia. }
  rewrite (G (S j)) by lia. reflexivity.
Qed.
Theorem C95_notearly_partial : forall cum mask out, List.length mask = List.length cum ->
  (forall k, S k < List.length cum -> (nth k cum 0 <= nth (S k) cum 0)%Q) ->
  (forall s, In s (rise_nights cum) -> List.length (rise_nights cum) <= how_many (skipn (S s) mask)) ->
  match_cumulative cum mask true = Ok out ->
  forall j, j < List.length cum -> (total_of (firstn (S j) out) <= Qround_even (nth j cum 0%Q) - Qround_even (nth 0 cum 0%Q))%Z.
Proof.
  intros cum mask out L Mo En H j Lj. destruct (match_trace _ _ _ _ H) as (chosen & C & Lo & O). rewrite steps_are in C.
  assert (Le : Forall2 le (rise_nights cum) chosen).
  { apply placed_le with (np_where (fun b => b) mask); [exact C|apply where_sorted|]. intros s I. specialize (En s I). eapply Nat.le_trans; [exact En|]. apply Nat.eq_le_incl. clear. unfold how_many, np_where.
    assert (G : forall m k, List.length (filter (fun b : bool => b) (skipn (S s - k) m)) = List.length (filter (fun j => Nat.ltb s j) (where_from (fun b => b) k m))).
    { induction m as [|b m IH]; intros k; [rewrite skipn_nil; reflexivity|]. specialize (IH (S k)). cbn [where_from]. destruct (S s - k) as [|d] eqn:Dk.
      - replace (S s - S k) with 0 in IH by lia. cbn [skipn] in *. destruct b; cbn [filter]; [|exact IH]. destruct (Nat.ltb_spec s k); [|lia]. cbn [List.length]. rewrite IH. reflexivity.
      - replace (S s - S k) with d in IH by lia. cbn [skipn]. rewrite IH. destruct b; cbn [filter]; [|reflexivity]. destruct (Nat.ltb_spec s k); [lia|reflexivity]. }
    specialize (G mask 0). replace (S s - 0) with (S s) in G by lia. exact G. }
  rewrite (count_first j out chosen); [|intros i Li; apply O; lia|lia].
  assert (A : List.length (filter (fun c => Nat.leb c j) chosen) <= List.length (filter (fun c => Nat.leb c j) (rise_nights cum))).
  { clear - Le. induction Le as [|s c l l' Hs Hl IH]; [reflexivity|]. cbn [filter]. destruct (Nat.leb_spec c j), (Nat.leb_spec s j); cbn [List.length]; lia. }
  assert (B : filter (fun c => Nat.leb c j) (rise_nights cum) = step_points (firstn (S j) cum)).
  { rewrite steps_are. apply sorted_ext; [apply filter_ss, filter_ss, seq_sorted|apply filter_ss, seq_sorted|]. intros s. unfold rise_nights. rewrite !filter_In, !in_seq, Nat.leb_le, firstn_length, Nat.min_l by lia.
    assert (N : forall i, i <= j -> nth i (firstn (S j) cum) 0%Q = nth i cum 0%Q). { clear. intros i Li. revert i cum Li. induction j as [|j IH]; intros i [|x cum] Li; [reflexivity|destruct i; [reflexivity|lia]|reflexivity|destruct i as [|i]; [reflexivity|]]. change (firstn (S (S j)) (x :: cum)) with (x :: firstn (S j) cum). cbn [nth]. apply IH. lia. }
    split; intros X.
    - destruct X as [[R T] Y]. rewrite !N by lia. split; [lia|exact T].
    - destruct X as [R T]. rewrite !N in T by lia. split; [split; [lia|exact T]|lia]. }
  rewrite B in A. destruct cum as [|x r]; [cbn in Lj; lia|]. cbn [firstn] in A. assert (Z : (Z.of_nat (List.length (step_points (x :: firstn j r))) <= Qround_even (last (x :: firstn j r) 0%Q) - Qround_even x)%Z).
  { assert (N : forall i, i <= j -> nth i (x :: firstn j r) 0%Q = nth i (x :: r) 0%Q). { clear. intros i Li. destruct i as [|i]; [reflexivity|]. cbn [nth]. revert i r Li. induction j as [|j IH]; intros i r Li; [lia|]. destruct r as [|y r]; [reflexivity|]. destruct i as [|i]; [reflexivity|]. cbn [firstn nth]. apply IH. lia. }
    apply steps_le. intros k Lk. assert (Lf : List.length (x :: firstn j r) <= S j) by (cbn [List.length]; rewrite firstn_length; lia). rewrite !N by lia. apply Mo. cbn [List.length] in *. rewrite firstn_length in Lk. lia. }
  assert (La : last (x :: firstn j r) 0%Q = nth j (x :: r) 0%Q).
  { rewrite last_nth by discriminate. cbn [List.length] in *. rewrite firstn_length, Nat.min_l by lia. replace (S j - 1) with j by lia. destruct j as [|j]; [reflexivity|]. cbn [nth]. clear. revert r. induction j as [|j IH]; intros [|y r]; try reflexivity. change (firstn (S (S j)) (y :: r)) with (y :: firstn (S j) r). cbn [nth]. apply IH. }
  rewrite La in Z. cbn [nth] in *. lia.
Qed.
Print Assumptions C95_notearly_partial.
Example C95_ex_notearly : let cum := [0; 1; 1; 2; 2; 2; 2]%Q in let mask := [true; false; true; true; true; true; true] in
  (forall s, In s (rise_nights cum) -> List.length (rise_nights cum) <= how_many (skipn (S s) mask)) /\ match_cumulative cum mask true = Ok [0; 0; 1; 0; 1; 0; 0]%Z.
Proof. cbv zeta. split; [|vm_compute; reflexivity]. change (rise_nights [0; 1; 1; 2; 2; 2; 2]%Q) with [1; 3]. intros s [<-|[<-|[]]]; vm_compute; lia. Qed.

(** The night of a rise is not taken though free: the search compares the night with a position
    in the list of free nights. *)
Theorem C95_nearest_refuted : exists cum mask out s, List.length mask = List.length cum /\ match_cumulative cum mask true = Ok out /\
  (Qround_even (nth (s - 1)%nat cum 0%Q) < Qround_even (nth s cum 0%Q))%Z /\ nth s mask false = true /\ nth s out 0%Z = 0%Z /\ (total_of (firstn (S s) out) < Qround_even (nth s cum 0%Q))%Z.
Proof. exists [0; 1; 1; 2; 2]%Q, [true; true; true; true; true], [0; 1; 0; 0; 1]%Z, 3. vm_compute. repeat split. Qed.
Print Assumptions C95_nearest_refuted.
(** A rise by two in a night, and what is wanted on the first night, are lost. *)
Theorem C95_jump_refuted : exists cum mask out, List.length mask = List.length cum /\ match_cumulative cum mask true = Ok out /\
  (forall k, S k < List.length cum -> (nth k cum 0 <= nth (S k) cum 0)%Q) /\ (Z.of_nat (how_many mask) > Qround_even (last cum 0%Q))%Z /\ (total_of out + 2 = Qround_even (last cum 0%Q))%Z.
Proof. exists [1; 1; 3; 3; 3]%Q, [true; true; true; true; true], [0; 0; 1; 0; 0]%Z. split; [reflexivity|]. split; [vm_compute; reflexivity|]. split; [|vm_compute; split; reflexivity]. intros k L. do 4 (destruct k as [|k]; [vm_compute; congruence|]). cbn in L. lia. Qed.
Print Assumptions C95_jump_refuted.

(** ** Times of the sequences *)
(** The limits at one time of the grid; comparisons with nan mask nothing, but a depth must be
    a number. *)
Definition within (D : dset) (v : Z) (g : gpt) : Prop :=
  (g_sun g <> EPInf /\ forall s, g_sun g = EFin s -> (s < d_sun D)%Q) /\
  (g_air g <> EPInf /\ forall a, g_air g = EFin a -> (a < d_air D)%Q) /\
  (forall l, d_sky D = Some l -> g_sky g = EPInf \/ exists k, g_sky g = EFin k /\ (l < k)%Q) /\
  (exists m, g_m5 g = EFin m /\ forall l, d_depth D = Some l -> (l <= m)%Q) /\
  (forall b, d_parity D = Some b -> Z.odd v = b) /\
  (forall l, d_mlt D = Some l -> g_moon g <> EPInf /\ forall m, g_moon g = EFin m -> (m <= l)%Q) /\
  (forall l, d_mgt D = Some l -> g_moon g <> ENInf /\ forall m, g_moon g = EFin m -> (l <= m)%Q).
Lemma leb_lim : forall l x, negb (er_leb (EFin l) x) = true <-> (x <> EPInf /\ forall s, x = EFin s -> (s < l)%Q).
Proof.
  intros l [| |q|]; unfold er_leb; cbn.
  - split; [intros _; split; [discriminate|discriminate]|reflexivity].
  - split; [intros _; split; [discriminate|discriminate]|reflexivity].
  - rewrite negb_true_iff, orb_false_iff, negb_false_iff, Qle_bool_iff. split.
    + intros [A B]. split; [discriminate|]. intros s E. injection E as <-. apply Qeq_bool_neq in B. destruct (Qlt_le_dec q l) as [X|X]; [exact X|]. exfalso. apply B. apply Qle_antisym; assumption.
    + intros [_ A]. specialize (A q eq_refl). split; [lra|]. destruct (Qeq_bool l q) eqn:E; [|reflexivity]. apply Qeq_bool_iff in E. exfalso. lra.
  - split; [discriminate|intros [A _]; congruence].
Qed.
Lemma ltb_low : forall l x, negb (er_ltb x (EFin l)) = true <-> (x <> ENInf /\ forall s, x = EFin s -> (l <= s)%Q).
Proof.
  intros l [| |q|]; cbn.
  - split; [intros _; split; discriminate|reflexivity].
  - split; [discriminate|intros [A _]; congruence].
  - rewrite negb_involutive, Qle_bool_iff. split; [intros A; split; [discriminate|intros s E; injection E as <-; exact A]|intros [_ A]; apply A; reflexivity].
  - split; [intros _; split; discriminate|reflexivity].
Qed.
Lemma ltb_high : forall l x, negb (er_ltb (EFin l) x) = true <-> (x <> EPInf /\ forall s, x = EFin s -> (s <= l)%Q).
Proof.
  intros l [| |q|]; cbn.
  - split; [intros _; split; discriminate|reflexivity].
  - split; [intros _; split; discriminate|reflexivity].
  - rewrite negb_involutive, Qle_bool_iff. split; [intros A; split; [discriminate|intros s E; injection E as <-; exact A]|intros [_ A]; apply A; reflexivity].
  - split; [discriminate|intros [A _]; congruence].
Qed.
Lemma opt_iff : forall A (o : option A) f P, (forall x, f x = true <-> P x) -> (opt o f = true <-> forall x, o = Some x -> P x).
Proof. intros A [x|] f P H; cbn; [|split; [discriminate|reflexivity]]. rewrite H. split; [intros A0 y E; injection E as <-; exact A0|intros A0; apply A0; reflexivity]. Qed.
Lemma within_iff : forall D v g, point_ok D v g = true <-> within D v g.
Proof.
  intros D v g. unfold point_ok, within. rewrite !andb_true_iff, !leb_lim.
  rewrite (opt_iff _ (d_sky D) _ (fun l => g_sky g = EPInf \/ exists k, g_sky g = EFin k /\ (l < k)%Q)).
  2:{ intros l. unfold er_leb. destruct (g_sky g) as [| |q|]; cbn; rewrite ?andb_true_r, ?andb_false_r; [split; [discriminate|intros [X|(k & X & _)]; discriminate]|split; [discriminate|intros [X|(k & X & _)]; discriminate]| |split; [left; reflexivity|reflexivity]].
      rewrite negb_true_iff, orb_false_iff, negb_false_iff, Qle_bool_iff. split.
      - intros [A B]. right. exists q. split; [reflexivity|]. apply Qeq_bool_neq in B. destruct (Qlt_le_dec l q) as [X|X]; [exact X|]. exfalso. apply B. apply Qle_antisym; assumption.
      - intros [X|(k & X & Y)]; [discriminate|]. injection X as <-. split; [lra|]. destruct (Qeq_bool q l) eqn:E; [|reflexivity]. apply Qeq_bool_iff in E. exfalso. lra. }
  rewrite (opt_iff _ (d_depth D) _ (fun l => g_m5 g <> ENInf /\ forall s, g_m5 g = EFin s -> (l <= s)%Q)) by (intros l; apply ltb_low).
  rewrite (opt_iff _ (d_parity D) _ (fun b => Z.odd v = b)). 2:{ intros [|]; [reflexivity|]. rewrite <- Z.negb_odd. destruct (Z.odd v); cbn; split; congruence. }
  rewrite (opt_iff _ (d_mlt D) _ (fun l => g_moon g <> EPInf /\ forall m, g_moon g = EFin m -> (m <= l)%Q)) by (intros l; apply ltb_high).
  rewrite (opt_iff _ (d_mgt D) _ (fun l => g_moon g <> ENInf /\ forall m, g_moon g = EFin m -> (l <= m)%Q)) by (intros l; apply ltb_low).
  assert (M : (er_finite (g_m5 g) = true /\ (forall x, d_depth D = Some x -> g_m5 g <> ENInf /\ (forall s, g_m5 g = EFin s -> (x <= s)%Q))) <-> (exists m, g_m5 g = EFin m /\ forall l, d_depth D = Some l -> (l <= m)%Q)).
  { destruct (g_m5 g) as [| |q|]; cbn; try (split; [intros [X _]; discriminate|intros (m & X & _); discriminate]). split; [intros [_ A]; exists q; split; [reflexivity|]; intros l E; apply (A l E); reflexivity|]. intros (m & X & A). injection X as <-. split; [reflexivity|]. intros l E. split; [discriminate|]. intros s X. injection X as <-. apply A. exact E. }
  rewrite M. tauto.
Qed.
(** The least number of steps of the grid that covers a sequence. *)
Definition span (D : dset) (grid : list gpt) (n : nat) : Prop :=
  exists a b r, grid = a :: b :: r /\ (0 < g_mjd b - g_mjd a)%Q /\ (d_seq D / 1440 <= inject_Z (Z.of_nat n) * (g_mjd b - g_mjd a))%Q /\
  forall k, (d_seq D / 1440 <= inject_Z (Z.of_nat k) * (g_mjd b - g_mjd a))%Q -> n <= k.
Lemma span_steps : forall D grid n, span D grid n <-> (mask_steps D grid = Ok n /\ exists a b r, grid = a :: b :: r /\ (0 < g_mjd b - g_mjd a)%Q).
Proof.
  intros D grid n. assert (G : forall a b r, grid = a :: b :: r -> (0 < g_mjd b - g_mjd a)%Q -> exists m, mask_steps D grid = Ok m /\ (d_seq D / 1440 <= inject_Z (Z.of_nat m) * (g_mjd b - g_mjd a))%Q /\ forall k, (d_seq D / 1440 <= inject_Z (Z.of_nat k) * (g_mjd b - g_mjd a))%Q -> m <= k).
  { intros a b r -> Hd. unfold mask_steps. set (dt := (g_mjd b - g_mjd a)%Q) in *. clearbody dt. destruct (Qeq_bool dt 0) eqn:B; [apply Qeq_bool_iff in B; exfalso; lra|]. eexists. split; [reflexivity|].
    assert (E : (d_seq D / 60 / 24 / dt == d_seq D / 1440 / dt)%Q) by (field; lra). assert (X : (d_seq D / 1440 == d_seq D / 60 / 24 / dt * dt)%Q) by (field; lra). set (x := (d_seq D / 60 / 24 / dt)%Q) in *. clearbody x. split.
    - pose proof (Qle_ceiling x) as C. destruct (Z.le_gt_cases 0 (Qceiling x)) as [Y|Y].
      + rewrite Z2Nat.id by exact Y. rewrite X. apply Qmult_le_compat_r; [exact C|lra].
      + replace (Z.to_nat (Qceiling x)) with 0 by lia. rewrite X. apply Qmult_le_compat_r; [|lra]. apply Qle_trans with (inject_Z (Qceiling x)); [exact C|]. rewrite <- Zle_Qle. cbn. lia.
    - intros k Hk. rewrite X in Hk. assert (x <= inject_Z (Z.of_nat k))%Q by (destruct (Qlt_le_dec (inject_Z (Z.of_nat k)) x) as [Y|Y]; [exfalso; assert (inject_Z (Z.of_nat k) * dt < x * dt)%Q by (apply Qmult_lt_compat_r; assumption); lra|exact Y]).
      pose proof (Qceiling_resp_le _ _ H) as Y. rewrite Qceiling_Z in Y. lia. }
  split.
  - intros (a & b & r & E & Hd & A & B). destruct (G a b r E Hd) as (m & M & M1 & M2). assert (m = n) by (apply Nat.le_antisymm; [apply M2; exact A|apply B; exact M1]). subst m. split; [exact M|]. exists a, b, r. split; assumption.
  - intros (M & a & b & r & E & Hd). destruct (G a b r E Hd) as (m & M0 & M1 & M2). assert (m = n) by congruence. subst m. exists a, b, r. repeat split; assumption.
Qed.
(** A start: all times of the grid from it through a sequence are within the limits. *)
Definition good_start (night : Q -> Z) (D : dset) (grid : list gpt) (n i : nat) : Prop :=
  i < List.length grid /\ forall j h, i <= j <= i + n -> nth_error grid j = Some h -> within D (night (g_mjd h)) h.
Lemma good_iff : forall night D grid n i, nth i (big_mask night D grid n) false = true <-> good_start night D grid n i.
Proof. intros night D grid n i. rewrite mask_safe. unfold good_start. split; intros [L H]; (split; [exact L|]); intros j h R E; apply within_iff; apply H with j; assumption. Qed.
(** A grid with no gap shorter than the first. *)
Definition steady (grid : list gpt) : Prop := exists a b r, grid = a :: b :: r /\ (0 < g_mjd b - g_mjd a)%Q /\
  forall i g h, nth_error grid i = Some g -> nth_error grid (S i) = Some h -> (g_mjd b - g_mjd a <= g_mjd h - g_mjd g)%Q.
Lemma steady_far : forall grid (dt : Q), (forall i g h, nth_error grid i = Some g -> nth_error grid (S i) = Some h -> (dt <= g_mjd h - g_mjd g)%Q) ->
  forall k i g h, nth_error grid i = Some g -> nth_error grid (i + k) = Some h -> (inject_Z (Z.of_nat k) * dt <= g_mjd h - g_mjd g)%Q.
Proof.
  intros grid dt H. induction k as [|k IH]; intros i g h A B.
  - rewrite Nat.add_0_r in B. assert (g = h) by congruence. subst h. change (inject_Z (Z.of_nat 0)) with 0%Q. lra.
  - destruct (nth_error grid (i + k)) as [m|] eqn:E; [|apply nth_error_None in E; assert (i + S k < List.length grid) by (apply nth_error_Some; congruence); lia]. pose proof (IH i g m A E) as X. replace (i + S k) with (S (i + k)) in B by lia. pose proof (H (i + k) m h E B) as Y. rewrite Nat2Z.inj_succ, <- Z.add_1_r, inject_Z_plus. change (inject_Z 1) with 1%Q. lra.
Qed.
Lemma times_start : forall night ra start D grid mjds oc sched, optimize night ra start D grid = Ok (mjds, oc, sched) -> exists n, mask_steps D grid = Ok n /\
  forall t, In t mjds -> exists i g q, nth_error grid i = Some g /\ t = g_mjd g /\ g_m5 g = EFin q /\ good_start night D grid n i /\ In (night t) (used night ra start D grid) /\
  forall j h r, nth_error grid j = Some h -> night (g_mjd h) = night t -> g_m5 h = EFin r -> good_start night D grid n j -> (r <= q)%Q /\ (j < i -> (r < q)%Q).
Proof.
  intros night ra start D grid mjds oc sched H. destruct (optimize_inv _ _ _ _ _ _ _ _ H) as (n & Hn & [->|(base & S & Sl & _ & M & F)]); exists n; (split; [exact Hn|]); [intros t []|].
  intros t It. assert (Ex : exists u, In u (map fst (filter (fun p => (snd p =? 1)%Z) (combine (used night ra start D grid) sched))) /\ best_time night grid (big_mask night D grid n) u = Ok t).
  { clear - F It. induction F as [|u y l r Hu F IH]; [contradiction|]. destruct It as [<-|It]; [exists u; split; [left; reflexivity|exact Hu]|]. destruct (IH It) as (w & W1 & W2). exists w. split; [right; exact W1|exact W2]. }
  destruct Ex as (u & Iu & B). destruct (best_spec _ _ _ _ _ B) as (i & g & q & E & Et & Nu & Mq & Mi & Best). exists i, g, q. split; [exact E|]. split; [exact Et|]. split; [exact Mq|]. split; [apply good_iff; exact Mi|]. split.
  - rewrite Nu. apply taken_in in Iu. destruct Iu as (k & A & _). apply nth_error_In with k. exact A.
  - intros j h r Ej Nj Mr Gj. apply (Best j h r Ej); [congruence|exact Mr|apply good_iff; exact Gj].
Qed.
(** Every time returned is a time of the grid from which, for the length of a sequence, all times
    of the grid are within the limits. *)
Theorem C95_safe : forall night ra start D grid mjds oc sched, steady grid -> optimize night ra start D grid = Ok (mjds, oc, sched) ->
  forall t, In t mjds -> (exists g, In g grid /\ g_mjd g = t) /\ forall h, In h grid -> (t <= g_mjd h <= t + d_seq D / 1440)%Q -> within D (night (g_mjd h)) h.
Proof.
  intros night ra start D grid mjds oc sched (a & b & r & E & Hd & Hs) H t It. destruct (times_start _ _ _ _ _ _ _ _ H) as (n & Hn & T). destruct (T t It) as (i & g & q & Eg & Et & _ & [Li G] & _). subst t. split; [exists g; split; [apply nth_error_In with i; exact Eg|reflexivity]|].
  intros h Ih R. destruct (In_nth_error _ _ Ih) as [j Ej]. assert (Sp : span D grid n) by (apply span_steps; split; [exact Hn|exists a, b, r; split; assumption]). destruct Sp as (a' & b' & r' & E' & _ & Sp & _). rewrite E in E'. injection E' as <- <- <-. set (dt := (g_mjd b - g_mjd a)%Q) in *. clearbody dt. set (sq := (d_seq D / 1440)%Q) in *. clearbody sq.
  apply (G j h); [|exact Ej]. destruct (Nat.lt_ge_cases j i) as [X|X].
  - exfalso. pose proof (steady_far grid dt Hs (i - j) j h g Ej) as Y. replace (j + (i - j)) with i in Y by lia. specialize (Y Eg). assert (1 <= inject_Z (Z.of_nat (i - j)))%Q by (change 1%Q with (inject_Z 1); rewrite <- Zle_Qle; lia). assert (1 * dt <= inject_Z (Z.of_nat (i - j)) * dt)%Q by (apply Qmult_le_compat_r; lra). lra.
  - split; [exact X|]. destruct (Nat.le_gt_cases j (i + n)) as [Y|Y]; [exact Y|]. exfalso. pose proof (steady_far grid dt Hs (j - i) i g h Eg) as Z0. replace (i + (j - i)) with j in Z0 by lia. specialize (Z0 Ej). assert (inject_Z (Z.of_nat n) + 1 <= inject_Z (Z.of_nat (j - i)))%Q by (change 1%Q with (inject_Z 1); rewrite <- inject_Z_plus, <- Zle_Qle; lia). assert ((inject_Z (Z.of_nat n) + 1) * dt <= inject_Z (Z.of_nat (j - i)) * dt)%Q by (apply Qmult_le_compat_r; lra). lra.
Qed.
Print Assumptions C95_safe.
(** The time is the deepest start of its night, the earliest of the deepest. *)
Theorem C95_best : forall night ra start D grid mjds oc sched n, span D grid n -> optimize night ra start D grid = Ok (mjds, oc, sched) ->
  forall t, In t mjds -> exists i g q, nth_error grid i = Some g /\ t = g_mjd g /\ g_m5 g = EFin q /\ good_start night D grid n i /\
  forall j h r, nth_error grid j = Some h -> night (g_mjd h) = night t -> g_m5 h = EFin r -> good_start night D grid n j -> (r <= q)%Q /\ (j < i -> (r < q)%Q).
Proof.
  intros night ra start D grid mjds oc sched n Sp H t It. destruct (times_start _ _ _ _ _ _ _ _ H) as (m & Hm & T). apply span_steps in Sp. destruct Sp as [Hn _]. assert (m = n) by congruence. subst m. destruct (T t It) as (i & g & q & A & B & C & E & _ & F). exists i, g, q. split; [exact A|]. split; [exact B|]. split; [exact C|]. split; [exact E|exact F].
Qed.
Print Assumptions C95_best.

(** The season of a night, from its first time; seasons count from that of the earliest. *)
Definition season_of (night : Q -> Z) (ra start : Q) (grid : list gpt) (u : Z) (x : Q) : Prop :=
  exists i g, nth_error grid i = Some g /\ night (g_mjd g) = u /\ (forall j h, j < i -> nth_error grid j = Some h -> night (g_mjd h) <> u) /\ x = calc_season ra (g_mjd g) start.
Definition in_only (night : Q -> Z) (ra start : Q) (grid : list gpt) (o u : Z) : Prop :=
  exists x low, season_of night ra start grid u x /\ Qfloor x = (o + low)%Z /\
  (exists v y, season_of night ra start grid v y /\ Qfloor y = low) /\ forall v y, season_of night ra start grid v y -> (low <= Qfloor y)%Z.
Lemma find_nth : forall A (p : A -> bool) l g, find p l = Some g -> exists i, nth_error l i = Some g /\ p g = true /\ forall j h, j < i -> nth_error l j = Some h -> p h = false.
Proof.
  intros A p. induction l as [|x l IH]; intros g H; [discriminate|]. cbn in H. destruct (p x) eqn:E.
  - injection H as <-. exists 0. split; [reflexivity|]. split; [exact E|]. intros j h L. lia.
  - destruct (IH g H) as (i & A1 & A2 & A3). exists (S i). split; [exact A1|]. split; [exact A2|]. intros [|j] h L Ej; [cbn in Ej; congruence|]. apply (A3 j h); [lia|exact Ej].
Qed.
Lemma season_first : forall night ra start grid u x, season_of night ra start grid u x <-> (In u (nights night grid) /\ x = calc_season ra (first_mjd night grid u) start).
Proof.
  intros night ra start grid u x. unfold first_mjd. split.
  - intros (i & g & E & N & F & ->). split; [unfold nights; rewrite <- N; apply (in_map (fun g => night (g_mjd g))), nth_error_In with i; exact E|]. destruct (find (fun g => (night (g_mjd g) =? u)%Z) grid) as [h|] eqn:B.
    + destruct (find_nth _ _ _ _ B) as (k & K1 & K2 & K3). apply Z.eqb_eq in K2. assert (k = i).
      { destruct (Nat.lt_trichotomy k i) as [X|[X|X]]; [exfalso; apply (F k h X K1 K2)|exact X|]. pose proof (K3 i g X E) as Y. apply Z.eqb_neq in Y. contradiction. }
      subst k. congruence.
    + exfalso. pose proof (find_none _ _ B g (nth_error_In _ _ E)) as X. apply Z.eqb_neq in X. contradiction.
  - intros [I ->]. destruct (find (fun g => (night (g_mjd g) =? u)%Z) grid) as [h|] eqn:B.
    + destruct (find_nth _ _ _ _ B) as (k & K1 & K2 & K3). apply Z.eqb_eq in K2. exists k, h. repeat split; try assumption. intros j m L Ej. apply Z.eqb_neq. apply (K3 j m L Ej).
    + exfalso. unfold nights in I. apply in_map_iff in I. destruct I as (g & N & I). pose proof (find_none _ _ B g I) as X. apply Z.eqb_neq in X. contradiction.
Qed.
Lemma floor_shift : forall x k, Qfloor (x - inject_Z k) = (Qfloor x - k)%Z.
Proof.
  intros x k. destruct (Qfloor_bounds x) as [A B]. destruct (Qfloor_bounds (x - inject_Z k)) as [C D]. assert (X : (inject_Z (Qfloor (x - inject_Z k)) < inject_Z (Qfloor x - k + 1))%Q) by (rewrite inject_Z_plus; unfold Z.sub; rewrite inject_Z_plus, inject_Z_opp; change (inject_Z 1) with 1%Q; lra).
  assert (Y : (inject_Z (Qfloor x - k) < inject_Z (Qfloor (x - inject_Z k) + 1))%Q) by (rewrite inject_Z_plus; unfold Z.sub; rewrite inject_Z_plus, inject_Z_opp; change (inject_Z 1) with 1%Q; lra). rewrite <- Zlt_Qlt in X, Y. lia.
Qed.
Lemma used_only : forall night ra start D grid o u, d_only D = Some o -> (In u (used night ra start D grid) <-> in_only night ra start grid o u).
Proof.
  intros night ra start D grid o u Ho. rewrite used_in, Ho. cbn [opt]. unfold in_season, season_at. rewrite floor_shift, Z.eqb_eq.
  set (ses := map (fun u0 => calc_season ra (first_mjd night grid u0) start) (unique_sorted (nights night grid))).
  assert (Is : forall y, In y ses <-> exists v, season_of night ra start grid v y).
  { intros y. unfold ses. rewrite in_map_iff. split.
    - intros (v & <- & I). rewrite unique_sorted_in in I. exists v. apply season_first. split; [exact I|reflexivity].
    - intros (v & S). apply season_first in S. destruct S as [I ->]. exists v. split; [reflexivity|rewrite unique_sorted_in; exact I]. }
  assert (Iu : (exists g, In g grid /\ night (g_mjd g) = u) <-> In u (nights night grid)) by (unfold nights; rewrite in_map_iff; split; intros (g & A & B); exists g; split; assumption).
  rewrite Iu. split.
  - intros [I F]. assert (S : season_of night ra start grid u (calc_season ra (first_mjd night grid u) start)) by (apply season_first; split; [exact I|reflexivity]). exists (calc_season ra (first_mjd night grid u) start), (Qfloor (qlow ses)). split; [exact S|]. split; [lia|].
    assert (N : ses <> []) by (intros X; assert (Y : In (calc_season ra (first_mjd night grid u) start) ses) by (apply Is; exists u; exact S); rewrite X in Y; contradiction). destruct (qlow_spec ses N) as [A B]. split.
    + apply Is in A. destruct A as [v A]. exists v, (qlow ses). split; [exact A|reflexivity].
    + intros v y Sy. apply Qfloor_mono. apply B. apply Is. exists v. exact Sy.
  - intros (x & low & S & F & (v & y & Sy & Fy) & Low). apply season_first in S. destruct S as [I ->]. split; [exact I|]. assert (N : ses <> []) by (intros X; assert (Y : In y ses) by (apply Is; exists v; exact Sy); rewrite X in Y; contradiction). destruct (qlow_spec ses N) as [A B].
    assert (E : Qfloor (qlow ses) = low). { apply Z.le_antisymm; [rewrite <- Fy; apply Qfloor_mono; apply B; apply Is; exists v; exact Sy|]. apply Is in A. destruct A as [w A]. apply (Low w). exact A. }
    rewrite E. lia.
Qed.
(** At most one sequence in a night, in order, and with only_season only in that season. *)
Theorem C95_nights : forall night ra start D grid mjds oc sched, optimize night ra start D grid = Ok (mjds, oc, sched) ->
  StronglySorted Z.lt (map night mjds) /\ forall o t, d_only D = Some o -> In t mjds -> in_only night ra start grid o (night t).
Proof.
  intros night ra start D grid mjds oc sched H. split.
  - destruct (optimize_inv _ _ _ _ _ _ _ _ H) as (n & Hn & [->|(base & S & Sl & _ & M & F)]); [constructor|]. assert (So := taken_sorted (used night ra start D grid) sched (used_sorted night ra start D grid)). set (us := map fst (filter (fun p => (snd p =? 1)%Z) (combine (used night ra start D grid) sched))) in *. clearbody us.
    assert (E : map night mjds = us). { clear - F. induction F as [|u t l r Hu F IH]; [reflexivity|]. cbn. destruct (best_spec _ _ _ _ _ Hu) as (i & g & q & _ & _ & N & _). rewrite N, IH. reflexivity. }
    rewrite E. exact So.
  - intros o t Ho It. destruct (times_start _ _ _ _ _ _ _ _ H) as (n & _ & T). destruct (T t It) as (i & g & q & _ & _ & _ & _ & U & _). apply used_only with D; assumption.
Qed.
Print Assumptions C95_nights.
(** With only_season, no boost and rates not negative: no error, and as many sequences as asked
    or as nights allow, exactly if the curve starts low and grows by less than one a night. *)
Theorem C95_total_partial : forall night ra start D grid o n, d_only D = Some o -> d_boost D = None -> (0 <= d_n D)%Q -> (0 <= d_rate D)%Q -> span D grid n ->
  exists mjds oc sched, optimize night ra start D grid = Ok (mjds, oc, sched).
Proof.
  intros night ra start D grid o n Ho Hb Hn Hd Sp. apply span_steps in Sp. destruct Sp as [Hm _]. destruct (only_total night ra start D grid n o Hm Ho Hb Hn Hd) as [[[m c] s] E]. exists m, c, s. exact E.
Qed.
Print Assumptions C95_total_partial.
Theorem C95_count_partial : forall night ra start D grid o n mjds cum sched free, d_only D = Some o -> d_boost D = None -> (0 <= d_n D)%Q -> (0 <= d_rate D)%Q -> span D grid n ->
  NoDup free -> (forall u, In u free <-> in_only night ra start grid o u /\ exists i g, nth_error grid i = Some g /\ night (g_mjd g) = u /\ good_start night D grid n i) ->
  optimize night ra start D grid = Ok (mjds, Some cum, sched) ->
  let most := Z.min (Qround_even (d_n D)) (Z.of_nat (List.length free)) in
  (cum <> [] -> last cum 0%Q == inject_Z most)%Q /\ (cum <> [] -> (Z.of_nat (List.length mjds) <= most)%Z) /\
  (cum <> [] -> (nth 0 cum 0 <= 1 # 2)%Q -> (forall k, S k < List.length cum -> (nth (S k) cum 0 < nth k cum 0 + 1)%Q) -> Z.of_nat (List.length mjds) = most).
Proof.
  intros night ra start D grid o n mjds cum sched free Ho Hb Hn Hd Sp Nd Fr H. cbv zeta. pose proof Sp as Sp0. apply span_steps in Sp0. destruct Sp0 as [Hm _].
  assert (Lf : List.length (filter (is_free night D grid n) (used night ra start D grid)) = List.length free).
  { apply Permutation_length. apply NoDup_Permutation; [apply NoDup_filter, sorted_lt_nodup, used_sorted|exact Nd|]. intros u. rewrite filter_In, (used_only _ _ _ _ _ o u Ho), is_free_iff, Fr. split; intros [A (i & g & B & C & E)]; (split; [exact A|]); exists i, g; (split; [exact B|]); (split; [exact C|]); apply good_iff; exact E. }
  assert (Hr : forall r, In r (rates night ra start D grid) -> (0 <= r)%Q).
  { intros r I. unfold rates in I. apply in_map_iff in I. destruct I as (s & <- & _). unfold rate. destruct (d_early D); repeat match goal with |- context [if ?b then _ else _] => destruct b end; lra. }
  rewrite optimize_eq, Hm in H. cbn [bind] in H. destruct (Qltb 0 (qsum (rates night ra start D grid))) eqn:Q0; [|assert (cum = []) by congruence; subst cum; repeat split; intros X; congruence]. apply Qltb_lt in Q0.
  destruct (slopes (rates night ra start D grid) (map (season_at night ra start grid) (used night ra start D grid)) (d_n D) 0 (d_boost D)) as [[base|]|] eqn:Sl; cbn [bind] in H; try discriminate.
  destruct (match_cumulative (scaled night ra start D grid n base) (map (is_free night D grid n) (used night ra start D grid)) true) as [sc|] eqn:M; cbn [bind] in H; [|discriminate].
  destruct (collect (best_time night grid (big_mask night D grid n)) (map fst (filter (fun p => (snd p =? 1)%Z) (combine (used night ra start D grid) sc)))) as [ts|] eqn:C; cbn [bind] in H; [|discriminate].
  assert (ts = mjds /\ scaled night ra start D grid n base = cum /\ sc = sched) as (-> & Ec & ->) by (repeat split; congruence). clear H.
  destruct (only_steps night ra start D grid n o base Ho Hb Hn Hr Q0 Sl) as [S1 S2]. destruct (only_curve night ra start D grid n o base Ho Hb Hn Hr Q0 Sl) as (L & c & C0 & C1 & C2). unfold most in *. rewrite Lf in *.
  assert (L2 : List.length (map (is_free night D grid n) (used night ra start D grid)) = List.length (scaled night ra start D grid n base)) by (rewrite map_length, scaled_length; symmetry; exact L).
  assert (Ct : Z.of_nat (List.length mjds) = Z.of_nat (List.length (step_points (scaled night ra start D grid n base)))).
  { apply collect_spec in C. apply Forall2_len in C. rewrite <- C. rewrite taken_count; [apply (match_sum _ _ _ _ L2 M)| |].
    - destruct (match_trace _ _ _ _ M) as (_ & _ & Lo & _). rewrite Lo, scaled_length. symmetry. exact L.
    - intros j. destruct (match_entries _ _ _ L2 M j) as [E|[E _]]; [left|right]; exact E. }
  rewrite Ct. rewrite Ec in *. split; [|split; [intros _; exact S1|intros _; exact S2]]. intros Nc. rewrite last_nth by exact Nc.
  assert (Lc : List.length cum = List.length (used night ra start D grid)) by (rewrite <- L, <- Ec; apply scaled_length). assert (List.length cum <> 0) by (destruct cum; [congruence|discriminate]). rewrite C2 by lia. rewrite <- C1. apply Qmult_comp; [reflexivity|].
  assert (Lr : List.length (psums 0 (rates night ra start D grid)) = List.length cum) by (rewrite psums_length; unfold rates; rewrite !map_length; symmetry; exact Lc). assert (Ne : psums 0 (rates night ra start D grid) <> []) by (intros X; rewrite X in Lr; cbn in Lr; congruence). rewrite <- Lr. rewrite <- last_nth by exact Ne. rewrite psums_last. ring.
Qed.
Print Assumptions C95_count_partial.

(** ** Witnesses *)
(** Fourteen times, one every thirty days; all clear, a little deeper each time. *)
Definition w_start : Q := 60940 # 1.
Definition w_pt (k : nat) : gpt := mkGpt (w_start + 30 * inject_Z (Z.of_nat k)) (EFin (-1)) (EFin (12 # 10)) (EFin 22) (EFin (24 + inject_Z (Z.of_nat k) / 100)) (EFin 0).
Definition w_grid : list gpt := map w_pt (seq 0 14).
Definition w_set (n low rate : Q) (early : bool) : dset := mkDset (-3 # 10) 60 (5 # 2) None (Some (47 # 2)) (1461 # 20) low rate n None (Some 0%Z) None None None early.
Definition w_run (n low rate : Q) (early : bool) := optimize Qfloor ref_sun w_start (w_set n low rate early) w_grid.
Lemma w_steady : steady w_grid.
Proof.
  exists (w_pt 0), (w_pt 1), (map w_pt (seq 2 12)). split; [reflexivity|]. split; [reflexivity|]. intros i g h A B. unfold w_grid in *. rewrite nth_error_map in A, B. destruct (nth_error (seq 0 14) i) as [a|] eqn:Ea; [|discriminate]. destruct (nth_error (seq 0 14) (S i)) as [b|] eqn:Eb; [|discriminate]. cbn [option_map] in A, B. injection A as <-. injection B as <-.
  assert (S i < 14) by (rewrite <- (seq_length 14 0); apply nth_error_Some; congruence). rewrite (nth_error_nth' _ 0) in Ea by (rewrite seq_length; lia). rewrite (nth_error_nth' _ 0) in Eb by (rewrite seq_length; lia). rewrite seq_nth in Ea by lia. rewrite seq_nth in Eb by lia. injection Ea as <-. injection Eb as <-.
  unfold w_pt. cbn [g_mjd plus]. rewrite (Nat2Z.inj_succ i), <- Z.add_1_r, inject_Z_plus. unfold w_start. generalize (inject_Z (Z.of_nat i)). intros z. change (inject_Z (Z.of_nat 1)) with 1%Q. change (inject_Z (Z.of_nat 0)) with 0%Q. change (inject_Z 1) with 1%Q. lra.
Qed.
Lemma w_span : forall n low rate early, span (w_set n low rate early) w_grid 1.
Proof. intros n low rate early. apply span_steps. split; [vm_compute; reflexivity|]. exists (w_pt 0), (w_pt 1), (map w_pt (seq 2 12)). split; reflexivity. Qed.
Example C95_ex_times : exists cum sched, w_run 2 0 (3 # 10) false = Ok ([61060; 61210]%Q, Some cum, sched) /\ (nth 0 cum 0 <= 1 # 2)%Q /\ (forall k, S k < List.length cum -> (nth (S k) cum 0 < nth k cum 0 + 1)%Q) /\ (last cum 0 == 2)%Q.
Proof.
  do 2 eexists. split; [vm_compute; reflexivity|]. split; [vm_compute; congruence|]. split; [|vm_compute; reflexivity]. intros k L. cbn [List.length] in L. do 12 (destruct k as [|k]; [vm_compute; reflexivity|]). lia.
Qed.
(** The season asked for: the fraction of the year of the field between the ends. *)
Definition off_season (ra start off t : Q) : Prop := let x := calc_season ra t start in (x - inject_Z (Qfloor x) < off / yr)%Q \/ (1 - off / yr < x - inject_Z (Qfloor x))%Q.
(** A sequence in the off season, all nights clear, a night of the season left free. *)
Theorem C95_season_refuted : exists night ra start D grid mjds cum sched t, steady grid /\ d_early D = false /\ (d_low D == 0)%Q /\
  optimize night ra start D grid = Ok (mjds, Some cum, sched) /\ In t mjds /\ off_season ra start (d_off D) t /\
  exists i g, nth_error grid i = Some g /\ good_start night D grid 1 i /\ ~ off_season ra start (d_off D) (g_mjd g) /\ ~ In (night (g_mjd g)) (map night mjds).
Proof.
  exists Qfloor, ref_sun, w_start, (w_set 7 0 (3 # 10) false), w_grid, [61030; 61090; 61120; 61150; 61180; 61210; 61240]%Q. do 2 eexists. exists 61240%Q. split; [exact w_steady|]. split; [reflexivity|]. split; [reflexivity|]. split; [vm_compute; reflexivity|].
  split; [cbn; tauto|]. split; [right; vm_compute; reflexivity|]. exists 4, (w_pt 4). split; [reflexivity|]. split; [apply good_iff; vm_compute; reflexivity|]. split.
  - unfold off_season. intros [X|X]; vm_compute in X; discriminate.
  - vm_compute. intros X. repeat (destruct X as [X|X]; [discriminate|]). exact X.
Qed.
Print Assumptions C95_season_refuted.
(** With a low season longer than the off season, and with early and late nights only, the off
    season is scheduled too. *)
Theorem C95_accordion_refuted : forall early, exists night ra start D grid mjds cum sched t, steady grid /\ d_early D = early /\ (d_off D / yr < d_low D)%Q /\
  optimize night ra start D grid = Ok (mjds, Some cum, sched) /\ In t mjds /\ off_season ra start (d_off D) t.
Proof.
  intros [|].
  - exists Qfloor, ref_sun, w_start, (w_set 5 (3 # 10) 1 true), w_grid, [61000; 61240; 61270; 61300]%Q. do 2 eexists. exists 61300%Q. split; [exact w_steady|]. split; [reflexivity|]. split; [reflexivity|]. split; [vm_compute; reflexivity|]. split; [cbn; tauto|]. right. vm_compute. reflexivity.
  - exists Qfloor, ref_sun, w_start, (w_set 5 (3 # 10) 1 false), w_grid, [60970; 61060; 61150; 61240; 61300]%Q. do 2 eexists. exists 60970%Q. split; [exact w_steady|]. split; [reflexivity|]. split; [reflexivity|]. split; [vm_compute; reflexivity|]. split; [cbn; tauto|]. left. vm_compute. reflexivity.
Qed.
Print Assumptions C95_accordion_refuted.
(** One night in the season: nothing is scheduled though it is clear. *)
Theorem C95_short_refuted : exists night ra start D grid mjds oc sched i g, steady grid /\ (d_n D == 3)%Q /\ optimize night ra start D grid = Ok (mjds, oc, sched) /\ mjds = [] /\
  nth_error grid i = Some g /\ good_start night D grid 1 i /\ ~ off_season ra start (d_off D) (g_mjd g).
Proof.
  exists Qfloor, ref_sun, w_start, (w_set 3 0 1 false), (firstn 4 w_grid). do 3 eexists. exists 3, (w_pt 3). split.
  - destruct w_steady as (a & b & r & E & Hd & Hs). exists (w_pt 0), (w_pt 1), [w_pt 2; w_pt 3]. split; [reflexivity|]. split; [reflexivity|]. intros i g h A B. assert (a = w_pt 0 /\ b = w_pt 1) as [-> ->] by (split; unfold w_grid in E; cbn [seq map] in E; congruence). apply (Hs i g h).
    + do 4 (destruct i as [|i]; [exact A|]). destruct i; discriminate.
    + do 3 (destruct i as [|i]; [exact B|]). destruct i; discriminate.
  - split; [reflexivity|]. split; [vm_compute; reflexivity|]. split; [reflexivity|]. split; [reflexivity|]. split; [apply good_iff; vm_compute; reflexivity|]. unfold off_season. intros [X|X]; vm_compute in X; discriminate.
Qed.
Print Assumptions C95_short_refuted.
