(** Proofs about the dithering detailers. *)
From Coq Require Import List ZArith Bool String Lia Sorted Arith.
From Verif Require Import Base Dither.
Import ListNotations.
Open Scope Z_scope.

Lemma seed_ok : forall big night, big_int_ok big = true -> -36525 <= night ->
  dither_seed big night = Ok (if night <? 0 then big + night else night).
Proof.
  intros big night H L. unfold big_int_ok in H. apply andb_prop in H. destruct H as [H _]. apply Z.ltb_lt in H.
  unfold dither_seed. destruct (night <? 0) eqn:E.
  - apply Z.ltb_lt in E. destruct (Z.ltb_spec (big + night) 0); [lia|reflexivity].
  - rewrite E. reflexivity.
Qed.
Lemma seeds_distinct : forall big a b, big_int_ok big = true -> -18262 <= a <= 18262 -> -18262 <= b <= 18262 ->
  dither_seed big a = dither_seed big b -> a = b.
Proof.
  intros big a b H A B E. rewrite !seed_ok in E by (auto; lia). injection E as E.
  unfold big_int_ok in H. apply andb_prop in H. destruct H as [H _]. apply Z.ltb_lt in H.
  destruct (Z.ltb_spec a 0), (Z.ltb_spec b 0); lia.
Qed.

Section D.
Context {P : Type}.
Variables (big : Z).

(** ** One offset a night *)
Definition pn_inv (f : Z -> P) (s : dst P) : Prop :=
  forall nt, d_night s = Some nt -> exists k, dither_seed big nt = Ok k /\ d_pos s = [f k].
Lemma pn_step : forall (f : Z -> P) s n night, pn_inv f s ->
  pn_inv f (fst (dither_call big true (fun k => [f k]) s n night)) /\
  ((0 < n)%nat -> snd (dither_call big true (fun k => [f k]) s n night) = bind (dither_seed big night) (fun k => Ok (repeat (f k) n))).
Proof.
  intros f s n night I. unfold dither_call. destruct n as [|n]; [split; [exact I|intro; lia]|]. cbn [Nat.eqb].
  destruct (is_night (d_night s) night) eqn:E.
  - assert (N : d_night s = Some night).
    { unfold is_night in E. destruct (d_night s) as [k|]; [|discriminate]. apply Z.eqb_eq in E. subst. reflexivity. }
    destruct (I _ N) as [k [K1 K2]]. cbn [fst snd]. split; [exact I|]. intros _. rewrite K1, K2. reflexivity.
  - destruct (dither_seed big night) as [k|e] eqn:K; cbn [bind fst snd]; [|split; [exact I|reflexivity]].
    split; [|reflexivity]. intros nt Hn. cbn in Hn. injection Hn as <-. exists k. split; [exact K|reflexivity].
Qed.
Lemma pn_run : forall (f : Z -> P) l s, pn_inv f s -> pn_inv f (fst (dither_run big true (fun k => [f k]) s l)).
Proof.
  induction l as [|e l IH]; intros s I; [exact I|]. destruct e as [n k|k]; cbn [dither_run].
  - destruct (pn_step f s n k I) as [A _]. destruct (dither_call big true (fun k => [f k]) s n k) as [s1 a]. cbn [fst] in A.
    specialize (IH s1 A). destruct (dither_run big true (fun k => [f k]) s1 l) as [s2 l2]. exact IH.
  - apply IH. exact I.
Qed.
Theorem per_night_spec : forall (f : Z -> P) pre n night, (0 < n)%nat ->
  snd (dither_call big true (fun k => [f k]) (fst (dither_run big true (fun k => [f k]) dst0 pre)) n night)
  = bind (dither_seed big night) (fun k => Ok (repeat (f k) n)).
Proof. intros f pre n night H. apply pn_step; [|exact H]. apply pn_run. intros nt E. discriminate. Qed.

(** ** One offset a visit *)
Definition visits (l : list dev) : list Z := flat_map (fun e => match e with DVisit k => [k] | DCall _ _ => [] end) l.
Definition pv_inv (seeded : Z -> list P) (s : dst P) : Prop :=
  forall nt, d_night s = Some nt -> exists k, dither_seed big nt = Ok k /\ d_pos s = seeded k.
Lemma pv_run : forall seeded l s, pv_inv seeded s ->
  pv_inv seeded (fst (dither_run big false seeded s l)) /\
  d_cnt (fst (dither_run big false seeded s l)) = fold_left cnt_add (visits l) (d_cnt s).
Proof.
  induction l as [|e l IH]; intros s I; [split; [exact I|reflexivity]|]. destruct e as [n night|k]; cbn [dither_run visits flat_map app].
  - assert (A : pv_inv seeded (fst (dither_call big false seeded s n night)) /\ d_cnt (fst (dither_call big false seeded s n night)) = d_cnt s).
    { unfold dither_call. destruct (Nat.eqb n 0); [split; [exact I|reflexivity]|].
      destruct (is_night (d_night s) night); [split; [exact I|reflexivity]|].
      destruct (dither_seed big night) as [k|e] eqn:K; cbn [bind fst]; [|split; [exact I|reflexivity]].
      split; [|reflexivity]. intros nt Hn. cbn in Hn. injection Hn as <-. exists k. split; [exact K|reflexivity]. }
    destruct A as [A1 A2]. destruct (dither_call big false seeded s n night) as [s1 a]. cbn [fst] in A1, A2.
    destruct (IH s1 A1) as [B1 B2]. destruct (dither_run big false seeded s1 l) as [s2 l2]. cbn [fst] in *. rewrite A2 in B2. split; assumption.
  - destruct (IH (dither_add s k) I) as [B1 B2]. split; [exact B1|]. rewrite B2. reflexivity.
Qed.
Lemma sorted_tail : forall (l : list Z) x, Sorted Z.le (x :: l) -> Forall (fun y => x <= y) l.
Proof. intros l x H. apply Sorted_extends; [intros a b c; lia|exact H]. Qed.
Lemma last_in : forall (l : list Z) y, In (last (y :: l) 0) (y :: l).
Proof. induction l as [|a l IH]; intro y; [left; reflexivity|right; apply (IH a)]. Qed.
Lemma count_run : forall l c, Sorted Z.le (c_night c :: l) ->
  fold_left cnt_add l c =
  match l with
  | [] => c
  | _ => mkCnt (last l 0) (count_occ Z.eq_dec l (last l 0) + if Z.eqb (last l 0) (c_night c) then c_n c else O)
  end.
Proof.
  induction l as [|x l IH]; intros c So; [reflexivity|]. cbn [fold_left].
  pose proof (sorted_tail _ _ So) as F. inversion F as [|? ? F1 F2]; subst. inversion So as [|? ? S1 S2]; subst.
  unfold cnt_add at 2. set (c1 := if x =? c_night c then c else mkCnt x 0).
  assert (N1 : c_night c1 = x) by (unfold c1; destruct (Z.eqb_spec x (c_night c)); cbn; congruence).
  rewrite IH by (cbn [c_night]; rewrite N1; exact S1). cbn [c_night c_n].
  destruct l as [|y l].
  - cbn [last count_occ]. destruct (Z.eq_dec x x); [|contradiction]. rewrite N1. f_equal. unfold c1.
    destruct (Z.eqb x (c_night c)); cbn [c_n]; lia.
  - change (last (x :: y :: l) 0) with (last (y :: l) 0). set (z := last (y :: l) 0).
    assert (Z1 : x <= z /\ c_night c <= z).
    { assert (In z (y :: l)) by apply last_in.
      rewrite Forall_forall in F2. pose proof (sorted_tail _ _ S1) as F3. rewrite Forall_forall in F3. split; [apply F3|apply F2]; exact H. }
    rewrite N1. f_equal. change (count_occ Z.eq_dec (x :: y :: l) z) with (if Z.eq_dec x z then S (count_occ Z.eq_dec (y :: l) z) else count_occ Z.eq_dec (y :: l) z).
    destruct (Z.eqb_spec z x) as [E|E].
    + destruct (Z.eq_dec x z); [|congruence]. unfold c1. destruct (Z.eqb_spec x (c_night c)); cbn [c_n].
      * destruct (Z.eqb_spec z (c_night c)); [lia|congruence].
      * destruct (Z.eqb_spec z (c_night c)); [congruence|lia].
    + destruct (Z.eq_dec x z); [congruence|]. destruct (Z.eqb_spec z (c_night c)); [|lia].
      exfalso. lia.
Qed.
Lemma count_visits : forall l, Sorted Z.le l ->
  c_n (fold_left cnt_add l cnt0) = count_occ Z.eq_dec l (last l 0).
Proof.
  intros [|x l] So; [reflexivity|]. cbn [fold_left].
  assert (E : cnt_add cnt0 x = mkCnt x 1) by (unfold cnt_add, cnt0; cbn; destruct (Z.eqb_spec x (-1)); subst; reflexivity).
  rewrite E. rewrite count_run by exact So. destruct l as [|y l].
  - cbn. destruct (Z.eq_dec x x); [reflexivity|contradiction].
  - cbn [c_n c_night]. change (last (x :: y :: l) 0) with (last (y :: l) 0). set (z := last (y :: l) 0).
    change (count_occ Z.eq_dec (x :: y :: l) z) with (if Z.eq_dec x z then S (count_occ Z.eq_dec (y :: l) z) else count_occ Z.eq_dec (y :: l) z).
    destruct (Z.eqb_spec z x), (Z.eq_dec x z); try congruence; lia.
Qed.
Lemma broadcast_full : forall (os : list P) n, List.length os = n -> broadcast os n = Ok os.
Proof.
  intros os n <-. unfold broadcast. destruct os as [|o [|o' os]]; [reflexivity|reflexivity|].
  rewrite Nat.eqb_refl. reflexivity.
Qed.
Lemma per_visit_general : forall seeded pre n night k, (0 < n)%nat -> dither_seed big night = Ok k ->
  snd (dither_call big false seeded (fst (dither_run big false seeded dst0 pre)) n night)
  = broadcast (firstn n (skipn (c_n (fold_left cnt_add (visits pre) cnt0)) (seeded k : list P))) n.
Proof.
  intros seeded pre n night k Hn K.
  destruct (pv_run seeded pre dst0) as [I C]; [intros nt E; discriminate|].
  set (s := fst (dither_run big false seeded dst0 pre)) in *. unfold dither_call.
  destruct n as [|n]; [lia|]. cbn [Nat.eqb].
  destruct (is_night (d_night s) night) eqn:E.
  - assert (N : d_night s = Some night).
    { unfold is_night in E. destruct (d_night s) as [j|]; [|discriminate]. apply Z.eqb_eq in E. subst. reflexivity. }
    destruct (I _ N) as [j [J1 J2]]. rewrite K in J1. injection J1 as <-. cbn [snd]. rewrite J2, C. reflexivity.
  - rewrite K. cbn [bind snd d_pos d_cnt]. rewrite C. reflexivity.
Qed.
Theorem per_visit_spec : forall seeded pre n night k,
  (0 < n)%nat -> dither_seed big night = Ok k -> Sorted Z.le (visits pre) ->
  (visits pre = [] \/ last (visits pre) 0 = night) ->
  let c := count_occ Z.eq_dec (visits pre) night in
  (c + n <= List.length (seeded k : list P))%nat ->
  snd (dither_call big false seeded (fst (dither_run big false seeded dst0 pre)) n night)
  = Ok (firstn n (skipn c (seeded k))).
Proof.
  intros seeded pre n night k Hn K S L c Hc. rewrite (per_visit_general _ _ _ _ k Hn K).
  rewrite count_visits by exact S.
  assert (E : count_occ Z.eq_dec (visits pre) (last (visits pre) 0) = c).
  { unfold c. destruct L as [L|L]; [rewrite L; reflexivity|rewrite L; reflexivity]. }
  rewrite E. apply broadcast_full. rewrite firstn_length, skipn_length. lia.
Qed.
(** Too few positions left from the night before: no call of a new night can succeed. *)
Theorem per_visit_stuck : forall seeded pre n night k, (1 < n)%nat -> dither_seed big night = Ok k -> Sorted Z.le (visits pre) ->
  (List.length (seeded k : list P) <= count_occ Z.eq_dec (visits pre) (last (visits pre) 0%Z))%nat ->
  snd (dither_call big false seeded (fst (dither_run big false seeded dst0 pre)) n night) = Raise ValueError.
Proof.
  intros seeded pre n night k Hn K S L. rewrite (per_visit_general seeded pre n night k (Nat.lt_trans 0 1 n Nat.lt_0_1 Hn) K).
  rewrite count_visits by exact S. rewrite skipn_all2 by exact L. rewrite firstn_nil. unfold broadcast.
  destruct n; [lia|reflexivity].
Qed.
End D.

(** ** SplitDetailer *)
Fixpoint select {A} (mask : list bool) (b : bool) (l : list A) : list A :=
  match mask, l with
  | m :: ms, x :: r => if Bool.eqb m b then x :: select ms b r else select ms b r
  | _, _ => []
  end.
Lemma merge_select : forall {A} mask (xs ys : list A),
  List.length xs = List.length (filter negb mask) -> List.length ys = List.length (filter (fun b => b) mask) ->
  List.length (merge mask xs ys) = List.length mask /\ select mask false (merge mask xs ys) = xs /\ select mask true (merge mask xs ys) = ys.
Proof.
  intros A. induction mask as [|m mask IH]; intros xs ys H1 H2.
  - cbn in *. destruct xs; [|discriminate]. destruct ys; [|discriminate]. repeat split.
  - destruct m; cbn [filter negb List.length] in H1, H2.
    + destruct ys as [|y ys]; [discriminate|]. injection H2 as H2. destruct (IH xs ys H1 H2) as [A1 [A2 A3]].
      cbn [merge List.length select Bool.eqb]. rewrite A1, A2, A3. repeat split.
    + destruct xs as [|x xs]; [discriminate|]. injection H1 as H1. destruct (IH xs ys H1 H2) as [A1 [A2 A3]].
      cbn [merge List.length select Bool.eqb]. rewrite A1, A2, A3. repeat split.
Qed.
Lemma filter_map_len : forall {A} (f : A -> bool) l,
  List.length (filter (fun b => b) (map f l)) = List.length (filter f l) /\
  List.length (filter negb (map f l)) = List.length (filter (fun a => negb (f a)) l).
Proof.
  induction l as [|a l [I1 I2]]; [split; reflexivity|]. cbn [map filter]. destruct (f a); cbn [negb List.length]; lia.
Qed.
Theorem split_spec : forall {A S1 S2} (d1 : S1 -> list A -> S1 * res (list A)) (d2 : S2 -> list A -> S2 * res (list A))
    (note : A -> string) sub s l out xs ys,
  let mask := map (fun a => contains (note a) sub) l in
  snd (d1 (fst s) (filter (fun a => negb (contains (note a) sub)) l)) = Ok xs ->
  snd (d2 (snd s) (filter (fun a => contains (note a) sub) l)) = Ok ys ->
  List.length xs = List.length (filter (fun a => negb (contains (note a) sub)) l) ->
  List.length ys = List.length (filter (fun a => contains (note a) sub) l) ->
  snd (split_call d1 d2 note sub s l) = out ->
  exists o, out = Ok o /\ List.length o = List.length l /\ select mask false o = xs /\ select mask true o = ys.
Proof.
  intros A S1 S2 d1 d2 note sub s l out xs ys mask E1 E2 L1 L2 <-. unfold split_call. fold mask.
  destruct (filter_map_len (fun a => contains (note a) sub) l) as [M1 M2]. fold mask in M1, M2. cbn beta in M1, M2.
  destruct (d1 (fst s) (filter (fun a => negb (contains (note a) sub)) l)) as [s1 r1]. cbn [snd] in E1. subst r1.
  rewrite M2, L1, Nat.eqb_refl. cbn [orb negb].
  destruct (d2 (snd s) (filter (fun a => contains (note a) sub) l)) as [s2 r2]. cbn [snd] in E2. subst r2.
  rewrite M1, L2, Nat.eqb_refl. cbn [orb negb snd].
  assert (X1 : match xs with [x] => repeat x (List.length (filter (fun a => negb (contains (note a) sub)) l)) | _ => xs end = xs).
  { rewrite <- L1. destruct xs as [|x [|x' xs]]; reflexivity. }
  assert (X2 : match ys with [y] => repeat y (List.length (filter (fun a => contains (note a) sub) l)) | _ => ys end = ys).
  { rewrite <- L2. destruct ys as [|y [|y' ys]]; reflexivity. }
  rewrite X1, X2. destruct (merge_select mask xs ys) as [N1 [N2 N3]]; [congruence|congruence|].
  eexists. split; [reflexivity|]. split; [rewrite N1; unfold mask; apply map_length|split; assumption].
Qed.

(** ** DeltaCoordDitherDetailer *)
Section Delta.
Context {Pos Off A : Type}.
Lemma block_nth : forall {X Y} (g : X -> list Y) k l i j x d, (forall x, List.length (g x) = k) ->
  nth_error l i = Some x -> (j < k)%nat -> nth_error (flat_map g l) (i * k + j) = Some (nth j (g x) d).
Proof.
  intros X Y g k l. induction l as [|y l IH]; intros i j x d Hg E Hj; [destruct i; discriminate|].
  cbn [flat_map]. destruct i as [|i].
  - cbn in E. injection E as <-. cbn [Nat.mul Nat.add]. rewrite nth_error_app1 by (rewrite Hg; lia).
    apply nth_error_nth'. rewrite Hg. exact Hj.
  - cbn in E. rewrite nth_error_app2 by (rewrite Hg; nia). rewrite Hg.
    replace (S i * k + j - k)%nat with (i * k + j)%nat by nia. apply IH; auto.
Qed.
Theorem delta_spec : forall (move : Pos -> Off -> Pos) offs rots (l : list (@crow Pos A)) d,
  l <> [] -> match rots with Some rs => List.length rs = List.length offs | None => True end ->
  exists out, delta_call move offs rots l = Ok out /\
    List.length out = (List.length l * List.length offs)%nat /\
    forall i j r, nth_error l i = Some r -> (j < List.length offs)%nat ->
      exists q, nth_error out (i * List.length offs + j) = Some q /\
        k_pos q = move (k_pos r) (nth j offs d) /\ k_rest q = k_rest r /\
        k_rot q = k_rot r + match rots with Some rs => nth j rs 0 | None => 0 end.
Proof.
  intros move offs rots l d N H. unfold delta_call. destruct l as [|r0 l]; [contradiction|]. clear N.
  eexists. split; [reflexivity|]. set (L := r0 :: l). clearbody L.
  set (g := fun r : @crow Pos A => match rots with
      | None => map (fun o => mkCrow (move (k_pos r) o) (k_rot r) (k_rest r)) offs
      | Some rs => map (fun p => mkCrow (move (k_pos r) (fst p)) (k_rot r + snd p) (k_rest r)) (combine offs rs)
      end).
  assert (Hg : forall r, List.length (g r) = List.length offs).
  { intro r. unfold g. destruct rots as [rs|]; rewrite map_length; [rewrite combine_length, H; lia|reflexivity]. }
  split.
  - induction L as [|x L IH]; [reflexivity|]. cbn [flat_map]. rewrite app_length, Hg, IH. reflexivity.
  - intros i j r E Hj.
    exists (nth j (g r) (mkCrow (move (k_pos r) d) (k_rot r + 0) (k_rest r))).
    split; [apply block_nth; auto|]. unfold g. destruct rots as [rs|].
    + set (F := fun p : Off * Z => mkCrow (move (k_pos r) (fst p)) (k_rot r + snd p) (k_rest r)).
      change (mkCrow (move (k_pos r) d) (k_rot r + 0) (k_rest r)) with (F (d, 0)).
      rewrite map_nth, combine_nth by (symmetry; exact H). cbn. repeat split.
    + set (F := fun o : Off => mkCrow (move (k_pos r) o) (k_rot r) (k_rest r)).
      rewrite (nth_indep _ _ (F d)) by (rewrite map_length; exact Hj). rewrite map_nth. cbn. repeat split. lia.
Qed.
End Delta.

(** ** ComCamGridDitherDetailer *)
(** [j] is the place of observation [p] in its run of one band. *)
Definition place_in_run (bands : list string) (p j : nat) : Prop :=
  exists b, (j <= p)%nat /\ (forall i, (p - j <= i <= p)%nat -> nth_error bands i = Some b) /\
    (p = j \/ exists b', nth_error bands (p - j - 1) = Some b' /\ b' <> b).
Lemma grid_length : forall bands prev i, List.length (grid_from prev i bands) = List.length bands.
Proof. induction bands as [|b r IH]; intros prev i; [reflexivity|]. cbn [grid_from List.length]. rewrite IH. reflexivity. Qed.
Lemma grid_nth_first : forall r prev i p j,
  (forall q, (q <= p)%nat -> nth_error r q = prev) -> prev <> None -> j = (i + p)%nat ->
  (p < List.length r)%nat -> nth_error (grid_from prev i r) p = Some (Nat.modulo j 4, Nat.modulo (Nat.div j 4) 5).
Proof.
  induction r as [|b r IH]; intros prev i p j H N -> L; [cbn in L; lia|].
  pose proof (H 0%nat ltac:(lia)) as H0. cbn in H0. subst prev. cbn [grid_from]. rewrite String.eqb_refl.
  destruct p as [|p].
  - cbn [nth_error]. rewrite Nat.add_0_r. reflexivity.
  - cbn [nth_error]. apply IH.
    + intros q Hq. apply (H (S q)). lia.
    + discriminate.
    + lia.
    + cbn in L. lia.
Qed.
Theorem grid_spec : forall bands p j, place_in_run bands p j ->
  nth_error (grid_indices bands) p = Some (Nat.modulo j 4, Nat.modulo (Nat.div j 4) 5).
Proof.
  intros bands p j [b [L [H B]]]. unfold grid_indices.
  assert (G : forall bands prev i s, (forall q, (q <= j)%nat -> nth_error bands (s + q) = Some b) ->
     (s = 0%nat -> prev <> Some b) -> (s = 0%nat \/ exists b', nth_error bands (s - 1) = Some b' /\ b' <> b) ->
     nth_error (grid_from prev i bands) (s + j) = Some (Nat.modulo j 4, Nat.modulo (Nat.div j 4) 5)).
  { clear. induction bands as [|a r IH]; intros prev i s H Np B; [specialize (H 0%nat ltac:(lia)); destruct s; discriminate|].
    destruct s as [|s].
    - pose proof (H 0%nat ltac:(lia)) as H0. cbn in H0. injection H0 as ->. cbn [grid_from].
      assert (E : match prev with Some p => if String.eqb p b then i else O | None => O end = O).
      { destruct prev as [q|]; [|reflexivity]. destruct (String.eqb_spec q b); [exfalso; apply Np; congruence|reflexivity]. }
      rewrite E. destruct j as [|j]; [reflexivity|]. cbn [Nat.add nth_error].
      apply grid_nth_first; [|discriminate|lia|].
      + intros q Hq. apply (H (S q)). lia.
      + specialize (H (S j) ltac:(lia)). cbn in H. apply nth_error_Some. congruence.
    - cbn [grid_from Nat.add nth_error]. apply IH.
      + intros q Hq. apply (H q Hq).
      + intros -> X. injection X as ->. destruct B as [B|[b' [B1 B2]]]; [lia|]. cbn in B1. congruence.
      + destruct s as [|s]; [left; reflexivity|]. right. destruct B as [B|[b' [B1 B2]]]; [lia|].
        exists b'. cbn in B1. cbn. rewrite Nat.sub_0_r in *. split; assumption. }
  replace p with ((p - j) + j)%nat by lia. apply G.
  - intros q Hq. apply H. lia.
  - intros _ X. discriminate.
  - destruct B as [->|[b' [B1 B2]]]; [left; lia|]. destruct (Nat.eq_dec p j); [left; lia|]. right. exists b'. split; assumption.
Qed.
Lemma grid_20 : forall i j, (i < j)%nat -> (j < i + 20)%nat ->
  (Nat.modulo i 4, Nat.modulo (Nat.div i 4) 5) <> (Nat.modulo j 4, Nat.modulo (Nat.div j 4) 5).
Proof.
  intros i j A B E. assert (E1 := f_equal fst E). assert (E2 := f_equal snd E). cbn [fst snd] in E1, E2.
  assert (N4 : 4%nat <> 0%nat) by discriminate. assert (N5 : 5%nat <> 0%nat) by discriminate.
  pose proof (Nat.div_mod i 4 N4) as H1. pose proof (Nat.div_mod j 4 N4) as H2.
  pose proof (Nat.div_mod (Nat.div i 4) 5 N5) as H3. pose proof (Nat.div_mod (Nat.div j 4) 5 N5) as H4.
  rewrite E1 in H1. rewrite E2 in H3. revert H1 H2 H3 H4.
  generalize (Nat.div (Nat.div i 4) 5) (Nat.div (Nat.div j 4) 5) (Nat.modulo (Nat.div j 4) 5) (Nat.modulo j 4).
  generalize (Nat.div i 4) (Nat.div j 4). intros; lia.
Qed.

(** ** EuclidDitherDetailer *)
Theorem euclid_spec : forall {Pos} (a b : Pos) l,
  match euclid_call a b l with
  | Ok out => Forall2 (fun r q => fst q = fst r /\ (contains (fst r) "EDFS_b" = true -> snd q = b) /\
      (contains (fst r) "EDFS_b" = false -> contains (fst r) "EDFS_a" = true /\ snd q = a)) l out
  | Raise e => e = ValueError /\ exists r, In r l /\ contains (fst r) "EDFS_a" = false /\ contains (fst r) "EDFS_b" = false
  end.
Proof.
  intros Pos a b l. unfold euclid_call.
  destruct (forallb (fun r : string * Pos => contains (fst r) "EDFS_a" || contains (fst r) "EDFS_b") l) eqn:E.
  - induction l as [|r l IH]; [constructor|]. cbn [forallb] in E. apply andb_prop in E. destruct E as [E1 E2].
    cbn [map]. constructor; [|apply IH; exact E2]. cbn [fst snd]. split; [reflexivity|].
    destruct (contains (fst r) "EDFS_b"); [split; [reflexivity|discriminate]|]. split; [discriminate|]. intros _.
    rewrite orb_false_r in E1. rewrite E1. split; reflexivity.
  - split; [reflexivity|]. induction l as [|r l IH]; [discriminate|]. cbn [forallb] in E. apply andb_false_iff in E.
    destruct E as [E|E].
    + apply orb_false_elim in E. exists r. split; [left; reflexivity|exact E].
    + destruct (IH E) as [r' [I R]]. exists r'. split; [right; exact I|exact R].
Qed.
