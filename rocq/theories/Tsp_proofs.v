(** Lemmas about the route finder. *)
From Coq Require Import List ZArith QArith Qround Bool Lia Lqa Permutation.
From Verif Require Import Base IntRounded Tsp.
Import ListNotations.
Open Scope nat_scope.

Lemma ir_less_lt : forall a b, ir_less a b = true -> (a < b)%Q.
Proof.
  intros a b. unfold ir_less, ir_lt, ir_cmp, bcast, bind. cbn [map].
  unfold check_limit. destruct (order_of_mag [(a, b)]) as [om|].
  - destruct (existsb (is_close om) [(a, b)]); cbn [map fst snd].
    + unfold round_pair. cbn [fst snd]. intros H. apply Qltb_lt in H. rewrite <- Zlt_Qlt in H.
      apply Qnot_le_lt. intros L.
      pose proof (round_even_mono (b - inject_Z (Qfloor (Qminb a b)) * ir_scale) (a - inject_Z (Qfloor (Qminb a b)) * ir_scale)) as M.
      assert (LL : (b - inject_Z (Qfloor (Qminb a b)) * ir_scale <= a - inject_Z (Qfloor (Qminb a b)) * ir_scale)%Q).
      { unfold Qminus. apply Qplus_le_compat; [exact L|apply Qle_refl]. }
      specialize (M LL). lia.
    + intros H. now apply Qltb_lt.
  - cbn [map fst snd]. intros H. now apply Qltb_lt.
Qed.

Section Tsp.
Variable dist : nat -> nat -> Q.
Variable hull : list nat -> option (list nat).
Notation rl := (route_length dist).

(** ** Lengths of closed routes *)
Fixpoint pl (a : nat) (l : list nat) : Q :=
  match l with [] => 0 | b :: r => dist a b + pl b r end.

Lemma pl_app : forall l1 a b l2, (pl a (l1 ++ b :: l2) == pl a (l1 ++ [b]) + pl b l2)%Q.
Proof.
  induction l1 as [|x l1 IH]; intros a b l2; cbn [app pl]; [ring|]. rewrite IH. ring.
Qed.

Lemma rl_pl : forall x l, (rl (x :: l) == pl x (l ++ [x]))%Q.
Proof.
  intros x l. unfold route_length, roll.
  assert (G : forall l y z, (fold_right Qplus 0 (map (fun p => dist (fst p) (snd p)) (combine (y :: l) (l ++ [z]))) == pl y (l ++ [z]))%Q).
  { clear. induction l as [|a l IH]; intros y z; cbn; [reflexivity|]. specialize (IH a z). cbn in IH. rewrite IH. reflexivity. }
  apply G.
Qed.

Lemma rl_roll : forall x l, (rl (l ++ [x]) == rl (x :: l))%Q.
Proof.
  intros x [|y l]; [reflexivity|]. cbn [app]. rewrite !rl_pl. cbn [app pl].
  rewrite <- app_assoc. cbn [app]. rewrite pl_app. cbn [pl]. ring.
Qed.

Lemma rl_rot : forall a b, (rl (a ++ b) == rl (b ++ a))%Q.
Proof.
  induction a as [|x a IH]; intros b; [rewrite app_nil_r; reflexivity|].
  cbn [app]. rewrite <- rl_roll, <- app_assoc, IH, <- app_assoc. reflexivity.
Qed.

(** ** Insertion *)
Lemma rotate_last : forall l x, rotate (l ++ [x]) = x :: l.
Proof. intros. unfold rotate. rewrite rev_app_distr. cbn. now rewrite rev_involutive. Qed.

(** [b] is a rotation of [a]. *)
Definition rot (a b : list nat) : Prop := exists u v, a = u ++ v /\ b = v ++ u.

Lemma rot_refl : forall a, rot a a.
Proof. intros a. exists [], a. now rewrite app_nil_r. Qed.

Lemma app_split : forall (a b c d : list nat), a ++ b = c ++ d ->
  (exists m, c = a ++ m /\ b = m ++ d) \/ (exists m, a = c ++ m /\ d = m ++ b).
Proof.
  induction a as [|x a IH]; intros b c d H.
  - left. exists c. auto.
  - destruct c as [|y c]; cbn in H.
    + right. exists (x :: a). auto.
    + injection H as -> H. destruct (IH _ _ _ H) as [[m [-> ->]]|[m [-> ->]]]; [left|right]; exists m; auto.
Qed.

Lemma rot_trans : forall a b c, rot a b -> rot b c -> rot a c.
Proof.
  intros a b c (u & v & -> & ->) (p & q & E & ->).
  destruct (app_split _ _ _ _ E) as [[m [-> ->]]|[m [-> ->]]].
  - exists m, (q ++ v). rewrite <- !app_assoc. auto.
  - exists (u ++ p), m. rewrite <- !app_assoc. auto.
Qed.

Lemma rot_filter : forall f a b, rot a b -> rot (filter f a) (filter f b).
Proof. intros f a b (u & v & -> & ->). exists (filter f u), (filter f v). now rewrite !filter_app. Qed.

Lemma candidates_in : forall k l x r, In r (candidates k l x) -> exists b, rot l b /\ r = b ++ [x].
Proof.
  induction k as [|k IH]; intros l x r H; [destruct H|]. cbn [candidates] in H.
  assert (R : rot l (rotate l)).
  { destruct l as [|y l] using rev_ind; [apply rot_refl|]. rewrite rotate_last. exists l, [y]. auto. }
  destruct H as [<-|H].
  - eexists. split; [exact R|reflexivity].
  - apply IH in H. destruct H as (b & R2 & ->). exists b. split; [|reflexivity]. eapply rot_trans; eauto.
Qed.

Lemma candidates_all : forall b k a x, b <> [] -> List.length b <= k -> In (b ++ a ++ [x]) (candidates k (a ++ b) x).
Proof.
  induction b as [|z b IH] using rev_ind; intros k a x N L; [congruence|].
  rewrite app_length in L. cbn in L. destruct k as [|k]; [lia|]. cbn [candidates].
  rewrite (app_assoc a b [z]), rotate_last. destruct b as [|y b].
  - left. now rewrite app_nil_r.
  - right. change (z :: a ++ y :: b) with ((z :: a) ++ y :: b).
    specialize (IH k (z :: a) x ltac:(discriminate) ltac:(lia)).
    rewrite <- app_assoc. exact IH.
Qed.

Lemma first_min_spec : forall l best,
  In (first_min dist best l) (best :: l) /\ (forall r, In r (best :: l) -> (rl (first_min dist best l) <= rl r)%Q).
Proof.
  induction l as [|r l IH]; intros best; cbn [first_min].
  - split; [now left|]. intros r [->|[]]. apply Qle_refl.
  - destruct (Qltb (rl r) (rl best)) eqn:E.
    + destruct (IH r) as [I1 I2]. split; [destruct I1 as [I1|I1]; [right; left; exact I1|right; right; exact I1]|].
      intros q [<-|[<-|Hq]].
      * apply Qltb_lt in E. eapply Qle_trans; [apply I2; now left|]. now apply Qlt_le_weak.
      * apply I2. now left.
      * apply I2. now right.
    + destruct (IH best) as [I1 I2]. split; [destruct I1 as [I1|I1]; [left; exact I1|right; right; exact I1]|].
      intros q [<-|[<-|Hq]].
      * apply I2. now left.
      * apply Qltb_false in E. eapply Qle_trans; [apply I2; now left|exact E].
      * apply I2. now right.
Qed.

Lemma insert_town_spec : forall c x, c <> [] -> exists r, insert_town dist c x = Ok r /\
  (exists b, rot c b /\ r = b ++ [x]) /\ forall a b, c = a ++ b -> (rl r <= rl (a ++ x :: b))%Q.
Proof.
  intros c x N. unfold insert_town. destruct (candidates (List.length c) c x) as [|r l] eqn:E.
  - exfalso. pose proof (candidates_all c (List.length c) [] x N (le_n _)) as H. cbn [app] in H. rewrite E in H. destruct H.
  - exists (first_min dist r l). split; [reflexivity|]. destruct (first_min_spec l r) as [I1 I2]. split.
    + apply (candidates_in (List.length c)). rewrite E. exact I1.
    + intros a b Ec. assert (G : forall a b, c = a ++ b -> b <> [] -> (rl (first_min dist r l) <= rl (a ++ x :: b))%Q).
      { clear a b Ec. intros a b Ec Nb. pose proof (candidates_all b (List.length c) a x Nb) as H.
        rewrite <- Ec, E in H. rewrite Ec, app_length in H. specialize (H ltac:(lia)). specialize (I2 _ H).
        rewrite app_assoc, rl_roll in I2. rewrite (rl_rot a (x :: b)). cbn [app]. exact I2. }
      destruct b as [|y b]; [|apply G; [exact Ec|discriminate]].
      rewrite app_nil_r in Ec. subst a. rewrite rl_roll. exact (G [] c eq_refl N).
Qed.

Lemma rot_perm : forall a b, rot a b -> Permutation b a.
Proof. intros a b (u & v & -> & ->). apply Permutation_app_comm. Qed.

Lemma insert_towns_spec : forall xs c, c <> [] -> exists r, insert_towns dist c xs = Ok r /\
  Permutation r (c ++ xs) /\
  forall f, (forall x, In x xs -> f x = false) -> rot (filter f c) (filter f r).
Proof.
  induction xs as [|x xs IH]; intros c N; cbn [insert_towns].
  - exists c. rewrite app_nil_r. split; [reflexivity|]. split; [reflexivity|]. intros f _. apply rot_refl.
  - destruct (insert_town_spec c x N) as (r & E & (b & R & ->) & _). rewrite E. cbn [bind].
    destruct (IH (b ++ [x])) as (r & E2 & P & O); [destruct b; discriminate|].
    exists r. split; [exact E2|]. split.
    + rewrite P, <- app_assoc. cbn [app]. now rewrite (rot_perm _ _ R).
    + intros f Hf. eapply rot_trans; [|apply O; intros; apply Hf; now right].
      rewrite filter_app. cbn [filter]. rewrite (Hf x) by now left. rewrite app_nil_r. now apply rot_filter.
Qed.

(** ** Hulls *)
Definition unused (n : nat) (used : list nat) : list nat :=
  filter (fun i => negb (existsb (Nat.eqb i) used)) (seq 0 n).

Lemma unused_in : forall n used i, In i (unused n used) <-> i < n /\ ~ In i used.
Proof.
  intros. unfold unused. rewrite filter_In, in_seq, negb_true_iff. split.
  - intros [H1 H2]. split; [lia|]. intros I. assert (existsb (Nat.eqb i) used = true); [|congruence].
    apply existsb_exists. exists i. split; [exact I|apply Nat.eqb_refl].
  - intros [H1 H2]. split; [lia|]. destruct (existsb (Nat.eqb i) used) eqn:E; [|reflexivity].
    apply existsb_exists in E. destruct E as (j & I & J). apply Nat.eqb_eq in J. subst. contradiction.
Qed.

Lemma unused_nodup : forall n used, NoDup (unused n used).
Proof. intros. apply NoDup_filter, seq_NoDup. Qed.

Definition hull_ok : Prop := forall rem vs, rem <> [] -> hull rem = Some vs ->
  vs <> [] /\ NoDup vs /\ forall v, In v vs -> v < List.length rem.

Lemma pick_nodup : forall rem vs, NoDup rem -> NoDup vs -> (forall v, In v vs -> v < List.length rem) ->
  NoDup (map (fun v => nth v rem 0) vs) /\ incl (map (fun v => nth v rem 0) vs) rem.
Proof.
  intros rem vs N1 N2 B. split.
  - induction N2 as [|v vs Hv N2 IH]; cbn; [constructor|]. constructor.
    + intros I. apply in_map_iff in I. destruct I as (w & E & I). apply NoDup_nth in E; [subst; contradiction|exact N1| |].
      * apply B. now right.
      * apply B. now left.
    + apply IH. intros. apply B. now right.
  - intros y I. apply in_map_iff in I. destruct I as (w & <- & I). apply nth_In. auto.
Qed.

Lemma hulls_loop_spec : hull_ok -> forall fuel n used, List.length (unused n used) < fuel ->
  exists hs, hulls_loop hull fuel n used = Ok hs /\ Permutation (concat hs) (unused n used) /\ Forall (fun h => h <> []) hs.
Proof.
  intros HO. induction fuel as [|fuel IH]; intros n used L; [lia|]. cbn [hulls_loop]. fold (unused n used).
  destruct (unused n used) as [|y rem0] eqn:E; [exists []; auto|]. rewrite <- E in *.
  assert (NE : unused n used <> []) by (rewrite E; discriminate).
  destruct (hull (unused n used)) as [vs|] eqn:H.
  - destruct (HO _ _ NE H) as (V1 & V2 & V3).
    destruct (pick_nodup (unused n used) vs (unused_nodup _ _) V2 V3) as [P1 P2].
    set (new := map (fun v => nth v (unused n used) 0) vs) in *.
    assert (P : Permutation (new ++ unused n (new ++ used)) (unused n used)).
    { apply NoDup_Permutation.
      - apply NoDup_app_intro; [exact P1|apply unused_nodup|]. intros z I1 I2. apply unused_in in I2.
        destruct I2 as [_ I2]. apply I2. apply in_app_iff. now left.
      - apply unused_nodup.
      - intros z. rewrite in_app_iff, !unused_in, in_app_iff. split.
        + intros [I|[I1 I2]]; [apply unused_in, P2, I|]. split; [exact I1|]. intros I. apply I2. now right.
        + intros [I1 I2]. destruct (in_dec Nat.eq_dec z new); [now left|]. right. split; [exact I1|]. tauto. }
    assert (NN : 0 < List.length new) by (unfold new; rewrite map_length; destruct vs; [congruence|cbn; lia]).
    destruct (IH n (new ++ used)) as (hs & E2 & P3 & F).
    { pose proof (Permutation_length P) as PL. rewrite app_length in PL. lia. }
    rewrite E2. cbn [bind]. exists (new :: hs). split; [reflexivity|]. split.
    + cbn [concat]. now rewrite P3.
    + constructor; [|exact F]. intros ->. cbn in NN. lia.
  - exists [unused n used]. split; [reflexivity|]. split; [cbn; now rewrite app_nil_r|]. constructor; [exact NE|constructor].
Qed.

Lemma generate_hulls_spec : hull_ok -> forall n, exists hs, generate_hulls hull n = Ok hs /\
  Permutation (concat hs) (seq 0 n) /\ Forall (fun h => h <> []) hs.
Proof.
  intros HO n. unfold generate_hulls.
  assert (U : unused n [] = seq 0 n) by (unfold unused; induction (seq 0 n) as [|z l IHl]; cbn in *; [reflexivity|now rewrite IHl]).
  destruct (hulls_loop_spec HO (S n) n []) as (hs & E & P & F); [rewrite U, seq_length; lia|].
  rewrite U in P. eauto.
Qed.

(** ** Three-opt *)
Lemma combos_in : forall n i j k, In (i, j, k) (combos n) <-> i < j /\ j < k /\ k < n.
Proof.
  intros n i j k. unfold combos. rewrite in_flat_map. split.
  - intros (i' & I1 & H). apply in_flat_map in H. destruct H as (j' & I2 & H). apply in_map_iff in H.
    destruct H as (k' & E & I3). injection E as -> -> ->. rewrite in_seq in *. lia.
  - intros H. exists i. rewrite in_seq. split; [lia|]. apply in_flat_map. exists j. rewrite in_seq. split; [lia|].
    apply in_map_iff. exists k. rewrite in_seq. split; [reflexivity|lia].
Qed.

Lemma skipn_add : forall (l : list nat) a b, skipn a (skipn b l) = skipn (b + a) l.
Proof.
  intros l a b. revert l. induction b as [|b IH]; intros l; [reflexivity|]. destruct l; cbn; [now rewrite !skipn_nil|apply IH].
Qed.

Lemma cut_route : forall (r : list nat) i j k, i < j -> j < k -> k < List.length r ->
  r = firstn i r ++ slice i j r ++ slice j k r ++ skipn k r.
Proof.
  intros r i j k A B C. unfold slice.
  assert (S1 : skipn i r = firstn (j - i) (skipn i r) ++ skipn j r).
  { rewrite <- (firstn_skipn (j - i) (skipn i r)) at 1. f_equal. rewrite skipn_add. f_equal. lia. }
  assert (S2 : skipn j r = firstn (k - j) (skipn j r) ++ skipn k r).
  { rewrite <- (firstn_skipn (k - j) (skipn j r)) at 1. f_equal. rewrite skipn_add. f_equal. lia. }
  rewrite <- S2, <- S1. now rewrite firstn_skipn.
Qed.

Lemma moves_perm : forall r cut m, In cut (combos (List.length r)) -> In m (moves r cut) -> Permutation m r.
Proof.
  intros r [[i j] k] m I H. apply combos_in in I. destruct I as (A & B & C).
  pose proof (cut_route r i j k A B C) as E. unfold moves in H.
  set (c1 := slice i j r) in *. set (c2 := slice j k r) in *.
  assert (P : Permutation (c1 ++ c2 ++ skipn k r ++ firstn i r) r).
  { rewrite E at 3. rewrite (app_assoc c2), (app_assoc c1). rewrite Permutation_app_comm. now rewrite !app_assoc. }
  set (c3 := skipn k r ++ firstn i r) in *.
  assert (R2 : Permutation (rev c2) c2) by (symmetry; apply Permutation_rev).
  assert (R3 : Permutation (rev c3) c3) by (symmetry; apply Permutation_rev).
  assert (SW : Permutation (c1 ++ c3 ++ c2) r) by (rewrite (Permutation_app_comm c3 c2); exact P).
  destruct H as [<-|[<-|[<-|[<-|[<-|[<-|[<-|[<-|[]]]]]]]]]; rewrite ?R2, ?R3; assumption.
Qed.

Lemma moves_all : forall p c1 c2 c3, c1 <> [] -> c2 <> [] -> c3 <> [] ->
  let r := p ++ c1 ++ c2 ++ c3 in let q := c3 ++ p in
  forall m, In m [ c1 ++ c2 ++ q; c1 ++ q ++ c2; c1 ++ rev c2 ++ q; c1 ++ q ++ rev c2;
                   c1 ++ c2 ++ rev q; c1 ++ rev q ++ c2; c1 ++ rev c2 ++ rev q; c1 ++ rev q ++ rev c2 ] ->
  exists cut, In cut (combos (List.length r)) /\ In m (moves r cut).
Proof.
  intros p c1 c2 c3 N1 N2 N3 r q m H.
  assert (L : forall c : list nat, c <> [] -> 0 < List.length c) by (intros [|? ?] N; [congruence|cbn; lia]).
  apply L in N1, N2, N3.
  set (i := List.length p). set (j := i + List.length c1). set (k := j + List.length c2).
  exists (i, j, k). split.
  - apply combos_in. unfold r. rewrite !app_length. unfold j, k. fold i. lia.
  - unfold moves.
    assert (E1 : slice i j r = c1).
    { unfold slice, r. unfold i at 2. rewrite skipn_app, skipn_all, Nat.sub_diag. cbn [skipn app].
      replace (j - i) with (List.length c1 + 0) by (unfold j; lia). rewrite firstn_app_2. cbn. apply app_nil_r. }
    assert (E2 : slice j k r = c2).
    { unfold slice, r. rewrite app_assoc. rewrite skipn_app, skipn_all2 by (rewrite app_length; unfold j, i; lia).
      replace (j - List.length (p ++ c1)) with 0 by (rewrite app_length; unfold j, i; lia). cbn [skipn app].
      replace (k - j) with (List.length c2 + 0) by (unfold k; lia). rewrite firstn_app_2. cbn. apply app_nil_r. }
    assert (E3 : skipn k r ++ firstn i r = q).
    { unfold q. f_equal.
      - unfold r. rewrite (app_assoc c1), app_assoc. rewrite skipn_app, skipn_all2 by (rewrite !app_length; unfold k, j, i; lia).
        replace (k - List.length (p ++ c1 ++ c2)) with 0 by (rewrite !app_length; unfold k, j, i; lia). reflexivity.
      - unfold r. replace i with (List.length p + 0) by (unfold i; lia). rewrite firstn_app_2. cbn. apply app_nil_r. }
    rewrite E1, E2, E3. exact H.
Qed.

Lemma improve_fold : forall cross l m, snd m = rl (fst m) ->
  let x := fold_left (improve dist cross) l m in
  snd x = rl (fst x) /\ (snd x <= snd m)%Q /\ (fst x = fst m \/ In (fst x) l) /\
  (cross = false -> forall r, In r l -> (snd x <= rl r)%Q).
Proof.
  intros cross. induction l as [|r l IH]; intros m Hm; cbn [fold_left].
  - split; [exact Hm|]. split; [apply Qle_refl|]. split; [now left|]. intros _ r [].
  - assert (S1 : snd (improve dist cross m r) = rl (fst (improve dist cross m r)) /\ (snd (improve dist cross m r) <= snd m)%Q /\
      (fst (improve dist cross m r) = fst m \/ fst (improve dist cross m r) = r) /\
      (cross = false -> (snd (improve dist cross m r) <= rl r)%Q)).
    { unfold improve. destruct (if cross then ir_less (rl r) (snd m) else Qltb (rl r) (snd m)) eqn:E; cbn [fst snd].
      - split; [reflexivity|]. split; [|split; [now right|intros; apply Qle_refl]].
        apply Qlt_le_weak. destruct cross; [now apply ir_less_lt|now apply Qltb_lt].
      - split; [exact Hm|]. split; [apply Qle_refl|]. split; [now left|]. intros ->. now apply Qltb_false. }
    destruct S1 as (A1 & A2 & A3 & A4). specialize (IH _ A1). cbv zeta in IH. destruct IH as (B1 & B2 & B3 & B4).
    split; [exact B1|]. split; [eapply Qle_trans; eauto|]. split.
    + destruct B3 as [B3|B3]; [|right; now right]. rewrite B3. destruct A3 as [A3|A3]; [now left|right; left; auto].
    + intros C q [<-|I]; [eapply Qle_trans; [exact B2|]; auto|auto].
Qed.

Lemma three_opt_spec : forall r cross, let x := three_opt dist r cross in
  snd x = rl (fst x) /\ (rl (fst x) <= rl r)%Q /\ Permutation (fst x) r /\
  (cross = false -> forall cut m, In cut (combos (List.length r)) -> In m (moves r cut) -> (rl (fst x) <= rl m)%Q).
Proof.
  intros r cross. unfold three_opt.
  destruct (improve_fold cross (flat_map (moves r) (combos (List.length r))) (r, rl r) eq_refl) as (A & B & C & D).
  cbv zeta. rewrite A in B, D. split; [exact A|]. split; [exact B|]. split.
  - destruct C as [C|C]; [rewrite C; reflexivity|]. apply in_flat_map in C. destruct C as (cut & I & M). eapply moves_perm; eauto.
  - intros E cut m I M. apply D; [exact E|]. apply in_flat_map. eauto.
Qed.

(** ** The loop: it ends because lengths fall through finitely many routes *)
Fixpoint all_lists (k n : nat) : list (list nat) :=
  match k with
  | O => [[]]
  | S k' => flat_map (fun x => map (cons x) (all_lists k' n)) (seq 0 n)
  end.
Lemma all_lists_in : forall k n l, List.length l = k -> (forall x, In x l -> x < n) -> In l (all_lists k n).
Proof.
  induction k as [|k IH]; intros n [|x l] L H; try discriminate; [now left|]. cbn [all_lists].
  apply in_flat_map. exists x. split; [apply in_seq; specialize (H x (or_introl eq_refl)); lia|].
  apply in_map. apply IH; [now injection L|]. intros. apply H. now right.
Qed.

Definition shorter (n : nat) (d : Q) : nat := List.length (filter (fun r => Qltb (rl r) d) (all_lists n n)).

Lemma filter_less : forall A (f g : A -> bool) l x, (forall y, f y = true -> g y = true) -> In x l -> f x = false -> g x = true ->
  List.length (filter f l) < List.length (filter g l).
Proof.
  intros A f g l x FG. assert (LE : forall l, List.length (filter f l) <= List.length (filter g l)).
  { clear l. induction l as [|y l IH]; cbn; [lia|]. destruct (f y) eqn:E; [rewrite (FG _ E); cbn; lia|]. destruct (g y); cbn; lia. }
  induction l as [|y l IH]; intros I F G; [destruct I|]. cbn. destruct I as [->|I].
  - rewrite F, G. cbn. specialize (LE l). lia.
  - specialize (IH I F G). destruct (f y) eqn:E; [rewrite (FG _ E); cbn; lia|]. destruct (g y); cbn; lia.
Qed.

Lemma shorter_lt : forall n r d, Permutation r (seq 0 n) -> (rl r < d)%Q -> shorter n (rl r) < shorter n d.
Proof.
  intros n r d P L. unfold shorter. apply filter_less with (x := r).
  - intros y H. apply Qltb_lt in H. apply Qltb_lt. eapply Qlt_trans; eauto.
  - apply all_lists_in; [rewrite (Permutation_length P); apply seq_length|]. intros x I.
    eapply Permutation_in in I; [|exact P]. apply in_seq in I. lia.
  - apply Qltb_false. apply Qle_refl.
  - now apply Qltb_lt.
Qed.

Lemma opt_loop_spec : forall fuel n niter r ic, Permutation r (seq 0 n) -> shorter n (rl r) < fuel ->
  exists r', opt_loop dist fuel niter r (rl r) ic = Ok r' /\ Permutation r' (seq 0 n) /\ (rl r' <= rl r)%Q.
Proof.
  induction fuel as [|fuel IH]; intros n niter r ic P F; [lia|]. cbn [opt_loop].
  pose proof (three_opt_spec r true) as T. cbv zeta in T. destruct (three_opt dist r true) as [nr nd]. cbn [fst snd] in T.
  destruct T as (-> & T2 & T3 & _).
  assert (PN : Permutation nr (seq 0 n)) by (rewrite T3; exact P).
  destruct (ir_less (rl nr) (rl r)) eqn:E; [|exists r; split; [reflexivity|]; split; [exact P|apply Qle_refl]].
  apply ir_less_lt in E. destruct (Nat.eqb (S ic) niter); [eauto|].
  destruct (IH n niter nr (S ic) PN) as (r' & E2 & P2 & L2).
  - pose proof (shorter_lt n nr (rl r) PN E). lia.
  - exists r'. split; [exact E2|]. split; [exact P2|]. eapply Qle_trans; eauto.
Qed.
End Tsp.
