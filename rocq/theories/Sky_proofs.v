(** Proofs about sky-position masks. *)
From Coq Require Import List ZArith QArith Qround Qabs Bool Lia Lqa.
From Verif Require Import Base IntRounded IntRounded_proofs Feat_proofs2 Sky.
Import ListNotations.
Open Scope nat_scope.

Lemma nth_set_where : forall sel v m i d, List.length sel = List.length m -> i < List.length m ->
  nth i (set_where sel v m) d = if nth i sel false then v else nth i m d.
Proof.
  intros sel v m i d L I. unfold set_where. revert sel i L I. induction m as [|x m IH]; intros [|s sel] i L I; cbn in *; try lia.
  destruct i as [|i]; [reflexivity|]. apply IH; lia.
Qed.
Lemma nth_filled : forall v xs i d, i < List.length xs -> nth i (filled v xs) d = v.
Proof. intros v xs. induction xs as [|x xs IH]; intros i d I; cbn in *; [lia|]. destruct i; [reflexivity|]. apply IH. lia. Qed.
Lemma filled_len : forall v xs, List.length (filled v xs) = List.length xs.
Proof. intros. apply map_length. Qed.
Lemma both_nth : forall a b i, List.length a = List.length b -> nth i (both a b) false = nth i a false && nth i b false.
Proof.
  induction a as [|x a IH]; intros [|y b] i L; cbn in L; try lia; [destruct i; reflexivity|]. destruct i; cbn; [reflexivity|]. apply IH. lia.
Qed.
Lemma either_nth : forall a b i, List.length a = List.length b -> nth i (either a b) false = nth i a false || nth i b false.
Proof.
  induction a as [|x a IH]; intros [|y b] i L; cbn in L; try lia; [destruct i; reflexivity|]. destruct i; cbn; [reflexivity|]. apply IH. lia.
Qed.
Lemma both_len : forall a b, List.length a = List.length b -> List.length (both a b) = List.length a.
Proof. intros. unfold both. rewrite map_length, combine_length. lia. Qed.
Lemma either_len : forall a b, List.length a = List.length b -> List.length (either a b) = List.length a.
Proof. intros. unfold either. rewrite map_length, combine_length. lia. Qed.

(** Arrays against one number *)
Lemma cmp_len : forall cmp v x, List.length (cmp_all (ir_cmp cmp v [x])) = List.length v.
Proof.
  intros cmp v x. unfold ir_cmp. rewrite bcast_scalar. cbn [bind cmp_all]. rewrite map_length.
  destruct (check_limit_cases (map (fun a => (a, x)) v)) as [-> | ->]; rewrite ?map_length; reflexivity.
Qed.
Lemma cmp_far : forall cmp v x i, (forall a, In a v -> far a x) -> i < List.length v -> nth i (cmp_all (ir_cmp cmp v [x])) false = cmp (nth i v 0%Q) x.
Proof.
  intros cmp v x i F I. rewrite cmp_scalar by exact F. cbn [cmp_all]. rewrite (nth_indep _ false (cmp 0%Q x)) by (rewrite map_length; exact I).
  rewrite (map_nth (fun a => cmp a x) v 0%Q i). reflexivity.
Qed.
Lemma cmp_any : forall cmp v x i, i < List.length v ->
  nth i (cmp_all (ir_cmp cmp v [x])) false = cmp (nth i v 0%Q) x \/
  nth i (cmp_all (ir_cmp cmp v [x])) false = cmp (fst (round_pair (nth i v 0%Q, x))) (snd (round_pair (nth i v 0%Q, x))).
Proof.
  intros cmp v x i I. destruct (ir_cmp cmp v [x]) as [bs|e] eqn:E; [|unfold ir_cmp in E; rewrite bcast_scalar in E; discriminate].
  assert (N : nth_error (map (fun a => (a, x)) v) i = Some (nth i v 0%Q, x)) by (rewrite nth_error_map, (nth_error_nth' v 0%Q I); reflexivity).
  destruct (ir_cmp_at cmp v [x] _ bs i _ _ (bcast_scalar v x) N E) as [K|K]; cbn [cmp_all]; [left|right]; apply nth_error_nth; exact K.
Qed.
Lemma lt_sound : forall v x i, i < List.length v -> nth i (cmp_all (ir_lt v [x])) false = true -> (nth i v 0 < x)%Q.
Proof.
  intros v x i I H. destruct (cmp_any Qltb v x i I) as [K|K]; unfold ir_lt in H; rewrite K in H; apply Qltb_lt in H; [exact H|].
  exact (round_pair_lt_bound (nth i v 0%Q, x) H).
Qed.
Lemma gt_sound : forall v x i, i < List.length v -> nth i (cmp_all (ir_gt v [x])) false = true -> (x < nth i v 0)%Q.
Proof.
  intros v x i I H. unfold ir_gt in H. destruct (cmp_any (fun a b => Qltb b a) v x i I) as [K|K]; rewrite K in H; apply Qltb_lt in H; [exact H|].
  destruct (Qlt_le_dec x (nth i v 0%Q)) as [L|L]; [exact L|]. pose proof (round_pair_mono (nth i v 0%Q, x) L). lra.
Qed.
Lemma le_kept : forall v x i, i < List.length v -> (nth i v 0 <= x)%Q -> nth i (cmp_all (ir_le v [x])) false = true.
Proof.
  intros v x i I H. unfold ir_le. destruct (cmp_any Qle_bool v x i I) as [K|K]; rewrite K; apply Qle_bool_iff; [exact H|].
  exact (round_pair_mono (nth i v 0%Q, x) H).
Qed.
Lemma ge_kept : forall v x i, i < List.length v -> (x <= nth i v 0)%Q -> nth i (cmp_all (ir_ge v [x])) false = true.
Proof.
  intros v x i I H. unfold ir_ge. destruct (cmp_any (fun a b => Qle_bool b a) v x i I) as [K|K]; rewrite K; apply Qle_bool_iff; [exact H|].
  exact (round_pair_mono' (nth i v 0%Q, x) H).
Qed.

(** ** Near the sun *)
Lemma find_unique : forall (l : list (nat * (Q * Q))) i x, NoDup (map fst l) -> In x l -> fst x = i -> find (fun y => Nat.eqb (fst y) i) l = Some x.
Proof.
  induction l as [|y l IH]; intros i x N I E; [destruct I|]. cbn. inversion N as [|? ? N1 N2]; subst. destruct I as [->|I].
  - rewrite Nat.eqb_refl. reflexivity.
  - destruct (Nat.eqb_spec (fst y) (fst x)) as [Q|_]; [|apply IH; auto]. exfalso. apply N1. rewrite Q. apply in_map. exact I.
Qed.
Lemma sun_pix_in : forall am ts x, List.length am = List.length ts -> In x (sun_pix am ts) <->
  fst x < List.length am /\ nth (fst x) am ENaN = EFin (fst (snd x)) /\ nth (fst x) ts 0%Q = snd (snd x).
Proof.
  intros am ts x. unfold sun_pix.
  assert (G : forall am ts s, List.length am = List.length ts ->
    In x (flat_map (fun p => match fst (snd p) with EFin a => [(fst p, (a, snd (snd p)))] | _ => [] end) (combine (seq s (List.length am)) (combine am ts))) <->
    s <= fst x < s + List.length am /\ nth (fst x - s) am ENaN = EFin (fst (snd x)) /\ nth (fst x - s) ts 0%Q = snd (snd x)).
  { clear. induction am as [|a am IH]; intros [|t ts] s L; cbn in L; try lia; [cbn; split; [contradiction|lia]|].
    cbn [List.length seq combine flat_map]. rewrite in_app_iff, IH by lia. cbn [fst snd]. split.
    - intros [H|[H1 [H2 H3]]].
      + destruct a as [| |q|]; try contradiction. destruct H as [<-|[]]. cbn [fst snd]. rewrite Nat.sub_diag. cbn. repeat split; lia.
      + replace (fst x - s) with (S (fst x - S s)) by lia. cbn. repeat split; try assumption; lia.
    - intros [H1 [H2 H3]]. destruct (Nat.eq_dec (fst x) s) as [E|E].
      + left. rewrite E, Nat.sub_diag in H2, H3. cbn in H2, H3. subst a t. left. destruct x as [i [p q]]. cbn in *. congruence.
      + right. replace (fst x - s) with (S (fst x - S s)) in H2, H3 by lia. cbn in H2, H3. repeat split; try assumption; lia. }
  intro L. rewrite (G am ts 0 L). rewrite Nat.sub_0_r. intuition lia.
Qed.
Lemma sun_pix_nodup : forall am ts, NoDup (map fst (sun_pix am ts)).
Proof.
  intros am ts. unfold sun_pix. generalize 0 as s. revert ts. induction am as [|a am IH]; intros ts s; [constructor|]. destruct ts as [|t ts]; [constructor|].
  cbn [List.length seq combine flat_map]. rewrite map_app. cbn [fst snd].
  assert (K : forall i, In i (map fst (flat_map (fun p => match fst (snd p) with EFin a => [(fst p, (a, snd (snd p)))] | _ => [] end) (combine (seq (S s) (List.length am)) (combine am ts)))) -> s < i).
  { intros i I. apply in_map_iff in I. destruct I as (x & <- & I). apply in_flat_map in I. destruct I as ((j, (b, u)) & J1 & J2). apply in_combine_l in J1. apply in_seq in J1. cbn in J2. destruct b; try contradiction. destruct J2 as [<-|[]]. cbn. lia. }
  destruct a as [| |q|]; cbn [map app]; try apply IH. constructor; [|apply IH]. intro I. apply K in I. cbn in I. lia.
Qed.
Lemma filter_combine_in : forall (B : Type) (sel : list bool) (l : list B) (d x : B), List.length sel = List.length l ->
  In x (map snd (filter fst (combine sel l))) <-> exists k, k < List.length l /\ nth k sel false = true /\ nth k l d = x.
Proof.
  intros B sel l d x. revert l. induction sel as [|s sel IH]; intros [|y l] L; cbn in L; try lia; [cbn; split; [contradiction|intros (k & K & _); lia]|].
  cbn [combine filter]. destruct s; cbn [fst map]; rewrite ?(IH l) by lia.
  - cbn [In snd]. rewrite (IH l) by lia. split.
    + intros [<-|(k & K1 & K2 & K3)]; [exists 0; cbn; repeat split; lia|exists (S k); cbn; repeat split; try assumption; lia].
    + intros ([|k] & K1 & K2 & K3); cbn in *; [left; exact K3|right; exists k; repeat split; try assumption; lia].
  - split.
    + intros (k & K1 & K2 & K3). exists (S k). cbn. repeat split; try assumption; lia.
    + intros ([|k] & K1 & K2 & K3); cbn in *; [discriminate|]. exists k. repeat split; try assumption; lia.
Qed.
Lemma filter_combine_nodup : forall (sel : list bool) (l : list (nat * (Q * Q))), NoDup (map fst l) -> NoDup (map fst (map snd (filter fst (combine sel l)))).
Proof.
  induction sel as [|s sel IH]; intros [|y l] N; cbn; try constructor. inversion N as [|? ? N1 N2]; subst.
  destruct s; cbn; [|apply IH; exact N2]. constructor; [|apply IH; exact N2]. intro I. apply N1. apply in_map_iff in I. destruct I as (z & Z1 & Z2). rewrite <- Z1. apply in_map.
  apply in_map_iff in Z2. destruct Z2 as ((b, w) & W1 & W2). cbn in W1. subst w. apply filter_In in W2. destruct W2 as [W2 _]. apply in_combine_r in W2. exact W2.
Qed.
Lemma find_none : forall (l : list (nat * (Q * Q))) i, (forall x, In x l -> fst x <> i) -> find (fun y => Nat.eqb (fst y) i) l = None.
Proof.
  induction l as [|y l IH]; intros i H; [reflexivity|]. cbn. destruct (Nat.eqb_spec (fst y) i) as [E|E]; [destruct (H y (or_introl eq_refl) E)|]. apply IH. intros x X. apply H. now right.
Qed.
Lemma near_sun_at : forall limit hp pen am ts i, List.length am = List.length ts -> i < List.length am ->
  (forall a, In (EFin a) am -> far a limit) -> (forall j a, j < List.length am -> nth j am ENaN = EFin a -> far (Qabs (nth j ts 0%Q)) hp) ->
  nth i (near_sun limit hp pen am ts) ENaN =
  match nth i am ENaN with
  | EFin a => if Qle_bool 1 a && Qltb a limit && Qltb (Qabs (nth i ts 0%Q)) hp then EFin (a / limit)%Q else pen
  | _ => pen
  end.
Proof.
  intros limit hp pen am ts i L I F1 F2. unfold near_sun. set (valid := sun_pix am ts). set (a := map (fun x => fst (snd x)) valid). set (b := map (fun x => Qabs (snd (snd x))) valid).
  set (sel := both _ _). set (good := map snd (filter fst (combine sel valid))).
  pose proof (fun x => sun_pix_in am ts x L) as V. fold valid in V.
  assert (Fa : forall q, In q a -> far q limit).
  { intros q A. apply in_map_iff in A. destruct A as (x & <- & X). apply V in X. destruct X as (X1 & X2 & _). apply F1. rewrite <- X2. apply nth_In. exact X1. }
  assert (Fb : forall q, In q b -> far q hp).
  { intros q A. apply in_map_iff in A. destruct A as (x & <- & X). apply V in X. destruct X as (X1 & X2 & X3). rewrite <- X3. eapply F2; eauto. }
  assert (La : List.length a = List.length valid) by apply map_length. assert (Lb : List.length b = List.length valid) by apply map_length.
  assert (Ls1 : List.length (map (fun x => Qle_bool 1 x) a) = List.length (cmp_all (ir_lt a [limit]))) by (unfold ir_lt; rewrite cmp_len, map_length; reflexivity).
  assert (Ls2 : List.length (both (map (fun x => Qle_bool 1 x) a) (cmp_all (ir_lt a [limit]))) = List.length (cmp_all (ir_lt b [hp]))).
  { rewrite both_len by exact Ls1. unfold ir_lt. rewrite cmp_len, map_length. congruence. }
  assert (Ls : List.length sel = List.length valid) by (unfold sel; rewrite both_len, both_len by assumption; rewrite map_length; exact La).
  assert (Sk : forall k d, k < List.length valid -> nth k sel false = Qle_bool 1 (fst (snd (nth k valid d))) && Qltb (fst (snd (nth k valid d))) limit && Qltb (Qabs (snd (snd (nth k valid d)))) hp).
  { intros k d K. unfold sel. rewrite both_nth, both_nth by assumption. unfold ir_lt. rewrite !cmp_far by (try assumption; lia).
    rewrite (nth_indep _ false (Qle_bool 1 0)) by (rewrite map_length; lia). rewrite (map_nth (fun x => Qle_bool 1 x)).
    unfold a, b. rewrite (nth_indep (map (fun x => fst (snd x)) valid) 0%Q (fst (snd d))) by (rewrite map_length; exact K). rewrite (map_nth (fun x => fst (snd x))).
    rewrite (nth_indep (map (fun x => Qabs (snd (snd x))) valid) 0%Q (Qabs (snd (snd d)))) by (rewrite map_length; exact K). rewrite (map_nth (fun x => Qabs (snd (snd x)))). reflexivity. }
  assert (Gd : forall x, In x good <-> In x valid /\ Qle_bool 1 (fst (snd x)) && Qltb (fst (snd x)) limit && Qltb (Qabs (snd (snd x))) hp = true).
  { intro x. unfold good. rewrite (filter_combine_in _ sel valid x x Ls). split.
    - intros (k & K1 & K2 & K3). rewrite (Sk k x K1), K3 in K2. split; [|exact K2]. rewrite <- K3. apply nth_In. exact K1.
    - intros [X1 X2]. destruct (In_nth _ _ x X1) as (k & K1 & K2). exists k. split; [exact K1|]. split; [|exact K2]. rewrite (Sk k x K1), K2. exact X2. }
  assert (Nd : NoDup (map fst good)) by (apply filter_combine_nodup, sun_pix_nodup).
  rewrite (nth_indep _ ENaN ((fun j => match find (fun x => Nat.eqb (fst x) j) good with Some x => EFin (fst (snd x) / limit)%Q | None => pen end) 0)) by (rewrite map_length, seq_length; exact I).
  rewrite (map_nth (fun j => match find (fun x => Nat.eqb (fst x) j) good with Some x => EFin (fst (snd x) / limit)%Q | None => pen end)), seq_nth by exact I. cbn [plus].
  destruct (nth i am ENaN) as [| |q|] eqn:E.
  1,2,4: rewrite find_none; [reflexivity|]; intros x X1 X2; apply Gd in X1; destruct X1 as [X1 _]; apply V in X1; destruct X1 as (_ & X1 & _); rewrite X2, E in X1; discriminate.
  destruct (Qle_bool 1 q && Qltb q limit && Qltb (Qabs (nth i ts 0%Q)) hp) eqn:C.
  - rewrite (find_unique good i (i, (q, nth i ts 0%Q))); [reflexivity|exact Nd| |reflexivity]. apply Gd. split; [apply V; cbn; auto|exact C].
  - rewrite find_none; [reflexivity|]. intros x X1 X2. apply Gd in X1. destruct X1 as [X1 X3]. apply V in X1. destruct X1 as (_ & X1 & X4). rewrite X2, E in X1. injection X1 as X1. rewrite X2 in X4. rewrite <- X1, <- X4, C in X3. discriminate.
Qed.

(** ** Nearest event *)
Lemma min_lt : forall l d x, Qltb (fold_left Qminb l d) x = true <-> exists y, In y (d :: l) /\ (y < x)%Q.
Proof.
  induction l as [|a l IH]; intros d x; cbn [fold_left].
  - rewrite Qltb_lt. split; [intro H; exists d; split; [now left|exact H]|intros (y & [->|[]] & H); exact H].
  - rewrite IH. unfold Qminb. destruct (Qle_bool d a) eqn:C.
    + apply Qle_bool_iff in C. split.
      * intros (y & [->|Y] & H); [exists y; split; [now left|exact H]|exists y; split; [right; now right|exact H]].
      * intros (y & [->|[->|Y]] & H); [exists y; split; [now left|exact H]|exists d; split; [now left|lra]|exists y; split; [now right|exact H]].
    + apply Qle_bool_false in C. split.
      * intros (y & [->|Y] & H); [exists y; split; [right; now left|exact H]|exists y; split; [right; now right|exact H]].
      * intros (y & [->|[->|Y]] & H); [exists a; split; [now left|lra]|exists y; split; [now left|exact H]|exists y; split; [now right|exact H]].
Qed.

(** ** Bands that follow one another *)
Fixpoint chained (lo : Q) (l : list (Q * Q)) : Prop :=
  match l with [] => True | p :: r => fst p = lo /\ (fst p <= snd p)%Q /\ chained (snd p) r end.
Definition top (lo : Q) (l : list (Q * Q)) : Q := snd (last l (lo, lo)).
Lemma chained_below : forall l lo p x, chained lo l -> In p l -> (fst p <= x)%Q -> (lo <= x)%Q.
Proof.
  induction l as [|q l IH]; intros lo p x C I H; [destruct I|]. destruct C as (C1 & C2 & C3). destruct I as [->|I]; [rewrite <- C1; exact H|].
  pose proof (IH _ _ _ C3 I H). rewrite <- C1. lra.
Qed.
Lemma top_cons : forall p l lo, top lo (p :: l) = top (snd p) l.
Proof. intros p l lo. unfold top. destruct l as [|q l]; [reflexivity|]. cbn [last]. revert q. induction l as [|r l IH]; intro q; [reflexivity|]. apply IH. Qed.
Lemma chained_one : forall l lo x, chained lo l -> (lo <= x < top lo l)%Q -> exists i p, nth_error l i = Some p /\ (fst p <= x < snd p)%Q /\
  forall j q, nth_error l j = Some q -> (fst q <= x < snd q)%Q -> j = i.
Proof.
  induction l as [|p l IH]; intros lo x C [H1 H2]; [unfold top in H2; cbn in H2; lra|]. destruct C as (C1 & C2 & C3). rewrite top_cons in H2.
  destruct (Qlt_le_dec x (snd p)) as [D|D].
  - exists 0, p. split; [reflexivity|]. split; [split; [rewrite C1; exact H1|exact D]|]. intros [|j] q J [Q1 Q2]; [reflexivity|].
    cbn in J. pose proof (chained_below _ _ q x C3 (nth_error_In _ _ J) Q1). lra.
  - destruct (IH (snd p) x C3 (conj D H2)) as (i & q & I1 & I2 & I3). exists (S i), q. split; [exact I1|]. split; [exact I2|].
    intros [|j] r J R; [cbn in J; injection J as <-; lra|]. f_equal. exact (I3 j r J R).
Qed.
