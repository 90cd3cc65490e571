(** Proofs about masks and fields of view. *)
From Coq Require Import List Bool Reals Lra Lia ZArith Arith Permutation Sorted.
From Verif Require Import Base Sphere Sphere_proofs Fov.
Import ListNotations.
Open Scope R_scope.

(** ** Rounding *)
Lemma Rabs_le_inv : forall x a, Rabs x <= a -> - a <= x <= a.
Proof. intros x a H. unfold Rabs in H. destruct (Rcase_abs x); lra. Qed.
Lemma floor_bounds : forall x, IZR (Int_part x) <= x < IZR (Int_part x) + 1.
Proof. intros x. destruct (base_Int_part x). lra. Qed.
Lemma np_round_err : forall x, Rabs (IZR (np_round x) - x) <= 1 / 2.
Proof.
  intros x. assert (B := floor_bounds x). unfold np_round. set (f := Int_part x) in *. apply Rabs_le.
  destruct (Rlt_dec (x - IZR f) (1 / 2)); [lra|]. destruct (Rlt_dec (1 / 2) (x - IZR f)); [rewrite plus_IZR; lra|]. destruct (Z.even f); [lra|rewrite plus_IZR; lra].
Qed.
Lemma np_round_mono : forall x y, x <= y -> (np_round x <= np_round y)%Z.
Proof.
  intros x y H. assert (A := floor_bounds x). assert (B := floor_bounds y). unfold np_round. set (f := Int_part x) in *. set (g := Int_part y) in *.
  assert (L : (f <= g)%Z) by (apply Z.lt_succ_r, lt_IZR; unfold Z.succ; rewrite plus_IZR; lra).
  destruct (Z.eq_dec f g) as [->|N].
  - destruct (Rlt_dec (x - IZR g) (1 / 2)), (Rlt_dec (y - IZR g) (1 / 2)), (Rlt_dec (1 / 2) (x - IZR g)), (Rlt_dec (1 / 2) (y - IZR g)); try lra; destruct (Z.even g); lia.
  - destruct (Rlt_dec (x - IZR f) (1 / 2)), (Rlt_dec (y - IZR g) (1 / 2)), (Rlt_dec (1 / 2) (x - IZR f)), (Rlt_dec (1 / 2) (y - IZR g)); destruct (Z.even f), (Z.even g); lia.
Qed.
Lemma np_round_near : forall x z, Rabs (x - IZR z) < 1 / 2 -> np_round x = z.
Proof.
  intros x z H. assert (E := np_round_err x). apply Rabs_def2 in H as (H1 & H2). assert (E' := E). apply Rabs_le_inv in E'.
  assert (A : IZR (np_round x) < IZR (z + 1)) by (rewrite plus_IZR; lra). assert (B : IZR (z - 1) < IZR (np_round x)) by (rewrite minus_IZR; lra).
  apply lt_IZR in A. apply lt_IZR in B. lia.
Qed.
Lemma trunc_err : forall x, Rabs (IZR (trunc x) - x) < 1.
Proof.
  intros x. unfold trunc. destruct (Rle_dec 0 x).
  - assert (B := floor_bounds x). apply Rabs_def1; lra.
  - assert (B := floor_bounds (- x)). rewrite opp_IZR. apply Rabs_def1; lra.
Qed.

(** ** Lengths *)
Definition vsub (a b : vec) : vec := V (vx a - vx b) (vy a - vy b) (vz a - vz b).
Definition norm (v : vec) : R := sqrt (dot v v).
Lemma apart_norm : forall a b, apart a b = norm (vsub a b).
Proof. intros. unfold apart, norm. f_equal. unfold dot, vsub. simpl. ring. Qed.
Lemma norm_nonneg : forall v, 0 <= norm v.
Proof. intros. apply sqrt_pos. Qed.
Lemma norm_sq : forall v, norm v * norm v = dot v v.
Proof. intros. apply sqrt_sqrt, dot_self. Qed.
Lemma dot_norm : forall u v, dot u v <= norm u * norm v.
Proof.
  intros u v. destruct (Rle_dec (dot u v) 0) as [H|H].
  - assert (A := norm_nonneg u). assert (B := norm_nonneg v). assert (0 <= norm u * norm v) by (apply Rmult_le_pos; assumption). lra.
  - unfold norm. rewrite <- sqrt_mult by apply dot_self. rewrite <- (sqrt_square (dot u v)) by lra. apply sqrt_le_1_alt, cauchy.
Qed.
Lemma norm_add : forall u v, norm (vadd u v) <= norm u + norm v.
Proof.
  intros u v. assert (A := norm_nonneg u). assert (B := norm_nonneg v). apply Rsqr_incr_0_var; [|lra]. unfold Rsqr. rewrite norm_sq.
  assert (D := dot_norm u v). assert (U := norm_sq u). assert (W := norm_sq v). replace (dot (vadd u v) (vadd u v)) with (dot u u + dot v v + 2 * dot u v) by (unfold dot, vadd; simpl; ring). nra.
Qed.
Lemma norm_scale : forall k v, 0 <= k -> norm (Sphere_proofs.scale k v) = k * norm v.
Proof.
  intros k v H. unfold norm. replace (dot (Sphere_proofs.scale k v) (Sphere_proofs.scale k v)) with ((k * k) * dot v v) by (unfold dot, Sphere_proofs.scale; simpl; ring).
  rewrite sqrt_mult by (try apply dot_self; nra). now rewrite sqrt_square.
Qed.
Lemma apart_nonneg : forall a b, 0 <= apart a b.
Proof. intros. apply sqrt_pos. Qed.
Lemma apart_self : forall a, apart a a = 0.
Proof. intros. unfold apart. rewrite !Rminus_diag_eq by reflexivity. replace (0 ^ 2 + 0 ^ 2 + 0 ^ 2) with 0 by ring. apply sqrt_0. Qed.
Lemma apart_chord : forall a b, apart a b = chord a b.
Proof. reflexivity. Qed.
(** Rounding both ends of a scaled chord moves its length by no more than the square root of three. *)
Lemma rounded_apart : forall k a b, 0 < k -> Rabs (apart (rounded (Some k) a) (rounded (Some k) b) - k * apart a b) <= sqrt 3.
Proof.
  intros k a b K. rewrite !apart_norm. set (A := rounded (Some k) a). set (B := rounded (Some k) b).
  set (e := vsub (vsub A B) (Sphere_proofs.scale k (vsub a b))).
  assert (E : norm e <= sqrt 3).
  { unfold norm. apply sqrt_le_1_alt. unfold e, A, B, dot, vsub, Sphere_proofs.scale, rounded. cbn [vx vy vz].
    assert (T : forall p q, (IZR (np_round (p * k)) - IZR (np_round (q * k)) - k * (p - q)) * (IZR (np_round (p * k)) - IZR (np_round (q * k)) - k * (p - q)) <= 1).
    { intros p q. assert (X := Rabs_le_inv _ _ (np_round_err (p * k))). assert (Y := Rabs_le_inv _ _ (np_round_err (q * k))).
      set (s := IZR (np_round (p * k)) - IZR (np_round (q * k)) - k * (p - q)). assert (-1 <= s <= 1) by (unfold s; lra). nra. }
    assert (X := T (vx a) (vx b)). assert (Y := T (vy a) (vy b)). assert (Z := T (vz a) (vz b)). lra. }
  assert (N := norm_scale k (vsub a b) (Rlt_le _ _ K)). rewrite <- N.
  assert (P1 : vsub A B = vadd (Sphere_proofs.scale k (vsub a b)) e) by (apply vec_eq; unfold e, vsub, vadd; cbn [vx vy vz]; ring).
  assert (P2 : Sphere_proofs.scale k (vsub a b) = vadd (vsub A B) (Sphere_proofs.scale (-1) e)) by (apply vec_eq; unfold e, vsub, vadd, Sphere_proofs.scale; cbn [vx vy vz]; ring).
  assert (Q1 := norm_add (Sphere_proofs.scale k (vsub a b)) e). rewrite <- P1 in Q1.
  assert (Q2 := norm_add (vsub A B) (Sphere_proofs.scale (-1) e)). rewrite <- P2 in Q2.
  assert (M : norm (Sphere_proofs.scale (-1) e) = norm e) by (unfold norm; f_equal; unfold dot, Sphere_proofs.scale; cbn [vx vy vz]; ring).
  apply Rabs_le. lra.
Qed.

(** ** Chords and angles *)
Lemma radius_sin : forall r, 0 <= r <= 2 * PI -> xyz_angular_radius r = 2 * sin (r / 2).
Proof.
  intros r H. rewrite radius_cos. assert (S : 0 <= sin (r / 2)) by (apply sin_ge_0; lra). replace (2 * (1 - cos r)) with ((2 * sin (r / 2)) * (2 * sin (r / 2))).
  - apply sqrt_square. lra.
  - assert (E := hav r). simpl in E. lra.
Qed.
Lemma chord_ang : forall a b, unit a -> unit b -> apart a b = 2 * sin (ang a b / 2).
Proof.
  intros a b A B. assert (P := ang_range a b). assert (PP := PI_RGT_0). rewrite apart_chord, chord_dot by assumption. rewrite <- (cos_ang a b A B). rewrite <- radius_cos. apply radius_sin. lra.
Qed.
Lemma sin_gap : forall p q, 0 <= q < p -> p <= PI / 6 -> (sqrt 3 / 2) * (p - q) <= sin p - sin q.
Proof.
  intros p q (Q & L) P. destruct (MVT_cor2 sin cos q p L) as (c & E & C). { intros c _. apply derivable_pt_lim_sin. }
  rewrite E. apply Rmult_le_compat_r; [lra|]. rewrite <- cos_PI6. assert (PP := PI_RGT_0). apply cos_decr_1; lra.
Qed.
Lemma sqrt3_ge : 1 <= sqrt 3.
Proof. rewrite <- sqrt_1. apply sqrt_le_1_alt. lra. Qed.
Lemma chord_gap : forall r s, 0 <= s -> s < r -> r <= PI / 3 -> (sqrt 3 / 2) * (r - s) <= 2 * sin (r / 2) - 2 * sin (s / 2).
Proof. intros r s S L P. assert (G := sin_gap (r / 2) (s / 2) ltac:(lra) ltac:(lra)). lra. Qed.
Lemma half_sin_mono : forall s t, 0 <= s -> s <= t -> t <= PI -> 2 * sin (s / 2) <= 2 * sin (t / 2).
Proof. intros s t S L T. assert (PP := PI_RGT_0). assert (sin (s / 2) <= sin (t / 2)) by (apply sin_incr_1; lra). lra. Qed.
Lemma round_scaled : forall r k, 0 < k -> k * r - 1 / 2 <= IZR (np_round (r * k)) <= k * r + 1 / 2.
Proof. intros r k K. assert (E := Rabs_le_inv _ _ (np_round_err (r * k))). lra. Qed.
(** The rounded search is right but for three units of the scale. *)
Lemma near_in : forall k r a b, 0 < k -> unit a -> unit b -> r <= PI / 3 -> ang a b <= r - 3 / k ->
  apart (rounded (Some k) a) (rounded (Some k) b) <= IZR (np_round (2 * sin (r / 2) * k)).
Proof.
  intros k r a b K A B R S. assert (P := ang_range a b). assert (E := Rabs_le_inv _ _ (rounded_apart k a b K)). rewrite (chord_ang a b A B) in E.
  assert (D := round_scaled (2 * sin (r / 2)) k K). assert (K3 : 0 < 3 / k) by (apply Rdiv_lt_0_compat; lra). assert (S3 := sqrt3_ge).
  assert (G := chord_gap r (ang a b) ltac:(lra) ltac:(lra) R).
  assert (M : sqrt 3 / 2 * (3 / k) <= sqrt 3 / 2 * (r - ang a b)) by (apply Rmult_le_compat_l; lra).
  assert (F : k * (sqrt 3 / 2 * (3 / k)) = 3 / 2 * sqrt 3) by (field; lra).
  assert (H : k * (sqrt 3 / 2 * (3 / k)) <= k * (2 * sin (r / 2) - 2 * sin (ang a b / 2))) by (apply Rmult_le_compat_l; lra). lra.
Qed.
Lemma near_out : forall k r a b, 0 < k -> unit a -> unit b -> 0 <= r -> r + 3 / k <= PI / 3 ->
  apart (rounded (Some k) a) (rounded (Some k) b) <= IZR (np_round (2 * sin (r / 2) * k)) -> ang a b <= r + 3 / k.
Proof.
  intros k r a b K A B R0 R S. assert (P := ang_range a b). assert (E := Rabs_le_inv _ _ (rounded_apart k a b K)). rewrite (chord_ang a b A B) in E.
  assert (D := round_scaled (2 * sin (r / 2)) k K). assert (K3 : 0 < 3 / k) by (apply Rdiv_lt_0_compat; lra). assert (S3 := sqrt3_ge).
  apply Rnot_lt_le. intros N. assert (G := chord_gap (r + 3 / k) r R0 ltac:(lra) R).
  assert (M := half_sin_mono (r + 3 / k) (ang a b) ltac:(lra) ltac:(lra) ltac:(lra)).
  assert (F : k * (sqrt 3 / 2 * (3 / k)) = 3 / 2 * sqrt 3) by (field; lra).
  assert (H : k * (sqrt 3 / 2 * (3 / k)) <= k * (2 * sin (ang a b / 2) - 2 * sin (r / 2))).
  { apply Rmult_le_compat_l; [lra|]. replace (r + 3 / k - r) with (3 / k) in G by ring. lra. }
  (* strict: the angle exceeds the bound *)
  assert (ST : 2 * sin ((r + 3 / k) / 2) < 2 * sin (ang a b / 2)).
  { assert (PP := PI_RGT_0). assert (sin ((r + 3 / k) / 2) < sin (ang a b / 2)) by (apply sin_increasing_1; lra). lra. }
  assert (H' : k * (sqrt 3 / 2 * (3 / k)) < k * (2 * sin (ang a b / 2) - 2 * sin (r / 2))).
  { apply Rmult_lt_compat_l; [lra|]. replace (r + 3 / k - r) with (3 / k) in G by ring. lra. }
  lra.
Qed.

(** ** Lists of indices *)
Lemma ninsert_in : forall x y l, In y (ninsert x l) <-> y = x \/ In y l.
Proof.
  intros x y l. induction l as [|z l IH]; cbn [ninsert].
  - cbn. intuition.
  - destruct (Nat.ltb x z); [cbn; intuition|]. destruct (Nat.eqb x z) eqn:E.
    + apply Nat.eqb_eq in E. subst. cbn. intuition.
    + cbn [In]. rewrite IH. intuition.
Qed.
Lemma nunique_in : forall l y, In y (nunique l) <-> In y l.
Proof. induction l as [|x l IH]; intros y; cbn; [tauto|]. rewrite ninsert_in, IH. intuition. Qed.
Lemma ninsert_sorted : forall x l, StronglySorted lt l -> StronglySorted lt (ninsert x l).
Proof.
  induction l as [|y l IH]; intros S; cbn [ninsert]; [repeat constructor|]. apply StronglySorted_inv in S as (S & F). destruct (Nat.ltb_spec x y).
  - constructor; [now constructor|]. constructor; [exact H|]. eapply Forall_impl; [|exact F]. intros z Q. lia.
  - destruct (Nat.eqb_spec x y); [now constructor|]. constructor; [now apply IH|]. rewrite Forall_forall in *. intros z I. apply ninsert_in in I as [->|I]; [lia|now apply F].
Qed.
Lemma nunique_sorted : forall l, StronglySorted lt (nunique l).
Proof. induction l as [|x l IH]; cbn; [constructor|]. now apply ninsert_sorted. Qed.
Lemma query_in : forall tree p r i, In i (query tree p r) <-> exists q, nth_error tree i = Some q /\ apart q p <= r.
Proof.
  intros. unfold query. rewrite filter_In, in_seq. split.
  - intros (_ & H). destruct (nth_error tree i) as [q|]; [|discriminate]. exists q. split; [reflexivity|]. now destruct (Rle_dec (apart q p) r).
  - intros (q & E & H). split; [assert (N : nth_error tree i <> None) by congruence; apply nth_error_Some in N; lia|]. rewrite E. now destruct (Rle_dec (apart q p) r).
Qed.
Lemma filter_sorted : forall f l, StronglySorted lt l -> StronglySorted lt (filter f l).
Proof.
  induction l as [|x l IH]; intros S; cbn; [constructor|]. apply StronglySorted_inv in S as (S & F). destruct (f x); [|now apply IH]. constructor; [now apply IH|].
  rewrite Forall_forall in *. intros y I. apply filter_In in I. now apply F.
Qed.
Lemma seq_sorted : forall n k, StronglySorted lt (seq k n).
Proof. induction n as [|n IH]; intros k; cbn; [constructor|]. constructor; [apply IH|]. apply Forall_forall. intros x I. apply in_seq in I. lia. Qed.
Lemma query_sorted : forall tree p r, StronglySorted lt (query tree p r).
Proof. intros. apply filter_sorted, seq_sorted. Qed.
Lemma sorted_nodup : forall l, StronglySorted lt l -> NoDup l.
Proof.
  induction l as [|x l IH]; intros S; [constructor|]. apply StronglySorted_inv in S as (S & F). constructor; [|now apply IH]. intros I. rewrite Forall_forall in F. apply F in I. lia.
Qed.
Lemma take_ok : forall l mask, (forall i, In i mask -> (i < List.length l)%nat) -> exists r, take l mask = Ok r /\ List.length r = List.length mask /\
  (forall x, In x r <-> exists i, In i mask /\ nth_error l i = Some x) /\ (forall n i, nth_error mask n = Some i -> nth_error r n = nth_error l i).
Proof.
  induction mask as [|i mask IH]; intros H; cbn [take].
  - exists []. repeat split; cbn; try tauto; [intros (i & [] & _)|intros [|n] i; discriminate].
  - assert (I := H i (or_introl eq_refl)). apply nth_error_Some in I. destruct (nth_error l i) as [x|] eqn:E; [|congruence].
    destruct IH as (r & T & L & M & G); [intros; apply H; right; assumption|]. rewrite T. cbn [bind]. exists (x :: r). split; [reflexivity|]. split; [cbn; congruence|]. split.
    + intros y. cbn. rewrite M. split.
      * intros [<-|(j & J & F)]; [exists i|exists j]; auto.
      * intros (j & [<-|J] & F); [left; congruence|right; exists j; auto].
    + intros [|n] j F; cbn in *; [congruence|now apply G].
Qed.
Lemma take_past : forall l mask i, In i mask -> (List.length l <= i)%nat -> take l mask = Raise IndexError.
Proof.
  induction mask as [|j mask IH]; intros i I L; [destruct I|]. cbn [take]. destruct (nth_error l j) eqn:E; [|reflexivity]. destruct I as [->|I].
  - assert (N : nth_error l i <> None) by congruence. apply nth_error_Some in N. lia.
  - now rewrite (IH i I L).
Qed.
Definition in_range (radec : list (R * R)) := radec <> [] /\ forall p, In p radec -> Rabs (fst p) <= 2 * PI /\ Rabs (snd p) <= 2 * PI.
Lemma build_tree_ok : forall scale radec, in_range radec -> build_tree scale radec = Ok (map (fun p => rounded scale (xyz_from_ra_dec (fst p) (snd p))) radec).
Proof.
  intros scale radec (N & F). unfold build_tree. 
  assert (Z : forall (f : R * R -> R), (forall p, In p radec -> Rabs (f p) <= 2 * PI) -> existsb (fun p => far (f p)) radec = false).
  { intros f H. apply not_true_is_false. intros E. apply existsb_exists in E as (p & I & E). unfold far in E. specialize (H p I). destruct (Rlt_dec (PI * 2) (Rabs (f p))); [lra|discriminate]. }
  rewrite !Z by (intros p I; destruct (F p I); assumption). cbn. destruct radec; [congruence|reflexivity].
Qed.

(** ** The kept tree and answers *)
Lemma same_scale_eq : forall a b, same_scale a b = true <-> a = b.
Proof. intros [x|] [y|]; cbn; try (split; [discriminate|congruence]); [|tauto]. destruct (Req_EM_T x y); split; congruence. Qed.
Lemma same_args_eq : forall a b, same_args a b = true <-> a = b.
Proof.
  intros [n m s c] [n' m' s' c']. unfold same_args. cbn [a_nside a_mask a_size a_scale]. rewrite !andb_true_iff, Z.eqb_eq, same_scale_eq.
  destruct (list_eq_dec Nat.eq_dec m m'), (Req_EM_T s s'); split; intros H; try (injection H as; subst; tauto); destruct H as (((A & B) & C) & D); try discriminate; congruence.
Qed.
Section Calls.
Variable hp : Z -> res (list (R * R)).
Hypothesis hp_range : forall n radec, hp n = Ok radec -> in_range radec.
Definition pure (a : args) : res (list nat) := bind (tree_for_mask hp (a_nside a) (a_scale a)) (fun t => grow_with hp (Some t) a).
Lemma tree_raise : forall n s e, tree_for_mask hp n s = Raise e <-> hp n = Raise e.
Proof.
  intros n s e. unfold tree_for_mask. destruct (hp n) as [radec|e'] eqn:E; cbn [bind]; [|split; intros H; injection H as ->; reflexivity]. rewrite build_tree_ok by (eapply hp_range; eassumption). split; discriminate.
Qed.
Definition settled (k : kept) : Prop := exists n s t, k_nside k = Some n /\ k_scale k = Some s /\ k_tree k = Some t /\ (tree_for_mask hp n s = Ok t \/ exists e, hp n = Raise e).
Definition honest (k : kept) : Prop := forall a l, In (a, l) (k_memo k) -> pure a = Ok l.
Lemma body_settled : forall k a, settled k -> honest k -> fst (hp_grow_mask_body hp k a) = pure a /\ settled (snd (hp_grow_mask_body hp k a)) /\ honest (snd (hp_grow_mask_body hp k a)).
Proof.
  intros k a S Hn. destruct S as (n & s & t & EN & ES & ET & V). unfold hp_grow_mask_body, prepare. rewrite EN. cbn [fst snd]. rewrite EN, ES.
  destruct (negb (Z.eqb n (a_nside a)) || negb (same_scale s (a_scale a))) eqn:D.
  - unfold rebuild. destruct (tree_for_mask hp (a_nside a) (a_scale a)) as [t'|e] eqn:T; unfold pure; rewrite T; cbn [bind fst snd k_tree].
    + split; [reflexivity|]. split; [|exact Hn]. exists (a_nside a), (a_scale a), t'. cbn. auto.
    + split; [reflexivity|]. split; [|exact Hn]. exists (a_nside a), s, t. cbn. repeat split; auto. right. exists e. now apply (tree_raise _ (a_scale a)).
  - apply orb_false_iff in D as (D1 & D2). apply negb_false_iff in D1, D2. apply Z.eqb_eq in D1. apply same_scale_eq in D2. subst n s. cbn [fst snd].
    split; [|split; [exists (a_nside a), (a_scale a), t; auto|exact Hn]]. rewrite ET. unfold pure. destruct V as [V|(e & V)]; [now rewrite V|].
    rewrite (proj2 (tree_raise _ (a_scale a) e) V). unfold grow_with. now rewrite V.
Qed.
Lemma call_settled : forall k a, settled k -> honest k -> fst (hp_grow_mask hp k a) = pure a /\ settled (snd (hp_grow_mask hp k a)) /\ honest (snd (hp_grow_mask hp k a)).
Proof.
  intros k a S Hn. unfold hp_grow_mask. destruct (find _ (k_memo k)) as [(b, l)|] eqn:F.
  - apply find_some in F as (I & E). cbn [fst] in E. apply same_args_eq in E. subst b. cbn [fst snd]. split; [symmetry; now apply Hn|]. split; [exact S|].
    intros b m [J|J]; [injection J as <- <-; now apply Hn|]. apply filter_In in J as (J & _). now apply Hn.
  - destruct (body_settled k a S Hn) as (B1 & B2 & B3). destruct (hp_grow_mask_body hp k a) as (r, k'). cbn [fst snd] in *. destruct r as [l|e]; cbn [fst snd].
    + split; [exact B1|]. split; [exact B2|]. intros b m J. cbn [k_memo] in J. destruct J as [J|J]; [injection J as <- <-; now symmetry|].
      apply B3. change (In (b, m) (firstn 9 (k_memo k'))) in J. rewrite <- (firstn_skipn 9 (k_memo k')). apply in_or_app. now left.
    + split; [exact B1|]. split; [exact B2|exact B3].
Qed.
Lemma call_unused : forall a, fst (hp_grow_mask hp unused a) = pure a /\ ((exists radec, hp (a_nside a) = Ok radec) -> settled (snd (hp_grow_mask hp unused a)) /\ honest (snd (hp_grow_mask hp unused a))).
Proof.
  intros a. unfold hp_grow_mask, unused. cbn [k_memo find]. unfold hp_grow_mask_body, prepare. cbn [k_nside]. unfold rebuild, pure.
  destruct (tree_for_mask hp (a_nside a) (a_scale a)) as [t|e] eqn:T; cbn [k_nside k_scale k_tree k_memo].
  - rewrite Z.eqb_refl, (proj2 (same_scale_eq (a_scale a) (a_scale a)) eq_refl). cbn [negb orb k_tree bind]. destruct (grow_with hp (Some t) a) as [l|e] eqn:G; cbn [fst snd].
    + split; [reflexivity|]. intros _. split; [exists (a_nside a), (a_scale a), t; cbn; auto|]. intros b m [J|[]]. injection J as <- <-. unfold pure. now rewrite T.
    + split; [reflexivity|]. intros _. split; [exists (a_nside a), (a_scale a), t; cbn; auto|]. intros b m [].
  - cbn [fst snd]. split; [reflexivity|]. intros (radec & E). apply tree_raise in T. congruence.
Qed.
Definition run (k : kept) (calls : list args) : kept := fold_left (fun k a => snd (hp_grow_mask hp k a)) calls k.
Lemma run_settled : forall calls k, settled k -> honest k -> settled (run k calls) /\ honest (run k calls).
Proof. induction calls as [|c calls IH]; intros k S H; [split; assumption|]. cbn. destruct (call_settled k c S H) as (_ & S' & H'). now apply IH. Qed.
Lemma calls_fresh : forall calls a, match calls with [] => True | c :: _ => exists radec, hp (a_nside c) = Ok radec end ->
  fst (hp_grow_mask hp (run unused calls) a) = fst (hp_grow_mask hp unused a).
Proof.
  intros [|c calls] a H; [reflexivity|]. destruct (call_unused c) as (_ & C). destruct (C H) as (S & N). cbn [run fold_left].
  destruct (run_settled calls _ S N) as (S' & N'). unfold run in *. rewrite (proj1 (call_settled _ a S' N')). symmetry. apply call_unused.
Qed.

(** ** The grown mask *)
Definition spot (p : R * R) : vec := xyz_from_ra_dec (fst p) (snd p).
Lemma pure_ok : forall a radec, hp (a_nside a) = Ok radec -> a_mask a <> [] -> (forall i, In i (a_mask a) -> (i < List.length radec)%nat) ->
  exists l, pure a = Ok l /\ StronglySorted lt l /\
  forall p, In p l <-> exists m x y, nth_error radec p = Some x /\ In m (a_mask a) /\ nth_error radec m = Some y /\
    apart (rounded (a_scale a) (spot x)) (rounded (a_scale a) (spot y)) <= rounded_length (a_scale a) (2 * sin (a_size a / 2)).
Proof.
  intros a radec E N B. unfold pure, tree_for_mask. rewrite E. cbn [bind]. rewrite build_tree_ok by (eapply hp_range; eassumption). cbn [bind]. unfold grow_with. rewrite E. cbn [bind].
  destruct (take_ok radec (a_mask a) B) as (r & T & L & M & G). rewrite T. cbn [bind]. set (dist := rounded_length _ _). rewrite map_map.
  set (tree := map (fun p => rounded (a_scale a) (xyz_from_ra_dec (fst p) (snd p))) radec).
  set (f := fun x : R * R => query tree (rounded (a_scale a) (xyz_from_ra_dec (fst x) (snd x))) dist).
  exists (nunique (concat (map f r))). split; [destruct r; [destruct (a_mask a); [congruence|discriminate]|reflexivity]|]. split; [apply nunique_sorted|].
  intros p. rewrite nunique_in, in_concat. split.
  - intros (q & Q & I). apply in_map_iff in Q as (y & <- & Y). apply M in Y as (m & Mm & Ey). unfold f in I. apply query_in in I as (v & V & D).
    unfold tree in V. rewrite nth_error_map in V. destruct (nth_error radec p) as [x|] eqn:X; [|discriminate]. injection V as <-. exists m, x, y. unfold spot. auto.
  - intros (m & x & y & X & Mm & Y & D). exists (f y). split; [apply in_map, M; exists m; auto|]. unfold f. apply query_in. exists (rounded (a_scale a) (spot x)).
    split; [unfold tree; rewrite nth_error_map, X; reflexivity|exact D].
Qed.
Lemma pure_empty : forall a radec, hp (a_nside a) = Ok radec -> a_mask a = [] -> pure a = Raise ValueError.
Proof. intros a radec E N. unfold pure, tree_for_mask. rewrite E. cbn [bind]. rewrite build_tree_ok by (eapply hp_range; eassumption). cbn [bind]. unfold grow_with. rewrite E, N. reflexivity. Qed.
End Calls.

(** ** A square of whole numbers *)
Definition cross2 (a b p : Z * Z) : Z := ((fst b - fst a) * (snd p - snd a) - (snd b - snd a) * (fst p - fst a))%Z.
Lemma cross_err : forall p1 p2 q1 q2 d1 d2 e1 e2, Rabs d1 <= 2 -> Rabs d2 <= 2 -> Rabs e1 <= 2 -> Rabs e2 <= 2 ->
  Rabs (((p1 + d1) * (q2 + e2) - (p2 + d2) * (q1 + e1)) - (p1 * q2 - p2 * q1)) <= 2 * (Rabs q1 + Rabs q2) + 2 * (Rabs p1 + Rabs p2) + 8.
Proof.
  intros p1 p2 q1 q2 d1 d2 e1 e2 D1 D2 E1 E2.
  replace (((p1 + d1) * (q2 + e2) - (p2 + d2) * (q1 + e1)) - (p1 * q2 - p2 * q1)) with (d1 * q2 + - (d2 * q1) + p1 * e2 + - (p2 * e1) + d1 * e2 + - (d2 * e1)) by ring.
  assert (T : forall a b A B, Rabs a <= A -> Rabs b <= B -> Rabs (a * b) <= A * B).
  { intros a b A B HA HB. rewrite Rabs_mult. apply Rmult_le_compat; try apply Rabs_pos; assumption. }
  assert (X1 := T d1 q2 2 (Rabs q2) D1 (Rle_refl _)). assert (X2 := T d2 q1 2 (Rabs q1) D2 (Rle_refl _)). assert (X3 := T p1 e2 (Rabs p1) 2 (Rle_refl _) E2).
  assert (X4 := T p2 e1 (Rabs p2) 2 (Rle_refl _) E1). assert (X5 := T d1 e2 2 2 D1 E2). assert (X6 := T d2 e1 2 2 D2 E1).
  repeat (eapply Rle_trans; [apply Rabs_triang|]). rewrite !Rabs_Ropp. 
  assert (Y5 := Rabs_triang (d1 * q2 + - (d2 * q1) + p1 * e2 + - (p2 * e1)) (d1 * e2)). assert (Y4 := Rabs_triang (d1 * q2 + - (d2 * q1) + p1 * e2) (- (p2 * e1))).
  assert (Y3 := Rabs_triang (d1 * q2 + - (d2 * q1)) (p1 * e2)). assert (Y2 := Rabs_triang (d1 * q2) (- (d2 * q1))). rewrite Rabs_Ropp in *. lra.
Qed.
Lemma turn_abs : forall c n a b, c * c + n * n = 1 -> Rabs (a * c - b * n) + Rabs (a * n + b * c) <= 3 / 2 * (Rabs a + Rabs b).
Proof.
  intros c n a b H. assert (CN : Rabs c + Rabs n <= 3 / 2).
  { assert (A := Rabs_pos c). assert (B := Rabs_pos n). assert (C2 : Rabs c * Rabs c = c * c) by (rewrite <- Rabs_mult; apply Rabs_pos_eq, Rle_0_sqr). assert (N2 : Rabs n * Rabs n = n * n) by (rewrite <- Rabs_mult; apply Rabs_pos_eq, Rle_0_sqr).
    assert (S1 : Rabs c * Rabs c + Rabs n * Rabs n = 1) by lra. clear C2 N2. revert A B S1. generalize (Rabs c) (Rabs n). intros x y A B S1.
    apply Rnot_lt_le. intros L. assert (0 <= (x - y) * (x - y)) by apply Rle_0_sqr. assert ((3 / 2) * (3 / 2) < (x + y) * (x + y)) by (apply Rmult_le_0_lt_compat; lra). lra. }
  assert (X := Rabs_triang (a * c) (- (b * n))). assert (Y := Rabs_triang (a * n) (b * c)). rewrite Rabs_Ropp in X. rewrite !Rabs_mult in X, Y. unfold Rminus.
  assert (0 <= Rabs a) by apply Rabs_pos. assert (0 <= Rabs b) by apply Rabs_pos.
  assert (Rabs a * (Rabs c + Rabs n) <= Rabs a * (3 / 2)) by (apply Rmult_le_compat_l; assumption). assert (Rabs b * (Rabs c + Rabs n) <= Rabs b * (3 / 2)) by (apply Rmult_le_compat_l; assumption). lra.
Qed.
(** The turn of a point, cut to whole numbers. *)
Definition cut (c n : R) (p : R * R) : Z * Z := (trunc (fst p * c - snd p * n), trunc (fst p * n + snd p * c)).
Lemma cut_cross : forall c n e f t, c * c + n * n = 1 ->
  Rabs (IZR (cross2 (cut c n e) (cut c n f) (cut c n t)) - ((fst f - fst e) * (snd t - snd e) - (snd f - snd e) * (fst t - fst e)))
  <= 3 * (Rabs (fst t - fst e) + Rabs (snd t - snd e)) + 3 * (Rabs (fst f - fst e) + Rabs (snd f - snd e)) + 8.
Proof.
  intros c n (ea, eb) (fa, fb) (ta, tb) H. unfold cross2, cut. cbn [fst snd]. rewrite minus_IZR, !mult_IZR, !minus_IZR.
  set (tr := fun x => IZR (trunc x)). assert (TE : forall x, Rabs (tr x - x) < 1) by (intros; apply trunc_err).
  fold (tr (fa * c - fb * n)) (tr (ea * c - eb * n)) (tr (ta * n + tb * c)) (tr (ea * n + eb * c)) (tr (fa * n + fb * c)) (tr (ta * c - tb * n)).
  assert (DE : forall x y, Rabs ((tr x - tr y) - (x - y)) <= 2).
  { intros x y. replace ((tr x - tr y) - (x - y)) with ((tr x - x) + - (tr y - y)) by ring. eapply Rle_trans; [apply Rabs_triang|]. rewrite Rabs_Ropp. assert (A := TE x). assert (B := TE y). lra. }
  set (p1 := (fa - ea) * c - (fb - eb) * n). set (p2 := (fa - ea) * n + (fb - eb) * c). set (q1 := (ta - ea) * c - (tb - eb) * n). set (q2 := (ta - ea) * n + (tb - eb) * c).
  assert (D1 := DE (fa * c - fb * n) (ea * c - eb * n)). assert (D2 := DE (fa * n + fb * c) (ea * n + eb * c)). assert (E1 := DE (ta * c - tb * n) (ea * c - eb * n)). assert (E2 := DE (ta * n + tb * c) (ea * n + eb * c)).
  assert (K := cross_err p1 p2 q1 q2 _ _ _ _ D1 D2 E1 E2).
  replace (p1 * q2 - p2 * q1) with ((fa - ea) * (tb - eb) - (fb - eb) * (ta - ea)) in K.
  2: { unfold p1, p2, q1, q2. transitivity (((fa - ea) * (tb - eb) - (fb - eb) * (ta - ea)) * (c * c + n * n)); [rewrite H; ring|ring]. }
  assert (P := turn_abs c n (fa - ea) (fb - eb) H). assert (Q := turn_abs c n (ta - ea) (tb - eb) H). fold p1 p2 in P. fold q1 q2 in Q.
  eapply Rle_trans; [|eapply Rle_trans; [exact K|lra]]. right. f_equal. f_equal. unfold p1, p2, q1, q2. ring.
Qed.

(** matplotlib's answer for a convex polygon of four corners, given counterclockwise: yes strictly
    inside, no strictly outside. *)
Definition convex (q0 q1 q2 q3 : Z * Z) : Prop := (0 < cross2 q0 q1 q2 /\ 0 < cross2 q1 q2 q3 /\ 0 < cross2 q2 q3 q0 /\ 0 < cross2 q3 q0 q1)%Z.
Definition tells_inside (contains : list (Z * Z) -> Z * Z -> bool) : Prop := forall q0 q1 q2 q3 p, convex q0 q1 q2 q3 ->
  ((0 < cross2 q0 q1 p /\ 0 < cross2 q1 q2 p /\ 0 < cross2 q2 q3 p /\ 0 < cross2 q3 q0 p)%Z -> contains [q0; q1; q2; q3; q0] p = true) /\
  ((cross2 q0 q1 p < 0 \/ cross2 q1 q2 p < 0 \/ cross2 q2 q3 p < 0 \/ cross2 q3 q0 p < 0)%Z -> contains [q0; q1; q2; q3; q0] p = false).
Ltac corner := unfold Rabs; repeat (destruct Rcase_abs); lra.
Section Square.
Variables (c n s : R).
Hypothesis CN : c * c + n * n = 1.
Hypothesis S30 : 30 <= s.
Let h := s / 2.
Let A0 : R * R := (- h, h). Let A1 : R * R := (- h, - h). Let A2 : R * R := (h, - h). Let A3 : R * R := (h, h).
Lemma pos_of_cut : forall e f t v b, (fst f - fst e) * (snd t - snd e) - (snd f - snd e) * (fst t - fst e) = v ->
  3 * (Rabs (fst t - fst e) + Rabs (snd t - snd e)) + 3 * (Rabs (fst f - fst e) + Rabs (snd f - snd e)) + 8 <= b ->
  (b < v -> (0 < cross2 (cut c n e) (cut c n f) (cut c n t))%Z) /\ (v < - b -> (cross2 (cut c n e) (cut c n f) (cut c n t) < 0)%Z).
Proof.
  intros e f t v b V B. assert (K := Rabs_le_inv _ _ (cut_cross c n e f t CN)). rewrite V in K. split; intros L; apply lt_IZR; lra.
Qed.
Lemma square_convex : convex (cut c n A0) (cut c n A1) (cut c n A2) (cut c n A3).
Proof.
  assert (H : h = s / 2) by reflexivity. assert (SS : 30 * s <= s * s) by nra.
  assert (E1 : Rabs (h - - h) = s) by (rewrite Rabs_pos_eq; lra). assert (E2 : Rabs (- h - h) = s) by (rewrite Rabs_minus_sym; exact E1).
  assert (E3 : Rabs (h - h) = 0) by (rewrite Rminus_diag_eq by reflexivity; apply Rabs_R0). assert (E4 : Rabs (- h - - h) = 0) by (rewrite Rminus_diag_eq by reflexivity; apply Rabs_R0).
  repeat split; (eapply pos_of_cut; [reflexivity|cbn [A0 A1 A2 A3 fst snd]; rewrite ?E1, ?E2, ?E3, ?E4; apply Rle_refl|]); cbn [A0 A1 A2 A3 fst snd]; unfold h; nra.
Qed.
Lemma square_in : forall a b, Rabs a <= h - 10 -> Rabs b <= h - 10 ->
  let p := cut c n (a, b) in (0 < cross2 (cut c n A0) (cut c n A1) p /\ 0 < cross2 (cut c n A1) (cut c n A2) p /\ 0 < cross2 (cut c n A2) (cut c n A3) p /\ 0 < cross2 (cut c n A3) (cut c n A0) p)%Z.
Proof.
  intros a b A B p. subst p. assert (H : h = s / 2) by reflexivity. apply Rabs_le_inv in A. apply Rabs_le_inv in B.
  assert (E1 : Rabs (h - - h) = s) by (rewrite Rabs_pos_eq; lra). assert (E2 : Rabs (- h - h) = s) by (rewrite Rabs_minus_sym; exact E1).
  assert (E3 : Rabs (h - h) = 0) by (rewrite Rminus_diag_eq by reflexivity; apply Rabs_R0). assert (E4 : Rabs (- h - - h) = 0) by (rewrite Rminus_diag_eq by reflexivity; apply Rabs_R0).
  assert (W : forall x, - (h - 10) <= x <= h - 10 -> Rabs (x - - h) <= s /\ Rabs (x - h) <= s) by (intros x X; split; apply Rabs_le; lra).
  destruct (W a A) as (WA & WA'). destruct (W b B) as (WB & WB').
  repeat split; (eapply pos_of_cut; [reflexivity|cbn [A0 A1 A2 A3 fst snd]; rewrite ?E1, ?E2, ?E3, ?E4; apply (Rle_trans _ (9 * s + 8)); [lra|apply Rle_refl]|]); cbn [A0 A1 A2 A3 fst snd]; unfold h in *; nra.
Qed.
Lemma square_out : forall a b, h + 10 <= Rabs a \/ h + 10 <= Rabs b ->
  let p := cut c n (a, b) in (cross2 (cut c n A0) (cut c n A1) p < 0 \/ cross2 (cut c n A1) (cut c n A2) p < 0 \/ cross2 (cut c n A2) (cut c n A3) p < 0 \/ cross2 (cut c n A3) (cut c n A0) p < 0)%Z.
Proof.
  intros a b AB p. subst p. assert (H : h = s / 2) by reflexivity.
  assert (E1 : Rabs (h - - h) = s) by (rewrite Rabs_pos_eq; lra). assert (E2 : Rabs (- h - h) = s) by (rewrite Rabs_minus_sym; exact E1).
  assert (E3 : Rabs (h - h) = 0) by (rewrite Rminus_diag_eq by reflexivity; apply Rabs_R0). assert (E4 : Rabs (- h - - h) = 0) by (rewrite Rminus_diag_eq by reflexivity; apply Rabs_R0).
  set (m := Rmax (Rabs a) (Rabs b) - h). assert (M10 : 10 <= m) by (unfold m; assert (X := Rmax_l (Rabs a) (Rabs b)); assert (Y := Rmax_r (Rabs a) (Rabs b)); destruct AB; lra).
  assert (MA : - (h + m) <= a <= h + m) by (apply Rabs_le_inv; unfold m; assert (X := Rmax_l (Rabs a) (Rabs b)); lra).
  assert (MB : - (h + m) <= b <= h + m) by (apply Rabs_le_inv; unfold m; assert (X := Rmax_r (Rabs a) (Rabs b)); lra).
  assert (W : forall x, - (h + m) <= x <= h + m -> Rabs (x - - h) <= s + m /\ Rabs (x - h) <= s + m) by (intros x X; split; apply Rabs_le; lra).
  destruct (W a MA) as (WA & WA'). destruct (W b MB) as (WB & WB').
  assert (SM : 6 * s + 6 * m + 8 < s * m) by nra.
  assert (C : a = h + m \/ a = - (h + m) \/ b = h + m \/ b = - (h + m)).
  { unfold m. replace (h + (Rmax (Rabs a) (Rabs b) - h)) with (Rmax (Rabs a) (Rabs b)) by ring. unfold Rmax. destruct (Rle_dec (Rabs a) (Rabs b)); unfold Rabs; [destruct (Rcase_abs b)|destruct (Rcase_abs a)]; lra. }
  clearbody m. destruct C as [C|[C|[C|C]]]; rewrite C in *; clear C.
  - right. right. left. eapply pos_of_cut; [reflexivity|cbn [A0 A1 A2 A3 fst snd]; rewrite ?E1, ?E2, ?E3, ?E4; apply Rle_refl|]. cbn [A0 A1 A2 A3 fst snd]. replace (h + m - h) with m by ring. rewrite (Rabs_pos_eq m) by lra. replace (h - - h) with s by lra. replace (h - h) with 0 by ring. lra.
  - left. eapply pos_of_cut; [reflexivity|cbn [A0 A1 A2 A3 fst snd]; rewrite ?E1, ?E2, ?E3, ?E4; apply Rle_refl|]. cbn [A0 A1 A2 A3 fst snd]. replace (- (h + m) - - h) with (- m) by ring. rewrite Rabs_Ropp, (Rabs_pos_eq m) by lra. replace (- h - h) with (- s) by lra. replace (- h - - h) with 0 by ring. lra.
  - right. right. right. eapply pos_of_cut; [reflexivity|cbn [A0 A1 A2 A3 fst snd]; rewrite ?E1, ?E2, ?E3, ?E4; apply Rle_refl|]. cbn [A0 A1 A2 A3 fst snd]. replace (h + m - h) with m by ring. rewrite (Rabs_pos_eq m) by lra. replace (- h - h) with (- s) by lra. replace (h - h) with 0 by ring. lra.
  - right. left. eapply pos_of_cut; [reflexivity|cbn [A0 A1 A2 A3 fst snd]; rewrite ?E1, ?E2, ?E3, ?E4; apply Rle_refl|]. cbn [A0 A1 A2 A3 fst snd]. replace (- (h + m) - - h) with (- m) by ring. rewrite Rabs_Ropp, (Rabs_pos_eq m) by lra. replace (h - - h) with s by lra. replace (- h - - h) with 0 by ring. lra.
Qed.
End Square.
