(** Proofs about season numbering and alerts. *)
From Coq Require Import List ZArith QArith Qround Qabs Bool Lia Lqa.
From Verif Require Import Base IntRounded IntRounded_proofs Feat_proofs2 Util.
Import ListNotations.
Open Scope nat_scope.

Definition isint (x : Q) : Prop := exists z, x = inject_Z z.
Lemma round_even_int : forall z, Qround_even (inject_Z z) = z.
Proof.
  intros z. unfold Qround_even. rewrite Qfloor_Z.
  assert (E : Qltb (inject_Z z - inject_Z z) (1 # 2) = true) by (apply Qltb_lt; lra).
  now rewrite E.
Qed.

(** Comparing whole numbers with IntRounded is exact. *)
Lemma round_pair_int : forall a b, exists k, (fst (round_pair (inject_Z a, inject_Z b)) == inject_Z (a - k))%Q /\
  (snd (round_pair (inject_Z a, inject_Z b)) == inject_Z (b - k))%Q.
Proof.
  intros a b. unfold round_pair. cbn [fst snd]. set (f := Qfloor _). exists (f * 1000000)%Z. unfold ir_scale.
  assert (E : forall z, Qround_even (inject_Z z - inject_Z f * inject_Z 1000000) = (z - f * 1000000)%Z).
  { intros z. rewrite <- (round_even_int (z - f * 1000000)). apply Qround_even_compat.
    unfold Z.sub. rewrite inject_Z_plus, inject_Z_opp, inject_Z_mult. lra. }
  rewrite !E. split; reflexivity.
Qed.
Lemma ir_int_exact : forall (cmp : Q -> Q -> bool) v x,
  (forall a b a' b', (a - b == a' - b')%Q -> cmp a b = cmp a' b') ->
  (forall a, In a v -> isint a) -> isint x -> ir_cmp cmp v [x] = Ok (map (fun a => cmp a x) v).
Proof.
  intros cmp v x T Hv [z ->]. unfold ir_cmp. rewrite bcast_scalar. cbn [bind]. f_equal.
  destruct (check_limit_cases (map (fun a : Q => (a, inject_Z z)) v)) as [E|E]; rewrite E; rewrite !map_map; apply map_ext_in.
  - intros a _. reflexivity.
  - intros a Ha. destruct (Hv a Ha) as [w ->]. destruct (round_pair_int w z) as (k & E1 & E2).
    apply T. rewrite E1, E2. unfold Z.sub. rewrite !inject_Z_plus. lra.
Qed.
Lemma le_bool_diff : forall a b a' b', (a - b == a' - b')%Q -> Qle_bool b a = Qle_bool b' a'.
Proof. intros. apply eq_true_iff_eq. rewrite !Qle_bool_iff. lra. Qed.
Lemma ltb_diff : forall a b a' b', (a - b == a' - b')%Q -> Qltb a b = Qltb a' b'.
Proof. intros. apply eq_true_iff_eq. rewrite !Qltb_lt. lra. Qed.

Lemma put_map : forall A (f : A -> bool) (g : A -> Q) v l,
  put (map f l) v (map g l) = map (fun x => if f x then v else g x) l.
Proof. unfold put. induction l as [|x l IH]; cbn; [reflexivity|]. now rewrite IH. Qed.

Lemma trunc_int : forall z, trunc (inject_Z z) = inject_Z z.
Proof.
  intros z. unfold trunc. rewrite Qfloor_Z. destruct (Qle_bool 0 (inject_Z z)); [reflexivity|].
  rewrite <- inject_Z_opp, Qfloor_Z, Z.opp_involutive. reflexivity.
Qed.
Lemma trunc_compat : forall x y, (x == y)%Q -> trunc x = trunc y.
Proof.
  intros x y E. unfold trunc.
  assert (A : Qle_bool 0 x = Qle_bool 0 y) by (apply eq_true_iff_eq; rewrite !Qle_bool_iff, E; tauto).
  rewrite A, (Qfloor_comp _ _ E). assert (B : (- x == - y)%Q) by now rewrite E. now rewrite (Qfloor_comp _ _ B).
Qed.
Lemma Qfloor_div : forall z m, (0 < m)%Z -> Qfloor (inject_Z z / inject_Z m) = (z / m)%Z.
Proof.
  intros z m H. destruct m as [|m|m]; try lia. unfold Qdiv, Qinv, inject_Z, Qmult, Qfloor. cbn. now rewrite Z.mul_1_r.
Qed.
Lemma qmod_int : forall z m, (0 < m)%Z -> (qmod (inject_Z z) (inject_Z m) == inject_Z (z mod m))%Q.
Proof.
  intros z m H. unfold qmod. rewrite Qfloor_div by exact H. rewrite Z.mod_eq by lia.
  unfold Z.sub. rewrite inject_Z_plus, inject_Z_opp, inject_Z_mult. lra.
Qed.

Definition season_of (t len : Q) : Z := Qfloor (t / len).
Definition season_out (modulo : option Z) (max_season : option Z) (s : Z) : Z :=
  if match max_season with Some m => (m <=? s)%Z | None => false end then (-1)%Z
  else match modulo with None => s | Some m => if (s <? 0)%Z then (-1)%Z else (s mod m)%Z end.

Lemma season_floor : forall nights offset modulo mx len ps,
  bcast nights offset = Ok ps -> (forall m, modulo = Some m -> (0 < m)%Z) ->
  season_calc nights offset modulo (option_map inject_Z mx) len true =
  Ok (map (fun p => inject_Z (season_out modulo mx (season_of (fst p + snd p) len))) ps).
Proof.
  intros nights offset modulo mx len ps B M. unfold season_calc. rewrite B. cbn [bind]. cbv zeta. rewrite map_map.
  set (s := fun p : Q * Q => season_of (fst p + snd p) len).
  change (map (fun x : Q * Q => inject_Z (Qfloor ((fst x + snd x) / len))) ps) with (map (fun p => inject_Z (s p)) ps).
  assert (I : forall a, In a (map (fun p => inject_Z (s p)) ps) -> isint a).
  { intros a Ha. apply in_map_iff in Ha. destruct Ha as (p & <- & _). now exists (s p). }
  assert (E1 : match option_map inject_Z mx with None => Ok [] | Some m => ir_ge (map (fun p => inject_Z (s p)) ps) [m] end =
    Ok (match mx with None => [] | Some m => map (fun p => Qle_bool (inject_Z m) (inject_Z (s p))) ps end)).
  { destruct mx as [m|]; cbn [option_map]; [|reflexivity]. unfold ir_ge. rewrite ir_int_exact.
    - now rewrite map_map.
    - intros a b a' b' H. now apply le_bool_diff.
    - exact I.
    - now exists m. }
  rewrite E1. cbn [bind].
  assert (E2 : match modulo with
    | None => Ok (map (fun p => inject_Z (s p)) ps)
    | Some m => bind (ir_lt (map (fun p => inject_Z (s p)) ps) [0%Q]) (fun neg =>
                    Ok (put neg (-1)%Q (map (fun x => qmod x (inject_Z m)) (map (fun p => inject_Z (s p)) ps))))
    end = Ok (map (fun p => match modulo with None => inject_Z (s p) | Some m => if (s p <? 0)%Z then (-1)%Q else qmod (inject_Z (s p)) (inject_Z m) end) ps)).
  { destruct modulo as [m|]; [|reflexivity]. unfold ir_lt. rewrite ir_int_exact.
    - cbn [bind]. rewrite !map_map, put_map. f_equal. apply map_ext. intros p.
      assert (X : Qltb (inject_Z (s p)) 0 = (s p <? 0)%Z).
      { apply eq_true_iff_eq. rewrite Qltb_lt, Z.ltb_lt. change 0%Q with (inject_Z 0). apply inject_Z_lt_iff. }
      now rewrite X.
    - intros a b a' b' H. now apply ltb_diff.
    - exact I.
    - now exists 0%Z. }
  rewrite E2. cbn [bind]. f_equal.
  transitivity (map trunc (map (fun p => if match mx with Some m => (m <=? s p)%Z | None => false end then (-1)%Q else
     match modulo with None => inject_Z (s p) | Some m => if (s p <? 0)%Z then (-1)%Q else qmod (inject_Z (s p)) (inject_Z m) end) ps)).
  - f_equal. destruct mx as [m|]; cbn [option_map]; [|reflexivity]. rewrite put_map. apply map_ext. intros p.
    assert (X : Qle_bool (inject_Z m) (inject_Z (s p)) = (m <=? s p)%Z).
    { apply eq_true_iff_eq. rewrite Qle_bool_iff, Z.leb_le. apply inject_Z_le_iff. }
    now rewrite X.
  - rewrite map_map. apply map_ext. intros p. unfold season_out. fold (s p).
    destruct (match mx with Some m => (m <=? s p)%Z | None => false end); [exact (trunc_int (-1))|].
    destruct modulo as [m|]; [|apply trunc_int]. destruct (s p <? 0)%Z; [exact (trunc_int (-1))|].
    rewrite (trunc_compat _ _ (qmod_int (s p) m (M m eq_refl))). apply trunc_int.
Qed.

Lemma season_of_spec : forall t len s, (0 < len)%Q -> season_of t len = s <->
  (inject_Z s * len <= t)%Q /\ (t < (inject_Z s + 1) * len)%Q.
Proof.
  intros t len s L. unfold season_of.
  assert (E : (t / len * len == t)%Q) by (field; lra). split.
  - intros <-. destruct (Qfloor_bounds (t / len)) as [A B]. split.
    + apply Qle_trans with (t / len * len)%Q; [apply Qmult_le_compat_r; lra|lra].
    + apply Qle_lt_trans with (t / len * len)%Q; [lra|]. apply Qmult_lt_compat_r; lra.
  - intros [A B]. rewrite <- E in A, B. apply Qmult_le_r in A; [|exact L]. apply Qmult_lt_r in B; [|exact L].
    destruct (Qfloor_bounds (t / len)) as [C D]. apply Z.le_antisymm.
    + apply Z.lt_succ_r. apply inject_Z_lt_iff. unfold Z.succ. rewrite inject_Z_plus. change (inject_Z 1) with 1%Q. lra.
    + apply Z.lt_succ_r. apply inject_Z_lt_iff. unfold Z.succ. rewrite inject_Z_plus. change (inject_Z 1) with 1%Q. lra.
Qed.

(** ** Alerts *)
Lemma where_from_combine : forall A (f g : A -> Q) (q : Q -> Q -> bool) l i,
  where_from (fun p => q (fst p) (snd p)) i (combine (map f l) (map g l)) = where_from (fun a => q (f a) (g a)) i l.
Proof. induction l as [|a l IH]; intros i; cbn; [reflexivity|]. now rewrite IH. Qed.
Lemma where_pick_from : forall A (p : A -> bool) l pre,
  flat_map (fun i => match nth_error (pre ++ l) i with Some a => [a] | None => [] end) (where_from p (length pre) l) = filter p l.
Proof.
  induction l as [|a l IH]; intros pre; cbn [where_from filter]; [reflexivity|].
  assert (E : pre ++ a :: l = (pre ++ [a]) ++ l) by now rewrite <- app_assoc.
  assert (L : S (length pre) = length (pre ++ [a])) by (rewrite app_length; cbn; lia).
  destruct (p a).
  - cbn [flat_map]. rewrite nth_error_app2 by lia. rewrite Nat.sub_diag. cbn [nth_error app].
    f_equal. rewrite E, L. apply IH.
  - rewrite E, L. apply IH.
Qed.
Lemma serve_filter : forall l mjd,
  serve l mjd = match filter (fun a => Qltb (al_start a) mjd && Qltb mjd (al_end a)) l with [] => None | r => Some r end.
Proof.
  intros l mjd. unfold serve. cbv zeta. unfold np_where.
  rewrite (where_from_combine alert al_start al_end (fun s e => Qltb s mjd && Qltb mjd e)).
  pose proof (where_pick_from alert (fun a => Qltb (al_start a) mjd && Qltb mjd (al_end a)) l []) as H. cbn in H.
  destruct (where_from (fun a => Qltb (al_start a) mjd && Qltb mjd (al_end a)) 0 l) as [|i r] eqn:E.
  - cbn in H. now rewrite <- H.
  - rewrite H. destruct (filter _ l) as [|b bs] eqn:F; [|reflexivity]. exfalso.
    assert (X : In i (where_from (fun a => Qltb (al_start a) mjd && Qltb mjd (al_end a)) 0 l)) by (rewrite E; now left).
    apply where_from_spec in X. destruct X as (j & x & _ & Hj & Hp).
    assert (Y : In x (filter (fun a => Qltb (al_start a) mjd && Qltb mjd (al_end a)) l)) by (apply filter_In; split; [eapply nth_error_In; eauto|exact Hp]).
    rewrite F in Y. destruct Y.
Qed.

Lemma fold_max_ge : forall l x, let m := fold_left (fun a b => if Qle_bool a b then b else a) l x in
  (x <= m)%Q /\ (forall y, In y l -> (y <= m)%Q) /\ (m = x \/ In m l).
Proof.
  induction l as [|y l IH]; intros x; cbn; [repeat split; auto; [apply Qle_refl|contradiction]|].
  destruct (IH (if Qle_bool x y then y else x)) as (A & B & C). cbv zeta in *.
  destruct (Qle_bool x y) eqn:E.
  - apply Qle_bool_iff in E. split; [lra|]. split; [intros z [<-|Hz]; auto|]. destruct C as [->|C]; auto.
  - apply Qle_bool_false in E. split; [lra|]. split; [intros z [<-|Hz]; auto; lra|]. destruct C as [->|C]; auto.
Qed.
Lemma take_ix_ok : forall fp ix, (forall i, In i ix -> i < length fp) ->
  exists l, take_ix fp ix = Ok l /\ forall v, In v l <-> exists i, In i ix /\ nth_error fp i = Some v.
Proof.
  induction ix as [|i ix IH]; intros H.
  - exists []. split; [reflexivity|]. intros v. split; [intros []|]. intros (i & [] & _).
  - destruct IH as (l & E & S); [intros; apply H; now right|].
    destruct (nth_error fp i) as [v|] eqn:N; [|apply nth_error_None in N; specialize (H i (or_introl eq_refl)); lia].
    exists (v :: l). cbn [take_ix]. rewrite N, E. split; [reflexivity|]. intros w. cbn. rewrite S. split.
    + intros [<-|(j & Hj & Hn)]; [exists i; auto|exists j; auto].
    + intros (j & [->|Hj] & Hn); [left; congruence|right; eauto].
Qed.
