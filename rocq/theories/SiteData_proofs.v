(** Proofs about the site records. *)
From Coq Require Import List ZArith QArith Qround Qabs Qfield Bool Lia Lqa Permutation.
From Verif Require Import Base IntRounded Bisect Script Script_proofs TimeGate_proofs GateLoop_proofs SiteData.
Import ListNotations.
Open Scope nat_scope.

Lemma r_insert_perm : forall x l, Permutation (r_insert x l) (x :: l).
Proof.
  induction l as [|y r IH]; simpl; [reflexivity|]. destruct (Qle_bool (fst x) (fst y)); [reflexivity|].
  rewrite IH. apply perm_swap.
Qed.
Lemma r_sort_perm : forall l, Permutation (r_sort l) l.
Proof. induction l as [|x r IH]; simpl; [constructor|]. rewrite r_insert_perm. constructor. exact IH. Qed.

Definition asc (l : list (Q * Q)) : Prop := ordered (map fst l).
Lemma ordered_cons : forall x l, (forall y, In y l -> (x <= y)%Q) -> ordered l -> ordered (x :: l).
Proof.
  intros x l H O i j a b Hij Ha Hb. destruct i as [|i], j as [|j]; simpl in *.
  - inversion Ha; inversion Hb; subst. lra.
  - inversion Ha; subst. apply H. eapply nth_error_In; eauto.
  - lia.
  - eapply (O i j); eauto; lia.
Qed.
Lemma ordered_inv : forall x l, ordered (x :: l) -> (forall y, In y l -> (x <= y)%Q) /\ ordered l.
Proof.
  intros x l O. split.
  - intros y Hy. apply In_nth_error in Hy. destruct Hy as [k Hk]. apply (O 0 (S k) x y); [lia|reflexivity|exact Hk].
  - intros i j a b Hij Ha Hb. apply (O (S i) (S j) a b); [lia|exact Ha|exact Hb].
Qed.
Lemma r_insert_in : forall x l y, In y (map fst (r_insert x l)) -> y = fst x \/ In y (map fst l).
Proof.
  intros x l y H. assert (P := Permutation_map fst (r_insert_perm x l)).
  apply (Permutation_in _ P) in H. simpl in H. destruct H; auto.
Qed.
Lemma r_insert_asc : forall x l, asc l -> asc (r_insert x l).
Proof.
  unfold asc. induction l as [|y r IH]; intros O; simpl.
  - apply ordered_cons; [intros z Hz; destruct Hz|exact O].
  - simpl in O. destruct (ordered_inv _ _ O) as [O1 O2]. destruct (Qle_bool (fst x) (fst y)) eqn:E; simpl.
    + apply ordered_cons; [|exact O]. apply Qle_bool_iff in E. intros z [Hz|Hz]; [subst; exact E|].
      specialize (O1 _ Hz). lra.
    + apply ordered_cons; [|apply IH; exact O2]. apply Qle_bool_false in E. intros z Hz.
      apply r_insert_in in Hz. destruct Hz as [Hz|Hz]; [subst; lra|apply O1; exact Hz].
Qed.
Lemma r_sort_asc : forall l, asc (r_sort l).
Proof.
  induction l as [|x r IH]; simpl.
  - intros i j a b _ Ha. destruct i; discriminate.
  - apply r_insert_asc. exact IH.
Qed.

Lemma py_get_nat : forall A (l : list A) i x, nth_error l i = Some x -> py_get l (Z.of_nat i) = Ok x.
Proof.
  intros A l i x H. unfold py_get. destruct (Z.ltb_spec (Z.of_nat i) 0); [lia|].
  rewrite Nat2Z.id, H. destruct (Z.ltb_spec (Z.of_nat i) (- Z.of_nat (length l))); [lia|reflexivity].
Qed.
Lemma py_get_last : forall A (l : list A) d, l <> [] -> py_get l (-1) = Ok (last l d).
Proof.
  intros A l d H. assert (L : 0 < length l) by (destruct l; [contradiction|cbn; lia]).
  unfold py_get. change (-1 <? 0)%Z with true. cbv iota.
  replace (Z.to_nat (-1 + Z.of_nat (length l))) with (length l - 1) by lia.
  destruct (exists_last H) as (l' & a & E). subst l. rewrite last_last, app_length. cbn [length].
  replace (length l' + 1 - 1) with (length l') by lia. rewrite nth_error_app2 by lia. rewrite Nat.sub_diag. cbn [nth_error].
  destruct (Z.ltb_spec (-1) (- Z.of_nat (length l' + 1))); [lia|reflexivity].
Qed.

Lemma last_map : forall A B (f : A -> B) l d, last (map f l) (f d) = f (last l d).
Proof. intros A B f l d. induction l as [|x [|y r] IH]; [reflexivity|reflexivity|]. exact IH. Qed.
Lemma last_In : forall A (l : list A) d, l <> [] -> In (last l d) l.
Proof.
  intros A l d H. destruct (exists_last H) as (l' & a & E). subst. rewrite last_last. apply in_or_app. right. left. reflexivity.
Qed.
Lemma last_nth_error : forall A (l : list A) d, l <> [] -> nth_error l (length l - 1) = Some (last l d).
Proof.
  intros A l d H. destruct (exists_last H) as (l' & a & E). subst. rewrite last_last, app_length. cbn [length].
  replace (length l' + 1 - 1) with (length l') by lia. rewrite nth_error_app2 by lia. rewrite Nat.sub_diag. reflexivity.
Qed.

(** The value returned belongs to a nearest date. *)
Lemma closer_spec : forall dates vals db lo, ordered dates -> length vals = length dates ->
  nth_error dates 0 = Some lo -> (lo < db)%Q -> (db <= last dates 0)%Q ->
  exists i d v, nth_error dates i = Some d /\ nth_error vals i = Some v /\ closer_of dates vals db = Ok v /\
    forall d', In d' dates -> (Qabs (d - db) <= Qabs (d' - db))%Q.
Proof.
  intros dates vals db lo O L H0 Hlo Hhi. unfold closer_of.
  set (p := fun d => Qltb d db).
  destruct (searchsorted_ok p 0%Q dates (ordered_parted dates db O)) as (R & R1 & R2).
  set (k := searchsorted p 0%Q dates) in *. clearbody k.
  assert (N : dates <> []) by (destruct dates; [discriminate|discriminate]).
  assert (K0 : 0 < k). { destruct k; [|lia]. specialize (R2 0 lo (le_n _) H0). unfold p in R2. apply Qltb_false in R2. lra. }
  assert (K1 : k < length dates).
  { destruct (Nat.eq_dec k (length dates)) as [E|E]; [|lia]. pose proof (last_nth_error _ dates 0%Q N) as Z.
    apply R1 in Z; [|lia]. unfold p in Z. apply Qltb_lt in Z. lra. }
  destruct (nth_error dates (k - 1)) as [l|] eqn:El; [|apply nth_error_None in El; lia].
  destruct (nth_error dates k) as [r|] eqn:Er; [|apply nth_error_None in Er; lia].
  replace (Z.of_nat k - 1)%Z with (Z.of_nat (k - 1)) by lia.
  rewrite (py_get_nat _ _ _ _ El), (py_get_nat _ _ _ _ Er). cbn [bind].
  assert (Hl : (l < db)%Q) by (apply R1 in El; [apply Qltb_lt in El; exact El|lia]).
  assert (Hr : (db <= r)%Q) by (pose proof Er as Er'; apply R2 in Er'; [apply Qltb_false in Er'; exact Er'|lia]).
  assert (Side : forall d', In d' dates -> (d' <= l)%Q \/ (r <= d')%Q).
  { intros d' Hd. apply In_nth_error in Hd. destruct Hd as [j Hj]. destruct (le_lt_dec k j) as [C|C].
    - right. apply (O k j r d' C Er Hj).
    - left. apply (O j (k - 1) d' l ltac:(lia) Hj El). }
  destruct (Qltb (db - l) (r - db)) eqn:E.
  - destruct (nth_error vals (k - 1)) as [v|] eqn:Ev; [|apply nth_error_None in Ev; lia].
    exists (k - 1), l, v. split; [exact El|]. split; [exact Ev|]. split; [apply py_get_nat; exact Ev|].
    apply Qltb_lt in E. intros d' Hd. destruct (Side d' Hd) as [S|S];
      apply Qabs_case; intros; apply Qabs_case; intros; lra.
  - destruct (nth_error vals k) as [v|] eqn:Ev; [|apply nth_error_None in Ev; lia].
    exists k, r, v. split; [exact Er|]. split; [exact Ev|]. split; [apply py_get_nat; exact Ev|].
    apply Qltb_false in E. intros d' Hd. destruct (Side d' Hd) as [S|S];
      apply Qabs_case; intros; apply Qabs_case; intros; lra.
Qed.

(** At or before the first date the value returned is the last one. *)
Lemma closer_first : forall dates vals db lo, ordered dates -> length vals = length dates ->
  nth_error dates 0 = Some lo -> (db <= lo)%Q -> (db < last dates 0)%Q ->
  closer_of dates vals db = Ok (last vals 0%Q).
Proof.
  intros dates vals db lo O L H0 Hlo Hhi. unfold closer_of.
  set (p := fun d => Qltb d db).
  destruct (searchsorted_ok p 0%Q dates (ordered_parted dates db O)) as (R & R1 & R2).
  set (k := searchsorted p 0%Q dates) in *. clearbody k.
  assert (N : dates <> []) by (destruct dates; discriminate).
  assert (Nv : vals <> []) by (destruct vals, dates; try discriminate; contradiction).
  destruct k as [|k]. 2:{ specialize (R1 0 lo ltac:(lia) H0). unfold p in R1. apply Qltb_lt in R1. lra. }
  change (Z.of_nat 0 - 1)%Z with (-1)%Z. rewrite (py_get_last _ dates 0%Q N). cbn [bind].
  rewrite (py_get_nat _ dates 0 lo H0). cbn [bind].
  replace (Qltb (db - last dates 0%Q) (lo - db)) with true by (symmetry; apply Qltb_lt; lra).
  apply py_get_last. exact Nv.
Qed.

Lemma ss_ext : forall A (p q : A -> bool) d l, (forall x, p x = q x) -> searchsorted p d l = searchsorted q d l.
Proof.
  intros A p q d l H. unfold searchsorted. generalize (length l) at 1 3 as f. generalize 0 as lo. generalize (length l) as hi.
  intros hi lo f. revert lo hi. induction f as [|f IH]; intros lo hi; simpl; [reflexivity|].
  destruct (lo <? hi); [|reflexivity]. rewrite H. destruct (q _); apply IH.
Qed.
Lemma Qltb_compat : forall a b c d, (a == b)%Q -> (c == d)%Q -> Qltb a c = Qltb b d.
Proof.
  intros a b c d H K. destruct (Qltb a c) eqn:E1, (Qltb b d) eqn:E2; try reflexivity; exfalso.
  - apply Qltb_lt in E1. apply Qltb_false in E2. lra.
  - apply Qltb_false in E1. apply Qltb_lt in E2. lra.
Qed.
Lemma closer_compat : forall dates vals a b, (a == b)%Q -> closer_of dates vals a = closer_of dates vals b.
Proof.
  intros dates vals a b H. unfold closer_of.
  rewrite (ss_ext _ (fun d => Qltb d a) (fun d => Qltb d b)) by (intros x; apply Qltb_compat; lra).
  destruct (py_get dates _) as [l|]; [|reflexivity]. simpl. destruct (py_get dates _) as [r|]; [|reflexivity]. simpl.
  rewrite (Qltb_compat (a - l) (b - l) (r - a) (r - b)) by lra. reflexivity.
Qed.
Lemma Qmod_add : forall x m k, (0 < m)%Q -> (Qmod (x + inject_Z k * m) m == Qmod x m)%Q.
Proof.
  intros x m k Hm. destruct (Qmod_shift x m Hm) as [j Hj]. destruct (Qmod_range x m Hm) as [A B].
  rewrite Hj in A, B |- *.
  rewrite (Qmod_unique (x + inject_Z k * m) m (j - k) Hm).
  - unfold Z.sub. rewrite inject_Z_plus, inject_Z_opp. ring.
  - unfold Z.sub. rewrite inject_Z_plus, inject_Z_opp. lra.
  - unfold Z.sub. rewrite inject_Z_plus, inject_Z_opp. lra.
Qed.
Lemma Qmod_compat : forall x y m, (x == y)%Q -> (Qmod x m == Qmod y m)%Q.
Proof.
  intros x y m H. unfold Qmod. assert (E : Qfloor (x / m) = Qfloor (y / m)) by (apply Qfloor_comp; rewrite H; reflexivity).
  rewrite E. lra.
Qed.

(** First and last row of the sorted table. *)
Lemma sorted_ends : forall table lo hi,
  (exists r, In r table /\ (fst r == lo)%Q) -> (forall r, In r table -> (lo <= fst r)%Q) ->
  (exists r, In r table /\ (fst r == hi)%Q) -> (forall r, In r table -> (fst r <= hi)%Q) ->
  r_sort table <> [] /\ (first_date (r_sort table) == lo)%Q /\ (last_date (r_sort table) == hi)%Q.
Proof.
  intros table lo hi (r & Hr & E) Hlo (s & Hs & F) Hhi. pose proof (r_sort_perm table) as P. pose proof (r_sort_asc table) as O.
  set (l := r_sort table) in *. clearbody l.
  assert (N : l <> []). { intros Z. subst l. apply Permutation_nil in P. subst. destruct Hr. }
  split; [exact N|]. destruct l as [|a l']; [contradiction|].
  assert (Pin : forall x, In x table <-> In x (a :: l')) by (intros x; split; apply Permutation_in; [symmetry|]; exact P).
  split.
  - simpl. pose proof (Hlo a (proj2 (Pin a) (or_introl eq_refl))).
    destruct (proj1 (Pin r) Hr) as [Z|Z]; [subst; lra|]. destruct (ordered_inv _ _ O) as [O1 _].
    specialize (O1 (fst r) (in_map fst _ _ Z)). lra.
  - unfold last_date. set (b := last (a :: l') (0, 0)%Q). assert (B : In b (a :: l')) by (apply last_In; discriminate).
    pose proof (Hhi b (proj2 (Pin b) B)) as B1.
    destruct (In_nth_error _ _ (proj1 (Pin s) Hs)) as [j Hj].
    pose proof (last_nth_error _ (a :: l') (0, 0)%Q N) as Hb. fold b in Hb.
    assert (Hjl : j < length (a :: l')) by (apply nth_error_Some; congruence).
    pose proof (O j (length (a :: l') - 1) (fst s) (fst b)) as OO.
    assert ((fst s <= fst b)%Q); [|lra]. apply OO; [lia| |]; rewrite nth_error_map.
    + rewrite Hj. reflexivity.
    + rewrite Hb. reflexivity.
Qed.
Lemma first_nth : forall l f, l <> [] -> nth_error (map f l) 0 = Some (f (hd (0, 0)%Q l) : Q).
Proof. intros [|a l] f H; [contradiction|reflexivity]. Qed.
Lemma first_date_hd : forall l, first_date l = fst (hd (0, 0)%Q l).
Proof. destruct l; reflexivity. Qed.

Lemma scaled_mono : forall s x y, (0 <= s)%Q -> (x <= y)%Q -> (scaled (Some s) x <= scaled (Some s) y)%Q.
Proof.
  intros s x y Hs H. unfold scaled. apply inject_Z_le_iff. apply round_even_mono. apply Qmult_le_compat_r; assumption.
Qed.
Lemma scaled_near : forall s x, (x * s - (1#2) <= scaled (Some s) x <= x * s + (1#2))%Q.
Proof. intros s x. unfold scaled. destruct (round_even_bounds (x * s)). lra. Qed.
Lemma ordered_map_mono : forall f l, (forall x y : Q, (x <= y)%Q -> (f x <= f y)%Q) -> ordered l -> ordered (map f l).
Proof.
  intros f l M O i j a b Hij Ha Hb. rewrite nth_error_map in Ha, Hb.
  destruct (nth_error l i) as [x|] eqn:E1; [|discriminate]. destruct (nth_error l j) as [y|] eqn:E2; [|discriminate].
  inversion Ha; inversion Hb; subst. apply M. eapply O; eauto.
Qed.
Lemma closer_compat_any : forall scale dates vals a b, (a == b)%Q -> closer_of dates vals (scaled scale a) = closer_of dates vals (scaled scale b).
Proof.
  intros [s|] dates vals a b H; simpl; [|apply closer_compat; exact H].
  apply closer_compat. rewrite (Qround_even_compat (a * s) (b * s)); [reflexivity|]. rewrite H. reflexivity.
Qed.

(** ** Cloud maps *)
Section Maps.
Context {M : Type}.
Implicit Types (l fs : list (Q * M)).

Lemma trim_skip : forall max l, trim max l = skipn (length l - max) l.
Proof.
  induction l as [|x r IH]; [reflexivity|]. cbn [trim]. destruct (Nat.ltb_spec max (length (x :: r))) as [H|H].
  - rewrite IH. cbn [length] in *. replace (S (length r) - max) with (S (length r - max)) by lia. reflexivity.
  - replace (length (x :: r) - max) with 0 by lia. reflexivity.
Qed.
Lemma list_leb_up : forall a b, Forall2 (fun x y => (x <= y)%Q) a b -> list_leb a b = true.
Proof.
  intros a b H. induction H as [|x y a b H _ IH]; [reflexivity|]. cbn [list_leb]. destruct (Qeq_bool x y); [exact IH|].
  apply Qle_bool_iff. exact H.
Qed.
Lemma up_pairs : forall (l : list Q), ordered l -> Forall2 (fun x y => (x <= y)%Q) (removelast l) (tl l).
Proof.
  intros l O. destruct l as [|x l]; [constructor|]. revert x O. induction l as [|y r IH]; intros x O; [constructor|].
  change (removelast (x :: y :: r)) with (x :: removelast (y :: r)). cbn [tl].
  destruct (ordered_inv _ _ O) as [O1 O2]. constructor; [apply O1; left; reflexivity|]. exact (IH y O2).
Qed.

Lemma ordered_app_l : forall a b, ordered (a ++ b) -> ordered a.
Proof.
  intros a b O i j x y Hij Hx Hy. apply (O i j); [exact Hij| |]; rewrite nth_error_app1; auto; apply nth_error_Some; congruence.
Qed.
Lemma ordered_skip : forall n a, ordered a -> ordered (skipn n a).
Proof.
  induction n as [|n IH]; intros a O; [exact O|]. destruct a as [|x a]; [exact O|]. apply IH. apply (ordered_inv _ _ O).
Qed.
Lemma skip_app_skip : forall A n (a b : list A), skipn (length (skipn (length a - n) a ++ b) - n) (skipn (length a - n) a ++ b) = skipn (length (a ++ b) - n) (a ++ b).
Proof.
  intros A n a b. rewrite !skipn_app, !app_length, !skipn_length.
  destruct (le_lt_dec (length a) n) as [C|C].
  - replace (length a - n) with 0 by lia. cbn [skipn]. rewrite Nat.sub_0_r. reflexivity.
  - f_equal.
    + replace (length a - (length a - n) + length b - n) with (length b) by lia.
      destruct (le_lt_dec (length b) n) as [D|D].
      * rewrite <- (firstn_skipn (length a - n) a) at 4. rewrite skipn_app, firstn_length.
        replace (Nat.min (length a - n) (length a)) with (length a - n) by lia.
        rewrite (skipn_all2 (firstn (length a - n) a)) by (rewrite firstn_length; lia). cbn [app].
        f_equal. lia.
      * rewrite !skipn_all2; try reflexivity; rewrite ?skipn_length; lia.
    + f_equal. lia.
Qed.

(** Frames added in order of time: the last ones are kept. *)
Lemma add_all_up : forall max fs l, ordered (map fst (l ++ fs)) -> length l <= max ->
  add_all max l fs = (skipn (length (l ++ fs) - max) (l ++ fs), Ok tt).
Proof.
  intros max fs. induction fs as [|f r IH]; intros l O L.
  - cbn [add_all]. rewrite app_nil_r. replace (length l - max) with 0 by lia. reflexivity.
  - cbn [add_all]. unfold add_frame.
    assert (O1 : ordered (map fst (l ++ [f]))).
    { replace (l ++ f :: r) with ((l ++ [f]) ++ r) in O by (rewrite <- app_assoc; reflexivity). rewrite map_app in O. apply ordered_app_l in O. exact O. }
    rewrite (list_leb_up _ _ (up_pairs _ O1)). rewrite trim_skip.
    replace (l ++ f :: r) with ((l ++ [f]) ++ r) in * by (rewrite <- app_assoc; reflexivity).
    rewrite IH.
    + rewrite skip_app_skip. reflexivity.
    + rewrite <- (firstn_skipn (length (l ++ [f]) - max) (l ++ [f])) in O at 1. rewrite <- app_assoc, map_app in O.
      apply (ordered_skip (length (map fst (firstn (length (l ++ [f]) - max) (l ++ [f]))))) in O.
      rewrite skipn_app, skipn_all, Nat.sub_diag in O. exact O.
    + rewrite skipn_length. lia.
Qed.

Lemma np_min_spec : forall r x, In (np_min x r) (x :: r) /\ forall y, In y (x :: r) -> (np_min x r <= y)%Q.
Proof.
  induction r as [|z r IH]; intros x; simpl.
  - split; [auto|]. intros y [H|[]]. subst. lra.
  - destruct (IH z) as [I L]. destruct (Qle_bool x (np_min z r)) eqn:E.
    + apply Qle_bool_iff in E. split; [auto|]. intros y [H|H]; [subst; lra|]. specialize (L y H). lra.
    + apply Qle_bool_false in E. split; [right; exact I|]. intros y [H|H]; [subst; lra|apply L; exact H].
Qed.
Lemma where_first : forall A (p : A -> bool) (l : list A) i k r, where_from p i l = k :: r ->
  exists j x, k = i + j /\ nth_error l j = Some x /\ p x = true /\ forall j' x', j' < j -> nth_error l j' = Some x' -> p x' = false.
Proof.
  induction l as [|x l IH]; intros i k r H; [discriminate|]. simpl in H. destruct (p x) eqn:E.
  - inversion H; subst. exists 0, x. repeat split; auto; try lia.
  - destruct (IH _ _ _ H) as (j & y & K & N & P & Q0). exists (S j), y. repeat split; auto; try lia.
    intros [|j'] x' Hj Hx; [inversion Hx; subst; exact E|]. apply (Q0 j' x'); [lia|exact Hx].
Qed.
Lemma closest_spec : forall limit l t, l <> [] ->
  (exists i f, nth_error l i = Some f /\ extinction_closest limit l t = Ok (Some (snd f)) /\ (Qabs (fst f - t) <= limit)%Q /\
     forall j g, nth_error l j = Some g -> (Qabs (fst f - t) <= Qabs (fst g - t))%Q /\ (j < i -> (Qabs (fst f - t) < Qabs (fst g - t))%Q)) \/
  (extinction_closest limit l t = Ok None /\ forall g, In g l -> (limit < Qabs (fst g - t))%Q).
Proof.
  intros limit l t N. destruct l as [|a l]; [contradiction|].
  unfold extinction_closest. cbn [map]. set (h := fun f : Q * M => Qabs (fst f - t)).
  change (Qabs (fst a - t)) with (h a).
  destruct (np_min_spec (map h l) (h a)) as [I L]. set (m := np_min (h a) (map h l)) in *. clearbody m.
  change (h a :: map h l) with (map h (a :: l)) in *. set (al := a :: l) in *. clearbody al.
  destruct (Qltb limit m) eqn:E.
  - right. split; [reflexivity|]. apply Qltb_lt in E. intros g Hg. exact (Qlt_le_trans _ _ _ E (L (h g) (in_map h _ _ Hg))).
  - left. apply Qltb_false in E. destruct (np_where (fun x => Qeq_bool x m) (map h al)) as [|i r] eqn:W.
    + exfalso. apply In_nth_error in I. destruct I as [k Hk].
      assert (In k []); [|contradiction]. rewrite <- W. apply np_where_spec. exists m. split; [exact Hk|]. apply Qeq_bool_iff. reflexivity.
    + destruct (where_first _ _ _ _ _ _ W) as (j & x & K & Nj & P & F). cbn in K. subst j.
      rewrite nth_error_map in Nj. destruct (nth_error al i) as [f|] eqn:Ei; [|discriminate]. cbn in Nj. inversion Nj; subst x. apply Qeq_bool_iff in P.
      assert (P1 : (h f <= m)%Q) by (apply Qle_lteq; right; exact P).
      exists i, f. split; [exact Ei|]. split; [reflexivity|]. change (Qabs (fst f - t)) with (h f). split; [exact (Qle_trans _ _ _ P1 E)|].
      intros j g Hg. change (Qabs (fst g - t)) with (h g). specialize (L (h g) (in_map h _ _ (nth_error_In _ _ Hg))).
      split; [exact (Qle_trans _ _ _ P1 L)|]. intros Hj. specialize (F j (h g) Hj). rewrite nth_error_map, Hg in F. specialize (F eq_refl).
      apply Qeq_bool_neq in F. apply (Qle_lt_trans _ m); [exact P1|]. destruct (Qlt_le_dec m (h g)) as [C|C]; [exact C|]. exfalso. apply F. apply Qle_antisym; assumption.
Qed.

Lemma stuck_step : forall max a b l f, (fst b < fst a)%Q ->
  add_frame max (a :: b :: l) f = (a :: b :: l ++ [f], Raise TypeError).
Proof.
  intros max a b l f H. unfold add_frame. cbn [app map tl].
  assert (R : removelast (fst a :: fst b :: map fst (l ++ [f])) = fst a :: removelast (fst b :: map fst (l ++ [f]))) by reflexivity.
  rewrite R. cbn [list_leb].
  assert (E1 : Qeq_bool (fst a) (fst b) = false).
  { destruct (Qeq_bool (fst a) (fst b)) eqn:E; [|reflexivity]. apply Qeq_bool_iff in E. lra. }
  assert (E2 : Qle_bool (fst a) (fst b) = false) by (apply Qle_bool_false; exact H).
  rewrite E1, E2. reflexivity.
Qed.
End Maps.
