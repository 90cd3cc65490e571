(** Proofs about calling basis functions. *)
From Coq Require Import List ZArith QArith Bool Lia Lqa.
From Verif Require Import Base BfCall.
Import ListNotations.
Open Scope nat_scope.

Section P.
Context {S C V : Type}.
Variable mjd : C -> Q.
Variable sim : S -> S -> Prop.
Definition reports (l : list (op C V)) : list V := flat_map (fun o => match o with Seen v => [v] | Ask _ => [] end) l.
Definition asked (l : list (op C V)) : list C := flat_map (fun o => match o with Seen _ => [] | Ask c => [c] end) l.
(** Features that [sim] relates give the same answers, and calculating keeps them related. *)
Record steady (k : cls S C V) : Prop := {
  st_refl : forall s, sim s s; st_trans : forall a b c, sim a b -> sim b c -> sim a c;
  st_add : forall a b v, sim a b -> sim (cl_add k a v) (cl_add k b v);
  st_feas : forall a b c, sim a b -> cl_feas k a c = cl_feas k b c;
  st_calc : forall a b c p, sim a b -> snd (cl_calc k a c) p = snd (cl_calc k b c) p;
  st_keep : forall a c, sim (fst (cl_calc k a c)) a }.

Lemma call_inv : forall (k : cls S C V) (b : bf S) (c : C), cl_books k = false -> b_recalc b = true -> b_last b = None ->
  let b' := fst (bf_call mjd k b c) in b_recalc b' = true /\ b_last b' = None /\
  (cl_feas k (b_feat b) c = true -> cl_onmjd k = true -> b_feat b' = fst (cl_calc k (fst (cl_calc k (b_feat b) c)) c) /\ snd (bf_call mjd k b c) = snd (cl_calc k (fst (cl_calc k (b_feat b) c)) c)) /\
  (cl_feas k (b_feat b) c = true -> cl_onmjd k = false -> b_feat b' = fst (cl_calc k (b_feat b) c) /\ snd (bf_call mjd k b c) = snd (cl_calc k (b_feat b) c)) /\
  (cl_feas k (b_feat b) c = false -> b' = b /\ snd (bf_call mjd k b c) = fun _ => ENInf).
Proof.
  intros k [s r l v] c B R L. cbn in R, L. subst r l. cbv zeta. unfold bf_call. cbn [b_feat b_recalc]. destruct (cl_feas k s c) eqn:F; cbn [negb].
  - assert (P : forall s v, bf_calc mjd k (mkBf s true None v) c = mkBf (fst (cl_calc k s c)) true None (snd (cl_calc k s c))).
    { intros s' v'. unfold bf_calc. cbn [b_feat]. destruct (cl_calc k s' c). rewrite B. reflexivity. }
    rewrite P. destruct (cl_onmjd k); cbn [at_last b_last negb]; [rewrite P|]; cbn [fst snd b_recalc b_last b_feat b_value];
      (split; [reflexivity|split; [reflexivity|split; [|split]]]); intros; try discriminate; split; reflexivity.
  - cbn [fst snd b_recalc b_last]. split; [reflexivity|]. split; [reflexivity|]. split; [intro H; discriminate H|]. split; [intro H; discriminate H|].
    intros _. split; reflexivity.
Qed.
Lemma run_inv : forall (k : cls S C V) (s0 : S) (l : list (op C V)), steady k -> cl_books k = false ->
  let b := bf_run mjd k (bf0 s0) l in b_recalc b = true /\ b_last b = None /\ sim (b_feat b) (fold_left (cl_add k) (reports l) s0).
Proof.
  intros k s0 l St B. cbv zeta. induction l as [|o l IH] using rev_ind.
  - cbn. split; [reflexivity|]. split; [reflexivity|]. apply (st_refl k St).
  - unfold bf_run in *. rewrite fold_left_app. unfold reports in *. rewrite flat_map_app, fold_left_app. cbn [fold_left flat_map]. rewrite app_nil_r.
    destruct IH as [I1 [I2 I3]]. set (b := fold_left (bf_step mjd k) l (bf0 s0)) in *. destruct o as [v|c]; cbn [bf_step].
    + unfold bf_add. cbn [b_recalc b_last b_feat fold_left]. split; [destruct (cl_newobs k); [reflexivity|exact I1]|]. split; [exact I2|].
      apply (st_add k St). exact I3.
    + cbn [fold_left]. destruct (call_inv k b c B I1 I2) as [A1 [A2 [A3 [A4 A5]]]]. cbv zeta in *. split; [exact A1|]. split; [exact A2|].
      eapply (st_trans k St); [|exact I3]. destruct (cl_feas k (b_feat b) c) eqn:F.
      * destruct (cl_onmjd k) eqn:M.
        -- destruct (A3 eq_refl eq_refl) as [-> _]. eapply (st_trans k St); apply (st_keep k St).
        -- destruct (A4 eq_refl eq_refl) as [-> _]. apply (st_keep k St).
      * destruct (A5 eq_refl) as [-> _]. apply (st_refl k St).
Qed.
Lemma call_fresh : forall (k : cls S C V) (b : bf S) (s : S) (c : C) (p : nat), steady k -> cl_books k = false -> b_recalc b = true -> b_last b = None -> sim (b_feat b) s ->
  snd (bf_call mjd k b c) p = if cl_feas k s c then snd (cl_calc k s c) p else ENInf.
Proof.
  intros k b s c p St B R L I. destruct (call_inv k b c B R L) as [_ [_ [A3 [A4 A5]]]]. cbv zeta in *.
  rewrite <- (st_feas k St _ _ c I). destruct (cl_feas k (b_feat b) c) eqn:F.
  - destruct (cl_onmjd k) eqn:M.
    + destruct (A3 eq_refl eq_refl) as [_ ->]. apply (st_calc k St). eapply (st_trans k St); [apply (st_keep k St)|exact I].
    + destruct (A4 eq_refl eq_refl) as [_ ->]. apply (st_calc k St). exact I.
  - destruct (A5 eq_refl) as [_ ->]. reflexivity.
Qed.
Lemma fresh : forall (k : cls S C V) (s0 : S) (l : list (op C V)) (c : C) (p : nat), steady k -> cl_books k = false ->
  snd (bf_call mjd k (bf_run mjd k (bf0 s0) l) c) p =
  (let s := fold_left (cl_add k) (reports l) s0 in if cl_feas k s c then snd (cl_calc k s c) p else ENInf).
Proof. intros k s0 l c p St B. destruct (run_inv k s0 l St B) as [I1 [I2 I3]]. apply call_fresh; assumption. Qed.
End P.

(** Classes that keep the books. *)
Section Books.
Context {S C V : Type}.
Variable mjd : C -> Q.
Variable k : cls S C V.
Hypothesis pure : forall s c, fst (cl_calc k s c) = s.
Hypothesis books : cl_books k = true.
Hypothesis newobs : cl_newobs k = true.
Hypothesis onmjd : cl_onmjd k = true.
Lemma books_inv : forall s0 l (cs : list C), (forall c c', In c cs -> In c' cs -> mjd c == mjd c' -> forall s p, snd (cl_calc k s c) p = snd (cl_calc k s c') p)%Q ->
  incl (asked l) cs ->
  let b := bf_run mjd k (bf0 s0) l in b_feat b = fold_left (cl_add k) (reports l) s0 /\
  (b_recalc b = true \/ exists c, In c cs /\ b_last b = Some (mjd c) /\ forall p, b_value b p = snd (cl_calc k (b_feat b) c) p).
Proof.
  intros s0 l cs H. induction l as [|o l IH] using rev_ind; intro I; cbv zeta.
  - split; [reflexivity|left; reflexivity].
  - assert (I' : incl (asked l) cs). { intros x Hx. apply I. unfold asked. rewrite flat_map_app. apply in_app_iff. left. exact Hx. }
    specialize (IH I'). cbv zeta in IH. unfold bf_run in *. rewrite fold_left_app. unfold reports. rewrite flat_map_app, fold_left_app. cbn [fold_left flat_map]. rewrite app_nil_r.
    fold (reports l). destruct IH as [I1 I2]. set (b := fold_left (bf_step mjd k) l (bf0 s0)) in *. destruct o as [v|c]; cbn [bf_step].
    + unfold bf_add. rewrite newobs. cbn [b_feat b_recalc fold_left]. split; [rewrite I1; reflexivity|left; reflexivity].
    + assert (Ic : In c cs). { apply I. unfold asked. rewrite flat_map_app. apply in_app_iff. right. cbn. left. reflexivity. }
      cbn [fold_left]. unfold bf_call. destruct (cl_feas k (b_feat b) c); cbn [negb fst]; [|split; assumption].
      assert (P : forall b', bf_calc mjd k b' c = mkBf (b_feat b') false (Some (mjd c)) (snd (cl_calc k (b_feat b') c))).
      { intro b'. unfold bf_calc. pose proof (pure (b_feat b') c). destruct (cl_calc k (b_feat b') c) as [s r]. cbn in *. subst s. rewrite books. reflexivity. }
      rewrite onmjd. destruct (b_recalc b) eqn:R.
      * rewrite P. unfold at_last. cbn [b_last]. rewrite (proj2 (Qeq_bool_iff (mjd c) (mjd c)) (Qeq_refl _)). cbn [negb b_feat b_recalc b_last b_value].
        split; [exact I1|]. right. exists c. auto.
      * destruct I2 as [I2|[c' [Ic' [L V']]]]; [discriminate|]. unfold at_last. rewrite L. destruct (Qeq_bool (mjd c) (mjd c')) eqn:E; cbn [negb].
        -- split; [exact I1|]. right. exists c'. auto.
        -- rewrite P. cbn [b_feat b_last b_value]. split; [exact I1|]. right. exists c. auto.
Qed.
Lemma books_fresh : forall s0 l c p, (forall a b, In a (c :: asked l) -> In b (c :: asked l) -> mjd a == mjd b -> forall s q, snd (cl_calc k s a) q = snd (cl_calc k s b) q)%Q ->
  snd (bf_call mjd k (bf_run mjd k (bf0 s0) l) c) p =
  (let s := fold_left (cl_add k) (reports l) s0 in if cl_feas k s c then snd (cl_calc k s c) p else ENInf).
Proof.
  intros s0 l c p H. destruct (books_inv s0 l (c :: asked l) H) as [I1 I2]; [intros x Hx; right; exact Hx|]. cbv zeta in *.
  set (b := bf_run mjd k (bf0 s0) l) in *. rewrite <- I1. unfold bf_call. destruct (cl_feas k (b_feat b) c); [|reflexivity]. cbn [negb snd].
  assert (P : forall b', bf_calc mjd k b' c = mkBf (b_feat b') false (Some (mjd c)) (snd (cl_calc k (b_feat b') c))).
  { intro b'. unfold bf_calc. pose proof (pure (b_feat b') c). destruct (cl_calc k (b_feat b') c) as [s r]. cbn in *. subst s. rewrite books. reflexivity. }
  rewrite onmjd. destruct (b_recalc b) eqn:R.
  - rewrite P. unfold at_last. cbn [b_last]. rewrite (proj2 (Qeq_bool_iff (mjd c) (mjd c)) (Qeq_refl _)). reflexivity.
  - destruct I2 as [I2|[c' [Ic' [L V']]]]; [discriminate|]. unfold at_last. rewrite L. destruct (Qeq_bool (mjd c) (mjd c')) eqn:E; cbn [negb].
    + rewrite V'. apply Qeq_bool_iff in E. symmetry. apply H; [left; reflexivity|exact Ic'|exact E].
    + rewrite P. reflexivity.
Qed.
End Books.

(** ** AreaCheckMask *)
Section Area.
Context {S C V : Type}.
Variable mjd : C -> Q.
Definition plain (p : cls S C V * bf S) : Prop :=
  cl_books (fst p) = false /\ (forall s c, fst (cl_calc (fst p) s c) = s) /\ b_recalc (snd p) = true /\ b_last (snd p) = None.
Definition same (p q : cls S C V * bf S) : Prop := fst p = fst q /\ b_feat (snd p) = b_feat (snd q).
Definition reward (p : cls S C V * bf S) (c : C) (i : nat) : er :=
  if cl_feas (fst p) (b_feat (snd p)) c then snd (cl_calc (fst p) (b_feat (snd p)) c) i else ENInf.
Lemma eq_steady : forall k : cls S C V, (forall s c, fst (cl_calc k s c) = s) -> steady eq k.
Proof. intros k P. constructor; intros; subst; try reflexivity. apply P. Qed.
Lemma plain_call : forall p c i, plain p -> snd (bf_call mjd (fst p) (snd p) c) i = reward p c i.
Proof. intros [k b] c i [B [P [R L]]]. cbn in *. apply (call_fresh mjd eq k b (b_feat b) c i); try assumption; [apply eq_steady; exact P|reflexivity]. Qed.
Lemma plain_keep : forall p c, plain p -> plain (fst p, fst (bf_call mjd (fst p) (snd p) c)) /\ same (fst p, fst (bf_call mjd (fst p) (snd p) c)) p.
Proof.
  intros [k b] c [B [P [R L]]]. cbn in *. destruct (call_inv mjd k b c B R L) as [A1 [A2 [A3 [A4 A5]]]]. cbv zeta in *.
  split; [repeat split; assumption|]. split; [reflexivity|]. cbn. destruct (cl_feas k (b_feat b) c).
  - destruct (cl_onmjd k); [destruct (A3 eq_refl eq_refl) as [-> _]; rewrite !P; reflexivity|destruct (A4 eq_refl eq_refl) as [-> _]; apply P].
  - destruct (A5 eq_refl) as [-> _]. reflexivity.
Qed.
Lemma area_map_spec : forall l c acc, Forall plain l ->
  Forall plain (fst (area_map mjd l c acc)) /\ Forall2 same (fst (area_map mjd l c acc)) l /\
  forall i, snd (area_map mjd l c acc) i = fold_left (fun a p => er_mul a (reward p c i)) l (acc i).
Proof.
  induction l as [|[k b] l IH]; intros c acc H; cbn [area_map].
  - split; [constructor|]. split; [constructor|reflexivity].
  - inversion H as [|? ? H1 H2]; subst. pose proof (plain_keep _ c H1) as [K1 K2]. pose proof (fun i => plain_call _ c i H1) as K3. cbn [fst snd] in *.
    destruct (bf_call mjd k b c) as [b1 m] eqn:E. cbn [fst snd] in *.
    specialize (IH c (fun p => er_mul (acc p) (m p)) H2). destruct (area_map mjd l c _) as [r1 a] eqn:E2. cbn [fst snd] in *. destruct IH as [J1 [J2 J3]].
    split; [constructor; assumption|]. split; [constructor; assumption|]. intro i. rewrite J3. cbn [fold_left]. rewrite K3. reflexivity.
Qed.
Lemma er_mul_zero : forall a x, is_zero a = true -> is_zero (er_mul a x) = match x with EFin _ => true | _ => false end /\ (match x with EFin _ => True | _ => er_mul a x = ENaN end).
Proof.
  intros [| |q|] x H; try discriminate. cbn in H. apply Qeq_bool_iff in H. destruct x; cbn; try rewrite (proj2 (Qeq_bool_iff q 0) H); auto.
  split; [|exact I]. apply Qeq_bool_iff. rewrite H. ring.
Qed.
Definition finite (x : er) : Prop := exists q, x = EFin q.
Lemma fold_mul : forall (l : list er) a, (is_zero a = true \/ a = ENaN) ->
  let r := fold_left er_mul l a in (is_zero r = true \/ r = ENaN) /\ (is_zero r = true <-> is_zero a = true /\ Forall finite l).
Proof.
  induction l as [|x l IH]; intros a H; cbv zeta; cbn [fold_left].
  - split; [exact H|]. split; [intro; split; [assumption|constructor]|tauto].
  - assert (H' : is_zero (er_mul a x) = true \/ er_mul a x = ENaN).
    { destruct H as [H| ->]; [|right; destruct x; reflexivity]. destruct (er_mul_zero a x H) as [Z N]. destruct x; auto. }
    destruct (IH (er_mul a x) H') as [A B]. cbv zeta in *. split; [exact A|]. rewrite B. split.
    + intros [Z F]. destruct H as [H| ->]; [|destruct x; discriminate]. destruct (er_mul_zero a x H) as [Y _]. rewrite Y in Z. destruct x; try discriminate. split; [exact H|]. constructor; [exists q; reflexivity|exact F].
    + intros [Z F]. inversion F as [|? ? [q Fq] F']; subst. split; [|exact F']. destruct (er_mul_zero a (EFin q) Z) as [Y _]. exact Y.
Qed.
Lemma fold_left_map : forall (A B D : Type) (f : A -> D -> A) (g : B -> D) l a, fold_left (fun a b => f a (g b)) l a = fold_left f (map g l) a.
Proof. intros A B D f g l. induction l as [|b l IH]; intro a; [reflexivity|]. cbn. apply IH. Qed.
Lemma area_zero : forall l c i, Forall plain l -> is_zero (snd (area_map mjd l c zeros) i) = true <-> Forall (fun p => finite (reward p c i)) l.
Proof.
  intros l c i H. destruct (area_map_spec l c zeros H) as [_ [_ E]]. rewrite E, (fold_left_map _ _ _ er_mul (fun p => reward p c i)).
  destruct (fold_mul (map (fun p => reward p c i) l) (zeros i)) as [_ B]; [left; reflexivity|]. cbv zeta in B. rewrite B, Forall_map. cbn. tauto.
Qed.
Lemma area_nan : forall l c i, Forall plain l -> is_zero (snd (area_map mjd l c zeros) i) = true \/ snd (area_map mjd l c zeros) i = ENaN.
Proof.
  intros l c i H. destruct (area_map_spec l c zeros H) as [_ [_ E]]. rewrite E, (fold_left_map _ _ _ er_mul (fun p => reward p c i)).
  destruct (fold_mul (map (fun p => reward p c i) l) (zeros i)) as [A _]; [left; reflexivity|]. exact A.
Qed.
(** Lists of functions with the same features give the same maps. *)
Lemma same_reward : forall p q c i, same p q -> reward p c i = reward q c i.
Proof. intros [k b] [k' b'] c i [E F]. cbn in *. subst k'. unfold reward. cbn. rewrite F. reflexivity. Qed.
Lemma alike_map : forall l l' c i, Forall plain l -> Forall plain l' -> Forall2 same l l' -> snd (area_map mjd l c zeros) i = snd (area_map mjd l' c zeros) i.
Proof.
  intros l l' c i H H' F. rewrite (proj2 (proj2 (area_map_spec l c zeros H))), (proj2 (proj2 (area_map_spec l' c zeros H'))).
  clear H H'. generalize (zeros i). induction F as [|p q l l' E F IH]; intro a; [reflexivity|]. cbn. rewrite (same_reward p q c i E). apply IH.
Qed.
Lemma same_refl : forall l, Forall2 same l l.
Proof. induction l; constructor; [split; reflexivity|assumption]. Qed.
Lemma same_trans : forall a b c, Forall2 same a b -> Forall2 same b c -> Forall2 same a c.
Proof.
  intros a b c H. revert c. induction H as [|x y l m E F IH]; intros c G; inversion G as [|? z ? n E' G']; subst; constructor; [|apply IH; assumption].
  destruct E, E'. split; congruence.
Qed.
Lemma alike_feas : forall npix pa ma l l' c, Forall plain l -> Forall plain l' -> Forall2 same l l' -> area_feas mjd npix pa ma l c = area_feas mjd npix pa ma l' c.
Proof.
  intros npix pa ma l l' c H H' F. unfold area_feas. f_equal.
  - clear H H'. induction F as [|p q l l' [E1 E2] F IH]; [reflexivity|]. cbn. rewrite IH, E1, E2. reflexivity.
  - f_equal. f_equal. f_equal. f_equal. f_equal. f_equal. apply filter_ext. intro p. rewrite (alike_map l l' c p H H' F). reflexivity.
Qed.
Lemma area_run : forall npix pa ma l0 ops, Forall plain l0 ->
  let b := bf_run mjd (area_cls mjd npix pa ma) (bf0 l0) ops in
  b_recalc b = true /\ b_last b = None /\ Forall plain (b_feat b) /\ Forall2 same (b_feat b) l0.
Proof.
  intros npix pa ma l0 ops H. cbv zeta. induction ops as [|o ops IH] using rev_ind.
  - cbn. repeat split; [exact H|apply same_refl].
  - unfold bf_run in *. rewrite fold_left_app. cbn [fold_left]. destruct IH as [I1 [I2 [I3 I4]]].
    set (k := area_cls mjd npix pa ma) in *. set (b := fold_left (bf_step mjd k) ops (bf0 l0)) in *. destruct o as [v|c]; cbn [bf_step].
    + unfold bf_add. cbn. repeat split; assumption.
    + destruct (call_inv mjd k b c eq_refl I1 I2) as [A1 [A2 [A3 [_ A5]]]]. cbv zeta in *. split; [exact A1|]. split; [exact A2|].
      destruct (cl_feas k (b_feat b) c).
      * destruct (A3 eq_refl eq_refl) as [-> _]. unfold k, area_cls. cbn [cl_calc].
        destruct (area_map_spec (b_feat b) c zeros I3) as [B1 [B2 _]]. destruct (area_map_spec _ c zeros B1) as [C1 [C2 _]].
        split; [exact C1|]. eapply same_trans; [exact C2|]. eapply same_trans; [exact B2|exact I4].
      * destruct (A5 eq_refl) as [-> _]. split; assumption.
Qed.
Lemma area_call : forall npix pa ma l0 ops c i, Forall plain l0 ->
  snd (bf_call mjd (area_cls mjd npix pa ma) (bf_run mjd (area_cls mjd npix pa ma) (bf0 l0) ops) c) i =
  if area_feas mjd npix pa ma l0 c then snd (area_map mjd l0 c zeros) i else ENInf.
Proof.
  intros npix pa ma l0 ops c i H. destruct (area_run npix pa ma l0 ops H) as [I1 [I2 [I3 I4]]]. cbv zeta in *.
  set (k := area_cls mjd npix pa ma) in *. set (b := bf_run mjd k (bf0 l0) ops) in *.
  destruct (call_inv mjd k b c eq_refl I1 I2) as [_ [_ [A3 [_ A5]]]]. cbv zeta in *.
  rewrite <- (alike_feas npix pa ma (b_feat b) l0 c I3 H I4). change (area_feas mjd npix pa ma (b_feat b) c) with (cl_feas k (b_feat b) c).
  destruct (cl_feas k (b_feat b) c).
  - destruct (A3 eq_refl eq_refl) as [_ ->]. unfold k, area_cls. cbn [cl_calc].
    destruct (area_map_spec (b_feat b) c zeros I3) as [B1 [B2 _]]. apply alike_map; [exact B1|exact H|]. eapply same_trans; [exact B2|exact I4].
  - destruct (A5 eq_refl) as [_ ->]. reflexivity.
Qed.
End Area.
