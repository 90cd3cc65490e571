(** Proofs about Shown.v: the keys of the tables. *)
From Coq Require Import List String Ascii Bool Arith ZArith QArith DecimalString DecimalNat Lia.
From Verif Require Import Base Core Shown.
Import ListNotations.
Open Scope string_scope.
Open Scope list_scope.
Open Scope nat_scope.

Definition digit (c : ascii) : bool := (48 <=? nat_of_ascii c) && (nat_of_ascii c <=? 57).
Fixpoint digits (s : string) : bool := match s with EmptyString => true | String c r => digit c && digits r end.
Lemma uint_digits : forall d, digits (NilEmpty.string_of_uint d) = true.
Proof. induction d; cbn [NilEmpty.string_of_uint digits]; rewrite ?IHd; reflexivity. Qed.
Lemma id_digits : forall n, digits (id_text n) = true.
Proof. intros n. unfold id_text, NilZero.string_of_uint. destruct (Nat.to_uint n); try reflexivity; apply uint_digits. Qed.
Lemma id_nonempty : forall n, id_text n <> "".
Proof. intros n. unfold id_text, NilZero.string_of_uint. destruct (Nat.to_uint n); discriminate. Qed.
Lemma uint_nonnil : forall n, Nat.to_uint n <> Decimal.Nil.
Proof.
  intros n E. pose proof (Unsigned.to_of (Nat.to_uint n)) as T. rewrite Unsigned.of_to, E in T. discriminate.
Qed.
Lemma id_inj : forall n m, id_text n = id_text m -> n = m.
Proof.
  intros n m E. unfold id_text in E. apply Unsigned.to_uint_inj.
  pose proof (NilZero.usu (Nat.to_uint n) (uint_nonnil n)) as A. pose proof (NilZero.usu (Nat.to_uint m) (uint_nonnil m)) as B.
  rewrite E in A. congruence.
Qed.
Lemma digits_at : forall a t, digits (a ++ String "@" t)%string = true -> False.
Proof. induction a as [|c a IH]; intros t H; cbn [append digits] in H; [discriminate|]. apply andb_true_iff in H. destruct H as [_ H]. exact (IH t H). Qed.
Lemma at_cut : forall a b t u, digits t = true -> digits u = true -> (a ++ String "@" t)%string = (b ++ String "@" u)%string -> a = b /\ t = u.
Proof.
  induction a as [|c a IH]; intros [|d b] t u T U E; cbn [append] in E.
  - injection E as <-. now split.
  - injection E as _ E. exfalso. rewrite E in T. exact (digits_at _ _ T).
  - injection E as _ E. exfalso. rewrite <- E in U. exact (digits_at _ _ U).
  - injection E as <- E. destruct (IH b t u T U E) as [-> ->]. now split.
Qed.
Lemma sapp_assoc : forall a b c : string, ((a ++ b) ++ c)%string = (a ++ b ++ c)%string.
Proof. induction a as [|x a IH]; intros b c; cbn [append]; [reflexivity|now rewrite IH]. Qed.
Lemma at_id_cut : forall a b n m, (a ++ at_id n)%string = (b ++ at_id m)%string -> a = b /\ n = m.
Proof.
  intros a b n m E. unfold at_id in E. change (" @" ++ id_text n)%string with (" " ++ String "@" (id_text n))%string in E.
  change (" @" ++ id_text m)%string with (" " ++ String "@" (id_text m))%string in E. rewrite <- !sapp_assoc in E.
  destruct (at_cut _ _ _ _ (id_digits n) (id_digits m) E) as [A B]. split; [|apply id_inj, B].
  clear E B. revert b A. induction a as [|c a IH]; intros [|d b] A; cbn [append] in A; try reflexivity.
  - injection A as _ A. destruct b; discriminate.
  - injection A as _ A. destruct a; discriminate.
  - injection A as <- A. f_equal. now apply IH.
Qed.
Fixpoint last_char (s : string) : option ascii :=
  match s with EmptyString => None | String c r => match r with EmptyString => Some c | _ => last_char r end end.
Lemma last_app : forall a b, b <> "" -> last_char (a ++ b)%string = last_char b.
Proof.
  induction a as [|c a IH]; intros b N; cbn [append]; [reflexivity|]. cbn [last_char]. rewrite IH by exact N.
  destruct (a ++ b)%string eqn:E; [|reflexivity]. destruct a; cbn in E; [now subst|discriminate].
Qed.
Lemma last_digit : forall t, digits t = true -> forall c, last_char t = Some c -> digit c = true.
Proof.
  induction t as [|d t IH]; intros D c H; cbn [last_char digits] in *; [discriminate|]. apply andb_true_iff in D. destruct D as [D1 D2].
  destruct t; [congruence|now apply IH].
Qed.
Lemma not_sky : forall a n b, (a ++ at_id n)%string <> (b ++ "_sky")%string.
Proof.
  intros a n b E. apply (f_equal last_char) in E. rewrite last_app in E by (unfold at_id; discriminate).
  rewrite last_app with (b := "_sky") in E by discriminate. cbn [last_char] in E. unfold at_id in E.
  change (" @" ++ id_text n)%string with (String " " (String "@" (id_text n))) in E. cbn [last_char] in E.
  assert (F : last_char (id_text n) = Some "y"%char). { destruct (id_text n) eqn:G; [now apply id_nonempty in G|exact E]. }
  apply last_digit in F; [discriminate|apply id_digits].
Qed.
Lemma sky_cut : forall a b, (a ++ "_sky")%string = (b ++ "_sky")%string -> a = b.
Proof.
  induction a as [|c a IH]; intros [|d b] E; [reflexivity| | |injection E as <- E; f_equal; now apply IH];
    apply (f_equal String.length) in E; cbn [append String.length] in E;
    match type of E with context [(?x ++ "_sky")%string] => assert (L : forall s, String.length (s ++ "_sky")%string = String.length s + 4)
      by (induction s as [|z s Hs]; cbn; [reflexivity|now rewrite Hs]) end; rewrite L in E; cbn in E; lia.
Qed.

(** ** Tables *)
Lemma tget_none : forall A k (t : table A), tget k t = None <-> ~ In k (map fst t).
Proof.
  induction t as [|[j v] t IH]; cbn; [tauto|]. destruct (String.eqb_spec k j) as [->|N]; [split; [discriminate|intros X; exfalso; apply X; now left]|].
  rewrite IH. split; intros H; [intros [->|I]; [now apply N|now apply H]|intros I; apply H; now right].
Qed.
Lemma tset_new : forall A k (v : A) t, ~ In k (map fst t) -> tset k v t = t ++ [(k, v)].
Proof.
  induction t as [|[j w] t IH]; intros N; cbn; [reflexivity|]. cbn in N. destruct (String.eqb_spec k j) as [->|M]; [exfalso; apply N; now left|].
  f_equal. apply IH. tauto.
Qed.
Lemma tset_same : forall A k (v : A) t, In k (map fst t) -> (forall w, In (k, w) t -> w = v) -> tset k v t = t.
Proof.
  induction t as [|[j w] t IH]; intros I S; cbn in *; [contradiction|]. destruct (String.eqb_spec k j) as [->|M].
  - now rewrite (S w) by now left.
  - f_equal. apply IH; [destruct I as [<-|I]; [contradiction|exact I]|intros x X; apply S; now right].
Qed.
Lemma thas_false : forall A k (t : table A), ~ In k (map fst t) -> thas k t = false.
Proof. intros A k t N. unfold thas. apply tget_none in N. now rewrite N. Qed.

Section C.
Context {cond : Type}.
Notation bf := (Shown.bf cond).

(** The functions kept: each once, in the order met. *)
Lemma functions_fold : forall c (all l : list bf) t, incl l all ->
  (forall b b', In b all -> In b' all -> b_id _ b = b_id _ b' -> b = b') ->
  (forall k b, In (k, b) t -> k = key _ b /\ In b all) -> NoDup (map snd t) ->
  let t' := fold_left (fun t b => if has_len (b_val _ b c) then tset (key _ b) b t else t) l t in
  (forall k b, In (k, b) t' -> k = key _ b /\ In b all) /\ NoDup (map snd t') /\
  (forall b, In b (map snd t') <-> In b (map snd t) \/ In b l /\ has_len (b_val _ b c) = true) /\
  (NoDup (map snd t ++ l) -> map snd t' = map snd t ++ filter (fun b => has_len (b_val _ b c)) l).
Proof.
  intros c all. induction l as [|b l IH]; intros t I U K N t'.
  { unfold t'. cbn. rewrite app_nil_r. repeat split; try tauto; [apply (K k b H)|apply (K k b H)]. }
  assert (Il : incl l all) by (intros x X; apply I; now right). assert (Ib : In b all) by (apply I; now left).
  unfold t'. cbn [fold_left]. destruct (has_len (b_val _ b c)) eqn:H.
  2: { destruct (IH t Il U K N) as (A & B & C & D). split; [exact A|]. split; [exact B|]. split.
       - intros x. rewrite C. cbn [In]. split; [tauto|]. intros [X|[[<-|X] Y]]; [tauto|congruence|tauto].
       - intros Q. cbn [filter]. rewrite H. apply D. apply NoDup_remove_1 in Q. exact Q. }
  destruct (in_dec string_dec (key _ b) (map fst t)) as [J|J].
  - assert (E : tset (key _ b) b t = t).
    { apply tset_same; [exact J|]. intros w W. destruct (K _ _ W) as [Q V]. apply U; [exact V|exact Ib|]. unfold key in Q. symmetry. apply (at_id_cut _ _ _ _ Q). }
    rewrite E. assert (Bt : In b (map snd t)).
    { apply in_map_iff in J. destruct J as ([k w] & F & W). cbn in F. subst k. destruct (K _ _ W) as [Q V].
      assert (w = b). { apply U; [exact V|exact Ib|]. unfold key in Q. symmetry. apply (at_id_cut _ _ _ _ Q). }
      subst. apply in_map_iff. now exists (key _ b, b). }
    destruct (IH t Il U K N) as (A & B & C & D). split; [exact A|]. split; [exact B|]. split.
    + intros x. rewrite C. cbn [In]. split; [tauto|]. intros [X|[[<-|X] Y]]; tauto.
    + intros Q. exfalso. apply NoDup_remove_2 in Q. apply Q. apply in_or_app. now left.
  - rewrite (tset_new _ _ b t J). assert (Nb : ~ In b (map snd t)).
    { intros X. apply in_map_iff in X. destruct X as ([k w] & F & W). cbn in F. subst w. destruct (K _ _ W) as [Q V]. apply J. rewrite <- Q. apply in_map_iff. now exists (k, b). }
    destruct (IH (t ++ [(key _ b, b)]) Il U) as (A & B & C & D).
    + intros k x X. apply in_app_or in X. destruct X as [X|[X|[]]]; [now apply K|]. injection X as <- <-. now split.
    + rewrite map_app. cbn [map snd]. apply NoDup_rev in N. rewrite <- (rev_involutive (map snd t ++ [b])). apply NoDup_rev. rewrite rev_app_distr. cbn. constructor; [rewrite <- in_rev; exact Nb|exact N].
    + split; [exact A|]. split; [exact B|]. split.
      * intros x. rewrite C, map_app, in_app_iff. cbn. split; [intros [[X|[<-|[]]]|[X Y]]; tauto|intros [X|[[<-|X] Y]]; tauto].
      * intros Q. rewrite D, map_app; [cbn [filter map snd]; rewrite H, <- app_assoc; reflexivity|]. rewrite map_app. cbn [map snd]. now rewrite <- app_assoc.
Qed.

Lemma sky_fold : forall (l : table (list er)) (t : table sval), NoDup (map fst l) -> (forall b, In b (map fst l) -> ~ In (b ++ "_sky")%string (map fst t)) ->
  fold_left (fun t p => tset (fst p ++ "_sky")%string (Arr (map blank (snd p))) t) l t =
  t ++ map (fun p => ((fst p ++ "_sky")%string, Arr (map blank (snd p)))) l.
Proof.
  induction l as [|[b m] l IH]; intros t N F; [cbn; now rewrite app_nil_r|]. cbn [fold_left fst snd map]. inversion N as [|x y Nb Nl]; subst.
  rewrite tset_new by (apply F; now left). rewrite IH; [now rewrite <- app_assoc|exact Nl|].
  intros d D X. rewrite map_app in X. apply in_app_or in X. destruct X as [X|[X|[]]]; [apply (F d); [now right|exact X]|]. cbn in X. apply sky_cut in X. subst. contradiction.
Qed.
Lemma maps_fold : forall c (l : list bf) (t : table sval), NoDup (map (b_id _) l) ->
  (forall b, In b l -> ~ In (label _ b) (map fst t)) ->
  fold_left (add_map _ c) l t = t ++ map (fun b => (label _ b, b_val _ b c)) l.
Proof.
  intros c. induction l as [|b l IH]; intros t N F; [cbn; now rewrite app_nil_r|]. cbn [fold_left map]. inversion N as [|x y Nb Nl]; subst.
  unfold add_map at 2. rewrite thas_false by (apply F; now left). rewrite tset_new by (apply F; now left). rewrite IH; [now rewrite <- app_assoc|exact Nl|].
  intros d D X. rewrite map_app in X. apply in_app_or in X. destruct X as [X|[X|[]]]; [apply (F d); [now right|exact X]|]. cbn [fst] in X. unfold label in X.
  rewrite <- !sapp_assoc in X. apply at_id_cut in X. destruct X as [_ X]. apply Nb. rewrite X. now apply in_map.
Qed.
End C.
