(** Lemmas on [SkyFiles]. *)
From Coq Require Import List ZArith QArith Bool String Ascii Lia Sorted.
From Verif Require Import Base SkyFiles.
Import ListNotations.
Open Scope string_scope.
Open Scope list_scope.
Open Scope nat_scope.

Lemma endswith_eq : forall suf s, endswith suf s = String.eqb s suf || match s with EmptyString => false | String _ r => endswith suf r end.
Proof. intros suf [|c r]; reflexivity. Qed.
Lemma endswith_spec : forall suf s, endswith suf s = true <-> exists r, s = (r ++ suf)%string.
Proof.
  intros suf s; split.
  - induction s as [|c r IH]; rewrite endswith_eq, orb_true_iff; intros [E|E].
    + apply String.eqb_eq in E. exists ""; cbn; congruence.
    + discriminate.
    + apply String.eqb_eq in E. exists ""; cbn; congruence.
    + destruct (IH E) as [x Hx]; exists (String c x); cbn; congruence.
  - intros [r ->]. induction r as [|c r IH]; rewrite endswith_eq; cbn [append].
    + rewrite String.eqb_refl; reflexivity.
    + rewrite IH; apply orb_true_r.
Qed.
Lemma has_app : forall c a b, has c (a ++ b)%string = has c a || has c b.
Proof. intros c a b; induction a as [|x a IH]; cbn; [reflexivity|]. rewrite IH, orb_assoc; reflexivity. Qed.
Lemma base_join : forall d n, has "/" n = false -> base (join d n) = n /\ join d n = (d ++ "/" ++ n)%string.
Proof.
  intros d n Hn.
  assert (E : join d n = (d ++ "/" ++ n)%string).
  { destruct n as [|c r]; [reflexivity|]. cbn in Hn. apply orb_false_iff in Hn as [H _].
    unfold join. destruct c as [[] [] [] [] [] [] [] []]; try reflexivity; discriminate. }
  split; [|exact E]. rewrite E. clear E.
  induction d as [|c d IH]; cbn.
  - rewrite Hn; reflexivity.
  - assert (H : has "/" (d ++ String "/" n)%string = true) by (rewrite has_app; cbn; apply orb_true_r).
    rewrite H; exact IH.
Qed.
Lemma parent_join : forall d n, has "/" n = false -> parent (join d n) = d.
Proof.
  intros d n Hn. rewrite (proj2 (base_join d n Hn)).
  induction d as [|c d IH]; cbn.
  - rewrite Hn; reflexivity.
  - assert (H : has "/" (d ++ String "/" n)%string = true) by (rewrite has_app; cbn; apply orb_true_r).
    rewrite H. f_equal; exact IH.
Qed.
Lemma base_plain : forall p, has "/" (base p) = false.
Proof.
  induction p as [|c r IH]; cbn; [reflexivity|].
  destruct (has "/" r) eqn:E; [exact IH|]. destruct (Ascii.eqb c "/") eqn:C; cbn; [exact E|rewrite C, E; reflexivity].
Qed.
Lemma app_inj_l : forall a b c, (a ++ b)%string = (a ++ c)%string -> b = c.
Proof. induction a as [|x a IH]; cbn; intros b c E; [exact E|]. injection E as E; exact (IH _ _ E). Qed.
Lemma join_inj : forall d a b, has "/" a = false -> has "/" b = false -> join d a = join d b -> a = b.
Proof. intros d a b Ha Hb E. rewrite <- (proj1 (base_join d a Ha)), E. exact (proj1 (base_join d b Hb)). Qed.

Lemma read_put : forall ds l p c q, read (mkDisk ds (put l p c)) q = if String.eqb q p then Some c else read (mkDisk ds l) q.
Proof.
  intros ds l p c q; unfold read; cbn [stored].
  induction l as [|e r IH]; cbn.
  - rewrite (String.eqb_sym q p). destruct (String.eqb p q); reflexivity.
  - destruct (String.eqb (fst e) p) eqn:E; cbn.
    + apply String.eqb_eq in E. rewrite E, (String.eqb_sym q p). destruct (String.eqb p q); reflexivity.
    + destruct (String.eqb (fst e) q) eqn:F.
      * apply String.eqb_eq in F; subst q. rewrite E; reflexivity.
      * exact IH.
Qed.
Lemma read_dirs : forall ds ds' l q, read (mkDisk ds l) q = read (mkDisk ds' l) q.
Proof. reflexivity. Qed.
Lemma read_in : forall d p, read d p <> None <-> In p (map fst (stored d)).
Proof.
  intros d p; unfold read. rewrite in_map_iff. split.
  - destruct (find _ _) as [e|] eqn:E; [|congruence]. apply find_some in E as [I E]. apply String.eqb_eq in E. eauto.
  - intros [e [E I]]. destruct (find _ _) as [e'|] eqn:F; [discriminate|].
    pose proof (find_none _ _ F _ I) as N; cbn in N. rewrite E, String.eqb_refl in N; discriminate.
Qed.
Lemma put_keys : forall l p c x, In x (map fst (put l p c)) <-> x = p \/ In x (map fst l).
Proof.
  intros l p c x; induction l as [|e r IH]; cbn.
  - intuition congruence.
  - destruct (String.eqb (fst e) p) eqn:E; cbn.
    + apply String.eqb_eq in E. intuition congruence.
    + rewrite IH. tauto.
Qed.
Lemma put_nodup : forall l p c, NoDup (map fst l) -> NoDup (map fst (put l p c)).
Proof.
  intros l p c; induction l as [|e r IH]; cbn; intros N.
  - constructor; [intros []|constructor].
  - apply NoDup_cons_iff in N as [A B]. destruct (String.eqb (fst e) p) eqn:E; cbn.
    + apply String.eqb_eq in E. rewrite E in A. constructor; assumption.
    + constructor; [|exact (IH B)]. rewrite put_keys. intros [F|F]; [|exact (A F)].
      rewrite F, String.eqb_refl in E; discriminate.
Qed.

(** The page. *)
Definition bad_tag (t : tag) : Prop := fst t = "a" /\ (snd t = [] \/ exists r, snd t = ("href", None) :: r).
Definition links (ts : list tag) (f : string) : Prop := (exists r, In ("a", ("href", Some f) :: r) ts) /\ exists n, f = (n ++ ".h5")%string.
Lemma handle_ok : forall n t, ~ bad_tag t -> exists l, handle n t = Ok (Some l) /\
  forall f, In f l <-> In f (match n with Some m => m | None => [] end) \/ links [t] f.
Proof.
  intros n [a attrs] H. unfold handle; cbn [fst snd].
  set (sofar := match n with Some m => m | None => [] end).
  destruct (String.eqb a "a") eqn:A.
  - apply String.eqb_eq in A; subst a. destruct attrs as [|[k v] r]; [exfalso; apply H; split; [reflexivity|left; reflexivity]|].
    destruct (String.eqb k "href") eqn:K.
    + apply String.eqb_eq in K; subst k. destruct v as [f|]; [|exfalso; apply H; split; [reflexivity|right; eexists; reflexivity]].
      eexists; split; [reflexivity|]. intros g. destruct (endswith ".h5" f) eqn:E.
      * rewrite in_app_iff. apply endswith_spec in E. split; (intros [I|I]; [left; exact I|right]).
        -- destruct I as [<-|[]]. split; [|exact E]. eexists; left; reflexivity.
        -- destruct I as [[r' [I|[]]] _]. injection I as -> ->. left; reflexivity.
      * split; [left; assumption|]. intros [I|[[r' [I|[]]] X]]; [exact I|]. injection I as -> ->.
        apply endswith_spec in X; congruence.
    + eexists; split; [reflexivity|]. intros g; split; [left; assumption|]. intros [I|[[r' [I|[]]] X]]; [exact I|].
      injection I as -> ? ?; discriminate.
  - eexists; split; [reflexivity|]. intros g; split; [left; assumption|]. intros [I|[[r' [I|[]]] X]]; [exact I|].
    injection I as -> ?; discriminate.
Qed.
Lemma handle_bad : forall n t, bad_tag t -> exists e, handle n t = Raise e.
Proof.
  intros n [a attrs] [A B]; cbn in A, B; subst a. destruct B as [->|[r ->]]; cbn; eexists; reflexivity.
Qed.
Lemma bad_dec : forall t, bad_tag t \/ ~ bad_tag t.
Proof.
  intros [a attrs]. destruct (string_dec a "a") as [->|N]; [|right; intros [A _]; exact (N A)].
  destruct attrs as [|[k [v|]] r].
  - left; split; [reflexivity|left; reflexivity].
  - right; intros [_ [E|[r' E]]]; cbn in E; discriminate.
  - destruct (string_dec k "href") as [->|N].
    + left; split; [reflexivity|right; eexists; reflexivity].
    + right; intros [_ [E|[r' E]]]; cbn in E; [discriminate|]. injection E as E _; exact (N E).
Qed.
Lemma links_cons : forall t ts f, links (t :: ts) f <-> links [t] f \/ links ts f.
Proof.
  intros t ts f; unfold links; split.
  - intros [[r [I|I]] X]; [left|right]; split; try exact X; exists r; [left; exact I|exact I].
  - intros [[[r [I|[]]] X]|[[r I] X]]; split; try exact X; exists r; [left; exact I|right; exact I].
Qed.
Lemma feed_ok : forall ts n, (forall t, In t ts -> ~ bad_tag t) -> exists m, feed n ts = Ok m /\
  (m = None <-> n = None /\ ts = []) /\
  forall f, In f (match m with Some l => l | None => [] end) <-> In f (match n with Some l => l | None => [] end) \/ links ts f.
Proof.
  induction ts as [|t ts IH]; intros n H; cbn.
  - exists n. split; [reflexivity|]. split; [tauto|]. intros f; split; [left; assumption|]. intros [I|[[r []] _]]; exact I.
  - destruct (handle_ok n t (H t (or_introl eq_refl))) as [l [E S1]]. rewrite E; cbn.
    destruct (IH (Some l) (fun t' I => H t' (or_intror I))) as [m [F [N S2]]].
    exists m. split; [exact F|]. split.
    + split; [intros M; apply N in M as [? _]; discriminate|intros [_ M]; discriminate].
    + intros f. rewrite S2, links_cons. pose proof (S1 f). cbn beta iota. tauto.
Qed.
Lemma feed_bad : forall ts n t, In t ts -> bad_tag t -> exists e, feed n ts = Raise e.
Proof.
  induction ts as [|t ts IH]; intros n u I B; [destruct I|]. cbn.
  destruct (bad_dec t) as [Bt|Nt].
  - destruct (handle_bad n t Bt) as [e ->]. exists e; reflexivity.
  - destruct (handle_ok n t Nt) as [l [E _]]. rewrite E; cbn. destruct I as [->|I]; [contradiction|]. exact (IH _ _ I B).
Qed.
Lemma page_ok : forall ts ns, page_names ts = Ok ns -> ts <> [] /\ (forall t, In t ts -> ~ bad_tag t) /\ forall f, In f ns <-> links ts f.
Proof.
  intros ts ns E. unfold page_names in E.
  assert (H : forall t, In t ts -> ~ bad_tag t).
  { intros t I B. destruct (feed_bad ts None t I B) as [e F]. rewrite F in E; discriminate. }
  destruct (feed_ok ts None H) as [m [F [N S1]]]. rewrite F in E; cbn in E. destruct m as [l|]; [|discriminate].
  injection E as ->. split; [|split; [exact H|]].
  - intros T. assert (X : Some ns = None) by (apply N; split; [reflexivity|exact T]). discriminate.
  - intros f. rewrite (S1 f). cbn. tauto.
Qed.
Lemma page_some : forall ts, ts <> [] -> (forall t, In t ts -> ~ bad_tag t) -> exists ns, page_names ts = Ok ns.
Proof.
  intros ts T H. destruct (feed_ok ts None H) as [m [F [N _]]]. unfold page_names; rewrite F; cbn.
  destruct m as [l|]; [eexists; reflexivity|]. destruct N as [N _]. destruct (N eq_refl) as [_ X]; contradiction.
Qed.

(** The loop. *)
Section Loop.
Variables (force : bool) (ub dest : string) (srv : server).
Lemma each_other : forall fs d d' r p, each force ub dest srv fs d = (d', r) -> (forall f, In f fs -> join dest f <> p) -> read d' p = read d p.
Proof.
  induction fs as [|f fs IH]; cbn; intros d d' r p E H; [injection E as <- _; reflexivity|].
  assert (K : forall d1, each force ub dest srv fs d1 = (d', r) -> read d' p = read d1 p) by (intros d1 E1; apply (IH d1 d' r p E1); intros g I; apply H; right; exact I).
  destruct (negb _ || force).
  - destruct (srv _) as [[st c]|]; [|injection E as <- _; reflexivity].
    unfold write in E. destruct (isdir d (parent (join dest f))); [|injection E as <- _; reflexivity].
    rewrite (K _ E), read_put. destruct (String.eqb p (join dest f)) eqn:Q; [|reflexivity].
    apply String.eqb_eq in Q. exfalso; exact (H f (or_introl eq_refl) (eq_sym Q)).
  - exact (K _ E).
Qed.
Lemma each_dirs : forall fs d d' r, each force ub dest srv fs d = (d', r) -> dirs d' = dirs d.
Proof.
  induction fs as [|f fs IH]; cbn; intros d d' r E; [injection E as <- _; reflexivity|].
  destruct (negb _ || force); [|exact (IH _ _ _ E)].
  destruct (srv _) as [[st c]|]; [|injection E as <- _; reflexivity].
  unfold write in E. destruct (isdir d (parent (join dest f))); [|injection E as <- _; reflexivity].
  rewrite (IH _ _ _ E); reflexivity.
Qed.
Lemma each_nodup : forall fs d d' r, each force ub dest srv fs d = (d', r) -> NoDup (map fst (stored d)) -> NoDup (map fst (stored d')).
Proof.
  induction fs as [|f fs IH]; cbn; intros d d' r E N; [injection E as <- _; exact N|].
  destruct (negb _ || force); [|exact (IH _ _ _ E N)].
  destruct (srv _) as [[st c]|]; [|injection E as <- _; exact N].
  unfold write in E. destruct (isdir d (parent (join dest f))); [|injection E as <- _; exact N].
  apply (IH _ _ _ E). cbn. apply put_nodup; exact N.
Qed.
(** With plain names and answers that are what [content] says, each file is that or, after
    a failure, as it was. *)
Variable content : string -> string.
Lemma each_file : forall fs d d' r, each force ub dest srv fs d = (d', r) ->
  (forall f, In f fs -> has "/" f = false) -> (forall f a, In f fs -> srv (ub ++ f)%string = Some a -> snd a = content f) ->
  forall f, has "/" f = false -> read d' (join dest f) = read d (join dest f) \/ (In f fs /\ read d' (join dest f) = Some (content f) /\ (force = true \/ read d (join dest f) = None)).
Proof.
  induction fs as [|g fs IH]; cbn; intros d d' r E P A f Pf; [injection E as <- _; left; reflexivity|].
  assert (P' : forall x, In x fs -> has "/" x = false) by auto.
  assert (A' : forall x a, In x fs -> srv (ub ++ x)%string = Some a -> snd a = content x) by auto.
  destruct (negb _ || force) eqn:B.
  - destruct (srv _) as [[st c]|] eqn:Sv; [|injection E as <- _; left; reflexivity].
    unfold write in E. destruct (isdir d (parent (join dest g))); [|injection E as <- _; left; reflexivity].
    specialize (A g _ (or_introl eq_refl) Sv). cbn in A. subst c.
    assert (Q : String.eqb (join dest f) (join dest g) = true -> f = g).
    { intros Q. apply String.eqb_eq in Q. exact (join_inj dest f g Pf (P g (or_introl eq_refl)) Q). }
    assert (FB : force = true \/ read d (join dest g) = None).
    { destruct (read d (join dest g)); [|right; reflexivity]. cbn in B. left; exact B. }
    destruct (IH _ _ _ E P' A' f Pf) as [H|[I [H H2]]]; rewrite ?read_put in *.
    + destruct (String.eqb (join dest f) (join dest g)) eqn:C.
      * right. rewrite H. specialize (Q eq_refl); subst g. split; [left; reflexivity|]. split; [reflexivity|]. exact FB.
      * left; exact H.
    + right. split; [right; exact I|]. split; [exact H|].
      destruct (String.eqb (join dest f) (join dest g)) eqn:C; [|exact H2].
      specialize (Q eq_refl); subst g. exact FB.
  - destruct (IH _ _ _ E P' A' f Pf) as [H|[I [H H2]]]; [left; exact H|right]. split; [right; exact I|]. split; assumption.
Qed.
Lemma each_all : forall fs d d', each force ub dest srv fs d = (d', Ok tt) ->
  (forall f, In f fs -> has "/" f = false) -> (forall f a, In f fs -> srv (ub ++ f)%string = Some a -> snd a = content f) ->
  forall f, In f fs -> (force = true -> read d' (join dest f) = Some (content f)) /\ read d' (join dest f) <> None.
Proof.
  induction fs as [|g fs IH]; cbn; intros d d' E P A f I; [destruct I|].
  assert (P' : forall x, In x fs -> has "/" x = false) by auto.
  assert (A' : forall x a, In x fs -> srv (ub ++ x)%string = Some a -> snd a = content x) by auto.
  destruct (in_dec string_dec f fs) as [J|J].
  - destruct (negb _ || force); [|exact (IH _ _ E P' A' f J)].
    destruct (srv _) as [[st c]|]; [|discriminate]. unfold write in E. destruct (isdir d (parent (join dest g))); [|discriminate].
    exact (IH _ _ E P' A' f J).
  - destruct I as [->|I]; [|contradiction].
    assert (O : forall d1, each force ub dest srv fs d1 = (d', Ok tt) -> read d' (join dest f) = read d1 (join dest f)).
    { intros d1 E1. apply (each_other _ _ _ _ _ E1). intros x Ix Q. apply J. rewrite (join_inj dest f x); auto. }
    destruct (negb _ || force) eqn:B.
    + destruct (srv _) as [[st c]|] eqn:Sv; [|discriminate]. unfold write in E. destruct (isdir d (parent (join dest f))); [|discriminate].
      rewrite (O _ E), read_put, String.eqb_refl. specialize (A f _ (or_introl eq_refl) Sv). cbn in A. subst c.
      split; [reflexivity|discriminate].
    + rewrite (O _ E). apply orb_false_iff in B as [B1 B2]. destruct (read d (join dest f)); [|discriminate].
      split; [intros T; rewrite T in B2; discriminate|discriminate].
Qed.
Lemma each_returns : forall fs d, (forall f, In f fs -> has "/" f = false) -> (forall f, In f fs -> srv (ub ++ f)%string <> None) ->
  In dest (dirs d) -> snd (each force ub dest srv fs d) = Ok tt.
Proof.
  induction fs as [|g fs IH]; cbn; intros d P A D; [reflexivity|].
  destruct (negb _ || force); [|apply IH; auto].
  destruct (srv _) as [[st c]|] eqn:Sv; [|exfalso; exact (A g (or_introl eq_refl) Sv)].
  unfold write. assert (X : isdir d (parent (join dest g)) = true).
  { rewrite parent_join by auto. unfold isdir. apply existsb_exists. exists dest. split; [exact D|apply String.eqb_refl]. }
  rewrite X. apply IH; auto.
Qed.
End Loop.

Lemma ensure_ok : forall d p d' r, ensure d p = (d', r) -> (r = Ok tt <-> In p (dirs d')) /\ stored d' = stored d /\ (forall x, In x (dirs d') <-> In x (dirs d) \/ x = p /\ r = Ok tt).
Proof.
  intros d p d' r E. unfold ensure, mkdir in E. 
  assert (I : forall x y, isdir x y = true <-> In y (dirs x)).
  { intros x y; unfold isdir. rewrite existsb_exists. split; [intros [z [A B]]; apply String.eqb_eq in B; subst; exact A|intros A; exists y; split; [exact A|apply String.eqb_refl]]. }
  destruct (isdir d p) eqn:X.
  - injection E as <- <-. apply I in X. split; [tauto|]. split; [reflexivity|]. intros x; split; [tauto|]. intros [A|[-> _]]; assumption.
  - destruct (isdir d (parent p)); injection E as <- <-; cbn.
    + split; [split; auto|]. split; [reflexivity|]. intros x. split; intros [A|A]; subst; auto. destruct A as [-> _]; left; reflexivity.
    + split; [split; [discriminate|intros A; apply I in A; congruence]|]. split; [reflexivity|]. intros x; split; [tauto|]. intros [A|[_ A]]; [exact A|discriminate].
Qed.

(** Sorting. *)
Lemma sle_total : forall a b, sle a b = true \/ sle b a = true.
Proof.
  induction a as [|x a IH]; intros [|y b]; cbn [sle]; auto.
  rewrite (Ascii.eqb_sym y x). destruct (Ascii.eqb x y) eqn:E; [apply IH|].
  rewrite !Nat.ltb_lt. assert (N : nat_of_ascii x <> nat_of_ascii y).
  { intros Q. rewrite <- (ascii_nat_embedding x), <- (ascii_nat_embedding y), Q, Ascii.eqb_refl in E. discriminate. }
  lia.
Qed.
Lemma sle_trans : forall a b c, sle a b = true -> sle b c = true -> sle a c = true.
Proof.
  induction a as [|x a IH]; intros [|y b] [|z c]; cbn [sle]; auto; try discriminate.
  destruct (Ascii.eqb x y) eqn:E; [apply Ascii.eqb_eq in E; subst y|].
  - destruct (Ascii.eqb x z); [apply IH|auto].
  - destruct (Ascii.eqb y z) eqn:F; [apply Ascii.eqb_eq in F; subst z; rewrite E; auto|].
    rewrite !Nat.ltb_lt. intros A B. destruct (Ascii.eqb x z) eqn:G; [apply Ascii.eqb_eq in G; subst; lia|]. apply Nat.ltb_lt; lia.
Qed.
Lemma insert_in : forall p l x, In x (insert p l) <-> x = p \/ In x l.
Proof.
  intros p l x; induction l as [|q r IH]; cbn; [intuition congruence|]. destruct (sle p q); cbn; [intuition congruence|]. rewrite IH. tauto.
Qed.
Lemma sorted_in : forall l x, In x (sorted l) <-> In x l.
Proof. induction l as [|p l IH]; intros x; cbn; [tauto|]. rewrite insert_in, IH. intuition congruence. Qed.
Lemma insert_sorted : forall p l, StronglySorted (fun a b => sle a b = true) l -> StronglySorted (fun a b => sle a b = true) (insert p l).
Proof.
  intros p l; induction l as [|q r IH]; cbn; intros H; [repeat constructor|].
  apply StronglySorted_inv in H as [A B]. destruct (sle p q) eqn:E.
  - constructor; [constructor; assumption|]. constructor; [exact E|]. rewrite Forall_forall in *. intros x I. exact (sle_trans _ _ _ E (B x I)).
  - constructor; [exact (IH A)|]. rewrite Forall_forall in *. intros x I. apply insert_in in I as [->|I]; [|exact (B x I)].
    destruct (sle_total p q); [congruence|assumption].
Qed.
Lemma sorted_sorted : forall l, StronglySorted (fun a b => sle a b = true) (sorted l).
Proof. induction l as [|p l IH]; cbn; [constructor|]. apply insert_sorted; exact IH. Qed.
Lemma insert_nodup : forall p l, ~ In p l -> NoDup l -> NoDup (insert p l).
Proof.
  intros p l; induction l as [|q r IH]; cbn; intros H N; [constructor; [intros []|constructor]|].
  destruct (sle p q); [constructor; [exact H|exact N]|]. apply NoDup_cons_iff in N as [A B]. constructor; [|apply IH; tauto].
  rewrite insert_in. intros [E|E]; [apply H; left; exact E|exact (A E)].
Qed.
Lemma sorted_nodup : forall l, NoDup l -> NoDup (sorted l).
Proof.
  induction l as [|p l IH]; cbn; intros N; [constructor|]. apply NoDup_cons_iff in N as [A B].
  apply insert_nodup; [rewrite sorted_in; exact A|exact (IH B)].
Qed.
