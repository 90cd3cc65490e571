(** C131: the path of a spectrum by its name. *)
From Coq Require Import List ZArith Bool String Ascii Lia.
From Verif Require Import Base SpecPaths.
From Verif Require SkyFiles SkyFiles_proofs.
Import ListNotations.
Open Scope string_scope.
Open Scope list_scope.
Open Scope nat_scope.

Lemma sle_antisym : forall a b, SkyFiles.sle a b = true -> SkyFiles.sle b a = true -> a = b.
Proof.
  induction a as [|x a IH]; intros [|y b]; cbn [SkyFiles.sle]; try discriminate; auto.
  destruct (Ascii.eqb_spec x y) as [->|N].
  - rewrite Ascii.eqb_refl. intros H1 H2. f_equal. auto.
  - destruct (Ascii.eqb_spec y x) as [->|_]; [congruence|]. intros H1 H2. apply Nat.ltb_lt in H1. apply Nat.ltb_lt in H2. lia.
Qed.
Lemma put_in_in : forall A (kv : string * A) l x, In x (put_in kv l) <-> x = kv \/ In x l.
Proof. intros A kv l x. induction l as [|y l IH]; cbn; [intuition congruence|]. destruct (SkyFiles.sle (fst kv) (fst y)); cbn; rewrite ?IH; intuition congruence. Qed.
Lemma items_in : forall A (l : list (string * A)) x, In x (items l) <-> In x l.
Proof. intros A l x. induction l as [|y l IH]; cbn; [tauto|]. rewrite put_in_in. unfold items in IH. rewrite IH. intuition congruence. Qed.
Inductive ord {A} : list (string * A) -> Prop :=
| ord_nil : ord []
| ord_cons : forall x l, (forall y, In y l -> SkyFiles.sle (fst x) (fst y) = true) -> ord l -> ord (x :: l).
Lemma put_in_ord : forall A (kv : string * A) l, ord l -> ord (put_in kv l).
Proof.
  intros A kv l H. induction H as [|x l Hx Ho IH]; cbn; [constructor; [intros y []|constructor]|].
  destruct (SkyFiles.sle (fst kv) (fst x)) eqn:E.
  - constructor; [|constructor; assumption]. intros y [<-|Hy]; [exact E|]. eapply SkyFiles_proofs.sle_trans; eauto.
  - constructor; [|exact IH]. intros y Hy. apply put_in_in in Hy. destruct Hy as [-> |Hy]; [|auto]. destruct (SkyFiles_proofs.sle_total (fst kv) (fst x)); congruence.
Qed.
Lemma items_ord : forall A (l : list (string * A)), ord (items l).
Proof. intros A l. induction l; cbn; [constructor|]. apply put_in_ord. assumption. Qed.
Lemma find_least : forall A (f : string * A -> bool) l x, ord l -> find f l = Some x -> In x l /\ f x = true /\ forall y, In y l -> f y = true -> SkyFiles.sle (fst x) (fst y) = true.
Proof.
  intros A f l x H. induction H as [|z l Hz Ho IH]; cbn; [discriminate|]. destruct (f z) eqn:E.
  - intros Hx. injection Hx as <-. repeat split; auto. intros y [<-|Hy] Hf; [|auto]. destruct (SkyFiles_proofs.sle_total (fst z) (fst z)); auto.
  - intros Hx. destruct (IH Hx) as (I & F & L). repeat split; auto. intros y [<-|Hy] Hf; [congruence|auto].
Qed.

Lemma prefix_head : forall a p s, prefix (String a p) s = true -> exists r, s = String a r.
Proof. intros a p [|c r]; cbn; [discriminate|]. destruct (ascii_dec a c); [|discriminate]. intros _. subst. eauto. Qed.
Lemma prefix_head2 : forall a b p s, prefix (String a (String b p)) s = true -> exists r, s = String a (String b r).
Proof. intros a b p [|c [|d r]]; cbn; try discriminate; try (destruct (ascii_dec a c); discriminate). destruct (ascii_dec a c); [|discriminate]. destruct (ascii_dec b d); [|discriminate]. intros _. subst. eauto. Qed.
(** No name is in two of the directories of the class, so the order in which they are
    tried does not matter. *)
Theorem C131_exclusive : forall s a b, In a subdir_map -> In b subdir_map -> fst (snd a) s = true -> fst (snd b) s = true -> a = b.
Proof.
  intros s a b Ha Hb Fa Fb. unfold subdir_map in Ha, Hb. cbn [In] in Ha, Hb.
  repeat (destruct Ha as [<-|Ha]); try contradiction; repeat (destruct Hb as [<-|Hb]); try contradiction; try reflexivity; exfalso;
  cbn [fst snd] in Fa, Fb; unfold old_mlt in *; rewrite ?orb_true_iff in *;
  repeat match goal with H : _ \/ _ |- _ => destruct H end;
  repeat match goal with H : prefix (String ?x (String ?y ?p)) ?s = true |- _ => apply prefix_head2 in H; destruct H as [? H] end; subst;
  try discriminate;
  repeat match goal with H : String _ _ = String _ _ |- _ => discriminate H end;
  match goal with H : _ = true |- _ => cbn in H; rewrite ?andb_true_iff in H; try discriminate H end; try (destruct s as [|c [|d r]]; discriminate).
Qed.
Print Assumptions C131_exclusive.

(** What is returned: the path given for the name, blanks at its ends left out; else the
    directory of the first pattern of the user, in the order of the texts of the patterns,
    that the name matches, with the name and ".gz"; else that of the class; else KeyError. *)
Theorem C131_order : forall rematch files dirs name,
  (forall p, In (strip name, p) files -> NoDup (map fst files) -> get rematch files dirs name = Ok p) /\
  (~ In (strip name) (map fst files) ->
    (forall k v, In (k, v) dirs -> rematch k (strip name) = true -> NoDup (map fst dirs) ->
       (forall k' v', In (k', v') dirs -> rematch k' (strip name) = true -> SkyFiles.sle k k' = true) ->
       get rematch files dirs name = Ok (pjoin v (full_name (strip name)))) /\
    ((forall k v, In (k, v) dirs -> rematch k (strip name) = false) ->
       (forall k f v, In (k, (f, v)) subdir_map -> f (strip name) = true -> get rematch files dirs name = Ok (pjoin v (full_name (strip name)))) /\
       ((forall k f v, In (k, (f, v)) subdir_map -> f (strip name) = false) -> get rematch files dirs name = Raise KeyError))).
Proof.
  intros rematch files dirs name. unfold get. split.
  - intros p Hp Hn. unfold dget.
    assert (E : find (fun kv => String.eqb (fst kv) (strip name)) files = Some (strip name, p)).
    { induction files as [|[k v] fs IH]; [destruct Hp|]. cbn. destruct Hp as [Hp|Hp].
      - injection Hp as -> ->. rewrite String.eqb_refl. reflexivity.
      - inversion Hn as [|? ? N1 N2]; subst. destruct (String.eqb_spec k (strip name)) as [->|_]; [|apply IH; assumption].
        exfalso. apply N1. apply in_map_iff. exists (strip name, p). split; [reflexivity|exact Hp]. }
    rewrite E. reflexivity.
  - intros Hf. unfold dget.
    assert (E : find (fun kv => String.eqb (fst kv) (strip name)) files = None).
    { destruct (find _ files) as [kv|] eqn:E; [|reflexivity]. exfalso. apply find_some in E. destruct E as [E1 E2]. apply String.eqb_eq in E2. apply Hf. rewrite <- E2. apply in_map. exact E1. }
    rewrite E. split.
    + intros k v I M Nd L.
      destruct (find (fun kv => rematch (fst kv) (strip name)) (items dirs)) as [[k1 v1]|] eqn:F.
      * apply find_least in F; [|apply items_ord]. destruct F as (I1 & M1 & L1). cbn in M1. apply (proj1 (items_in _ _ _)) in I1.
        assert (Q1 := L1 (k, v)). rewrite items_in in Q1. specialize (Q1 I M). cbn in Q1. assert (Q2 := L k1 v1 I1 M1).
        assert (K : k = k1).
        { apply sle_antisym; assumption. }
        subst k1.
        assert (V1 : v1 = v).
        { clear - I I1 Nd. induction dirs as [|[a b] r IH]; [destruct I|]. cbn in Nd. inversion Nd as [|? ? N1 N2]; subst.
          destruct I as [I|I], I1 as [I1|I1]; try congruence; auto.
          - exfalso. apply N1. injection I as -> ->. apply in_map_iff. exists (k, v1). auto.
          - exfalso. apply N1. injection I1 as -> ->. apply in_map_iff. exists (k, v). auto. }
        cbn. rewrite V1. reflexivity.
      * exfalso. eapply find_none in F; [|apply items_in; exact I]. cbn in F. congruence.
    + intros Hd. assert (F : find (fun kv => rematch (fst kv) (strip name)) (items dirs) = None).
      { destruct (find _ (items dirs)) as [[k v]|] eqn:F; [|reflexivity]. exfalso. apply find_some in F. destruct F as [F1 F2]. apply (proj1 (items_in _ _ _)) in F1. cbn in F2. rewrite (Hd k v F1) in F2. discriminate. }
      rewrite F. split.
      * intros k f v I M. destruct (find (fun kv => fst (snd kv) (strip name)) (items subdir_map)) as [[k1 [f1 v1]]|] eqn:G.
        -- apply find_some in G. destruct G as [G1 G2]. apply (proj1 (items_in _ _ _)) in G1.
           assert (Q := C131_exclusive (strip name) _ _ I G1 M G2). injection Q as -> -> ->. reflexivity.
        -- exfalso. eapply find_none in G; [|apply items_in; exact I]. cbn in G. congruence.
      * intros H. destruct (find (fun kv => fst (snd kv) (strip name)) (items subdir_map)) as [[k1 [f1 v1]]|] eqn:G; [|reflexivity].
        exfalso. apply find_some in G. destruct G as [G1 G2]. apply (proj1 (items_in _ _ _)) in G1. cbn in G2. rewrite (H _ _ _ G1) in G2. discriminate.
Qed.
Print Assumptions C131_order.
Example C131_order_ex :
  let m (k s : string) := prefix k s in
  get m [("kp1", "mine/kp1.gz")] [("kp", "b"); ("kp2", "c/"); ("k", "a")] " kp1 " = Ok "mine/kp1.gz" /\
  get m [("kp1", "mine/kp1.gz")] [("kp", "b"); ("kp2", "c/"); ("k", "a")] "kp2.gz" = Ok "a/kp2.gz" /\
  get m [] [("kp2", "c/")] "kp2" = Ok "c/kp2.gz" /\ get m [] [] "kp2" = Ok "starSED/kurucz/kp2.gz" /\ get m [] [] "L.dat" = Raise KeyError.
Proof. repeat split. Qed.

(** A name is in the map exactly when looking it up gives a path, and the only error of a
    lookup is KeyError. *)
Theorem C131_contains : forall rematch files dirs name,
  (contains rematch files dirs name = true <-> exists p, get rematch files dirs name = Ok p) /\
  (contains rematch files dirs name = false <-> get rematch files dirs name = Raise KeyError).
Proof.
  intros. unfold contains. split.
  - destruct (get rematch files dirs name) as [p|e]; split; eauto; [discriminate|intros [p H]; discriminate].
  - unfold get. destruct (dget files (strip name)); [split; discriminate|]. destruct (find _ (items dirs)); [split; discriminate|]. destruct (find _ (items subdir_map)); [split; discriminate|tauto].
Qed.
Print Assumptions C131_contains.

(** Blanks around a name do not matter. *)
Lemma append_nil_r : forall s, (s ++ "")%string = s.
Proof. induction s as [|c s IH]; [reflexivity|]. cbn. rewrite IH. reflexivity. Qed.
Lemma append_assoc : forall a b c, (a ++ (b ++ c))%string = ((a ++ b) ++ c)%string.
Proof. induction a as [|x a IH]; intros b c; [reflexivity|]. cbn. rewrite IH. reflexivity. Qed.
Fixpoint blanks (s : string) : bool := match s with EmptyString => true | String c r => blank c && blanks r end.
Lemma lstrip_blanks : forall a s, blanks a = true -> lstrip (a ++ s)%string = lstrip s.
Proof. induction a as [|c a IH]; intros s H; [reflexivity|]. cbn in H. apply andb_true_iff in H. destruct H as [H1 H2]. cbn. rewrite H1. auto. Qed.
Lemma rstrip_all : forall b, blanks b = true -> rstrip b = EmptyString.
Proof. induction b as [|c b IH]; intros H; [reflexivity|]. cbn in H. apply andb_true_iff in H. destruct H as [H1 H2]. cbn. rewrite (IH H2), H1. reflexivity. Qed.
Lemma rstrip_blanks : forall s b, blanks b = true -> rstrip (s ++ b)%string = rstrip s.
Proof. induction s as [|c s IH]; intros b H; [apply rstrip_all; exact H|]. cbn. rewrite (IH b H). reflexivity. Qed.
Lemma lstrip_app : forall s b, blanks b = true -> rstrip (lstrip (s ++ b)%string) = rstrip (lstrip s).
Proof.
  induction s as [|c s IH]; intros b H; cbn [append lstrip].
  - assert (E : lstrip b = EmptyString). { rewrite <- (append_nil_r b). rewrite lstrip_blanks by exact H. reflexivity. } rewrite E. reflexivity.
  - destruct (blank c); [apply IH; exact H|]. change (String c (s ++ b)) with ((String c s) ++ b)%string. apply rstrip_blanks. exact H.
Qed.
Theorem C131_blanks : forall rematch files dirs a name b, blanks a = true -> blanks b = true ->
  get rematch files dirs (a ++ name ++ b)%string = get rematch files dirs name.
Proof. intros rematch files dirs a name b Ha Hb. unfold get, strip. rewrite lstrip_blanks by exact Ha. rewrite lstrip_app by exact Hb. reflexivity. Qed.
Print Assumptions C131_blanks.

(** A path set for a name without blanks at its ends is found by that name, with any blanks
    around it, and every other name is as before. *)
Lemma dget_dset : forall d k v x, dget (dset d k v) x = if String.eqb x k then Some v else dget d x.
Proof.
  intros d k v x. unfold dget. induction d as [|[a b] d IH]; cbn.
  - rewrite String.eqb_sym. destruct (String.eqb x k); reflexivity.
  - destruct (String.eqb_spec a k) as [->|N]; cbn.
    + rewrite (String.eqb_sym x k). destruct (String.eqb k x); reflexivity.
    + destruct (String.eqb_spec a x) as [->|M]; [|exact IH]. destruct (String.eqb_spec x k); [congruence|reflexivity].
Qed.
Lemma at_upd : forall w i j f, i < List.length w -> at_ (upd w i f) j = if Nat.eqb j i then f (at_ w i) else at_ w j.
Proof.
  unfold at_. induction w as [|d w IH]; intros i j f H; cbn in H; [lia|].
  destruct i as [|i]; destruct j as [|j]; cbn; try reflexivity. apply IH. lia.
Qed.
Theorem C131_set : forall rematch w m k v name, fst m < List.length w -> fst m <> snd m -> 
  look rematch (set_item w m k v) m name = if String.eqb (strip name) k then Ok v else look rematch w m name.
Proof.
  intros rematch w [i j] k v name H D. unfold look, set_item. cbn [fst snd] in *.
  rewrite !at_upd by exact H. rewrite Nat.eqb_refl. destruct (Nat.eqb_spec j i); [congruence|].
  unfold get. rewrite dget_dset. destruct (String.eqb (strip name) k); reflexivity.
Qed.
Print Assumptions C131_set.
Example C131_set_ex :
  let '(w, m) := new_map [[("a", "x.gz")]; []] (Some 0) (Some 1) in
  m = (0, 2) /\ look (fun _ _ => false) (set_item w m "b" "y") m "b  " = Ok "y" /\ look (fun _ _ => false) (set_item w m "b" "y") m "a" = Ok "x.gz".
Proof. repeat split. Qed.

(** A new map answers by what it was given, and the two dictionaries of one made from two
    different ones, or from none, are different ones as the theorem above needs. *)
Theorem C131_new : forall rematch w files dirs w' m name, (forall i, files = Some i -> i < List.length w) -> (forall j, dirs = Some j -> j < List.length w) -> (files <> dirs \/ files = None) ->
  new_map w files dirs = (w', m) ->
  look rematch w' m name = get rematch (match files with Some i => at_ w i | None => [] end) (match dirs with Some j => at_ w j | None => [] end) name /\
  fst m < List.length w' /\ fst m <> snd m /\ (forall i, i < List.length w -> at_ w' i = at_ w i).
Proof.
  intros rematch w files dirs w' m name Hf Hd Hn H. unfold new_map in H.
  assert (K : forall w0 g w1 i, keep w0 g = (w1, i) -> (forall x, g = Some x -> x < List.length w0) ->
     at_ w1 i = match g with Some x => at_ w0 x | None => [] end /\ i < List.length w1 /\ List.length w0 <= List.length w1 /\ (forall x, x < List.length w0 -> at_ w1 x = at_ w0 x) /\ (i = List.length w0 \/ g = Some i)).
  { intros w0 g w1 i E B. assert (X : forall d, keep w0 g = (w0 ++ [[]], List.length w0) -> d = [] -> (match g with Some x => at_ w0 x | None => [] end) = d -> at_ w1 i = match g with Some x => at_ w0 x | None => [] end /\ i < List.length w1 /\ List.length w0 <= List.length w1 /\ (forall x, x < List.length w0 -> at_ w1 x = at_ w0 x) /\ (i = List.length w0 \/ g = Some i)).
    { intros d E' -> ->. rewrite E' in E. injection E as <- <-. unfold at_. rewrite app_length. cbn [List.length]. rewrite app_nth2, Nat.sub_diag by lia. repeat split; try lia; try reflexivity; auto. intros x Hx. apply app_nth1. exact Hx. }
    destruct g as [x|]; [|apply (X []); reflexivity]. destruct (at_ w0 x) as [|e l] eqn:A.
    - apply (X []); auto. cbn. rewrite A. reflexivity.
    - cbn in E. rewrite A in E. injection E as <- <-. repeat split; auto. }
  destruct (keep w files) as [w1 i] eqn:K1. destruct (keep w1 dirs) as [w2 j] eqn:K2. injection H as <- <-.
  destruct (K _ _ _ _ K1 Hf) as (A1 & B1 & C1 & D1 & E1).
  assert (Hd' : forall x, dirs = Some x -> x < List.length w1) by (intros x Hx; specialize (Hd x Hx); lia).
  destruct (K _ _ _ _ K2 Hd') as (A2 & B2 & C2 & D2 & E2).
  unfold look. cbn [fst snd]. rewrite (D2 i B1), A1, A2. repeat split.
  - destruct dirs as [x|]; [|reflexivity]. rewrite (D1 x); [reflexivity|]. apply Hd. reflexivity.
  - lia.
  - intros ->. destruct E1 as [E1|E1], E2 as [E2|E2]; try lia.
    + specialize (Hd _ E2). lia.
    + destruct Hn as [Hn|Hn]; congruence.
  - intros x Hx. rewrite D2 by lia. apply D1. exact Hx.
Qed.
Print Assumptions C131_new.

(** The map of the module gives only compressed files. *)
Lemma gz_join : forall d n, SkyFiles.endswith ".gz" (pjoin d (full_name n)) = true.
Proof.
  intros d n. assert (F : SkyFiles.endswith ".gz" (full_name n) = true).
  { unfold full_name. destruct (SkyFiles.endswith ".gz" n) eqn:E; [exact E|]. apply SkyFiles_proofs.endswith_spec. eauto. }
  apply SkyFiles_proofs.endswith_spec in F. destruct F as [r F]. rewrite F.
  assert (A : forall x : string, (SkyFiles.endswith ".gz" (x ++ (r ++ ".gz")) = true)%string). { intros x. apply SkyFiles_proofs.endswith_spec. exists (x ++ r)%string. apply append_assoc. }
  assert (B : pjoin d (r ++ ".gz")%string = (r ++ ".gz")%string \/ exists x, pjoin d (r ++ ".gz")%string = (x ++ (r ++ ".gz"))%string).
  { unfold pjoin. set (t := (r ++ ".gz")%string). assert (G : (if String.eqb d "" || SkyFiles.endswith "/" d then (d ++ t)%string else (d ++ "/" ++ t)%string) = t \/ exists x, (if String.eqb d "" || SkyFiles.endswith "/" d then (d ++ t)%string else (d ++ "/" ++ t)%string) = (x ++ t)%string).
    { right. destruct (String.eqb d "" || SkyFiles.endswith "/" d); [exists d; reflexivity|]. exists (d ++ "/")%string. apply append_assoc. }
    destruct t as [|c t']; [exact G|]. destruct (Ascii.eqb_spec c "/") as [->|N]; [left; reflexivity|].
    destruct c as [[] [] [] [] [] [] [] []]; first [exact G|exfalso; apply N; reflexivity]. }
  destruct B as [-> |[x ->]]; [|apply A]. apply SkyFiles_proofs.endswith_spec. eauto.
Qed.
Theorem C131_default : forall rematch name p, get rematch default_files [] name = Ok p ->
  SkyFiles.endswith ".gz" p = true /\
  (In (strip name, p) default_files \/ exists k f d, In (k, (f, d)) subdir_map /\ f (strip name) = true /\ p = pjoin d (full_name (strip name))).
Proof.
  intros rematch name p H. unfold get in H.
  destruct (dget default_files (strip name)) as [q|] eqn:E.
  - injection H as <-. unfold dget in E. destruct (find _ default_files) as [[a b]|] eqn:F; [|discriminate]. cbn [snd] in E. injection E as <-.
    apply find_some in F. destruct F as [F1 F2]. cbn [fst] in F2. apply String.eqb_eq in F2. subst a. split; [|left; exact F1].
    assert (A : forallb (fun kv => SkyFiles.endswith ".gz" (snd kv)) default_files = true) by (vm_compute; reflexivity).
    rewrite forallb_forall in A. apply (A _ F1).
  - change (items (@nil (string * string))) with (@nil (string * string)) in H. cbn [find] in H.
    destruct (find (fun kv => fst (snd kv) (strip name)) (items subdir_map)) as [[k [f d]]|] eqn:G; [|discriminate].
    injection H as <-. cbn [fst snd]. split; [apply gz_join|]. right. apply find_some in G. destruct G as [G1 G2]. apply (proj1 (items_in _ _ _)) in G1. exists k, f, d. auto.
Qed.
Print Assumptions C131_default.

(** Refuted: a path set is found by the name it was set for; a name with a blank at an end
    is set without effect. *)
Lemma rstrip_idem : forall s, rstrip (rstrip s) = rstrip s.
Proof.
  induction s as [|c s IH]; [reflexivity|]. cbn. destruct (rstrip s) as [|d t] eqn:E.
  - destruct (blank c) eqn:B; [reflexivity|]. cbn. rewrite B. reflexivity.
  - cbn in IH |- *. destruct (rstrip t) eqn:E2; [destruct (blank d); [discriminate|]|]; rewrite IH; reflexivity.
Qed.
Lemma lstrip_hd : forall s c r, lstrip s = String c r -> blank c = false.
Proof. induction s as [|a s IH]; intros c r H; [discriminate|]. cbn in H. destruct (blank a) eqn:E; [eauto|]. injection H as <- <-. exact E. Qed.
Lemma strip_idem : forall s, strip (strip s) = strip s.
Proof.
  intros s. unfold strip. destruct (lstrip s) as [|c r] eqn:E; [reflexivity|]. assert (B := lstrip_hd s c r E).
  assert (L : lstrip (rstrip (String c r)) = rstrip (String c r)). { cbn. destruct (rstrip r); cbn; rewrite B; cbn; rewrite ?B; reflexivity. }
  rewrite L. apply rstrip_idem.
Qed.
Theorem C131_blank_refuted : forall rematch w m k v name, fst m < List.length w -> fst m <> snd m -> strip k <> k -> look rematch (set_item w m k v) m name = look rematch w m name.
Proof.
  intros rematch w m k v name H D N. rewrite C131_set by assumption. destruct (String.eqb_spec (strip name) k) as [<-|_]; [|reflexivity].
  exfalso. apply N. apply strip_idem.
Qed.
Print Assumptions C131_blank_refuted.
Example C131_blank_refuted_ex : strip "kp1 " <> "kp1 ". Proof. discriminate. Qed.

(** Refuted: maps do not affect each other or the caller's dictionary; those made from one
    dictionary that is not empty share it, and one made from an empty one does not see what
    is put in it later. *)
Theorem C131_shared_refuted : exists w k v,
  (let '(w1, m1) := new_map w (Some 0) None in let '(w2, m2) := new_map w1 (Some 0) None in
   forall rematch, look rematch w2 m2 k = Raise KeyError /\ look rematch (set_item w2 m1 k v) m2 k = Ok v /\ dget (at_ (set_item w2 m1 k v) 0) k = Some v) /\
  (let '(w1, m1) := new_map [[]] (Some 0) None in forall rematch, look rematch (upd w1 0 (fun d => dset d k v)) m1 k = Raise KeyError).
Proof. exists [[("a", "b")]], "x", "y". cbn. repeat split. Qed.
Print Assumptions C131_shared_refuted.

(** Refuted: of two patterns that match, the one given first is used. *)
Theorem C131_first_refuted : exists rematch k1 v1 k2 v2 name, rematch k1 name = true /\ rematch k2 name = true /\ v1 <> v2 /\
  get rematch [] [(k1, v1); (k2, v2)] name = get rematch [] [(k2, v2); (k1, v1)] name /\ get rematch [] [(k1, v1); (k2, v2)] name = Ok (v2 ++ "/" ++ name ++ ".gz")%string.
Proof. exists prefix, "kp2", "mine", "kp", "all", "kp21". repeat split. discriminate. Qed.
Print Assumptions C131_first_refuted.
