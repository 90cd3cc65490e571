(** C137: setting many conditions at once. *)
From Coq Require Import List Bool String Ascii QArith Lia.
From Verif Require Import Base Obs CondSet.
Import ListNotations.
Open Scope string_scope.
Open Scope list_scope.
Open Scope nat_scope.

(** A name that does not begin with an underscore. *)
Definition public (n : string) : Prop := match n with String c _ => c <> "_"%char | EmptyString => True end.

Section P.
Context {M : Type}.
Variable fit : M -> M.
Notation value := (value M).
Notation state := (state M).

(** What is read back: a map in the resolution of the conditions. *)
Definition seen (n : string) (v : value) : value :=
  match v with VMap m => if String.eqb n "slewtime" then VMap (fit m) else v | _ => v end.
Definition dict_name (n : string) : Prop := n = "skybrightness" \/ n = "fwhm_eff".

(** One attribute replaces another: filters give the bands. *)
Definition overrides (m n : string) : Prop :=
  m = n \/ m = "mjd" \/ (m = "current_filter" /\ n = "current_band") \/ (m = "mounted_filters" /\ n = "mounted_bands").

Lemma put_same : forall (st : state) n v, put st n v n = Some v.
Proof. intros. unfold put. now rewrite String.eqb_refl. Qed.
Lemma put_other : forall (st : state) n v m, m <> n -> put st n v m = st m.
Proof. intros st n v m H. unfold put. apply String.eqb_neq in H. now rewrite H. Qed.

(** The cells a setter writes. *)
Definition writes (n : string) : list string :=
  if String.eqb n "current_filter" then ["_current_filter"; "current_band"]
  else if String.eqb n "mounted_filters" then ["_mounted_filters"; "mounted_bands"]
  else if String.eqb n "slewtime" then ["_slewtime"]
  else if String.eqb n "skybrightness" then ["_skybrightness"; "_m5_depth"]
  else if String.eqb n "fwhm_eff" then ["_fwhm_eff"; "_m5_depth"]
  else if String.eqb n "lmst" then ["_lmst"; "_HA"]
  else [n].

Ltac names n :=
  destruct (String.eqb n "current_filter") eqn:?; [|
  destruct (String.eqb n "mounted_filters") eqn:?; [|
  destruct (String.eqb n "slewtime") eqn:?; [|
  destruct (String.eqb n "skybrightness") eqn:?; [|
  destruct (String.eqb n "fwhm_eff") eqn:?; [|
  destruct (String.eqb n "lmst") eqn:?]]]]].

Lemma set_frame : forall (st : state) n v c, n <> "mjd" -> ~ In c (writes n) -> fst (setattr fit st n v) c = st c.
Proof.
  intros st n v c Hm Hc. unfold setattr. apply String.eqb_neq in Hm. destruct (mem n read_only); [reflexivity|]. rewrite Hm.
  destruct (String.eqb n "night"); [reflexivity|]. unfold writes in Hc.
  names n; repeat rewrite ?Heqb, ?Heqb0, ?Heqb1, ?Heqb2, ?Heqb3, ?Heqb4 in Hc; cbn [In] in Hc.
  1-2: destruct v; cbn [fst]; rewrite ?put_other by (intuition congruence); reflexivity.
  1: cbn [fst]; rewrite put_other by (intuition congruence); reflexivity.
  1-2: destruct v; cbn [fst]; rewrite ?put_other by (intuition congruence); reflexivity.
  all: cbn [fst]; rewrite ?put_other by (intuition congruence); reflexivity.
Qed.

Lemma cell_public : forall n m, public n -> public m -> cell n = cell m -> n = m.
Proof.
  intros n m Hn Hm H. unfold cell in H.
  destruct (mem n _), (mem m _); try (cbn in H; congruence).
  - cbn in H. destruct m as [|c r]; [discriminate|]. cbn in Hm. injection H; intros; subst; congruence.
  - cbn in H. destruct n as [|c r]; [discriminate|]. cbn in Hn. injection H; intros; subst; congruence.
Qed.

(** The cell of a public name is written by no other public name, but for the bands. *)
Lemma cell_writes : forall n m, public n -> public m -> ~ overrides m n -> ~ In (cell n) (writes m).
Proof.
  intros n m Hn Hm Ho Hi.
  assert (Nn : n <> m) by (intros ->; apply Ho; now left).
  assert (C : forall x, cell x = cell n -> public x -> x = n) by (intros x E X; symmetry; apply cell_public; auto).
  unfold writes in Hi. names m.
  all: repeat match goal with H : String.eqb _ _ = true |- _ => apply String.eqb_eq in H end; subst.
  - destruct Hi as [E|[E|[]]]; [apply Nn; symmetry; apply (C "current_filter"); [exact E|cbn; discriminate]|].
    apply Ho. right. right. left. split; [reflexivity|]. symmetry. apply (C "current_band"); [exact E|cbn; discriminate].
  - destruct Hi as [E|[E|[]]]; [apply Nn; symmetry; apply (C "mounted_filters"); [exact E|cbn; discriminate]|].
    apply Ho. right. right. right. split; [reflexivity|]. symmetry. apply (C "mounted_bands"); [exact E|cbn; discriminate].
  - destruct Hi as [E|[]]. apply Nn. symmetry. apply (C "slewtime"); [exact E|cbn; discriminate].
  - destruct Hi as [E|[E|[]]]; [apply Nn; symmetry; apply (C "skybrightness"); [exact E|cbn; discriminate]|].
    unfold cell in E. destruct (mem n _) eqn:Em; [|subst n; cbn in Hn; congruence].
    cbn in E. injection E as E. subst n. discriminate.
  - destruct Hi as [E|[E|[]]]; [apply Nn; symmetry; apply (C "fwhm_eff"); [exact E|cbn; discriminate]|].
    unfold cell in E. destruct (mem n _) eqn:Em; [|subst n; cbn in Hn; congruence].
    cbn in E. injection E as E. subst n. discriminate.
  - destruct Hi as [E|[E|[]]]; [apply Nn; symmetry; apply (C "lmst"); [exact E|cbn; discriminate]|].
    unfold cell in E. destruct (mem n _) eqn:Em; [|subst n; cbn in Hn; congruence].
    cbn in E. injection E as E. subst n. discriminate.
  - destruct Hi as [E|[]]. unfold cell in E. destruct (mem n _) eqn:Em; [|congruence]. rewrite E in Hm. cbn in Hm. congruence.
Qed.

Lemma set_reads : forall (st st' : state) n v, public n -> n <> "night" -> ~ dict_name n ->
  setattr fit st n v = (st', Ok tt) -> getattr st' n = Some (seen n v).
Proof.
  intros st st' n v Hn Hni Hd H. unfold setattr in H. destruct (mem n read_only); [discriminate|].
  destruct (String.eqb n "mjd") eqn:Em.
  { apply String.eqb_eq in Em. subst n. inversion H. unfold getattr. cbn [cell]. change (cell "mjd") with "_mjd". rewrite put_same. f_equal. unfold seen. destruct v; reflexivity. }
  apply String.eqb_neq in Hni. rewrite Hni in H. unfold getattr.
  names n; repeat match goal with H0 : String.eqb _ _ = true |- _ => apply String.eqb_eq in H0 end; subst.
  - destruct v; try discriminate. inversion H. change (cell "current_filter") with "_current_filter". rewrite put_other by discriminate. rewrite put_same. reflexivity.
  - destruct v; try discriminate. inversion H. change (cell "mounted_filters") with "_mounted_filters". rewrite put_other by discriminate. rewrite put_same. reflexivity.
  - inversion H. change (cell "slewtime") with "_slewtime". rewrite put_same. unfold seen. destruct v; reflexivity.
  - exfalso. apply Hd. now left.
  - exfalso. apply Hd. now right.
  - inversion H. change (cell "lmst") with "_lmst". rewrite put_other by discriminate. rewrite put_same. unfold seen. destruct v; reflexivity.
  - inversion H. assert (C : cell n = n).
    { unfold cell. cbn [mem existsb]. rewrite Em, Heqb, Heqb0, Heqb1, Heqb2, Heqb3, Heqb4. reflexivity. }
    rewrite C, put_same. unfold seen. rewrite Heqb1. destruct v; reflexivity.
Qed.

Lemma set_app : forall a b (st : state), set_attrs fit st (a ++ b) =
  match set_attrs fit st a with (st1, Ok _) => set_attrs fit st1 b | (st1, Raise e) => (st1, Raise e) end.
Proof.
  induction a as [|[n v] a IH]; intros b st; cbn [app set_attrs]; [reflexivity|].
  destruct (setattr fit st n v) as [st1 [u|e]]; [apply IH|reflexivity].
Qed.
Lemma set_attrs_frame : forall kw (st st' : state) c, set_attrs fit st kw = (st', Ok tt) ->
  (forall m, In m (map fst kw) -> m <> "mjd" /\ ~ In c (writes m)) -> st' c = st c.
Proof.
  induction kw as [|[n v] kw IH]; intros st st' c H Hm; cbn [set_attrs] in H; [now inversion H|].
  destruct (setattr fit st n v) as [st1 [u|e]] eqn:E; [|discriminate].
  rewrite (IH _ _ _ H) by (intros m Im; apply Hm; now right).
  destruct (Hm n (or_introl eq_refl)) as [H1 H2]. rewrite <- (set_frame st n v c H1 H2), E. reflexivity.
Qed.

(** ** C137 *)

(** An attribute set by [set_attrs] is what was given, when no later one replaces it. *)
Theorem C137_read : forall (st st' : state) before n v after,
  set_attrs fit st (before ++ (n, v) :: after) = (st', Ok tt) ->
  public n -> n <> "night" -> ~ dict_name n ->
  (forall m, In m (map fst after) -> public m /\ ~ overrides m n) ->
  getattr st' n = Some (seen n v).
Proof.
  intros st st' before n v after H Hn Hni Hd Ha. rewrite set_app in H.
  destruct (set_attrs fit st before) as [st0 [u|e]]; [|discriminate]. cbn [set_attrs] in H.
  destruct (setattr fit st0 n v) as [st1 [u1|e]] eqn:E; [|discriminate]. destruct u1.
  unfold getattr. rewrite (set_attrs_frame _ _ _ (cell n) H).
  - apply (set_reads st0 st1 n v Hn Hni Hd E).
  - intros m Im. destruct (Ha m Im) as [A1 A2]. split; [intros ->; apply A2; right; now left|]. now apply cell_writes.
Qed.

(** Dictionaries of maps: every band given is read back, in the resolution of the
    conditions; other bands are as they were. *)
Lemma get_put : forall k k' (m : M) l, dict_get k (dict_put k' m l) = if String.eqb k' k then Some m else dict_get k l.
Proof.
  induction l as [|[a x] l IH]; cbn; [reflexivity|]. destruct (String.eqb a k') eqn:E.
  - apply String.eqb_eq in E. subst a. cbn. destruct (String.eqb k' k); reflexivity.
  - cbn. rewrite IH. destruct (String.eqb a k) eqn:E2; [|reflexivity]. apply String.eqb_eq in E2. subst. rewrite String.eqb_sym, E. reflexivity.
Qed.
Lemma get_merge : forall new old k, NoDup (map fst new) ->
  dict_get k (dict_merge fit new old) = match dict_get k new with Some m => Some (fit m) | None => dict_get k old end.
Proof.
  unfold dict_merge. induction new as [|[a x] new IH]; intros old k Nd; cbn; [reflexivity|].
  inversion Nd; subst. rewrite IH by assumption. rewrite get_put. destruct (String.eqb a k) eqn:E; [|reflexivity].
  apply String.eqb_eq in E. subst a. cbn in H1.
  assert (K : dict_get k new = None).
  { clear - H1. induction new as [|[b y] new IH]; [reflexivity|]. cbn in *. destruct (String.eqb b k) eqn:E; [apply String.eqb_eq in E; tauto|]. apply IH. tauto. }
  rewrite K. reflexivity.
Qed.

(** ** The two functions for a telescope *)
Definition leaves (names : list string) : Prop :=
  exists rest, names = "mjd" :: rest /\ ~ In "mjd" rest /\ NoDup names /\ Forall public names /\
    ~ In "current_band" names /\ ~ In "mounted_bands" names.
Fixpoint distinct (l : list string) : bool := match l with [] => true | x :: r => negb (mem x r) && distinct r end.
Lemma mem_false : forall n l, mem n l = false -> ~ In n l.
Proof.
  intros n l H I. assert (mem n l = true) by (apply existsb_exists; exists n; split; [exact I|apply String.eqb_refl]). congruence.
Qed.
Lemma distinct_nodup : forall l, distinct l = true -> NoDup l.
Proof.
  induction l as [|x r IH]; intros H; constructor; cbn in H; apply andb_true_iff in H as [H1 H2]; [apply negb_true_iff in H1; now apply mem_false|auto].
Qed.
Lemma maintel_leaves : leaves maintel_names.
Proof.
  exists (tl maintel_names). split; [reflexivity|]. split; [apply mem_false; reflexivity|]. split; [apply distinct_nodup; reflexivity|].
  split; [repeat constructor; cbn; discriminate|]. split; apply mem_false; reflexivity.
Qed.
Lemma auxtel_leaves : leaves auxtel_names.
Proof.
  eexists. split; [reflexivity|]. split; [cbn; intuition discriminate|]. split.
  - repeat constructor; cbn; intuition discriminate.
  - split; [repeat constructor; cbn; discriminate|]. split; cbn; intuition discriminate.
Qed.

(** The further keyword arguments: public names that are no parameters. *)
Definition further (names : list string) (kwargs : list (string * value)) : Prop :=
  Forall (fun p => public (fst p) /\ ~ In (fst p) names /\ fst p <> "current_filter" /\ fst p <> "mounted_filters") kwargs.

Definition asked (names : list string) (kwargs : list (string * value)) : list string := names ++ map fst kwargs.

Lemma info_read : forall names args kwargs (st st' : state), leaves names -> further names kwargs ->
  set_info fit names args kwargs st = (st', Ok tt) ->
  forall n, In n names -> n <> "night" -> ~ dict_name n -> getattr st' n = Some (seen n (args n)).
Proof.
  intros names args kwargs st st' (rest & En & Nm & Nd & Pu & Cb & Mb) Fu H n Hn Hni Hd. unfold set_info in H.
  set (fs := filter (fun n => negb (String.eqb n "night")) names) in H.
  assert (I : In n fs) by (apply filter_In; split; [exact Hn|]; apply negb_true_iff, String.eqb_neq; exact Hni).
  destruct (in_split n fs I) as (l1 & l2 & E). rewrite E, map_app in H. cbn [map] in H. rewrite <- app_assoc in H. cbn [app] in H.
  rewrite Forall_forall in Pu. assert (Nf : NoDup fs) by (apply NoDup_filter; exact Nd).
  apply (C137_read _ _ _ _ _ _ H); [now apply Pu|exact Hni|exact Hd|].
  intros m Im. rewrite map_app in Im. apply in_app_or in Im as [Im|Im].
  - rewrite map_map in Im. cbn in Im. rewrite map_id in Im.
    assert (Im2 : In m fs) by (rewrite E; apply in_or_app; right; now right). apply filter_In in Im2 as [Im2 _].
    split; [now apply Pu|]. intros [->|[->|[[-> ->]|[-> ->]]]]; [| |exact (Cb Hn)|exact (Mb Hn)].
    + rewrite E in Nf. apply NoDup_remove_2 in Nf. apply Nf, in_or_app. now right.
    + assert (E1 : fs = "mjd" :: filter (fun n => negb (String.eqb n "night")) rest) by (unfold fs; rewrite En; reflexivity).
      rewrite E1 in E. destruct l1 as [|x l1].
      * injection E; intros El _. rewrite <- El in Im. apply filter_In in Im as [Im _]. now apply Nm.
      * injection E; intros El _. assert (K : In "mjd" (filter (fun n => negb (String.eqb n "night")) rest)) by (rewrite El; apply in_or_app; right; now right).
        apply filter_In in K as [K _]. now apply Nm.
  - apply in_map_iff in Im as ([m' w] & Em & Iw). cbn in Em. subst m'. apply filter_In in Iw as [Iw _]. unfold further in Fu; rewrite Forall_forall in Fu.
    destruct (Fu _ Iw) as (F1 & F2 & F3 & F4). cbn in F1, F2, F3, F4. split; [exact F1|].
    intros [->|[->|[[-> _]|[-> _]]]]; [exact (F2 Hn)| |tauto|tauto]. apply F2. rewrite En. now left.
Qed.

Lemma init_cell : forall (st : state) c, In c emptied -> ~ In c cleared -> init_attributes st c = Some (VMaps []).
Proof.
  intros st c H H2. unfold init_attributes. destruct (mem c cleared) eqn:E.
  - exfalso. apply H2. apply existsb_exists in E as (x & Ix & E). apply String.eqb_eq in E. now subst.
  - assert (K : mem c emptied = true) by (apply existsb_exists; exists c; split; [exact H|apply String.eqb_refl]). now rewrite K.
Qed.

(** The state just before and just after a parameter is set. *)
Lemma info_split : forall names args kwargs (st st' : state), leaves names -> further names kwargs ->
  set_info fit names args kwargs st = (st', Ok tt) ->
  forall n, In n names -> n <> "night" -> n <> "mjd" ->
  exists l1 l2 st0 st1,
    set_attrs fit (put (init_attributes (init_attributes st)) "_mjd" (args "mjd")) l1 = (st0, Ok tt) /\
    setattr fit st0 n (args n) = (st1, Ok tt) /\ set_attrs fit st1 l2 = (st', Ok tt) /\
    (forall m, In m (map fst l1) \/ In m (map fst l2) -> In m (asked names kwargs) /\ m <> "mjd" /\ m <> n /\ public m).
Proof.
  intros names args kwargs st st' (rest & En & Nm & Nd & Pu & Cb & Mb) Fu H n Hn Hni Hnm. unfold set_info in H.
  set (fs := filter (fun n => negb (String.eqb n "night")) names) in H.
  assert (E1 : fs = "mjd" :: filter (fun n => negb (String.eqb n "night")) rest) by (unfold fs; rewrite En; reflexivity).
  assert (Nf : NoDup fs) by (apply NoDup_filter; exact Nd).
  assert (I : In n fs) by (apply filter_In; split; [exact Hn|]; apply negb_true_iff, String.eqb_neq; exact Hni).
  rewrite E1 in I, H, Nf. destruct I as [I|I]; [congruence|].
  set (gs := filter (fun n => negb (String.eqb n "night")) rest) in *.
  destruct (in_split n gs I) as (l1 & l2 & E). rewrite E in H, Nf.
  cbn [map app set_attrs] in H. unfold setattr in H at 1. change (mem "mjd" read_only) with false in H. change (String.eqb "mjd" "mjd") with true in H. cbv iota in H.
  rewrite map_app in H. cbn [map] in H. rewrite <- app_assoc in H. cbn [app] in H. rewrite set_app in H.
  match type of H with match set_attrs _ ?s0 ?a with _ => _ end = _ => destruct (set_attrs fit s0 a) as [st0 [[]|e]] eqn:S0; [|discriminate] end.
  cbn [set_attrs] in H. destruct (setattr fit st0 n (args n)) as [st1 [[]|e]] eqn:S1; [|discriminate].
  eexists _, _, st0, st1. split; [exact S0|]. split; [exact S1|]. split; [exact H|].
  rewrite Forall_forall in Pu. unfold further in Fu. rewrite Forall_forall in Fu.
  assert (G : forall m, In m (l1 ++ l2) -> In m (asked names kwargs) /\ m <> "mjd" /\ m <> n /\ public m).
  { intros m Im. assert (Ig : In m gs) by (rewrite E; apply in_app_or in Im; apply in_or_app; cbn; tauto).
    assert (Ir : In m rest) by (unfold gs in Ig; apply filter_In in Ig; tauto).
    assert (In1 : In m names) by (rewrite En; now right).
    split; [apply in_or_app; now left|]. split; [intros ->; tauto|]. split; [|now apply Pu].
    intros ->. inversion Nf; subst. now apply NoDup_remove_2 in H3. }
  intros m [Im|Im].
  - rewrite map_map in Im. cbn in Im. rewrite map_id in Im. apply G, in_or_app. now left.
  - rewrite map_app, map_map in Im. cbn in Im. rewrite map_id in Im. apply in_app_or in Im as [Im|Im]; [apply G, in_or_app; now right|].
    apply in_map_iff in Im as ([m' w] & Em & Iw). cbn in Em. subst m'. apply filter_In in Iw as [Iw _].
    destruct (Fu _ Iw) as (F1 & F2 & _). cbn in F1, F2.
    split; [apply in_or_app; right; apply in_map_iff; exists (m, w); tauto|].
    split; [intros ->; apply F2; rewrite En; now left|]. split; [intros ->; exact (F2 Hn)|exact F1].
Qed.

(** Every parameter but night is read back as it was given. *)
Theorem C137_maintel : forall args kwargs (st st' : state), further maintel_names kwargs ->
  set_maintel_info fit args kwargs st = (st', Ok tt) ->
  forall n, In n maintel_names -> n <> "night" -> ~ dict_name n -> getattr st' n = Some (seen n (args n)).
Proof. intros args kwargs st st'. apply info_read. apply maintel_leaves. Qed.
Theorem C137_auxtel : forall args kwargs (st st' : state), further auxtel_names kwargs ->
  set_auxtel_info fit args kwargs st = (st', Ok tt) ->
  forall n, In n auxtel_names -> getattr st' n = Some (seen n (args n)).
Proof.
  intros args kwargs st st' F H n Hn. apply (info_read auxtel_names args kwargs st st' auxtel_leaves F H n Hn).
  - intros ->. cbn in Hn. intuition discriminate.
  - intros [->| ->]; cbn in Hn; intuition discriminate.
Qed.

Lemma set_sky : forall (st : state) l, setattr fit st "skybrightness" (VMaps l) =
  (put (put st "_skybrightness" (VMaps (dict_merge fit l (dict_of st "_skybrightness")))) "_m5_depth" VNone, Ok tt).
Proof. reflexivity. Qed.
Lemma set_fwhm : forall (st : state) l, setattr fit st "fwhm_eff" (VMaps l) =
  (put (put st "_fwhm_eff" (VMaps (dict_merge fit l (dict_of st "_fwhm_eff")))) "_m5_depth" VNone, Ok tt).
Proof. reflexivity. Qed.
Lemma set_filter : forall (st : state) f, setattr fit st "current_filter" (VStr f) =
  (put (put st "_current_filter" (VStr f)) "current_band" (VStr (head_ f)), Ok tt).
Proof. reflexivity. Qed.
Lemma set_filters : forall (st : state) f, setattr fit st "mounted_filters" (VStrs f) =
  (put (put st "_mounted_filters" (VStrs f)) "mounted_bands" (VStrs (map head_ f)), Ok tt).
Proof. reflexivity. Qed.

Lemma main_split : forall args kwargs (st st' : state), further maintel_names kwargs ->
  set_maintel_info fit args kwargs st = (st', Ok tt) ->
  forall n, In n maintel_names -> n <> "night" -> n <> "mjd" ->
  exists l1 l2 st0 st1,
    set_attrs fit (put (init_attributes (init_attributes st)) "_mjd" (args "mjd")) l1 = (st0, Ok tt) /\
    setattr fit st0 n (args n) = (st1, Ok tt) /\ set_attrs fit st1 l2 = (st', Ok tt) /\
    (forall m, In m (map fst l1) \/ In m (map fst l2) -> In m (asked maintel_names kwargs) /\ m <> "mjd" /\ m <> n /\ public m).
Proof. intros args kwargs st st'. apply info_split. apply maintel_leaves. Qed.

Lemma set_merge : forall (st st1 : state) n l, dict_name n -> setattr fit st n (VMaps l) = (st1, Ok tt) ->
  st (cell n) = Some (VMaps []) -> st1 (cell n) = Some (VMaps (dict_merge fit l [])).
Proof.
  intros st st1 n l [->| ->] H D.
  - rewrite set_sky in H. change (cell "skybrightness") with "_skybrightness" in *. unfold dict_of in H. rewrite D in H.
    apply (f_equal fst) in H. cbn [fst] in H. rewrite <- H. rewrite put_other by discriminate. apply put_same.
  - rewrite set_fwhm in H. change (cell "fwhm_eff") with "_fwhm_eff" in *. unfold dict_of in H. rewrite D in H.
    apply (f_equal fst) in H. cbn [fst] in H. rewrite <- H. rewrite put_other by discriminate. apply put_same.
Qed.
Lemma mjd_empty : forall (st : state) v n, dict_name n -> put (init_attributes (init_attributes st)) "_mjd" v (cell n) = Some (VMaps []).
Proof. intros st v n [->| ->]; reflexivity. Qed.
Lemma dict_main : forall n, dict_name n -> In n maintel_names /\ public n /\ n <> "night" /\ n <> "mjd" /\ n <> "current_band" /\ n <> "mounted_bands".
Proof. intros n [->| ->]; (split; [cbn; tauto|]); repeat split; cbn; discriminate. Qed.

(** The maps of the sky and of the seeing have the bands given and no others. *)
Theorem C137_maps : forall args kwargs (st st' : state) n l, further maintel_names kwargs ->
  set_maintel_info fit args kwargs st = (st', Ok tt) ->
  dict_name n -> args n = VMaps l -> NoDup (map fst l) ->
  exists d, getattr st' n = Some (VMaps d) /\ forall k, dict_get k d = option_map fit (dict_get k l).
Proof.
  intros args kwargs st st' n l Fu H Hn Ha Nd.
  destruct (dict_main n Hn) as (In1 & P & N1 & N2 & N3 & N4).
  destruct (main_split _ _ _ _ Fu H n In1 N1 N2) as (l1 & l2 & st0 & st1 & H1 & H2 & H3 & H4).
  assert (Fr : forall m, In m (map fst l1) \/ In m (map fst l2) -> m <> "mjd" /\ ~ In (cell n) (writes m)).
  { intros m Im. destruct (H4 m Im) as (_ & A & B & C). split; [exact A|]. apply cell_writes; [exact P|exact C|].
    intros [E|[E|[[_ E]|[_ E]]]]; tauto. }
  exists (dict_merge fit l []). split.
  - unfold getattr. rewrite (set_attrs_frame _ _ _ (cell n) H3) by (intros m Im; apply Fr; now right).
    rewrite Ha in H2. apply (set_merge st0 st1 n l Hn H2).
    rewrite (set_attrs_frame _ _ _ (cell n) H1) by (intros m Im; apply Fr; now left). now apply mjd_empty.
  - intros k. rewrite get_merge by exact Nd. destruct (dict_get k l); reflexivity.
Qed.

(** The bands are the names of the filters up to the underscore. *)
Theorem C137_main_bands : forall args kwargs (st st' : state) f fs, further maintel_names kwargs ->
  ~ In "current_band" (map fst kwargs) -> ~ In "mounted_bands" (map fst kwargs) ->
  set_maintel_info fit args kwargs st = (st', Ok tt) ->
  args "current_filter" = VStr f -> args "mounted_filters" = VStrs fs ->
  getattr st' "current_band" = Some (VStr (head_ f)) /\ getattr st' "mounted_bands" = Some (VStrs (map head_ fs)).
Proof.
  intros args kwargs st st' f fs Fu K1 K2 H A1 A2. split.
  - destruct (main_split _ _ _ _ Fu H "current_filter") as (l1 & l2 & st0 & st1 & H1 & H2 & H3 & H4); [cbn; tauto|discriminate|discriminate|].
    unfold getattr. change (cell "current_band") with "current_band". rewrite (set_attrs_frame _ _ _ "current_band" H3).
    + rewrite A1 in H2. rewrite set_filter in H2. inversion H2. apply put_same.
    + intros m Im. destruct (H4 m (or_intror Im)) as (A & B & C & D). split; [exact B|].
      change "current_band" with (cell "current_band"). apply cell_writes; [cbn; discriminate|exact D|].
      intros [->|[->|[[-> _]|[-> E]]]]; try tauto; [|discriminate]. apply in_app_or in A as [A|A]; [|tauto]. cbn in A. intuition discriminate.
  - destruct (main_split _ _ _ _ Fu H "mounted_filters") as (l1 & l2 & st0 & st1 & H1 & H2 & H3 & H4); [cbn; tauto|discriminate|discriminate|].
    unfold getattr. change (cell "mounted_bands") with "mounted_bands". rewrite (set_attrs_frame _ _ _ "mounted_bands" H3).
    + rewrite A2 in H2. rewrite set_filters in H2. inversion H2. apply put_same.
    + intros m Im. destruct (H4 m (or_intror Im)) as (A & B & C & D). split; [exact B|].
      change "mounted_bands" with (cell "mounted_bands"). apply cell_writes; [cbn; discriminate|exact D|].
      intros [->|[->|[[-> E]|[-> _]]]]; try tauto; [|discriminate]. apply in_app_or in A as [A|A]; [|tauto]. cbn in A. intuition discriminate.
Qed.

(** Given values of the right kinds nothing is refused. *)
Definition kinds (args : string -> value) : Prop :=
  (exists f, args "current_filter" = VStr f) /\ (exists fs, args "mounted_filters" = VStrs fs) /\
  (exists l, args "skybrightness" = VMaps l) /\ (exists l, args "fwhm_eff" = VMaps l).
Lemma set_ok : forall kw (st : state),
  Forall (fun p => mem (fst p) read_only = false /\
    (fst p = "current_filter" -> exists f, snd p = VStr f) /\ (fst p = "mounted_filters" -> exists f, snd p = VStrs f) /\
    (dict_name (fst p) -> exists l, snd p = VMaps l)) kw -> snd (set_attrs fit st kw) = Ok tt.
Proof.
  induction kw as [|[n v] kw IH]; intros st F; [reflexivity|]. inversion F as [|? ? (A & B & C & D) F']; subst. cbn [fst snd] in *. cbn [set_attrs].
  assert (S1 : exists st1, setattr fit st n v = (st1, Ok tt)).
  { unfold setattr. rewrite A. destruct (String.eqb n "mjd"); [eexists; reflexivity|]. destruct (String.eqb n "night"); [eexists; reflexivity|].
    names n; repeat match goal with H : String.eqb _ _ = true |- _ => apply String.eqb_eq in H end; subst.
    - destruct (B eq_refl) as [f ->]. eexists; reflexivity.
    - destruct (C eq_refl) as [f ->]. eexists; reflexivity.
    - eexists; reflexivity.
    - destruct (D (or_introl eq_refl)) as [f ->]. eexists; reflexivity.
    - destruct (D (or_intror eq_refl)) as [f ->]. eexists; reflexivity.
    - eexists; reflexivity.
    - eexists; reflexivity. }
  destruct S1 as [st1 ->]. now apply IH.
Qed.
Lemma main_writable : forall n, In n maintel_names -> mem n read_only = false.
Proof.
  intros n H. assert (K : forallb (fun n => negb (mem n read_only)) maintel_names = true) by reflexivity.
  rewrite forallb_forall in K. now apply negb_true_iff, K.
Qed.
Theorem C137_taken : forall args kwargs (st : state), further maintel_names kwargs -> kinds args ->
  Forall (fun p => ~ In (fst p) read_only) kwargs -> snd (set_maintel_info fit args kwargs st) = Ok tt.
Proof.
  intros args kwargs st Fu (K1 & K2 & K3 & K4) Ro. unfold set_maintel_info, set_info. apply set_ok. apply Forall_app. split.
  - apply Forall_forall. intros p Ip. apply in_map_iff in Ip as (n & <- & Ip). apply filter_In in Ip as [Ip _]. cbn [fst snd].
    split; [now apply main_writable|]. split; [intros ->; exact K1|]. split; [intros ->; exact K2|]. intros [->| ->]; [exact K3|exact K4].
  - unfold further in Fu. rewrite Forall_forall in *. intros p Ip. apply filter_In in Ip as [Ip _]. destruct (Fu p Ip) as (F1 & F2 & F3 & F4).
    split; [|split; [tauto|split; [tauto|]]].
    + destruct (mem (fst p) read_only) eqn:E; [|reflexivity]. exfalso. apply (Ro p Ip). apply existsb_exists in E as (x & Ix & E). apply String.eqb_eq in E. now rewrite E.
    + intros [E|E]; exfalso; apply F2; rewrite E; cbn; tauto.
Qed.

(** So are the further arguments. *)
Theorem C137_further : forall names args k1 n v k2 (st st' : state), further names (k1 ++ (n, v) :: k2) ->
  In "skybrightness" names /\ In "fwhm_eff" names \/ ~ dict_name n -> ~ In n (map fst k2) -> n <> "night" -> In "mjd" names ->
  set_info fit names args (k1 ++ (n, v) :: k2) st = (st', Ok tt) -> getattr st' n = Some (seen n v).
Proof.
  intros names args k1 n v k2 st st' Fu Dn Nk Nn Mj H. unfold set_info in H. rewrite filter_app in H. cbn [filter fst] in H.
  apply String.eqb_neq in Nn. rewrite Nn in H. apply String.eqb_neq in Nn. cbn [negb] in H. rewrite app_assoc in H.
  unfold further in Fu. rewrite Forall_forall in Fu. destruct (Fu (n, v)) as (F1 & F2 & F3 & F4); [apply in_or_app; right; now left|]. cbn [fst] in *.
  apply (C137_read _ _ _ _ _ _ H); [exact F1|exact Nn|destruct Dn as [[D1 D2]|D]; [intros [->| ->]; tauto|exact D]|].
  intros m Im. apply in_map_iff in Im as ([m' w] & Em & Iw). cbn in Em. subst m'. apply filter_In in Iw as [Iw _].
  destruct (Fu (m, w)) as (G1 & G2 & G3 & G4); [apply in_or_app; right; now right|]. cbn [fst] in *. split; [exact G1|].
  intros [->|[->|[[-> _]|[-> _]]]]; try tauto. apply Nk. apply in_map_iff. exists (n, w). tauto.
Qed.

(** Nothing is left from before: an attribute of the conditions that was not asked
    for is empty. *)
Theorem C137_fresh : forall names args kwargs (st st' : state),
  names = maintel_names \/ names = auxtel_names -> further names kwargs ->
  set_info fit names args kwargs st = (st', Ok tt) ->
  forall c, In c cleared -> (forall n, In n (asked names kwargs) -> n <> "mjd" -> ~ In c (writes n)) -> c <> "_mjd" -> st' c = Some VNone.
Proof.
  intros names args kwargs st st' Hn Fu H c Hc Hw Hm.
  assert (L : leaves names) by (destruct Hn; subst; [apply maintel_leaves|apply auxtel_leaves]).
  destruct L as (rest & En & Nm & Nd & Pu & _). unfold set_info in H.
  assert (E1 : filter (fun n => negb (String.eqb n "night")) names = "mjd" :: filter (fun n => negb (String.eqb n "night")) rest) by (rewrite En; reflexivity).
  rewrite E1 in H. cbn [map app set_attrs] in H. unfold setattr in H at 1. change (mem "mjd" read_only) with false in H. change (String.eqb "mjd" "mjd") with true in H. cbv iota in H.
  rewrite (set_attrs_frame _ _ _ c H).
  - rewrite put_other by exact Hm. unfold init_attributes. assert (K : mem c cleared = true) by (apply existsb_exists; exists c; split; [exact Hc|apply String.eqb_refl]). now rewrite K.
  - intros m Im. assert (A : In m (asked names kwargs) /\ m <> "mjd").
    { rewrite map_app in Im. apply in_app_or in Im as [Im|Im].
      - rewrite map_map in Im. cbn in Im. rewrite map_id in Im. apply filter_In in Im as [Im _]. split.
        + apply in_or_app. left. rewrite En. now right.
        + intros ->. now apply Nm.
      - apply in_map_iff in Im as ([m' w] & Em & Iw). cbn in Em. subst m'. apply filter_In in Iw as [Iw _]. split.
        + apply in_or_app. right. apply in_map_iff. exists (m, w). tauto.
        + unfold further in Fu; rewrite Forall_forall in Fu. destruct (Fu _ Iw) as (_ & F2 & _). cbn in F2. intros ->. apply F2. rewrite En. now left. }
    split; [apply A|]. apply Hw; apply A.
Qed.

(** What the conditions were before does not matter, but for attributes of no
    condition. *)
Lemma set_ext : forall n v (st st2 : state), (forall c, st c = st2 c) ->
  snd (setattr fit st n v) = snd (setattr fit st2 n v) /\ forall c, fst (setattr fit st n v) c = fst (setattr fit st2 n v) c.
Proof.
  intros n v st st2 H.
  assert (P : forall (a b : state) k w, (forall c, a c = b c) -> forall c, put a k w c = put b k w c) by (intros a b k w E c; unfold put; destruct (String.eqb c k); auto).
  assert (D : forall k, dict_of st k = dict_of st2 k) by (intros k; unfold dict_of; now rewrite H).
  unfold setattr. destruct (mem n read_only); [split; [reflexivity|exact H]|].
  destruct (String.eqb n "mjd"). { split; [reflexivity|]. cbn [fst]. apply P. intros c. unfold init_attributes. now rewrite H. }
  destruct (String.eqb n "night"); [split; [reflexivity|exact H]|].
  names n.
  1-2: destruct v; (split; [reflexivity|cbn [fst]; auto]).
  1: split; [reflexivity|cbn [fst]; auto].
  1-2: rewrite D; destruct v; (split; [reflexivity|cbn [fst]; auto]).
  all: split; [reflexivity|cbn [fst]; auto].
Qed.
Lemma set_attrs_ext : forall kw (st st2 : state), (forall c, st c = st2 c) ->
  snd (set_attrs fit st kw) = snd (set_attrs fit st2 kw) /\ forall c, fst (set_attrs fit st kw) c = fst (set_attrs fit st2 kw) c.
Proof.
  induction kw as [|[n v] kw IH]; intros st st2 H; [split; [reflexivity|exact H]|]. cbn [set_attrs].
  destruct (set_ext n v st st2 H) as [E F]. destruct (setattr fit st n v) as [a x], (setattr fit st2 n v) as [b y]. cbn [fst snd] in E, F. subst y.
  destruct x; [now apply IH|]. split; [reflexivity|exact F].
Qed.
Theorem C137_before : forall names args kwargs (st st2 : state),
  (forall c, ~ In c cleared -> ~ In c emptied -> st c = st2 c) ->
  snd (set_info fit names args kwargs st) = snd (set_info fit names args kwargs st2) /\
  forall c, fst (set_info fit names args kwargs st) c = fst (set_info fit names args kwargs st2) c.
Proof.
  intros names args kwargs st st2 H. unfold set_info. apply set_attrs_ext. intros c. unfold init_attributes.
  destruct (mem c cleared) eqn:E1; [reflexivity|]. destruct (mem c emptied) eqn:E2; [reflexivity|]. apply H; now apply mem_false.
Qed.

(** A change of the time leaves no condition as it was. *)
Theorem C137_time : forall (st st' : state) v c, setattr fit st "mjd" v = (st', Ok tt) ->
  st' "_mjd" = Some v /\ (In c cleared -> c <> "_mjd" -> st' c = Some VNone) /\ (In c emptied -> st' c = Some (VMaps [])).
Proof.
  intros st st' v c H. assert (E : st' = put (init_attributes st) "_mjd" v) by (unfold setattr in H; change (mem "mjd" read_only) with false in H; change (String.eqb "mjd" "mjd") with true in H; cbv iota in H; now apply (f_equal fst) in H).
  subst st'. split; [apply put_same|]. split.
  - intros I N. rewrite put_other by exact N. unfold init_attributes.
    assert (K : mem c cleared = true) by (apply existsb_exists; exists c; split; [exact I|apply String.eqb_refl]). now rewrite K.
  - intros [<-|[<-|[]]]; reflexivity.
Qed.

(** What the signatures name, and the values that belong to one time, told apart from the tables of the model. *)
Definition main_signature : list string :=
  ["mjd"; "slewtime"; "current_filter"; "mounted_filters"; "night"; "skybrightness"; "fwhm_eff"; "moon_alt"; "moon_az"; "moon_ra"; "moon_dec";
   "moon_phase"; "sun_alt"; "sun_az"; "sun_ra"; "sun_dec"; "tel_ra"; "tel_dec"; "tel_alt"; "tel_az"; "wind_speed"; "wind_direction";
   "sun_n12_setting"; "sun_n12_rising"; "sun_n18_setting"; "sun_n18_rising"; "moonrise"; "moonset"; "planet_positions"; "tel_alt_limits";
   "tel_az_limits"; "sky_alt_limits"; "sky_az_limits"].
Definition aux_signature : list string :=
  ["mjd"; "slewtime"; "sun_n18_setting"; "sun_n18_rising"; "moon_alt"; "moon_az"; "tel_alt_limits"; "tel_az_limits"; "sky_alt_limits"; "sky_az_limits"; "wind_speed"; "wind_direction"].
Definition of_one_time : list string :=
  ["alt"; "az"; "pa"; "slewtime"; "current_filter"; "mounted_filters"; "lmst"; "m5_depth"; "airmass"; "wind_pressure"; "HA"; "solar_elongation"; "az_to_sun"; "az_to_antisun"].
Definition of_one_time_bare : list string :=
  ["clouds"; "current_band"; "mounted_bands"; "wind_speed"; "wind_direction"; "scheduled_observations"; "queue"; "moon_alt"; "moon_az"; "moon_ra"; "moon_dec"; "moon_phase";
   "sun_alt"; "sun_az"; "sun_ra"; "sun_dec"; "sunset"; "sun_n12_setting"; "sun_n18_setting"; "sun_n18_rising"; "sun_n12_rising"; "sunrise"; "moonrise"; "moonset";
   "moon_phase_sunset"; "planet_positions"; "tel_ra"; "tel_dec"; "tel_alt"; "tel_az"; "cumulative_azimuth_rad"; "sky_az_limits"; "sky_alt_limits"; "tel_alt_limits";
   "tel_az_limits"; "cloud_maps"; "bulk_cloud"; "rot_tel_pos"; "targets_of_opportunity"].
Lemma mem_true : forall n l, In n l -> mem n l = true.
Proof. intros n l I. apply existsb_exists. exists n. split; [exact I|apply String.eqb_refl]. Qed.
Lemma mem_in : forall n l, mem n l = true -> In n l.
Proof. intros n l H. apply existsb_exists in H as (x & I & E). apply String.eqb_eq in E. now subst. Qed.
Theorem C137_signatures : forall args kwargs (st st' : state),
  (further maintel_names kwargs -> set_maintel_info fit args kwargs st = (st', Ok tt) ->
    forall n, In n main_signature -> n <> "night" -> ~ dict_name n -> getattr st' n = Some (seen n (args n))) /\
  (further auxtel_names kwargs -> set_auxtel_info fit args kwargs st = (st', Ok tt) ->
    forall n, In n aux_signature -> getattr st' n = Some (seen n (args n))).
Proof.
  intros args kwargs st st'. split; intros F H n I.
  - intros Nn Nd. apply (C137_maintel args kwargs st st' F H); [|exact Nn|exact Nd]. apply mem_in. clear Nn Nd. revert n I. apply Forall_forall.
    repeat (constructor; [reflexivity|]); constructor.
  - apply (C137_auxtel args kwargs st st' F H). apply mem_in. revert n I. apply Forall_forall. repeat (constructor; [reflexivity|]); constructor.
Qed.
(** Setting the time leaves none of the values of another time. *)
Theorem C137_all_cleared : forall (st st' : state) v, setattr fit st "mjd" v = (st', Ok tt) ->
  (forall n, In n of_one_time -> st' (String.append "_" n) = Some VNone) /\ (forall n, In n of_one_time_bare -> st' n = Some VNone) /\ st' "_skybrightness" = Some (VMaps []) /\ st' "_fwhm_eff" = Some (VMaps []).
Proof.
  intros st st' v H. split; [|split; [|split]].
  - intros n I. destruct (C137_time st st' v (String.append "_" n) H) as (_ & K & _). apply K.
    + apply mem_in. clear K. revert n I. apply Forall_forall. repeat (constructor; [reflexivity|]); constructor.
    + clear K. revert n I. apply Forall_forall. repeat (constructor; [discriminate|]); constructor.
  - intros n I. destruct (C137_time st st' v n H) as (_ & K & _). apply K.
    + apply mem_in. clear K. revert n I. apply Forall_forall. repeat (constructor; [reflexivity|]); constructor.
    + clear K. revert n I. apply Forall_forall. repeat (constructor; [discriminate|]); constructor.
  - destruct (C137_time st st' v "_skybrightness" H) as (_ & _ & K). apply K. cbn. tauto.
  - destruct (C137_time st st' v "_fwhm_eff" H) as (_ & _ & K). apply K. cbn. tauto.
Qed.

(** Refuted: all attributes are reset with the time.  One that is not among the
    conditions, set with a warning, is kept. *)
Theorem C137_extra_refuted : forall (st st1 st2 : state) n v t, public n ->
  ~ In n cleared -> ~ In n emptied -> ~ In n ["mjd"; "night"; "current_filter"; "mounted_filters"; "slewtime"; "skybrightness"; "fwhm_eff"; "lmst"] ->
  set_attrs fit st [(n, v)] = (st1, Ok tt) -> set_attrs fit st1 [("mjd", t)] = (st2, Ok tt) -> getattr st2 n = Some v.
Proof.
  intros st st1 st2 n v t Pn N1 N2 N3 H1 H2. cbn [set_attrs] in H1, H2.
  destruct (setattr fit st n v) as [a [[]|]] eqn:E1; [|discriminate]. inversion H1; subst a.
  destruct (setattr fit st1 "mjd" t) as [b [[]|]] eqn:E2; [|discriminate]. inversion H2; subst b.
  assert (R1 : getattr st1 n = Some (seen n v)).
  { apply (set_reads st st1 n v); [exact Pn| | |exact E1]; [intros ->; apply N3; cbn; tauto|intros [->| ->]; apply N3; cbn; tauto]. }
  assert (C : cell n = n).
  { unfold cell. destruct (mem n _) eqn:E; [|reflexivity]. exfalso. apply existsb_exists in E as (x & Ix & E). apply String.eqb_eq in E. subst x. apply N3. cbn in Ix |- *. tauto. }
  assert (S1 : seen n v = v).
  { unfold seen. destruct v; try reflexivity. destruct (String.eqb n "slewtime") eqn:E; [|reflexivity]. apply String.eqb_eq in E. subst. exfalso. apply N3. cbn. tauto. }
  rewrite S1 in R1. unfold getattr in *. rewrite C in *.
  unfold setattr in E2; change (mem "mjd" read_only) with false in E2; change (String.eqb "mjd" "mjd") with true in E2; cbv iota in E2. apply (f_equal fst) in E2. cbn [fst] in E2. rewrite <- E2.
  rewrite put_other by (intros ->; cbn in Pn; congruence). unfold init_attributes.
  destruct (mem n cleared) eqn:M1. { exfalso. apply N1. apply existsb_exists in M1 as (x & Ix & E). apply String.eqb_eq in E. now subst. }
  destruct (mem n emptied) eqn:M2. { exfalso. apply N2. apply existsb_exists in M2 as (x & Ix & E). apply String.eqb_eq in E. now subst. }
  exact R1.
Qed.

(** Refuted: attributes set at once may be given in any order.  Everything before
    the time is dropped, without a refusal. *)
Theorem C137_order_refuted : forall (st st' : state) before t n v,
  set_attrs fit st (before ++ [("mjd", t)]) = (st', Ok tt) -> In (n, v) before -> public n -> n <> "mjd" -> In (cell n) cleared ->
  getattr st' n = Some VNone.
Proof.
  intros st st' before t n v H I Pn Nm C. rewrite set_app in H. destruct (set_attrs fit st before) as [st1 [[]|]]; [|discriminate].
  cbn [set_attrs] in H. destruct (setattr fit st1 "mjd" t) as [st2 [[]|]] eqn:E; [|discriminate]. inversion H; subst st2.
  destruct (C137_time _ _ _ (cell n) E) as (_ & K & _). apply K; [exact C|].
  intros E2. unfold cell in E2. destruct (mem n _) eqn:Em.
  - cbn in E2. injection E2 as E2. congruence.
  - subst n. cbn in Pn. congruence.
Qed.
End P.

(** Names of filters: a band, an underscore and digits.  The scheduler drops
    underscores and digits at the end, the conditions keep what is before the
    underscore: the same. *)
Fixpoint all (f : ascii -> bool) (s : string) : bool := match s with EmptyString => true | String c r => f c && all f r end.
Lemma rstrip_all : forall s, all strippable s = true -> rstrip s = EmptyString.
Proof. induction s as [|c r IH]; intros H; [reflexivity|]. cbn in H. apply andb_true_iff in H as [H1 H2]. cbn [rstrip]. rewrite IH by exact H2. now rewrite H1. Qed.
Theorem C137_bands : forall band digits, band <> EmptyString -> all (fun c => negb (strippable c)) band = true -> all strippable digits = true ->
  head_ (String.append band (String "_" digits)) = band /\ rstrip (String.append band (String "_" digits)) = band.
Proof.
  intros band digits N H D. split.
  - clear N. induction band as [|c r IH]; [reflexivity|]. cbn in H. apply andb_true_iff in H as [H1 H2]. cbn [String.append head_].
    destruct (Ascii.eqb c "_") eqn:E; [apply Ascii.eqb_eq in E; subst; discriminate H1|]. now rewrite IH.
  - assert (S0 : rstrip (String "_" digits) = EmptyString) by (apply rstrip_all; cbn [all]; rewrite D; reflexivity).
    induction band as [|c r IH]; [congruence|]. cbn [all] in H. apply andb_true_iff in H as [H1 H2]. cbn [String.append].
    cbn [rstrip]. destruct r as [|c2 r].
    + cbn [String.append]. rewrite S0. apply negb_true_iff in H1. now rewrite H1.
    + rewrite IH by (try discriminate; exact H2). reflexivity.
Qed.
(** A name that is a band alone is that band in both. *)
Theorem C137_bare : forall band, all (fun c => negb (strippable c)) band = true -> head_ band = band /\ rstrip band = band.
Proof.
  induction band as [|c r IH]; intros H; [split; reflexivity|]. cbn [all] in H. apply andb_true_iff in H as [H1 H2]. destruct (IH H2) as [A B]. split.
  - cbn [head_]. destruct (Ascii.eqb c "_") eqn:E; [apply Ascii.eqb_eq in E; subst; discriminate H1|]. now rewrite A.
  - cbn [rstrip]. rewrite B. destruct r; [|reflexivity]. apply negb_true_iff in H1. now rewrite H1.
Qed.
(** Refuted: they agree on any name of a filter. *)
Theorem C137_names_refuted : exists f, rstrip f = "g"%string /\ head_ f = "g6"%string.
Proof. exists "g6"%string. split; reflexivity. Qed.

Print Assumptions C137_read.
Print Assumptions C137_maintel.
Print Assumptions C137_signatures.
Print Assumptions C137_all_cleared.
Print Assumptions C137_auxtel.
Print Assumptions C137_maps.
Print Assumptions C137_main_bands.
Print Assumptions C137_taken.
Print Assumptions C137_further.
Print Assumptions C137_fresh.
Print Assumptions C137_before.
Print Assumptions C137_time.
Print Assumptions C137_bands.
Print Assumptions C137_bare.
Print Assumptions C137_extra_refuted.
Print Assumptions C137_order_refuted.
Print Assumptions C137_names_refuted.

(** ** Example: maps of two numbers, doubled to the resolution; conditions of
    another time before. *)
Definition fit0 (m : nat) : nat := 2 * m.
Definition old0 : state nat := fst (set_attrs fit0 (new_conditions fit0 (VNum 1)) [("clouds", VNum 9); ("skybrightness", VMaps [("u", 7)]); ("dome", VStr "open")]).
Definition args0 (n : string) : value nat :=
  if String.eqb n "mjd" then VNum 2 else if String.eqb n "slewtime" then VMap 5
  else if String.eqb n "current_filter" then VStr "r_57" else if String.eqb n "mounted_filters" then VStrs ["r_57"; "g_6"]
  else if String.eqb n "skybrightness" then VMaps [("r", 3)] else if String.eqb n "fwhm_eff" then VMaps [("r", 4)] else VNum 8.
Definition new0 : state nat := fst (set_maintel_info fit0 args0 [("lmst", VNum 6)] old0).
Example ex_old : old0 "clouds" = Some (VNum 9) /\ getattr old0 "skybrightness" = Some (VMaps [("u", 14)]).
Proof. split; reflexivity. Qed.
Example ex_new : snd (set_maintel_info fit0 args0 [("lmst", VNum 6)] old0) = Ok tt /\
  map (getattr new0) ["mjd"; "slewtime"; "current_filter"; "current_band"; "mounted_bands"; "skybrightness"; "moon_alt"; "clouds"; "lmst"; "dome"] =
  [Some (VNum 2); Some (VMap 10); Some (VStr "r_57"); Some (VStr "r"); Some (VStrs ["r"; "g"]); Some (VMaps [("r", 6)]); Some (VNum 8);
   Some VNone; Some (VNum 6); Some (VStr "open")].
Proof. split; reflexivity. Qed.
Example ex_hyps : further maintel_names [("lmst", @VNum nat 6)] /\ kinds args0 /\ Forall (fun p => ~ In (fst p) read_only) [("lmst", @VNum nat 6)].
Proof.
  split; [|split].
  - constructor; [|constructor]. cbn [fst]. split; [cbn; discriminate|]. split; [apply mem_false; reflexivity|]. split; discriminate.
  - repeat split; eexists; reflexivity.
  - constructor; [|constructor]. apply mem_false. reflexivity.
Qed.
(** The time given last. *)
Example ex_order : getattr (fst (set_attrs fit0 (new_conditions fit0 (VNum 1)) [("slewtime", VMap 5); ("mjd", VNum 2)])) "slewtime" = Some VNone /\
  getattr (fst (set_attrs fit0 (new_conditions fit0 (VNum 1)) [("mjd", VNum 2); ("slewtime", VMap 5)])) "slewtime" = Some (VMap 10).
Proof. split; reflexivity. Qed.
(** A value without a setter, or no filter at all, is refused. *)
Example ex_refused : snd (set_attrs fit0 old0 [("airmass", VMap 1)]) = Raise AttributeError /\
  snd (set_attrs fit0 old0 [("current_filter", VNone)]) = Raise AttributeError.
Proof. split; reflexivity. Qed.
Example ex_bands : head_ "r_57"%string = "r"%string /\ rstrip "r_57"%string = "r"%string.
Proof. split; reflexivity. Qed.
