(** Model of CoreScheduler.survey_labels.
    /repo/rubin_scheduler/scheduler/schedulers/core_scheduler.py lines 709-784.
    The survey lists are always nested lists (the bare-survey branch, line 747,
    calls [append()] without argument and is unreachable after __init__). *)
From Coq Require Import List ZArith Bool String Ascii Lia DecimalString DecimalNat Decimal.
From Verif Require Import Base.
Import ListNotations.
Open Scope nat_scope.

(** A survey: its survey_name attribute (None when it has none) and the name of
    its class. *)
Record svn : Type := mkSvn { sv_name : option string; sv_class : string }.

(** Lines 726-732 and 762-768. *)
Definition basic (s : svn) : string :=
  match sv_name s with
  | Some n => if String.eqb n "" then sv_class s else n
  | None => sv_class s
  end.

Definition mem (x : string) (l : list string) : bool := existsb (String.eqb x) l.

(** Lines 734-737: (encountered, duplicated). *)
Definition process (st : list string * list string) (s : svn) : list string * list string :=
  let b := basic s in
  if mem b (fst st) then (fst st, b :: snd st) else (b :: fst st, snd st).

(** Lines 744-753: first sweep over all surveys. *)
Definition sweep (l : list (list svn)) : list string * list string :=
  fold_left (fun st item => fold_left process item st) l ([], []).

(** str() of a natural number. *)
Definition dec (n : nat) : string := NilEmpty.string_of_uint (Nat.to_uint n).

(** label_count as an association list. *)
Fixpoint get (m : list (string * nat)) (k : string) : option nat :=
  match m with
  | [] => None
  | (k', v) :: r => if String.eqb k k' then Some v else get r k
  end.
Definition put (m : list (string * nat)) (k : string) (v : nat) := (k, v) :: m.

(** Lines 757-779. *)
Definition unique_label (dup : list string) (m : list (string * nat)) (s : svn)
  : list (string * nat) * string :=
  let b := basic s in
  if negb (mem b dup) then (m, b)
  else
    let m1 := match get m b with None => put m b 0 | Some _ => m end in
    let n := match get m1 b with None => 0 | Some v => v end + 1 in
    (put m1 b n, (b ++ " " ++ dec n)%string).

Fixpoint label_item (dup : list string) (m : list (string * nat)) (l : list svn)
  : list (string * nat) * list string :=
  match l with
  | [] => (m, [])
  | s :: r => let '(m1, x) := unique_label dup m s in
              let '(m2, xs) := label_item dup m1 r in (m2, x :: xs)
  end.
Fixpoint label_lists (dup : list string) (m : list (string * nat)) (l : list (list svn))
  : list (list string) :=
  match l with
  | [] => []
  | t :: r => let '(m1, xs) := label_item dup m t in xs :: label_lists dup m1 r
  end.

Definition survey_labels (l : list (list svn)) : list (list string) :=
  label_lists (snd (sweep l)) [] l.

(** ** Proofs *)
Definition count (b : string) (l : list string) : nat := List.length (filter (String.eqb b) l).

Lemma count_app : forall b x y, count b (x ++ y) = count b x + count b y.
Proof. intros. unfold count. now rewrite filter_app, app_length. Qed.
Lemma count_cons : forall b x y, count b (x :: y) = (if String.eqb b x then 1 else 0) + count b y.
Proof. intros. unfold count. cbn. destruct (String.eqb b x); reflexivity. Qed.
Lemma count_in : forall b l, 1 <= count b l <-> In b l.
Proof.
  intros b l. induction l as [|x r IH]; [cbn; split; [lia|tauto]|].
  rewrite count_cons. destruct (String.eqb_spec b x); cbn [In]; split; intros; subst; auto.
  - lia.
  - right. apply IH. lia.
  - cbn. destruct H; [congruence|]. now apply IH.
Qed.
Lemma mem_in : forall x l, mem x l = true <-> In x l.
Proof.
  intros. unfold mem. rewrite existsb_exists. split.
  - intros (y & H & E). apply String.eqb_eq in E. now subst.
  - intros H. exists x. split; [exact H|apply String.eqb_refl].
Qed.

Lemma process_spec : forall l st,
  let st' := fold_left process l st in
  (forall b, In b (fst st') <-> In b (fst st) \/ In b (map basic l)) /\
  (forall b, In b (snd st') <-> In b (snd st) \/ (In b (fst st) /\ In b (map basic l)) \/ 2 <= count b (map basic l)).
Proof.
  induction l as [|s l IH]; intros st; cbn [fold_left map].
  - split; intros b; cbn; intuition lia.
  - specialize (IH (process st s)). cbn zeta in IH. destruct IH as [I1 I2].
    unfold process in I1, I2 |- *. set (b0 := basic s) in *.
    destruct (mem b0 (fst st)) eqn:M; cbn [fst snd] in *.
    + apply mem_in in M. split; intros b.
      * rewrite I1. cbn. split; intros K; intuition (subst; auto).
      * rewrite I2. cbn [In]. rewrite count_cons. pose proof (count_in b (map basic l)) as CI.
        destruct (String.eqb_spec b b0) as [->|N].
        -- intuition lia.
        -- cbn. intuition (try congruence).
    + assert (M' : ~ In b0 (fst st)) by (rewrite <- mem_in, M; discriminate). split; intros b.
      * rewrite I1. cbn. intuition.
      * rewrite I2. cbn [In]. rewrite count_cons. pose proof (count_in b (map basic l)) as CI.
        destruct (String.eqb_spec b b0) as [->|N].
        -- split.
           ++ intros [K|[[_ K]|K]]; [now left|right; right; apply CI in K; lia|right; right; lia].
           ++ intros [K|[[K _]|K]]; [now left|contradiction|]. right. left. split; [now left|apply CI; lia].
        -- cbn. intuition (try congruence).
Qed.
Lemma sweep_flat : forall l st, fold_left (fun st item => fold_left process item st) l st = fold_left process (List.concat l) st.
Proof. induction l; intros; cbn; [reflexivity|]. rewrite fold_left_app. apply IHl. Qed.
Lemma dup_spec : forall l b, In b (snd (sweep l)) <-> 2 <= count b (map basic (List.concat l)).
Proof.
  intros. unfold sweep. rewrite sweep_flat. pose proof (process_spec (List.concat l) ([], [])) as [_ K].
  rewrite K. cbn. intuition.
Qed.

Lemma label_flat : forall l dup m, List.concat (label_lists dup m l) = snd (label_item dup m (List.concat l)).
Proof.
  assert (A : forall a b dup m, label_item dup m (a ++ b) =
     let '(m1, x) := label_item dup m a in let '(m2, y) := label_item dup m1 b in (m2, x ++ y)).
  { induction a as [|s a IH]; intros; cbn; [destruct (label_item dup m b); reflexivity|].
    destruct (unique_label dup m s) as [m1 x]. rewrite IH.
    destruct (label_item dup m1 a) as [m2 xs]. destruct (label_item dup m2 b). reflexivity. }
  induction l as [|t l IH]; intros; cbn; [reflexivity|]. rewrite A.
  destruct (label_item dup m t) as [m1 x]. cbn. rewrite IH. destruct (label_item dup m1 (List.concat l)). reflexivity.
Qed.

(** Specification: the label of the survey after [before] in the whole list. *)
Definition label_spec (all before : list string) (b : string) : string :=
  if 2 <=? count b all then (b ++ " " ++ dec (count b before + 1))%string else b.
Fixpoint labels_spec (all before l : list string) : list string :=
  match l with
  | [] => []
  | b :: r => label_spec all before b :: labels_spec all (before ++ [b]) r
  end.

Lemma label_item_spec : forall dup all l m before,
  (forall b, In b dup <-> 2 <= count b all) ->
  (forall b, In b dup -> match get m b with None => 0 | Some v => v end = count b before) ->
  snd (label_item dup m l) = labels_spec all before (map basic l).
Proof.
  intros dup all. induction l as [|s l IH]; intros m before D G; cbn; [reflexivity|].
  unfold unique_label. set (b0 := basic s). destruct (mem b0 dup) eqn:M; cbn [negb].
  - apply mem_in in M. pose proof (G _ M) as Gb.
    set (m1 := match get m b0 with Some _ => m | None => put m b0 0 end).
    assert (G1 : match get m1 b0 with None => 0 | Some v => v end = count b0 before).
    { unfold m1. destruct (get m b0) eqn:E; [now rewrite E|]. cbn. now rewrite String.eqb_refl. }
    rewrite G1.
    specialize (IH (put m1 b0 (count b0 before + 1)) (before ++ [b0]) D).
    destruct (label_item dup (put m1 b0 (count b0 before + 1)) l) as [m2 xs]. cbn [snd] in *.
    rewrite IH.
    + f_equal. unfold label_spec. apply D in M. apply Nat.leb_le in M. now rewrite M.
    + intros b Hb. cbn. rewrite count_app, count_cons. cbn [count filter List.length].
      destruct (String.eqb_spec b b0) as [->|N]; [reflexivity|].
      rewrite <- (G b Hb). unfold m1. destruct (get m b0); [cbn; lia|]. cbn.
      destruct (String.eqb_spec b b0); [contradiction|lia].
  - specialize (IH m (before ++ [b0]) D). destruct (label_item dup m l) as [m2 xs]. cbn [snd] in *.
    assert (M' : ~ In b0 dup) by (rewrite <- mem_in, M; discriminate).
    rewrite IH.
    + f_equal. unfold label_spec. destruct (Nat.leb_spec 2 (count b0 all)); [|reflexivity].
      apply D in H. contradiction.
    + intros b Hb. rewrite (G b Hb), count_app, count_cons. cbn.
      destruct (String.eqb_spec b b0) as [->|N]; [contradiction|lia].
Qed.

Lemma survey_labels_spec : forall l,
  List.concat (survey_labels l) = labels_spec (map basic (List.concat l)) [] (map basic (List.concat l)).
Proof.
  intros. unfold survey_labels. rewrite label_flat. apply label_item_spec; [apply dup_spec|reflexivity].
Qed.

(** Decimal strings: injective, no space. *)
Lemma dec_inj : forall a b, dec a = dec b -> a = b.
Proof.
  intros a b H. unfold dec in H. apply (f_equal NilEmpty.uint_of_string) in H.
  rewrite !NilEmpty.usu in H. injection H as H. now apply DecimalNat.Unsigned.to_uint_inj.
Qed.
Fixpoint has_space (s : string) : bool :=
  match s with EmptyString => false | String c r => Ascii.eqb c " " || has_space r end.
Lemma dec_nospace : forall n, has_space (dec n) = false.
Proof.
  intros. unfold dec. generalize (Nat.to_uint n). induction u; cbn; auto.
Qed.
Lemma has_space_app : forall a b, has_space (a ++ b) = has_space a || has_space b.
Proof. induction a; intros; cbn; [reflexivity|]. now rewrite IHa, orb_assoc. Qed.
Lemma last_space : forall a b x y, has_space x = false -> has_space y = false ->
  (a ++ " " ++ x = b ++ " " ++ y)%string -> a = b /\ x = y.
Proof.
  induction a as [|c a IH]; intros b x y Hx Hy H; destruct b as [|c' b].
  - cbn in H. injection H as H. auto.
  - cbn in H. injection H as _ H. rewrite H in Hx. rewrite has_space_app in Hx.
    apply orb_false_elim in Hx. destruct Hx as [_ Hx]. cbn in Hx. discriminate.
  - cbn in H. injection H as _ H. rewrite <- H in Hy. rewrite has_space_app in Hy.
    apply orb_false_elim in Hy. destruct Hy as [_ Hy]. cbn in Hy. discriminate.
  - cbn in H. injection H as -> H. destruct (IH b x y Hx Hy H). now subst.
Qed.

Lemma labels_spec_in : forall all l before x, In x (labels_spec all before l) ->
  exists p b q, l = p ++ b :: q /\ x = label_spec all (before ++ p) b.
Proof.
  induction l as [|b r IH]; intros before x H; [contradiction|]. destruct H as [<-|H].
  - exists [], b, r. rewrite app_nil_r. auto.
  - destruct (IH _ _ H) as (p & b' & q & -> & ->). exists (b :: p), b', q.
    rewrite <- app_assoc. auto.
Qed.
Lemma labels_spec_in_inv : forall all p b q before,
  In (label_spec all (before ++ p) b) (labels_spec all before (p ++ b :: q)).
Proof.
  induction p as [|c p IH]; intros b q before; cbn; [rewrite app_nil_r; auto|].
  right. specialize (IH b q (before ++ [c])). rewrite <- app_assoc in IH. exact IH.
Qed.
Lemma labels_spec_app : forall all a b before,
  labels_spec all before (a ++ b) = labels_spec all before a ++ labels_spec all (before ++ a) b.
Proof.
  induction a as [|c a IH]; intros; cbn; [now rewrite app_nil_r|]. now rewrite IH, <- app_assoc.
Qed.

(** A clash: an undisturbed name that looks like the numbered label of a
    duplicated one. *)
Definition clash (names : list string) : Prop :=
  exists b d k, count b names = 1 /\ 2 <= count d names /\ 1 <= k <= count d names /\
    b = (d ++ " " ++ dec k)%string.

Lemma labels_nodup : forall all l before, all = before ++ l -> ~ clash all ->
  NoDup (labels_spec all before l).
Proof.
  intros all. induction l as [|b r IH]; intros before E NC; cbn; constructor.
  - intros H. apply labels_spec_in in H. destruct H as (p & b' & q & -> & H).
    unfold label_spec in H.
    destruct (Nat.leb_spec 2 (count b all)) as [L|L], (Nat.leb_spec 2 (count b' all)) as [L'|L'].
    + apply last_space in H; try apply dec_nospace. destruct H as [-> H]. apply dec_inj in H.
      rewrite !count_app, count_cons, String.eqb_refl in H. cbn in H. lia.
    + apply NC. exists b', b, (count b before + 1). subst all. split; [|split; [exact L|split; [|now symmetry]]].
      * assert (1 <= count b' (before ++ b :: p ++ b' :: q)) by (apply count_in; rewrite in_app_iff; cbn; rewrite in_app_iff; cbn; tauto). lia.
      * rewrite count_app, count_cons, String.eqb_refl. lia.
    + apply NC. exists b, b', (count b' ((before ++ [b]) ++ p) + 1). split; [|split; [exact L'|split; [|exact H]]].
      * assert (1 <= count b all) by (apply count_in; subst all; rewrite in_app_iff; cbn; tauto). lia.
      * subst all. rewrite !count_app, !count_cons, !count_app, !count_cons, String.eqb_refl. cbn [count filter List.length]. lia.
    + subst b'. subst all. rewrite !count_app, !count_cons, !count_app, !count_cons, String.eqb_refl in L. lia.
  - apply IH; [now rewrite <- app_assoc|exact NC].
Qed.

Lemma occ_k : forall d l k, k < count d l -> exists p q, l = p ++ d :: q /\ count d p = k.
Proof.
  intros d. induction l as [|x r IH]; intros k H; [cbn in H; lia|].
  rewrite count_cons in H. destruct (String.eqb_spec d x) as [->|N].
  - destruct k as [|k]; [exists [], r; auto|]. destruct (IH k) as (p & q & -> & C); [lia|].
    exists (x :: p), q. split; [reflexivity|]. rewrite count_cons, String.eqb_refl. lia.
  - destruct (IH k) as (p & q & -> & C); [cbn in H; lia|]. exists (x :: p), q. split; [reflexivity|].
    rewrite count_cons. destruct (String.eqb_spec d x); [contradiction|]. cbn. exact C.
Qed.

Lemma labels_clash : forall all, clash all -> ~ NoDup (labels_spec all [] all).
Proof.
  intros all (b & d & k & Cb & Cd & K & E) N.
  destruct (occ_k d all (k - 1)) as (p & q & E1 & C1); [lia|].
  assert (Hb : In b all) by (apply count_in; lia). apply in_split in Hb. destruct Hb as (p2 & q2 & E2).
  assert (L1 : label_spec all p d = b).
  { unfold label_spec. apply Nat.leb_le in Cd. rewrite Cd, C1. subst b. now replace (k - 1 + 1) with k by lia. }
  assert (L2 : forall x, label_spec all x b = b).
  { intros x. unfold label_spec. rewrite Cb. reflexivity. }
  assert (ND : d <> b) by (intros ->; lia).
  (* the two positions differ *)
  assert (I1 : nth_error all (List.length p) = Some d) by (rewrite E1, nth_error_app2, Nat.sub_diag; auto).
  assert (I2 : nth_error all (List.length p2) = Some b) by (rewrite E2, nth_error_app2, Nat.sub_diag; auto).
  assert (NTH : forall l before i x, nth_error l i = Some x ->
     nth_error (labels_spec all before l) i = Some (label_spec all (before ++ firstn i l) x)).
  { induction l as [|y l IH]; intros before [|i] x H; cbn in *; try discriminate.
    - injection H as ->. now rewrite app_nil_r.
    - rewrite (IH (before ++ [y]) i x H), <- app_assoc. reflexivity. }
  pose proof (NTH _ [] _ _ I1) as J1. pose proof (NTH _ [] _ _ I2) as J2. cbn in J1, J2.
  assert (FP : firstn (List.length p) all = p) by (rewrite E1, firstn_app, Nat.sub_diag, firstn_all; cbn; apply app_nil_r).
  rewrite FP, L1 in J1.
  rewrite L2 in J2.
  assert (List.length p = List.length p2).
  { apply (proj1 (NoDup_nth_error _) N); [|congruence]. apply nth_error_Some. congruence. }
  congruence.
Qed.

Lemma survey_labels_unique : forall l,
  NoDup (List.concat (survey_labels l)) <-> ~ clash (map basic (List.concat l)).
Proof.
  intros. rewrite survey_labels_spec. split.
  - intros N C. exact (labels_clash _ C N).
  - intros NC. now apply labels_nodup.
Qed.
Lemma survey_labels_shape : forall l, map (@List.length string) (survey_labels l) = map (@List.length svn) l.
Proof.
  assert (A : forall l dup m, List.length (snd (label_item dup m l)) = List.length l).
  { induction l as [|s l IH]; intros; cbn; [reflexivity|]. destruct (unique_label dup m s) as [m1 x].
    specialize (IH dup m1). destruct (label_item dup m1 l). cbn in *. now rewrite IH. }
  intros. unfold survey_labels. generalize (snd (sweep l)) as dup, (@nil (string * nat)) as m.
  induction l as [|t l IH]; intros; cbn; [reflexivity|]. specialize (A t dup m).
  destruct (label_item dup m t). cbn in *. now rewrite A, IH.
Qed.
Lemma filter_map_len : forall b (l : list svn),
  List.length (filter (fun x => String.eqb b (basic x)) l) = count b (map basic l).
Proof. intros. unfold count. induction l as [|x r IH]; cbn; [reflexivity|]. destruct (String.eqb b (basic x)); cbn; now rewrite IH. Qed.

Lemma survey_labels_meaning : forall l p s q, List.concat l = p ++ s :: q ->
  map (@List.length string) (survey_labels l) = map (@List.length svn) l /\
  nth_error (List.concat (survey_labels l)) (List.length p) =
    Some (if List.length (filter (fun x => String.eqb (basic s) (basic x)) (p ++ s :: q)) =? 1
          then basic s
          else (basic s ++ " " ++
                dec (S (List.length (filter (fun x => String.eqb (basic s) (basic x)) p))))%string).
Proof.
  intros l p s q E. split; [apply survey_labels_shape|].
  rewrite survey_labels_spec, E. rewrite !filter_map_len.
  assert (L : forall all a before, List.length (labels_spec all before a) = List.length a).
  { induction a; intros; cbn; [reflexivity|]. now rewrite IHa. }
  rewrite map_app at 2. rewrite labels_spec_app. rewrite nth_error_app2; rewrite L, map_length; [|lia].
  rewrite Nat.sub_diag. cbn [map labels_spec nth_error app]. f_equal. unfold label_spec.
  rewrite map_app. cbn [map].
  assert (1 <= count (basic s) (map basic p ++ basic s :: map basic q)) by (rewrite count_app, count_cons, String.eqb_refl; lia).
  destruct (Nat.leb_spec 2 (count (basic s) (map basic p ++ basic s :: map basic q)));
  destruct (Nat.eqb_spec (count (basic s) (map basic p ++ basic s :: map basic q)) 1); try lia; [|reflexivity].
  now rewrite Nat.add_1_r.
Qed.

Lemma survey_labels_nonempty : forall l,
  (forall s, In s (List.concat l) -> sv_class s <> ""%string) -> ~ In ""%string (List.concat (survey_labels l)).
Proof.
  intros l H. rewrite survey_labels_spec. intros K. apply labels_spec_in in K.
  destruct K as (p & b & q & E & K).
  assert (B : In b (map basic (List.concat l))) by (rewrite E; apply in_or_app; right; now left).
  apply in_map_iff in B. destruct B as (s & <- & Hs). specialize (H s Hs).
  assert (NB : basic s <> ""%string).
  { unfold basic. destruct (sv_name s) as [n|]; [|exact H]. destruct (String.eqb_spec n ""); assumption. }
  unfold label_spec in K. destruct (2 <=? _); [|now apply NB].
  destruct (basic s); [contradiction|discriminate].
Qed.
