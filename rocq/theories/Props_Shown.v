(** C140: the maps and tables a scheduler shows of itself. *)
From Coq Require Import List String Bool Arith ZArith QArith Lia.
From Verif Require Import Base Core Core_proofs Shown Shown_proofs.
Import ListNotations.
Open Scope string_scope.
Open Scope list_scope.
Open Scope nat_scope.

Section Any.
Context {cond : Type} (sky : cond -> table (list er)).
Notation sched := (sched cond).
Notation survey := (survey cond).
Notation bf := (bf cond).
Notation get_healpix_maps := (get_healpix_maps cond sky).
Notation get_basis_functions := (get_basis_functions cond).
Notation surveys_df := (surveys_df cond).

(** Objects are told apart by their identity, and a dictionary of sky brightness has a band once. *)
Definition objects (s : sched) : Prop := forall l v bs b b', In l (c_lists _ s) -> In v l -> v_bfs _ v = Some bs ->
  In b bs -> In b' bs -> b_id _ b = b_id _ b' -> b = b'.
Definition dicts : Prop := forall c, NoDup (map fst (sky c)).
Definition an_array (v : sval) : Prop := exists l, v = Arr l.
Lemma has_len_array : forall v, has_len v = true <-> an_array v.
Proof. intros [x|l]; cbn; split; intros H; try discriminate; [destruct H; discriminate|now exists l|reflexivity]. Qed.

(** The survey at a pair of places, counted from zero. *)
Definition at_places (s : sched) (i j : nat) (v : survey) : Prop := exists l, nth_error (c_lists _ s) i = Some l /\ nth_error l j = Some v.
Lemma pick_nat : forall A (l : list A) i x, nth_error l i = Some x -> pick l (Some (Z.of_nat i)) = Ok x.
Proof.
  intros A l i x E. unfold pick. destruct (Z.ltb_spec (Z.of_nat i) 0) as [L|L]; [lia|]. cbv zeta. destruct (Z.ltb_spec (Z.of_nat i) 0); [lia|].
  rewrite Nat2Z.id. now rewrite E.
Qed.
Lemma pick_in : forall A (l : list A) i x, pick l i = Ok x -> In x l.
Proof.
  intros A l [i|] x H; [|discriminate]. unfold pick in H. cbv zeta in H. destruct (i <? 0)%Z;
    match type of H with context [(?j <? 0)%Z] => destruct (j <? 0)%Z; [discriminate|]; destruct (nth_error l (Z.to_nat j)) eqn:E; [|discriminate] end;
    injection H as <-; eapply nth_error_In; exact E.
Qed.
Lemma pick_neg : forall A (l : list A) i x, i < List.length l -> nth_error l (List.length l - S i) = Some x -> pick l (Some (- Z.of_nat (S i))%Z) = Ok x.
Proof.
  intros A l i x L E. unfold pick. destruct (Z.ltb_spec (- Z.of_nat (S i)) 0) as [Q|Q]; [|lia]. cbv zeta.
  destruct (Z.ltb_spec (- Z.of_nat (S i) + Z.of_nat (List.length l)) 0); [lia|].
  replace (Z.to_nat (- Z.of_nat (S i) + Z.of_nat (List.length l))) with (List.length l - S i) by lia. now rewrite E.
Qed.

Lemma functions_spec : forall (v : survey) c, (forall bs b b', v_bfs _ v = Some bs -> In b bs -> In b' bs -> b_id _ b = b_id _ b' -> b = b') ->
  let fs := map snd (functions_of _ v c) in NoDup fs /\
  (forall b, In b fs <-> an_array (b_val _ b c) /\ exists bs, v_bfs _ v = Some bs /\ In b bs) /\
  (forall bs, v_bfs _ v = Some bs -> NoDup bs -> fs = filter (fun b => has_len (b_val _ b c)) bs) /\
  (forall k b, In (k, b) (functions_of _ v c) -> k = key _ b).
Proof.
  intros v c U fs. unfold fs, functions_of. destruct (v_bfs _ v) as [bs|] eqn:E.
  - destruct (functions_fold c bs bs [] (incl_refl bs)) as (A & B & C & D).
    + intros b b'. now apply U.
    + intros k b [].
    + constructor.
    + split; [exact B|]. split; [|split].
      * intros b. rewrite C, <- has_len_array. cbn [map In]. split.
        { intros [[]|[I H]]. split; [exact H|]. exists bs. now split. }
        { intros [H (bs' & X & I)]. injection X as <-. right. now split. }
      * intros bs' X N. injection X as <-. exact (D N).
      * intros k b I. apply (A k b I).
  - cbn. split; [constructor|]. split; [|split; [discriminate|intros k b []]]. intros b. split; [intros []|]. intros [_ (bs & X & _)]. discriminate.
Qed.

(** The maps shown: one for each band of the sky, without the values that stand for none, and one under its
    label for each basis function of the survey that gives a map, with what it gives in the conditions asked
    for; nothing else, no name twice. *)
Theorem C140_maps : forall s i j v c c' m, objects s -> dicts -> at_places s i j v -> conds _ s c = Ok c' ->
  get_healpix_maps s (Some (Z.of_nat i, Z.of_nat j)) c = Ok m -> exists fs,
  m = map (fun p => ((fst p ++ "_sky")%string, Arr (map (fun x => if er_ltb x (EFin (- inject_Z (10 ^ 30))) then ENaN else x) (snd p)))) (sky c')
      ++ map (fun b => (label _ b, b_val _ b c')) fs /\
  NoDup (map fst m) /\ NoDup fs /\
  (forall b, In b fs <-> an_array (b_val _ b c') /\ exists bs, v_bfs _ v = Some bs /\ In b bs) /\
  (forall bs, v_bfs _ v = Some bs -> NoDup bs -> fs = filter (fun b => match b_val _ b c' with Arr _ => true | Num _ => false end) bs).
Proof.
  intros s i j v c c' m O D (l & El & Ev) Hc H. unfold Shown.get_healpix_maps, Shown.get_basis_functions in H. rewrite Hc in H. cbn [bind conds] in H.
  unfold which in H. cbn [fst snd] in H. rewrite (pick_nat _ _ _ _ El) in H. cbn [bind] in H. rewrite (pick_nat _ _ _ _ Ev) in H. cbn [bind] in H.
  destruct (functions_spec v c') as (N & I & F & _).
  { intros bs b b' Eb. apply (O l v bs b b'); [eapply nth_error_In; exact El|eapply nth_error_In; exact Ev|exact Eb]. }
  set (fs := map snd (functions_of _ v c')) in *. exists fs.
  assert (Ids : NoDup (map (b_id _) fs)).
  { assert (Inj : forall b b', In b fs -> In b' fs -> b_id _ b = b_id _ b' -> b = b').
    { intros b b' B B' E. apply I in B. apply I in B'. destruct B as (_ & bs & Eb & B), B' as (_ & bs' & Eb' & B').
      assert (bs = bs') by congruence. subst. apply (O l v bs' b b'); try assumption; eapply nth_error_In; eassumption. }
    clear -N Inj. induction fs as [|b fs IH]; [constructor|]. inversion N; subst. cbn. constructor.
    - intros X. apply in_map_iff in X. destruct X as (b' & E & X). assert (b' = b) by (apply Inj; [now right|now left|exact E]). subst. contradiction.
    - apply IH; [assumption|]. intros x y X Y. apply Inj; now right. }
  assert (Sk : sky_maps _ sky c' = map (fun p => ((fst p ++ "_sky")%string, Arr (map blank (snd p)))) (sky c')).
  { unfold sky_maps. rewrite sky_fold; [reflexivity|apply D|]. intros b _ []. }
  assert (Fr : forall b : bf, ~ In (label _ b) (map fst (sky_maps _ sky c'))).
  { intros b X. rewrite Sk, map_map in X. cbn [fst] in X. apply in_map_iff in X. destruct X as (p & E & _). unfold label in E. rewrite <- sapp_assoc in E.
    symmetry in E. exact (not_sky _ _ _ E). }
  rewrite (maps_fold c' fs (sky_maps _ sky c') Ids) in H by (intros b _; apply Fr). injection H as <-. rewrite Sk. split; [reflexivity|].
  split; [|split; [exact N|split; [exact I|exact F]]].
  rewrite map_app, !map_map. cbn [fst]. rewrite Sk, map_map in Fr. cbn [fst] in Fr.
  assert (A1 : NoDup (map (fun x => (fst x ++ "_sky")%string) (sky c'))).
  { specialize (D c'). clear -D. induction (sky c') as [|p t IH]; [constructor|]. inversion D; subst. cbn. constructor; [|now apply IH].
    intros X. apply in_map_iff in X. destruct X as (q & E & X). apply sky_cut in E. apply H1. rewrite <- E. now apply in_map. }
  assert (A2 : NoDup (map (label _) fs)).
  { clear -Ids. induction fs as [|b fs IH]; [constructor|]. inversion Ids; subst. cbn. constructor; [|now apply IH].
    intros X. apply in_map_iff in X. destruct X as (d & E & X). apply H1. unfold label in E. rewrite <- !sapp_assoc in E. apply at_id_cut in E. destruct E as [_ <-]. now apply in_map. }
  clear -A1 A2 Fr. induction (map (fun x => (fst x ++ "_sky")%string) (sky c')) as [|k t IH]; [exact A2|]. inversion A1; subst. cbn. constructor.
  - intros X. apply in_app_or in X. destruct X as [X|X]; [contradiction|]. apply in_map_iff in X. destruct X as (b & <- & _). apply (Fr b). now left.
  - apply IH; try assumption. intros b X. apply (Fr b). now right.
Qed.
(** The basis functions themselves: the same ones, each once, under the name of its class and its identity. *)
Theorem C140_functions : forall s i j v c c' t, objects s -> at_places s i j v -> conds _ s c = Ok c' ->
  get_basis_functions s (Some (Z.of_nat i, Z.of_nat j)) c = Ok t ->
  NoDup (map snd t) /\
  (forall k b, In (k, b) t -> k = (b_class _ b ++ " @" ++ id_text (b_id _ b))%string) /\
  (forall b, In b (map snd t) <-> an_array (b_val _ b c') /\ exists bs, v_bfs _ v = Some bs /\ In b bs).
Proof.
  intros s i j v c c' t O (l & El & Ev) Hc H. unfold Shown.get_basis_functions in H. rewrite Hc in H. cbn [bind] in H. unfold which in H. cbn [fst snd] in H.
  rewrite (pick_nat _ _ _ _ El) in H. cbn [bind] in H. rewrite (pick_nat _ _ _ _ Ev) in H. cbn [bind] in H. injection H as <-.
  destruct (functions_spec v c') as (N & I & _ & K).
  { intros bs b b' Eb. apply (O l v bs b b'); [eapply nth_error_In; exact El|eapply nth_error_In; exact Ev|exact Eb]. }
  repeat split; try assumption; try apply I; try assumption; apply I; assumption.
Qed.
(** Without an index, the survey of the last choice; without conditions, the scheduler's own. *)
Theorem C140_default : forall s i j c, c_index _ s = (Some i, Some j) ->
  get_healpix_maps s None c = get_healpix_maps s (Some (Z.of_nat i, Z.of_nat j)) c /\
  get_basis_functions s None c = get_basis_functions s (Some (Z.of_nat i, Z.of_nat j)) c /\
  (forall x ix, c_cond _ s = Some x -> get_healpix_maps s ix None = get_healpix_maps s ix (Some x)).
Proof.
  intros s i j c E. assert (W : which _ s None = which _ s (Some (Z.of_nat i, Z.of_nat j))).
  { unfold which, own_index. now rewrite E. }
  unfold Shown.get_healpix_maps, Shown.get_basis_functions. rewrite W. repeat split. intros x ix Hx. unfold conds. now rewrite Hx.
Qed.
(** Places counted from the end work too. *)
Theorem C140_places : forall s i j v l c c', nth_error (c_lists _ s) i = Some l -> nth_error l j = Some v -> conds _ s c = Ok c' ->
  get_healpix_maps s (Some (- Z.of_nat (List.length (c_lists _ s) - i), - Z.of_nat (List.length l - j))%Z) c =
  get_healpix_maps s (Some (Z.of_nat i, Z.of_nat j)) c /\ exists m, get_healpix_maps s (Some (Z.of_nat i, Z.of_nat j)) c = Ok m.
Proof.
  intros s i j v l c c' El Ev Hc. assert (L1 : i < List.length (c_lists _ s)) by (apply nth_error_Some; congruence).
  assert (L2 : j < List.length l) by (apply nth_error_Some; congruence).
  assert (W : which _ s (Some (- Z.of_nat (List.length (c_lists _ s) - i), - Z.of_nat (List.length l - j))%Z) = Ok v).
  { unfold which. cbn [fst snd]. replace (List.length (c_lists _ s) - i) with (S (List.length (c_lists _ s) - i - 1)) by lia.
    rewrite (pick_neg _ _ _ l) by (try lia; rewrite <- El; f_equal; lia). cbn [bind]. replace (List.length l - j) with (S (List.length l - j - 1)) by lia.
    rewrite (pick_neg _ _ _ v) by (try lia; rewrite <- Ev; f_equal; lia). reflexivity. }
  assert (W2 : which _ s (Some (Z.of_nat i, Z.of_nat j)) = Ok v).
  { unfold which. cbn [fst snd]. rewrite (pick_nat _ _ _ _ El). cbn [bind]. now rewrite (pick_nat _ _ _ _ Ev). }
  unfold Shown.get_healpix_maps, Shown.get_basis_functions. rewrite Hc. cbn [bind conds]. rewrite W, W2. cbn [bind]. split; [reflexivity|now eexists].
Qed.
(** The latest survey is not there before a choice, nor any more once the queue is flushed. *)
Theorem C140_latest_refuted : forall s c, c_cond _ s = Some c ->
  (c_index _ s = (None, None) -> get_healpix_maps s None None = Raise TypeError) /\ get_healpix_maps (flushed _ s) None None = Raise TypeError.
Proof.
  intros s c E. unfold Shown.get_healpix_maps, Shown.get_basis_functions, conds, which, own_index, flushed. cbn [c_cond c_index c_lists fst snd option_map].
  rewrite E. cbn [bind]. split; [|reflexivity]. intros ->. reflexivity.
Qed.

(** The table of a tier: a row for each survey in order; chosen marks the survey of the last choice and no
    other; rewards are the best value kept, and none is shown in tiers after the one of the last choice, or
    when nothing was chosen. *)
Definition best (l : list er) (x : er) : Prop :=
  (In x l /\ er_ltb ENInf x = true /\ forall y, In y l -> er_isnan y = false -> er_le y x) \/
  (x = ENInf /\ forall y, In y l -> y = ENInf \/ y = ENaN).
Lemma number_nth : forall A (l : list A) k, nth_error (number l) k = option_map (fun x => (k, x)) (nth_error l k).
Proof.
  intros A l k. unfold number. assert (G : forall d (m : list A) i, nth_error (combine (seq d (List.length m)) m) i = option_map (fun x => (d + i, x)) (nth_error m i)).
  { intros d m. revert d. induction m as [|x m IH]; intros d [|i]; cbn; [reflexivity|reflexivity|now rewrite Nat.add_0_r|]. rewrite IH. destruct (nth_error m i); cbn; [|reflexivity].
    do 2 f_equal. lia. }
  rewrite G. now destruct (nth_error l k).
Qed.
Lemma shown_best : forall l, exists x, shown_reward cond (mkS _ "" None (Some (Arr l))) = Some x /\ best l x.
Proof.
  intros l. unfold shown_reward. cbn [v_reward]. destruct (forallb (fun x => negb (er_ltb ENInf x)) l) eqn:E.
  - exists ENInf. split; [reflexivity|]. right. split; [reflexivity|]. intros y I. rewrite forallb_forall in E. specialize (E y I). destruct y; cbn in E; try discriminate; tauto.
  - exists (nanmax l). split; [reflexivity|]. left. assert (Q : exists y, In y l /\ er_ltb ENInf y = true).
    { apply not_true_iff_false in E. destruct (existsb (fun x => er_ltb ENInf x) l) eqn:X; [apply existsb_exists in X; exact X|]. exfalso. apply E. apply forallb_forall. intros y I.
      apply negb_true_iff. apply not_true_iff_false. intros Y. assert (existsb (fun x => er_ltb ENInf x) l = true) by (apply existsb_exists; now exists y). congruence. }
    destruct Q as (y & I & Y). destruct (nanmax_spec l) as [(_ & A)|(A & B & C)]; [specialize (A y I); destruct y; discriminate|]. split; [exact A|]. split; [|exact C].
    specialize (C y I ltac:(destruct y; now cbn in Y)). destruct (nanmax l), y; cbn in *; try reflexivity; try discriminate; contradiction.
Qed.
Theorem C140_rows : forall s tier l, nth_error (c_lists _ s) tier = Some l -> l <> [] -> exists rows,
  surveys_df s (Z.of_nat tier) = Ok rows /\ List.length rows = List.length l /\
  forall k v, nth_error l k = Some v -> exists r, nth_error rows k = Some r /\ r_name r = v_name _ v /\
    (r_chosen r = true <-> c_index _ s = (Some tier, Some k)) /\
    ((fst (c_index _ s) = None \/ exists n, fst (c_index _ s) = Some n /\ n < tier) -> r_reward r = None) /\
    (forall n, fst (c_index _ s) = Some n -> tier <= n ->
       match v_reward _ v with None => r_reward r = None | Some (Num x) => r_reward r = Some x
       | Some (Arr a) => exists x, r_reward r = Some x /\ best a x end).
Proof.
  intros s tier l E N. unfold Shown.surveys_df. rewrite (pick_nat _ _ _ _ E). cbn [bind]. destruct l as [|v0 l0] eqn:L; [congruence|]. rewrite <- L in *. eexists.
  split; [reflexivity|]. split; [rewrite map_length; unfold number; rewrite combine_length, seq_length; lia|]. intros k v Ev.
  exists (row_of _ s (Z.of_nat tier) k v). split; [rewrite nth_error_map, number_nth, Ev; reflexivity|]. unfold row_of. cbn [r_name r_reward r_chosen]. split; [reflexivity|]. split; [|split].
  - destruct (c_index _ s) as [[n|] [m|]]; try (split; discriminate). rewrite andb_true_iff, Z.eqb_eq, Nat.eqb_eq. split.
    + intros [A B]. apply Nat2Z.inj in A. now subst.
    + intros Q. injection Q as -> ->. now split.
  - intros [->|(n & -> & H)]; [reflexivity|]. destruct (Z.ltb_spec (Z.of_nat n) (Z.of_nat tier)); [reflexivity|lia].
  - intros n -> H. destruct (Z.ltb_spec (Z.of_nat n) (Z.of_nat tier)) as [Q|Q]; [lia|]. unfold shown_reward. destruct (v_reward _ v) as [[x|a]|]; try reflexivity. exact (shown_best a).
Qed.
(** Over all tiers there is at most one row chosen. *)
Theorem C140_one : forall s t1 t2 l1 l2 r1 r2 k1 k2 a b,
  nth_error (c_lists _ s) t1 = Some l1 -> nth_error (c_lists _ s) t2 = Some l2 ->
  surveys_df s (Z.of_nat t1) = Ok r1 -> surveys_df s (Z.of_nat t2) = Ok r2 ->
  nth_error r1 k1 = Some a -> nth_error r2 k2 = Some b -> r_chosen a = true -> r_chosen b = true -> t1 = t2 /\ k1 = k2.
Proof.
  assert (G : forall s t l r k a, nth_error (c_lists _ s) t = Some l -> surveys_df s (Z.of_nat t) = Ok r -> nth_error r k = Some a -> r_chosen a = true -> c_index _ s = (Some t, Some k)).
  { intros s t l r k a E R A C.
    assert (N : l <> []). { intros ->. unfold Shown.surveys_df in R. rewrite (pick_nat _ _ _ _ E) in R. discriminate. }
    destruct (C140_rows s t l E N) as (rows & R' & Len & H). assert (rows = r) by congruence. subst rows.
    destruct (nth_error l k) as [v|] eqn:V.
    - destruct (H k v V) as (x & X & _ & Y & _). assert (x = a) by congruence. subst. now apply Y.
    - apply nth_error_None in V. assert (k < List.length r) by (apply nth_error_Some; congruence). lia. }
  intros s t1 t2 l1 l2 r1 r2 k1 k2 a b E1 E2 R1 R2 A B CA CB. pose proof (G _ _ _ _ _ _ E1 R1 A CA) as X. pose proof (G _ _ _ _ _ _ E2 R2 B CB) as Y.
  rewrite X in Y. injection Y as -> ->. now split.
Qed.
(** The last tier named from the end shows rewards of surveys not evaluated, and does not mark the choice. *)
Theorem C140_end_refuted : forall c : cond, exists s r0 r1 q0 q1,
  c_lists _ s = [[mkS _ "a" None (Some (Num (EFin 1)))]; [mkS _ "b" None (Some (Num (EFin 2)))]] /\ c_index _ s = (Some 0, Some 0) /\
  surveys_df s 1 = Ok [r1] /\ r_reward r1 = None /\ surveys_df s (-1) = Ok [q1] /\ r_reward q1 = Some (EFin 2) /\
  surveys_df s 0 = Ok [r0] /\ r_chosen r0 = true /\ surveys_df s (-2) = Ok [q0] /\ r_chosen q0 = false.
Proof. intros c. exists (mkSc _ [[mkS _ "a" None (Some (Num (EFin 1)))]; [mkS _ "b" None (Some (Num (EFin 2)))]] (Some 0, Some 0) (Some c)). do 4 eexists. repeat split. Qed.
(** A tier without surveys has no table. *)
Theorem C140_empty_refuted : forall s tier, nth_error (c_lists _ s) tier = Some [] -> surveys_df s (Z.of_nat tier) = Raise KeyError.
Proof. intros s tier E. unfold Shown.surveys_df. now rewrite (pick_nat _ _ _ _ E). Qed.
End Any.

(** Two basis functions of one class and band, one that gives a number, one listed twice. *)
Definition f1 : bf unit := mkBf _ 17 "M5DiffBasisFunction" "M5Diff" (Some "r") (fun _ => Arr [EFin 1; ENaN]).
Definition f2 : bf unit := mkBf _ 170 "M5DiffBasisFunction" "M5Diff" (Some "r") (fun _ => Arr [EFin 2]).
Definition f3 : bf unit := mkBf _ 3 "SlewtimeBasisFunction" "Slewtime" None (fun _ => Num ENInf).
Definition shown_sched : sched unit := mkSc _ [[mkS _ "x" (Some [f1; f3; f2; f1]) None; mkS _ "y" None (Some (Arr [ENaN; EFin 3; EFin 5]))]] (Some 0, Some 0) (Some tt).
Definition night_sky (_ : unit) : table (list er) := [("g", [EFin 21; EFin (- inject_Z (10 ^ 31))]); ("r", [EFin 20; ENaN])].
Example C140_maps_ex : objects shown_sched /\ dicts night_sky /\ (exists v, at_places shown_sched 0 0 v) /\
  get_healpix_maps unit night_sky shown_sched None None =
  Ok [("g_sky", Arr [EFin 21; ENaN]); ("r_sky", Arr [EFin 20; ENaN]); ("M5Diff r @17", Arr [EFin 1; ENaN]); ("M5Diff r @170", Arr [EFin 2])].
Proof.
  split; [|split; [|split; [|reflexivity]]].
  - intros l v bs b b' [<-|[]] [<-|[<-|[]]] E; [injection E as <-|discriminate]. intros [<-|[<-|[<-|[<-|[]]]]] [<-|[<-|[<-|[<-|[]]]]] Q; try reflexivity; discriminate Q.
  - intros []. cbn. repeat constructor; cbn; intuition discriminate.
  - eexists. eexists. split; reflexivity.
Qed.
Example C140_rows_ex : surveys_df unit shown_sched 0 = Ok [mkRow "x" None true; mkRow "y" (Some (EFin 5)) false].
Proof. reflexivity. Qed.
Print Assumptions C140_maps.
Print Assumptions C140_functions.
Print Assumptions C140_default.
Print Assumptions C140_places.
Print Assumptions C140_latest_refuted.
Print Assumptions C140_rows.
Print Assumptions C140_one.
Print Assumptions C140_end_refuted.
Print Assumptions C140_empty_refuted.
