(** Proofs about the schema conversion. *)
From Coq Require Import List Bool String Reals Lra.
From Verif Require Import Base Schema.
Import ListNotations.
Open Scope list_scope.

Lemma mem_in : forall s l, mem s l = true <-> In s l.
Proof.
  intros s l. unfold mem. rewrite existsb_exists. split.
  - intros (x & H & E). apply String.eqb_eq in E. now subst.
  - intros H. exists s. split; [exact H|apply String.eqb_refl].
Qed.
Lemma mem_false : forall s l, mem s l = false <-> ~ In s l.
Proof. intros s l. rewrite <- mem_in. destruct (mem s l); split; intros; congruence || tauto. Qed.

Lemma assoc_in : forall l k v, NoDup (map fst l) -> In (k, v) l -> assoc_s k l = Some v.
Proof.
  induction l as [|[a b] l IH]; intros k v N H; [destruct H|]. cbn in *. inversion N; subst.
  destruct H as [[= -> ->]|H]; [now rewrite String.eqb_refl|].
  destruct (String.eqb_spec a k) as [->|E]; [|auto]. exfalso. apply H2. apply in_map_iff. now exists (k, v).
Qed.
Lemma assoc_none : forall l k, ~ In k (map fst l) -> assoc_s k l = None.
Proof.
  induction l as [|[a b] l IH]; intros k H; [reflexivity|]. cbn in *.
  destruct (String.eqb_spec a k) as [->|E]; [tauto|]. apply IH. tauto.
Qed.

Section P.
Variable conv back : list (string * string).
Variable rad hrs names : list string.

Lemma inv_in : forall k v, NoDup (map snd conv) -> In (k, v) conv -> inv conv v = Some k.
Proof.
  intros k v N H. unfold inv. apply assoc_in.
  - rewrite map_rev. apply NoDup_rev. rewrite map_map. exact N.
  - apply in_rev. rewrite rev_involutive. apply in_map_iff. now exists (k, v).
Qed.
Lemma inv_none : forall n, ~ In n (map snd conv) -> inv conv n = None.
Proof.
  intros n H. unfold inv. apply assoc_none. rewrite map_rev, <- in_rev, map_map. exact H.
Qed.

(** ** Columns *)
Definition numeric (c : list val) : Prop := forall s, ~ In (VStr s) c.
Definition apply_num (f : R -> R) (v : val) : val := match v with VNum x => VNum (f x) | w => w end.
Lemma num_col_ok : forall f c, numeric c -> num_col f c = Ok (map (apply_num f) c).
Proof.
  induction c as [|v c IH]; intros N; [reflexivity|]. cbn.
  assert (numeric c) by (intros s H; exact (N s (or_intror H))). rewrite IH by assumption.
  destruct v as [x| |s]; try reflexivity. exfalso. exact (N s (or_introl eq_refl)).
Qed.
Lemma numeric_map : forall f c, numeric c -> numeric (map (apply_num f) c).
Proof. intros f c N s H. apply in_map_iff in H. destruct H as (v & E & H). destruct v; try discriminate. injection E as ->. exact (N s H). Qed.
Lemma num_round : forall f g, (forall x, f (g x) = x) -> forall c, map (apply_num f) (map (apply_num g) c) = c.
Proof.
  intros f g E c. rewrite map_map. rewrite <- map_id. apply map_ext. intros [x| |s]; cbn; [now rewrite E|reflexivity|reflexivity].
Qed.

Lemma df_get_in : forall d n c, NoDup (map fst d) -> In (n, c) d -> df_get n d = Ok c.
Proof.
  induction d as [|[m c'] d IH]; intros n c N H; [destruct H|]. cbn in *. inversion N; subst.
  destruct H as [[= -> ->]|H]; [now rewrite String.eqb_refl|].
  destruct (String.eqb_spec m n) as [->|E]; [|auto]. exfalso. apply H2. apply in_map_iff. now exists (n, c).
Qed.
Lemma df_get_none : forall d n, ~ In n (map fst d) -> df_get n d = Raise KeyError.
Proof.
  induction d as [|[m c'] d IH]; intros n H; [reflexivity|]. cbn in *.
  destruct (String.eqb_spec m n) as [->|E]; [tauto|]. apply IH. tauto.
Qed.
Definition on (p : string -> bool) (f : list val -> list val) (d : list (string * list val)) : list (string * list val) :=
  map (fun q => (fst q, if p (fst q) then f (snd q) else snd q)) d.
Lemma on_names : forall p f d, map fst (on p f d) = map fst d.
Proof. intros. unfold on. rewrite map_map. reflexivity. Qed.
Lemma df_set_on : forall d n c f, NoDup (map fst d) -> In (n, c) d -> df_set n (f c) d = on (fun m => String.eqb m n) f d.
Proof.
  induction d as [|[m c'] d IH]; intros n c f N H; [destruct H|]. cbn in *. inversion N; subst.
  destruct (String.eqb_spec m n) as [->|E].
  - destruct H as [[= <-]|H]; [|exfalso; apply H2; apply in_map_iff; now exists (n, c)].
    f_equal. clear - H2. induction d as [|[m c'] d IH]; [reflexivity|]. cbn in *.
    destruct (String.eqb_spec m n) as [->|E]; [tauto|]. now rewrite <- IH by tauto.
  - destruct H as [[= -> ->]|H]; [congruence|]. now rewrite (IH n c f).
Qed.
Lemma on_on : forall p q f d, (forall n, p n = true -> q n = false) ->
  on q f (on p f d) = on (fun n => p n || q n) f d.
Proof.
  intros p q f d D. unfold on. rewrite map_map. apply map_ext. intros [n c]. cbn.
  destruct (p n) eqn:P; cbn; [|reflexivity]. now rewrite (D n P).
Qed.
Lemma on_ext : forall p q f d, (forall n, In n (map fst d) -> p n = q n) -> on p f d = on q f d.
Proof. intros p q f d H. unfold on. apply map_ext_in. intros [n c] Hi. cbn. rewrite H; [reflexivity|]. apply (in_map fst) in Hi. exact Hi. Qed.

Lemma fwd_loop_ok : forall f cs d, NoDup (map fst d) -> NoDup cs -> (forall n, In n cs -> exists c, In (n, c) d /\ numeric c) ->
  fwd_loop f cs d = Ok (on (fun n => mem n cs) (map (apply_num f)) d).
Proof.
  induction cs as [|n cs IH]; intros d Nd Nc H; cbn [fwd_loop].
  - unfold on. cbn. f_equal. rewrite <- map_id at 1. apply map_ext. now intros [a b].
  - destruct (H n (or_introl eq_refl)) as (c & Hc & Nm). rewrite (df_get_in _ _ _ Nd Hc). cbn [bind].
    rewrite num_col_ok by exact Nm. cbn [bind]. rewrite (df_set_on d n c (map (apply_num f)) Nd Hc).
    inversion Nc; subst. rewrite IH.
    + rewrite on_on.
      * reflexivity.
      * intros m E. apply String.eqb_eq in E. subst. now apply mem_false.
    + now rewrite on_names.
    + assumption.
    + intros m Hm. destruct (H m (or_intror Hm)) as (c2 & Hc2 & N2). exists c2. split; [|exact N2].
      unfold on. apply in_map_iff. exists (m, c2). split; [|exact Hc2]. cbn.
      destruct (String.eqb_spec m n) as [->|E]; [contradiction|reflexivity].
Qed.
Lemma bwd_loop_ok : forall f cs d, NoDup (map fst d) -> NoDup cs -> (forall n, In n cs -> exists c, In (n, c) d /\ numeric c) ->
  bwd_loop f cs d = on (fun n => mem n cs) (map (apply_num f)) d.
Proof.
  induction cs as [|n cs IH]; intros d Nd Nc H; cbn [bwd_loop].
  - unfold on. cbn. rewrite <- map_id at 1. apply map_ext. now intros [a b].
  - destruct (H n (or_introl eq_refl)) as (c & Hc & Nm). rewrite (df_get_in _ _ _ Nd Hc). cbn [bind].
    rewrite num_col_ok by exact Nm. cbv zeta. rewrite (df_set_on d n c (map (apply_num f)) Nd Hc).
    inversion Nc; subst. rewrite IH.
    + rewrite on_on.
      * reflexivity.
      * intros m E. apply String.eqb_eq in E. subst. now apply mem_false.
    + now rewrite on_names.
    + assumption.
    + intros m Hm. destruct (H m (or_intror Hm)) as (c2 & Hc2 & N2). exists c2. split; [|exact N2].
      unfold on. apply in_map_iff. exists (m, c2). split; [|exact Hc2]. cbn.
      destruct (String.eqb_spec m n) as [->|E]; [contradiction|reflexivity].
Qed.

(** ** The round trip *)
Definition nm (n : string) : string := match inv conv n with Some m => m | None => n end.
Definition un (n : string) : string := match assoc_s n conv with Some m => m | None => n end.
Definition schema_name (n a : string) : Prop := In (a, n) conv \/ (~ In n (map snd conv) /\ a = n).

Record consistent : Prop := mkCon {
  k_names : NoDup names;
  k_keys : NoDup (map fst conv);
  k_vals : NoDup (map snd conv);
  k_angles : NoDup (rad ++ hrs);
  k_plain : forall n, In n names -> ~ In n (map snd conv) -> ~ In n (map fst conv);
  k_back : forall n a, In n names -> n <> "note"%string -> schema_name n a -> ~ In a (map fst back);
  k_cols : forall a, In a (rad ++ hrs) -> exists n, In n names /\ n <> "note"%string /\ schema_name n a;
  k_note : In "note"%string names }.

Hypothesis K : consistent.
Lemma nm_schema : forall n a, schema_name n a -> nm n = a.
Proof.
  intros n a [H|[H ->]]; unfold nm; [now rewrite (inv_in a n (k_vals K) H)|now rewrite inv_none].
Qed.
Lemma schema_nm : forall n, schema_name n (nm n).
Proof.
  intros n. destruct (in_dec string_dec n (map snd conv)) as [H|H].
  - apply in_map_iff in H. destruct H as ([k v] & <- & H). left. cbn. unfold nm. now rewrite (inv_in k v (k_vals K) H).
  - right. split; [exact H|]. unfold nm. now rewrite inv_none.
Qed.
Lemma un_nm : forall n, In n names -> un (nm n) = n.
Proof.
  intros n H. destruct (schema_nm n) as [S|[S ->]]; unfold un.
  - now rewrite (assoc_in _ _ _ (k_keys K) S).
  - now rewrite (assoc_none _ _ (k_plain K n H S)).
Qed.

Lemma NoDup_nm : forall l, (forall n, In n l -> In n names) -> NoDup l -> NoDup (map nm l).
Proof.
  induction l as [|n l IH]; intros H N; cbn; [constructor|]. inversion N; subst. constructor.
  - intros X. apply in_map_iff in X. destruct X as (m & E & Hm).
    assert (m = n). { rewrite <- (un_nm m), <- (un_nm n); [now rewrite E|apply H; now left|apply H; now right]. } subst. contradiction.
  - apply IH; [intros; apply H; now right|assumption].
Qed.

Lemma backwards_id : forall l d, (forall a, In a (map fst d) -> ~ In a (map fst l)) ->
  fold_left (fun d p => if mem (fst p) (map fst d) then df_rename (fun n => if String.eqb n (fst p) then Some (snd p) else None) d else d) l d = d.
Proof.
  induction l as [|p l IH]; intros d H; cbn; [reflexivity|].
  assert (E : mem (fst p) (map fst d) = false).
  { apply mem_false. intros X. apply (H _ X). now left. }
  rewrite E. apply IH. intros a Ha X. exact (H a Ha (or_intror X)).
Qed.

Definition numeric_angles (d : list (string * list val)) : Prop :=
  forall n c a, In (n, c) d -> schema_name n a -> In a (rad ++ hrs) -> numeric c.
Definition kept (d : list (string * list val)) := filter (fun p : string * list val => negb (String.eqb (fst p) "note")) d.
Definition in_schema (d : list (string * list val)) : list (string * list val) :=
  on (fun n => mem n hrs) (map (apply_num to_deg)) (on (fun n => mem n rad) (map (apply_num degrees)) (map (fun p => (nm (fst p), snd p)) (kept d))).

Lemma kept_names : forall d n, map fst d = names -> In n (map fst (kept d)) -> In n names /\ n <> "note"%string.
Proof.
  intros d n E H. apply in_map_iff in H. destruct H as (p & <- & H). apply filter_In in H. destruct H as [H1 H2].
  split; [rewrite <- E; now apply in_map|]. apply negb_true_iff in H2. now apply String.eqb_neq.
Qed.
Lemma NoDup_map_filter : forall (d : list (string * list val)) p, NoDup (map fst d) -> NoDup (map fst (filter p d)).
Proof.
  induction d as [|q d IH]; intros p N; cbn; [constructor|]. inversion N; subst. destruct (p q); cbn; auto.
  constructor; auto. intros X. apply H1. apply in_map_iff in X. destruct X as (r & E & Hr). apply filter_In in Hr.
  apply in_map_iff. exists r. tauto.
Qed.

Variable d : list (string * list val).
Hypothesis Dn : map fst d = names.
Hypothesis Da : numeric_angles d.
Let d0 := map (fun p => (nm (fst p), snd p)) (kept d).

Lemma d0_nodup : NoDup (map fst d0).
Proof.
  unfold d0. rewrite map_map. cbn. replace (map (fun x => nm (fst x)) (kept d)) with (map nm (map fst (kept d))) by apply map_map.
  apply NoDup_nm; [intros n H; now apply (kept_names d n Dn)|]. apply NoDup_map_filter. rewrite Dn. apply (k_names K).
Qed.
Lemma d0_angle : forall a, In a (rad ++ hrs) -> exists c, In (a, c) d0 /\ numeric c.
Proof.
  intros a Ha. destruct (k_cols K a Ha) as (n & Hn & Nn & S).
  rewrite <- Dn in Hn. apply in_map_iff in Hn. destruct Hn as ([n' c] & <- & Hn). cbn in *.
  exists c. split.
  - unfold d0. apply in_map_iff. exists (n', c). cbn. split; [now rewrite (nm_schema _ _ S)|].
    apply filter_In. split; [exact Hn|]. cbn. apply negb_true_iff. now apply String.eqb_neq.
  - exact (Da n' c a Hn S Ha).
Qed.
Lemma rad_hrs : forall a, In a rad -> ~ In a hrs.
Proof.
  intros a H1 H2. pose proof (k_angles K) as N. clear - H1 H2 N. induction rad as [|b r IH]; [destruct H1|].
  cbn in N. inversion N; subst. destruct H1 as [->|H1]; [apply H3; apply in_or_app; now right|auto].
Qed.
Lemma NoDup_app1 : forall (a b : list string), NoDup (a ++ b) -> NoDup a /\ NoDup b.
Proof.
  induction a as [|x a IH]; intros b N; cbn in *; [split; [constructor|exact N]|]. inversion N; subst.
  destruct (IH b H2). split; [|assumption]. constructor; [|assumption]. intros X. apply H1. apply in_or_app. now left.
Qed.

Lemma on_in : forall p f e n c, In (n, c) e -> p n = false -> In (n, c) (on p f e).
Proof. intros p f e n c H E. unfold on. apply in_map_iff. exists (n, c). cbn. now rewrite E. Qed.
Lemma on_in_t : forall p f e n c, In (n, c) e -> p n = true -> In (n, f c) (on p f e).
Proof. intros p f e n c H E. unfold on. apply in_map_iff. exists (n, c). cbn. now rewrite E. Qed.

Lemma fwd_ok : obs2opsim conv rad hrs d = Ok (in_schema d).
Proof.
  unfold obs2opsim, df_drop. rewrite Dn. rewrite (proj2 (mem_in _ _) (k_note K)). cbn [bind].
  change (filter (fun p : string * list val => negb (fst p =? "note")%string) d) with (kept d).
  change (df_rename (inv conv) (kept d)) with d0.
  destruct (NoDup_app1 _ _ (k_angles K)) as [Nr Nh].
  rewrite fwd_loop_ok; [cbn [bind]|exact d0_nodup|exact Nr|intros; apply d0_angle; apply in_or_app; now left].
  rewrite fwd_loop_ok; [reflexivity|now rewrite on_names; apply d0_nodup|exact Nh|].
  intros n H. destruct (d0_angle n) as (c & Hc & Nc); [apply in_or_app; now right|]. exists c. split; [|exact Nc].
  apply on_in; [exact Hc|]. apply mem_false. intros X. exact (rad_hrs n X H).
Qed.

Lemma deg_rad : forall x, radians (degrees x) = x.
Proof. intros x. unfold radians, degrees. field. apply PI_neq0. Qed.
Lemma hr_deg : forall x, to_hours (to_deg x) = x.
Proof. intros x. unfold to_hours, to_deg. field. Qed.

Lemma bwd_ok : opsim2obs conv back rad hrs names (in_schema d) =
  map (fun p => (fst p, if String.eqb (fst p) "note" then None else Some (snd p))) d.
Proof.
  unfold opsim2obs. cbv zeta.
  assert (Sn : map fst (in_schema d) = map fst d0) by (unfold in_schema; rewrite !on_names; reflexivity).
  unfold backwards. rewrite backwards_id.
  2:{ intros a Ha. rewrite Sn in Ha. unfold d0 in Ha. rewrite map_map in Ha. cbn in Ha. apply in_map_iff in Ha.
      destruct Ha as (p & <- & Hp). destruct (kept_names d (fst p) Dn) as [H1 H2]; [now apply in_map|].
      exact (k_back K (fst p) _ H1 H2 (schema_nm (fst p))). }
  destruct (NoDup_app1 _ _ (k_angles K)) as [Nr Nh].
  assert (An : forall a, In a rad -> exists c, In (a, c) (in_schema d) /\ numeric c).
  { intros a Ha. destruct (d0_angle a) as (c & Hc & Nc); [apply in_or_app; now left|].
    exists (map (apply_num degrees) c). split; [|now apply numeric_map]. unfold in_schema. apply on_in.
    - apply (on_in_t _ (map (apply_num degrees))); [exact Hc|now apply mem_in].
    - apply mem_false. now apply rad_hrs. }
  rewrite (bwd_loop_ok radians rad (in_schema d)); [|rewrite Sn; apply d0_nodup|exact Nr|exact An].
  rewrite bwd_loop_ok; [|rewrite on_names, Sn; apply d0_nodup|exact Nh|].
  2:{ intros a Ha. destruct (d0_angle a) as (c & Hc & Nc); [apply in_or_app; now right|].
      exists (map (apply_num to_deg) c). split; [|now apply numeric_map].
      assert (X : mem a rad = false) by (apply mem_false; intros X; exact (rad_hrs a X Ha)).
      apply on_in; [|exact X]. unfold in_schema. apply (on_in_t _ (map (apply_num to_deg))); [|now apply mem_in].
      apply on_in; [exact Hc|exact X]. }
  assert (E : on (fun n => mem n hrs) (map (apply_num to_hours)) (on (fun n => mem n rad) (map (apply_num radians)) (in_schema d)) = d0).
  { unfold in_schema. fold d0. unfold on. rewrite !map_map. rewrite <- (map_id d0) at 2. apply map_ext. intros [n c]. cbn.
    f_equal. destruct (mem n rad) eqn:R, (mem n hrs) eqn:H.
    - exfalso. apply mem_in in R, H. exact (rad_hrs n R H).
    - apply num_round, deg_rad.
    - apply num_round, hr_deg.
    - reflexivity. }
  rewrite E.
  assert (F : df_rename (fun n => assoc_s n conv) d0 = kept d).
  { unfold df_rename, d0. rewrite map_map. cbn. rewrite <- (map_id (kept d)) at 2. apply map_ext_in. intros [n c] Hi. cbn.
    change (match assoc_s (nm n) conv with Some m => m | None => nm n end) with (un (nm n)). rewrite un_nm; [reflexivity|].
    apply (in_map fst) in Hi. now apply (kept_names d n Dn). }
  rewrite F. rewrite <- Dn at 1. rewrite map_map. apply map_ext_in. intros [n c] Hi. cbn [fst snd].
  assert (Nk : NoDup (map fst (kept d))) by (apply NoDup_map_filter; rewrite Dn; apply (k_names K)).
  destruct (String.eqb_spec n "note") as [->|Nn].
  - rewrite df_get_none; [reflexivity|]. intros X. now apply (kept_names d _ Dn) in X.
  - rewrite (df_get_in _ n c Nk); [reflexivity|]. apply filter_In. split; [exact Hi|]. cbn. apply negb_true_iff. now apply String.eqb_neq.
Qed.
End P.
