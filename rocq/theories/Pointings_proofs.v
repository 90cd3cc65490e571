(** Proofs about the survey over a list of pointings. *)
From Coq Require Import List ZArith QArith Qround Qabs Bool String Lia Lqa.
From Verif Require Import Base IntRounded IntRounded_proofs Feat_proofs2 Core Core_proofs Sky Sky_proofs Blob_proofs Script_proofs Pointings.
From Verif Require Script Surveys.
Import ListNotations.
Open Scope nat_scope.

(** ** Counters *)
Definition visits_of (l : list pop) : list visit := flat_map (fun o => match o with One _ v => [v] | Many _ vs => vs | Ask _ => [] end) l.
Definition valid_op (o : pop) : Prop :=
  match o with Many order l => NoDup order /\ (forall n, In n order <-> exists v, In v l /\ w_note v = n) | _ => True end.
Definition in_time (l : list visit) : Prop := forall a b pre mid post, l = pre ++ a :: mid ++ b :: post -> (w_mjd a <= w_mjd b)%Q.
Definition count (P : visit -> bool) (l : list visit) : Z := Z.of_nat (List.length (filter P l)).

Lemma in_time_app : forall l1 l2, in_time (l1 ++ l2) -> in_time l1 /\ in_time l2 /\ (forall a b, In a l1 -> In b l2 -> (w_mjd a <= w_mjd b)%Q).
Proof.
  intros l1 l2 H. split; [|split].
  - intros a b pre mid post E. apply (H a b pre mid (post ++ l2)). rewrite E, <- app_assoc, <- app_comm_cons, <- app_assoc, <- app_comm_cons. reflexivity.
  - intros a b pre mid post E. apply (H a b (l1 ++ pre) mid post). rewrite E, <- app_assoc. reflexivity.
  - intros a b Ia Ib. apply in_split in Ia. destruct Ia as (p & q & ->). apply in_split in Ib. destruct Ib as (r & t & ->).
    apply (H a b p (q ++ r) t). rewrite <- !app_assoc. cbn. reflexivity.
Qed.

Lemma at_note_len : forall A n (f : A -> A) notes l, List.length (at_note n f notes l) = List.length l.
Proof. intros A n f. induction notes as [|s ns IH]; intros [|x r]; cbn; try reflexivity. now rewrite IH. Qed.
Lemma at_note_nth : forall A n (f : A -> A) notes l i s x, nth_error notes i = Some s -> nth_error l i = Some x ->
  nth_error (at_note n f notes l) i = Some (if String.eqb n s then f x else x).
Proof.
  intros A n f. induction notes as [|s0 ns IH]; intros [|x0 r] i s x Hs Hx; try (destruct i; discriminate).
  destruct i as [|i]; cbn in *; [inversion Hs; inversion Hx; subst; reflexivity|]. apply IH; assumption.
Qed.

Lemma latest_spec : forall l, l <> [] -> (exists v, In v l /\ latest l = w_mjd v) /\ (forall v, In v l -> (w_mjd v <= latest l)%Q).
Proof.
  intros [|v r] H; [congruence|]. clear H. cbn [latest].
  assert (G : forall r a, ((fold_left (fun a w => if Qle_bool a (w_mjd w) then w_mjd w else a) r a = a) \/ exists v, In v r /\ fold_left (fun a w => if Qle_bool a (w_mjd w) then w_mjd w else a) r a = w_mjd v) /\
     (a <= fold_left (fun a w => if Qle_bool a (w_mjd w) then w_mjd w else a) r a)%Q /\ (forall v, In v r -> (w_mjd v <= fold_left (fun a w => if Qle_bool a (w_mjd w) then w_mjd w else a) r a)%Q)).
  { clear. induction r as [|w r IH]; intros a; cbn [fold_left]; [split; [left; reflexivity|split; [apply Qle_refl|contradiction]]|].
    destruct (Qle_bool a (w_mjd w)) eqn:E.
    - apply Qle_bool_iff in E. destruct (IH (w_mjd w)) as (A & B & C). split; [|split].
      + right. destruct A as [A|(v & I & A)]; [exists w; split; [left; reflexivity|exact A]|exists v; split; [right; exact I|exact A]].
      + eapply Qle_trans; eassumption.
      + intros v [<-|I]; [exact B|apply C; exact I].
    - apply Qle_bool_false in E. destruct (IH a) as (A & B & C). split; [|split].
      + destruct A as [A|(v & I & A)]; [left; exact A|right; exists v; split; [right; exact I|exact A]].
      + exact B.
      + intros v [<-|I]; [lra|apply C; exact I]. }
  destruct (G r (w_mjd v)) as (A & B & C). split.
  - destruct A as [A|(u & I & A)]; [exists v; split; [left; reflexivity|exact A]|exists u; split; [right; exact I|exact A]].
  - intros u [<-|I]; [exact B|apply C; exact I].
Qed.
Lemma matching_In : forall n l v, In v (matching n l) <-> In v l /\ w_note v = n.
Proof. intros n l v. unfold matching. rewrite filter_In, String.eqb_eq. reflexivity. Qed.

Lemma count_app : forall P a b, count P (a ++ b) = (count P a + count P b)%Z.
Proof. intros P a b. unfold count. rewrite filter_app, app_length, Nat2Z.inj_add. reflexivity. Qed.
Lemma count_one : forall P v, count P [v] = (if P v then 1 else 0)%Z.
Proof. intros P v. unfold count. cbn. destruct (P v); reflexivity. Qed.

(** Sum over the notes of a batch. *)
Fixpoint zsum (f : string -> Z) (l : list string) : Z := match l with [] => 0%Z | x :: r => (f x + zsum f r)%Z end.
Lemma zsum_zero : forall f l, (forall n, In n l -> f n = 0%Z) -> zsum f l = 0%Z.
Proof. intros f. induction l as [|x r IH]; intros H; [reflexivity|]. cbn. rewrite H by (left; reflexivity). rewrite IH; [reflexivity|]. intros n I. apply H. right. exact I. Qed.
Lemma zsum_add : forall f g l, zsum (fun n => f n + g n)%Z l = (zsum f l + zsum g l)%Z.
Proof. intros f g. induction l as [|x r IH]; [reflexivity|]. cbn. rewrite IH. lia. Qed.
Lemma zsum_ext : forall f g l, (forall n, In n l -> f n = g n) -> zsum f l = zsum g l.
Proof. intros f g. induction l as [|x r IH]; intros H; [reflexivity|]. cbn. rewrite H by (left; reflexivity). f_equal. apply IH. intros n I. apply H. right. exact I. Qed.
Lemma zsum_single : forall (P : string -> bool) m l, NoDup l -> In m l -> zsum (fun n => if P n then (if String.eqb m n then 1 else 0) else 0)%Z l = (if P m then 1 else 0)%Z.
Proof.
  intros P m. induction l as [|x r IH]; intros N I; [contradiction|]. inversion N; subst. cbn [zsum]. destruct (String.eqb_spec m x) as [E|E].
  - subst x. rewrite zsum_zero; [destruct (P m); lia|]. intros n In'. destruct (P n); [|reflexivity]. destruct (String.eqb_spec m n) as [E|E]; [subst; contradiction|reflexivity].
  - destruct I as [I|I]; [congruence|]. rewrite IH by assumption. destruct (P x); lia.
Qed.
Lemma zsum_matching : forall (P : string -> bool) order l, NoDup order -> (forall v, In v l -> In (w_note v) order) ->
  zsum (fun n => if P n then Z.of_nat (List.length (matching n l)) else 0%Z) order = count (fun v => P (w_note v)) l.
Proof.
  intros P order. induction l as [|v l IH]; intros N H.
  - cbn. apply zsum_zero. intros n _. destruct (P n); reflexivity.
  - change (v :: l) with ([v] ++ l). rewrite count_app, count_one, <- IH; [|exact N|intros u I; apply H; right; exact I].
    rewrite <- (zsum_single P (w_note v) order N (H v (or_introl eq_refl))), <- zsum_add. apply zsum_ext. intros n _. unfold matching. cbn [app filter].
    destruct (P n); [|reflexivity]. destruct (String.eqb (w_note v) n); cbn [List.length]; lia.
Qed.

Definition shaped (g : pcfg) (s : pst) : Prop := List.length (p_n s) = List.length (g_notes g) /\ List.length (p_last s) = List.length (g_notes g).
Lemma nth_some : forall A (l : list A) i, i < List.length l -> exists x, nth_error l i = Some x.
Proof. intros A l i H. destruct (nth_error l i) as [x|] eqn:E; [exists x; reflexivity|]. apply nth_error_None in E. lia. Qed.

Lemma batch_n : forall g l order s i t, NoDup order -> shaped g s -> nth_error (g_notes g) i = Some t ->
  let s' := fold_left (add_note g l) order s in
  shaped g s' /\
  (forall x, nth_error (p_n s) i = Some x -> nth_error (p_n s') i = Some (x + (if in_dec string_dec t order then Z.of_nat (List.length (matching t l)) else 0))%Z) /\
  (forall x, nth_error (p_last s) i = Some x -> nth_error (p_last s') i = Some (if in_dec string_dec t order then latest (matching t l) else x)) /\
  p_track s' = map (fun kn => (fst kn, (snd kn + zsum (fun n => if Script.contains (fst kn) n then Z.of_nat (List.length (matching n l)) else 0%Z) order)%Z)) (p_track s) /\
  p_mjd s' = p_mjd s.
Proof.
  intros g l. induction order as [|n order IH]; intros s i t N S Ht; cbn [fold_left].
  - cbv zeta. split; [exact S|]. split; [|split; [|split]].
    + intros x Hx. rewrite Hx. f_equal. cbn. lia.
    + intros x Hx. rewrite Hx. f_equal.
    + rewrite <- (map_id (p_track s)) at 1. apply map_ext. intros [k m]. cbn. f_equal. lia.
    + reflexivity.
  - inversion N; subst. assert (S1 : shaped g (add_note g l s n)) by (destruct S as [Sa Sb]; split; cbn [add_note p_n p_last]; rewrite at_note_len; assumption).
    destruct (IH (add_note g l s n) i t H2 S1 Ht) as (A & B & C & D & M). cbv zeta. split; [exact A|]. split; [|split; [|split]].
    + intros x Hx. rewrite (B _ (at_note_nth _ n _ (g_notes g) (p_n s) i t x Ht Hx)). f_equal.
      destruct (String.eqb_spec n t) as [E|E].
      * subst n. destruct (in_dec string_dec t order) as [I|I]; [contradiction|]. destruct (in_dec string_dec t (t :: order)) as [J|J]; [lia|exfalso; apply J; left; reflexivity].
      * destruct (in_dec string_dec t order) as [I|I]; destruct (in_dec string_dec t (n :: order)) as [J|J]; try reflexivity; exfalso; [apply J; right; exact I|].
        destruct J as [J|J]; [congruence|contradiction].
    + intros x Hx. rewrite (C _ (at_note_nth _ n _ (g_notes g) (p_last s) i t x Ht Hx)). f_equal.
      destruct (String.eqb_spec n t) as [E|E].
      * subst n. destruct (in_dec string_dec t order) as [I|I]; [contradiction|]. destruct (in_dec string_dec t (t :: order)) as [J|J]; [reflexivity|exfalso; apply J; left; reflexivity].
      * destruct (in_dec string_dec t order) as [I|I]; destruct (in_dec string_dec t (n :: order)) as [J|J]; try reflexivity; exfalso; [apply J; right; exact I|].
        destruct J as [J|J]; [congruence|contradiction].
    + rewrite D. cbn [add_note p_track]. rewrite map_map. apply map_ext. intros [k m]. cbn [fst snd zsum].
      destruct (Script.contains k n) eqn:E; cbn [fst snd]; f_equal; lia.
    + rewrite M. reflexivity.
Qed.

Lemma ask_keeps : forall tw g s c s' r, calc_reward tw g s c = Ok (s', r) -> p_n s' = p_n s /\ p_last s' = p_last s /\ p_track s' = p_track s /\ (p_mjd s' = c_mjd c \/ s' = s).
Proof.
  intros tw g s c s' r H. unfold calc_reward in H. destruct (Qeq_bool (p_mjd s) (c_mjd c)).
  - destruct (p_reward s); inversion H; subst. repeat split. right. reflexivity.
  - destruct (sum_weights _ _ _ _ _ _) as [x|e]; cbn in H; inversion H; subst. cbn. repeat split. left. reflexivity.
Qed.

(** How a report of one visit counts towards a sequence. *)
Definition counted (key : string) (o : pop) : Z :=
  match o with
  | One true v => if String.eqb key (w_note v) then 1 else 0
  | One false v => if Script.contains key (w_note v) then 1 else 0
  | Many _ l => count (fun v => Script.contains key (w_note v)) l
  | Ask _ => 0
  end%Z.
Definition zcounted (key : string) (l : list pop) : Z := fold_right (fun o z => (counted key o + z)%Z) 0%Z l.

Lemma zcounted_app : forall k a b, zcounted k (a ++ b) = (zcounted k a + zcounted k b)%Z.
Proof. intros k a b. unfold zcounted. induction a as [|o a IH]; [reflexivity|]. cbn [app fold_right]. rewrite IH. lia. Qed.

Lemma p_new_ok : forall g s, p_new g = Ok s -> NoDup (g_notes g) /\ shaped g s /\ (forall i x, nth_error (p_n s) i = Some x -> x = 0%Z) /\
  (forall i x, nth_error (p_last s) i = Some x -> x = 0%Q) /\ p_track s = map (fun k => (fst k, 0%Z)) (g_goal g) /\ p_mjd s = (-1)%Q.
Proof.
  intros g s H. unfold p_new in H. destruct (Nat.eqb _ _) eqn:E; inversion H; subst. apply Nat.eqb_eq in E. split.
  - apply (NoDup_incl_NoDup (NoDup_nodup string_dec (g_notes g))); [lia|]. intros x I. apply nodup_In in I. exact I.
  - split; [split; cbn; apply map_length|]. split; [|split; [|split; reflexivity]]; cbn; intros i x Hx; rewrite nth_error_map in Hx; destruct (nth_error (g_notes g) i); inversion Hx; reflexivity.
Qed.

Lemma run_inv : forall tw g s0 ops i t, p_new g = Ok s0 -> Forall valid_op ops -> nth_error (g_notes g) i = Some t ->
  let s := p_run tw g s0 ops in
  shaped g s /\
  nth_error (p_n s) i = Some (count (fun v => String.eqb (w_note v) t) (visits_of ops)) /\
  (in_time (visits_of ops) -> exists last, nth_error (p_last s) i = Some last /\
     (forall v, In v (visits_of ops) -> w_note v = t -> (w_mjd v <= last)%Q) /\
     ((exists v, In v (visits_of ops) /\ w_note v = t /\ last = w_mjd v) \/ ((forall v, In v (visits_of ops) -> w_note v <> t) /\ last = 0%Q))) /\
  p_track s = map (fun k => (fst k, zcounted (fst k) ops)) (g_goal g) /\
  (p_mjd s = (-1)%Q \/ exists c, In (Ask c) ops /\ p_mjd s = c_mjd c).
Proof.
  intros tw g s0 ops i t H0 V Ht. destruct (p_new_ok g s0 H0) as (ND & Sh & N0 & L0 & T0 & M0). cbv zeta.
  assert (Li : i < List.length (g_notes g)) by (apply nth_error_Some; congruence).
  induction ops as [|o ops IH] using rev_ind.
  - cbn [p_run fold_left visits_of flat_map]. split; [exact Sh|]. destruct Sh as [S1 S2].
    destruct (nth_some _ (p_n s0) i) as [x Hx]; [lia|]. destruct (nth_some _ (p_last s0) i) as [y Hy]; [lia|].
    split; [rewrite Hx, (N0 i x Hx); reflexivity|]. split; [|split; [exact T0|left; exact M0]].
    intros _. exists y. split; [exact Hy|]. split; [intros v []|]. right. split; [intros v []|apply (L0 i y Hy)].
  - apply Forall_app in V. destruct V as [V1 V2]. pose proof (Forall_inv V2) as VO. specialize (IH V1). destruct IH as (A & B & C & D & M).
    unfold p_run in *. rewrite fold_left_app. cbn [fold_left]. set (s := fold_left (p_step tw g) ops s0) in *. clearbody s.
    assert (Ev : visits_of (ops ++ [o]) = visits_of ops ++ visits_of [o]) by (unfold visits_of; apply flat_map_app). rewrite Ev.
    assert (Mj : forall o', In (Ask o') ops -> In (Ask o') (ops ++ [o])) by (intros; apply in_or_app; left; assumption).
    assert (M' : p_mjd s = (-1)%Q \/ (exists c, In (Ask c) (ops ++ [o]) /\ p_mjd s = c_mjd c)).
    { destruct M as [M|(c & I & M)]; [left; exact M|right; exists c; split; [apply Mj; exact I|exact M]]. }
    assert (Tr : forall x, map (fun kn => (fst kn, (snd kn + x (fst kn))%Z)) (map (fun k : string * Z => (fst k, zcounted (fst k) ops)) (g_goal g)) =
       map (fun k => (fst k, (zcounted (fst k) ops + x (fst k))%Z)) (g_goal g)) by (intros; rewrite map_map; reflexivity).
    destruct o as [arr v|order l|c]; cbn [p_step visits_of flat_map app].
    + (* one *)
      destruct A as [S1 S2]. split; [split; cbn; rewrite at_note_len; assumption|]. split.
      * cbn [p_add p_n]. rewrite (at_note_nth _ _ _ _ _ _ _ _ Ht B). f_equal. rewrite count_app, count_one.
        rewrite String.eqb_sym. destruct (String.eqb _ _); lia.
      * split; [|split].
        -- intros T. destruct (in_time_app _ _ T) as (T1 & _ & T3). destruct (C T1) as (last & E & F & G). cbn [p_add p_last]. rewrite (at_note_nth _ _ _ _ _ _ _ _ Ht E).
           eexists. split; [reflexivity|]. destruct (String.eqb_spec (w_note v) t) as [Eq|Eq].
           ++ split.
              ** intros u I _. apply in_app_or in I. destruct I as [I|[I|[]]]; [apply T3; [exact I|left; reflexivity]|subst; apply Qle_refl].
              ** left. exists v. split; [apply in_or_app; right; left; reflexivity|]. split; [exact Eq|reflexivity].
           ++ split.
              ** intros u I Hu. apply in_app_or in I. destruct I as [I|[I|[]]]; [apply F; assumption|subst; congruence].
              ** destruct G as [(u & I & Hu & G)|[G1 G2]]; [left; exists u; split; [apply in_or_app; left; exact I|split; assumption]|].
                 right. split; [|exact G2]. intros u I. apply in_app_or in I. destruct I as [I|[I|[]]]; [apply G1; exact I|subst; exact Eq].
        -- cbn [p_add p_track]. rewrite D, map_map. apply map_ext. intros [k m]. cbn [fst snd]. rewrite zcounted_app. unfold zcounted at 4. cbn [fold_right counted].
           destruct arr; [destruct (String.eqb k (w_note v))|destruct (Script.contains k (w_note v))]; f_equal; lia.
        -- exact M'.
    + (* many *)
      destruct VO as [Nd Co]. destruct (batch_n g l order s i t Nd A Ht) as (A' & B' & C' & D' & E'). unfold p_batch. split; [exact A'|]. rewrite app_nil_r.
      assert (Cn : Z.of_nat (List.length (matching t l)) = count (fun v => String.eqb (w_note v) t) l) by reflexivity.
      split.
      * rewrite (B' _ B). f_equal. rewrite count_app, <- Cn. destruct (in_dec string_dec t order) as [I|I]; [reflexivity|].
        replace (List.length (matching t l)) with 0; [reflexivity|]. symmetry. apply length_zero_iff_nil. destruct (matching t l) as [|v r] eqn:Em; [reflexivity|].
        exfalso. apply I. apply Co. exists v. apply matching_In. rewrite Em. left. reflexivity.
      * split; [|split].
        -- intros T. destruct (in_time_app _ _ T) as (T1 & _ & T3). destruct (C T1) as (last & E & F & G). rewrite (C' _ E). eexists. split; [reflexivity|].
           destruct (in_dec string_dec t order) as [I|I].
           ++ apply Co in I. destruct I as (v & Iv & Nv). assert (Iv' : In v (matching t l)) by (apply matching_In; split; assumption).
              assert (Ne : matching t l <> []) by (intros Z; rewrite Z in Iv'; contradiction).
              destruct (latest_spec _ Ne) as [(u & Iu & Eu) Up]. split.
              ** intros w Iw Hw. apply in_app_or in Iw. destruct Iw as [Iw|Iw].
                 --- eapply Qle_trans; [apply (T3 w v Iw Iv)|]. apply Up. exact Iv'.
                 --- apply Up. apply matching_In. split; assumption.
              ** left. exists u. apply matching_In in Iu. destruct Iu as [Iu Nu]. split; [apply in_or_app; right; exact Iu|]. split; assumption.
           ++ assert (No : forall v, In v l -> w_note v <> t) by (intros v Iv Nv; apply I, Co; exists v; split; assumption). split.
              ** intros w Iw Hw. apply in_app_or in Iw. destruct Iw as [Iw|Iw]; [apply F; assumption|]. exfalso. apply (No w Iw Hw).
              ** destruct G as [(u & Iu & Hu & G)|[G1 G2]]; [left; exists u; split; [apply in_or_app; left; exact Iu|split; assumption]|].
                 right. split; [|exact G2]. intros u Iu. apply in_app_or in Iu. destruct Iu as [Iu|Iu]; [apply G1; exact Iu|apply No; exact Iu].
        -- rewrite D', D, map_map. apply map_ext. intros [k m]. cbn [fst snd]. f_equal. rewrite zcounted_app. f_equal. unfold zcounted. cbn [fold_right counted].
           rewrite (zsum_matching (Script.contains k) order l Nd); [lia|]. intros v Iv. apply Co. exists v. split; [exact Iv|reflexivity].
        -- rewrite E'. exact M'.
    + (* ask *)
      rewrite app_nil_r. destruct (calc_reward tw g s c) as [[s' r]|e] eqn:Ec.
      * destruct (ask_keeps _ _ _ _ _ _ Ec) as (K1 & K2 & K3 & K4). unfold shaped. rewrite K1, K2, K3.
        split; [exact A|]. split; [exact B|]. split; [exact C|]. split.
        -- rewrite D. apply map_ext. intros [k m]. cbn. rewrite zcounted_app. cbn. f_equal. lia.
        -- destruct K4 as [K4|K4]; [right; exists c; split; [apply in_or_app; right; left; reflexivity|exact K4]|]. rewrite K4. exact M'.
      * split; [exact A|]. split; [exact B|]. split; [exact C|]. split; [|exact M'].
        rewrite D. apply map_ext. intros [k m]. cbn. rewrite zcounted_app. cbn. f_equal. lia.
Qed.

(** ** Rewards *)
Lemma zip_add_nth : forall a b r, Surveys.zip_add a b = Ok r -> List.length r = List.length a /\ List.length b = List.length a /\
  forall i x y, nth_error a i = Some x -> nth_error b i = Some y -> nth_error r i = Some (Surveys.er_add x y).
Proof.
  induction a as [|x a IH]; intros [|y b] r H; try discriminate; cbn in H.
  - inversion H; subst. split; [reflexivity|]. split; [reflexivity|]. intros [|i] ? ? E; discriminate.
  - destruct (Surveys.zip_add a b) as [q|e] eqn:E; cbn in H; inversion H; subst. destruct (IH b q E) as (L1 & L2 & P).
    split; [cbn; congruence|]. split; [cbn; congruence|]. intros [|i] u v Hu Hv; cbn in *; [inversion Hu; inversion Hv; reflexivity|]. apply P; assumption.
Qed.
Lemma zip_add_len : forall a b, List.length a = List.length b -> exists r, Surveys.zip_add a b = Ok r.
Proof.
  induction a as [|x a IH]; intros [|y b] H; try discriminate; [exists []; reflexivity|]. cbn in H. destruct (IH b) as [r E]; [lia|].
  exists (Surveys.er_add x y :: r). cbn. rewrite E. reflexivity.
Qed.
Lemma add_nan : forall x y, er_isnan (Surveys.er_add x y) = false -> er_isnan x = false /\ er_isnan y = false.
Proof. intros [| |a|] [| |b|]; cbn; auto. Qed.
Lemma scale_nan : forall x w, er_isnan (Surveys.er_scale x w) = false -> er_isnan x = false.
Proof. intros [| |a|] w; cbn; auto. Qed.

Lemma sum_nan : forall tw g s c ws acc r, sum_weights tw g s c ws acc = Ok r ->
  List.length r = List.length acc /\
  forall i x, nth_error r i = Some x -> er_isnan x = false -> (exists a, nth_error acc i = Some a /\ er_isnan a = false) /\
    forall m w, In (m, w) ws -> exists v y, m_call tw g s c m = Ok v /\ nth_error v i = Some y /\ er_isnan y = false.
Proof.
  intros tw g s c. induction ws as [|[m w] ws IH]; intros acc r H; cbn [sum_weights] in H.
  - inversion H; subst. split; [reflexivity|]. intros i x Hx Nx. split; [exists x; split; assumption|]. intros ? ? [].
  - destruct (m_call tw g s c m) as [v|e] eqn:Em; [|discriminate]. cbn [bind] in H. destruct (Surveys.zip_add _ _) as [q|e] eqn:Eq; [|discriminate]. cbn [bind] in H.
    destruct (zip_add_nth _ _ _ Eq) as (L1 & L2 & P). destruct (IH q r H) as [Lr Q]. split; [congruence|].
    intros i x Hx Nx. destruct (Q i x Hx Nx) as [(a & Ha & Na) R]. rewrite map_length in L2.
    assert (Hi : i < List.length acc) by (rewrite <- L1; apply nth_error_Some; congruence).
    destruct (nth_some _ acc i Hi) as [u Hu]. destruct (nth_some _ v i) as [y Hy]; [lia|].
    assert (Hs : nth_error (map (fun x => Surveys.er_scale x w) v) i = Some (Surveys.er_scale y w)) by (rewrite nth_error_map, Hy; reflexivity).
    rewrite (P i u _ Hu Hs) in Ha. inversion Ha; subst a. destruct (add_nan _ _ Na) as [N1 N2]. split; [exists u; split; assumption|].
    intros m' w' [E|I]; [inversion E; subst; exists v, y; split; [exact Em|split; [exact Hy|apply (scale_nan _ _ N2)]]|apply (R m' w' I)].
Qed.
Definition finite (x : er) : Prop := exists q, x = EFin q.
Lemma sum_ok : forall tw g s c i ws acc, (forall m w, In (m, w) ws -> exists v y, m_call tw g s c m = Ok v /\ List.length v = List.length acc /\ nth_error v i = Some y /\ finite y) ->
  (exists a, nth_error acc i = Some a /\ finite a) ->
  exists r x, sum_weights tw g s c ws acc = Ok r /\ nth_error r i = Some x /\ finite x.
Proof.
  intros tw g s c i. induction ws as [|[m w] ws IH]; intros acc H (a & Ha & [qa Fa]); cbn [sum_weights].
  - exists acc, a. split; [reflexivity|]. split; [exact Ha|exists qa; exact Fa].
  - destruct (H m w (or_introl eq_refl)) as (v & y & E1 & E2 & E3 & [qy Fy]). rewrite E1. cbn [bind].
    destruct (zip_add_len acc (map (fun x => Surveys.er_scale x w) v)) as [q Eq]; [rewrite map_length; congruence|]. rewrite Eq. cbn [bind].
    destruct (zip_add_nth _ _ _ Eq) as (L1 & _ & P). apply IH.
    + intros m' w' I. destruct (H m' w' (or_intror I)) as (v' & y' & F1 & F2 & F3). exists v', y'. split; [exact F1|]. split; [congruence|exact F3].
    + exists (EFin (qa + qy * w)). split; [|eexists; reflexivity]. subst a y. apply (P i (EFin qa) (EFin (qy * w)) Ha). rewrite nth_error_map, E3. reflexivity.
Qed.

(** ** The methods at one pointing *)
Lemma lnth : forall A (l : list A) i d y, nth_error l i = Some y -> nth i l d = y.
Proof. intros A l i d y H. apply nth_error_nth. exact H. Qed.
Lemma nth_at : forall A (l : list A) i d, i < List.length l -> nth_error l i = Some (nth i l d).
Proof. intros A l i d H. apply nth_error_nth'. exact H. Qed.
Lemma lt_len : forall v x, List.length (cmp_all (ir_lt v [x])) = List.length v.
Proof. intros. apply (cmp_len Qltb). Qed.
Lemma gt_len : forall v x, List.length (cmp_all (ir_gt v [x])) = List.length v.
Proof. intros. apply (cmp_len (fun a b => Qltb b a)). Qed.
Lemma lt_far : forall v x i, (forall a, In a v -> far a x) -> i < List.length v -> nth i (cmp_all (ir_lt v [x])) false = Qltb (nth i v 0%Q) x.
Proof. intros v x i F I. apply (cmp_far Qltb v x i F I). Qed.
Lemma gt_far : forall v x i, (forall a, In a v -> far a x) -> i < List.length v -> nth i (cmp_all (ir_gt v [x])) false = Qltb x (nth i v 0%Q).
Proof. intros v x i F I. apply (cmp_far (fun a b => Qltb b a) v x i F I). Qed.
Lemma lt_off : forall v x i, i < List.length v -> (x <= nth i v 0)%Q -> nth i (cmp_all (ir_lt v [x])) false = false.
Proof. intros v x i I H. destruct (nth i (cmp_all (ir_lt v [x])) false) eqn:E; [|reflexivity]. apply lt_sound in E; [lra|exact I]. Qed.
Lemma gt_off : forall v x i, i < List.length v -> (nth i v 0 <= x)%Q -> nth i (cmp_all (ir_gt v [x])) false = false.
Proof. intros v x i I H. destruct (nth i (cmp_all (ir_gt v [x])) false) eqn:E; [|reflexivity]. apply gt_sound in E; [lra|exact I]. Qed.
Lemma set_len : forall sel v m, List.length sel = List.length m -> List.length (set_where sel v m) = List.length m.
Proof. intros sel v m H. unfold set_where. rewrite map_length, combine_length. lia. Qed.
Lemma Qltb_le : forall a b, Qltb a b = false -> (b <= a)%Q.
Proof. intros a b H. apply Qltb_false in H. exact H. Qed.

Definition sized (g : pcfg) (c : pcond) : Prop :=
  let n := List.length (g_notes g) in
  List.length (c_ha c) = n /\ List.length (c_alt c) = n /\ List.length (c_moon c) = n /\ List.length (c_slew c) = n /\ List.length (c_m5 c) = n /\
  (forall w, c_wind c = Some w -> List.length w = n).

Lemma m_ha_nth : forall g ha i d, i < List.length ha ->
  List.length (m_ha g ha) = List.length ha /\
  nth i (m_ha g ha) d = if nth i (cmp_all (ir_gt ha [g_ha_max g])) false && nth i (cmp_all (ir_lt ha [g_ha_min g])) false then ENaN else EFin 0.
Proof.
  intros g ha i d I. unfold m_ha. assert (L : List.length (both (cmp_all (ir_gt ha [g_ha_max g])) (cmp_all (ir_lt ha [g_ha_min g]))) = List.length ha).
  { rewrite both_len; rewrite gt_len; [reflexivity|rewrite lt_len; reflexivity]. }
  split; [rewrite set_len; rewrite filled_len; [reflexivity|exact L]|].
  rewrite nth_set_where; rewrite ?filled_len; [|exact L|exact I]. rewrite both_nth by (rewrite gt_len, lt_len; reflexivity). rewrite nth_filled by exact I. reflexivity.
Qed.
Lemma m_alt_nth : forall g c i d, i < List.length (c_alt c) ->
  List.length (m_alt g c) = List.length (c_alt c) /\
  nth i (m_alt g c) d = if nth i (cmp_all (ir_lt (c_alt c) [g_alt_min g])) false then ENaN else if nth i (cmp_all (ir_gt (c_alt c) [g_alt_max g])) false then ENaN else EFin 0.
Proof.
  intros g c i d I. unfold m_alt.
  assert (L : List.length (set_where (cmp_all (ir_gt (c_alt c) [g_alt_max g])) ENaN (filled (EFin 0) (c_alt c))) = List.length (c_alt c)) by (rewrite set_len; rewrite filled_len; [reflexivity|apply gt_len]).
  split; [rewrite set_len; rewrite L; [reflexivity|apply lt_len]|].
  rewrite nth_set_where; rewrite ?L; [|apply lt_len|exact I]. rewrite nth_set_where; rewrite ?filled_len; [|apply gt_len|exact I]. rewrite nth_filled by exact I. reflexivity.
Qed.
Lemma m_moon_nth : forall g c i d, i < List.length (c_moon c) ->
  List.length (m_moon g c) = List.length (c_moon c) /\ nth i (m_moon g c) d = if nth i (cmp_all (ir_lt (c_moon c) [g_moon g])) false then ENaN else EFin 0.
Proof.
  intros g c i d I. unfold m_moon. split; [rewrite set_len; rewrite filled_len; [reflexivity|apply lt_len]|].
  rewrite nth_set_where; rewrite ?filled_len; [|apply lt_len|exact I]. rewrite nth_filled by exact I. reflexivity.
Qed.
Lemma m_wind_nth : forall g c w i d, c_wind c = Some w -> i < List.length w ->
  List.length (m_wind g c) = List.length w /\ nth i (m_wind g c) d = if nth i (cmp_all (ir_gt w [g_wind g])) false then ENaN else EFin (0 - nth i w 0%Q * nth i w 0%Q).
Proof.
  intros g c w i d E I. unfold m_wind. rewrite E. split; [rewrite set_len; rewrite map_length; [reflexivity|apply gt_len]|].
  rewrite nth_set_where; rewrite ?map_length; [|apply gt_len|exact I]. rewrite (nth_indep _ d (EFin (0 - 0 * 0))) by (rewrite map_length; exact I).
  rewrite (map_nth (fun x => EFin (0 - x * x))). reflexivity.
Qed.
Lemma m_gap_nth : forall g s c i d, i < List.length (p_last s) ->
  List.length (m_gap g s c) = List.length (p_last s) /\
  nth i (m_gap g s c) d = if nth i (cmp_all (ir_lt (map (fun x => c_mjd c - x)%Q (p_last s)) [g_gap g])) false then ENaN else EFin 0.
Proof.
  intros g s c i d I. unfold m_gap. split; [rewrite set_len; rewrite filled_len, map_length; [reflexivity|rewrite lt_len, map_length; reflexivity]|].
  rewrite nth_set_where; rewrite ?filled_len, ?map_length; [|rewrite lt_len, map_length; reflexivity|exact I]. rewrite nth_filled by (rewrite map_length; exact I). reflexivity.
Qed.
Lemma wrap_nth : forall tw l i, i < List.length l -> nth i (wrap_ha tw l) 0%Q = (if Qltb (nth i l 0) 0 then nth i l 0 + tw else nth i l 0)%Q.
Proof.
  intros tw l i I. unfold wrap_ha. rewrite (nth_indep _ 0%Q ((fun h => if Qltb h 0 then h + tw else h) 0)%Q) by (rewrite map_length; exact I).
  rewrite (map_nth (fun h => if Qltb h 0 then h + tw else h)%Q). reflexivity.
Qed.
Lemma diff_nth : forall t l i, i < List.length l -> nth i (map (fun x => t - x)%Q l) 0%Q = (t - nth i l 0)%Q.
Proof.
  intros t l i I. rewrite (nth_indep _ 0%Q ((fun x => t - x) 0)%Q) by (rewrite map_length; exact I). rewrite (map_nth (fun x => t - x)%Q). reflexivity.
Qed.

Lemma m_seq_len : forall g tr go acc r, List.length acc = List.length (g_notes g) -> m_seq g tr go acc = Ok r -> List.length r = List.length (g_notes g).
Proof.
  intros g. induction tr as [|[k n] tr IH]; intros [|[k' m] go] acc r L H; cbn in H; try (inversion H; subst; exact L).
  destruct (m =? 0)%Z; [discriminate|]. refine (IH go _ r _ H). rewrite set_len; [exact L|rewrite map_length; congruence].
Qed.
Lemma m_seq_fin : forall g tr go acc i, List.length acc = List.length (g_notes g) -> i < List.length (g_notes g) -> finite (nth i acc ENaN) ->
  (forall k m, In (k, m) go -> m <> 0%Z) -> exists r, m_seq g tr go acc = Ok r /\ List.length r = List.length (g_notes g) /\ finite (nth i r ENaN).
Proof.
  intros g. induction tr as [|[k n] tr IH]; intros [|[k' m] go] acc i L I F G; cbn [m_seq]; try (exists acc; split; [reflexivity|split; assumption]).
  destruct (Z.eqb_spec m 0) as [E|E]; [exfalso; apply (G k' m); [left; reflexivity|exact E]|].
  assert (Ls : List.length (map (Script.contains k) (g_notes g)) = List.length acc) by (rewrite map_length; congruence).
  apply IH; [rewrite set_len; [exact L|exact Ls]|exact I| |intros k0 m0 I0; apply (G k0 m0); right; exact I0].
  rewrite nth_set_where; [|exact Ls|lia]. destruct (nth i _ false); [eexists; reflexivity|exact F].
Qed.

(** ** Winner *)
Lemma generate_fresh : forall tw g s c s' i, ~ (p_mjd s == c_mjd c)%Q -> p_generate tw g s c = Ok (s', i) ->
  exists r x, sum_weights tw g s c (g_weights g) (map (fun _ => EFin 0) (g_notes g)) = Ok r /\ List.length r = List.length (g_notes g) /\
    nth_error r i = Some x /\ er_isnan x = false /\ (forall y, In y r -> er_isnan y = false -> er_le y x) /\ (forall j y, j < i -> nth_error r j = Some y -> ~ er_le x y).
Proof.
  intros tw g s c s' i N H. unfold p_generate, calc_reward in H. destruct (Qeq_bool _ _) eqn:E; [exfalso; apply N; apply Qeq_bool_iff; exact E|].
  destruct (sum_weights _ _ _ _ _ _) as [r|e] eqn:Es; [|discriminate]. cbn [bind snd fst] in H. destruct (hd_error _) as [k|] eqn:Eh; [|discriminate]. inversion H; subst.
  apply argmax_spec in Eh. destruct Eh as (x & A & B & C & D). exists r, x. split; [reflexivity|]. split; [destruct (sum_nan _ _ _ _ _ _ _ Es) as [L _]; rewrite L, map_length; reflexivity|].
  split; [exact A|]. split; [exact B|]. split; [exact C|exact D].
Qed.
Lemma offered_values : forall tw g s c s' i, ~ (p_mjd s == c_mjd c)%Q -> p_generate tw g s c = Ok (s', i) ->
  i < List.length (g_notes g) /\ forall m w, In (m, w) (g_weights g) -> exists v y, m_call tw g s c m = Ok v /\ nth_error v i = Some y /\ er_isnan y = false.
Proof.
  intros tw g s c s' i N H. destruct (generate_fresh _ _ _ _ _ _ N H) as (r & x & A & L & B & C & _). split; [rewrite <- L; apply nth_error_Some; congruence|].
  intros m w I. destruct (sum_nan _ _ _ _ _ _ _ A) as [_ P]. destruct (P i x B C) as [_ Q]. apply (Q m w I).
Qed.

(** The total of one pointing. *)
Definition value_at (tw : Q) (g : pcfg) (s : pst) (c : pcond) (i : nat) (m : meth) : er := match m_call tw g s c m with Ok v => nth i v ENaN | Raise _ => ENaN end.
Definition total_at (tw : Q) (g : pcfg) (s : pst) (c : pcond) (i : nat) : er :=
  fold_left (fun a mw => Surveys.er_add a (Surveys.er_scale (value_at tw g s c i (fst mw)) (snd mw))) (g_weights g) (EFin 0).
Lemma sum_total : forall tw g s c i ws acc r a, sum_weights tw g s c ws acc = Ok r -> nth_error acc i = Some a ->
  nth_error r i = Some (fold_left (fun a mw => Surveys.er_add a (Surveys.er_scale (value_at tw g s c i (fst mw)) (snd mw))) ws a).
Proof.
  intros tw g s c i. induction ws as [|[m w] ws IH]; intros acc r a H Ha; cbn [sum_weights] in H; [inversion H; subst; exact Ha|].
  destruct (m_call tw g s c m) as [v|e] eqn:Em; [|discriminate]. cbn [bind] in H. destruct (Surveys.zip_add _ _) as [q|e] eqn:Eq; [|discriminate]. cbn [bind] in H.
  destruct (zip_add_nth _ _ _ Eq) as (L1 & L2 & P). rewrite map_length in L2. cbn [fold_left fst snd]. apply (IH q r _ H).
  assert (I : i < List.length v) by (rewrite L2; apply nth_error_Some; congruence). unfold value_at. rewrite Em. apply (P i a _ Ha). rewrite nth_error_map, (nth_at _ v i ENaN I). reflexivity.
Qed.

(** ** Balance *)
Lemma zsum_fold : forall l a, fold_left Z.add l a = (a + fold_right Z.add 0 l)%Z.
Proof. induction l as [|x l IH]; intros a; cbn; [lia|]. rewrite IH. lia. Qed.
Lemma sum_ge : forall l i x, (forall y, In y l -> (0 <= y)%Z) -> nth_error l i = Some x -> (x <= fold_right Z.add 0 l)%Z /\ (0 <= fold_right Z.add 0 l)%Z.
Proof.
  induction l as [|y l IH]; intros i x P H; [destruct i; discriminate|]. assert (S0 : forall l, (forall y, In y l -> (0 <= y)%Z) -> (0 <= fold_right Z.add 0 l)%Z).
  { clear. induction l as [|y l IH]; intros P; cbn; [lia|]. pose proof (P y (or_introl eq_refl)). assert (0 <= fold_right Z.add 0 l)%Z by (apply IH; intros z I; apply P; right; exact I). lia. }
  pose proof (P y (or_introl eq_refl)) as Py. assert (Pl : forall z, In z l -> (0 <= z)%Z) by (intros z I; apply P; right; exact I). pose proof (S0 l Pl). cbn.
  destruct i as [|i]; cbn in H; [inversion H; subst; lia|]. destruct (IH i x Pl H). lia.
Qed.
Lemma sum_two : forall l i j x y, (forall z, In z l -> (0 <= z)%Z) -> i <> j -> nth_error l i = Some x -> nth_error l j = Some y -> (x + y <= fold_right Z.add 0 l)%Z.
Proof.
  induction l as [|z l IH]; intros i j x y P N Hi Hj; [destruct i; discriminate|]. assert (Pl : forall z, In z l -> (0 <= z)%Z) by (intros u I; apply P; right; exact I).
  pose proof (P z (or_introl eq_refl)) as Pz.
  destruct i as [|i], j as [|j]; cbn in Hi, Hj; cbn [fold_right]; [congruence| | |].
  - inversion Hi; subst. destruct (sum_ge l j y Pl Hj). lia.
  - inversion Hj; subst. destruct (sum_ge l i x Pl Hi). lia.
  - assert (i <> j) by congruence. pose proof (IH i j x y Pl H Hi Hj). lia.
Qed.
Lemma sum_only : forall l i x, nth_error l i = Some x -> (forall j y, j <> i -> nth_error l j = Some y -> y = 0%Z) -> fold_right Z.add 0%Z l = x.
Proof.
  induction l as [|z l IH]; intros i x Hi H; [destruct i; discriminate|]. destruct i as [|i]; cbn in Hi; cbn [fold_right].
  - inversion Hi; subst. assert (S0 : fold_right Z.add 0%Z l = 0%Z); [|lia]. assert (A : forall y, In y l -> y = 0%Z) by (intros y I; apply In_nth_error in I; destruct I as [j Hj]; apply (H (S j) y); [lia|exact Hj]).
    clear -A. induction l as [|y l IH]; [reflexivity|]. cbn. rewrite (A y (or_introl eq_refl)), IH; [reflexivity|]. intros u I. apply A. right. exact I.
  - rewrite (IH i x Hi); [|intros j y N Hj; apply (H (S j) y); [lia|exact Hj]]. rewrite (H 0 z); [lia|lia|reflexivity].
Qed.
Lemma floor_is : forall q z, (inject_Z z <= q)%Q -> (q < inject_Z (z + 1))%Q -> Qfloor q = z.
Proof.
  intros q z A B. pose proof (Qfloor_le q) as C. pose proof (Qlt_floor q) as D.
  assert (z < Qfloor q + 1)%Z by (apply inject_Z_lt_iff; lra). assert (Qfloor q < z + 1)%Z by (apply inject_Z_lt_iff; lra). lia.
Qed.
Lemma share : forall n t, (0 < n)%Z -> (n <= t)%Z -> Qfloor (1 + inject_Z n / inject_Z t) = (if (n =? t)%Z then 2 else 1)%Z.
Proof.
  intros n t P L. assert (T : (0 < inject_Z t)%Q) by (change 0%Q with (inject_Z 0); rewrite <- Zlt_Qlt; lia).
  assert (Np : (0 < inject_Z n)%Q) by (change 0%Q with (inject_Z 0); rewrite <- Zlt_Qlt; lia).
  assert (E : (inject_Z n / inject_Z t * inject_Z t == inject_Z n)%Q) by (field; lra). set (q := (inject_Z n / inject_Z t)%Q) in *. clearbody q.
  destruct (Z.eqb_spec n t) as [->|Ne].
  - assert (q == 1)%Q by nra. apply floor_is; [change (inject_Z 2) with 2%Q|change (inject_Z (2 + 1)) with 3%Q]; lra.
  - assert (Lt : (inject_Z n < inject_Z t)%Q) by (rewrite <- Zlt_Qlt; lia). assert (0 < q)%Q by nra. assert (q < 1)%Q by nra.
    apply floor_is; [change (inject_Z 1) with 1%Q|change (inject_Z (1 + 1)) with 2%Q]; lra.
Qed.
Lemma balance_nth : forall s i n, (forall x, In x (p_n s) -> (0 <= x)%Z) -> nth_error (p_n s) i = Some n ->
  nth_error (m_balance s) i = Some (EFin (inject_Z (if (0 <? n)%Z && (n =? fold_right Z.add 0 (p_n s))%Z then 2 else 1))).
Proof.
  intros s i n P H. unfold m_balance. rewrite nth_error_map, H. cbn [option_map]. rewrite !zsum_fold. change (0 + fold_right Z.add 0 (p_n s))%Z with (fold_right Z.add 0%Z (p_n s)).
  destruct (sum_ge _ _ _ P H) as [S1 S2]. set (t := fold_right Z.add 0%Z (p_n s)) in *. clearbody t. pose proof (P n (nth_error_In _ _ H)) as Pn.
  destruct (Z.eqb_spec n 0) as [E|E].
  - subst n. reflexivity.
  - assert (0 < n)%Z by lia. replace (0 <? n)%Z with true by (symmetry; apply Z.ltb_lt; exact H0). cbn [andb]. destruct (Z.eqb_spec t 0) as [T|T]; [lia|]. rewrite share by lia. reflexivity.
Qed.

(** ** Hour angles *)
Lemma Qmod_small : forall x m, (0 < m)%Q -> (0 <= x)%Q -> (x < m)%Q -> (Script.Qmod x m == x)%Q.
Proof.
  intros x m Hm A B. unfold Script.Qmod. assert (E : Qfloor (x / m) = 0%Z).
  { assert (F : (x / m * m == x)%Q) by (field; lra). set (q := (x / m)%Q) in *. clearbody q. assert (0 <= q)%Q by nra. assert (q < 1)%Q by nra.
    apply floor_is; [change (inject_Z 0) with 0%Q|change (inject_Z (0 + 1)) with 1%Q]; assumption. }
  rewrite E. change (inject_Z 0) with 0%Q. lra.
Qed.
Lemma Qmod_wrap : forall x m, (0 < m)%Q -> (m <= x)%Q -> (x < 2 * m)%Q -> (Script.Qmod x m == x - m)%Q.
Proof.
  intros x m Hm A B. unfold Script.Qmod. assert (E : Qfloor (x / m) = 1%Z).
  { assert (F : (x / m * m == x)%Q) by (field; lra). set (q := (x / m)%Q) in *. clearbody q. assert (1 <= q)%Q by nra. assert (q < 2)%Q by nra.
    apply floor_is; [change (inject_Z 1) with 1%Q|change (inject_Z (1 + 1)) with 2%Q]; assumption. }
  rewrite E. change (inject_Z 1) with 1%Q. lra.
Qed.
Lemma ha_lim_pos : forall tw h, (0 < tw)%Q -> (0 <= h)%Q -> (h < 24)%Q -> (ha_lim tw h == h * tw / 24)%Q.
Proof.
  intros tw h T A B. unfold ha_lim. assert (E : (h * tw / 24 == h * tw * (1 # 24))%Q) by (field). rewrite Qmod_wrap; [lra|exact T| |]; rewrite E; nra.
Qed.
Lemma ha_lim_neg : forall tw h, (0 < tw)%Q -> (-24 <= h)%Q -> (h < 0)%Q -> (ha_lim tw h == h * tw / 24 + tw)%Q.
Proof.
  intros tw h T A B. unfold ha_lim. assert (E : (h * tw / 24 == h * tw * (1 # 24))%Q) by (field). rewrite Qmod_small; [reflexivity|exact T| |]; rewrite E; nra.
Qed.
