(** Proofs about the tables of rewards. *)
From Coq Require Import List ZArith QArith Bool String Ascii Lia.
From Verif Require Import Base Core Core_proofs Surveys RewardDf.
From Verif Require Labels.
Import ListNotations.
Open Scope string_scope.
Open Scope list_scope.
Open Scope nat_scope.

Lemma bind_ok : forall A B (x : res A) (f : A -> res B) b, bind x f = Ok b -> exists a, x = Ok a /\ f a = Ok b.
Proof. intros A B [a|e] f b H; cbn in H; [eauto|discriminate]. Qed.
Lemma ok_inj : forall A (a b : A), Ok a = Ok b -> a = b.
Proof. intros A a b H. now injection H. Qed.

(** ** Scalars *)
Lemma in_roi_count : forall m l k, List.length m = List.length l ->
  List.length (filter (er_ltb ENInf) (in_roi m l)) =
  List.length (filter (fun i => nth (i - k) m false && er_ltb ENInf (nth (i - k) l ENaN)) (seq k (List.length l))).
Proof.
  induction m as [|b m IH]; intros [|x l] k E; try discriminate; [reflexivity|].
  injection E as E. cbn [in_roi combine map List.length seq filter fst snd]. rewrite Nat.sub_diag. change (nth 0 (b :: m) false) with b. change (nth 0 (x :: l) ENaN) with x.
  specialize (IH l (S k) E). unfold in_roi in IH.
  assert (F : filter (fun i => nth (i - k) (b :: m) false && er_ltb ENInf (nth (i - k) (x :: l) ENaN)) (seq (S k) (List.length l)) =
              filter (fun i => nth (i - S k) m false && er_ltb ENInf (nth (i - S k) l ENaN)) (seq (S k) (List.length l))).
  { apply filter_ext_in. intros i Hi. apply in_seq in Hi. replace (i - k) with (S (i - S k)) by lia. reflexivity. }
  rewrite F. destruct b; cbn [andb]; [|cbn; exact IH].
  destruct (er_ltb ENInf x); cbn [List.length]; rewrite IH; reflexivity.
Qed.
Lemma in_roi_in : forall m l x, In x (in_roi m l) -> x = ENInf \/ exists i, nth_error m i = Some true /\ nth_error l i = Some x.
Proof.
  unfold in_roi. induction m as [|b m IH]; intros [|y l] x H; cbn in H; try contradiction.
  destruct H as [H|H].
  - destruct b; cbn in H; [right; exists 0; subst; auto|left; congruence].
  - destruct (IH _ _ H) as [K|(i & A & B)]; [now left|right; exists (S i); auto].
Qed.
Lemma in_roi_of : forall m l i x, nth_error m i = Some true -> nth_error l i = Some x -> In x (in_roi m l).
Proof.
  unfold in_roi. induction m as [|b m IH]; intros [|y l] [|i] x A B; cbn in *; try discriminate.
  - injection A as ->. injection B as ->. now left.
  - right. eauto.
Qed.

Lemma scalars_map : forall m l x a, scalars (Some m) (VM l) = Ok (x, a) ->
  List.length m = List.length l /\
  a = Pix (List.length (filter (fun i => nth i m false && er_ltb ENInf (nth i l ENaN)) (seq 0 (List.length l)))) /\
  (a = Pix 0 -> x = ENInf) /\
  (a <> Pix 0 -> above_ninf x /\ (exists i, nth_error m i = Some true /\ nth_error l i = Some x) /\
     forall i y, nth_error m i = Some true -> nth_error l i = Some y -> er_isnan y = false -> er_le y x).
Proof.
  intros m l x a H. cbn [scalars] in H.
  destruct (List.length m =? List.length l) eqn:E; [|discriminate]. apply Nat.eqb_eq in E.
  split; [exact E|].
  pose proof (in_roi_count m l 0 E) as C.
  assert (F : filter (fun i => nth (i - 0) m false && er_ltb ENInf (nth (i - 0) l ENaN)) (seq 0 (List.length l)) =
              filter (fun i => nth i m false && er_ltb ENInf (nth i l ENaN)) (seq 0 (List.length l))).
  { apply filter_ext. intros i. now rewrite Nat.sub_0_r. }
  rewrite F in C. rewrite C in H. clear F.
  destruct (Nat.eqb_spec (List.length (filter (fun i => nth i m false && er_ltb ENInf (nth i l ENaN)) (seq 0 (List.length l)))) 0) as [Z|Z].
  - injection H as <- <-. rewrite Z. split; [reflexivity|]. split; [reflexivity|]. intros N. now contradiction N.
  - injection H as <- <-. split; [reflexivity|]. split; [intros K; injection K as K; contradiction|]. intros _.
    assert (N : exists y, In y (in_roi m l) /\ er_ltb ENInf y = true).
    { rewrite <- C in Z. destruct (filter (er_ltb ENInf) (in_roi m l)) as [|y r] eqn:Ef; [now cbn in Z|].
      assert (Hy : In y (filter (er_ltb ENInf) (in_roi m l))) by (rewrite Ef; now left).
      apply filter_In in Hy. eauto. }
    destruct N as (y & Hy & Ly).
    assert (Yn : er_isnan y = false) by (destruct y; cbn in *; auto; discriminate).
    destruct (nanmax_spec (in_roi m l)) as [[_ D]|(S1 & S2 & S3)]; [rewrite (D _ Hy) in Yn; discriminate|].
    pose proof (S3 _ Hy Yn) as Le.
    assert (A : above_ninf (nanmax (in_roi m l))).
    { destruct (nanmax (in_roi m l)), y; cbn in *; try contradiction; try discriminate; auto. }
    split; [exact A|]. split.
    + destruct (in_roi_in _ _ _ S1) as [K|K]; [rewrite K in A; contradiction|exact K].
    + intros i z Hm Hz Hn. apply S3; [|exact Hn]. eapply in_roi_of; eauto.
Qed.

(** ** Rows *)
Section Rows.
Context {W : Type}.

Lemma rows_spec : forall (s : sv W) c accum l db dw t, rows s c accum db dw l = Ok t ->
  List.length t = List.length l /\
  forall k r, nth_error t k = Some r -> exists w b,
    nth_error l k = Some (w, b) /\ r_weight r = w /\ r_class r = d_class b /\
    short_label (v_bfs s) b = Ok (r_label r) /\
    scalars (v_roi s) (bf_val (d_bf b) c) = Ok (r_max r, r_area r) /\
    (r_feas r = true <-> r_area r <> Pix 0 /\ bf_feas (d_bf b) c = true) /\
    if accum then exists v q, v_calc s (db ++ map snd (firstn (S k) l)) (dw ++ map fst (firstn (S k) l)) c = Ok v /\
                    scalars (v_roi s) v = Ok q /\ r_accum r = Some q
    else r_accum r = None.
Proof.
  intros s c accum. induction l as [|[w b] l IH]; intros db dw t H.
  - cbn in H. injection H as <-. split; [reflexivity|]. intros [|k] r Hk; discriminate.
  - cbn [rows] in H.
    apply bind_ok in H. destruct H as (lab & Hl & H).
    apply bind_ok in H. destruct H as ([x ar] & Hs & H). cbn [fst snd] in H. cbv zeta in H.
    apply bind_ok in H. destruct H as (a & Ha & H).
    apply bind_ok in H. destruct H as (t' & Ht & H). apply ok_inj in H. subst t.
    destruct (IH _ _ _ Ht) as [L R]. split; [cbn; congruence|].
    intros [|k] r Hk; cbn [nth_error] in Hk.
    + injection Hk as <-. exists w, b. cbn [nth_error r_weight r_class r_label r_max r_area r_feas r_accum firstn map fst snd].
      split; [reflexivity|]. split; [reflexivity|]. split; [reflexivity|]. split; [exact Hl|]. split; [exact Hs|]. split.
      * destruct ar as [[|n]|]; cbn [area0]; split; intros K; try discriminate; try (destruct K; congruence); split; auto; discriminate.
      * destruct accum; [|now injection Ha as <-].
        apply bind_ok in Ha. destruct Ha as (v & Hv & Ha). apply bind_ok in Ha. destruct Ha as (q & Hq & Ha).
        injection Ha as <-. exists v, q. auto.
    + destruct (R k r Hk) as (w' & b' & A1 & A2 & A3 & A4 & A5 & A6 & A7). exists w', b'.
      split; [exact A1|]. split; [exact A2|]. split; [exact A3|]. split; [exact A4|]. split; [exact A5|]. split; [exact A6|].
      destruct accum; [|exact A7]. destruct A7 as (v & q & B1 & B2 & B3). exists v, q. split; [|auto].
      cbn [firstn map fst snd] in *. rewrite <- !app_assoc in B1. exact B1.
Qed.

Lemma combine_firstn_map : forall A B (l : list A) (m : list B) k, k <= List.length l -> k <= List.length m ->
  map fst (firstn k (combine l m)) = firstn k l /\ map snd (firstn k (combine l m)) = firstn k m.
Proof.
  induction l as [|x l IH]; intros [|y m] [|k] H1 H2; cbn in *; try lia; auto.
  destruct (IH m k) as [E1 E2]; [lia|lia|]. now rewrite E1, E2.
Qed.

Lemma make_df_spec : forall (s : sv W) c accum t, make_df s c accum = Ok t ->
  List.length t = List.length (weights s) /\ List.length (weights s) <= List.length (v_bfs s) /\
  forall k r, nth_error t k = Some r -> exists b,
    nth_error (v_bfs s) k = Some b /\ nth_error (weights s) k = Some (r_weight r) /\ r_class r = d_class b /\
    short_label (v_bfs s) b = Ok (r_label r) /\
    scalars (v_roi s) (bf_val (d_bf b) c) = Ok (r_max r, r_area r) /\
    (r_feas r = true <-> r_area r <> Pix 0 /\ bf_feas (d_bf b) c = true) /\
    if accum then exists v q, v_calc s (firstn (S k) (v_bfs s)) (firstn (S k) (weights s)) c = Ok v /\
                    scalars (v_roi s) v = Ok q /\ r_accum r = Some q
    else r_accum r = None.
Proof.
  intros s c accum t H. unfold make_df in H. cbv zeta in H. apply bind_ok in H. destruct H as (t' & Ht & H).
  destruct (List.length (combine (weights s) (v_bfs s)) =? List.length (weights s)) eqn:E; [|discriminate].
  injection H as ->. apply Nat.eqb_eq in E. destruct (rows_spec _ _ _ _ _ _ _ Ht) as [L R].
  pose proof E as E'. rewrite combine_length in E'.
  split; [congruence|]. split; [lia|]. intros k r Hk.
  destruct (R k r Hk) as (w & b & A1 & A2 & A3 & A4 & A5 & A6 & A7). exists b.
  assert (K : k < List.length (combine (weights s) (v_bfs s))) by (apply nth_error_Some; congruence).
  rewrite combine_length in K.
  assert (N : nth_error (weights s) k = Some w /\ nth_error (v_bfs s) k = Some b).
  { clear -A1. revert k A1. generalize (v_bfs s). induction (weights s) as [|x l IH]; intros [|y m] [|k] H; cbn in *; try discriminate.
    - injection H as -> ->. auto.
    - auto. }
  destruct N as [N1 N2]. rewrite A2. repeat (split; [assumption|]).
  destruct accum; [|exact A7]. destruct A7 as (v & q & B1 & B2 & B3). exists v, q. split; [|auto].
  destruct (combine_firstn_map _ _ (weights s) (v_bfs s) (S k)) as [C1 C2]; [lia|lia|].
  cbn [app] in B1. rewrite C1, C2 in B1. exact B1.
Qed.

(** ** What is masked stays masked *)
Definition masked_er (x : er) : Prop := x = ENaN \/ x = ENInf.
Definition masked (roi : option (list bool)) (v : val) : Prop :=
  match v with
  | VS x => masked_er x
  | VM l => forall m i x, roi = Some m -> nth_error m i = Some true -> nth_error l i = Some x -> masked_er x
  end.
Lemma masked_not_above : forall x, masked_er x <-> ~ above_ninf x.
Proof. unfold masked_er. intros [| |q|]; cbn; split; intros H; try tauto; try (destruct H; congruence); destruct H; congruence. Qed.

Lemma masked_scalars : forall roi v p, masked roi v -> scalars roi v = Ok p -> p = (ENInf, Pix 0).
Proof.
  intros roi [x|l] p M H.
  - cbn in H, M. destruct M; subst x; cbn in H; congruence.
  - destruct roi as [m|]; [|discriminate]. destruct p as [x a]. destruct (scalars_map _ _ _ _ H) as (_ & _ & A & B).
    destruct a as [[|n]|]; [rewrite A; auto| |]; exfalso;
      (destruct B as (B1 & (i & B2 & B3) & _); [congruence|];
       apply (proj1 (masked_not_above x)); [exact (M m i x eq_refl B2 B3)|exact B1]).
Qed.
Lemma nth_error_nth' : forall A (l : list A) i x d, nth_error l i = Some x -> nth i l d = x.
Proof. induction l; intros [|i] x d H; cbn in *; try discriminate; [now injection H|eauto]. Qed.
Lemma scalars_masked : forall roi v x a, (forall m, roi = Some m -> In true m) ->
  scalars roi v = Ok (x, a) -> area0 a = true -> masked roi v.
Proof.
  intros roi [y|l] x a N H Z.
  - cbn in H |- *. unfold masked_er. destruct y as [| |q|]; auto; exfalso; cbn [er_isnan er_eqb orb] in H;
    (destruct roi as [m|]; [|injection H as <- <-; discriminate]; injection H as <- <-; specialize (N m eq_refl);
     destruct (List.length (filter (fun b : bool => b) m)) eqn:E; [|discriminate];
     assert (F : In true (filter (fun b : bool => b) m)) by (apply filter_In; auto);
     destruct (filter (fun b : bool => b) m); [contradiction|discriminate]).
  - destruct roi as [m|]; [|discriminate]. destruct (scalars_map _ _ _ _ H) as (E & A & _ & _).
    intros m' i y [= <-] Hm Hy. apply masked_not_above. intros AB. rewrite A in Z. cbn [area0] in Z.
    destruct (List.length (filter _ _)) eqn:F in Z; [|discriminate].
    assert (In i (filter (fun i => nth i m false && er_ltb ENInf (nth i l ENaN)) (seq 0 (List.length l)))).
    { apply filter_In. split.
      - apply in_seq. split; [lia|]. cbn. apply nth_error_Some. congruence.
      - rewrite (nth_error_nth' _ _ _ _ _ Hm), (nth_error_nth' _ _ _ _ _ Hy). cbn. now apply above_ltb. }
    destruct (filter _ _); [contradiction|discriminate].
Qed.
Lemma masked_scale : forall roi v w, (0 <= w)%Q -> masked roi v -> masked roi (vscale v w).
Proof.
  assert (K : forall x w, (0 <= w)%Q -> masked_er x -> masked_er (er_scale x w)).
  { intros x w Hw [->| ->]; [now left|]. cbn. destruct (Qltb 0 w) eqn:E; [now right|].
    destruct (Qltb w 0) eqn:F; [|now left]. apply Qltb_lt in F. exfalso. apply (Qlt_not_le _ _ F Hw). }
  intros roi [x|l] w Hw M; cbn in *; [now apply K|]. intros m i x Hr Hm Hx. rewrite nth_error_map in Hx.
  destruct (nth_error l i) as [y|] eqn:E; [|discriminate]. cbn in Hx. injection Hx as <-. apply K; eauto.
Qed.
Lemma masked_add_l : forall x y, masked_er x -> masked_er (er_add x y).
Proof. intros x y [->| ->]; destruct y; cbn; unfold masked_er; auto. Qed.
Lemma masked_add_r : forall x y, masked_er y -> masked_er (er_add x y).
Proof. intros x y [->| ->]; destruct x; cbn; unfold masked_er; auto. Qed.
Lemma zip_add_nth : forall l m r i z, zip_add l m = Ok r -> nth_error r i = Some z ->
  exists x y, nth_error l i = Some x /\ nth_error m i = Some y /\ z = er_add x y.
Proof.
  induction l as [|x l IH]; intros [|y m] r i z H Hz; cbn in H; try discriminate.
  - injection H as <-. destruct i; discriminate.
  - apply bind_ok in H. destruct H as (r' & Hr & H). apply ok_inj in H. subst r.
    destruct i; cbn in *; [injection Hz as <-; eauto|eauto].
Qed.
Lemma masked_vadd : forall roi a b v, vadd a b = Ok v -> masked roi a \/ masked roi b -> masked roi v.
Proof.
  intros roi [x|l] [y|m] v H M; cbn in H.
  - injection H as <-. cbn in *. destruct M; [now apply masked_add_l|now apply masked_add_r].
  - injection H as <-. intros mm i z Hr Hm Hz. rewrite nth_error_map in Hz.
    destruct (nth_error m i) as [u|] eqn:E; [|discriminate]. injection Hz as <-.
    destruct M as [M|M]; [apply masked_add_l; exact M|apply masked_add_r; exact (M mm i u Hr Hm E)].
  - injection H as <-. intros mm i z Hr Hm Hz. rewrite nth_error_map in Hz.
    destruct (nth_error l i) as [u|] eqn:E; [|discriminate]. injection Hz as <-.
    destruct M as [M|M]; [apply masked_add_l; exact (M mm i u Hr Hm E)|apply masked_add_r; exact M].
  - apply bind_ok in H. destruct H as (r & Hr & H). injection H as <-. intros mm i z Ho Hm Hz.
    destruct (zip_add_nth _ _ _ _ _ Hr Hz) as (x & y & A & B & ->).
    destruct M as [M|M]; [apply masked_add_l; exact (M mm i x Ho Hm A)|apply masked_add_r; exact (M mm i y Ho Hm B)].
Qed.
Lemma wsum_masked : forall roi l (c : scond W) a v, wsum a l c = Ok v ->
  (masked roi a \/ exists k b w, nth_error l k = Some (b, w) /\ (0 <= w)%Q /\ masked roi (bf_val b c)) -> masked roi v.
Proof.
  intros roi. induction l as [|[b w] l IH]; intros c a v H M; cbn [wsum] in H.
  - injection H as <-. destruct M as [M|([|k] & b & w & K & _)]; [exact M|discriminate|discriminate].
  - apply bind_ok in H. destruct H as (a' & Ha & H). apply (IH _ _ _ H).
    destruct M as [M|(k & b' & w' & K & P & M)].
    + left. eapply masked_vadd; eauto.
    + destruct k as [|k]; cbn in K.
      * injection K as -> ->. left. eapply masked_vadd; [exact Ha|]. right. now apply masked_scale.
      * right. exists k, b', w'. auto.
Qed.
Lemma feasible_false : forall (bs : list (bfun W)) c b, In b bs -> bf_feas b c = false -> feasible bs c = false.
Proof.
  induction bs as [|x r IH]; intros c b H F; cbn; [contradiction|]. destruct H as [H|H].
  - subst. now rewrite F.
  - destruct (bf_feas x c); [eauto|reflexivity].
Qed.

(** ** The choice of the scheduler *)
Lemma tier_max_spec : forall l rs, tier_max l = Ok rs ->
  List.length rs = List.length l /\
  forall j x, nth_error rs j = Some x <-> exists v, nth_error l j = Some (Ok v) /\ x = nanmax (vlist v).
Proof.
  induction l as [|v l IH]; intros rs H; cbn in H.
  - injection H as <-. split; [reflexivity|]. intros [|j] x; split; try discriminate; intros (v & A & _); discriminate.
  - apply bind_ok in H. destruct H as (x0 & Hx & H). apply bind_ok in H. destruct H as (t & Ht & H). injection H as <-.
    subst v. destruct (IH _ Ht) as [L R]. split; [cbn; congruence|]. intros [|j] x; cbn [nth_error].
    + split; [intros [= <-]; eauto|]. intros (v & K & ->). injection K as <-. reflexivity.
    + apply R.
Qed.

Definition rew (l : list (list (res val))) (i j : nat) : option er :=
  match nth_error l i with
  | Some t => match nth_error t j with Some (Ok v) => Some (nanmax (vlist v)) | _ => None end
  | None => None
  end.
Lemma choose_spec : forall l i0 o, choose i0 l = Ok o ->
  match o with
  | None => forall i j x, rew l i j = Some x -> ~ above_ninf x
  | Some (a, j) => exists i x, a = i0 + i /\ rew l i j = Some x /\ above_ninf x /\
      (forall i' j' y, i' < i -> rew l i' j' = Some y -> ~ above_ninf y) /\
      (forall j' y, rew l i j' = Some y -> er_isnan y = false -> er_le y x) /\
      (forall j' y, j' < j -> rew l i j' = Some y -> er_isnan y = false -> ~ er_le x y)
  end.
Proof.
  induction l as [|t l IH]; intros i0 o H; cbn [choose] in H.
  - injection H as <-. intros [|i] j x K; discriminate.
  - apply bind_ok in H. destruct H as (rs & Hr & H). destruct (tier_max_spec _ _ Hr) as [L R].
    assert (REW : forall j x, rew (t :: l) 0 j = Some x <-> nth_error rs j = Some x).
    { intros j x. rewrite R. unfold rew. cbn [nth_error]. destruct (nth_error t j) as [[v|e]|]; split; try discriminate.
      - intros [= <-]. eauto.
      - intros (v' & K & ->). injection K as <-. reflexivity.
      - intros (v' & K & _). discriminate.
      - intros (v' & K & _). discriminate. }
    destruct rs as [|r0 rs']; [discriminate|]. set (rs := r0 :: rs') in *.
    destruct (er_ltb ENInf (nanmax rs)) eqn:E.
    + destruct (first_argmax rs) as [j|] eqn:A; [|discriminate]. injection H as <-.
      destruct (first_argmax_spec _ _ E A) as (m & M1 & M2 & M3 & M4). exists 0, m.
      split; [lia|]. split; [now apply REW|]. split; [exact M2|]. split; [intros; lia|]. split.
      * intros j' y K. apply REW in K. intros. apply M3; auto. eapply nth_error_In; eauto.
      * intros j' y Lt K. apply REW in K. intros. eapply M4; eauto.
    + assert (NU : forall j x, rew (t :: l) 0 j = Some x -> ~ above_ninf x).
      { intros j x K AB. apply REW in K. apply nth_error_In in K. apply above_ltb in AB.
        assert (Xn : er_isnan x = false) by (destruct x; cbn in *; auto; discriminate).
        destruct (nanmax_spec rs) as [[_ D]|(S1 & S2 & S3)]; [rewrite (D _ K) in Xn; discriminate|].
        pose proof (S3 _ K Xn) as Le. destruct x, (nanmax rs); cbn in *; try discriminate; try contradiction. }
      specialize (IH _ _ H). destruct o as [[a j]|].
      * destruct IH as (i & x & -> & B1 & B2 & B3 & B4 & B5). exists (S i), x. split; [lia|].
        split; [exact B1|]. split; [exact B2|]. split; [|auto].
        intros [|i'] j' y Lt K; [eapply NU; eauto|]. eapply (B3 i' j'); [lia|exact K].
      * intros [|i] j x K; [eapply NU; eauto|]. exact (IH i j x K).
Qed.

(** ** The table of the scheduler *)
Lemma list_rows_spec : forall c accum i l j t, list_rows c accum i j l = Ok t ->
  (forall r, In r t -> exists k lab (s : sv W) v tt, t_i r = i /\ t_j r = j + k /\ nth_error l k = Some (lab, s) /\ t_label r = lab /\
      t_class r = Labels.sv_class (v_svn s) /\ own s c = Ok v /\ t_reward r = nanmax (vlist v) /\ make_df s c accum = Ok tt /\ In (t_row r) tt) /\
  (forall k lab (s : sv W), nth_error l k = Some (lab, s) -> exists tt, make_df s c accum = Ok tt /\
      forall x, In x tt -> exists r, In r t /\ t_i r = i /\ t_j r = j + k /\ t_row r = x).
Proof.
  intros c accum i. induction l as [|[lab s] l IH]; intros j t H; cbn [list_rows] in H.
  - injection H as <-. split; [intros r []|]. intros [|k] ? ? K; discriminate.
  - apply bind_ok in H. destruct H as (a & Ha & H). apply bind_ok in H. destruct H as (b & Hb & H). injection H as <-.
    destruct (IH _ _ Hb) as [I1 I2]. unfold sv_rows in Ha. apply bind_ok in Ha. destruct Ha as (tt & Ht & Ha).
    assert (HA : (tt = [] /\ a = []) \/ exists v, own s c = Ok v /\ a = map (mkSrow i j lab (Labels.sv_class (v_svn s)) (nanmax (vlist v))) tt).
    { destruct tt as [|r0 tt]; [left; injection Ha as <-; auto|right].
      apply bind_ok in Ha. destruct Ha as (v & Hv & Ha). injection Ha as <-. eauto. }
    split.
    + intros r Hr. apply in_app_or in Hr. destruct Hr as [Hr|Hr].
      * destruct HA as [[_ ->]|(v & Hv & ->)]; [contradiction|]. apply in_map_iff in Hr. destruct Hr as (x & <- & Hx).
        exists 0, lab, s, v, tt. cbn. rewrite Nat.add_0_r. repeat split; auto.
      * destruct (I1 _ Hr) as (k & lab' & s' & v & tt' & A1 & A2 & A3). exists (S k), lab', s', v, tt'.
        split; [exact A1|]. split; [lia|]. exact A3.
    + intros [|k] lab' s' K; cbn in K.
      * injection K as <- <-. exists tt. split; [exact Ht|]. intros x Hx.
        destruct HA as [[-> _]|(v & Hv & ->)]; [contradiction|].
        exists (mkSrow i j lab (Labels.sv_class (v_svn s)) (nanmax (vlist v)) x). split; [apply in_or_app; left; now apply in_map|].
        cbn. rewrite Nat.add_0_r. auto.
      * destruct (I2 _ _ _ K) as (tt' & B1 & B2). exists tt'. split; [exact B1|]. intros x Hx.
        destruct (B2 _ Hx) as (r & C1 & C2 & C3 & C4). exists r. split; [apply in_or_app; now right|]. split; [exact C2|]. split; [lia|exact C4].
Qed.
Lemma lists_rows_spec : forall c accum l i t, lists_rows c accum i l = Ok t ->
  (forall r, In r t -> exists n k l1 lab (s : sv W) v tt, t_i r = i + n /\ t_j r = k /\ nth_error l n = Some l1 /\ nth_error l1 k = Some (lab, s) /\ t_label r = lab /\
      t_class r = Labels.sv_class (v_svn s) /\ own s c = Ok v /\ t_reward r = nanmax (vlist v) /\ make_df s c accum = Ok tt /\ In (t_row r) tt) /\
  (forall n k l1 lab (s : sv W), nth_error l n = Some l1 -> nth_error l1 k = Some (lab, s) -> exists tt, make_df s c accum = Ok tt /\
      forall x, In x tt -> exists r, In r t /\ t_i r = i + n /\ t_j r = k /\ t_row r = x).
Proof.
  intros c accum. induction l as [|l1 l IH]; intros i t H; cbn [lists_rows] in H.
  - injection H as <-. split; [intros r []|]. intros [|n] ? ? ? ? K; discriminate.
  - apply bind_ok in H. destruct H as (a & Ha & H). apply bind_ok in H. destruct H as (b & Hb & H). injection H as <-.
    destruct (IH _ _ Hb) as [I1 I2]. destruct (list_rows_spec _ _ _ _ _ _ Ha) as [J1 J2]. split.
    + intros r Hr. apply in_app_or in Hr. destruct Hr as [Hr|Hr].
      * destruct (J1 _ Hr) as (k & lab & s & v & tt & A1 & A2 & A3). exists 0, k, l1, lab, s, v, tt.
        split; [lia|]. split; [exact A2|]. split; [reflexivity|exact A3].
      * destruct (I1 _ Hr) as (n & k & l2 & lab & s & v & tt & A1 & A2). exists (S n), k, l2, lab, s, v, tt.
        split; [lia|exact A2].
    + intros [|n] k l2 lab s K1 K2; cbn in K1.
      * injection K1 as ->. destruct (J2 _ _ _ K2) as (tt & B1 & B2). exists tt. split; [exact B1|]. intros x Hx.
        destruct (B2 _ Hx) as (r & C1 & C2 & C3 & C4). exists r. split; [apply in_or_app; now left|]. split; [lia|]. auto.
      * destruct (I2 _ _ _ _ _ K1 K2) as (tt & B1 & B2). exists tt. split; [exact B1|]. intros x Hx.
        destruct (B2 _ Hx) as (r & C1 & C2 & C3 & C4). exists r. split; [apply in_or_app; now right|]. split; [lia|]. auto.
Qed.
(** Positions in the labelled lists are those in the lists. *)
Lemma combine_nth_error : forall A B (l : list A) (m : list B) k, List.length l = List.length m ->
  forall y, nth_error m k = Some y -> exists x, nth_error l k = Some x /\ nth_error (combine l m) k = Some (x, y).
Proof.
  induction l as [|x l IH]; intros [|y m] k E z H; cbn in E; try discriminate; [destruct k; discriminate|].
  destruct k; cbn in *; [injection H as <-; eauto|]. injection E as E. eauto.
Qed.
Lemma combine_nth_inv : forall A B (l : list A) (m : list B) k x y, nth_error (combine l m) k = Some (x, y) ->
  nth_error l k = Some x /\ nth_error m k = Some y.
Proof. induction l; intros [|b m] [|k] x y H; cbn in *; try discriminate; [injection H as -> ->; auto|eauto]. Qed.
Lemma labelled_nth : forall (L : list (list (sv W))) n k l s, nth_error L n = Some l -> nth_error l k = Some s ->
  exists l1 labs lab, nth_error (labelled L) n = Some l1 /\ nth_error l1 k = Some (lab, s) /\
    nth_error (Labels.survey_labels (map (map v_svn) L)) n = Some labs /\ nth_error labs k = Some lab.
Proof.
  intros L n k l s Hn Hk. unfold labelled.
  pose proof (Labels.survey_labels_shape (map (map v_svn) L)) as SH.
  assert (E : List.length (Labels.survey_labels (map (map v_svn) L)) = List.length L).
  { apply (f_equal (@List.length nat)) in SH. now rewrite !map_length in SH. }
  destruct (combine_nth_error _ _ _ _ _ E _ Hn) as (labs & H1 & H2).
  assert (E2 : List.length labs = List.length l).
  { apply (f_equal (fun z => nth_error z n)) in SH. rewrite !nth_error_map, H1, Hn in SH. cbn in SH.
    rewrite map_length in SH. congruence. }
  destruct (combine_nth_error _ _ _ _ _ E2 _ Hk) as (lab & H3 & H4).
  exists (combine labs l), labs, lab. rewrite nth_error_map, H2. cbn. auto.
Qed.
Lemma labelled_inv : forall (L : list (list (sv W))) n k l1 lab s, nth_error (labelled L) n = Some l1 -> nth_error l1 k = Some (lab, s) ->
  exists l labs, nth_error L n = Some l /\ nth_error l k = Some s /\
    nth_error (Labels.survey_labels (map (map v_svn) L)) n = Some labs /\ nth_error labs k = Some lab.
Proof.
  intros L n k l1 lab s H1 H2. unfold labelled in H1. rewrite nth_error_map in H1.
  destruct (nth_error (combine (Labels.survey_labels (map (map v_svn) L)) L) n) as [[labs l]|] eqn:E; [|discriminate].
  cbn in H1. injection H1 as <-. apply combine_nth_inv in E. destruct E as [E1 E2].
  apply combine_nth_inv in H2. destruct H2 as [H2 H3]. eauto 6.
Qed.
Lemma rew_tiers : forall c (L : list (list (sv W))) i j x, rew (tiers c L) i j = Some x <->
  exists l s v, nth_error L i = Some l /\ nth_error l j = Some s /\ own s c = Ok v /\ x = nanmax (vlist v).
Proof.
  intros. unfold rew, tiers. rewrite nth_error_map. destruct (nth_error L i) as [l|]; cbn.
  2:{ split; [discriminate|]. intros (l & s & v & K & _). discriminate. }
  rewrite nth_error_map. destruct (nth_error l j) as [s|] eqn:E; cbn.
  2:{ split; [discriminate|]. intros (l' & s & v & [= <-] & K & _). congruence. }
  destruct (own s c) as [v|e] eqn:F; split; try discriminate.
  - intros [= <-]. exists l, s, v. auto.
  - intros (l' & s' & v' & [= <-] & K & F' & ->). congruence.
  - intros (l' & s' & v' & [= <-] & K & F' & ->). congruence.
Qed.
End Rows.

(** ** Labels of basis functions *)
Fixpoint no_at (s : string) : bool :=
  match s with EmptyString => true | String c r => negb (Ascii.eqb c "@") && no_at r end.
Lemma cut_at : forall s r, no_at s = true -> cut (s ++ " @" ++ r)%string = s.
Proof.
  induction s as [|a s IH]; intros r H; [reflexivity|]. cbn [no_at] in H. apply andb_prop in H. destruct H as [H1 H2].
  change ((String a s ++ " @" ++ r)%string) with (String a (s ++ " @" ++ r)%string).
  cbn [cut]. rewrite (IH r H2). destruct s as [|b s].
  - cbn [append]. replace (Ascii.eqb " " "@") with false by reflexivity. rewrite andb_false_r. reflexivity.
  - cbn [append]. cbn [no_at] in H2. apply andb_prop in H2. destruct H2 as [H2 _].
    apply negb_true_iff in H2. rewrite H2, andb_false_r. reflexivity.
Qed.
Lemma no_at_app : forall a b, no_at (a ++ b)%string = no_at a && no_at b.
Proof. induction a; intros; cbn; [reflexivity|]. now rewrite IHa, andb_assoc. Qed.
Lemma app_inv_len : forall a b x y : string, (a ++ x = b ++ y)%string -> String.length a = String.length b -> a = b /\ x = y.
Proof.
  induction a as [|c a IH]; intros [|d b] x y H L; cbn in *; try discriminate; auto.
  injection H as -> H. injection L as L. destruct (IH _ _ _ H L). now subst.
Qed.
Lemma at_split : forall a b x y, no_at a = true -> no_at b = true -> (a ++ " @" ++ x = b ++ " @" ++ y)%string -> a = b /\ x = y.
Proof.
  intros a b x y Ha Hb H. assert (a = b).
  { rewrite <- (cut_at a x Ha), <- (cut_at b y Hb). now rewrite H. }
  subst b. split; [reflexivity|]. induction a as [|c a IH]; cbn in H; [now injection H|]. injection H as H. apply IH; auto.
  - cbn in Ha. now apply andb_prop in Ha.
  - cbn in Hb. now apply andb_prop in Hb.
Qed.

Lemma get_zero : forall dup b, match Labels.get (map (fun b => (b, 0)) dup) b with None => 0 | Some v => v end = 0.
Proof. induction dup as [|x r IH]; intros b; cbn; [reflexivity|]. destruct (String.eqb b x); auto. Qed.
Lemma short_loop_spec : forall dup all l m before,
  (forall b, In b l -> (In b dup <-> 2 <= Labels.count b all)) ->
  (forall b, match Labels.get m b with None => 0 | Some v => v end = if Labels.mem b dup then Labels.count b before else 0) ->
  short_loop dup m l = Labels.labels_spec all before l.
Proof.
  intros dup all. induction l as [|b l IH]; intros m before D G; cbn [short_loop Labels.labels_spec]; [reflexivity|].
  unfold Labels.label_spec. pose proof (D b (or_introl eq_refl)) as Db. pose proof (G b) as Gb.
  destruct (Labels.mem b dup) eqn:M.
  - rewrite Gb. apply Labels.mem_in in M. apply Db in M. apply Nat.leb_le in M. rewrite M. f_equal. apply IH.
    + intros x Hx. apply D. now right.
    + intros x. cbn. rewrite Labels.count_app, Labels.count_cons. cbn [Labels.count filter List.length].
      destruct (String.eqb_spec x b) as [->|N].
      * destruct (Labels.mem b dup) eqn:M2; [lia|]. exfalso. assert (In b dup) by (apply Db, Nat.leb_le, M).
        apply Labels.mem_in in H. congruence.
      * rewrite G. destruct (Labels.mem x dup); lia.
  - assert (NM : (2 <=? Labels.count b all) = false).
    { apply Nat.leb_gt. destruct (le_lt_dec 2 (Labels.count b all)) as [C|C]; [|exact C]. apply Db in C. apply Labels.mem_in in C. congruence. }
    rewrite NM. f_equal. apply IH; [intros x Hx; apply D; now right|].
    intros x. rewrite G, Labels.count_app, Labels.count_cons. cbn [Labels.count filter List.length].
    destruct (Labels.mem x dup) eqn:Mx; [|reflexivity]. destruct (String.eqb_spec x b) as [->|N]; [congruence|lia].
Qed.
Lemma short_labels_spec : forall W (bs : list (bfd W)),
  let bases := map (fun b => cut (label b)) bs in short_labels bs = Labels.labels_spec bases [] bases.
Proof.
  intros W bs bases. unfold short_labels. fold bases. cbv zeta. apply short_loop_spec.
  - intros b Hb. rewrite filter_In. unfold Labels.count. rewrite Nat.ltb_lt. intuition lia.
  - intros b. rewrite get_zero. destruct (Labels.mem b _); reflexivity.
Qed.
Lemma lookup_last_nodup : forall l k v f, NoDup (map fst l) -> In (k, v) l -> lookup_last k l f = Some v.
Proof.
  assert (A : forall l k f, ~ In k (map fst l) -> lookup_last k l f = f).
  { induction l as [|[k' v'] l IH]; intros k f H; cbn in *; [reflexivity|].
    destruct (String.eqb_spec k k') as [->|N]; [exfalso; apply H; now left|]. apply IH. tauto. }
  induction l as [|[k' v'] l IH]; intros k v f N H; cbn in *; [contradiction|]. inversion N; subst.
  destruct H as [H|H].
  - injection H as -> ->. rewrite String.eqb_refl. apply A; auto.
  - apply IH; auto.
Qed.
