(** C127: the table of rewards tells what each survey was worth and why.
    Properties of the tables in RewardDf.v. *)
From Coq Require Import List ZArith QArith Bool String Ascii Lia.
From Verif Require Import Base Core Core_proofs Surveys RewardDf RewardDf_proofs.
From Verif Require Labels.
Import ListNotations.
Open Scope string_scope.
Open Scope list_scope.
Open Scope nat_scope.

(** A map of rewards is told as the number of pixels of the region that are not
    masked and as the greatest reward there; -inf exactly when there is none. *)
Theorem C127_scalars : forall m l x a, scalars (Some m) (VM l) = Ok (x, a) ->
  List.length m = List.length l /\
  a = Pix (List.length (filter (fun i => nth i m false && er_ltb ENInf (nth i l ENaN)) (seq 0 (List.length l)))) /\
  (a = Pix 0 -> x = ENInf) /\
  (a <> Pix 0 -> above_ninf x /\ (exists i, nth_error m i = Some true /\ nth_error l i = Some x) /\
     forall i y, nth_error m i = Some true -> nth_error l i = Some y -> er_isnan y = false -> er_le y x).
Proof. exact scalars_map. Qed.
Print Assumptions C127_scalars.

Example C127_scalars_example :
  scalars (roi_mask (Some 4) (Some [0; 1; 2])) (VM [ENaN; EFin 2; ENInf; EFin 9]) = Ok (EFin 2, Pix 1) /\
  scalars (roi_mask (Some 4) (Some [0; 2])) (VM [ENaN; EFin 2; ENInf; EFin 9]) = Ok (ENInf, Pix 0) /\
  scalars (roi_mask (Some 4) None) (VS (EFin 3)) = Ok (EFin 3, Pix 4).
Proof. repeat split; reflexivity. Qed.

(** One row for each basis function, in their order: its class, its weight, its
    own greatest reward and area before weighting, whether it lets the survey
    through; and, when asked for, the reward the survey would have with the basis
    functions up to this one. *)
Theorem C127_rows : forall W (s : sv W) c accum t, make_df s c accum = Ok t ->
  List.length t = List.length (weights s) /\ List.length (weights s) <= List.length (v_bfs s) /\
  forall k r, nth_error t k = Some r -> exists b,
    nth_error (v_bfs s) k = Some b /\ nth_error (weights s) k = Some (r_weight r) /\ r_class r = d_class b /\
    scalars (v_roi s) (bf_val (d_bf b) c) = Ok (r_max r, r_area r) /\
    (r_feas r = true <-> r_area r <> Pix 0 /\ bf_feas (d_bf b) c = true) /\
    if accum then exists v q, v_calc s (firstn (S k) (v_bfs s)) (firstn (S k) (weights s)) c = Ok v /\
                    scalars (v_roi s) v = Ok q /\ r_accum r = Some q
    else r_accum r = None.
Proof.
  intros W s c accum t H. destruct (make_df_spec _ _ _ _ H) as (A & B & R). split; [exact A|]. split; [exact B|].
  intros k r Hk. destruct (R k r Hk) as (b & H1 & H2 & H3 & _ & H5 & H6 & H7). exists b.
  repeat (split; [assumption|]). exact H7.
Qed.
Print Assumptions C127_rows.

(** The last accumulated reward is that of the survey: over the whole sky it is
    the reward by which the scheduler chooses, except that a survey masked with
    NaN everywhere shows -inf. *)
Theorem C127_last : forall W (s : sv W) c t r, make_df s c true = Ok t ->
  List.length (weights s) = List.length (v_bfs s) -> (forall m, v_roi s = Some m -> forall b, In b m -> b = true) ->
  nth_error t (List.length t - 1) = Some r ->
  exists v x a, own s c = Ok v /\ r_accum r = Some (x, a) /\
    (er_isnan (nanmax (vlist v)) = false -> x = nanmax (vlist v)) /\
    (er_isnan (nanmax (vlist v)) = true -> x = ENInf).
Proof.
  intros W s c t r H E ROI Hk. destruct (make_df_spec _ _ _ _ H) as (A & B & R).
  destruct (R _ _ Hk) as (b & _ & _ & _ & _ & _ & _ & v & [x a] & H1 & H2 & H3).
  assert (P : S (List.length t - 1) = List.length t).
  { assert (List.length t - 1 < List.length t) by (apply nth_error_Some; congruence). lia. }
  rewrite P in H1. rewrite A in H1. rewrite firstn_all in H1. rewrite E, firstn_all in H1.
  exists v, x, a. split; [exact H1|]. split; [exact H3|].
  destruct v as [y|l].
  - cbn [scalars] in H2. cbn. change (nanmax2 ENaN y) with y. destruct y as [| |q|]; cbn [er_isnan er_eqb orb] in H2.
    + injection H2 as <- <-. split; [discriminate|reflexivity].
    + injection H2 as <- <-. split; [reflexivity|discriminate].
    + destruct (v_roi s); injection H2 as <- <-; split; try reflexivity; discriminate.
    + destruct (v_roi s); injection H2 as <- <-; split; try reflexivity; discriminate.
  - destruct (v_roi s) as [m|] eqn:Er; [|discriminate]. cbn [scalars] in H2.
    destruct (List.length m =? List.length l) eqn:El; [|discriminate]. apply Nat.eqb_eq in El.
    assert (F : in_roi m l = l).
    { specialize (ROI m eq_refl). clear -ROI El. unfold in_roi. revert l El. induction m as [|b m IH]; intros [|y l] El; cbn in *; try discriminate; auto.
      rewrite (ROI b (or_introl eq_refl)). cbn. rewrite IH; auto. }
    rewrite F in H2. cbn [vlist].
    destruct (List.length (filter (er_ltb ENInf) l) =? 0) eqn:Z.
    + injection H2 as <- <-. split; [|reflexivity]. intros N. apply Nat.eqb_eq in Z.
      destruct (nanmax_nonnan _ N) as (S1 & _ & _). destruct (er_ltb ENInf (nanmax l)) eqn:L.
      * assert (K : In (nanmax l) (filter (er_ltb ENInf) l)) by (apply filter_In; auto).
        destruct (filter (er_ltb ENInf) l); [contradiction|discriminate].
      * destruct (nanmax l); cbn in *; try discriminate; reflexivity.
    + injection H2 as <- <-. split; [reflexivity|]. intros N. exfalso. apply Nat.eqb_neq in Z.
      destruct (filter (er_ltb ENInf) l) as [|y r'] eqn:Ef; [now cbn in Z|].
      assert (K : In y (filter (er_ltb ENInf) l)) by (rewrite Ef; now left). apply filter_In in K. destruct K as [K1 K2].
      destruct (nanmax_spec l) as [[_ D]|(_ & S2 & _)]; [|congruence]. specialize (D _ K1). destruct y; cbn in *; discriminate.
Qed.
Print Assumptions C127_last.

Lemma nth_firstn : forall A n (l : list A) k, k < n -> nth_error (firstn n l) k = nth_error l k.
Proof. induction n as [|n IH]; intros [|x l] [|k] H; cbn; try lia; auto. apply IH. lia. Qed.

(** For a survey that sums its basis functions with weights not negative, a row
    that is not feasible explains a lost survey: from this row on the accumulated
    reward is -inf, with no area. *)
Theorem C127_blocked : forall W (s : sv W) c t k r k' r', v_calc s = markov_calc ->
  make_df s c true = Ok t -> (forall w, In w (weights s) -> (0 <= w)%Q) ->
  (forall m, v_roi s = Some m -> In true m) ->
  nth_error t k = Some r -> r_feas r = false -> k <= k' -> nth_error t k' = Some r' ->
  r_accum r' = Some (ENInf, Pix 0).
Proof.
  intros W s c t k r k' r' MK H WP ROI Hk F Le Hk'. destruct (make_df_spec _ _ _ _ H) as (A & B & R).
  destruct (R _ _ Hk) as (b & B1 & B2 & _ & _ & B5 & B6 & _).
  destruct (R _ _ Hk') as (b' & _ & _ & _ & _ & _ & _ & v & q & C1 & C2 & ->). f_equal.
  apply (masked_scalars _ _ _ ) with (2 := C2). rewrite MK in C1. unfold markov_calc in C1.
  assert (Kl : k' < List.length t) by (apply nth_error_Some; congruence).
  assert (Nb : nth_error (firstn (S k') (v_bfs s)) k = Some b).
  { rewrite <- B1. apply nth_firstn. lia. }
  assert (Nw : nth_error (firstn (S k') (weights s)) k = Some (r_weight r)).
  { rewrite <- B2. apply nth_firstn. lia. }
  destruct (feasible (map d_bf (firstn (S k') (v_bfs s))) c) eqn:G.
  - apply (wsum_masked _ _ _ _ _ C1). right. exists k, (d_bf b), (r_weight r). split.
    + clear -Nb Nw. revert k Nb Nw. generalize (firstn (S k') (v_bfs s)) (firstn (S k') (weights s)). induction l as [|x l IH]; intros [|y m] [|k] P Q; cbn in *; try discriminate; auto.
      injection P as ->. injection Q as ->. reflexivity.
    + split; [apply WP; eapply nth_error_In; eauto|]. apply (scalars_masked _ _ _ _ ROI B5).
      destruct (bf_feas (d_bf b) c) eqn:FB.
      * destruct (r_area r) as [[|n]|]; [reflexivity| |]; exfalso; (assert (K : r_feas r = true) by (apply B6; split; [discriminate|reflexivity]); congruence).
      * exfalso. assert (K : feasible (map d_bf (firstn (S k') (v_bfs s))) c = false); [|congruence].
        apply feasible_false with (d_bf b); [|exact FB]. apply in_map. eapply nth_error_In; eauto.
  - injection C1 as <-. now right.
Qed.
Print Assumptions C127_blocked.

(** ** Labels *)
(** A basis function whose class has no space or "@" in its name and whose band,
    if any, neither and is not a numeral. *)
Definition plain {W} (b : bfd W) : Prop :=
  no_at (d_class b) = true /\ Labels.has_space (d_class b) = false /\
  match d_band b with
  | None => True
  | Some n => no_at n = true /\ Labels.has_space n = false /\ forall k, n <> Labels.dec k
  end.
Lemma plain_no_at : forall W (b : bfd W), plain b -> no_at (base_label b) = true.
Proof.
  intros W b (A & _ & B). unfold base_label. destruct (d_band b) as [n|]; [|exact A]. destruct B as [B _].
  rewrite no_at_app, A. cbn. exact B.
Qed.
Lemma plain_cut : forall W (b : bfd W), plain b -> cut (label b) = base_label b.
Proof. intros. unfold label. apply cut_at. now apply plain_no_at. Qed.
Lemma plain_bases : forall W (l : list (bfd W)), (forall b, In b l -> plain b) -> map (fun b => cut (label b)) l = map base_label l.
Proof. intros. apply map_ext_in. intros. apply plain_cut. auto. Qed.
Lemma plain_clash : forall W (l : list (bfd W)), (forall b, In b l -> plain b) -> ~ Labels.clash (map base_label l).
Proof.
  intros W l P (b & d & k & Cb & Cd & _ & E).
  assert (Hb : In b (map base_label l)) by (apply Labels.count_in; lia).
  apply in_map_iff in Hb. destruct Hb as (x & <- & Hx). destruct (P _ Hx) as (_ & S1 & S2).
  unfold base_label in E. destruct (d_band x) as [n|].
  - destruct S2 as (_ & S2 & S3). apply Labels.last_space in E; [|exact S2|apply Labels.dec_nospace]. exact (S3 k (proj2 E)).
  - rewrite E, Labels.has_space_app in S1. apply orb_false_elim in S1. destruct S1 as [_ S1]. cbn in S1. discriminate.
Qed.
Lemma labels_distinct : forall W (l : list (bfd W)), (forall b, In b l -> plain b) -> NoDup (map d_id l) -> NoDup (map label l).
Proof.
  induction l as [|b l IH]; intros P N; cbn; [constructor|]. inversion N; subst. constructor.
  - intros K. apply in_map_iff in K. destruct K as (x & K & Hx). unfold label in K.
    apply at_split in K; [|apply plain_no_at, P; now right|apply plain_no_at, P; now left].
    apply H1. apply in_map_iff. exists x. split; [|exact Hx]. now apply Labels.dec_inj.
  - apply IH; [intros x Hx; apply P; now right|exact H2].
Qed.

(** Distinct objects have distinct labels: the class and the band, followed by a
    number when several share them, counted in the order of the list. *)
Theorem C127_labels : forall W (s : sv W) c accum t, make_df s c accum = Ok t ->
  (forall b, In b (v_bfs s) -> plain b) -> NoDup (map d_id (v_bfs s)) ->
  NoDup (map r_label t) /\
  forall p b q r, v_bfs s = p ++ b :: q -> nth_error t (List.length p) = Some r ->
    r_label r =
      (let same := fun x => String.eqb (base_label b) (base_label x) in
       if List.length (filter same (v_bfs s)) =? 1 then base_label b
       else (base_label b ++ " " ++ Labels.dec (S (List.length (filter same p))))%string).
Proof.
  intros W s c accum t H P N. destruct (make_df_spec _ _ _ _ H) as (A & B & R).
  pose proof (short_labels_spec W (v_bfs s)) as SS. cbn zeta in SS. rewrite (plain_bases _ _ P) in SS.
  pose proof (labels_distinct _ _ P N) as ND.
  assert (LEN : List.length (short_labels (v_bfs s)) = List.length (v_bfs s)).
  { rewrite SS. assert (L : forall all a before, List.length (Labels.labels_spec all before a) = List.length a).
    { induction a; intros; cbn; [reflexivity|]. now rewrite IHa. }
    rewrite L. apply map_length. }
  assert (LK : forall k b lab, nth_error (v_bfs s) k = Some b -> short_label (v_bfs s) b = Ok lab -> nth_error (short_labels (v_bfs s)) k = Some lab).
  { intros k b lab Hb Hl. unfold short_label in Hl.
    destruct (nth_error (short_labels (v_bfs s)) k) as [z|] eqn:Ez.
    2:{ exfalso. apply nth_error_None in Ez. assert (k < List.length (v_bfs s)) by (apply nth_error_Some; congruence). lia. }
    assert (In (label b, z) (combine (map label (v_bfs s)) (short_labels (v_bfs s)))).
    { assert (Hm : nth_error (map label (v_bfs s)) k = Some (label b)) by (rewrite nth_error_map, Hb; reflexivity).
      clear -Hm Ez. revert k Hm Ez. generalize (map label (v_bfs s)) (short_labels (v_bfs s)). induction l as [|x l IH]; intros [|y m] [|k] H1 H2; cbn in *; try discriminate.
      - injection H1 as ->. injection H2 as ->. now left.
      - right. eauto. }
    rewrite (lookup_last_nodup _ _ z) in Hl; [now injection Hl as ->| |assumption].
    assert (MF : map fst (combine (map label (v_bfs s)) (short_labels (v_bfs s))) = map label (v_bfs s)).
    { assert (G : forall (a b : list string), List.length a = List.length b -> map fst (combine a b) = a).
      { induction a; intros [|] E; cbn in *; try discriminate; [reflexivity|]. f_equal. auto. }
      apply G. now rewrite LEN, map_length. }
    rewrite MF. exact ND. }
  assert (TL : forall k r, nth_error t k = Some r -> nth_error (short_labels (v_bfs s)) k = Some (r_label r)).
  { intros k r Hk. destruct (R _ _ Hk) as (b & H1 & _ & _ & H4 & _). eapply LK; eauto. }
  split.
  - assert (NS : NoDup (short_labels (v_bfs s))).
    { rewrite SS. apply Labels.labels_nodup; [reflexivity|]. now apply plain_clash. }
    apply NoDup_nth_error. intros i j Hi E. rewrite map_length in Hi. rewrite !nth_error_map in E.
    destruct (nth_error t i) as [ri|] eqn:Ei; [|apply nth_error_None in Ei; lia].
    destruct (nth_error t j) as [rj|] eqn:Ej; [|discriminate]. cbn in E. injection E as E.
    apply (proj1 (NoDup_nth_error _) NS); [rewrite LEN; lia|].
    rewrite (TL _ _ Ei), (TL _ _ Ej). congruence.
  - intros p b q r E Hr. cbn zeta. apply TL in Hr. rewrite SS, E, map_app in Hr.
    assert (FL : forall (l : list (bfd W)), List.length (filter (fun x => String.eqb (base_label b) (base_label x)) l) = Labels.count (base_label b) (map base_label l)).
    { intros. unfold Labels.count. induction l as [|x l IH]; cbn; [reflexivity|]. destruct (String.eqb (base_label b) (base_label x)); cbn; now rewrite IH. }
    rewrite !FL, E, map_app.
    rewrite (Labels.labels_spec_app _ (map base_label p)) in Hr.
    assert (L : forall all a before, List.length (Labels.labels_spec all before a) = List.length a).
    { induction a; intros; cbn; [reflexivity|]. now rewrite IHa. }
    rewrite nth_error_app2 in Hr by (rewrite L, map_length; lia). rewrite L, map_length, Nat.sub_diag in Hr.
    cbn [map Labels.labels_spec nth_error app] in Hr. injection Hr as <-. unfold Labels.label_spec. cbn [map].
    assert (1 <= Labels.count (base_label b) (map base_label p ++ base_label b :: map base_label q)) by (rewrite Labels.count_app, Labels.count_cons, String.eqb_refl; lia).
    destruct (Nat.leb_spec 2 (Labels.count (base_label b) (map base_label p ++ base_label b :: map base_label q)));
    destruct (Nat.eqb_spec (Labels.count (base_label b) (map base_label p ++ base_label b :: map base_label q)) 1); try lia; [|reflexivity].
    now rewrite Nat.add_1_r.
Qed.
Print Assumptions C127_labels.

(** ** Witnesses *)
Definition c0 : scond unit := mkSc 60000%Q [] "" tt.
Definition bfx (f : bool) (v : val) : bfun unit := mkBf (fun _ => f) (fun _ => v).
Definition m5 (i : nat) (v : val) : bfd unit := mkBfd "M5Diff" (Some "r") i (bfx true v).
Definition slew (v : val) : bfd unit := mkBfd "Slewtime" (Some "r") 900 (bfx true v).
Definition zen (i : nat) (v : val) : bfd unit := mkBfd "ZenithMask" None i (bfx true v).
Definition greedy (bs : list (bfd unit)) (ws : list Q) : sv unit :=
  mkSv (Labels.mkSvn (Some "greedy") "GreedySurvey") bs (Some ws) (roi_mask (Some 3) None) markov_calc.
Definition base (bs : list (bfd unit)) (name : string) : sv unit :=
  mkSv (Labels.mkSvn (Some name) "ScriptedSurvey") bs None (roi_mask (Some 3) None) base_calc.

Definition demo : sv unit :=
  greedy [m5 1 (VM [EFin 1; EFin 2; ENaN]); m5 2 (VM [EFin 3; EFin 1; EFin 7]); zen 3 (VM [ENaN; ENaN; EFin 0])] [1%Q; 2%Q; 0%Q].
Example C127_rows_example : exists a b c,
  make_df demo c0 true = Ok [a; b; c] /\
  r_label a = "M5Diff r 1" /\ r_label b = "M5Diff r 2" /\ r_label c = "ZenithMask" /\
  r_max b = EFin 7 /\ r_area b = Pix 3 /\ r_feas c = true /\ r_area c = Pix 1 /\
  r_accum b = Some (EFin (0 + 1 * 1 + 3 * 2), Pix 2) /\ r_accum c = Some (ENInf, Pix 0).
Proof. do 3 eexists. split; [vm_compute; reflexivity|]. vm_compute. repeat split. Qed.
Example C127_labels_example :
  (forall b, In b (v_bfs demo) -> plain b) /\ NoDup (map d_id (v_bfs demo)).
Proof.
  split.
  - assert (D : forall k, "r" <> Labels.dec k).
    { intros k E. pose proof (f_equal DecimalString.NilEmpty.uint_of_string E) as F. unfold Labels.dec in F. rewrite DecimalString.NilEmpty.usu in F. cbn in F. discriminate. }
    intros b [<-|[<-|[<-|[]]]]; repeat split; auto.
  - cbn. repeat constructor; cbn; intuition discriminate.
Qed.
Example C127_blocked_example : exists t r r',
  let s := greedy [m5 1 (VM [ENaN; ENInf; ENaN]); m5 2 (VM [EFin 3; EFin 1; EFin 7])] [1%Q; 2%Q] in
  make_df s c0 true = Ok t /\ nth_error t 0 = Some r /\ r_feas r = false /\ nth_error t 1 = Some r' /\ r_feas r' = true /\
  r_accum r' = Some (ENInf, Pix 0).
Proof. do 3 eexists. cbn zeta. split; [vm_compute; reflexivity|]. vm_compute. repeat split. Qed.

(** Refuted: the same object listed twice, or kept under two weights, gets the
    number of the last for both. *)
Theorem C127_labels_refuted : exists (s : sv unit) a b,
  make_df s c0 false = Ok [a; b] /\ r_label a = r_label b /\ r_weight a <> r_weight b /\ (forall x, In x (v_bfs s) -> base_label x = "M5Diff r").
Proof.
  exists (greedy [m5 1 (VS (EFin 1)); m5 1 (VS (EFin 1))] [1%Q; 2%Q]). do 2 eexists. split; [vm_compute; reflexivity|].
  cbn. split; [reflexivity|]. split; [discriminate|]. intros x [<-|[<-|[]]]; reflexivity.
Qed.
Print Assumptions C127_labels_refuted.

(** Refuted for surveys that only look at the gates (BaseSurvey, and the scripted,
    deep drilling and other surveys that keep its reward): a row not feasible
    while the survey is not held back. *)
Theorem C127_blocked_refuted : exists (s : sv unit) r,
  v_calc s = base_calc /\ make_df s c0 true = Ok [r] /\ r_feas r = false /\ own s c0 = Ok (VS (EFin 0)) /\ r_accum r = Some (EFin 0, Pix 3).
Proof.
  exists (base [m5 1 (VM [ENaN; ENaN; ENaN])] "twi"). eexists. split; [reflexivity|]. split; [vm_compute; reflexivity|]. repeat split; reflexivity.
Qed.
Print Assumptions C127_blocked_refuted.

(** Refuted: a FieldAltAzSurvey with a map among its basis functions has no table
    before its first reward, so that a scheduler keeping the rewards never fills
    its queue; after it the region stays where it was then, and the table calls a
    survey masked that has a good reward. *)
Theorem C127_altaz_refuted :
  (forall W (s : sv W) b w l npix c accum rest, v_roi s = altaz_roi npix None None ->
     v_bfs s = b :: l -> v_weights s = Some (w :: rest) -> (exists m, bf_val (d_bf b) c = VM m) ->
     make_df s c accum = Raise AttributeError /\ forall o, fill true c [[s]] <> Ok o) /\
  exists (s : sv unit) r, v_roi s = altaz_roi 3 (Some 0) (Some 1) /\ v_calc s = altaz_calc 1 /\
    make_df s c0 true = Ok [r] /\ r_feas r = false /\ r_max r = ENInf /\ own s c0 = Ok (VS (EFin (0 + 2 * 1))).
Proof.
  split.
  - intros W s b w l npix c accum rest R Eb Ew (m & Em).
    assert (SL : forall e, short_label (v_bfs s) b <> Raise e).
    { assert (LS : forall k x v, lookup_last k x (Some v) <> None).
      { intros k x. induction x as [|[k' v'] x IH]; intros v; cbn; [discriminate|]. destruct (String.eqb k k'); apply IH. }
      intros e. unfold short_label. rewrite Eb. rewrite short_labels_spec. cbn [map Labels.labels_spec combine lookup_last].
      rewrite String.eqb_refl. destruct (lookup_last _ _ _) eqn:Q; [discriminate|]. exfalso. exact (LS _ _ _ Q). }
    assert (D : forall accum, make_df s c accum = Raise AttributeError).
    { intros a. unfold make_df, weights. rewrite Ew, Eb. cbn [combine rows].
      destruct (short_label (v_bfs s) b) as [lab|e] eqn:El; [|exfalso; exact (SL e eq_refl)]. cbn [bind].
      rewrite R, Em. reflexivity. }
    split; [apply D|]. intros o F. unfold fill in F. cbn [bind] in F.
    destruct (sched_df c false [[s]]) as [t|e] eqn:T; [|discriminate].
    unfold sched_df in T. apply bind_ok in T. destruct T as (t' & T & _).
    destruct (lists_rows_spec _ _ _ _ _ T) as [_ B].
    destruct (labelled_nth [[s]] 0 0 [s] s eq_refl eq_refl) as (l1 & labs & lab & N1 & N2 & _).
    destruct (B _ _ _ _ _ N1 N2) as (rows & Q & _). rewrite D in Q. discriminate.
  - exists (mkSv (Labels.mkSvn None "FieldAltAzSurvey") [m5 1 (VM [ENaN; EFin 2; ENaN])] (Some [1%Q]) (altaz_roi 3 (Some 0) (Some 1)) (altaz_calc 1)).
    eexists. split; [reflexivity|]. split; [reflexivity|]. split; [vm_compute; reflexivity|]. repeat split; reflexivity.
Qed.
Print Assumptions C127_altaz_refuted.

(** ** The scheduler *)
(** Every row of the table is one of a survey, with its place, label, class and
    the reward by which the scheduler chooses; every row of every survey is there. *)
Theorem C127_table : forall W c accum (L : list (list (sv W))) t, sched_df c accum L = Ok t ->
  (forall r, In r t -> exists l s v rows, nth_error L (t_i r) = Some l /\ nth_error l (t_j r) = Some s /\
     t_class r = Labels.sv_class (v_svn s) /\
     (exists labs, nth_error (Labels.survey_labels (map (map v_svn) L)) (t_i r) = Some labs /\ nth_error labs (t_j r) = Some (t_label r)) /\
     own s c = Ok v /\ t_reward r = nanmax (vlist v) /\ make_df s c accum = Ok rows /\ In (t_row r) rows) /\
  (forall i j l s, nth_error L i = Some l -> nth_error l j = Some s ->
     exists rows, make_df s c accum = Ok rows /\ forall x, In x rows -> exists r, In r t /\ t_i r = i /\ t_j r = j /\ t_row r = x).
Proof.
  intros W c accum L t H. unfold sched_df in H. apply bind_ok in H. destruct H as (t' & Ht & H).
  assert (t' = t) by (destruct t'; [discriminate|now injection H]). subst t'. clear H.
  destruct (lists_rows_spec _ _ _ _ _ Ht) as [A B]. split.
  - intros r Hr. destruct (A _ Hr) as (n & k & l1 & lab & s & v & tt & E1 & E2 & N1 & N2 & E3 & E4 & E5 & E6 & E7 & E8).
    cbn in E1. subst n k. destruct (labelled_inv _ _ _ _ _ _ N1 N2) as (l & labs & M1 & M2 & M3 & M4).
    exists l, s, v, tt. rewrite E3. repeat (split; [assumption|]). split; [eauto|]. auto.
  - intros i j l s Hi Hj. destruct (labelled_nth _ _ _ _ _ Hi Hj) as (l1 & labs & lab & N1 & N2 & _).
    exact (B _ _ _ _ _ N1 N2).
Qed.
Print Assumptions C127_table.

(** Where every survey has a row, the table shows which survey is chosen: the
    first list with a reward above -inf, there the greatest, and among equals the
    first; and none when none is above. *)
Theorem C127_choice : forall W c (L : list (list (sv W))) t o,
  sched_df c false L = Ok t -> fill true c L = Ok o ->
  (forall l s, In l L -> In s l -> weights s <> []) ->
  match o with
  | None => forall r, In r t -> ~ above_ninf (t_reward r)
  | Some (i, j) => exists r, In r t /\ t_i r = i /\ t_j r = j /\ above_ninf (t_reward r) /\
      (forall r', In r' t -> t_i r' < i -> ~ above_ninf (t_reward r')) /\
      (forall r', In r' t -> t_i r' = i -> er_isnan (t_reward r') = false -> er_le (t_reward r') (t_reward r)) /\
      (forall r', In r' t -> t_i r' = i -> t_j r' < j -> er_isnan (t_reward r') = false -> ~ er_le (t_reward r) (t_reward r'))
  end.
Proof.
  intros W c L t o H F NE. destruct (C127_table _ _ _ _ _ H) as [A B].
  unfold fill in F. apply bind_ok in F. destruct F as (u & _ & F).
  assert (RW : forall r, In r t -> rew (tiers c L) (t_i r) (t_j r) = Some (t_reward r)).
  { intros r Hr. destruct (A _ Hr) as (l & s & v & rows & E1 & E2 & _ & _ & E5 & E6 & _). apply rew_tiers.
    exists l, s, v. auto. }
  pose proof (choose_spec _ _ _ F) as CS. destruct o as [[i j]|].
  - destruct CS as (i' & x & E & C1 & C2 & C3 & C4 & C5). cbn in E. subst i'.
    pose proof C1 as C1'. apply rew_tiers in C1'. destruct C1' as (l & s & v & D1 & D2 & D3 & D4).
    destruct (B _ _ _ _ D1 D2) as (rows & R1 & R2).
    destruct (make_df_spec _ _ _ _ R1) as (LN & _ & _).
    destruct rows as [|r0 rows].
    { exfalso. apply (NE l s); [eapply nth_error_In; eauto|eapply nth_error_In; eauto|]. destruct (weights s); [reflexivity|discriminate]. }
    destruct (R2 r0 (or_introl eq_refl)) as (r & Hr & G1 & G2 & _). exists r.
    assert (X : t_reward r = x). { pose proof (RW _ Hr) as Q. rewrite G1, G2 in Q. congruence. }
    rewrite X. repeat (split; [assumption|]). split; [|split].
    + intros r' Hr' Lt. exact (C3 _ _ _ Lt (RW _ Hr')).
    + intros r' Hr' <- . apply (C4 (t_j r')). now apply RW.
    + intros r' Hr' E Lt. apply (C5 (t_j r')); [exact Lt|]. rewrite <- E. now apply RW.
  - intros r Hr. exact (CS _ _ _ (RW _ Hr)).
Qed.
Print Assumptions C127_choice.

Example C127_choice_example : exists t,
  let L := [[greedy [slew (VS ENInf)] [1%Q]]; [greedy [m5 1 (VS (EFin 1))] [1%Q]; demo; greedy [slew (VS (EFin 4))] [1%Q]; greedy [zen 5 (VS (EFin 4))] [1%Q]]] in
  sched_df c0 false L = Ok t /\ fill true c0 L = Ok (Some (1, 2)) /\ map t_reward t = [ENInf; EFin (0 + 1 * 1); ENaN; ENaN; ENaN; EFin (0 + 4 * 1); EFin (0 + 4 * 1)] /\
  map t_label t = ["greedy 1"; "greedy 2"; "greedy 3"; "greedy 3"; "greedy 3"; "greedy 4"; "greedy 5"].
Proof. eexists. cbn zeta. split; [vm_compute; reflexivity|]. vm_compute. repeat split. Qed.

(** Refuted: a survey without basis functions is left out, though it is chosen. *)
Theorem C127_missing_refuted : exists (L : list (list (sv unit))) t,
  sched_df c0 true L = Ok t /\ fill true c0 L = Ok (Some (0, 0)) /\ forall r, In r t -> t_i r <> 0.
Proof.
  exists [[base [] "script"]; [demo]]. eexists. split; [vm_compute; reflexivity|]. split; [reflexivity|].
  intros r [<-|[<-|[<-|[]]]]; cbn; discriminate.
Qed.
Print Assumptions C127_missing_refuted.

(** Refuted, for all schedulers in which no survey has basis functions: there is
    no table, and a scheduler that keeps the rewards chooses nothing while one
    that does not would. *)
Theorem C127_none_refuted : forall W c (L : list (list (sv W))), (forall l s, In l L -> In s l -> v_bfs s = [] /\ weights s = []) ->
  (forall accum, sched_df c accum L = Raise ValueError) /\ fill true c L = Raise ValueError /\
  ((forall l s, In l L -> In s l -> v_calc s = base_calc) -> L <> [] -> ~ In [] L -> fill false c L = Ok (Some (0, 0))).
Proof.
  intros W c L E.
  assert (D : forall accum, sched_df c accum L = Raise ValueError).
  { intros accum. unfold sched_df.
    assert (G : lists_rows c accum 0 (labelled L) = Ok []); [|now rewrite G].
    assert (P : forall l lab s, In l (labelled L) -> In (lab, s) l -> v_bfs s = [] /\ weights s = []).
    { intros l lab s Hl Hs. apply In_nth_error in Hl. destruct Hl as [n Hn]. apply In_nth_error in Hs. destruct Hs as [k Hk].
      destruct (labelled_inv _ _ _ _ _ _ Hn Hk) as (l' & labs & M1 & M2 & _). apply (E l' s); eapply nth_error_In; eauto. }
    generalize 0. revert P. generalize (labelled L) as LL. induction LL as [|l LL IH]; intros P i; cbn; [reflexivity|].
    assert (Q : forall j, list_rows c accum i j l = Ok []).
    { assert (P' : forall lab s, In (lab, s) l -> v_bfs s = [] /\ weights s = []) by (intros; apply (P l lab); [now left|assumption]).
      clear -P'. induction l as [|[lab s] l IH]; intros j; cbn; [reflexivity|].
      destruct (P' lab s (or_introl eq_refl)) as [E1 E2]. unfold sv_rows, make_df. rewrite E1, E2. cbn.
      rewrite IH by (intros; apply (P' lab0); now right). reflexivity. }
    rewrite Q. cbn. rewrite IH by (intros l' lab s Hl; apply (P l' lab s); now right). reflexivity. }
  split; [exact D|]. split; [unfold fill; now rewrite D|]. intros BC NN NE.
  destruct L as [|l L]; [contradiction|]. destruct l as [|s l]; [exfalso; apply NE; now left|].
  unfold fill, tiers. cbn [bind map choose].
  assert (O : forall s', In s' (s :: l) -> own s' c = Ok (VS (EFin 0))).
  { intros s' Hs. unfold own. rewrite (BC (s :: l) s' (or_introl eq_refl) Hs).
    destruct (E (s :: l) s' (or_introl eq_refl) Hs) as [-> _]. reflexivity. }
  assert (T : forall l', (forall s', In s' l' -> own s' c = Ok (VS (EFin 0))) -> tier_max (map (fun s => own s c) l') = Ok (map (fun _ => EFin 0) l')).
  { induction l' as [|x l' IH]; intros K; cbn; [reflexivity|]. rewrite (K x (or_introl eq_refl)). cbn. rewrite IH; [reflexivity|]. intros; apply K; now right. }
  pose proof (T (s :: l) O) as TT. cbn [map] in TT. rewrite TT. cbn [bind].
  assert (MX : forall l' : list (sv W), nanmax (EFin 0 :: map (fun _ => EFin 0) l') = EFin 0).
  { intros l'. unfold nanmax. cbn. assert (K : fold_left nanmax2 (map (fun _ : sv W => EFin 0) l') (EFin 0) = EFin 0); [|exact K].
    induction l' as [|x l' IH]; cbn; [reflexivity|]. exact IH. }
  rewrite (MX l). cbn [er_ltb]. unfold first_argmax.
  assert (MM : map nan_to_ninf (EFin 0 :: map (fun _ : sv W => EFin 0) l) = EFin 0 :: map (fun _ => EFin 0) l).
  { cbn. f_equal. rewrite map_map. reflexivity. }
  rewrite MM, (MX l). reflexivity.
Qed.
Print Assumptions C127_none_refuted.

(** ** The table of one list *)
(** After a choice by these conditions the table of a list shows, up to the list
    chosen, the greatest reward of each survey, nothing below it, and marks
    exactly the survey chosen. *)
Theorem C127_surveys_df : forall W c (L : list (list (sv W))) i j (stored : list (list (option val))) tier l t,
  fill false c L = Ok (Some (i, j)) ->
  nth_error stored tier = Some l -> surveys_df (Some (i, j)) stored tier = Ok t ->
  (forall k, nth_error l k = match nth_error L tier with
     | Some ss => match nth_error ss k with Some s => match own s c with Ok v => Some (Some v) | Raise _ => Some None end | None => None end | None => None end) ->
  forall k x b, nth_error t k = Some (x, b) ->
    (b = true <-> tier = i /\ k = j) /\
    (i < tier -> x = None) /\
    (tier <= i -> forall s ss v, nth_error L tier = Some ss -> nth_error ss k = Some s -> own s c = Ok v ->
       exists y, x = Some y /\ (er_isnan (nanmax (vlist v)) = false -> y = nanmax (vlist v)) /\ (er_isnan (nanmax (vlist v)) = true -> y = ENaN \/ y = ENInf)) /\
    (b = true -> exists y, x = Some y /\ above_ninf y).
Proof.
  intros W c L i j stored tier l t F Hs Ht ST k x b Hk.
  unfold surveys_df in Ht. rewrite Hs in Ht. destruct l as [|o0 l0]; [discriminate|]. apply ok_inj in Ht.
  set (l := o0 :: l0) in *.
  assert (CL : forall m n, nth_error (cells (Some (i, j)) tier n m) k = Some (x, b) ->
     exists o, nth_error m k = Some o /\ x = cell (Some (i, j)) tier o /\ b = ((tier =? i) && (n + k =? j))).
  { clear. revert k. intros k m. revert k. induction m as [|o m IH]; intros [|k] n H; cbn [cells nth_error] in H; try discriminate.
    - injection H as <- <-. exists o. rewrite Nat.add_0_r. auto.
    - destruct (IH _ _ H) as (o' & A & B & D). exists o'. split; [exact A|]. split; [exact B|]. rewrite D. now replace (S n + k) with (n + S k) by lia. }
  rewrite <- Ht in Hk. destruct (CL _ _ Hk) as (o & Ho & -> & ->). cbn [Nat.add].
  assert (P1 : (tier =? i) && (k =? j) = true <-> tier = i /\ k = j).
  { rewrite andb_true_iff, !Nat.eqb_eq. reflexivity. }
  assert (P3 : tier <= i -> forall s ss v, nth_error L tier = Some ss -> nth_error ss k = Some s -> own s c = Ok v ->
       exists y, cell (Some (i, j)) tier o = Some y /\ (er_isnan (nanmax (vlist v)) = false -> y = nanmax (vlist v)) /\ (er_isnan (nanmax (vlist v)) = true -> y = ENaN \/ y = ENInf)).
  { intros Le s ss v H1 H2 H3. rewrite ST, H1, H2, H3 in Ho. injection Ho as <-. cbn [cell].
    destruct (i <? tier) eqn:Lt; [apply Nat.ltb_lt in Lt; lia|]. destruct v as [y|m].
    - exists y. split; [reflexivity|]. cbn. change (nanmax2 ENaN y) with y. split; [reflexivity|]. destruct y; try discriminate; auto.
    - cbn [vlist]. destruct (List.length (filter (er_ltb ENInf) m) =? 0) eqn:Z.
      + exists ENInf. split; [reflexivity|]. split; [|auto]. intros N. apply Nat.eqb_eq in Z.
        destruct (nanmax_nonnan _ N) as (S1 & _ & _). destruct (er_ltb ENInf (nanmax m)) eqn:Q.
        * assert (K : In (nanmax m) (filter (er_ltb ENInf) m)) by (apply filter_In; auto).
          destruct (filter (er_ltb ENInf) m); [contradiction|discriminate].
        * destruct (nanmax m); cbn in *; try discriminate; reflexivity.
      + exists (nanmax m). split; [reflexivity|]. split; [reflexivity|]. intros N. left. destruct (nanmax m); try discriminate; reflexivity. }
  split; [exact P1|]. split; [|split; [exact P3|]].
  - intros Lt. cbn [cell]. apply Nat.ltb_lt in Lt. now rewrite Lt.
  - intros Hb. apply P1 in Hb. destruct Hb as [-> ->].
    unfold fill in F. cbn [bind] in F. pose proof (choose_spec _ _ _ F) as CS.
    destruct CS as (i' & z & E & C1 & C2 & _). cbn in E. subst i'. apply rew_tiers in C1. destruct C1 as (ss & s & v & D1 & D2 & D3 & ->).
    destruct (P3 (le_n _) s ss v D1 D2 D3) as (y & Y1 & Y2 & _). exists y. split; [exact Y1|].
    rewrite Y2; [exact C2|]. destruct (nanmax (vlist v)); cbn in *; auto; contradiction.
Qed.
Print Assumptions C127_surveys_df.

Definition dark : bfd unit := mkBfd "SunAltLimit" None 7 (mkBf (fun c => negb (Qeq_bool (sc_mjd c) 60001)) (fun _ => VS (EFin 5))).
Example C127_surveys_df_example :
  let L := [[greedy [slew (VS ENInf)] [1%Q]; greedy [dark] [1%Q]]; [demo]] in
  fill false c0 L = Ok (Some (0, 1)) /\
  surveys_df (Some (0, 1)) [[Some (VS ENInf); Some (VS (EFin 5))]; [None]] 0 = Ok [(Some ENInf, false); (Some (EFin 5), true)] /\
  surveys_df (Some (0, 1)) [[Some (VS ENInf); Some (VS (EFin 5))]; [None]] 1 = Ok [(None, false)].
Proof. vm_compute. repeat split. Qed.

(** Refuted: asking for the table at other conditions changes the rewards that
    the table of the list shows for the survey chosen, and those of lists never
    reached. *)
Theorem C127_stale_refuted : exists (s : sv unit) c1 v v',
  fill false c0 [[s]] = Ok (Some (0, 0)) /\ own s c0 = Ok v /\
  surveys_df (Some (0, 0)) [[Some v]] 0 = Ok [(Some (EFin (0 + 5 * 1)), true)] /\
  reward_after c1 s (Some v) = Some v' /\
  surveys_df (Some (0, 0)) [[Some v']] 0 = Ok [(Some ENInf, true)].
Proof.
  exists (greedy [dark] [1%Q]), (mkSc 60001%Q [] "" tt), (VS (EFin (0 + 5 * 1))), (VS ENInf). vm_compute. repeat split.
Qed.
Print Assumptions C127_stale_refuted.

(** Refuted: a list without surveys has no table. *)
Theorem C127_empty_list_refuted : forall sidx stored tier, nth_error stored tier = Some [] -> surveys_df sidx stored tier = Raise KeyError.
Proof. intros sidx stored tier H. unfold surveys_df. now rewrite H. Qed.
Print Assumptions C127_empty_list_refuted.

(** ** reward_changes *)
(** Each label comes with the greatest reward of the survey with the basis
    functions up to it. *)
Theorem C127_changes : forall W (s : sv W) c t k lab x, reward_changes s c = Ok t -> nth_error t k = Some (lab, x) ->
  exists b v, nth_error (v_bfs s) k = Some b /\ lab = label b /\
    v_calc s (firstn (S k) (v_bfs s)) (firstn (S k) (weights s)) c = Ok v /\ x = nanmax (vlist v).
Proof.
  intros W s c t k lab x H Hk. unfold reward_changes in H. apply bind_ok in H. destruct H as (u & Hu & H). apply ok_inj in H. subst t.
  apply combine_nth_inv in Hk. destruct Hk as [K1 K2]. rewrite nth_error_map in K1.
  destruct (nth_error (v_bfs s) k) as [b|] eqn:Eb; [|discriminate]. cbn in K1. injection K1 as <-.
  assert (CH : forall l db dw u, changes s c db dw l = Ok u -> List.length u = List.length l /\ forall k x, nth_error u k = Some x ->
     exists v, v_calc s (db ++ map snd (firstn (S k) l)) (dw ++ map fst (firstn (S k) l)) c = Ok v /\ x = nanmax (vlist v)).
  { clear. induction l as [|[w b] l IH]; intros db dw u H; cbn [changes] in H.
    - injection H as <-. split; [reflexivity|]. intros [|k] x K; discriminate.
    - apply bind_ok in H. destruct H as (v & Hv & H). apply bind_ok in H. destruct H as (u' & Hu & H). apply ok_inj in H. subst u.
      destruct (IH _ _ _ Hu) as [LL R]. split; [cbn; congruence|]. intros [|k] x K; cbn [nth_error] in K.
      + injection K as <-. exists v. auto.
      + destruct (R _ _ K) as (v' & V1 & V2). exists v'. split; [|exact V2]. cbn [firstn map fst snd] in *. rewrite <- !app_assoc in V1. exact V1. }
  destruct (CH _ _ _ _ Hu) as [LL R]. destruct (R _ _ K2) as (v & V1 & V2). exists b, v. repeat (split; [auto|]); [|exact V2].
  assert (K : k < List.length (combine (weights s) (v_bfs s))) by (rewrite <- LL; apply nth_error_Some; congruence).
  rewrite combine_length in K. destruct (combine_firstn_map _ _ (weights s) (v_bfs s) (S k)) as [C1 C2]; [lia|lia|].
  cbn [app] in V1. rewrite C1, C2 in V1. exact V1.
Qed.
Print Assumptions C127_changes.

(** Refuted: it is documented as the greatest reward returned by that basis
    function; the value is that of all of them so far, weighted. *)
Theorem C127_changes_refuted : exists (s : sv unit) b1 b2 x1 x2,
  v_bfs s = [b1; b2] /\ reward_changes s c0 = Ok [(label b1, x1); (label b2, x2)] /\
  bf_val (d_bf b2) c0 = VS (EFin 3) /\ x2 = EFin (0 + 10 * 1 + 3 * 2) /\ er_eqb x2 (EFin 3) = false.
Proof.
  exists (greedy [slew (VS (EFin 10)); m5 1 (VS (EFin 3))] [1%Q; 2%Q]). do 4 eexists.
  split; [reflexivity|]. split; [vm_compute; reflexivity|]. repeat split; reflexivity.
Qed.
Print Assumptions C127_changes_refuted.
