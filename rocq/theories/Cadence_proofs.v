(** Proofs about the rewards that drive a cadence. *)
From Coq Require Import List ZArith QArith Qabs Bool String Lia Lqa Sorted.
From Verif Require Import Base IntRounded Feat Feat_proofs Feat_proofs2 Feat_pairs BfCall BfCall_proofs MaskLoop MaskLoop_proofs Cadence.
Import ListNotations.
Open Scope nat_scope.

(** ** LastObserved after visits told one at a time *)
Definition hit (bn : option string) (x : nat) (v : fvis) : bool := band_in bn v && is_pix x (fv_pix v).
Lemma ld_fold : forall bn h x, fold_left (ld_one bn) h (fun _ => None) x = option_map fv_mjd (last_opt (filter (hit bn x) h)).
Proof.
  intros bn h x. induction h as [|v h IH] using rev_ind; [reflexivity|]. rewrite fold_left_app, filter_app, last_opt_app. cbn [fold_left filter].
  unfold ld_one at 1. change (band_in bn v && is_pix x (fv_pix v)) with (hit bn x v). destruct (hit bn x v); [reflexivity|exact IH].
Qed.
Lemma last_filter_in : forall A (p : A -> bool) l w, last_opt (filter p l) = Some w -> In w l /\ p w = true.
Proof. intros A p l w L. apply filter_In. destruct (last_opt_split _ _ _ L) as (r & ->). apply in_last. Qed.

(** ** VisitRepeat *)
Section Repeat.
Variable bn : option string.
Variables gmin gmax : Q.
Notation lo := (days_of gmin).
Notation hi := (days_of gmax).
Definition apart (h : list fvis) : Prop := forall u v, In u h -> In v h -> far (fv_mjd v - fv_mjd u) lo /\ far (fv_mjd v - fv_mjd u) hi.
Definition vr_R (h : list fvis) (s : vrst) : Prop :=
  pn_R None lo hi (filter (band_in bn) h) (vr_pairs s) /\ forall x, vr_last s x = option_map fv_mjd (last_opt (filter (hit bn x) h)).
Lemma single_none : forall s v, pn_single bn lo hi s v = if band_in bn v then pn_single None lo hi s v else Ok s.
Proof. intros s v. unfold pn_single. cbn [band_in]. destruct (band_in bn v); reflexivity. Qed.
Lemma vr_fold : forall h, chrono h -> apart h -> vr_R h (fold_left (vr_add bn gmin gmax) h vr0).
Proof.
  induction h as [|v h IH] using rev_ind; intros Ch Ap.
  - split; [apply pn0_R|reflexivity].
  - rewrite fold_left_app. cbn [fold_left]. assert (C1 : chrono h) by now apply chrono_pre in Ch.
    assert (A1 : apart h) by (intros a b A B; apply Ap; apply in_or_app; now left).
    destruct (IH C1 A1) as [P L]. set (s := fold_left (vr_add bn gmin gmax) h vr0) in *. clearbody s. unfold vr_add. rewrite single_none.
    assert (Ld : forall x, ld_one bn (vr_last s) v x = option_map fv_mjd (last_opt (filter (hit bn x) (h ++ [v])))).
    { intros x. rewrite filter_app, last_opt_app. cbn [filter]. unfold ld_one. change (band_in bn v && is_pix x (fv_pix v)) with (hit bn x v). destruct (hit bn x v); [reflexivity|apply L]. }
    assert (Ef : filter (band_in bn) (h ++ [v]) = filter (band_in bn) h ++ (if band_in bn v then [v] else [])) by (rewrite filter_app; reflexivity).
    destruct (band_in bn v) eqn:B.
    + destruct (pn_one_ok None lo hi (filter (band_in bn) h) (vr_pairs s) v P) as (s' & E & R).
      { split; [|split].
        - change [v] with (if true then [v] else []). rewrite <- B at 1. rewrite B, <- Ef. apply filter_chrono. exact Ch.
        - intros u _. exact I.
        - intros a b A B'. assert (Z : forall u, In u (filter (band_in bn) h ++ [v]) -> In u (h ++ [v])).
          { intros u U. apply in_app_or in U. apply in_or_app. destruct U as [U|U]; [left; apply filter_In in U; tauto|right; exact U]. }
          apply Ap; auto. }
      rewrite E. split; [|exact Ld]. cbn [vr_pairs]. rewrite Ef. exact R.
    + split; [|exact Ld]. cbn [vr_pairs]. rewrite Ef, app_nil_r. exact P.
Qed.
Lemma far_zero : forall x, far 0 x.
Proof.
  intros x. destruct (Qeq_dec x 0) as [E|E]; [left; exact E|right]. assert (Z : (Qabs (0 - x) == Qabs x)%Q) by (rewrite <- Qabs_opp; apply Qabs_wd; ring).
  rewrite Z. assert (P : (0 < Qabs x)%Q). { pose proof (Qabs_nonneg x). destruct (Qlt_le_dec 0 (Qabs x)) as [L|L]; [exact L|]. exfalso. apply E. revert L. apply (Qabs_case x (fun a => (a <= 0)%Q -> (x == 0)%Q)); intros; lra. }
  lra.
Qed.
Lemma vr_map_at : forall npix npairs s t x, x < npix ->
  (forall y q, y < npix -> vr_last s y = Some q -> far (t - q) lo /\ far (t - q) hi) ->
  vr_map npix gmin gmax npairs s t x =
  match vr_last s x with
  | Some q => if Qle_bool lo (t - q) && Qle_bool (t - q) hi && (pn_map (vr_pairs s) x <? npairs)%Z then EFin 1 else EFin 0
  | None => EFin 0
  end.
Proof.
  intros npix npairs s t x L F. assert (G : forall a, In a (map (vr_diff s t) (seq 0 npix)) -> far a lo /\ far a hi).
  { intros a A. apply in_map_iff in A. destruct A as (y & <- & Y). apply in_seq in Y. unfold vr_diff. destruct (vr_last s y) as [q|] eqn:E; [apply (F y q); [lia|exact E]|split; apply far_zero]. }
  unfold vr_map, ir_ge, ir_le. rewrite (cmp_scalar _ _ lo) by (intros a A; apply G, A). rewrite (cmp_scalar _ _ hi) by (intros a A; apply G, A). cbn [keep]. rewrite !map_map.
  rewrite !nth_map_seq by exact L. unfold vr_diff. destruct (vr_last s x); [rewrite andb_true_r; reflexivity|rewrite andb_false_r; reflexivity].
Qed.
End Repeat.
Lemma pairs_count : forall gmin gmax x (R : fvis -> bool) l,
  (forall a v b, l = a ++ v :: b -> R v = true -> In x (fv_pix v) /\ exists u, In u a /\ In x (fv_pix u) /\ (gmin < fv_mjd v - fv_mjd u < gmax)%Q) ->
  (count R l <= pairs gmin gmax x l)%Z.
Proof.
  intros gmin gmax x R l. induction l as [|v l IH] using rev_ind; intro H; [apply Z.le_refl|]. rewrite pairs_snoc, count_app, count_cons.
  assert (I1 : (count R l <= pairs gmin gmax x l)%Z). { apply IH. intros a w b E. apply (H a w (b ++ [v])). rewrite E, <- app_assoc. reflexivity. }
  destruct (R v) eqn:E.
  - destruct (H l v [] eq_refl E) as (P & u & U1 & U2 & U3 & U4). rewrite (proj2 (is_pix_in x (fv_pix v)) P). cbn [andb].
    assert (X : existsb (fun u => is_pix x (fv_pix u) && gap_in gmin gmax u v) l = true).
    { apply existsb_exists. exists u. split; [exact U1|]. rewrite (proj2 (is_pix_in x (fv_pix u)) U2). unfold gap_in. rewrite (proj2 (Qltb_lt _ _) U3), (proj2 (Qltb_lt _ _) U4). reflexivity. }
    rewrite X. unfold count at 2. cbn. lia.
  - unfold count at 2. cbn. destruct (_ && _); lia.
Qed.

(** ** CadenceEnhance *)
Lemma ce_ind_iff : forall F h, In h (ce_ind F) <-> h < ce_npix F /\ match ce_area F with None => True | Some a => ~ (a h == 0)%Q end.
Proof.
  intros F h. unfold ce_ind. destruct (ce_area F) as [a|].
  - rewrite filter_In, in_seq, negb_true_iff. split; intros [A B]; (split; [lia|]).
    + intro E. apply Qeq_bool_iff in E. congruence.
    + destruct (Qeq_bool (a h) 0) eqn:E; [apply Qeq_bool_iff in E; tauto|reflexivity].
  - rewrite in_seq. split; [intros; split; [lia|exact I]|intros; lia].
Qed.
Lemma ce_diffs_ok : forall nf f t ind, (forall h, In h ind -> h < nf /\ exists q, f h = Some q) ->
  ce_diffs nf f t ind = Ok (map (fun h => (t - match f h with Some q => q | None => 0 end)%Q) ind).
Proof.
  intros nf f t ind H. unfold ce_diffs. assert (E : existsb (fun h => Nat.leb nf h) ind = false).
  { destruct (existsb _ ind) eqn:E; [|reflexivity]. apply existsb_exists in E. destruct E as (h & I & L). apply Nat.leb_le in L. destruct (H h I). lia. }
  rewrite E. clear E. induction ind as [|h ind IH]; [reflexivity|]. cbn [fold_right map]. rewrite IH by (intros y Y; apply H; now right). cbn [bind].
  destruct (H h (or_introl eq_refl)) as [_ [q ->]]. reflexivity.
Qed.
Lemma ce_diffs_unseen : forall nf f t ind h, (forall y, In y ind -> y < nf) -> In h ind -> f h = None -> ce_diffs nf f t ind = Raise ValueError.
Proof.
  intros nf f t ind h L I N. unfold ce_diffs. assert (E : existsb (fun h => Nat.leb nf h) ind = false).
  { destruct (existsb _ ind) eqn:E; [|reflexivity]. apply existsb_exists in E. destruct E as (y & J & K). apply Nat.leb_le in K. pose proof (L y J). lia. }
  rewrite E. clear E L. induction ind as [|y ind IH]; [destruct I|]. cbn [fold_right].
  destruct I as [->|I].
  - clear IH. assert (V : forall r : res (list Q), (exists l, r = Ok l) \/ r = Raise ValueError -> bind r (fun l => match f h with Some q => Ok ((t - q)%Q :: l) | None => Raise ValueError end) = Raise ValueError).
    { intros r [[l ->]| ->]; cbn [bind]; [rewrite N; reflexivity|reflexivity]. }
    apply V. clear V. induction ind as [|z ind IH]; [left; eexists; reflexivity|]. cbn [fold_right]. destruct IH as [[l E]|E]; rewrite E; cbn [bind]; [|right; reflexivity].
    destruct (f z); [left; eexists; reflexivity|right; reflexivity].
  - rewrite (IH I). reflexivity.
Qed.
Lemma inside_far : forall d w, (forall a, In a d -> far a (fst w) /\ far a (snd w)) -> inside d w = Ok (map (fun a => Qltb (fst w) a && Qltb a (snd w)) d).
Proof.
  intros d w H. unfold inside, ir_gt, ir_lt. rewrite !cmp_scalar by (intros a A; apply H, A). cbn [bind]. rewrite combine_maps, map_map. reflexivity.
Qed.
Lemma put_map : forall ind (g : nat -> bool) v r h, put ind (map g ind) v r h = if is_pix h ind && g h then v else r h.
Proof.
  intros ind g v r h. unfold put. assert (E : existsb (fun p => Nat.eqb (fst p) h && snd p) (combine ind (map g ind)) = is_pix h ind && g h); [|rewrite E; reflexivity].
  induction ind as [|y ind IH]; [reflexivity|]. cbn [map combine existsb fst snd]. rewrite IH. unfold is_pix. cbn [existsb]. rewrite (Nat.eqb_sym y h). destruct (Nat.eqb_spec h y) as [->|]; cbn [andb orb]; [destruct (g y); cbn; [reflexivity|apply andb_false_r]|reflexivity].
Qed.

(** ** trapezoid *)
Section Trap.
Variables amp x0 width slope : Q.
Hypothesis As : (0 <= amp)%Q.
Hypothesis Ws : (0 <= width)%Q.
Hypothesis Ss : (0 < slope)%Q.
Notation T := (fun x => trapezoid x amp x0 width slope).
Notation x2 := (x0 - width / 2)%Q.
Notation x3 := (x0 + width / 2)%Q.
Notation run := (amp / slope)%Q.
Lemma half_width : (0 <= width / 2)%Q.
Proof. apply (Qle_shift_div_l 0 width 2); [reflexivity|]. lra. Qed.
Lemma run_pos : (0 <= run)%Q.
Proof. apply Qle_shift_div_l; [exact Ss|]. lra. Qed.
Lemma slope_run : (slope * run == amp)%Q.
Proof. field. lra. Qed.
Lemma trap_spec : forall x, (T x == if Qltb x (x2 - run) then 0 else if Qltb x x2 then slope * (x - x2) + amp else if Qltb x x3 then amp else if Qltb x (x3 + run) then slope * (x3 - x) + amp else 0)%Q.
Proof.
  intros x. unfold trapezoid. pose proof half_width as H2. pose proof run_pos as R0. pose proof slope_run as SR. set (r := run) in *. set (w := (width / 2)%Q) in *. clearbody r w.
  assert (E1 : (slope * (x - (x0 - w - r)) == slope * (x - (x0 - w)) + amp)%Q) by (rewrite <- SR; ring).
  assert (E2 : (slope * (x0 + w + r - x) == slope * (x0 + w - x) + amp)%Q) by (rewrite <- SR; ring).
  destruct (Qltb x (x0 - w - r)) eqn:A; destruct (Qltb x (x0 - w)) eqn:B; destruct (Qltb x (x0 + w)) eqn:C; destruct (Qltb x (x0 + w + r)) eqn:D;
  destruct (Qle_bool (x0 - w - r) x) eqn:A'; destruct (Qle_bool (x0 - w) x) eqn:B'; destruct (Qle_bool (x0 + w) x) eqn:C'; cbn [andb];
  rewrite ?Qltb_lt, ?Qltb_false, ?Qle_bool_iff, ?Qle_bool_false in *; try (exfalso; lra); try reflexivity; assumption.
Qed.
Lemma slope_mono : forall a b, (a <= b)%Q -> (slope * a <= slope * b)%Q.
Proof. intros a b L. rewrite (Qmult_comm slope a), (Qmult_comm slope b). apply Qmult_le_compat_r; [exact L|lra]. Qed.
Lemma trap_range : forall x, (0 <= T x <= amp)%Q.
Proof.
  intros x. cbv beta. rewrite (trap_spec x). pose proof run_pos as R0. pose proof slope_run as SR. set (r := run) in *. set (w := (width / 2)%Q). clearbody r w.
  destruct (Qltb x (x0 - w - r)) eqn:A; [lra|]. destruct (Qltb x (x0 - w)) eqn:B.
  { apply Qltb_false in A. apply Qltb_lt in B. pose proof (slope_mono (x - (x0 - w)) 0 ltac:(lra)). pose proof (slope_mono (- r) (x - (x0 - w)) ltac:(lra)). assert (slope * - r == - amp)%Q by (rewrite <- SR; ring). lra. }
  destruct (Qltb x (x0 + w)) eqn:C; [lra|]. destruct (Qltb x (x0 + w + r)) eqn:D; [|lra].
  apply Qltb_false in C. apply Qltb_lt in D. pose proof (slope_mono (x0 + w - x) 0 ltac:(lra)). pose proof (slope_mono (- r) (x0 + w - x) ltac:(lra)). assert (slope * - r == - amp)%Q by (rewrite <- SR; ring). lra.
Qed.
(** A step to the right changes the value by at most the slope times the step. *)
Lemma trap_step : forall x y, (x <= y)%Q -> (T x - slope * (y - x) <= T y <= T x + slope * (y - x))%Q.
Proof.
  intros x y L. cbv beta. pose proof (trap_range x) as Rx. pose proof (trap_range y) as Ry. cbv beta in Rx, Ry. rewrite (trap_spec x), (trap_spec y) in *. pose proof run_pos as R0. pose proof slope_run as SR. pose proof half_width as H2. set (r := run) in *. set (w := (width / 2)%Q) in *. clearbody r w.
  pose proof (slope_mono 0 (y - x) ltac:(lra)) as P0.
  assert (Sr : (slope * - r == - amp)%Q) by (rewrite <- SR; ring).
  assert (Ex : forall k, (slope * (x - k) == slope * x - slope * k)%Q) by (intros; ring). assert (Ey : forall k, (slope * (y - k) == slope * y - slope * k)%Q) by (intros; ring).
  destruct (Qltb x (x0 - w - r)) eqn:A; destruct (Qltb x (x0 - w)) eqn:B; destruct (Qltb x (x0 + w)) eqn:C; destruct (Qltb x (x0 + w + r)) eqn:D;
  destruct (Qltb y (x0 - w - r)) eqn:A'; destruct (Qltb y (x0 - w)) eqn:B'; destruct (Qltb y (x0 + w)) eqn:C'; destruct (Qltb y (x0 + w + r)) eqn:D';
  rewrite ?Qltb_lt, ?Qltb_false in *; try (exfalso; lra); try lra;
  first [ pose proof (slope_mono (y - (x0 - w)) (y - x + - r) ltac:(lra)); assert (slope * (y - x + - r) == slope * (y - x) + slope * - r)%Q by ring; lra
        | pose proof (slope_mono (x0 - w - x) (y - x) ltac:(lra)); assert (slope * (x - (x0 - w)) == - (slope * (x0 - w - x)))%Q by ring; lra
        | assert (slope * (y - (x0 - w)) == slope * (x - (x0 - w)) + slope * (y - x))%Q by ring; lra
        | pose proof (slope_mono (y - (x0 + w)) (y - x) ltac:(lra)); assert (slope * (x0 + w - y) == - (slope * (y - (x0 + w))))%Q by ring; lra
        | assert (slope * (x0 + w - y) == slope * (x0 + w - x) - slope * (y - x))%Q by ring; lra
        | idtac ].
  - pose proof (slope_mono r (y - x) ltac:(lra)). lra.
  - assert (G : (r - (y - (x0 + w)) <= y - x)%Q) by lra. apply slope_mono in G. assert (slope * (r - (y - (x0 + w))) == slope * r + slope * (x0 + w - y))%Q by ring. lra.
  - assert (G : (- (y - x) <= (x0 + w - y) - (x - (x0 - w)) <= y - x)%Q) by lra. destruct G as [G1 G2]. apply slope_mono in G1. apply slope_mono in G2.
    assert (slope * - (y - x) == - (slope * (y - x)))%Q by ring. assert (slope * (x0 + w - y - (x - (x0 - w))) == slope * (x0 + w - y) - slope * (x - (x0 - w)))%Q by ring. lra.
  - assert (G : (r + (x - (x0 - w)) <= y - x)%Q) by lra. apply slope_mono in G. assert (slope * (r + (x - (x0 - w))) == slope * r + slope * (x - (x0 - w)))%Q by ring. lra.
  - pose proof (slope_mono r (y - x) ltac:(lra)). lra.
  - assert (G : (r - (x - (x0 + w)) <= y - x)%Q) by lra. apply slope_mono in G. assert (slope * (r - (x - (x0 + w))) == slope * r + slope * (x0 + w - x))%Q by ring. lra.
Qed.
End Trap.
