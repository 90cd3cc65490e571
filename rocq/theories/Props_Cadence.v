(** C86: rewards that drive a cadence: pairs in a night, and windows of days. *)
From Coq Require Import List ZArith QArith Qabs Bool String Ascii Lia Lqa Sorted Qminmax.
From Verif Require Import Base IntRounded Feat Feat_proofs Feat_proofs2 Feat_pairs BfCall BfCall_proofs MaskLoop MaskLoop_proofs Cadence Cadence_proofs.
Import ListNotations.
Open Scope nat_scope.

(** The reward at a pixel after visits were reported and rewards asked for. *)
Definition value {S} (k : cls S mcond fvis) (s0 : S) (ops : list (op mcond fvis)) (c : mcond) (p : nat) : er :=
  snd (bf_call mc_mjd k (bf_run mc_mjd k (bf0 s0) ops) c) p.
Definition covers (p : nat) (v : fvis) : bool := existsb (Nat.eqb p) (fv_pix v).
(** The bands that count: all, or those whose letters are listed. *)
Fixpoint letter (c : ascii) (s : string) : bool := match s with EmptyString => false | String d r => Ascii.eqb c d || letter c r end.
Definition counts (bn : option string) (v : fvis) : bool :=
  match bn with None => true | Some s => match fv_band v with String c EmptyString => letter c s | _ => false end end.
Definition one_band (v : fvis) : Prop := exists c, fv_band v = String c EmptyString.
(** The last visit to the pixel that counts. *)
Definition last_visit (bn : option string) (p : nat) (h : list fvis) : option fvis := last_opt (filter (fun v => counts bn v && covers p v) h).

Lemma counts_in : forall bn v, one_band v -> band_in bn v = counts bn v.
Proof.
  intros [s|] v [c E]; [|reflexivity]. unfold band_in, counts. rewrite E. induction s as [|d s IH]; [reflexivity|]. cbn [letter]. rewrite <- IH. cbn. destruct (ascii_dec c d) as [->|N].
  - rewrite Ascii.eqb_refl. reflexivity.
  - destruct (Ascii.eqb_spec c d) as [->|]; [tauto|reflexivity].
Qed.
Lemma filter_same : forall A (p q : A -> bool) l, (forall x, In x l -> p x = q x) -> filter p l = filter q l.
Proof. intros A p q l. induction l as [|x l IH]; intro H; [reflexivity|]. cbn. rewrite (H x (or_introl eq_refl)), IH by (intros y Y; apply H; now right). reflexivity. Qed.
Lemma hit_visit : forall bn p h, (forall v, In v h -> one_band v) -> last_opt (filter (hit bn p) h) = last_visit bn p h.
Proof. intros bn p h O. unfold last_visit. f_equal. apply filter_same. intros v V. unfold hit. rewrite counts_in by auto. reflexivity. Qed.

(** ** VisitRepeat: pairs in a night *)
Definition minutes (gap : Q) : Q := (gap / 60 / 24)%Q.
(** No gap between two of the times is almost exactly the limit. *)
Definition off (lim : Q) (ts : list Q) : Prop :=
  forall a b, In a ts -> In b ts -> (minutes lim == 0)%Q \/ ((1 # 1000000000) * Qabs (minutes lim) < Qabs (a - b - minutes lim))%Q.
(** Visits that follow, at a gap between the limits, an earlier visit of that night to the pixel;
    for the night of the latest visit in the bands. *)
Definition pairs_made (gmin gmax : Q) (bn : option string) (p : nat) (h : list fvis) : Z :=
  match last_opt (filter (counts bn) h) with
  | None => 0%Z
  | Some w => pairs (minutes gmin) (minutes gmax) p (filter (fun v => (fv_night v =? fv_night w)%Z && counts bn v) h)
  end.

Lemma repeat_state : forall npix gmin gmax npairs bn ops c p, chrono (reports ops) -> (forall v, In v (reports ops) -> one_band v) ->
  off gmin (mc_mjd c :: map fv_mjd (reports ops)) -> off gmax (mc_mjd c :: map fv_mjd (reports ops)) -> p < npix ->
  value (vr_cls npix gmin gmax npairs bn) vr0 ops c p =
  match last_visit bn p (reports ops) with
  | None => EFin 0
  | Some w => if Qle_bool (minutes gmin) (mc_mjd c - fv_mjd w) && Qle_bool (mc_mjd c - fv_mjd w) (minutes gmax) && (pairs_made gmin gmax bn p (reports ops) <? npairs)%Z
              then EFin 1 else EFin 0
  end.
Proof.
  intros npix gmin gmax npairs bn ops c p Ch O F1 F2 L. unfold value.
  rewrite (fresh mc_mjd eq (vr_cls npix gmin gmax npairs bn) vr0 ops c p (eq_steady (vr_cls npix gmin gmax npairs bn) ltac:(reflexivity)) eq_refl). cbv zeta. cbn [vr_cls cl_feas].
  set (h := reports ops) in *. set (t := mc_mjd c) in *.
  assert (Ap : apart gmin gmax h).
  { intros u v U V. split; [apply F1|apply F2]; right; apply in_map; assumption. }
  destruct (vr_fold bn gmin gmax h Ch Ap) as [[P0 P] Lt]. change (cl_add (vr_cls npix gmin gmax npairs bn)) with (vr_add bn gmin gmax).
  set (s := fold_left (vr_add bn gmin gmax) h vr0) in *. clearbody s.
  change (snd (cl_calc (vr_cls npix gmin gmax npairs bn) s c)) with (vr_map npix gmin gmax npairs s t).
  rewrite vr_map_at; [|exact L|].
  - rewrite Lt, hit_visit by exact O. destruct (last_visit bn p h) as [w|] eqn:W; [|reflexivity]. cbn [option_map].
    assert (M : pn_map (vr_pairs s) p = pairs_made gmin gmax bn p h); [|rewrite M; reflexivity].
    unfold pairs_made. rewrite <- (filter_same _ (band_in bn) (counts bn) h) by (intros; apply counts_in; auto).
    destruct (last_opt (filter (band_in bn) h)) as [w'|] eqn:W'.
    + assert (Fn : forall l : list fvis, filter (band_is None) l = l) by (intro l; apply filter_true; reflexivity).
      rewrite Fn in P. destruct (P w' W') as (_ & _ & M). rewrite M. unfold of_night. f_equal. rewrite filter_filter.
      apply filter_same. intros v V. cbn [band_is]. rewrite andb_true_r, andb_comm. unfold night_is. rewrite counts_in by auto. reflexivity.
    + apply last_opt_none in W'. rewrite P0 by (rewrite W'; reflexivity). reflexivity.
  - intros y q _ Eq. rewrite Lt in Eq. destruct (last_opt (filter (hit bn y) h)) as [u|] eqn:U; [|discriminate Eq]. injection Eq as <-.
    apply last_filter_in in U. destruct U as [U _]. split; [apply F1|apply F2]; try (now left); right; apply in_map; exact U.
Qed.
(** The reward is 1 at exactly the pixels last visited, in the bands, a gap ago that is within the
    limits, and with fewer pairs so far in the night than asked for. *)
Theorem C86_repeat_partial : forall npix gmin gmax npairs bn ops c p, chrono (reports ops) -> (forall v, In v (reports ops) -> one_band v) ->
  off gmin (mc_mjd c :: map fv_mjd (reports ops)) -> off gmax (mc_mjd c :: map fv_mjd (reports ops)) -> p < npix ->
  (value (vr_cls npix gmin gmax npairs bn) vr0 ops c p = EFin 1 \/ value (vr_cls npix gmin gmax npairs bn) vr0 ops c p = EFin 0) /\
  (value (vr_cls npix gmin gmax npairs bn) vr0 ops c p = EFin 1 <->
   exists w, last_visit bn p (reports ops) = Some w /\ (minutes gmin <= mc_mjd c - fv_mjd w <= minutes gmax)%Q /\ (pairs_made gmin gmax bn p (reports ops) < npairs)%Z).
Proof.
  intros npix gmin gmax npairs bn ops c p Ch O F1 F2 L. rewrite repeat_state by assumption. destruct (last_visit bn p (reports ops)) as [w|].
  - destruct (Qle_bool (minutes gmin) (mc_mjd c - fv_mjd w)) eqn:A; destruct (Qle_bool (mc_mjd c - fv_mjd w) (minutes gmax)) eqn:B; destruct (pairs_made gmin gmax bn p (reports ops) <? npairs)%Z eqn:D; cbn [andb];
    rewrite ?Qle_bool_iff, ?Qle_bool_false, ?Z.ltb_lt, ?Z.ltb_ge in *; (split; [auto|]); split; intro X; try discriminate X; try reflexivity; try (exists w; auto; fail); destruct X as (w' & [= <-] & X & Y); exfalso; try lia; lra.
  - split; [auto|]. split; [intro X; discriminate X|]. intros (w & X & _). discriminate X.
Qed.
Print Assumptions C86_repeat_partial.
Definition vis (i night : Z) (t : Q) (b : string) (pix : list nat) : fvis := mkFv i night t b "" "" (EFin 1) (EFin 24) 0 pix.
Definition at_min (m : Q) : Q := (60000 + m / 1440)%Q.
Definition night_demo : list (op mcond fvis) :=
  [Ask (at_min 0, 1%Z); Seen (vis 1 1 (at_min 0) "g" [1; 2]); Seen (vis 2 1 (at_min 12) "z" [1]); Ask (at_min 30, 1%Z); Seen (vis 3 1 (at_min 30) "r" [2; 3])].
Lemma off_list : forall lim l, forallb (fun a => forallb (fun b => Qltb ((1 # 1000000000) * Qabs (minutes lim)) (Qabs (a - b - minutes lim))) l) l = true -> off lim l.
Proof.
  intros lim l H a b A B. right. rewrite forallb_forall in H. specialize (H a A). rewrite forallb_forall in H. specialize (H b B). now apply Qltb_lt in H.
Qed.
Ltac one := eexists; reflexivity.
(** Pixel 1 was last seen in g 35 minutes ago; pixel 2 has its pair; pixel 3 was seen 5 minutes ago. *)
Example C86_repeat_ex : chrono (reports night_demo) /\ (forall v, In v (reports night_demo) -> one_band v) /\
  off 25 (at_min 35 :: map fv_mjd (reports night_demo)) /\ off 45 (at_min 35 :: map fv_mjd (reports night_demo)) /\
  map (value (vr_cls 5 25 45 1 (Some "gr"%string)) vr0 night_demo (at_min 35, 1%Z)) [0; 1; 2; 3; 4] = [EFin 0; EFin 1; EFin 0; EFin 0; EFin 0] /\
  pairs_made 25 45 (Some "gr"%string) 2 (reports night_demo) = 1%Z.
Proof.
  split; [repeat constructor; vm_compute; congruence|]. split; [intros v V; cbn in V; repeat (destruct V as [<-|V]); try contradiction; one|].
  split; [apply off_list; vm_compute; reflexivity|]. split; [apply off_list; vm_compute; reflexivity|]. split; vm_compute; reflexivity.
Qed.

(** Over a run.  [aim v = Some p]: the visit was made for the reward at pixel [p].  It covers [p],
    its band counts, the pixel was rewarded when last asked, no more than [m] such visits use one
    answer, and when the visit is made the gap to some visit of the night is still in range. *)
Definition repeating (npix : nat) (gmin gmax : Q) (npairs : Z) (bn : option string) (aim : fvis -> option nat) (m : Z) (ops : list (op mcond fvis)) : Prop :=
  forall a v b p, ops = a ++ Seen v :: b -> aim v = Some p ->
  p < npix /\ In p (fv_pix v) /\ counts bn v = true /\
  (exists u, In u (reports a) /\ In p (fv_pix u) /\ counts bn u = true /\ fv_night u = fv_night v /\ (minutes gmin < fv_mjd v - fv_mjd u < minutes gmax)%Q) /\
  exists a1 c a2, a = a1 ++ Ask c :: a2 /\ value (vr_cls npix gmin gmax npairs bn) vr0 a1 c p = EFin 1 /\
    off gmin (mc_mjd c :: map fv_mjd (reports a1)) /\ off gmax (mc_mjd c :: map fv_mjd (reports a1)) /\
    (count (fun w => match aim w with Some q => Nat.eqb q p | None => false end) (reports a2) < m)%Z.
Definition made_for (aim : fvis -> option nat) (p : nat) (z : Z) (v : fvis) : bool :=
  (fv_night v =? z)%Z && match aim v with Some q => Nat.eqb q p | None => false end.
(** No pixel is given more than the pairs asked for in a night, [m - 1] answers too many apart. *)
Theorem C86_repeat_run : forall npix gmin gmax npairs bn aim m ops p z, (1 <= npairs)%Z -> (0 <= m)%Z ->
  chrono (reports ops) -> (forall v, In v (reports ops) -> one_band v) ->
  repeating npix gmin gmax npairs bn aim m ops ->
  (count (made_for aim p z) (reports ops) <= npairs - 1 + m)%Z.
Proof.
  intros npix gmin gmax npairs bn aim m ops p z Np M Ch O G. apply bound; [lia|]. intros a v b E Pv. unfold made_for in Pv. apply andb_true_iff in Pv. destruct Pv as [Pz Pa].
  apply Z.eqb_eq in Pz. destruct (aim v) as [q|] eqn:Av; [|discriminate Pa]. apply Nat.eqb_eq in Pa. subst q.
  destruct (G a v b p E Av) as (Lp & Ip & Bv & _ & a1 & c & a2 & Ea & Vl & F1 & F2 & C2). exists a1, c, a2. split; [exact Ea|].
  assert (Er : reports ops = reports a1 ++ (reports a2 ++ v :: reports b)).
  { rewrite E, Ea, !reports_app. cbn [reports flat_map app]. rewrite <- app_assoc. reflexivity. }
  split.
  2: { eapply Z.le_lt_trans; [|exact C2]. apply count_le. intros w _ Pw. unfold made_for in Pw. apply andb_true_iff in Pw. exact (proj2 Pw). }
  assert (In1 : forall w, In w (reports a1) -> In w (reports ops)) by (intros w W; rewrite Er; apply in_or_app; now left).
  assert (Ch1 : chrono (reports a1)) by (rewrite Er in Ch; now apply chrono_pre in Ch).
  rewrite repeat_state in Vl; [|exact Ch1|auto|exact F1|exact F2|exact Lp].
  destruct (last_visit bn p (reports a1)) as [w|] eqn:W; [|discriminate Vl].
  destruct (pairs_made gmin gmax bn p (reports a1) <? npairs)%Z eqn:Lt; [|rewrite andb_false_r in Vl; discriminate Vl]. apply Z.ltb_lt in Lt.
  destruct (existsb (made_for aim p z) (reports a1)) eqn:X; [|rewrite (count_existsb _ _ X); lia].
  apply existsb_exists in X. destruct X as (u0 & U1 & U2). unfold made_for in U2. apply andb_true_iff in U2. destruct U2 as [Uz Ua]. apply Z.eqb_eq in Uz.
  destruct (aim u0) as [q|] eqn:Au; [|discriminate Ua]. apply Nat.eqb_eq in Ua. subst q.
  assert (Sp : forall w', In w' (reports a1) -> exists x y, a1 = x ++ Seen w' :: y).
  { intros w' W'. unfold reports in W'. apply in_flat_map in W'. destruct W' as (o & O1 & O2). destruct o as [x|d]; [|destruct O2]. destruct O2 as [<-|[]]. apply in_split. exact O1. }
  assert (Cu : counts bn u0 = true).
  { destruct (Sp u0 U1) as (x & y & Exy). destruct (G x u0 (y ++ Ask c :: a2 ++ Seen v :: b) p) as (_ & _ & Q & _); [rewrite E, Ea, Exy, <- !app_assoc; reflexivity|exact Au|exact Q]. }
  unfold pairs_made in Lt. destruct (last_opt (filter (counts bn) (reports a1))) as [w'|] eqn:W'.
  2: { apply last_opt_none in W'. assert (I : In u0 (filter (counts bn) (reports a1))) by (apply filter_In; auto). rewrite W' in I. destruct I. }
  assert (Nw : fv_night w' = z).
  { assert (Iu : In u0 (filter (counts bn) (reports a1))) by (apply filter_In; auto).
    pose proof (chrono_last_night _ w' u0 (filter_chrono _ _ Ch1) W' Iu) as Lo.
    apply last_filter_in in W'. destruct W' as [I' _]. rewrite Er in Ch. apply chrono_app in Ch. destruct Ch as (_ & _ & K).
    assert (Hi : (fv_night w' <= fv_night v)%Z) by (apply (K w' v I'); apply in_or_app; right; now left). lia. }
  rewrite Nw in Lt. apply Z.lt_le_pred in Lt. eapply Z.le_trans; [|rewrite <- Z.sub_1_r in Lt; exact Lt].
  set (T := fun v => (fv_night v =? z)%Z && counts bn v) in *.
  assert (Cnt : count (made_for aim p z) (reports a1) = count (made_for aim p z) (filter T (reports a1))).
  { unfold count. rewrite filter_filter. do 2 f_equal. apply filter_same. intros x Xi. destruct (made_for aim p z x) eqn:Mx; [|now rewrite andb_false_r].
    unfold made_for in Mx. apply andb_true_iff in Mx. destruct Mx as [M1 M2]. unfold T. rewrite M1. cbn [andb]. destruct (aim x) as [q|] eqn:Ax; [|discriminate M2]. apply Nat.eqb_eq in M2. subst q.
    destruct (Sp x Xi) as (x1 & y & Exy). destruct (G x1 x (y ++ Ask c :: a2 ++ Seen v :: b) p) as (_ & _ & Q & _); [rewrite E, Ea, Exy, <- !app_assoc; reflexivity|exact Ax|]. rewrite Q. reflexivity. }
  rewrite Cnt. apply pairs_count. intros x1 x y Exy Mx. unfold made_for in Mx. apply andb_true_iff in Mx. destruct Mx as [M1 M2]. apply Z.eqb_eq in M1. destruct (aim x) as [q|] eqn:Ax; [|discriminate M2]. apply Nat.eqb_eq in M2. subst q.
  (* the split of the filtered visits comes from one of the run *)
  assert (Spl : forall (l : list (op mcond fvis)) x1 y, filter T (reports l) = x1 ++ x :: y -> exists l1 l2, l = l1 ++ Seen x :: l2 /\ filter T (reports l1) = x1).
  { clear. induction l as [|o l IH]; intros x1 y H; [destruct x1; discriminate H|]. destruct o as [u|d].
    - cbn [reports flat_map app] in H. change (flat_map _ l) with (reports l) in H. cbn [filter] in H. destruct (T u) eqn:Tu.
      + destruct x1 as [|x' x1]; cbn [app] in H; injection H as -> H.
        * exists [], l. split; reflexivity.
        * destruct (IH x1 y H) as (l1 & l2 & -> & E). exists (Seen x' :: l1), l2. split; [reflexivity|]. cbn [reports flat_map app]. change (flat_map _ l1) with (reports l1). cbn [filter]. rewrite Tu, E. reflexivity.
      + destruct (IH x1 y H) as (l1 & l2 & -> & E). exists (Seen u :: l1), l2. split; [reflexivity|]. cbn [reports flat_map app]. change (flat_map _ l1) with (reports l1). cbn [filter]. rewrite Tu. exact E.
    - destruct (IH x1 y H) as (l1 & l2 & -> & E). exists (Ask d :: l1), l2. split; [reflexivity|exact E]. }
  destruct (Spl a1 x1 y Exy) as (l1 & l2 & El & Ef). destruct (G l1 x (l2 ++ Ask c :: a2 ++ Seen v :: b) p) as (_ & Q1 & _ & (u & Q2 & Q3 & Q4 & Q5 & Q6) & _); [rewrite E, Ea, El, <- !app_assoc; reflexivity|exact Ax|].
  split; [exact Q1|]. exists u. split; [|split; [exact Q3|exact Q6]]. rewrite <- Ef. apply filter_In. split; [exact Q2|]. unfold T. rewrite Q4, Q5, M1, Z.eqb_refl. reflexivity.
Qed.
Print Assumptions C86_repeat_run.
Definition pair_aim (v : fvis) : option nat := if (fv_id v =? 3)%Z then Some 2 else None.
Example C86_repeat_run_ex : repeating 5 25 45 1 (Some "gr"%string) pair_aim 1 night_demo /\ count (made_for pair_aim 2 1) (reports night_demo) = 1%Z.
Proof.
  split; [|reflexivity]. intros a v b p E Av. unfold pair_aim in Av. destruct (fv_id v =? 3)%Z eqn:I3; [|discriminate Av]. injection Av as <-.
  assert (S5 : exists x, a = firstn 4 night_demo /\ x = v /\ b = []).
  { destruct a as [|o1 [|o2 [|o3 [|o4 [|o5 a]]]]]; unfold night_demo in E; cbn [app] in E; inversion E; subst; try discriminate I3.
    - eexists. repeat split.
    - exfalso. match goal with H : [] = _ |- _ => destruct a; discriminate H end. }
  destruct S5 as (x & -> & _ & ->). cbn [night_demo firstn app] in E. injection E as <-.
  split; [lia|]. split; [now left|]. split; [reflexivity|]. split.
  - exists (vis 1 1 (at_min 0) "g" [1; 2]). split; [now left|]. split; [right; now left|]. split; [reflexivity|]. split; [reflexivity|]. split; vm_compute; reflexivity.
  - exists (firstn 3 night_demo), (at_min 30, 1%Z), []. split; [reflexivity|]. split; [vm_compute; reflexivity|]. split; [apply off_list; vm_compute; reflexivity|]. split; [apply off_list; vm_compute; reflexivity|]. reflexivity.
Qed.
(** A gap of exactly the minimum is rewarded but not counted as a pair: one pair is asked for, and
    the pixel is rewarded, and visited when rewarded, three times in the night. *)
Definition tie_run : list (op mcond fvis) :=
  [Seen (vis 1 1 (at_min 0) "r" [2]); Ask (at_min 25, 1%Z); Seen (vis 2 1 (at_min 25) "r" [2]); Ask (at_min 50, 1%Z); Seen (vis 3 1 (at_min 50) "r" [2]);
   Ask (at_min 75, 1%Z); Seen (vis 4 1 (at_min 75) "r" [2])].
Theorem C86_repeat_tie_refuted :
  forall k, k < 3 -> exists c v, firstn 2 (skipn (1 + 2 * k) tie_run) = [Ask c; Seen v] /\ mc_mjd c = fv_mjd v /\ fv_pix v = [2] /\
  value (vr_cls 5 25 45 1 (Some "r"%string)) vr0 (firstn (1 + 2 * k) tie_run) c 2 = EFin 1.
Proof.
  intros k L. destruct k as [|[|[|k]]]; [..|lia]; (eexists; eexists; split; [reflexivity|]; split; [reflexivity|]; split; [reflexivity|vm_compute; reflexivity]).
Qed.
Print Assumptions C86_repeat_tie_refuted.
(** One pixel seen exactly the minimum gap ago lets all others of the last hours through: a pixel
    seen one minute ago is rewarded. *)
Theorem C86_repeat_spill_refuted : exists ops c p w, last_visit (Some "r"%string) p (reports ops) = Some w /\
  (mc_mjd c - fv_mjd w == 1 / 1440)%Q /\ value (vr_cls 5 25 45 1 (Some "r"%string)) vr0 ops c p = EFin 1.
Proof.
  exists [Seen (vis 1 1 (at_min 0) "r" [2]); Seen (vis 2 1 (at_min 24) "r" [3])], (at_min 25, 1%Z), 3. eexists. split; [reflexivity|]. split; vm_compute; reflexivity.
Qed.
Print Assumptions C86_repeat_spill_refuted.

(** ** CadenceEnhance: windows of days *)
Definition in_area (F : cecfg) (p : nat) : bool := Nat.ltb p (ce_npix F) && match ce_area F with None => true | Some a => negb (Qeq_bool (a p) 0) end.
(** Strictly between the ends of a window, in whichever order they are given. *)
Definition within (w : Q * Q) (x : Q) : bool := (Qltb (fst w) x && Qltb x (snd w)) || (Qltb (snd w) x && Qltb x (fst w)).
Definition off_ends (w : Q * Q) (x : Q) : Prop := far x (fst w) /\ far x (snd w).

Lemma area_ind : forall F p, is_pix p (ce_ind F) = in_area F p.
Proof.
  intros F p. apply eq_true_iff_eq. rewrite is_pix_in, ce_ind_iff. unfold in_area. rewrite andb_true_iff, Nat.ltb_lt. destruct (ce_area F) as [a|]; [|tauto].
  rewrite negb_true_iff. destruct (Qeq_bool (a p) 0) eqn:E; [apply Qeq_bool_iff in E|]; (split; intros [A B]; (split; [exact A|])); try tauto; try discriminate; try reflexivity.
  intro X. apply Qeq_bool_iff in X. congruence.
Qed.
Lemma sort2_within : forall w x, Qltb (fst (qsort2 w)) x && Qltb x (snd (qsort2 w)) = within w x.
Proof.
  intros [a b] x. unfold qsort2, within. cbn [fst snd]. destruct (Qle_bool a b) eqn:E; cbn [fst snd].
  - apply Qle_bool_iff in E. destruct (Qltb b x) eqn:B; [|cbn; rewrite orb_false_r; reflexivity]. destruct (Qltb x a) eqn:A; [|cbn; rewrite orb_false_r; reflexivity]. apply Qltb_lt in A. apply Qltb_lt in B. exfalso. lra.
  - apply Qle_bool_false in E. destruct (Qltb a x) eqn:A; [|reflexivity]. destruct (Qltb x b) eqn:B; [|reflexivity]. apply Qltb_lt in A. apply Qltb_lt in B. exfalso. lra.
Qed.
(** Where every pixel of the area has been visited in the bands, and no time since is almost exactly
    the end of a window, the reward follows the time since the last visit. *)
Theorem C86_enhance_partial : forall F h t, (forall v, In v h -> one_band v) -> ce_npix F <= ce_nfeat F ->
  (forall p, in_area F p = true -> exists w, last_visit (ce_band F) p h = Some w /\ off_ends (ce_swin F) (t - fv_mjd w) /\ off_ends (ce_ewin F) (t - fv_mjd w)) ->
  exists r, ce_reward F h t = Ok r /\
  forall p, r p = match last_visit (ce_band F) p h with
                  | Some w => if in_area F p then if within (ce_ewin F) (t - fv_mjd w) then ce_eval F else if within (ce_swin F) (t - fv_mjd w) then ce_sval F else EFin 0 else EFin 0
                  | None => EFin 0
                  end.
Proof.
  intros F h t O Ln H. unfold ce_reward. set (f := fold_left (ld_one (ce_band F)) h (fun _ => None)).
  assert (Ff : forall p, f p = option_map fv_mjd (last_visit (ce_band F) p h)) by (intro p; unfold f; rewrite ld_fold, hit_visit by exact O; reflexivity). clearbody f.
  assert (Hi : forall p, In p (ce_ind F) -> p < ce_nfeat F /\ exists w, f p = Some (fv_mjd w) /\ off_ends (ce_swin F) (t - fv_mjd w) /\ off_ends (ce_ewin F) (t - fv_mjd w)).
  { intros p P. split; [apply ce_ind_iff in P; lia|]. apply is_pix_in in P. rewrite area_ind in P. destruct (H p P) as (w & W & A & B). exists w. rewrite Ff, W. auto. }
  assert (Out : forall p, match last_visit (ce_band F) p h with Some w => if in_area F p then if within (ce_ewin F) (t - fv_mjd w) then ce_eval F else if within (ce_swin F) (t - fv_mjd w) then ce_sval F else EFin 0 else EFin 0 | None => EFin 0 end =
     (if is_pix p (ce_ind F) && within (ce_ewin F) (t - match f p with Some q => q | None => 0 end) then ce_eval F else if is_pix p (ce_ind F) && within (ce_swin F) (t - match f p with Some q => q | None => 0 end) then ce_sval F else EFin 0)).
  { intro p. rewrite area_ind, Ff. destruct (last_visit (ce_band F) p h) as [w|] eqn:W; cbn [option_map].
    - destruct (in_area F p); cbn [andb]; reflexivity.
    - destruct (in_area F p) eqn:A; [|reflexivity]. destruct (H p A) as (w & X & _). congruence. }
  unfold ce_calc. destruct (ce_ind F) as [|i0 ir] eqn:Ei.
  - eexists. split; [reflexivity|]. intro p. rewrite Out. reflexivity.
  - rewrite <- Ei in *. rewrite ce_diffs_ok by (intros p P; destruct (Hi p P) as [A (w & B & _)]; eauto). cbn [bind].
    set (g := fun p => (t - match f p with Some q => q | None => 0 end)%Q) in *.
    assert (Fa : forall a, In a (map g (ce_ind F)) -> off_ends (ce_swin F) a /\ off_ends (ce_ewin F) a).
    { intros a A. apply in_map_iff in A. destruct A as (p & <- & P). destruct (Hi p P) as [_ (w & B & C)]. unfold g. rewrite B. exact C. }
    assert (So : forall w a, off_ends w a -> far a (fst (qsort2 w)) /\ far a (snd (qsort2 w))) by (intros [x y] a [A B]; unfold qsort2; cbn [fst snd]; destruct (Qle_bool x y); cbn; auto).
    rewrite inside_far by (intros a A; apply So, Fa, A). cbn [bind]. rewrite inside_far by (intros a A; apply So, Fa, A). cbn [bind]. eexists. split; [reflexivity|].
    intro p. rewrite !map_map, !put_map, !sort2_within, Out. reflexivity.
Qed.
Print Assumptions C86_enhance_partial.
Definition two_days : cecfg := mkCe 4 4 (Some "gri"%string) (0, 18 # 10)%Q (EFin (- (1 # 2))) (32 # 10, 21 # 10)%Q (EFin 1) (Some (fun p => if Nat.eqb p 3 then 0 else 1)%Q).
Definition cad_demo : list fvis := [vis 1 1 60000 "g" [0; 1]; vis 2 1 60000 "u" [2; 3]; vis 3 2 60001 "i" [2; 0]].
Example C86_enhance_ex : exists r, ce_reward two_days cad_demo (60002 + (1 # 2)) = Ok r /\ map r [0; 1; 2; 3] = [EFin (- (1 # 2)); EFin 1; EFin (- (1 # 2)); EFin 0] /\
  (forall v, In v cad_demo -> one_band v) /\
  (forall p, in_area two_days p = true -> exists w, last_visit (Some "gri"%string) p cad_demo = Some w /\ off_ends (0, 18 # 10)%Q (60002 + (1 # 2) - fv_mjd w) /\ off_ends (32 # 10, 21 # 10)%Q (60002 + (1 # 2) - fv_mjd w)).
Proof.
  eexists. split; [vm_compute; reflexivity|]. split; [vm_compute; reflexivity|]. split.
  - intros v V. cbn in V. repeat (destruct V as [<-|V]); try contradiction; one.
  - intros p P. destruct p as [|[|[|[|p]]]]; try discriminate P; (eexists; split; [vm_compute; reflexivity|]); (split; split; (left; reflexivity) || (right; vm_compute; reflexivity)).
Qed.
(** A visit made where the reward is that of the window follows the visit before it by a time in
    the window. *)
Theorem C86_enhance_gap : forall F h t p, (forall v, In v h -> one_band v) -> ce_npix F <= ce_nfeat F ->
  (forall p, in_area F p = true -> exists w, last_visit (ce_band F) p h = Some w /\ off_ends (ce_swin F) (t - fv_mjd w) /\ off_ends (ce_ewin F) (t - fv_mjd w)) ->
  ce_eval F <> ce_sval F -> ce_eval F <> EFin 0 ->
  (exists r, ce_reward F h t = Ok r /\ r p = ce_eval F) ->
  exists a w b, h = a ++ w :: b /\ In p (fv_pix w) /\ counts (ce_band F) w = true /\ (forall u, In u b -> ~ (In p (fv_pix u) /\ counts (ce_band F) u = true)) /\
  let lo := Qmin (fst (ce_ewin F)) (snd (ce_ewin F)) in let hi := Qmax (fst (ce_ewin F)) (snd (ce_ewin F)) in (lo < t - fv_mjd w < hi)%Q.
Proof.
  intros F h t p O Ln H N1 N2 (r & R1 & R2). destruct (C86_enhance_partial F h t O Ln H) as (r' & E & V). rewrite R1 in E. injection E as <-. rewrite V in R2.
  destruct (last_visit (ce_band F) p h) as [w|] eqn:W; [|congruence]. destruct (in_area F p); [|congruence].
  destruct (within (ce_ewin F) (t - fv_mjd w)) eqn:Wi; [|destruct (within (ce_swin F) (t - fv_mjd w)); congruence].
  assert (Spl : exists a b, h = a ++ w :: b /\ counts (ce_band F) w && covers p w = true /\ forall u, In u b -> counts (ce_band F) u && covers p u = false).
  { unfold last_visit in W. clear - W. induction h as [|x h IH]; [discriminate W|]. cbn [filter] in W. destruct (last_opt (filter (fun v => counts (ce_band F) v && covers p v) h)) as [y|] eqn:L.
    - assert (Ey : y = w). { destruct (counts (ce_band F) x && covers p x); [|congruence]. change (x :: filter (fun v => counts (ce_band F) v && covers p v) h) with ([x] ++ filter (fun v => counts (ce_band F) v && covers p v) h) in W. rewrite last_opt_app, L in W. congruence. }
      subst y. destruct (IH eq_refl) as (a & b & -> & A & B). exists (x :: a), b. auto.
    - apply last_opt_none in L. rewrite L in W. destruct (counts (ce_band F) x && covers p x) eqn:X; [|discriminate W]. injection W as <-. exists [], h. split; [reflexivity|]. split; [exact X|].
      intros u U. destruct (counts (ce_band F) u && covers p u) eqn:K; [|reflexivity]. assert (I : In u (filter (fun v => counts (ce_band F) v && covers p v) h)) by (apply filter_In; auto). rewrite L in I. destruct I. }
  destruct Spl as (a & b & -> & A & B). exists a, w, b. split; [reflexivity|]. apply andb_true_iff in A. destruct A as [A1 A2]. split; [now apply is_pix_in|]. split; [exact A1|]. split.
  - intros u U [K1 K2]. specialize (B u U). rewrite K2 in B. cbn [andb] in B. apply is_pix_in in K1. unfold covers in B. unfold is_pix in K1. congruence.
  - cbv zeta. unfold within in Wi. apply orb_true_iff in Wi. rewrite !andb_true_iff, !Qltb_lt in Wi.
    pose proof (Q.min_spec (fst (ce_ewin F)) (snd (ce_ewin F))) as Mi. pose proof (Q.max_spec (fst (ce_ewin F)) (snd (ce_ewin F))) as Ma.
    destruct Mi as [[? Mi]|[? Mi]]; destruct Ma as [[? Ma]|[? Ma]]; rewrite Mi, Ma; lra.
Qed.
Print Assumptions C86_enhance_gap.
(** While a pixel of the area has had no visit in the bands there is no reward: the call raises. *)
Theorem C86_enhance_unseen_refuted : forall F h t p, (forall v, In v h -> one_band v) -> ce_npix F <= ce_nfeat F ->
  in_area F p = true -> (forall v, In v h -> In p (fv_pix v) -> counts (ce_band F) v = false) -> ce_reward F h t = Raise ValueError.
Proof.
  intros F h t p O Ln A N. unfold ce_reward, ce_calc. rewrite <- area_ind in A. apply is_pix_in in A. destruct (ce_ind F) as [|i0 ir] eqn:E; [destruct A|]. rewrite <- E in *.
  rewrite (ce_diffs_unseen _ _ _ _ p); [reflexivity| |exact A|].
  - intros y Y. apply ce_ind_iff in Y. lia.
  - rewrite ld_fold. assert (Z : filter (hit (ce_band F) p) h = []); [|rewrite Z; reflexivity].
    clear - N O. induction h as [|v h IH]; [reflexivity|]. cbn [filter]. assert (X : hit (ce_band F) p v = false).
    { unfold hit. rewrite counts_in by (apply O; now left). destruct (is_pix p (fv_pix v)) eqn:P; [|apply andb_false_r]. apply is_pix_in in P. rewrite (N v (or_introl eq_refl) P). reflexivity. }
    rewrite X. apply IH; intros; [apply O|apply N]; try (now right); assumption.
Qed.
Print Assumptions C86_enhance_unseen_refuted.
Example C86_enhance_unseen_ex : (forall t, ce_reward two_days [] t = Raise ValueError) /\ ce_reward two_days (firstn 2 cad_demo) 60001 = Raise ValueError.
Proof. split; reflexivity. Qed.
(** LastObserved is made for the default number of pixels, whatever nside the function has. *)
Theorem C86_enhance_nside_refuted : exists F h t, (forall v, In v h -> one_band v) /\ (forall p, in_area F p = true -> exists w, last_visit (ce_band F) p h = Some w) /\
  ce_reward F h t = Raise IndexError.
Proof.
  exists (mkCe 4 2 None (0, 1)%Q (EFin 0) (2, 3)%Q (EFin 1) None), [vis 1 1 60000 "g" [0; 1; 2; 3]], 60001%Q. split; [intros v [<-|[]]; one|]. split; [|reflexivity].
  intros p P. destruct p as [|[|[|[|p]]]]; try discriminate P; eexists; reflexivity.
Qed.
Print Assumptions C86_enhance_nside_refuted.

(** ** trapezoid *)
(** Between 0 and the amplitude, the amplitude on the plateau and 0 beyond the slopes, with no jump:
    the value changes by at most the slope times the step. *)
Theorem C86_trapezoid : forall amp x0 width slope, (0 <= amp)%Q -> (0 <= width)%Q -> (0 < slope)%Q ->
  (forall x, 0 <= trapezoid x amp x0 width slope <= amp)%Q /\
  (forall x, Qabs (x - x0) < width / 2 -> trapezoid x amp x0 width slope == amp)%Q /\
  (forall x, width / 2 + amp / slope < Qabs (x - x0) -> trapezoid x amp x0 width slope == 0)%Q /\
  (forall x y, Qabs (trapezoid x amp x0 width slope - trapezoid y amp x0 width slope) <= slope * Qabs (x - y))%Q.
Proof.
  intros amp x0 width slope A W S. pose proof (half_width width W) as H2. pose proof (run_pos amp slope A S) as R0. split; [intro x; now apply trap_range|]. split; [|split].
  - intros x L. apply Qabs_Qlt_condition in L. rewrite (trap_spec amp x0 width slope A W S x). set (w := (width / 2)%Q) in *. set (r := (amp / slope)%Q) in *. clearbody w r.
    rewrite (proj2 (Qltb_false x (x0 - w - r))) by lra. rewrite (proj2 (Qltb_false x (x0 - w))) by lra. rewrite (proj2 (Qltb_lt x (x0 + w))) by lra. reflexivity.
  - intros x L. rewrite (trap_spec amp x0 width slope A W S x). set (w := (width / 2)%Q) in *. set (r := (amp / slope)%Q) in *. clearbody w r. revert L. apply Qabs_case; intros C L.
    + rewrite (proj2 (Qltb_false x (x0 - w - r))) by lra. rewrite (proj2 (Qltb_false x (x0 - w))) by lra. rewrite (proj2 (Qltb_false x (x0 + w))) by lra. rewrite (proj2 (Qltb_false x (x0 + w + r))) by lra. reflexivity.
    + rewrite (proj2 (Qltb_lt x (x0 - w - r))) by lra. reflexivity.
  - intros x y. destruct (Qlt_le_dec x y) as [L|L].
    + pose proof (trap_step amp x0 width slope A W S x y ltac:(lra)) as T. cbv beta in T. assert (E : (Qabs (x - y) == y - x)%Q) by (rewrite Qabs_neg by lra; ring). rewrite E. apply Qabs_Qle_condition. lra.
    + pose proof (trap_step amp x0 width slope A W S y x L) as T. cbv beta in T. assert (E : (Qabs (x - y) == x - y)%Q) by (rewrite Qabs_pos by lra; ring). rewrite E. apply Qabs_Qle_condition. lra.
Qed.
Print Assumptions C86_trapezoid.
(** The sum of the two stays between them, and has no jump. *)
Theorem C86_smooth : forall F, (0 <= d_amp F)%Q -> (0 <= d_width F)%Q -> (0 < d_slope F)%Q -> (0 <= e_amp F)%Q -> (0 <= e_width F)%Q -> (0 < e_slope F)%Q ->
  (forall x, - d_amp F <= suppress_enhance F x <= e_amp F)%Q /\
  (forall x y, Qabs (suppress_enhance F x - suppress_enhance F y) <= (d_slope F + e_slope F) * Qabs (x - y))%Q.
Proof.
  intros F A1 A2 A3 B1 B2 B3. destruct (C86_trapezoid (d_amp F) (d_peak F) (d_width F) (d_slope F) A1 A2 A3) as (R1 & _ & _ & L1). destruct (C86_trapezoid (e_amp F) (e_peak F) (e_width F) (e_slope F) B1 B2 B3) as (R2 & _ & _ & L2).
  unfold suppress_enhance. split.
  - intro x. specialize (R1 x). specialize (R2 x). lra.
  - intros x y. specialize (L1 x y). specialize (L2 x y). apply Qabs_Qle_condition in L1. apply Qabs_Qle_condition in L2. apply Qabs_Qle_condition. set (k := Qabs (x - y)) in *. clearbody k.
    assert (E : ((d_slope F + e_slope F) * k == d_slope F * k + e_slope F * k)%Q) by ring. rewrite E. lra.
Qed.
Print Assumptions C86_smooth.
Definition usual : tzcfg := mkTz 2 2 0 (1 # 2) 3 2 4 1.
Example C86_smooth_ex : (map (fun x => Qred (suppress_enhance usual x)) [0; 11 # 10; 3 # 2; 9 # 4; 4; 23 # 4; 7] = [- (1 # 2); - (3 # 10); 0; 1 # 2; 1; 1 # 2; 0])%Q.
Proof. reflexivity. Qed.
