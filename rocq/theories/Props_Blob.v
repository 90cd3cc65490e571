(** Properties of the Markov decision surveys. *)
From Coq Require Import List ZArith QArith Qround Bool String Lia Lqa Permutation Sorted.
From Verif Require Import Base IntRounded Obs Queue Core Core_proofs Surveys Surveys_proofs Blob Blob_proofs Blob_grow.
Import ListNotations.
Open Scope nat_scope.

(** A basis function returning a fixed map, and one returning a fixed scalar. *)
Definition mbf (ok : bool) (m : list er) : bfun unit := mkBf (fun _ => ok) (fun _ => VM m).
Definition sbf (ok : bool) (x : er) : bfun unit := mkBf (fun _ => ok) (fun _ => VS x).
Definition bcond : scond unit := mkSc 60000 ["r"%string] "r" tt.

(** ** C36 for the Markov surveys *)
(** An element of the reward. *)
Definition elem (v : val) (x : er) : Prop := match v with VS y => x = y | VM m => In x m end.

(** Any reward above -inf is the weighted sum of the basis functions, and all of
    them are feasible. *)
Theorem C36_markov_reward :
  forall W near pixdeg conv area extra (l : list (bfun W * Q)) c v x,
  (markov_reward near pixdeg conv area l c = Ok v \/ blob_reward near pixdeg conv area l c = Ok v \/
   pairs_reward near pixdeg conv area extra l c = Ok v) ->
  elem v x -> er_ltb ENInf x = true ->
  wsum (VS (EFin 0)) l c = Ok v /\ forall b w, In (b, w) l -> bf_feas b c = true.
Proof.
  intros W near pixdeg conv area extra l c v x H E X.
  assert (NV : v <> VS ENInf) by (intros ->; cbn in E; subst x; discriminate).
  split.
  - destruct H as [H|[H|H]].
    + apply markov_reward_cases in H. tauto.
    + apply blob_reward_cases in H. tauto.
    + apply pairs_reward_cases in H. tauto.
  - intros b w Hb. destruct (bf_feas b c) eqn:F; [reflexivity|]. exfalso.
    destruct (infeasible_rewards near pixdeg conv area extra l b w c Hb F) as (A & B & C).
    destruct H as [H|[H|H]]; congruence.
Qed.
Print Assumptions C36_markov_reward.

(** A Markov survey without basis functions cannot be evaluated at all. *)
Theorem C36_markov_empty :
  forall W near pixdeg conv (c : scond W),
  markov_reward near pixdeg conv None [] c = Raise UnboundLocalError /\
  blob_reward near pixdeg conv None [] c = Raise UnboundLocalError /\
  pairs_reward near pixdeg conv None None [] c = Raise UnboundLocalError.
Proof. intros. repeat split; reflexivity. Qed.
Print Assumptions C36_markov_empty.

Example C36_markov_example :
  markov_reward (fun _ _ => true) 1 1 None [(mbf true [EFin 1; ENaN], 2%Q); (sbf true (EFin 1), 1%Q)] bcond = Ok (VM [EFin 3; ENaN]) /\
  pairs_reward (fun _ _ => true) 1 1 (Some 1%Q) None [(mbf true [EFin 1; ENaN], 2%Q)] bcond = Ok (VM [EFin 2; ENaN]) /\
  blob_reward (fun _ _ => true) 1 1 (Some 1%Q) [(mbf true [EFin 1; ENaN], 2%Q); (sbf false (EFin 1), 1%Q)] bcond = Ok (VS ENInf).
Proof. split; [vm_compute; reflexivity|]. split; vm_compute; reflexivity. Qed.

(** ** C56 Required area *)
(** Area in square degrees of a list of pixels. *)
Definition sky (pixdeg : Q) (pix : list nat) : Q := (inject_Z (Z.of_nat (List.length pix)) * pixdeg)%Q.

Lemma scale_le : forall a b conv, (0 < conv)%Q -> (a * conv <= b * conv)%Q -> (a <= b)%Q.
Proof. intros a b conv H L. exact (Qmult_lt_0_le_reg_r _ _ _ H L). Qed.

Lemma good_near_in : forall (near : nat -> nat -> bool) m p i, In i (filter (near p) (good_pix m)) <-> er_isnan (get_pix m i) = false /\ near p i = true.
Proof.
  intros near m p i. unfold good_pix. rewrite !filter_In, in_seq, negb_true_iff. split; [tauto|].
  intros [H N]. destruct (get_pix_in _ _ H). repeat split; auto; lia.
Qed.
Lemma good_near_nodup : forall (near : nat -> nat -> bool) m p, NoDup (filter (near p) (good_pix m)).
Proof. intros. apply NoDup_filter. unfold good_pix. apply NoDup_filter, seq_NoDup. Qed.

(** A blob survey with a required area offers a reward only when the pixels that
    are not NaN near the peak of the reward cover it. *)
Theorem C56_blob_area :
  forall W near pixdeg conv a (l : list (bfun W * Q)) c v, (0 < conv)%Q ->
  blob_reward near pixdeg conv (Some a) l c = Ok v ->
  v = VS ENInf \/
  exists m p pix, v = VM m /\ is_peak m p /\ NoDup pix /\
    (forall i, In i pix -> er_isnan (get_pix m i) = false /\ near p i = true) /\ (a <= sky pixdeg pix)%Q.
Proof.
  intros W near pixdeg conv a l c v Hc H. destruct (blob_reward_cases _ _ _ _ _ _ _ H) as [->|[_ K]]; [now left|]. right.
  destruct (K a eq_refl) as (m & p & -> & P & L). exists m, p, (filter (near p) (good_pix m)).
  split; [reflexivity|]. split; [now apply peak_spec|]. split; [apply good_near_nodup|].
  split; [intros i Hi; now apply good_near_in|].
  apply (scale_le _ _ conv Hc). unfold sky. rewrite <- Qmult_assoc. exact L.
Qed.
Print Assumptions C56_blob_area.

(** It does offer its reward whenever they do, all basis functions are feasible
    and some pixel is finite. *)
Theorem C56_blob_area_enough :
  forall W near pixdeg conv a (l : list (bfun W * Q)) c m p pix, (0 < conv <= 1)%Q -> (0 <= a)%Q -> (0 <= pixdeg)%Q ->
  l <> [] -> (forall b w, In (b, w) l -> bf_feas b c = true) -> wsum (VS (EFin 0)) l c = Ok (VM m) ->
  (exists q, In (EFin q) m) -> is_peak m p -> NoDup pix ->
  (forall i, In i pix -> er_isnan (get_pix m i) = false /\ near p i = true) -> (a <= sky pixdeg pix)%Q ->
  blob_reward near pixdeg conv (Some a) l c = Ok (VM m).
Proof.
  intros W near pixdeg conv a l c m p pix Hc Ha Hp Hl F S (q & Hq) P ND Hpix L.
  assert (Pk : peak m = Some p).
  { destruct (peak_ex m) as (p' & E). - exists p. apply P. - rewrite E. f_equal. apply (peak_unique m); [now apply peak_spec|exact P]. }
  assert (Fe : feasible (map fst l) c = true).
  { apply feasible_iff. intros b Hb. apply in_map_iff in Hb. destruct Hb as ((b' & w) & <- & Hb). now apply F in Hb. }
  assert (Ex : existsb er_isfin m = true) by (apply existsb_exists; now exists (EFin q)).
  assert (Len : List.length pix <= List.length (filter (near p) (good_pix m))).
  { apply NoDup_incl_length; [exact ND|]. intros i Hi. apply good_near_in. now apply Hpix. }
  set (g := List.length (filter (near p) (good_pix m))) in *.
  assert (Lg : (a <= inject_Z (Z.of_nat g) * pixdeg)%Q).
  { eapply Qle_trans; [exact L|]. unfold sky. apply Qmult_le_compat_r; [|exact Hp]. rewrite <- Zle_Qle. lia. }
  assert (Vl : List.length (filter (fun i => negb (er_isnan (get_pix m i)) && near p i) (seq 0 (List.length m))) = g).
  { unfold g, good_pix. clear. induction (seq 0 (List.length m)) as [|x r IH]; [reflexivity|]. cbn.
    destruct (negb (er_isnan (get_pix m x))); cbn; [|exact IH]. destruct (near p x); cbn; now rewrite ?IH. }
  assert (CA : check_area near pixdeg m (a * conv) = true).
  { unfold check_area. rewrite Ex, Pk. cbv zeta. rewrite Vl. apply negb_true_iff. apply Qltb_false.
    eapply Qle_trans; [|exact Lg]. rewrite <- (Qmult_1_r a) at 2. rewrite !(Qmult_comm a). apply Qmult_le_compat_r; tauto. }
  unfold blob_reward, markov_feasible, bf_loop, basic_reward. destruct (map fst l) as [|b0 bs] eqn:El; [destruct l; [tauto|discriminate]|].
  rewrite Fe, S. cbn [bind]. rewrite Ex, CA. cbn [bind]. rewrite Pk. cbv zeta. fold g.
  assert (N : Qltb (inject_Z (Z.of_nat g) * (pixdeg * conv)) (a * conv) = false).
  { apply Qltb_false. rewrite Qmult_assoc. apply Qmult_le_compat_r; [exact Lg|]. apply Qlt_le_weak; tauto. }
  now rewrite N.
Qed.
Print Assumptions C56_blob_area_enough.

(** Pixels at -inf, which cannot be observed, count towards the area. *)
Theorem C56_finite_area_refuted :
  exists near pixdeg conv a (l : list (bfun unit * Q)) m p,
    blob_reward near pixdeg conv (Some a) l bcond = Ok (VM m) /\ is_peak m p /\
    forall pix, NoDup pix -> (forall i, In i pix -> er_isfin (get_pix m i) = true) -> (sky pixdeg pix < a)%Q.
Proof.
  exists (fun _ _ => true), 1%Q, (1 # 3283)%Q, 3%Q, [(mbf true [EFin 1; ENInf; ENInf], 1%Q)], [EFin 1; ENInf; ENInf], 0.
  split; [vm_compute; reflexivity|]. split; [apply peak_spec; reflexivity|].
  intros pix ND H. assert (I : incl pix [0]).
  { intros i Hi. apply H in Hi. destruct i as [|[|[|i]]]; cbn in Hi; try discriminate; [now left|]. destruct i; discriminate. }
  apply NoDup_incl_length in I; [|exact ND]. cbn in I. unfold sky. destruct pix as [|? [|? ?]]; cbn in *; try lia; reflexivity.
Qed.
Print Assumptions C56_finite_area_refuted.

(** A pairs survey accepts areas far below the requirement: it compares square
    degrees with steradians. *)
Theorem C56_pairs_area_refuted :
  exists near pixdeg conv a (l : list (bfun unit * Q)) m,
    pairs_reward near pixdeg conv (Some a) None l bcond = Ok (VM m) /\
    (sky pixdeg (good_pix m) * 1000 < a)%Q /\ (3 * conv * 1000 < 1)%Q.
Proof.
  exists (fun _ _ => true), 1%Q, (1 # 3283)%Q, 3283%Q, [(mbf true [EFin 1; ENaN; ENaN], 1%Q)], [EFin 1; ENaN; ENaN].
  split; [vm_compute; reflexivity|]. split; reflexivity.
Qed.
Print Assumptions C56_pairs_area_refuted.

(** What a pairs survey does require: [conv] times the area. *)
Theorem C56_pairs_area_scaled :
  forall W near pixdeg conv a (l : list (bfun W * Q)) c v,
  pairs_reward near pixdeg conv (Some a) None l c = Ok v ->
  v = VS ENInf \/
  exists m p pix, v = VM m /\ is_peak m p /\ NoDup pix /\
    (forall i, In i pix -> er_isnan (get_pix m i) = false /\ near p i = true) /\ (a * conv <= sky pixdeg pix)%Q.
Proof.
  intros W near pixdeg conv a l c v H. unfold pairs_reward, pairs_feasible in H.
  destruct (bf_loop (map fst l) c) as [[|]|]; [| cbn in H; left; congruence|].
  all: destruct (basic_reward l c) as [[x|m]|]; cbn [bind] in H; try discriminate.
  all: destruct (check_area near pixdeg m (a * conv)) eqn:CA; cbn [bind] in H; [|left; congruence].
  all: injection H as <-; right; unfold check_area in CA; destruct (existsb er_isfin m); [|discriminate].
  all: destruct (peak m) as [p|] eqn:P; [|discriminate]; cbv zeta in CA; apply negb_true_iff in CA; apply Qltb_false in CA.
  all: exists m, p, (filter (fun i => negb (er_isnan (get_pix m i)) && near p i) (seq 0 (List.length m))).
  all: split; [reflexivity|]; split; [now apply peak_spec|]; split; [apply NoDup_filter, seq_NoDup|]; split; [|exact CA].
  all: intros i Hi; apply filter_In in Hi; destruct Hi as [_ Hi]; apply andb_prop in Hi; destruct Hi as [A B];
    apply negb_true_iff in A; auto.
Qed.
Print Assumptions C56_pairs_area_scaled.

(** A greedy survey with a required area fails as soon as something is observable. *)
Theorem C56_greedy_area :
  forall W near pixdeg conv a (l : list (bfun W * Q)) c m q,
  l <> [] -> (forall b w, In (b, w) l -> bf_feas b c = true) ->
  wsum (VS (EFin 0)) l c = Ok (VM m) -> In (EFin q) m ->
  markov_reward near pixdeg conv (Some a) l c = Raise AttributeError.
Proof.
  intros W near pixdeg conv a l c m q Hl F S Hq.
  assert (Fe : feasible (map fst l) c = true).
  { apply feasible_iff. intros b Hb. apply in_map_iff in Hb. destruct Hb as ((b' & w) & <- & Hb). now apply F in Hb. }
  assert (Ex : existsb er_isfin m = true) by (apply existsb_exists; now exists (EFin q)).
  unfold markov_reward, markov_feasible, bf_loop, basic_reward. destruct (map fst l) as [|b0 bs] eqn:El; [destruct l; [tauto|discriminate]|].
  rewrite Fe, S. cbn [bind]. now rewrite Ex.
Qed.
Print Assumptions C56_greedy_area.

Example C56_example :
  let l := [(mbf true [EFin 1; ENaN; EFin 3; EFin 2], 1%Q)] in
  let near := fun p i => Nat.leb (p - i + (i - p)) 1 in
  blob_reward near 2 (1 # 3283) (Some 4%Q) l bcond = Ok (VM [EFin 1; ENaN; EFin 3; EFin 2]) /\
  blob_reward near 2 (1 # 3283) (Some 5%Q) l bcond = Ok (VS ENInf) /\
  markov_reward near 2 (1 # 3283) (Some 5%Q) l bcond = Raise AttributeError.
Proof. split; [vm_compute; reflexivity|]. split; vm_compute; reflexivity. Qed.

(** ** C57 Block size *)
(** There is always at least one visit in a block. *)
Theorem C57_block_positive : forall s k, bset_ok s -> exists n, block_size s k = Ok n /\ (1 <= n)%Z.
Proof.
  intros s k OK. destruct (block_size_ok s k) as (n & E). exists n. split; [exact E|]. now apply (block_size_cases s k n).
Qed.
Print Assumptions C57_block_positive.

(** The time until the next morning twilight, when the survey watches it, and
    until the first scheduled observation. *)
Definition until (k : breaks) (t : Q) : Q := (t - k_mjd k)%Q.
Definition sched_break (s : bset) (k : breaks) (t : Q) : Prop :=
  b_check_sched s = true /\ In t (k_sched k).
Definition twi_break (s : bset) (k : breaks) (t : Q) : Prop := b_twilight_scale s = true /\ t = k_n18_rise k.

(** A block of more than one visit ends before twilight; it can reach at most one
    block length past a scheduled observation, and ends before it if no twilight is
    watched. *)
Theorem C57_block_fits :
  forall s k n, bset_ok s -> b_in_twilight s = false -> block_size s k = Ok n -> n <> 1%Z ->
  (forall t, twi_break s k t -> (block_days s n <= until k t)%Q) /\
  (forall t, sched_break s k t -> (block_days s n <= until k t + time_needed s)%Q) /\
  (b_twilight_scale s = false -> forall t, sched_break s k t -> (block_days s n <= until k t)%Q).
Proof.
  intros s k n OK IT H N1. destruct (time_needed_ge s OK) as [Tp _].
  destruct (block_size_cases s k n OK H) as (_ & [K|K]); [tauto|]. clear H N1.
  set (T := time_needed s) in *. set (D := block_days s n) in *.
  assert (Two : forall x, (2 <= round_even (x / T))%Z -> (T <= x)%Q) by (intros x; apply round_two; exact Tp).
  unfold block_state in K. fold T in K. rewrite IT in K. cbv zeta in K.
  set (tw := (k_n18_rise k - k_mjd k)%Q) in *.
  (* the first scheduled time *)
  assert (Sm : forall t, sched_break s k t -> exists x r, k_sched k = x :: r /\ (Qmin_list x r <= t)%Q).
  { intros t [_ Ht]. destruct (k_sched k) as [|x r]; [destruct Ht|]. exists x, r. split; [reflexivity|].
    destruct (Qmin_list_spec r x) as (A & B & _). destruct Ht as [<-|Ht]; auto. }
  unfold until. split; [|split].
  - intros t [TS ->]. fold tw. rewrite TS in K. cbn [fst snd] in K.
    destruct (b_check_sched s); [destruct (k_sched k) as [|x r]|]; cbn [fst snd] in K.
    2:{ set (sc := (Qmin_list x r - k_mjd k)%Q) in *. destruct (Z.ltb_spec (round_even (sc / T)) (round_even (tw / T))) as [L|L]; cbn [fst snd] in K.
        - assert (Le : (sc <= tw)%Q) by (apply (round_lt _ _ T); auto).
          destruct K as [[Q1 Q2]|(_ & a & E & Q2)]; [apply Two in Q1; lra|]. injection E as <-. lra.
        - destruct K as [[Q1 Q2]|(_ & a & E & Q2)]; [apply Two in Q1; lra|]. injection E as <-. exact Q2. }
    all: destruct K as [[Q1 Q2]|(_ & a & E & Q2)]; [apply Two in Q1; lra|]; injection E as <-; exact Q2.
  - intros t Ht. destruct (Sm t Ht) as (x & r & E & Le). destruct Ht as [CS _]. rewrite CS, E in K.
    set (sc := (Qmin_list x r - k_mjd k)%Q) in *. assert (Lt : (sc <= t - k_mjd k)%Q) by (unfold sc; lra).
    destruct (b_twilight_scale s); cbn [fst snd] in K.
    + destruct (Z.ltb_spec (round_even (sc / T)) (round_even (tw / T))) as [L|L]; cbn [fst snd] in K.
      * destruct K as [[Q1 Q2]|(_ & a & E2 & Q2)]; [apply Two in Q1; lra|]. injection E2 as <-. lra.
      * assert (Le2 : (tw <= sc + T)%Q) by (apply round_le; auto).
        destruct K as [[Q1 Q2]|(_ & a & E2 & Q2)]; [assert (2 <= round_even (sc / T))%Z as Q3 by lia; apply Two in Q3; lra|].
        injection E2 as <-. lra.
    + destruct (Z.ltb_spec (round_even (sc / T)) 4) as [L|L]; cbn [fst snd] in K.
      * destruct K as [[Q1 Q2]|(_ & a & E2 & Q2)]; [apply Two in Q1; lra|]. injection E2 as <-. lra.
      * assert (2 <= round_even (sc / T))%Z as Q3 by lia. apply Two in Q3. destruct K as [[_ Q2]|(Q1 & _)]; [lra|lia].
  - intros TS t Ht. destruct (Sm t Ht) as (x & r & E & Le). destruct Ht as [CS _]. rewrite CS, E, TS in K. cbn [fst snd] in K.
    set (sc := (Qmin_list x r - k_mjd k)%Q) in *. assert (Lt : (sc <= t - k_mjd k)%Q) by (unfold sc; lra).
    destruct (Z.ltb_spec (round_even (sc / T)) 4) as [L|L]; cbn [fst snd] in K.
    + destruct K as [[Q1 Q2]|(_ & a & E2 & Q2)]; [apply Two in Q1; lra|]. injection E2 as <-. lra.
    + assert (2 <= round_even (sc / T))%Z as Q3 by lia. apply Two in Q3. destruct K as [[_ Q2]|(Q1 & _)]; [lra|lia].
Qed.
Print Assumptions C57_block_fits.

(** A twilight survey ends before the next twilight boundary. *)
Theorem C57_twilight_block_fits :
  forall s k n, bset_ok s -> b_in_twilight s = true -> block_size s k = Ok n -> n <> 1%Z ->
  forall t, t = k_n12_rise k \/ t = k_n18_set k -> (0 < until k t)%Q -> (block_days s n <= until k t)%Q.
Proof.
  intros s k n OK IT H N1 t Ht Pt. destruct (time_needed_ge s OK) as [Tp _].
  destruct (block_size_cases s k n OK H) as (_ & [K|K]); [tauto|]. clear H N1.
  unfold block_state in K. rewrite IT in K. cbv zeta in K. cbn [fst snd] in K.
  set (T := time_needed s) in *.
  set (times := filter (fun x => Qltb 0 x) [(k_n12_rise k - k_mjd k)%Q; (k_n18_set k - k_mjd k)%Q]) in *.
  set (st1 := if b_check_sched s then _ else _) in K. clearbody st1.
  assert (I : In (until k t) times).
  { unfold times, until. apply filter_In. split; [destruct Ht as [->| ->]; cbn; auto|]. apply Qltb_lt. exact Pt. }
  destruct times as [|x r]; [destruct I|]. set (a := Qmin_list x r) in *.
  assert (La : (a <= until k t)%Q) by (destruct (Qmin_list_spec r x) as (A & B & _); destruct I as [<-|I]; auto).
  destruct K as [[Q1 Q2]|(_ & a' & E & Q2)]; [|injection E as <-; lra].
  assert (2 <= round_even (a / T))%Z as Q3 by (destruct (Z.ltb_spec (round_even (a / T)) (fst st1)); lia).
  apply round_two in Q3; [|exact Tp]. lra.
Qed.
Print Assumptions C57_twilight_block_fits.

Definition bset_ex (twi intwi sched : bool) : bset := mkBset true true 22 None 140 10 30 2 1 twi intwi sched.
Lemma bset_ex_ok : forall a b c, bset_ok (bset_ex a b c).
Proof. intros [|] [|] [|]; constructor; vm_compute; congruence. Qed.

(** A block can run into a scheduled observation when twilight and that
    observation round to the same number of blocks. *)
Theorem C57_scheduled_refuted :
  exists s k n t, bset_ok s /\ b_in_twilight s = false /\ block_size s k = Ok n /\ n <> 1%Z /\ sched_break s k t /\
    (until k t + 1 / 96 < block_days s n)%Q.
Proof.
  exists (bset_ex true false true), (mkBreaks 0 (44 # 1440) 0 0 [23 # 1440]%Q), 33%Z, (23 # 1440)%Q.
  split; [apply bset_ex_ok|]. split; [reflexivity|]. split; [vm_compute; reflexivity|]. split; [discriminate|].
  split; [split; [reflexivity|now left]|]. vm_compute. reflexivity.
Qed.
Print Assumptions C57_scheduled_refuted.

(** In a twilight survey the scheduled time is forgotten: a long block is made
    although the scheduled observation is due. *)
Theorem C57_twilight_scheduled_refuted :
  exists s k n t, bset_ok s /\ b_in_twilight s = true /\ block_size s k = Ok n /\ n <> 1%Z /\ sched_break s k t /\
    (0 < until k t)%Q /\ (until k t * 100 < block_days s n)%Q.
Proof.
  exists (bset_ex false true true), (mkBreaks 0 1 (1 # 10) 1 [1 # 10000]%Q), 54%Z, (1 # 10000)%Q.
  split; [apply bset_ex_ok|]. split; [reflexivity|]. split; [vm_compute; reflexivity|]. split; [discriminate|].
  split; [split; [reflexivity|now left]|]. split; vm_compute; reflexivity.
Qed.
Print Assumptions C57_twilight_scheduled_refuted.

Example C57_example :
  block_size (bset_ex true false true) (mkBreaks 0 (50 # 1440) 0 0 [200 # 1440]%Q) = Ok 18%Z /\
  block_size (bset_ex true false true) (mkBreaks 0 (200 # 1440) 0 0 [40 # 1440]%Q) = Ok 30%Z.
Proof. split; vm_compute; reflexivity. Qed.

(** ** C58 Growing a blob *)
(** The order in which a blob grows: no pixel twice, first the peak, then always
    the best observable pixel next to the ones taken, until the whole connected
    region around the peak is taken. *)
Theorem C58_grow_order :
  forall nb m r, table_ok nb m -> grow_argsort nb m = Ok r ->
  NoDup r /\
  (exists p l, r = p :: l /\ is_peak m p /\ forall q, In q r <-> linked nb m p q) /\
  (forall l1 q l2, r = l1 ++ q :: l2 -> l1 <> [] ->
    frontier nb m l1 q /\ observable m q /\
    forall q', frontier nb m l1 q' -> observable m q' -> er_le (get_pix m q') (get_pix m q)).
Proof.
  intros nb m r OK H. destruct (grow_argsort_spec nb m OK r H) as [G C].
  split; [now apply (grown_facts nb m r G)|]. split.
  - destruct (grown_head nb m r G) as (p & l & E & P). exists p, l. split; [exact E|]. split; [exact P|].
    intros q. eapply grown_component; eauto.
  - intros l1 q l2 E N. eapply grown_prefix; eauto.
Qed.
Print Assumptions C58_grow_order.

(** On a connected table growing does not fail once a pixel is observable. *)
Theorem C58_grow_total :
  forall nb m, table_ok nb m -> connected nb m -> (exists i, observable m i) -> exists r, grow_argsort nb m = Ok r.
Proof. intros nb m OK C E. now apply grow_argsort_no_raise. Qed.
Print Assumptions C58_grow_total.

(** Without an observable pixel it fails. *)
Theorem C58_grow_empty_raises :
  forall nb m, (forall i, ~ observable m i) -> grow_argsort nb m = Raise ValueError.
Proof.
  intros nb m H. unfold grow_argsort. destruct (peak m) as [p|] eqn:E; [|reflexivity].
  exfalso. apply (H p). now apply (peak_spec m p E).
Qed.
Print Assumptions C58_grow_empty_raises.

(** Pixels in a row. *)
Definition line_nb (n : nat) (p : nat) : list Z :=
  [if Nat.eqb p 0 then (-1)%Z else Z.of_nat (p - 1); if Nat.eqb (S p) n then (-1)%Z else Z.of_nat (S p)].

Example C58_example :
  let m := [EFin 1; EFin 5; EFin 2; EFin 4; ENaN; EFin 9; EFin 9] in
  grow_argsort (line_nb 7) m = Ok [5; 6] /\ grow_argsort (line_nb 4) (firstn 4 m) = Ok [1; 2; 3; 0] /\
  table_ok (line_nb 4) (firstn 4 m).
Proof.
  split; [vm_compute; reflexivity|]. split; [vm_compute; reflexivity|]. split.
  - intros p z Hp Hz. unfold line_nb in Hz. change (List.length _) with 4 in *. destruct Hz as [<-|[<-|[]]].
    + destruct (Nat.eqb_spec p 0); [now left|]. right. eexists. split; [reflexivity|]. lia.
    + destruct (Nat.eqb_spec (S p) 4); [now left|]. right. eexists. split; [reflexivity|]. lia.
  - intros p q Hp Hq. change (List.length _) with 4 in *. unfold adj, line_nb.
    intros [H|[H|[]]].
    + destruct (Nat.eqb_spec p 0); [lia|]. assert (q = p - 1) as -> by lia. right. left.
      destruct (Nat.eqb_spec (S (p - 1)) 4); [lia|]. f_equal. lia.
    + destruct (Nat.eqb_spec (S p) 4); [lia|]. assert (q = S p) as -> by lia. left.
      cbn. f_equal. lia.
Qed.

(** ** C59 Greedy choice *)
(** A greedy survey points at the fields of its best finite pixels, as many as the
    block holds, each field once. *)
Theorem C59_greedy_best :
  forall hp2f m block,
  exists sel, NoDup sel /\ List.length sel = Nat.min block (List.length (filter er_isfin m)) /\
    (forall i, In i sel -> er_isfin (get_pix m i) = true) /\
    (forall i j, In i sel -> ~ In j sel -> er_isfin (get_pix m j) = true -> er_le (get_pix m j) (get_pix m i)) /\
    (forall f, In f (greedy_fields hp2f m block) <-> exists i, In i sel /\ hp2f i = f) /\
    NoDup (greedy_fields hp2f m block) /\ List.length (greedy_fields hp2f m block) <= block.
Proof.
  intros hp2f m block. exists (greedy_pix m block). destruct (greedy_pix_spec m block) as (A & B & C & D).
  repeat (split; [assumption|]). split.
  { intros f. unfold greedy_fields. rewrite unique_sorted_in, in_map_iff. split; intros (i & ? & ?); exists i; auto. }
  split; [apply unique_sorted_nodup|]. unfold greedy_fields.
  eapply Nat.le_trans; [apply unique_sorted_length|]. rewrite map_length, B. lia.
Qed.
Print Assumptions C59_greedy_best.

(** Several pixels can share a field, so a block can come out shorter than asked
    although other fields have finite rewards. *)
Theorem C59_greedy_full_refuted :
  exists (hp2f : nat -> Z) m block f, List.length (greedy_fields hp2f m block) < block /\
    (exists i, hp2f i = f /\ er_isfin (get_pix m i) = true) /\ ~ In f (greedy_fields hp2f m block).
Proof.
  exists (fun i => Z.of_nat (Nat.div2 i)), [EFin 9; EFin 8; EFin 1], 2, 1%Z. split; [vm_compute; lia|].
  split; [now exists 2|]. vm_compute. intros [H|[]]. discriminate.
Qed.
Print Assumptions C59_greedy_full_refuted.

(** The simple order of a blob survey does not lose fields this way: it picks the
    fields with the best pixels, and all of them if they fit. *)
Theorem C59_blob_simple_order :
  forall hp2f m nvisit,
  let sel := simple_sort hp2f m nvisit in
  NoDup sel /\ List.length sel <= nvisit /\
  (forall f, In f sel -> exists i, hp2f i = f /\ er_isfin (get_pix m i) = true) /\
  (List.length sel < nvisit -> forall i, er_isfin (get_pix m i) = true -> In (hp2f i) sel) /\
  (forall f x j, In f sel -> field_best hp2f m f x -> er_isfin (get_pix m j) = true -> ~ In (hp2f j) sel -> er_le (get_pix m j) x).
Proof. exact simple_sort_spec. Qed.
Print Assumptions C59_blob_simple_order.

Example C59_example :
  let f := fun i => Z.of_nat (Nat.div2 i) in
  let m := [EFin 3; EFin 1; ENInf; EFin 7; ENaN; EFin 2; EFin 5; EFin 5] in
  greedy_fields f m 3 = [1; 3]%Z /\ simple_sort f m 3 = [1; 3; 0]%Z.
Proof. split; vm_compute; reflexivity. Qed.

(** ** C60 Passes over a blob *)
Lemma pass_fields_spec : forall nb hp2f g nv m fs, table_ok nb m -> pass_fields nb hp2f g nv m = Ok fs ->
  NoDup fs /\ List.length fs <= nv /\ forall f, In f fs -> exists i, hp2f i = f /\ observable m i.
Proof.
  intros nb hp2f g nv m fs OK H. unfold pass_fields in H.
  assert (S : NoDup (simple_sort hp2f m nv) /\ List.length (simple_sort hp2f m nv) <= nv /\
              forall f, In f (simple_sort hp2f m nv) -> exists i, hp2f i = f /\ observable m i).
  { destruct (simple_sort_spec hp2f m nv) as (A & B & C & _). split; [exact A|]. split; [exact B|].
    intros f Hf. destruct (C f Hf) as (i & E & F). exists i. split; [exact E|]. unfold observable. now destruct (get_pix m i). }
  destruct g; [|injection H as <-; exact S].
  destruct (grow_argsort nb m) as [o|] eqn:G; cbn [bind] in H; [|discriminate]. injection H as <-.
  destruct (Nat.ltb _ nv); [exact S|]. destruct (grow_argsort_spec nb m OK o G) as [Gr _].
  destruct (grown_facts nb m o Gr) as (_ & _ & Ob). set (ks := keep_first [] (map hp2f o)).
  assert (ND : NoDup ks) by apply keep_first_nodup.
  split; [rewrite <- (firstn_skipn nv ks) in ND; now apply nodup_app_l in ND|].
  split; [rewrite firstn_length; lia|]. intros f Hf.
  assert (Hk : In f ks) by (rewrite <- (firstn_skipn nv ks); apply in_or_app; now left).
  unfold ks in Hk. apply keep_first_in in Hk. destruct Hk as [Hk _]. apply in_map_iff in Hk. destruct Hk as (i & E & Hi).
  exists i. split; [exact E|]. now apply Ob.
Qed.

Lemma later_passes_spec : forall nb hp2f g nv m order n k ps, table_ok nb m ->
  (forall k l, Permutation (order k l) l) ->
  later_passes nb hp2f g nv m order k n = Ok (Some ps) ->
  List.length ps = n /\ forall j q, nth_error ps j = Some q ->
    exists fs, pass_fields nb (hp2f (k + j)) g nv m = Ok fs /\ fs <> [] /\ Permutation q fs.
Proof.
  intros nb hp2f g nv m order. induction n as [|n IH]; intros k ps OK O H; cbn in H.
  - injection H as <-. split; [reflexivity|]. intros [|j] q E; discriminate.
  - destruct (pass_fields nb (hp2f k) g nv m) as [[|f fs]|] eqn:P; cbn [bind] in H; try discriminate.
    destruct (later_passes nb hp2f g nv m order (S k) n) as [[r|]|] eqn:L; cbn in H; try discriminate.
    injection H as <-. destruct (IH _ _ OK O L) as [Len F]. split; [cbn; now rewrite Len|].
    intros [|j] q E; cbn in E.
    + injection E as <-. exists (f :: fs). rewrite Nat.add_0_r. split; [exact P|]. split; [discriminate|]. apply O.
    + destruct (F j q E) as (fs' & ? & ? & ?). exists fs'. rewrite Nat.add_succ_r. auto.
Qed.

(** The masked map of the first pass. *)
Lemma mask_far_pix : forall far m mm p i, mask_far far m = Ok mm -> is_peak m p ->
  get_pix mm i = (if far p i then ENaN else get_pix m i) /\ List.length mm = List.length m.
Proof.
  intros far m mm p i H P. unfold mask_far in H. destruct (peak m) as [p'|] eqn:E; [|discriminate].
  assert (p' = p) as -> by (apply (peak_unique m); [now apply peak_spec|exact P]). injection H as <-.
  split; [|rewrite map_length, seq_length; reflexivity].
  destruct (Nat.lt_ge_cases i (List.length m)) as [L|L].
  - unfold get_pix at 1. rewrite (nth_indep _ _ (if far p 0 then ENaN else get_pix m 0)) by (rewrite map_length, seq_length; exact L).
    rewrite (map_nth (fun i => if far p i then ENaN else get_pix m i)), seq_nth by exact L. reflexivity.
  - rewrite get_pix_over by (rewrite map_length, seq_length; exact L). rewrite get_pix_over by exact L. now destruct (far p i).
Qed.

(** Every pass of a blob consists of different fields, at least one and at most
    the block size, each with a pixel that can be observed; in the first pass that
    pixel is also within the radius around the peak. *)
Theorem C60_passes :
  forall nb hp2f far g nv m order n ps, table_ok nb m ->
  (forall k l, Permutation (order k l) l) ->
  blob_passes nb hp2f far g nv m order n = Ok (Some ps) ->
  List.length ps = n /\ 1 <= n /\ exists p, is_peak m p /\
  forall j q, nth_error ps j = Some q ->
    q <> [] /\ NoDup q /\ List.length q <= nv /\
    forall f, In f q -> exists i, hp2f j i = f /\ observable m i /\ (j = 0 -> far p i = false).
Proof.
  intros nb hp2f far g nv m order n ps OK O H. unfold blob_passes in H.
  destruct (mask_far far m) as [mm|] eqn:M; cbn [bind] in H; [|discriminate].
  destruct n as [|n]; [discriminate|].
  destruct (pass_fields nb (hp2f 0) g nv mm) as [[|f fs]|] eqn:P; cbn [bind] in H; try discriminate.
  destruct (later_passes nb hp2f g nv m order 1 n) as [[r|]|] eqn:L; cbn in H; try discriminate.
  injection H as <-. destruct (later_passes_spec _ _ _ _ _ _ _ _ _ OK O L) as [Len F].
  assert (exists p, peak m = Some p) as (p & Pk) by (unfold mask_far in M; destruct (peak m); [eauto|discriminate]).
  apply peak_spec in Pk. split; [cbn; now rewrite Len|]. split; [lia|]. exists p. split; [exact Pk|].
  assert (OKm : table_ok nb mm).
  { destruct (mask_far_pix far m mm p 0 M Pk) as [_ E]. unfold table_ok. now rewrite E. }
  intros [|j] q E; cbn in E.
  - injection E as <-. destruct (pass_fields_spec _ _ _ _ _ _ OKm P) as (A & B & C).
    split. { intros Z. assert (X := O 0 (f :: fs)). rewrite Z in X. apply Permutation_nil in X. discriminate. }
    split; [apply (Permutation_NoDup (Permutation_sym (O 0 (f :: fs)))); exact A|].
    split; [rewrite (Permutation_length (O 0 (f :: fs))); exact B|].
    intros x Hx. apply (Permutation_in _ (O 0 (f :: fs))) in Hx. destruct (C x Hx) as (i & Ei & Oi). exists i.
    unfold observable in Oi. destruct (mask_far_pix far m mm p i M Pk) as [Gi _]. rewrite Gi in Oi. unfold observable.
    destruct (far p i); [discriminate|]. auto.
  - destruct (F j q E) as (fs' & P' & Ne & Pm). destruct (pass_fields_spec _ _ _ _ _ _ OK P') as (A & B & C).
    split. { intros ->. apply Permutation_nil in Pm. tauto. }
    split; [apply (Permutation_NoDup (Permutation_sym Pm)); exact A|].
    split; [rewrite (Permutation_length Pm); exact B|].
    intros x Hx. apply (Permutation_in _ Pm) in Hx. destruct (C x Hx) as (i & Ei & Oi). exists i. repeat split; auto. discriminate.
Qed.
Print Assumptions C60_passes.

Lemma map_get_pix : forall m, map (get_pix m) (seq 0 (List.length m)) = m.
Proof.
  intros m. unfold get_pix. induction m as [|x m IH]; [reflexivity|]. cbn [List.length seq map nth]. f_equal.
  rewrite <- seq_shift, map_map. exact IH.
Qed.

(** With one tessellation and no observable pixel out of reach, every pass repeats
    the fields of the first. *)
Theorem C60_passes_repeat :
  forall nb hp2f far g nv m order n ps, table_ok nb m ->
  (forall k l, Permutation (order k l) l) -> (forall k, hp2f k = hp2f 0) ->
  (forall p i, is_peak m p -> observable m i -> far p i = false) ->
  blob_passes nb hp2f far g nv m order n = Ok (Some ps) ->
  forall j q q0, nth_error ps j = Some q -> nth_error ps 0 = Some q0 -> Permutation q q0.
Proof.
  intros nb hp2f far g nv m order n ps OK O Same Near H [|j] q q0 E E0; [rewrite E in E0; injection E0 as <-; apply Permutation_refl|].
  unfold blob_passes in H. destruct (mask_far far m) as [mm|] eqn:M; cbn [bind] in H; [|discriminate].
  assert (mm = m) as ->.
  { unfold mask_far in M. destruct (peak m) as [p|] eqn:P; [|discriminate]. injection M as <-.
    transitivity (map (get_pix m) (seq 0 (List.length m))); [|apply map_get_pix].
    apply map_ext. intros i. destruct (far p i) eqn:Fr; [|reflexivity]. destruct (get_pix m i) eqn:G; try reflexivity;
      (rewrite (Near p i) in Fr; [discriminate|now apply peak_spec|unfold observable; now rewrite G]). }
  destruct n as [|n]; [discriminate|].
  destruct (pass_fields nb (hp2f 0) g nv m) as [[|f fs]|] eqn:P; cbn [bind] in H; try discriminate.
  destruct (later_passes nb hp2f g nv m order 1 n) as [[r|]|] eqn:L; cbn in H; try discriminate.
  injection H as <-. cbn in E, E0. injection E0 as <-.
  destruct (later_passes_spec _ _ _ _ _ _ _ _ _ OK O L) as [_ F]. destruct (F j q E) as (fs' & P' & _ & Pm).
  rewrite Same, P in P'. injection P' as <-. rewrite Pm. symmetry. apply O.
Qed.
Print Assumptions C60_passes_repeat.

(** Otherwise the second pass can leave the radius kept by the first and repeat
    nothing of it. *)
Theorem C60_pair_region_refuted :
  exists nb (hp2f : nat -> nat -> Z) far g nv m p q0 q1, table_ok nb m /\ (forall k, hp2f k = hp2f 0) /\ is_peak m p /\
    blob_passes nb hp2f far g nv m (fun _ l => l) 2 = Ok (Some [q0; q1]) /\
    exists f, In f q1 /\ ~ In f q0 /\ forall i, hp2f 1 i = f -> far p i = true.
Proof.
  exists (fun _ => []), (fun _ i => Z.of_nat i), (fun p i => Nat.ltb 1 (p - i + (i - p))), false, 2,
    [EFin 9; EFin 1; EFin 5], 0, [0; 1]%Z, [0; 2]%Z.
  split; [split; [intros ? ? _ []|intros ? ? _ _ []]|]. split; [reflexivity|]. split; [apply peak_spec; reflexivity|].
  split; [vm_compute; reflexivity|]. exists 2%Z. split; [right; now left|].
  split; [intros [H|[H|[]]]; discriminate|]. intros i Hi. assert (i = 2) as -> by lia. reflexivity.
Qed.
Print Assumptions C60_pair_region_refuted.

(** A grown pass can contain a field all of whose pixels are at -inf. *)
Theorem C60_grown_masked_refuted :
  exists nb (hp2f : nat -> Z) nv m fs f, table_ok nb m /\ pass_fields nb hp2f true nv m = Ok fs /\ In f fs /\
    forall i, hp2f i = f -> observable m i -> get_pix m i = ENInf.
Proof.
  exists (line_nb 2), Z.of_nat, 2, [EFin 1; ENInf], [0; 1]%Z, 1%Z. split; [|split; [vm_compute; reflexivity|]].
  - split.
    + intros p z Hp Hz. change (List.length _) with 2 in *. destruct p as [|[|p]]; [| |lia]; destruct Hz as [<-|[<-|[]]]; cbn; auto; right.
      * exists 1. split; [reflexivity|lia].
      * exists 0. split; [reflexivity|lia].
    + intros p q Hp Hq. change (List.length _) with 2 in *. destruct p as [|[|p]]; [| |lia]; (destruct q as [|[|q]]; [| |lia]); cbn;
        intros [H|[H|[]]]; try discriminate; auto.
  - split; [right; now left|]. intros i Hi _. assert (i = 1) as -> by lia. reflexivity.
Qed.
Print Assumptions C60_grown_masked_refuted.

(** The rows carry the first band in the first pass and the second band in all
    later ones. *)
Theorem C60_bands :
  forall b1 b2 ps b f, In (b, f) (blob_rows b1 (Some b2) ps) <->
  exists j q, nth_error ps j = Some q /\ In f q /\ b = (if Nat.eqb j 0 then b1 else b2).
Proof.
  intros b1 b2 ps b f. unfold blob_rows. rewrite in_flat_map. split.
  - intros ((j & q) & Hc & Hm). apply in_map_iff in Hm. destruct Hm as (x & E & Hx). injection E as <- <-. cbn [fst snd] in *.
    apply (In_nth_error _ _) in Hc. destruct Hc as (k & Hk). exists j, q.
    assert (A : forall (l : list (list Z)) d k, nth_error (combine (seq d (List.length l)) l) k = Some (j, q) -> j = d + k /\ nth_error l k = Some q).
    { clear. induction l as [|y l IH]; intros d [|k] H; cbn in H; try discriminate.
      - injection H as <- <-. split; [lia|reflexivity].
      - apply IH in H. destruct H as [-> H]. split; [lia|exact H]. }
    apply A in Hk. destruct Hk as [-> Hk]. cbn [Nat.add]. split; [exact Hk|]. split; [exact Hx|]. destruct k; reflexivity.
  - intros (j & q & Hj & Hf & ->). exists (j, q). split.
    + assert (A : forall (l : list (list Z)) d j, nth_error l j = Some q -> In (d + j, q) (combine (seq d (List.length l)) l)).
      { clear. induction l as [|y l IH]; intros d [|j] H; cbn in H; try discriminate.
        - injection H as <-. cbn. left. f_equal. lia.
        - cbn. right. replace (d + S j) with (S d + j) by lia. now apply IH. }
      now apply (A ps 0 j).
    + apply in_map_iff. exists f. split; [|exact Hf]. cbn [fst]. destruct j; reflexivity.
Qed.
Print Assumptions C60_bands.

(** A pairs survey without a second band still makes its second pass, in a band
    named "None". *)
Theorem C60_no_second_band_refuted :
  exists b1 ps f, List.length ps = 2 /\ In ("None"%string, f) (blob_rows b1 None ps) /\ b1 <> "None"%string.
Proof. exists "r"%string, [[1%Z]; [1%Z]], 1%Z. split; [reflexivity|]. split; [vm_compute; auto|discriminate]. Qed.
Print Assumptions C60_no_second_band_refuted.

Example C60_example :
  blob_passes (line_nb 5) (fun k i => Z.of_nat (Nat.div2 (i + k))) (fun p i => Nat.ltb 2 (p - i + (i - p))) true 2
    [EFin 1; EFin 5; EFin 2; EFin 4; EFin 3] (fun _ l => rev l) 2 = Ok (Some [[1; 0]%Z; [2; 1]%Z]).
Proof. vm_compute. reflexivity. Qed.

(** ** C61 Rotating the tessellation *)
Definition dither_run (d : dither) (nights : list Z) : dst := fold_left (dither_step d) nights dst0.
(** The rotations in force at each call. *)
Definition spins (d : dither) (nights : list Z) : list spin :=
  map (fun n => d_spin (dither_run d (firstn (S n) nights))) (seq 0 (List.length nights)).

(** With nightly rotation the rotation in use is the one of the night, whatever
    happened before. *)
Theorem C61_night_rotation :
  forall nights night, (0 <= night)%Z -> (forall n, In n nights -> (0 <= n)%Z) ->
  d_spin (dither_run DNight (nights ++ [night])) = SNight night.
Proof.
  intros nights night H P. unfold dither_run. rewrite fold_left_app. cbn [fold_left].
  assert (I : forall l s, (forall n, In n l -> (0 <= n)%Z) -> (d_night s = (-1)%Z \/ d_spin s = SNight (d_night s)) ->
    let s' := fold_left (dither_step DNight) l s in d_night s' = (-1)%Z \/ d_spin s' = SNight (d_night s')).
  { induction l as [|x l IH]; intros s Hl Hs; cbn; [exact Hs|]. apply IH; [intros; apply Hl; now right|].
    destruct (x =? d_night s)%Z eqn:E; [exact Hs|]. right. reflexivity. }
  destruct (I nights dst0 P (or_introl eq_refl)) as [K|K]; cbn [dither_step];
    (destruct (Z.eqb_spec night (d_night (fold_left (dither_step DNight) nights dst0))) as [E|E]; [|reflexivity]).
  - lia.
  - now rewrite K, <- E.
Qed.
Print Assumptions C61_night_rotation.

(** The night before the survey starts (-1) is the exception. *)
Theorem C61_night_minus_one_refuted : exists night, d_spin (dither_run DNight [night]) <> SNight night.
Proof. exists (-1)%Z. vm_compute. discriminate. Qed.
Print Assumptions C61_night_minus_one_refuted.

Lemma fold_firstn_call : forall l s k, k < List.length l -> StronglySorted Z.le l -> (forall n, In n l -> (d_cur s <= n)%Z) ->
  exists n c, d_spin (fold_left (dither_step DCall) (firstn (S k) l) s) = SCall n c /\ nth_error l k = Some n /\
    (n = d_cur s -> d_call s + k = c) /\ d_cur (fold_left (dither_step DCall) (firstn (S k) l) s) = n /\
    d_call (fold_left (dither_step DCall) (firstn (S k) l) s) = S c.
Proof.
  induction l as [|x l IH]; intros s k Hk S L; [cbn in Hk; lia|]. cbn in Hk. inversion S as [|? ? S1 S2]; subst.
  rewrite Forall_forall in S2. assert (Lx := L x (or_introl eq_refl)).
  destruct k as [|k].
  - cbn [firstn fold_left dither_step]. cbn. destruct (Z.eqb_spec x (d_cur s)) as [E|E]; cbn.
    + exists x, (d_call s). repeat split; auto; lia.
    + exists x, 0. repeat split; auto; lia.
  - change (firstn (Datatypes.S (Datatypes.S k)) (x :: l)) with (x :: firstn (Datatypes.S k) l). cbn [fold_left].
    set (s1 := dither_step DCall s x).
    assert (C1 : d_cur s1 = x) by (unfold s1; cbn; destruct (Z.eqb_spec x (d_cur s)); cbn; congruence).
    destruct (IH s1 k) as (n & c & A & B & C & D & F); [lia|exact S1|intros y Hy; rewrite C1; now apply S2|].
    exists n, c. repeat split; auto. intros ->. rewrite C1 in C.
    assert (x = d_cur s) as Ex. { assert (x <= d_cur s)%Z; [|lia]. apply S2. eapply nth_error_In; eauto. }
    rewrite <- (C (eq_sym Ex)). unfold s1. cbn. rewrite Ex, Z.eqb_refl. cbn. lia.
Qed.

(** With a rotation per call no rotation is used twice while nights do not go
    back. *)
Theorem C61_call_rotation_fresh :
  forall nights, (forall n, In n nights -> (0 <= n)%Z) -> StronglySorted Z.le nights -> NoDup (spins DCall nights) /\
  forall k x, nth_error (spins DCall nights) k = Some x -> exists n c, nth_error nights k = Some n /\ x = SCall n c.
Proof.
  intros nights P S. unfold spins.
  assert (At : forall k, k < List.length nights -> exists n c, d_spin (dither_run DCall (firstn (Datatypes.S k) nights)) = SCall n c /\ nth_error nights k = Some n).
  { intros k Hk. destruct (fold_firstn_call nights dst0 k Hk S P) as (n & c & A & B & _). eauto. }
  split.
  - (* distinct: split the run at the earlier call *)
    assert (D : forall i j, i < j < List.length nights ->
      d_spin (dither_run DCall (firstn (Datatypes.S i) nights)) <> d_spin (dither_run DCall (firstn (Datatypes.S j) nights))).
    { intros i j [Hij Hj] E.
      destruct (fold_firstn_call nights dst0 i ltac:(lia) S P) as (n & c & A & B & _ & Cu & Ca).
      set (s := fold_left (dither_step DCall) (firstn (Datatypes.S i) nights) dst0) in *.
      assert (Sp : nights = firstn (Datatypes.S i) nights ++ skipn (Datatypes.S i) nights) by (symmetry; apply firstn_skipn).
      assert (S2 : StronglySorted Z.le (skipn (Datatypes.S i) nights)) by (rewrite Sp in S; now apply sorted_app in S).
      assert (L2 : forall y, In y (skipn (Datatypes.S i) nights) -> (d_cur s <= y)%Z).
      { intros y Hy. rewrite Cu. rewrite Sp in S. apply sorted_app in S. destruct S as (_ & _ & X). apply X; [|exact Hy].
        apply nth_error_In with i. rewrite Sp in B. rewrite nth_error_app1 in B; [exact B|]. rewrite firstn_length. lia. }
      destruct (fold_firstn_call (skipn (Datatypes.S i) nights) s (j - Datatypes.S i)) as (n2 & c2 & A2 & B2 & C2 & _).
      { rewrite skipn_length. lia. } { exact S2. } { exact L2. }
      assert (R : firstn (Datatypes.S j) nights = firstn (Datatypes.S i) nights ++ firstn (Datatypes.S (j - Datatypes.S i)) (skipn (Datatypes.S i) nights)).
      { rewrite Sp at 1. rewrite firstn_app, firstn_firstn, firstn_length. f_equal; f_equal; lia. }
      unfold dither_run in E. rewrite R, fold_left_app in E. fold s in E. rewrite A, A2 in E. injection E as -> ->.
      rewrite Cu in C2. specialize (C2 eq_refl). lia. }
    assert (G : forall (f : nat -> spin) len d, (forall i j, d <= i -> i < j < d + len -> f i <> f j) -> NoDup (map f (seq d len))).
    { clear. intros f. induction len as [|len IH]; intros d H; cbn; [constructor|]. constructor.
      - intros X. apply in_map_iff in X. destruct X as (j & E & Hj). apply in_seq in Hj. apply (H d j); [lia|lia|]. now symmetry.
      - apply IH. intros i j Hi Hj. apply H; lia. }
    apply G. intros i j _ Hj. apply D. exact Hj.
  - intros k x E. assert (Hk : k < List.length nights).
    { apply Nat.nle_gt. intros Q. assert (nth_error (map (fun n => d_spin (dither_run DCall (firstn (Datatypes.S n) nights))) (seq 0 (List.length nights))) k = None).
      { apply nth_error_None. rewrite map_length, seq_length. exact Q. } congruence. }
    rewrite nth_error_map, (nth_error_nth' _ 0) in E by (rewrite seq_length; exact Hk). rewrite seq_nth in E by exact Hk. cbn [option_map] in E.
    injection E as <-. destruct (At k Hk) as (n & c & A & B). exists n, c. cbn [Nat.add]. auto.
Qed.
Print Assumptions C61_call_rotation_fresh.

(** Returning to an earlier night repeats its rotations. *)
Theorem C61_call_back_refuted : exists nights, (forall n, In n nights -> (0 <= n)%Z) /\ ~ NoDup (spins DCall nights).
Proof.
  exists [1; 2; 1]%Z. split; [intros n [<-|[<-|[<-|[]]]]; lia|]. vm_compute. intros H. inversion H as [|? ? K _]. apply K. cbn. auto.
Qed.
Print Assumptions C61_call_back_refuted.

Example C61_example :
  spins DCall [0; 0; 1; 1; 3]%Z = [SCall 0 0; SCall 0 1; SCall 1 0; SCall 1 1; SCall 3 0] /\
  spins DNight [0; 0; 1; 0]%Z = [SNight 0; SNight 0; SNight 1; SNight 0].
Proof. split; vm_compute; reflexivity. Qed.
