(** Lemmas on GenEvents.v. *)
From Coq Require Import List Bool Reals ZArith String Arith Lra Lia Permutation.
From Verif Require Import Base GenEvents.
Import ListNotations.
Open Scope R_scope.
Open Scope list_scope.

Lemma Int_part_bounds : forall x, IZR (Int_part x) <= x < IZR (Int_part x) + 1.
Proof. intros x. destruct (base_Int_part x). lra. Qed.
Lemma trunc_bounds : forall x, 0 <= x -> (0 <= trunc x)%Z /\ IZR (trunc x) <= x < IZR (trunc x) + 1.
Proof.
  intros x H. unfold trunc. destruct (Rle_dec 0 x) as [_|n]; [|contradiction].
  pose proof (Int_part_bounds x) as B. split; [|exact B].
  assert (IZR (-1) < IZR (Int_part x)) by (simpl; lra). apply lt_IZR in H0. lia.
Qed.
Lemma trunc_unique : forall x n, (0 <= n)%Z -> IZR n <= x < IZR n + 1 -> trunc x = n.
Proof.
  intros x n Hn H. assert (0 <= x) by (apply IZR_le in Hn; lra).
  destruct (trunc_bounds x H0) as [_ B].
  assert (IZR (trunc x) < IZR (n + 1)) by (rewrite plus_IZR; lra).
  assert (IZR n < IZR (trunc x + 1)) by (rewrite plus_IZR; lra).
  apply lt_IZR in H1, H2. lia.
Qed.
Lemma np_round_bounds : forall x, IZR (np_round x) - 1 / 2 <= x <= IZR (np_round x) + 1 / 2.
Proof.
  intros x. unfold np_round. pose proof (Int_part_bounds x) as B.
  destruct (Rlt_dec _ _); [lra|]. destruct (Rlt_dec _ _); [rewrite plus_IZR; lra|].
  destruct (Z.even _); [|rewrite plus_IZR]; lra.
Qed.
Lemma np_round_nonneg : forall x, 0 <= x -> (0 <= np_round x)%Z.
Proof.
  intros x H. pose proof (np_round_bounds x).
  assert (IZR (-1) < IZR (np_round x)) by (simpl; lra). apply lt_IZR in H1. lia.
Qed.
(** Halves go to the even side. *)
Lemma np_round_half : forall x, x < 1 / 2 + 0 \/ x = 1 / 2 -> 0 <= x -> np_round x = 0%Z.
Proof.
  intros x H H0. assert (E : Int_part x = 0%Z).
  { pose proof (Int_part_bounds x). assert (IZR (Int_part x) < IZR 1) by (simpl; lra). assert (IZR (-1) < IZR (Int_part x)) by (simpl; lra).
    apply lt_IZR in H2, H3. lia. }
  unfold np_round. rewrite E. simpl.
  destruct (Rlt_dec (x - 0) (1 / 2)); [reflexivity|]. destruct (Rlt_dec (1 / 2) (x - 0)); [lra|reflexivity].
Qed.

Lemma zeros_ok : forall A n (x : A), (0 <= n)%Z -> zeros n x = Ok (repeat x (Z.to_nat n)).
Proof. intros A n x H. unfold zeros. destruct (Z.ltb_spec n 0); [lia|reflexivity]. Qed.
Lemma numbered_length : forall A (l : list A) i, List.length (numbered i l) = List.length l.
Proof. induction l; intros i; simpl; [reflexivity|now rewrite IHl]. Qed.
Lemma numbered_snd : forall A (l : list A) i, map snd (numbered i l) = l.
Proof. induction l; intros i; simpl; [reflexivity|now rewrite IHl]. Qed.
Lemma numbered_fst : forall A (l : list A) i, map fst (numbered i l) = seq i (List.length l).
Proof. induction l; intros i; simpl; [reflexivity|now rewrite IHl]. Qed.
Lemma numbered_nth : forall A (l : list A) i k, nth_error (numbered i l) k = match nth_error l k with Some x => Some ((i + k)%nat, x) | None => None end.
Proof.
  induction l; intros i k; destruct k; simpl; try reflexivity.
  - now rewrite Nat.add_0_r.
  - rewrite IHl. destruct (nth_error l k); [|reflexivity]. f_equal. f_equal. lia.
Qed.

(** The tables of kinds. *)
Definition kinds_of (scale : R) (c : string * R * Z) : list (string * R) :=
  let '(name, area, nt) := c in repeat (name, sqrt (area / PI) * PI / 180) (Z.to_nat (trunc (IZR nt * scale))).
Lemma case_events_eq : forall cases start stop scale r, 0 <= scale -> Forall (fun c => (0 <= snd c)%Z) cases ->
  case_events cases start stop scale r = Ok (scatter r start stop (List.concat (map (kinds_of scale) cases))).
Proof.
  intros cases start stop scale r Hs F. unfold case_events.
  assert (E : collect (fun c : string * R * Z => let '(name, area, nt) := c in zeros (trunc (IZR nt * scale)) (name, sqrt (area / PI) * PI / 180)) cases
              = Ok (map (kinds_of scale) cases)).
  { induction F as [|[[nm ar] nt] l H F IH]; [reflexivity|]. cbn [collect]. simpl in H.
    rewrite zeros_ok; [|apply trunc_bounds; apply Rmult_le_pos; [apply IZR_le in H; exact H|exact Hs]].
    cbn [bind]. rewrite IH. reflexivity. }
  rewrite E. reflexivity.
Qed.
Lemma scatter_labels : forall r a b kinds, map label (scatter r a b kinds) = map fst kinds.
Proof.
  intros r a b kinds. unfold scatter. rewrite map_map. simpl.
  transitivity (map fst (map snd (numbered 0 kinds))); [now rewrite map_map|now rewrite numbered_snd].
Qed.
Lemma scatter_kind : forall r a b kinds e, In e (scatter r a b kinds) -> In (label e, radius e) kinds.
Proof.
  intros r a b kinds e H. unfold scatter in H. apply in_map_iff in H. destruct H as [[i [nm rd]] [<- I]]. simpl.
  apply (in_map snd) in I. rewrite numbered_snd in I. exact I.
Qed.
Lemma acos_range : forall x, -1 <= x <= 1 -> - (PI / 2) <= acos x - PI / 2 <= PI / 2.
Proof. intros x H. pose proof (acos_bound x). lra. Qed.
Lemma scatter_range : forall r a b kinds e, (forall k, 0 <= r k < 1) -> a <= b -> In e (scatter r a b kinds) ->
  0 <= ra e < 2 * PI /\ - (PI / 2) <= dec e <= PI / 2 /\ a <= mjd_start e <= b /\ (a < b -> mjd_start e < b) /\ expires e = mjd_start e + 3.
Proof.
  intros r a b kinds e V L H. unfold scatter in H. apply in_map_iff in H. destruct H as [[i [nm rd]] [<- I]]. cbn [fst snd ra dec mjd_start expires].
  pose proof (V i) as Vi. pose proof (V (List.length kinds + i)%nat) as Vd. pose proof (V (List.length kinds + List.length kinds + i)%nat) as Vt.
  pose proof PI_RGT_0 as P. set (x := r i) in *. set (y := r (List.length kinds + i)%nat) in *. set (z := r (List.length kinds + List.length kinds + i)%nat) in *.
  clearbody x y z. split; [split; nra|]. split; [apply acos_range; lra|]. split; [split; nra|]. split; [intros; nra|reflexivity].
Qed.
(** Solar system events. *)
Lemma choice_ok : forall pop n idx, (n <= Z.of_nat (List.length pop))%Z -> choice pop n idx = Ok (map (fun i => nth i pop 0) idx).
Proof. intros pop n idx H. unfold choice. destruct (Z.ltb_spec (Z.of_nat (List.length pop)) n); [lia|reflexivity]. Qed.
Definition twi_nights (start stop : R) : list R := map (fun k => INR (4 * k) + start + 1) (nights (- ((- trunc (stop - start)) / 4))).
Definition all_nights (start stop : R) : list R := map (fun k => INR k + start) (nights (trunc (stop - start))).
Lemma nights_length : forall (f : nat -> R) n, (0 <= n)%Z -> Z.of_nat (List.length (map f (nights n))) = n.
Proof. intros f n H. unfold nights. rewrite map_length, seq_length. lia. Qed.
Lemma sso_eq : forall n fraction deg start stop i1 i2 p1 p2,
  (0 <= trunc (IZR n * fraction) <= - ((- trunc (stop - start)) / 4))%Z -> (0 <= n - trunc (IZR n * fraction) <= trunc (stop - start))%Z ->
  gen_sso_events n fraction deg start stop i1 i2 p1 p2 =
  Ok (map (fun it => sso (snd it) (p1 (fst it)) deg "SSO_twilight") (numbered 0 (map (fun i => nth i (twi_nights start stop) 0) i1))
      ++ map (fun it => sso (snd it) (p2 (fst it)) deg "SSO_night") (numbered 0 (map (fun i => nth i (all_nights start stop) 0) i2))).
Proof.
  intros n fraction deg start stop i1 i2 p1 p2 [A B] [C D]. unfold gen_sso_events.
  rewrite zeros_ok by exact A. cbn [bind]. rewrite choice_ok by (rewrite nights_length; lia). cbn [bind].
  rewrite zeros_ok by exact C. cbn [bind]. rewrite choice_ok by (rewrite nights_length; lia). cbn [bind]. reflexivity.
Qed.
(** The nights are always enough, whatever the span. *)
Lemma sso_sizes : forall span, 0 <= span -> let n := np_round (900 / (7305 / 2) * span) in
  (0 <= n)%Z /\ (0 <= trunc (IZR n * (3 / 4)) <= - ((- trunc span) / 4))%Z /\ (0 <= n - trunc (IZR n * (3 / 4)) <= trunc span)%Z.
Proof.
  intros s Hs n. subst n. set (x := 900 / (7305 / 2) * s).
  assert (Hx : x = 1800 / 7305 * s) by (unfold x; field).
  assert (X0 : 0 <= x) by (rewrite Hx; nra).
  pose proof (np_round_nonneg x X0) as N0. pose proof (np_round_bounds x) as NB.
  destruct (Rlt_le_dec s 2) as [Small|Big].
  - assert (E : np_round x = 0%Z) by (apply np_round_half; [left; rewrite Hx; lra|exact X0]). rewrite E.
    assert (T : trunc (IZR 0 * (3 / 4)) = 0%Z) by (apply trunc_unique; [lia|simpl; lra]). rewrite T.
    destruct (trunc_bounds s Hs) as [T0 _]. split; [lia|]. split; [|lia]. split; [lia|].
    assert ((- trunc s) / 4 <= 0)%Z by (apply Z.div_le_upper_bound; lia). lia.
  - set (n := np_round x) in *. clearbody n. destruct (trunc_bounds s Hs) as [T0 TB]. set (m := trunc s) in *. clearbody m.
    assert (N0' := IZR_le _ _ N0). simpl in N0'.
    assert (K : 0 <= IZR n * (3 / 4)) by nra. destruct (trunc_bounds _ K) as [K0 KB]. set (k := trunc (IZR n * (3 / 4))) in *. clearbody k.
    assert (I1 : (4 * k <= 3 * n)%Z) by (apply le_IZR; rewrite !mult_IZR; simpl; lra).
    assert (I2 : (3 * n < 4 * k + 4)%Z) by (apply lt_IZR; rewrite plus_IZR, !mult_IZR; simpl; lra).
    assert (I3 : (3652 * n < 900 * m + 2727)%Z). { apply lt_IZR. rewrite plus_IZR, !mult_IZR. simpl. rewrite Hx in NB. lra. }
    assert (M2 : (2 <= m)%Z). { assert (IZR 1 < IZR m) by (simpl; lra). apply lt_IZR in H. lia. }
    split; [exact N0|]. split; [|lia]. split; [exact K0|].
    assert (Q : ((- m) / 4 <= - k)%Z); [|lia].
    assert (k <= (m + 3) / 4)%Z.
    { apply Z.div_le_lower_bound; [lia|]. lia. }
    pose proof (Z.div_mod (- m) 4). pose proof (Z.mod_pos_bound (- m) 4). pose proof (Z.div_mod (m + 3) 4). pose proof (Z.mod_pos_bound (m + 3) 4). lia.
Qed.

(** Sorting. *)
Lemma insert_perm : forall e l, Permutation (insert e l) (e :: l).
Proof.
  intros e l. induction l as [|f l IH]; simpl; [apply Permutation_refl|].
  destruct (Rle_dec _ _); [apply Permutation_refl|].
  eapply Permutation_trans; [apply perm_skip; exact IH|apply perm_swap].
Qed.
Lemma sort_perm : forall l, Permutation (sort l) l.
Proof. induction l; simpl; [constructor|]. eapply Permutation_trans; [apply insert_perm|]. now constructor. Qed.
Lemma insert_in : forall e l x, In x (insert e l) <-> x = e \/ In x l.
Proof. intros e l x. rewrite (Permutation_in' eq_refl (insert_perm e l)). simpl. intuition congruence. Qed.
Fixpoint sorted (l : list event) : Prop :=
  match l with [] => True | e :: l => (forall f, In f l -> mjd_start e <= mjd_start f) /\ sorted l end.
Lemma insert_sorted : forall e l, sorted l -> sorted (insert e l).
Proof.
  intros e l. induction l as [|f l IH]; intros H; simpl; [split; [intros ? []|exact I]|].
  destruct H as [H1 H2]. destruct (Rle_dec _ _) as [L|L].
  - split; [|split; assumption]. intros g [<-|G]; [exact L|]. specialize (H1 g G). lra.
  - split; [|apply IH; exact H2]. intros g G. apply insert_in in G. destruct G as [->|G]; [lra|apply H1; exact G].
Qed.
Lemma sort_sorted : forall l, sorted (sort l).
Proof. induction l; simpl; [exact I|apply insert_sorted; assumption]. Qed.
Lemma sorted_nth : forall l i j e f, sorted l -> (i < j)%nat -> nth_error l i = Some e -> nth_error l j = Some f -> mjd_start e <= mjd_start f.
Proof.
  induction l as [|g l IH]; intros i j e f H L A B; [destruct i; discriminate|]. destruct H as [H1 H2]. destruct j; [lia|]. simpl in B.
  destruct i; simpl in A; [injection A as ->; apply H1; eapply nth_error_In; exact B|]. eapply IH; [exact H2| |exact A|exact B]. lia.
Qed.

(** The whole table. *)
Definition gw_tables (scale : R) (d : draws) : list (list event) :=
  [scatter (r_gw d) O5_START_MJD O5_END_MJD (List.concat (map (kinds_of (3 * scale)) gw_cases));
   scatter (r_bbh d) O5_START_MJD O5_END_MJD (List.concat (map (kinds_of (3 * scale)) bbh_cases));
   scatter (r_bns d) O5_START_MJD O5_END_MJD (List.concat (map (kinds_of (3 * scale)) bns_cases))].
Definition nu_table (start stop : R) (d : draws) : list event := scatter (r_nu d) start stop (repeat ("neutrino"%string, 0 * PI / 180) 160).
Definition twi_table (start stop : R) (d : draws) : list event :=
  map (fun it => sso (snd it) (p_twi d (fst it)) 2 "SSO_twilight") (numbered 0 (map (fun i => nth i (twi_nights start stop) 0) (i_twi d))).
Definition night_table (start stop : R) (d : draws) : list event :=
  map (fun it => sso (snd it) (p_night d (fst it)) 2 "SSO_night") (numbered 0 (map (fun i => nth i (all_nights start stop) 0) (i_night d))).
Definition all_tables (scale : R) (gw nu ss : bool) (start stop : R) (d : draws) : list (list event) :=
  (if gw then gw_tables scale d else []) ++ (if nu then [nu_table start stop d] else []) ++ (if ss then [twi_table start stop d ++ night_table start stop d] else []).
Lemma all_eq : forall sep pixels scale gw nu ss start stop d, 0 < scale -> start <= stop -> gw || nu || ss = true ->
  gen_all_events sep pixels scale gw nu ss start stop d =
  (let table := sort (List.concat (all_tables scale gw nu ss start stop d)) in
   Ok (Some (map (to_too sep pixels) (numbered 0 table), table))).
Proof.
  intros sep pixels scale gw nu ss start stop d Hs Hd Hf. unfold gen_all_events.
  destruct (Req_EM_T scale 0); [lra|].
  unfold gen_gw_events, gen_bbh_events, gen_lensed_BNS.
  rewrite !case_events_eq by (try (repeat constructor; simpl; lia); nra). cbn [bind].
  unfold gen_neutrino_events. assert (T : trunc (160 * 1) = 160%Z) by (apply trunc_unique; [lia|lra]). rewrite T, zeros_ok by lia. cbn [bind].
  destruct (sso_sizes (stop - start)) as [S1 [S2 S3]]; [lra|]. rewrite sso_eq by assumption. cbn [bind].
  unfold all_tables, gw_tables, nu_table, twi_table, night_table.
  change (Z.to_nat 160) with 160%nat.
  destruct gw, nu, ss; cbn [orb] in Hf; try discriminate Hf; cbn [bind app]; reflexivity.
Qed.
