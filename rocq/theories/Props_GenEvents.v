(** C118: the simulated events of gen_all_events and the surveys of gen_too_surveys that follow them. *)
From Coq Require Import List Bool Reals ZArith String Arith Lra Lia Permutation.
From Verif Require Import Base GenEvents GenEvents_proofs.
Import ListNotations.
Open Scope R_scope.
Open Scope string_scope.
Open Scope list_scope.

(** What the random generator promises. *)
Definition unit_draws (r : nat -> R) : Prop := forall k, 0 <= r k < 1.
Definition distinct_draws (idx : list nat) (size pop : Z) : Prop :=
  NoDup idx /\ Z.of_nat (List.length idx) = size /\ forall i, In i idx -> (Z.of_nat i < pop)%Z.
(** The number of solar system events over a span, of its whole nights, and of them in twilight. *)
Definition asked (span : R) (n : Z) : Prop := Rabs (IZR n - 900 / 3652.5 * span) <= 1 / 2 /\ (Rabs (IZR n - 900 / 3652.5 * span) = 1 / 2 -> Z.even n = true).
Definition floor_of (x : R) (n : Z) : Prop := IZR n <= x < IZR n + 1.
Definition good_draws (d : draws) (start stop : R) : Prop :=
  unit_draws (r_gw d) /\ unit_draws (r_bbh d) /\ unit_draws (r_bns d) /\ unit_draws (r_nu d) /\
  forall n m k, asked (stop - start) n -> floor_of (stop - start) m -> floor_of (IZR n * 3 / 4) k ->
    distinct_draws (i_twi d) k ((m + 3) / 4) /\ distinct_draws (i_night d) (n - k) m.
(** How often events are of a kind. *)
Definition number (kind : string) (table : list event) : nat := count_occ string_dec (map label table) kind.

Section C118.
Variable sep : R * R -> R * R -> R.
Variable pixels : list (R * R).

(** Whatever the dates, in order, and the scale, there are events: the nights are always enough. *)
Theorem C118_all_events_made : forall scale gw nu ss start stop d, 0 < scale -> start <= stop -> gw || nu || ss = true ->
  exists toos table, gen_all_events sep pixels scale gw nu ss start stop d = Ok (Some (toos, table)).
Proof. intros scale gw nu ss start stop d Hs Hd Hf. rewrite all_eq by assumption. cbv zeta. eexists. eexists. reflexivity. Qed.

Theorem C118_no_scale_no_events : forall gw nu ss start stop d, gen_all_events sep pixels 0 gw nu ss start stop d = Ok None.
Proof. intros. unfold gen_all_events. destruct (Req_EM_T 0 0); [reflexivity|congruence]. Qed.

(** The table is in order of time, and the k-th object is number k with the k-th row's time, centre and kind, three days, and the
    pixels within the radius. *)
Theorem C118_objects_of_rows : forall scale gw nu ss start stop d toos table, 0 < scale -> start <= stop -> gw || nu || ss = true ->
  gen_all_events sep pixels scale gw nu ss start stop d = Ok (Some (toos, table)) ->
  List.length toos = List.length table /\
  (forall i j e f, (i < j)%nat -> nth_error table i = Some e -> nth_error table j = Some f -> mjd_start e <= mjd_start f) /\
  (forall k e, nth_error table k = Some e -> exists t, nth_error toos k = Some t /\ too_id t = k /\ too_start t = mjd_start e /\
     duration t = expires e - mjd_start e /\ centre t = (ra e, dec e) /\ too_type t = label e /\
     List.length (footprint t) = List.length pixels /\
     forall j p, nth_error pixels j = Some p -> (nth_error (footprint t) j = Some true <-> sep p (ra e, dec e) <= radius e)).
Proof.
  intros scale gw nu ss start stop d toos table Hs Hd Hf E. rewrite all_eq in E by assumption. cbv zeta in E.
  remember (sort (List.concat (all_tables scale gw nu ss start stop d))) as l. injection E as <- <-.
  split; [now rewrite map_length, numbered_length|]. split.
  - intros i j e f L A B. eapply sorted_nth; [|exact L|exact A|exact B]. subst l. apply sort_sorted.
  - intros k e N. exists (to_too sep pixels (k, e)). split.
    + erewrite map_nth_error; [reflexivity|]. rewrite numbered_nth, N. reflexivity.
    + repeat (split; [reflexivity|]). split; [apply map_length|]. intros j p P. simpl.
      rewrite (map_nth_error _ _ _ P). destruct (Rle_dec _ _); split; intros; try assumption; try reflexivity; try discriminate; contradiction.
Qed.

Ltac in_tables H := unfold all_tables, gw_tables in H; repeat rewrite concat_app in H; repeat (rewrite in_app_iff in H).
Lemma table_in : forall scale gw nu ss start stop d toos table e, 0 < scale -> start <= stop -> gw || nu || ss = true ->
  gen_all_events sep pixels scale gw nu ss start stop d = Ok (Some (toos, table)) -> In e table ->
  (exists r cases, gw = true /\ In (r, cases) [(r_gw d, gw_cases); (r_bbh d, bbh_cases); (r_bns d, bns_cases)] /\
     In e (scatter r O5_START_MJD O5_END_MJD (List.concat (map (kinds_of (3 * scale)) cases)))) \/
  (nu = true /\ In e (nu_table start stop d)) \/ (ss = true /\ (In e (twi_table start stop d) \/ In e (night_table start stop d))).
Proof.
  intros scale gw nu ss start stop d toos table e Hs Hd Hf E I. rewrite all_eq in E by assumption. cbv zeta in E.
  remember (sort (List.concat (all_tables scale gw nu ss start stop d))) as l. injection E as <- <-. subst l.
  apply (Permutation_in _ (sort_perm _)) in I. in_tables I. destruct I as [I|[I|I]].
  - left. destruct gw; [|destruct I]. cbn [List.concat] in I. rewrite app_nil_r, !in_app_iff in I.
    destruct I as [I|[I|I]]; eexists; eexists; (split; [reflexivity|]); (split; [|exact I]); simpl; tauto.
  - right; left. destruct nu; [|destruct I]. cbn [List.concat] in I. rewrite app_nil_r in I. tauto.
  - right; right. destruct ss; [|destruct I]. cbn [List.concat] in I. rewrite app_nil_r, in_app_iff in I. tauto.
Qed.

(** The kinds of event: label and area (square degrees) of the search; a radius of 2 degrees for the solar system, 0 for neutrinos. *)
Definition spread : list (string * R) :=
  [("GW_case_A", 30); ("GW_case_B", 50); ("GW_case_C", 100); ("GW_case_D", 250); ("GW_case_E", 500); ("BBH_case_A", 10); ("BBH_case_B", 20);
   ("BBH_case_C", 30); ("lensed_BNS_case_A", 900); ("lensed_BNS_case_B", 15)].
Definition area_of (radius : R) : R := PI * (radius * 180 / PI) ^ 2.
Lemma area_sqrt : forall a, 0 <= a -> area_of (sqrt (a / PI) * PI / 180) = a.
Proof.
  intros a H. unfold area_of. pose proof PI_RGT_0 as P. replace (sqrt (a / PI) * PI / 180 * 180 / PI) with (sqrt (a / PI)) by (field; lra).
  replace (sqrt (a / PI) ^ 2) with (Rsqr (sqrt (a / PI))) by (unfold Rsqr; ring). rewrite Rsqr_sqrt; [field; lra|].
  apply Rmult_le_pos; [exact H|]. left. now apply Rinv_0_lt_compat.
Qed.
Lemma in_kinds : forall s cases x, In x (List.concat (map (kinds_of s) cases)) -> exists c, In c cases /\ x = (fst (fst c), sqrt (snd (fst c) / PI) * PI / 180).
Proof.
  intros s cases x H. apply in_concat in H. destruct H as [l [L X]]. apply in_map_iff in L. destruct L as [[[nm ar] nt] [<- C]].
  exists (nm, ar, nt). split; [exact C|]. unfold kinds_of in X. apply repeat_spec in X. exact X.
Qed.

(** Waves: anywhere on the sphere, of the area of their case, between the dates of the O5 run. *)
Theorem C118_wave_events : forall scale gw nu ss start stop d toos table e, 0 < scale -> start <= stop -> gw || nu || ss = true -> good_draws d start stop ->
  gen_all_events sep pixels scale gw nu ss start stop d = Ok (Some (toos, table)) -> In e table ->
  ~ In (label e) ["neutrino"; "SSO_twilight"; "SSO_night"] ->
  gw = true /\ (exists a, In (label e, a) spread /\ area_of (radius e) = a /\ 0 <= radius e) /\
  0 <= ra e < 2 * PI /\ - (PI / 2) <= dec e <= PI / 2 /\ 61557 <= mjd_start e < 62502 /\ expires e = mjd_start e + 3.
Proof.
  intros scale gw nu ss start stop d toos table e Hs Hd Hf [V1 [V2 [V3 [V4 _]]]] E I L.
  destruct (table_in _ _ _ _ _ _ _ _ _ _ Hs Hd Hf E I) as [[r [cases [G [RC I']]]]|[[N I']|[S' [I'|I']]]].
  - split; [exact G|]. assert (V : unit_draws r /\ (forall c, In c cases -> In (fst c) spread)).
    { simpl in RC. destruct RC as [RC|[RC|[RC|[]]]]; injection RC as <- <-; (split; [assumption|]); intros c C; simpl in C;
        repeat (destruct C as [<-|C]; [simpl; tauto|]); destruct C. }
    destruct V as [V W]. assert (Hk := scatter_kind _ _ _ _ _ I'). apply in_kinds in Hk. destruct Hk as [[[nm ar] nt] [C K]]. simpl in K. injection K as K1 K2.
    assert (A0 : 0 <= ar). { specialize (W _ C). simpl in W. repeat (destruct W as [W|W]; [injection W as _ <-; lra|]). destruct W. }
    split.
    + exists ar. rewrite K1, K2. split; [apply (W _ C)|]. split; [apply area_sqrt; exact A0|].
      pose proof PI_RGT_0. pose proof (sqrt_pos (ar / PI)). apply Rmult_le_pos; [apply Rmult_le_pos|]; lra.
    + assert (O : O5_START_MJD <= O5_END_MJD) by (unfold O5_START_MJD, O5_END_MJD; lra).
      destruct (scatter_range _ _ _ _ _ V O I') as [A1 [A2 [A3 [A4 A5]]]]. unfold O5_START_MJD, O5_END_MJD in *.
      repeat split; try assumption; try apply A1; try apply A2; try apply A3. apply A4. lra.
  - exfalso. apply L. apply scatter_kind in I'. apply repeat_spec in I'. injection I' as -> _. simpl; tauto.
  - exfalso. apply L. unfold twi_table in I'. apply in_map_iff in I'. destruct I' as [? [<- _]]. simpl; tauto.
  - exfalso. apply L. unfold night_table in I'. apply in_map_iff in I'. destruct I' as [? [<- _]]. simpl; tauto.
Qed.

Lemma not_wave : forall scale cases r e, In (r, cases) [(0%nat, gw_cases); (1%nat, bbh_cases); (2%nat, bns_cases)] ->
  In (label e, radius e) (List.concat (map (kinds_of scale) cases)) -> ~ In (label e) ["neutrino"; "SSO_twilight"; "SSO_night"].
Proof.
  intros scale cases r e RC K L. apply in_kinds in K. destruct K as [[[nm ar] nt] [C K]]. simpl in K. injection K as K _. rewrite K in L.
  simpl in RC. destruct RC as [RC|[RC|[RC|[]]]]; injection RC as _ <-; simpl in C;
    repeat (destruct C as [C|C]; [injection C as <- _ _; simpl in L; repeat (destruct L as [L|L]; [discriminate L|]); destruct L|]); destruct C.
Qed.

(** Neutrinos: anywhere on the sphere, at a point, between the dates asked. *)
Theorem C118_neutrino_events : forall scale gw nu ss start stop d toos table e, 0 < scale -> start <= stop -> gw || nu || ss = true -> good_draws d start stop ->
  gen_all_events sep pixels scale gw nu ss start stop d = Ok (Some (toos, table)) -> In e table -> label e = "neutrino" ->
  nu = true /\ radius e = 0 /\ 0 <= ra e < 2 * PI /\ - (PI / 2) <= dec e <= PI / 2 /\ start <= mjd_start e <= stop /\ expires e = mjd_start e + 3.
Proof.
  intros scale gw nu ss start stop d toos table e Hs Hd Hf [V1 [V2 [V3 [V4 _]]]] E I L.
  destruct (table_in _ _ _ _ _ _ _ _ _ _ Hs Hd Hf E I) as [[r [cases [G [RC I']]]]|[[N I']|[S' [I'|I']]]].
  - exfalso. apply scatter_kind in I'. assert (X : exists k, In (k, cases) [(0%nat, gw_cases); (1%nat, bbh_cases); (2%nat, bns_cases)]).
    { simpl in RC. destruct RC as [RC|[RC|[RC|[]]]]; injection RC as _ <-; eexists; simpl; eauto. }
    destruct X as [k X]. apply (not_wave _ _ _ _ X I'). rewrite L. simpl; tauto.
  - split; [exact N|]. destruct (scatter_range _ _ _ _ _ V4 Hd I') as [A1 [A2 [A3 [_ A5]]]]. apply scatter_kind in I'. apply repeat_spec in I'. injection I' as _ R0.
    split; [rewrite R0; lra|]. tauto.
  - exfalso. unfold twi_table in I'. apply in_map_iff in I'. destruct I' as [? [<- _]]. discriminate L.
  - exfalso. unfold night_table in I'. apply in_map_iff in I'. destruct I' as [? [<- _]]. discriminate L.
Qed.

Lemma asked_is : forall span n, 0 <= span -> asked span n -> n = np_round (900 / (7305 / 2) * span).
Proof.
  intros s n Hs [A B]. replace (900 / 3652.5 * s) with (900 / (7305 / 2) * s) in * by lra. set (x := 900 / (7305 / 2) * s) in *. clearbody x.
  pose proof (np_round_bounds x) as NB. set (m := np_round x) in *.
  assert (AB : - (1 / 2) <= IZR n - x <= 1 / 2). { unfold Rabs in A. destruct (Rcase_abs _); lra. }
  assert (L : (m - 1 <= n <= m + 1)%Z). { split; apply le_IZR; [rewrite minus_IZR|rewrite plus_IZR]; lra. }
  assert (C : n = m \/ n = (m + 1)%Z \/ n = (m - 1)%Z) by lia. destruct C as [C|[C|C]]; [exact C| |]; exfalso.
  - assert (X : x = IZR m + 1 / 2). { rewrite C, plus_IZR in AB. lra. }
    assert (V : Z.even n = true). { apply B. rewrite C, plus_IZR, X. rewrite Rabs_right; lra. }
    rewrite C in V. unfold m in X, V. unfold np_round in X, V. pose proof (Int_part_bounds x) as IB.
    destruct (Rlt_dec (x - IZR (Int_part x)) (1 / 2)); [lra|]. destruct (Rlt_dec (1 / 2) _); [rewrite plus_IZR in X; lra|].
    destruct (Z.even (Int_part x)) eqn:EV; [|rewrite plus_IZR in X; lra]. rewrite Z.even_add, EV in V. discriminate V.
  - assert (X : x = IZR m - 1 / 2). { rewrite C, minus_IZR in AB. lra. }
    assert (V : Z.even n = true). { apply B. rewrite C, minus_IZR, X. rewrite Rabs_left; lra. }
    rewrite C in V. unfold m in X, V. unfold np_round in X, V. pose proof (Int_part_bounds x) as IB.
    destruct (Rlt_dec (x - IZR (Int_part x)) (1 / 2)); [lra|]. destruct (Rlt_dec (1 / 2) _); [rewrite plus_IZR in X; lra|].
    destruct (Z.even (Int_part x)) eqn:EV; [lra|]. replace (Int_part x + 1 - 1)%Z with (Int_part x) in V by lia. congruence.
Qed.
Lemma asked_round : forall span, 0 <= span -> asked span (np_round (900 / (7305 / 2) * span)).
Proof.
  intros s Hs. unfold asked. replace (900 / 3652.5 * s) with (900 / (7305 / 2) * s) by lra. set (x := 900 / (7305 / 2) * s). clearbody x.
  pose proof (np_round_bounds x) as NB. split; [unfold Rabs; destruct (Rcase_abs _); lra|]. intros H.
  unfold np_round in *. pose proof (Int_part_bounds x) as IB.
  destruct (Rlt_dec (x - IZR (Int_part x)) (1 / 2)). { unfold Rabs in H; destruct (Rcase_abs _); lra. }
  destruct (Rlt_dec (1 / 2) _). { rewrite plus_IZR in H. unfold Rabs in H; destruct (Rcase_abs _); lra. }
  destruct (Z.even (Int_part x)) eqn:EV; [exact EV|]. rewrite Z.even_add, EV. reflexivity.
Qed.
Lemma floor_trunc : forall x, 0 <= x -> floor_of x (trunc x).
Proof. intros x H. apply trunc_bounds. exact H. Qed.
Lemma draws_of : forall d start stop, start <= stop -> good_draws d start stop ->
  let n := np_round (900 / (7305 / 2) * (stop - start)) in let k := trunc (IZR n * (3 / 4)) in let m := trunc (stop - start) in
  distinct_draws (i_twi d) k ((m + 3) / 4) /\ distinct_draws (i_night d) (n - k) m.
Proof.
  intros d start stop Hd [_ [_ [_ [_ G]]]] n k m. apply G; [apply asked_round; lra|apply floor_trunc; lra|].
  unfold k. replace (IZR n * 3 / 4) with (IZR n * (3 / 4)) by lra. apply floor_trunc.
  assert (0 <= n)%Z by (apply np_round_nonneg; apply Rmult_le_pos; lra). apply IZR_le in H. lra.
Qed.
Lemma ceil4 : forall m, (- ((- m) / 4) = (m + 3) / 4)%Z.
Proof. intros m. pose proof (Z.div_mod (- m) 4). pose proof (Z.mod_pos_bound (- m) 4). pose proof (Z.div_mod (m + 3) 4). pose proof (Z.mod_pos_bound (m + 3) 4). lia. Qed.
Lemma twi_nth : forall start stop i, (Z.of_nat i < (trunc (stop - start) + 3) / 4)%Z -> nth i (twi_nights start stop) 0 = start + 1 + 4 * INR i.
Proof.
  intros start stop i H. unfold twi_nights. rewrite ceil4. unfold nights. set (f := fun k => INR (4 * k) + start + 1).
  rewrite (nth_indep _ 0 (f 0%nat)) by (rewrite map_length, seq_length; lia). rewrite map_nth, seq_nth by lia. unfold f. rewrite mult_INR. simpl. lra.
Qed.
Lemma all_nth : forall start stop i, (Z.of_nat i < trunc (stop - start))%Z -> nth i (all_nights start stop) 0 = start + INR i.
Proof.
  intros start stop i H. unfold all_nights, nights. set (f := fun k => INR k + start).
  rewrite (nth_indep _ 0 (f 0%nat)) by (rewrite map_length, seq_length; lia). rewrite map_nth, seq_nth by lia. unfold f. simpl. lra.
Qed.

(** Solar system objects: on the first night of every four after the start in twilight, on any night else, at most one of a kind a night,
    within the dates asked. *)
Theorem C118_sso_events : forall scale gw nu ss start stop d toos table e, 0 < scale -> start <= stop -> gw || nu || ss = true -> good_draws d start stop ->
  gen_all_events sep pixels scale gw nu ss start stop d = Ok (Some (toos, table)) -> In e table -> In (label e) ["SSO_twilight"; "SSO_night"] ->
  ss = true /\ radius e = 2 * PI / 180 /\ expires e = mjd_start e + 3 /\ start <= mjd_start e <= stop /\
  (exists k, mjd_start e = start + INR k /\ (label e = "SSO_twilight" -> k mod 4 = 1)%nat /\ (label e = "SSO_night" -> mjd_start e <= stop - 1)).
Proof.
  intros scale gw nu ss start stop d toos table e Hs Hd Hf GD E I L.
  destruct (draws_of _ _ _ Hd GD) as [[_ [_ D1]] [_ [_ D2]]].
  assert (S0 : 0 <= stop - start) by lra. destruct (trunc_bounds _ S0) as [T0 TB].
  destruct (table_in _ _ _ _ _ _ _ _ _ _ Hs Hd Hf E I) as [[r [cases [G [RC I']]]]|[[N I']|[S' [I'|I']]]].
  - exfalso. apply scatter_kind in I'. assert (X : exists k, In (k, cases) [(0%nat, gw_cases); (1%nat, bbh_cases); (2%nat, bns_cases)]).
    { simpl in RC. destruct RC as [RC|[RC|[RC|[]]]]; injection RC as _ <-; eexists; simpl; eauto. }
    destruct X as [k X]. apply (not_wave _ _ _ _ X I'). simpl in L |- *. tauto.
  - exfalso. apply scatter_kind in I'. apply repeat_spec in I'. injection I' as LN _. rewrite LN in L. simpl in L. destruct L as [L|[L|[]]]; discriminate L.
  - unfold twi_table in I'. apply in_map_iff in I'. destruct I' as [[k t] [<- I']]. apply (in_map snd) in I'. rewrite numbered_snd in I'.
    apply in_map_iff in I'. simpl in I'. destruct I' as [i [Ht Hi]]. specialize (D1 i Hi). rewrite twi_nth in Ht by exact D1. cbn [sso snd fst label radius expires mjd_start] in *.
    assert (Zi : (4 * Z.of_nat i + 1 <= trunc (stop - start))%Z). { pose proof (Z.div_mod (trunc (stop - start) + 3) 4). pose proof (Z.mod_pos_bound (trunc (stop - start) + 3) 4). lia. }
    apply IZR_le in Zi. rewrite plus_IZR, mult_IZR, <- INR_IZR_INZ in Zi. pose proof (pos_INR i).
    split; [exact S'|]. split; [reflexivity|]. split; [reflexivity|]. split; [lra|]. exists (1 + 4 * i)%nat.
    split; [rewrite plus_INR, mult_INR; simpl; lra|]. split; [intros _; rewrite Nat.mul_comm, Nat.mod_add by lia; reflexivity|discriminate].
  - unfold night_table in I'. apply in_map_iff in I'. destruct I' as [[k t] [<- I']]. apply (in_map snd) in I'. rewrite numbered_snd in I'.
    apply in_map_iff in I'. simpl in I'. destruct I' as [i [Ht Hi]]. specialize (D2 i Hi). rewrite all_nth in Ht by exact D2. cbn [sso snd fst label radius expires mjd_start] in *.
    assert (Zi : (Z.of_nat i + 1 <= trunc (stop - start))%Z) by lia.
    apply IZR_le in Zi. rewrite plus_IZR, <- INR_IZR_INZ in Zi. pose proof (pos_INR i).
    split; [exact S'|]. split; [reflexivity|]. split; [reflexivity|]. split; [lra|]. exists i.
    split; [lra|]. split; [discriminate|]. intros _. lra.
Qed.

(** How many. *)
Lemma number_perm : forall k l l', Permutation l l' -> number k l = number k l'.
Proof. intros k l l' P. unfold number. apply (Permutation_count_occ string_dec). apply Permutation_map. exact P. Qed.
Lemma number_app : forall k l l', number k (l ++ l') = (number k l + number k l')%nat.
Proof. intros. unfold number. rewrite map_app. apply count_occ_app. Qed.
Lemma number_none : forall k l, (forall e, In e l -> label e <> k) -> number k l = 0%nat.
Proof. intros k l H. unfold number. apply count_occ_not_In. intros C. apply in_map_iff in C. destruct C as [e [L I]]. exact (H e I L). Qed.
Lemma map_rep : forall A B (f : A -> B) x n, map f (repeat x n) = repeat (f x) n.
Proof. intros A B f x n. induction n; simpl; [reflexivity|now rewrite IHn]. Qed.
Lemma map_same : forall A B (y : B) (l : list A), map (fun _ => y) l = repeat y (List.length l).
Proof. intros A B y l. induction l; simpl; [reflexivity|now rewrite IHl]. Qed.
Lemma count_repeat : forall (x k : string) n, count_occ string_dec (repeat x n) k = if string_dec x k then n else 0%nat.
Proof. intros x k n. induction n; simpl; [now destruct (string_dec x k)|]. destruct (string_dec x k); [now rewrite IHn|exact IHn]. Qed.
Lemma number_scatter : forall k r a b kinds, number k (scatter r a b kinds) = count_occ string_dec (map fst kinds) k.
Proof. intros. unfold number. now rewrite scatter_labels. Qed.
Lemma number_kinds : forall k s cases, count_occ string_dec (map fst (List.concat (map (kinds_of s) cases))) k =
  list_sum (map (fun c : string * R * Z => if string_dec (fst (fst c)) k then Z.to_nat (trunc (IZR (snd c) * s)) else 0%nat) cases).
Proof.
  intros k s cases. induction cases as [|[[nm ar] nt] l IH]; [reflexivity|]. cbn [map List.concat list_sum fold_right fst snd]. rewrite map_app, count_occ_app, IH.
  f_equal. unfold kinds_of. rewrite map_rep. cbn [fst]. apply count_repeat.
Qed.
Lemma number_twi : forall k start stop d, number k (twi_table start stop d) = if string_dec "SSO_twilight" k then List.length (i_twi d) else 0%nat.
Proof.
  intros. unfold number, twi_table. rewrite map_map. simpl.
  rewrite map_same, numbered_length, map_length. apply count_repeat.
Qed.
Lemma number_night : forall k start stop d, number k (night_table start stop d) = if string_dec "SSO_night" k then List.length (i_night d) else 0%nat.
Proof.
  intros. unfold number, night_table. rewrite map_map. simpl.
  rewrite map_same, numbered_length, map_length. apply count_repeat.
Qed.
Lemma number_nu : forall k start stop d, number k (nu_table start stop d) = if string_dec "neutrino" k then 160%nat else 0%nat.
Proof. intros. unfold nu_table. rewrite number_scatter, map_rep. apply count_repeat. Qed.

(** The triggers of each case at scale one third. *)
Definition triggers : list (string * Z) :=
  [("GW_case_A", 9%Z); ("GW_case_B", 15%Z); ("GW_case_C", 24%Z); ("GW_case_D", 6%Z); ("GW_case_E", 12%Z); ("BBH_case_A", 9%Z); ("BBH_case_B", 6%Z);
   ("BBH_case_C", 6%Z); ("lensed_BNS_case_A", 1%Z); ("lensed_BNS_case_B", 1%Z)].
Theorem C118_wave_numbers : forall scale nu ss start stop d toos table name nt, 0 < scale -> start <= stop ->
  gen_all_events sep pixels scale true nu ss start stop d = Ok (Some (toos, table)) -> In (name, nt) triggers ->
  floor_of (3 * IZR nt * scale) (Z.of_nat (number name table)).
Proof.
  intros scale nu ss start stop d toos table name nt Hs Hd E T. rewrite all_eq in E by (try assumption; reflexivity). cbv zeta in E.
  remember (sort (List.concat (all_tables scale true nu ss start stop d))) as l. injection E as <- <-. subst l.
  rewrite (number_perm _ _ _ (sort_perm _)). unfold all_tables. rewrite !concat_app, !number_app.
  assert (Z1 : number name (List.concat (if nu then [nu_table start stop d] else [])) = 0%nat).
  { destruct nu; [|reflexivity]. cbn [List.concat]. rewrite app_nil_r, number_nu.
    simpl in T. repeat (destruct T as [T|T]; [injection T as <- _; reflexivity|]). destruct T. }
  assert (Z2 : number name (List.concat (if ss then [twi_table start stop d ++ night_table start stop d] else [])) = 0%nat).
  { destruct ss; [|reflexivity]. cbn [List.concat]. rewrite app_nil_r, number_app, number_twi, number_night.
    simpl in T. repeat (destruct T as [T|T]; [injection T as <- _; reflexivity|]). destruct T. }
  rewrite Z1, Z2, !Nat.add_0_r. unfold gw_tables. cbn [List.concat]. rewrite app_nil_r, !number_app, !number_scatter, !number_kinds.
  assert (N : (list_sum (map (fun c : string * R * Z => if string_dec (fst (fst c)) name then Z.to_nat (trunc (IZR (snd c) * (3 * scale))) else 0) gw_cases)
    + (list_sum (map (fun c : string * R * Z => if string_dec (fst (fst c)) name then Z.to_nat (trunc (IZR (snd c) * (3 * scale))) else 0) bbh_cases)
    + list_sum (map (fun c : string * R * Z => if string_dec (fst (fst c)) name then Z.to_nat (trunc (IZR (snd c) * (3 * scale))) else 0) bns_cases))
    = Z.to_nat (trunc (IZR nt * (3 * scale))))%nat).
  { simpl in T. repeat (destruct T as [T|T]; [injection T as <- <-; cbn; lia|]). destruct T. }
  rewrite N. assert (0 <= IZR nt). { simpl in T. repeat (destruct T as [T|T]; [injection T as _ <-; lra|]). destruct T. }
  assert (0 <= IZR nt * (3 * scale)) by (apply Rmult_le_pos; lra). destruct (trunc_bounds _ H0) as [T0 TB]. rewrite Z2Nat.id by exact T0.
  unfold floor_of. replace (3 * IZR nt * scale) with (IZR nt * (3 * scale)) by ring. exact TB.
Qed.
Lemma no_wave_number : forall k scale (gw : bool) d, In k ["neutrino"; "SSO_twilight"; "SSO_night"] -> number k (List.concat (if gw then gw_tables scale d else [])) = 0%nat.
Proof.
  intros k scale gw d K. destruct gw; [|reflexivity]. unfold gw_tables. cbn [List.concat]. rewrite app_nil_r, !number_app, !number_scatter, !number_kinds.
  simpl in K. destruct K as [<-|[<-|[<-|[]]]]; reflexivity.
Qed.
Theorem C118_sso_numbers : forall scale gw nu start stop d toos table, 0 < scale -> start <= stop -> good_draws d start stop ->
  gen_all_events sep pixels scale gw nu true start stop d = Ok (Some (toos, table)) ->
  let t := Z.of_nat (number "SSO_twilight" table) in let n := Z.of_nat (number "SSO_night" table) in
  asked (stop - start) (t + n) /\ floor_of (IZR (t + n) * 3 / 4) t.
Proof.
  intros scale gw nu start stop d toos table Hs Hd GD E t n. destruct (draws_of _ _ _ Hd GD) as [[_ [D1 _]] [_ [D2 _]]].
  rewrite all_eq in E by (try assumption; now rewrite orb_true_r). cbv zeta in E.
  remember (sort (List.concat (all_tables scale gw nu true start stop d))) as l. injection E as <- <-. subst l.
  assert (T : t = Z.of_nat (List.length (i_twi d))).
  { unfold t. rewrite (number_perm _ _ _ (sort_perm _)). unfold all_tables. rewrite !concat_app, !number_app, no_wave_number by (simpl; tauto).
    destruct nu; cbn [List.concat]; rewrite ?app_nil_r, ?number_app, ?number_nu, number_twi, number_night; simpl; rewrite ?Nat.add_0_r; reflexivity. }
  assert (N : n = Z.of_nat (List.length (i_night d))).
  { unfold n. rewrite (number_perm _ _ _ (sort_perm _)). unfold all_tables. rewrite !concat_app, !number_app, no_wave_number by (simpl; tauto).
    destruct nu; cbn [List.concat]; rewrite ?app_nil_r, ?number_app, ?number_nu, number_twi, number_night; simpl; rewrite ?Nat.add_0_r; reflexivity. }
  rewrite T, N, D1, D2. set (q := np_round (900 / (7305 / 2) * (stop - start))) in *. replace (trunc (IZR q * (3 / 4)) + (q - trunc (IZR q * (3 / 4))))%Z with q by lia.
  split; [apply asked_round; lra|]. replace (IZR q * 3 / 4) with (IZR q * (3 / 4)) by lra. apply floor_trunc.
  assert (0 <= q)%Z by (apply np_round_nonneg; apply Rmult_le_pos; lra). apply IZR_le in H. lra.
Qed.
(** At most one of a kind a night. *)
Lemma filter_perm : forall A (f : A -> bool) l l', Permutation l l' -> Permutation (filter f l) (filter f l').
Proof.
  intros A f l l' P. induction P; simpl; [constructor| | |].
  - destruct (f x); [now constructor|exact IHP].
  - destruct (f x), (f y); try apply Permutation_refl. apply perm_swap.
  - eapply Permutation_trans; eassumption.
Qed.
Lemma filter_all : forall A (f : A -> bool) l, (forall x, In x l -> f x = true) -> filter f l = l.
Proof. intros A f l. induction l as [|x l IH]; intros H; simpl; [reflexivity|]. rewrite H by (now left). rewrite IH; [reflexivity|]. intros; apply H; now right. Qed.
Lemma filter_none : forall A (f : A -> bool) l, (forall x, In x l -> f x = false) -> filter f l = [].
Proof. intros A f l. induction l as [|x l IH]; intros H; simpl; [reflexivity|]. rewrite H by (now left). apply IH. intros; apply H; now right. Qed.
Lemma map_nodup : forall A B (f : A -> B) l, NoDup l -> (forall x y, In x l -> In y l -> f x = f y -> x = y) -> NoDup (map f l).
Proof.
  intros A B f l N. induction N as [|x l H N IH]; intros J; simpl; [constructor|]. constructor.
  - intros C. apply in_map_iff in C. destruct C as [y [E Y]]. assert (y = x) by (apply J; [now right|now left|exact E]). subst y. contradiction.
  - apply IH. intros u v U V. apply J; now right.
Qed.
Theorem C118_sso_nights_distinct : forall scale gw nu ss start stop d toos table kind, 0 < scale -> start <= stop -> gw || nu || ss = true -> good_draws d start stop ->
  gen_all_events sep pixels scale gw nu ss start stop d = Ok (Some (toos, table)) -> In kind ["SSO_twilight"; "SSO_night"] ->
  NoDup (map mjd_start (filter (fun e => if string_dec (label e) kind then true else false) table)).
Proof.
  intros scale gw nu ss start stop d toos table kind Hs Hd Hf GD E K. destruct (draws_of _ _ _ Hd GD) as [[N1 [_ D1]] [N2 [_ D2]]].
  assert (T1 : NoDup (map mjd_start (twi_table start stop d))).
  { unfold twi_table. rewrite map_map. change (NoDup (map snd (numbered 0 (map (fun i => nth i (twi_nights start stop) 0) (i_twi d))))). rewrite numbered_snd.
    apply map_nodup; [exact N1|]. intros i j Hi Hj Eq. rewrite !twi_nth in Eq by auto. apply INR_eq. lra. }
  assert (T2 : NoDup (map mjd_start (night_table start stop d))).
  { unfold night_table. rewrite map_map. change (NoDup (map snd (numbered 0 (map (fun i => nth i (all_nights start stop) 0) (i_night d))))). rewrite numbered_snd.
    apply map_nodup; [exact N2|]. intros i j Hi Hj Eq. rewrite !all_nth in Eq by auto. apply INR_eq. lra. }
  rewrite all_eq in E by assumption. cbv zeta in E.
  remember (sort (List.concat (all_tables scale gw nu ss start stop d))) as l. injection E as <- <-. subst l.
  set (keep := fun e => if string_dec (label e) kind then true else false).
  eapply Permutation_NoDup; [apply Permutation_map; apply Permutation_sym; apply filter_perm; apply sort_perm|].
  unfold all_tables. rewrite !concat_app, !filter_app.
  rewrite (filter_none _ keep (List.concat (if gw then gw_tables scale d else []))).
  2:{ intros x X. unfold keep. destruct (string_dec (label x) kind) as [L|]; [exfalso|reflexivity]. destruct gw; [|destruct X]. unfold gw_tables in X. cbn [List.concat] in X.
      rewrite app_nil_r, !in_app_iff in X. assert (M : In (label x) ["neutrino"; "SSO_twilight"; "SSO_night"]) by (rewrite L; simpl in K |- *; tauto).
      destruct X as [X|[X|X]]; apply scatter_kind in X; [apply (not_wave (3 * scale) gw_cases 0 x)|apply (not_wave (3 * scale) bbh_cases 1 x)|apply (not_wave (3 * scale) bns_cases 2 x)]; try assumption; simpl; tauto. }
  rewrite (filter_none _ keep (List.concat (if nu then [nu_table start stop d] else []))).
  2:{ intros x X. unfold keep. destruct (string_dec (label x) kind) as [L|]; [exfalso|reflexivity]. destruct nu; [|destruct X]. cbn [List.concat] in X.
      rewrite app_nil_r in X. apply scatter_kind in X. apply repeat_spec in X. injection X as X _. rewrite X in L. subst kind. simpl in K. destruct K as [K|[K|[]]]; discriminate K. }
  cbn [app]. destruct ss; [|constructor]. cbn [List.concat]. rewrite app_nil_r, filter_app.
  assert (LT : forall x, In x (twi_table start stop d) -> label x = "SSO_twilight") by (intros x X; unfold twi_table in X; apply in_map_iff in X; destruct X as [? [<- _]]; reflexivity).
  assert (LN : forall x, In x (night_table start stop d) -> label x = "SSO_night") by (intros x X; unfold night_table in X; apply in_map_iff in X; destruct X as [? [<- _]]; reflexivity).
  simpl in K. destruct K as [<-|[<-|[]]].
  - rewrite (filter_all _ keep (twi_table start stop d)), (filter_none _ keep (night_table start stop d)), app_nil_r; [exact T1| |];
      intros x X; unfold keep; [rewrite (LN x X)|rewrite (LT x X)]; reflexivity.
  - rewrite (filter_none _ keep (twi_table start stop d)), (filter_all _ keep (night_table start stop d)); [exact T2| |];
      intros x X; unfold keep; [rewrite (LN x X)|rewrite (LT x X)]; reflexivity.
Qed.

(** The neutrinos of a single night are as many as those of ten years: the number of line 382 is not passed on. *)
Theorem C118_neutrino_number_refuted : forall scale gw ss start stop d toos table, 0 < scale -> start <= stop ->
  gen_all_events sep pixels scale gw true ss start stop d = Ok (Some (toos, table)) -> number "neutrino" table = 160%nat.
Proof.
  intros scale gw ss start stop d toos table Hs Hd E.
  rewrite all_eq in E by (try assumption; now rewrite orb_true_r). cbv zeta in E.
  remember (sort (List.concat (all_tables scale gw true ss start stop d))) as l. injection E as <- <-. subst l.
  rewrite (number_perm _ _ _ (sort_perm _)). unfold all_tables. rewrite !concat_app, !number_app, no_wave_number by (simpl; tauto).
  destruct ss; cbn [List.concat]; rewrite ?app_nil_r, ?number_app, number_nu, ?number_twi, ?number_night; reflexivity.
Qed.
(** Waves come at the dates of O5, even when the dates asked end before it. *)
Theorem C118_dates_refuted : forall nu ss start stop d toos table, start <= stop -> stop < 61557 -> good_draws d start stop ->
  gen_all_events sep pixels 1 true nu ss start stop d = Ok (Some (toos, table)) ->
  exists e, In e table /\ stop < mjd_start e.
Proof.
  intros nu ss start stop d toos table Hd Hb GD E.
  assert (N : floor_of (3 * IZR 9 * 1) (Z.of_nat (number "GW_case_A" table))) by (eapply C118_wave_numbers; [lra|exact Hd|exact E|simpl; tauto]).
  assert (0 < number "GW_case_A" table)%nat. { destruct N as [_ N]. destruct (number "GW_case_A" table); [simpl in N; lra|lia]. }
  unfold number in H. apply count_occ_In in H. apply in_map_iff in H. destruct H as [e [L I]]. exists e. split; [exact I|].
  assert (O : 0 < 1) by lra.
  destruct (C118_wave_events 1 true nu ss start stop d toos table e O Hd eq_refl GD E I) as [_ [_ [_ [_ [M _]]]]]; [rewrite L; simpl; intuition discriminate|]. lra.
Qed.
(** Nothing asked is not an empty list of events but an error. *)
Theorem C118_nothing_asked_refuted : forall scale start stop d, scale <> 0 -> gen_all_events sep pixels scale false false false start stop d = Raise ValueError.
Proof. intros scale start stop d H. unfold gen_all_events. destruct (Req_EM_T scale 0); [contradiction|]. reflexivity. Qed.

(** The server gives, in order, the events begun and not over; None for none. *)
Theorem C118_served : forall toos mjd,
  match serve toos mjd with
  | None => forall t, In t toos -> mjd <= too_start t \/ too_start t + duration t <= mjd
  | Some l => l <> [] /\ (forall t, In t l <-> In t toos /\ too_start t < mjd < too_start t + duration t) /\ exists keep, l = filter keep toos
  end.
Proof.
  intros toos mjd. unfold serve. set (keep := fun e => _ && _).
  assert (K : forall t, keep t = true <-> too_start t < mjd < too_start t + duration t).
  { intros t. unfold keep. destruct (Rlt_dec _ _), (Rlt_dec _ _); simpl; split; intros; try reflexivity; try discriminate; lra. }
  destruct (filter keep toos) as [|t l] eqn:F.
  - intros t I. destruct (Rle_lt_dec mjd (too_start t)); [now left|right]. destruct (Rle_lt_dec (too_start t + duration t) mjd); [assumption|].
    exfalso. assert (X : In t (filter keep toos)) by (apply filter_In; split; [exact I|apply K; lra]). rewrite F in X. destruct X.
  - split; [discriminate|]. split; [|exists keep; now rewrite F]. intros u. rewrite <- F, filter_In, K. reflexivity.
Qed.
(** A simulated event is given for the three days after it begins. *)
Theorem C118_served_three_days : forall scale gw nu ss start stop d toos table mjd k e, 0 < scale -> start <= stop -> gw || nu || ss = true -> good_draws d start stop ->
  gen_all_events sep pixels scale gw nu ss start stop d = Ok (Some (toos, table)) -> nth_error table k = Some e ->
  ((exists l t, serve toos mjd = Some l /\ In t l /\ too_id t = k) <-> mjd_start e < mjd < mjd_start e + 3).
Proof.
  intros scale gw nu ss start stop d toos table mjd k e Hs Hd Hf GD E N.
  destruct (C118_objects_of_rows _ _ _ _ _ _ _ _ _ Hs Hd Hf E) as [Len [_ O]]. destruct (O k e N) as [t [Nt [Id [St [Du [_ [_ [_ _]]]]]]]].
  assert (X3 : expires e = mjd_start e + 3).
  { apply nth_error_In in N. destruct (in_dec string_dec (label e) ["neutrino"; "SSO_twilight"; "SSO_night"]) as [I|I].
    - simpl in I. destruct I as [I|I]; [apply (C118_neutrino_events _ _ _ _ _ _ _ _ _ _ Hs Hd Hf GD E N (eq_sym I))|].
      apply (C118_sso_events _ _ _ _ _ _ _ _ _ _ Hs Hd Hf GD E N). simpl. tauto.
    - apply (C118_wave_events _ _ _ _ _ _ _ _ _ _ Hs Hd Hf GD E N I). }
  pose proof (C118_served toos mjd) as Sv. split.
  - intros [l [u [Sl [Iu Idu]]]]. rewrite Sl in Sv. destruct Sv as [_ [Sv _]]. apply Sv in Iu. destruct Iu as [Iu M].
    apply In_nth_error in Iu. destruct Iu as [j Nj]. assert (Lj : (j < List.length table)%nat) by (rewrite <- Len; apply nth_error_Some; congruence).
    destruct (nth_error table j) as [f|] eqn:Nf; [|apply nth_error_Some in Lj; contradiction]. destruct (O j f Nf) as [v [Nv [Idv _]]].
    assert (j = k) by congruence. subst j. assert (u = t) by congruence. subst u. rewrite St, Du, X3 in M. lra.
  - intros M. apply nth_error_In in Nt. destruct (serve toos mjd) as [l|].
    + exists l, t. split; [reflexivity|]. split; [|exact Id]. apply (proj1 (proj2 Sv)). split; [exact Nt|]. rewrite St, Du, X3. lra.
    + exfalso. destruct (Sv t Nt) as [Q|Q]; rewrite ?St, ?Du, ?X3 in Q; lra.
Qed.

(** A text within another. *)
Definition within (a b : string) : Prop := exists p s, b = (p ++ a ++ s)%string.
Lemma prefix_within : forall a b, prefix a b = true <-> exists s, b = (a ++ s)%string.
Proof.
  induction a as [|c a IH]; intros b.
  - split; [intros _; exists b; reflexivity|]. intros _. destruct b; reflexivity.
  - destruct b as [|x b]; simpl; [split; [discriminate|intros [s H]; discriminate H]|]. destruct (Ascii.ascii_dec c x) as [->|Ne].
    + rewrite IH. split; intros [s H]; exists s; [now rewrite H|now injection H].
    + split; [discriminate|]. intros [s H]. injection H as H _. congruence.
Qed.
Lemma contains_within : forall a b, contains a b = true <-> within a b.
Proof.
  intros a b. induction b as [|c b IH].
  - cbn [contains]. rewrite orb_false_r, prefix_within. split; [intros [s H]; exists "", s; exact H|]. intros [p [s H]]. destruct p; [exists s; exact H|discriminate H].
  - cbn [contains]. rewrite orb_true_iff, prefix_within, IH. split.
    + intros [[s H]|[p [s H]]]; [exists "", s; exact H|exists (String c p), s; now rewrite H].
    + intros [p [s H]]. destruct p as [|x p]; [left; exists s; exact H|right; exists p, s; now injection H].
Qed.
(** Every kind of simulated event is followed by exactly one of the surveys; the survey of galactic supernovae follows none. *)
Theorem C118_followed_once : forall scale gw nu ss start stop d toos table t, 0 < scale -> start <= stop -> gw || nu || ss = true -> good_draws d start stop ->
  gen_all_events sep pixels scale gw nu ss start stop d = Ok (Some (toos, table)) -> In t toos ->
  exists i, forall j f, nth_error gen_too_surveys j = Some f -> ((exists y, In y (f_types f) /\ within y (too_type t)) <-> j = i).
Proof.
  intros scale gw nu ss start stop d toos table t Hs Hd Hf GD E I.
  destruct (C118_objects_of_rows _ _ _ _ _ _ _ _ _ Hs Hd Hf E) as [Len [_ O]]. apply In_nth_error in I. destruct I as [k N].
  assert (Lk : (k < List.length table)%nat) by (rewrite <- Len; apply nth_error_Some; congruence).
  destruct (nth_error table k) as [e|] eqn:Ne; [|apply nth_error_Some in Lk; contradiction]. destruct (O k e Ne) as [u [Nu [_ [_ [_ [_ [Ty _]]]]]]].
  assert (u = t) by congruence. subst u. rewrite Ty. apply nth_error_In in Ne.
  assert (Ls : In (label e) (["neutrino"; "SSO_twilight"; "SSO_night"] ++ map fst spread)).
  { apply in_or_app. destruct (in_dec string_dec (label e) ["neutrino"; "SSO_twilight"; "SSO_night"]) as [I|I]; [now left|right].
    destruct (C118_wave_events _ _ _ _ _ _ _ _ _ _ Hs Hd Hf GD E Ne I) as [_ [[a [A _]] _]]. exact (in_map fst _ _ A). }
  assert (Q : forall (tys : list string) x, (exists y, In y tys /\ within y x) <-> existsb (fun y => contains y x) tys = true).
  { intros tys x. rewrite existsb_exists. split; intros [y [Y W]]; exists y; (split; [exact Y|]); apply contains_within; exact W. }
  clear Ty. revert Ls. generalize (label e). intros nm Ls. cbn [app map fst spread] in Ls.
  exists (match find (fun jf : nat * follow => follows (snd jf) nm) (numbered 0 gen_too_surveys) with Some jf => fst jf | None => 0%nat end).
  intros j f F. rewrite Q. 
  repeat (destruct Ls as [<-|Ls]; [destruct j as [|[|[|[|[|[|[|[|[|[|j]]]]]]]]]]; cbn [nth_error gen_too_surveys] in F; [..|destruct j; discriminate F]; injection F as <-; vm_compute; split; intros; congruence|]).
  destruct Ls.
Qed.
(** Each script has as many times as bands, visits and exposure times, names bands of the camera, asks for visits, and its name marks it as a ToO. *)
Theorem C118_scripts_whole : forall f, In f gen_too_surveys ->
  List.length (f_bands f) = List.length (f_times f) /\ List.length (f_nvis f) = List.length (f_times f) /\ List.length (f_exptimes f) = List.length (f_times f) /\
  f_times f <> [] /\ (forall n, In n (f_nvis f) -> (0 < n)%nat) /\ (forall t, In t (f_times f) -> 0 <= t) /\ (forall x, In x (f_exptimes f) -> 0 < x) /\
  (forall b, In b (f_bands f) -> b <> "" /\ forall c, within (String c "") b -> within (String c "") "ugrizy") /\ within "ToO" (f_name f).
Proof.
  intros f I.
  assert (BB : forall b, (negb (String.eqb b "") && forallb (fun c => contains (String c "") "ugrizy") (list_ascii_of_string b))%bool = true ->
    b <> "" /\ forall c, within (String c "") b -> within (String c "") "ugrizy").
  { intros b H. apply andb_true_iff in H. destruct H as [H1 H2]. split; [intros ->; discriminate H1|]. intros c [p [s Eq]]. apply contains_within.
    rewrite forallb_forall in H2. apply H2. subst b. clear. induction p; simpl; [now left|right; exact IHp]. }
  cbn [gen_too_surveys In] in I.
  repeat (destruct I as [<-|I];
    [cbn [f_types f_name f_times f_bands f_nvis f_exptimes]; repeat (split; [reflexivity|]); split; [discriminate|];
     split; [intros n Hn; cbn in Hn; repeat (destruct Hn as [<-|Hn]; [lia|]); destruct Hn|];
     split; [intros x Hx; cbn in Hx; repeat (destruct Hx as [<-|Hx]; [lra|]); destruct Hx|];
     split; [intros x Hx; cbn in Hx; repeat (destruct Hx as [<-|Hx]; [lra|]); destruct Hx|];
     split; [intros b Hb; apply BB; cbn in Hb; repeat (destruct Hb as [<-|Hb]; [reflexivity|]); destruct Hb|];
     apply contains_within; reflexivity|]).
  destruct I.
Qed.
(** Names of the surveys are all different. *)
Theorem C118_names_distinct : NoDup (map f_name gen_too_surveys).
Proof. cbn. repeat (constructor; [simpl; intuition discriminate|]). constructor. Qed.
End C118.

(** Ten nights: two solar system events, one of them in twilight on the sixth night. *)
Definition ex_d : draws := Draws (fun _ => 1 / 2) (fun _ => 1 / 4) (fun _ => 0) (fun k => if Nat.even k then 0 else 3 / 4) [1%nat] [4%nat] (fun _ => (0, 0)) (fun _ => (1, 0)).
Example ex_good : good_draws ex_d 60000 60010.
Proof.
  unfold good_draws, unit_draws. cbn [ex_d r_gw r_bbh r_bns r_nu i_twi i_night].
  split; [intros; lra|]. split; [intros; lra|]. split; [intros; lra|]. split; [intros k; destruct (Nat.even k); lra|].
  intros n m k [A _] [M1 M2] [K1 K2].
  assert (N : n = 2%Z). { unfold Rabs in A. assert (1 < n < 3)%Z; [|lia]. split; apply lt_IZR; destruct (Rcase_abs _); lra. }
  subst n. assert (Mm : m = 10%Z). { assert (9 < m < 11)%Z; [|lia]. split; apply lt_IZR; lra. }
  assert (Kk : k = 1%Z). { assert (0 < k < 2)%Z; [|lia]. split; apply lt_IZR; lra. }
  subst m k. unfold distinct_draws. repeat split; try (repeat constructor; simpl; tauto); try reflexivity; intros i Hi; simpl in Hi; destruct Hi as [<-|[]]; reflexivity.
Qed.
Example ex_made : exists toos table, gen_all_events (fun _ _ => 0) [(0, 0)] 1 true true true 60000 60010 ex_d = Ok (Some (toos, table)) /\
  number "GW_case_C" table = 72%nat /\ number "neutrino" table = 160%nat /\ number "SSO_twilight" table = 1%nat.
Proof.
  assert (P : 0 < 1) by lra. assert (D : 60000 <= 60010) by lra.
  destruct (C118_all_events_made (fun _ _ => 0) [(0, 0)] 1 true true true 60000 60010 ex_d P D eq_refl) as [toos [table E]]. exists toos, table. split; [exact E|].
  split. { assert (F : floor_of (3 * 24 * 1) (Z.of_nat (number "GW_case_C" table))) by (eapply C118_wave_numbers; [exact P|exact D|exact E|simpl; tauto]).
    destruct F as [F1 F2]. assert (71 < Z.of_nat (number "GW_case_C" table) < 73)%Z; [|lia]. split; apply lt_IZR; lra. }
  split. { eapply C118_neutrino_number_refuted; [exact P|exact D|exact E]. }
  { destruct (C118_sso_numbers _ _ 1 true true 60000 60010 ex_d toos table P D ex_good E) as [[A _] F].
    set (t := number "SSO_twilight" table) in *. set (n := number "SSO_night" table) in *. clearbody t n.
    assert (N : (Z.of_nat t + Z.of_nat n = 2)%Z). { unfold Rabs in A. assert (1 < Z.of_nat t + Z.of_nat n < 3)%Z; [|lia]. split; apply lt_IZR; destruct (Rcase_abs _); lra. }
    rewrite N in F. destruct F as [F1 F2]. assert (0 < Z.of_nat t < 2)%Z; [|lia]. split; apply lt_IZR; lra. }
Qed.
Example ex_one_night : forall n, Rabs (IZR n - 160 / 3652.5 * 1) <= 1 / 2 -> n = 0%Z.
Proof. intros n A. unfold Rabs in A. assert (-1 < n < 1)%Z; [|lia]. split; apply lt_IZR; destruct (Rcase_abs _); lra. Qed.
Example ex_follow : map (fun f => follows f "GW_case_C") gen_too_surveys = [false; true; false; false; false; false; false; false; false; false].
Proof. reflexivity. Qed.
Example ex_serve : exists l, serve [Too 0 [] 10 3 (0, 0) "neutrino"; Too 1 [] 12 3 (0, 0) "neutrino"] (25 / 2) = Some l /\ List.length l = 2%nat.
Proof. unfold serve. simpl. repeat (destruct (Rlt_dec _ _); try lra). simpl. eexists. split; reflexivity. Qed.

Print Assumptions C118_all_events_made.
Print Assumptions C118_no_scale_no_events.
Print Assumptions C118_objects_of_rows.
Print Assumptions C118_wave_events.
Print Assumptions C118_neutrino_events.
Print Assumptions C118_sso_events.
Print Assumptions C118_wave_numbers.
Print Assumptions C118_sso_numbers.
Print Assumptions C118_sso_nights_distinct.
Print Assumptions C118_neutrino_number_refuted.
Print Assumptions C118_dates_refuted.
Print Assumptions C118_nothing_asked_refuted.
Print Assumptions C118_served.
Print Assumptions C118_served_three_days.
Print Assumptions C118_followed_once.
Print Assumptions C118_scripts_whole.
Print Assumptions C118_names_distinct.
