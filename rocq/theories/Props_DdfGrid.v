(** C135: the grid of conditions of the deep drilling fields. *)
From Coq Require Import List ZArith QArith Qround Bool String Lia Lqa.
From Verif Require Import Base Ddf LongGap LongGap_proofs Ddf_proofs Props_Ddf DdfGrid.
Import ListNotations.
Open Scope nat_scope.

Lemma app_tail : forall a b c d : string, (a ++ c = b ++ d)%string -> String.length c = String.length d -> a = b /\ c = d.
Proof.
  induction a as [|x a IH]; intros [|y b] c d E L; cbn in E; subst.
  - split; reflexivity.
  - exfalso. cbn in L. assert (forall p q : string, String.length (p ++ q) = String.length p + String.length q) by (induction p; cbn; intros; auto). rewrite H in L. lia.
  - exfalso. cbn in L. assert (forall p q : string, String.length (p ++ q) = String.length p + String.length q) by (induction p; cbn; intros; auto). rewrite H in L. lia.
  - injection E as -> E. destruct (IH b c d E L) as [-> ->]. split; reflexivity.
Qed.
Lemma sapp_assoc : forall a b c : string, ((a ++ b) ++ c = a ++ b ++ c)%string.
Proof. induction a; cbn; intros; [reflexivity|]. f_equal. apply IHa. Qed.

(** The columns have different names whatever the locations are called, so none overwrites another. *)
Theorem C135_columns : forall locations, NoDup locations -> NoDup (columns locations).
Proof.
  intros ls N. unfold columns.
  assert (D1 : forall a b : string, (a ++ "_airmass" <> b ++ "_sky_g")%string). { intros a b E. change "_airmass"%string with ("_a" ++ "irmass")%string in E. rewrite <- sapp_assoc in E. apply app_tail in E; [destruct E; discriminate|reflexivity]. }
  assert (D2 : forall a b : string, (a ++ "_airmass" <> b ++ "_m5_g")%string). { intros a b E. change "_airmass"%string with ("_ai" ++ "rmass")%string in E. rewrite <- sapp_assoc in E. apply app_tail in E; [destruct E; discriminate|reflexivity]. }
  assert (D3 : forall a b : string, (a ++ "_sky_g" <> b ++ "_m5_g")%string). { intros a b E. change "_sky_g"%string with ("_" ++ "sky_g")%string in E. rewrite <- sapp_assoc in E. apply app_tail in E; [destruct E; discriminate|reflexivity]. }
  assert (I : forall a b c : string, (a ++ c = b ++ c)%string -> a = b) by (intros a b c E; apply app_tail in E; [tauto|reflexivity]).
  assert (U : forall l, NoDup l -> NoDup (flat_map (fun l => [l ++ "_airmass"; l ++ "_sky_g"; l ++ "_m5_g"]%string) l)).
  { induction l as [|x l IH]; intros M; [constructor|]. apply NoDup_cons_iff in M. destruct M as [M1 M2]. cbn [flat_map app].
    assert (X : forall s, In s (flat_map (fun l => [l ++ "_airmass"; l ++ "_sky_g"; l ++ "_m5_g"]%string) l) -> exists y, In y l /\ (s = y ++ "_airmass" \/ s = y ++ "_sky_g" \/ s = y ++ "_m5_g")%string).
    { intros s H. apply in_flat_map in H. destruct H as (y & Y & [H|[H|[H|[]]]]); exists y; auto. }
    constructor; [|constructor; [|constructor; [|apply IH; exact M2]]].
    - intros [E|[E|E]]; [exact (D1 _ _ (eq_sym E))|exact (D2 _ _ (eq_sym E))|]. apply X in E. destruct E as (y & Y & [E|[E|E]]); [apply I in E; subst; contradiction|exact (D1 _ _ E)|exact (D2 _ _ E)].
    - intros [E|E]; [exact (D3 _ _ (eq_sym E))|]. apply X in E. destruct E as (y & Y & [E|[E|E]]); [exact (D1 _ _ (eq_sym E))|apply I in E; subst; contradiction|exact (D3 _ _ E)].
    - intros E. apply X in E. destruct E as (y & Y & [E|[E|E]]); [exact (D2 _ _ (eq_sym E))|exact (D3 _ _ (eq_sym E))|apply I in E; subst; contradiction]. }
  assert (F : forall s, In s ["mjd"; "sun_alt"; "sun_n18_rising_next"; "moon_phase"; "moon_alt"]%string -> ~ In s (flat_map (fun l => [l ++ "_airmass"; l ++ "_sky_g"; l ++ "_m5_g"]%string) ls)).
  { assert (T : forall p q y c : string, String.length q = String.length c -> q <> c -> (p ++ q)%string <> (y ++ c)%string) by (intros p q y c L Ne E; apply app_tail in E; [tauto|exact L]).
    assert (S' : forall s y c : string, (String.length s < String.length c)%nat -> s <> (y ++ c)%string). { intros s y c L ->. assert (forall p q : string, String.length (p ++ q) = String.length p + String.length q) by (induction p; cbn; intros; auto). rewrite H in L. lia. }
    intros s H E. apply in_flat_map in E. destruct E as (y & Y & E).
    destruct H as [<-|[<-|[<-|[<-|[<-|[]]]]]]; destruct E as [E|[E|[E|[]]]]; symmetry in E; revert E.
    all: try (apply S'; cbn; lia).
    - apply (T "s"%string "un_alt"%string); [reflexivity|discriminate].
    - apply (T "su"%string "n_alt"%string); [reflexivity|discriminate].
    - apply (T "sun_n18_ris"%string "ing_next"%string); [reflexivity|discriminate].
    - apply (T "sun_n18_risin"%string "g_next"%string); [reflexivity|discriminate].
    - apply (T "sun_n18_rising"%string "_next"%string); [reflexivity|discriminate].
    - apply (T "mo"%string "on_phase"%string); [reflexivity|discriminate].
    - apply (T "moon"%string "_phase"%string); [reflexivity|discriminate].
    - apply (T "moon_"%string "phase"%string); [reflexivity|discriminate].
    - apply (T ""%string "moon_alt"%string); [reflexivity|discriminate].
    - apply (T "mo"%string "on_alt"%string); [reflexivity|discriminate].
    - apply (T "moo"%string "n_alt"%string); [reflexivity|discriminate]. }
  set (fl := flat_map _ ls) in *. cbn [app]. repeat (constructor; [cbn [In]; intros H; repeat (destruct H as [H|H]; [discriminate H|]); revert H; apply F; cbn; tauto|]). apply U, N.
Qed.
Print Assumptions C135_columns.
Example C135_columns_ex : NoDup (columns ["COSMOS"; "COSMOS_airmass"; "moon"]%string).
Proof. apply C135_columns. repeat constructor; cbn; intuition discriminate. Qed.

Section Grid.
Variable at_ : Q -> option sky.
Variable left : sky -> Q -> sky.
Variable rise : Q -> Q.
Variable m5 : Q -> Q -> Q.
Variable limit : Q.
Notation generate_grid := (generate_grid at_ left rise m5 limit).
Notation rows := (rows at_ left rise m5 limit).
Definition day_of (minutes : Q) : Q := (minutes / 1440)%Q.

Lemma day_eq : forall dt, (dt / 60 / 24 == day_of dt)%Q.
Proof. intros. unfold day_of. field. Qed.
Lemma day_pos : forall dt, (0 < day_of dt)%Q <-> (0 < dt)%Q.
Proof. intros dt. assert (E : (day_of dt == dt * (1 # 1440))%Q) by (unfold day_of; field). rewrite E. lra. Qed.
Lemma rows_times : forall ts sm, map r_mjd (rows sm ts) = ts.
Proof. induction ts as [|t ts IH]; intros sm; [reflexivity|]. cbn. f_equal. apply IH. Qed.
Lemma rows_in : forall ts sm r, In r (rows sm ts) -> exists s, r = row_of rise m5 limit (r_mjd r) (step at_ left s (r_mjd r)).
Proof.
  induction ts as [|t ts IH]; intros sm r I; [destruct I|]. cbn [DdfGrid.rows In] in I. destruct I as [<-|I]; [|exact (IH _ _ I)]. exists sm. reflexivity.
Qed.
Lemma grid_rows : forall sm mjd0 dt len l, generate_grid sm mjd0 dt len = Ok l -> (0 < dt)%Q /\ l = rows sm (arange mjd0 (mjd0 + len * (36525 # 100)) (dt / 60 / 24)) /\ l <> [].
Proof.
  intros sm mjd0 dt len l. unfold DdfGrid.generate_grid. destruct (Qeq_bool (dt / 60 / 24) 0) eqn:Z; [discriminate|].
  destruct (arange mjd0 _ _) as [|t ts] eqn:A; [discriminate|]. intros E. assert (E' : rows sm (t :: ts) = l) by congruence. clear E. split.
  - assert (I : In t (arange mjd0 (mjd0 + len * (36525 # 100)) (dt / 60 / 24))) by (rewrite A; left; reflexivity). apply arange_in in I. destruct I as [P _]. rewrite day_eq in P. apply day_pos, P.
  - split; [symmetry; exact E'|]. subst l. discriminate.
Qed.
(** Rows are the steps of time from the start, all those before the end and no others. *)
Theorem C135_times : forall sm mjd0 dt len l, generate_grid sm mjd0 dt len = Ok l ->
  (0 < dt)%Q /\ (forall k r, nth_error l k = Some r -> (r_mjd r == mjd0 + inject_Z (Z.of_nat k) * day_of dt)%Q) /\
  (forall k, (k < List.length l)%nat <-> (inject_Z (Z.of_nat k) * day_of dt < len * (36525 # 100))%Q).
Proof.
  intros sm mjd0 dt len l G. apply grid_rows in G. destruct G as (P & E & _). split; [exact P|].
  assert (T : map r_mjd l = arange mjd0 (mjd0 + len * (36525 # 100)) (dt / 60 / 24)) by (rewrite E; apply rows_times). clear E.
  assert (D : (dt / 60 / 24 == day_of dt)%Q) by (unfold day_of; field). unfold arange in T.
  destruct (Qle_bool (dt / 60 / 24) 0) eqn:B; [apply Qle_bool_iff in B; apply day_pos in P; rewrite D in B; lra|]. clear B. set (d := (dt / 60 / 24)%Q) in *. split.
  - intros k r H. apply (f_equal (fun x => nth_error x k)) in T. rewrite nth_error_map, H in T. cbn [option_map] in T. rewrite nth_error_map in T. destruct (nth_error (seq 0 _) k) as [j|] eqn:J; [|discriminate]. cbn [option_map] in T. injection T as T. rewrite T.
    assert (j = k) by (apply nth_error_nth with (d := 0) in J as J'; assert (k < List.length (seq 0 (Z.to_nat (Qceiling ((mjd0 + len * (36525 # 100) - mjd0) / d))))) by (apply nth_error_Some; congruence); rewrite seq_length in H0; rewrite seq_nth in J' by exact H0; lia). subst j. rewrite D. reflexivity.
  - intros k. apply (f_equal (@List.length Q)) in T. rewrite !map_length, seq_length in T. rewrite T.
    assert (Dp : (0 < d)%Q) by (rewrite D; apply day_pos, P).
    assert (X : ((mjd0 + len * (36525 # 100) - mjd0) / d * d == len * (36525 # 100))%Q) by (field; lra). set (q := ((mjd0 + len * (36525 # 100) - mjd0) / d)%Q) in *. clearbody q. rewrite <- D. clearbody d. clear D.
    transitivity (Z.of_nat k < Qceiling q)%Z; [lia|]. rewrite lt_ceil by lia. rewrite <- X. split; intros H; [apply Qmult_lt_compat_r; assumption|]. apply Qmult_lt_r in H; assumption.
Qed.

(** The part of the grid within any two dates, of two times at least, is evenly spaced: what
    the deep drilling schedule relies on. *)
Lemma filter_interval : forall (P : nat -> bool), (forall a b c, a <= b <= c -> P a = true -> P c = true -> P b = true) -> forall n s, exists a m, filter P (seq s n) = seq a m /\ (m = 0 \/ s <= a).
Proof.
  intros P Cv. induction n as [|n IH]; intros s; [exists s, 0; split; [reflexivity|lia]|]. cbn [seq filter]. destruct (IH (S s)) as (a & m & E & L). destruct (P s) eqn:Ps.
  - destruct m as [|m]; [exists s, 1; rewrite E; split; [reflexivity|lia]|]. assert (a = S s).
    { assert (A : In a (filter P (seq (S s) n))) by (rewrite E; left; reflexivity). apply filter_In in A. destruct A as [A1 A2]. apply in_seq in A1.
      destruct (Nat.eq_dec a (S s)) as [|Ne]; [assumption|exfalso]. assert (B : In (S s) (filter P (seq (S s) n))) by (apply filter_In; split; [apply in_seq; lia|apply (Cv s (S s) a); [lia|assumption|assumption]]). rewrite E in B. apply in_seq in B. lia. }
    subst a. exists s, (S (S m)). rewrite E. split; [reflexivity|lia].
  - exists a, m. split; [exact E|]. destruct L; [left; assumption|right; lia].
Qed.
Lemma filter_map_comm : forall A B (f : A -> B) P l, filter P (map f l) = map f (filter (fun x => P (f x)) l).
Proof. induction l as [|x l IH]; [reflexivity|]. cbn. rewrite IH. destruct (P (f x)); reflexivity. Qed.
Theorem C135_even : forall sm mjd0 dt len l lo hi i, generate_grid sm mjd0 dt len = Ok l -> 2 <= List.length (used lo hi i l) -> steady (used lo hi i l) /\
  forall k g h, nth_error (used lo hi i l) k = Some g -> nth_error (used lo hi i l) (S k) = Some h -> (g_mjd h - g_mjd g == day_of dt)%Q.
Proof.
  intros sm mjd0 dt len l lo hi i G L2. destruct (C135_times _ _ _ _ _ G) as (P & _). apply grid_rows in G. destruct G as (_ & E & _).
  assert (T : map r_mjd l = arange mjd0 (mjd0 + len * (36525 # 100)) (dt / 60 / 24)) by (rewrite E; apply rows_times). clear E.
  assert (D : (dt / 60 / 24 == day_of dt)%Q) by (unfold day_of; field). assert (Dp : (0 < day_of dt)%Q) by (apply day_pos, P).
  assert (F : exists a m, map g_mjd (used lo hi i l) = map (fun k => mjd0 + inject_Z (Z.of_nat k) * (dt / 60 / 24))%Q (seq a m)).
  { unfold used. assert (M : map g_mjd (filter (in_range lo hi) (map (field_of i) l)) = filter (fun t => Qle_bool lo t && Qle_bool t hi) (map r_mjd l)).
    { clear. induction l as [|r l IH]; [reflexivity|]. cbn [map filter]. unfold in_range at 1. cbn [g_mjd field_of]. destruct (Qle_bool lo (r_mjd r) && Qle_bool (r_mjd r) hi); cbn [map g_mjd field_of]; rewrite IH; reflexivity. }
    rewrite M, T. unfold arange. destruct (Qle_bool (dt / 60 / 24) 0); [exists 0, 0; reflexivity|]. rewrite filter_map_comm.
    set (n := Z.to_nat _). destruct (filter_interval (fun k => Qle_bool lo (mjd0 + inject_Z (Z.of_nat k) * (dt / 60 / 24)) && Qle_bool (mjd0 + inject_Z (Z.of_nat k) * (dt / 60 / 24)) hi)) with (n := n) (s := 0) as (a & m & Fa & _); [|exists a, m; rewrite Fa; reflexivity].
    intros x y z R X Z. rewrite andb_true_iff, !Qle_bool_iff in *. rewrite D in *. assert (inject_Z (Z.of_nat x) * day_of dt <= inject_Z (Z.of_nat y) * day_of dt)%Q by (apply Qmult_le_compat_r; [rewrite <- Zle_Qle; lia|lra]). assert (inject_Z (Z.of_nat y) * day_of dt <= inject_Z (Z.of_nat z) * day_of dt)%Q by (apply Qmult_le_compat_r; [rewrite <- Zle_Qle; lia|lra]). lra. }
  destruct F as (a & m & F).
  assert (N : forall k g, nth_error (used lo hi i l) k = Some g -> (g_mjd g == mjd0 + inject_Z (Z.of_nat (a + k)) * day_of dt)%Q).
  { intros k g H. apply (f_equal (fun x => nth_error x k)) in F. rewrite !nth_error_map, H in F. cbn [option_map] in F. destruct (nth_error (seq a m) k) as [j|] eqn:J; [|discriminate]. cbn [option_map] in F. injection F as F. rewrite F, D.
    assert (K : k < m) by (assert (k < List.length (seq a m)) by (apply nth_error_Some; congruence); rewrite seq_length in H0; exact H0). apply nth_error_nth with (d := 0) in J. rewrite seq_nth in J by exact K. subst j. reflexivity. }
  assert (C : forall k g h, nth_error (used lo hi i l) k = Some g -> nth_error (used lo hi i l) (S k) = Some h -> (g_mjd h - g_mjd g == day_of dt)%Q).
  { intros k g h H1 H2. apply N in H1, H2. rewrite H1, H2. replace (a + S k) with (S (a + k)) by lia. rewrite Nat2Z.inj_succ, <- Z.add_1_r, inject_Z_plus. change (inject_Z 1) with 1%Q. ring. }
  split; [|exact C]. destruct (used lo hi i l) as [|g [|h r]] eqn:U; [cbn in L2; lia|cbn in L2; lia|]. exists g, h, r. split; [reflexivity|]. pose proof (C 0 g h eq_refl eq_refl) as C0. split; [lra|].
  intros k x y H1 H2. pose proof (C k x y H1 H2). lra.
Qed.

(** A row of a time the sky model knows has its sun, moon and phase, and in the dark its
    airmass and sky at each location with the depth these give, whatever came before. *)
Theorem C135_night : forall sm mjd0 dt len l r s i, generate_grid sm mjd0 dt len = Ok l -> In r l -> at_ (r_mjd r) = Some s ->
  r_sun r = k_sun s /\ r_moon r = k_moon s /\ r_phase r = k_phase s /\ r_rise r = rise (r_mjd r) /\
  ((k_sun s <= limit)%Q -> r_air r i = k_air s i /\ r_sky r i = k_mag s i /\
    forall a b, k_air s i = Some a -> k_mag s i = Some b -> (0 < a)%Q -> r_m5 r i = EFin (m5 b a)).
Proof.
  intros sm mjd0 dt len l r s i G I A. apply grid_rows in G. destruct G as (_ & -> & _). apply rows_in in I. destruct I as (q & E). unfold step in E. rewrite A in E. rewrite E. cbn [row_of r_sun r_moon r_phase r_rise r_air r_sky r_m5].
  repeat (split; [reflexivity|]). intros L. assert (N : Qltb limit (k_sun s) = false) by (unfold Qltb; apply negb_false_iff, Qle_bool_iff; exact L). unfold zeroed. rewrite N. split; [reflexivity|]. split; [reflexivity|].
  intros a b Ha Hb P. rewrite Ha, Hb. unfold depth. destruct (Qeq_bool a 0) eqn:Z; [apply Qeq_bool_eq in Z; lra|]. assert (X : Qltb a 0 = false) by (unfold Qltb; apply negb_false_iff, Qle_bool_iff; lra). rewrite X. reflexivity.
Qed.

(** With the sun above the limit, or at a time the sky model refuses, no field has a depth. *)
Theorem C135_day : forall sm mjd0 dt len l r i x, (limit < 12)%Q -> generate_grid sm mjd0 dt len = Ok l -> In r l ->
  (at_ (r_mjd r) = None \/ exists s, at_ (r_mjd r) = Some s /\ (limit < k_sun s)%Q) -> r_m5 r i <> EFin x.
Proof.
  intros sm mjd0 dt len l r i x L G I H. apply grid_rows in G. destruct G as (_ & -> & _). apply rows_in in I. destruct I as (q & E). set (s := step at_ left q (r_mjd r)) in *.
  assert (Dy : Qltb limit (k_sun s) = true). { unfold Qltb. apply negb_true_iff. destruct (Qle_bool (k_sun s) limit) eqn:B; [|reflexivity]. apply Qle_bool_iff in B. exfalso. subst s. unfold step in B. destruct H as [A|[s [A U]]]; rewrite A in B; [cbn in B|]; lra. }
  rewrite E. cbn [row_of r_m5]. rewrite Dy. unfold zeroed, depth. destruct (k_mag s i), (k_air s i); cbn; discriminate.
Qed.

(** So whatever times are scheduled with this grid, through the whole sequence the sky model
    knows them, the sun is down to both limits, the field is up and below the limit of
    airmass, its depth from the sky and airmass then is at the limit asked at least, and the
    moon keeps its limits. *)
Theorem C135_scheduled : forall sm mjd0 dt len l lo hi i night ra start D mjds oc sched t h,
  (limit < 12)%Q -> generate_grid sm mjd0 dt len = Ok l -> 2 <= List.length (used lo hi i l) ->
  optimize night ra start D (used lo hi i l) = Ok (mjds, oc, sched) -> In t mjds -> In h (used lo hi i l) -> (t <= g_mjd h <= t + d_seq D / 1440)%Q ->
  (lo <= g_mjd h <= hi)%Q /\ exists s a b, at_ (g_mjd h) = Some s /\ (k_sun s <= limit)%Q /\ (k_sun s < d_sun D)%Q /\ k_air s i = Some a /\ (0 < a < d_air D)%Q /\ k_mag s i = Some b /\
  (forall x, d_depth D = Some x -> (x <= m5 b a)%Q) /\ (forall x, d_mlt D = Some x -> (k_phase s <= x)%Q) /\ (forall x, d_mgt D = Some x -> (x <= k_phase s)%Q).
Proof.
  intros sm mjd0 dt len l lo hi i night ra start D mjds oc sched t h L G N2 O It Ih R.
  destruct (C135_even _ _ _ _ _ lo hi i G N2) as [St _]. destruct (C95_safe _ _ _ _ _ _ _ _ St O t It) as [_ S]. specialize (S h Ih R).
  unfold used in Ih. apply filter_In in Ih. destruct Ih as [Ih Rg]. unfold in_range in Rg. apply andb_true_iff in Rg. rewrite !Qle_bool_iff in Rg. split; [exact Rg|]. apply in_map_iff in Ih. destruct Ih as (r & <- & Ir). cbn [field_of g_mjd] in *.
  destruct S as (S1 & S2 & _ & (m & M & Md) & _ & S5 & S6). cbn [field_of g_sun g_air g_m5 g_moon] in *.
  destruct (at_ (r_mjd r)) as [s|] eqn:A; [|exfalso; exact (C135_day _ _ _ _ _ r i m L G Ir (or_introl A) M)].
  assert (U : (k_sun s <= limit)%Q). { destruct (Qlt_le_dec limit (k_sun s)) as [U|U]; [|exact U]. exfalso. exact (C135_day _ _ _ _ _ r i m L G Ir (or_intror (ex_intro _ s (conj A U))) M). }
  destruct (C135_night _ _ _ _ _ r s i G Ir A) as (E1 & E2 & E3 & _ & E4). specialize (E4 U). destruct E4 as (E4 & E5 & E6).
  apply grid_rows in G. destruct G as (_ & El & _). subst l. apply rows_in in Ir. destruct Ir as (q & Er). unfold step in Er. rewrite A in Er.
  assert (Dp : r_m5 r i = depth m5 (k_mag s i) (k_air s i)). { rewrite Er. cbn [row_of r_m5]. assert (N : Qltb limit (k_sun s) = false) by (unfold Qltb; apply negb_false_iff, Qle_bool_iff; exact U). unfold zeroed. rewrite N. reflexivity. }
  rewrite M in Dp. unfold depth in Dp. destruct (k_mag s i) as [b|] eqn:B; [|discriminate]. destruct (k_air s i) as [a|] eqn:Aa; [|discriminate].
  destruct (Qeq_bool a 0) eqn:Z; [discriminate|]. destruct (Qltb a 0) eqn:Z2; [discriminate|]. injection Dp as Dp. subst m.
  assert (Pa : (0 < a)%Q). { apply Qeq_bool_neq in Z. unfold Qltb in Z2. apply negb_false_iff, Qle_bool_iff in Z2. destruct (Qlt_le_dec 0 a) as [Y|Y]; [exact Y|]. exfalso. apply Z. apply Qle_antisym; assumption. }
  exists s, a, b. split; [reflexivity|]. split; [exact U|]. split; [apply (proj2 S1); rewrite E1; reflexivity|]. split; [exact Aa|]. split; [split; [exact Pa|apply (proj2 S2); rewrite E4; reflexivity]|]. split; [exact B|]. split; [exact Md|].
  split; [intros x X; apply (proj2 (S5 x X)); rewrite E3; reflexivity|intros x X; apply (proj2 (S6 x X)); rewrite E3; reflexivity].
Qed.

(** Refuted: the sun altitude of every row is that of the sun.  A time the sky model refuses
    has 12 radians, which no altitude is. *)
Theorem C135_sun_refuted : forall sm mjd0 dt len l r, generate_grid sm mjd0 dt len = Ok l -> In r l -> at_ (r_mjd r) = None -> r_sun r = 12%Q.
Proof.
  intros sm mjd0 dt len l r G I A. apply grid_rows in G. destruct G as (_ & -> & _). apply rows_in in I. destruct I as (q & E). rewrite E. unfold step. rewrite A. reflexivity.
Qed.
(** Refuted: the moon of every row is that of its time.  A refused call that leaves the model
    as it was gives the moon of the row before. *)
Theorem C135_moon_refuted : forall sm mjd0 dt len l k r r', (forall s t, left s t = s) -> generate_grid sm mjd0 dt len = Ok l ->
  nth_error l k = Some r -> nth_error l (S k) = Some r' -> at_ (r_mjd r') = None -> r_phase r' = r_phase r /\ r_moon r' = r_moon r.
Proof.
  intros sm mjd0 dt len l k r r' Lf G. apply grid_rows in G. destruct G as (_ & -> & _). set (ts := arange _ _ _). clearbody ts. revert sm k. induction ts as [|t ts IH]; intros sm k; [destruct k; discriminate|].
  destruct k as [|k]; cbn [DdfGrid.rows nth_error]; [|apply IH]. destruct ts as [|u ts]; [discriminate|]. cbn [DdfGrid.rows]. intros E1 E2 A. injection E1 as <-. injection E2 as <-. cbn [row_of r_phase r_moon r_mjd] in *. assert (X : forall s, k_phase (step at_ left s u) = k_phase s /\ k_moon (step at_ left s u) = k_moon s) by (intros s; unfold step; rewrite A, Lf; split; reflexivity). apply X.
Qed.
End Grid.
Print Assumptions C135_times.
Print Assumptions C135_even.
Print Assumptions C135_night.
Print Assumptions C135_day.
Print Assumptions C135_scheduled.
Print Assumptions C135_sun_refuted.
Print Assumptions C135_moon_refuted.

(** A night in two rows and a day that the model refuses. *)
Definition w_at (t : Q) : option sky := if Qle_bool t (1 # 100) then Some (mkSky (- (1 # 2)) (3 # 10) 40 (fun _ => Some (12 # 10)) (fun _ => Some 22))%Q else None.
Definition w_grid := generate_grid w_at (fun s _ => s) (fun t => t + 1)%Q (fun s a => s + 1 - a)%Q (- (1 # 5)) (mkSky 0 0 0 (fun _ => None) (fun _ => None)) 0%Q (72 # 5) (4 # 36525).
Example C135_ex : match w_grid with
  | Ok l => map (fun r => (Qred (r_mjd r), Qred (r_sun r), Qred (r_phase r), r_m5 r 0)) l = [(0, - (1 # 2), 40, EFin (22 + 1 - (12 # 10))); ((1 # 100), - (1 # 2), 40, EFin (22 + 1 - (12 # 10))); ((1 # 50), 12, 40, EPInf); ((3 # 100), 12, 40, EPInf)]%Q
  | Raise _ => False end.
Proof. vm_compute. reflexivity. Qed.
(** A grid of a row every thirty days, from which two nights are scheduled. *)
Definition v_at (t : Q) : option sky := Some (mkSky (-1) 0 0 (fun _ => Some (12 # 10)) (fun _ => Some (22 + (t - Props_Ddf.w_start) / 3000)))%Q.
Example C135_scheduled_ex : exists l cum sched, generate_grid v_at (fun s _ => s) (fun t => t + 1)%Q (fun s a => s + 3 - a)%Q (- (1 # 5)) (mkSky 0 0 0 (fun _ => None) (fun _ => None)) Props_Ddf.w_start 43200 (40000 # 36525) = Ok l /\
  List.length (used Props_Ddf.w_start 70000 2 l) = 14 /\
  optimize Qfloor Feat.ref_sun Props_Ddf.w_start (w_set 2 0 (3 # 10) false) (used Props_Ddf.w_start 70000 2 l) = Ok (map (fun k => Props_Ddf.w_start + inject_Z k * (43200 / 60 / 24))%Q [4; 9]%Z, Some cum, sched).
Proof. do 3 eexists. split; [reflexivity|]. split; vm_compute; reflexivity. Qed.
