(** C119: the plan of the deep drilling fields, its schedule and the stored copy. *)
From Coq Require Import List Bool QArith Qround ZArith String Lia Lqa Sorted.
From Verif Require Import Base IntRounded Blob Pointings SeasonBf Feat Script Ddf Ddf_proofs Props_Ddf Props_DdfGen LsstSurveys DdfSeq.
Import ListNotations.
Open Scope string_scope.
Open Scope list_scope.

Definition fields : list string := ["COSMOS"; "XMM_LSS"; "ELAISS1"; "ECDFS"; "EDFS_a"].
Definition seasons : list Z := [0; 1; 2; 3; 4; 5; 6; 7; 8; 9; 10]%Z.
Lemma seasons_all : forall s, In s seasons <-> (0 <= s <= 10)%Z.
Proof. intros s. simpl. lia. Qed.
(** The seasons in which a field is deep. *)
Definition deep (f : string) (s : Z) : Prop :=
  (f = "COSMOS" /\ (1 <= s <= 3)%Z) \/ (f = "XMM_LSS" /\ s = 4%Z) \/ (f = "ELAISS1" /\ s = 5%Z) \/ (f = "ECDFS" /\ s = 6%Z) \/ (f = "EDFS_a" /\ s = 1%Z).
Definition deepb (f : string) (s : Z) : bool :=
  (String.eqb f "COSMOS" && (1 <=? s)%Z && (s <=? 3)%Z) || (String.eqb f "XMM_LSS" && (s =? 4)%Z) || (String.eqb f "ELAISS1" && (s =? 5)%Z)
  || (String.eqb f "ECDFS" && (s =? 6)%Z) || (String.eqb f "EDFS_a" && (s =? 1)%Z).
Lemma deepb_deep : forall f s, deepb f s = true <-> deep f s.
Proof.
  intros f s. unfold deepb, deep. rewrite !orb_true_iff, !andb_true_iff, !String.eqb_eq, !Z.eqb_eq, !Z.leb_le. tauto.
Qed.
Definition of_season (f : string) (s : Z) : list cfg :=
  filter (fun c => String.eqb (c_name c) f && match c_season c with Some t => (t =? s)%Z | None => false end) define_ddf_seq.
Lemma of_season_in : forall f s c, In c (of_season f s) <-> In c define_ddf_seq /\ c_name c = f /\ c_season c = Some s.
Proof.
  intros f s c. unfold of_season. rewrite filter_In, andb_true_iff, String.eqb_eq. destruct (c_season c) as [t|]; [rewrite Z.eqb_eq|]; intuition congruence.
Qed.
(** Checked over the rows. *)
Lemma by_rows : forall P : cfg -> bool, forallb P define_ddf_seq = true -> forall c, In c define_ddf_seq -> P c = true.
Proof. intros P H. apply forallb_forall. exact H. Qed.
Lemma by_seasons : forall P : string -> Z -> bool, forallb (fun f => forallb (P f) seasons) fields = true -> forall f s, In f fields -> (0 <= s <= 10)%Z -> P f s = true.
Proof. intros P H f s F S'. rewrite forallb_forall in H. specialize (H f F). rewrite forallb_forall in H. apply H. apply seasons_all. exact S'. Qed.
Definition mem (f : string) (l : list string) : bool := existsb (String.eqb f) l.
Lemma mem_in : forall f l, mem f l = true <-> In f l.
Proof. intros f l. unfold mem. rewrite existsb_exists. split; [intros [x [I E]]; apply String.eqb_eq in E; now subst|intros I; exists f; split; [exact I|apply String.eqb_refl]]. Qed.
Definition asks (c : cfg) (b : string) : Prop := (0 < c_count c b)%nat.
Definition asksb (c : cfg) (b : string) : bool := Nat.ltb 0 (c_count c b).
Lemma asksb_asks : forall c b, asksb c b = true <-> asks c b.
Proof. intros. apply Nat.ltb_lt. Qed.

(** Rows are of the five fields, in the seasons 0 to 10, and every field has rows in each, for all six bands. *)
Theorem C119_seasons : forall c, In c define_ddf_seq -> In (c_name c) fields /\ exists s, c_season c = Some s /\ (0 <= s <= 10)%Z.
Proof.
  intros c I. pose proof (by_rows (fun c => mem (c_name c) fields && match c_season c with Some s => (0 <=? s)%Z && (s <=? 10)%Z | None => false end) ltac:(vm_compute; reflexivity) c I) as H.
  apply andb_true_iff in H. destruct H as [H1 H2]. split; [apply mem_in; exact H1|]. destruct (c_season c) as [s|]; [|discriminate H2]. exists s. split; [reflexivity|lia].
Qed.
Theorem C119_bands : forall f s b, In f fields -> (0 <= s <= 10)%Z -> In b bands6 -> exists c, In c define_ddf_seq /\ c_name c = f /\ c_season c = Some s /\ asks c b.
Proof.
  intros f s b F S' B. pose proof (by_seasons (fun f s => forallb (fun b => existsb (fun c => asksb c b) (of_season f s)) bands6) ltac:(vm_compute; reflexivity) f s F S') as H.
  rewrite forallb_forall in H. specialize (H b B). apply existsb_exists in H. destruct H as [c [C A]]. apply of_season_in in C. apply asksb_asks in A. exists c. tauto.
Qed.
(** The kinds of row: u alone, y alone, g with i on one parity of night, r with z on the other, and in the deep seasons all of griz. *)
Definition exactly (c : cfg) (bs : list string) : Prop := forall b, In b bands6 -> (asks c b <-> In b bs).
Definition exactlyb (c : cfg) (bs : list string) : bool := forallb (fun b => Bool.eqb (asksb c b) (mem b bs)) bands6.
Lemma exactlyb_ok : forall c bs, exactlyb c bs = true -> exactly c bs.
Proof. intros c bs H b B. unfold exactlyb in H. rewrite forallb_forall in H. specialize (H b B). apply eqb_prop in H. rewrite <- asksb_asks, <- mem_in, H. reflexivity. Qed.
Theorem C119_kinds : forall c s, In c define_ddf_seq -> c_season c = Some s ->
  (c_parity c = "None" /\ exactly c ["u"]) \/ (c_parity c = "None" /\ exactly c ["y"]) \/
  (c_parity c = "even" /\ exactly c ["g"; "i"] /\ c_count c "g" = c_count c "i") \/ (c_parity c = "odd" /\ exactly c ["r"; "z"] /\ c_count c "r" = c_count c "z") \/
  (c_parity c = "None" /\ exactly c ["g"; "r"; "i"; "z"] /\ deep (c_name c) s).
Proof.
  intros c s I S'. pose proof (by_rows (fun c => (String.eqb (c_parity c) "None" && exactlyb c ["u"]) || ((String.eqb (c_parity c) "None" && exactlyb c ["y"]) ||
    ((String.eqb (c_parity c) "even" && exactlyb c ["g"; "i"] && Nat.eqb (c_count c "g") (c_count c "i")) || ((String.eqb (c_parity c) "odd" && exactlyb c ["r"; "z"] && Nat.eqb (c_count c "r") (c_count c "z")) ||
    (String.eqb (c_parity c) "None" && exactlyb c ["g"; "r"; "i"; "z"] && match c_season c with Some s => deepb (c_name c) s | None => false end))))) ltac:(vm_compute; reflexivity) c I) as H.
  cbv beta in H. rewrite S' in H. rewrite !orb_true_iff, !andb_true_iff, !String.eqb_eq, !Nat.eqb_eq, deepb_deep in H.
  assert (E := exactlyb_ok c). intuition auto.
Qed.
(** Each band is in one row of a season, griz in a second one in the deep seasons. *)
Theorem C119_once : forall f s b, In f fields -> (0 <= s <= 10)%Z -> In b bands6 ->
  exists rows, NoDup (map c_count rows) /\ (forall c, In c rows <-> In c define_ddf_seq /\ c_name c = f /\ c_season c = Some s /\ asks c b) /\
  (List.length rows = if in_dec string_dec b ["u"; "y"] then 1 else if deepb f s then 2 else 1)%nat.
Proof.
  intros f s b F S' B. exists (filter (fun c => asksb c b) (of_season f s)).
  pose proof (by_seasons (fun f s => forallb (fun b => Nat.eqb (List.length (filter (fun c => asksb c b) (of_season f s))) (if in_dec string_dec b ["u"; "y"] then 1 else if deepb f s then 2 else 1)) bands6) ltac:(vm_compute; reflexivity) f s F S') as H.
  pose proof (by_seasons (fun f s => forallb (fun b => match filter (fun c => asksb c b) (of_season f s) with [_] => true | [c; d] => negb (Nat.eqb (c_count c b) (c_count d b)) | _ => false end) bands6) ltac:(vm_compute; reflexivity) f s F S') as D.
  rewrite forallb_forall in H, D. specialize (H b B). specialize (D b B). apply Nat.eqb_eq in H. split; [|split; [|exact H]].
  - destruct (filter _ _) as [|c [|d [|]]]; try discriminate D; [repeat constructor; simpl; tauto|]. simpl. constructor; [|repeat constructor; simpl; tauto].
    intros [E|[]]. rewrite E, Nat.eqb_refl in D. discriminate D.
  - intros c. rewrite filter_In, of_season_in, asksb_asks. tauto.
Qed.
(** A deep season asks for more visits in every band than any that is not deep. *)
Fixpoint asked_in (rows : list cfg) (b : string) : Q := match rows with [] => 0 | c :: l => (c_n c * inject_Z (Z.of_nat (c_count c b)) + asked_in l b)%Q end.
Theorem C119_deeper : forall f s g t b, In f fields -> In g fields -> (0 <= s <= 10)%Z -> (0 <= t <= 10)%Z -> In b bands6 -> deep f s -> ~ deep g t ->
  (2 * asked_in (of_season g t) b < asked_in (of_season f s) b)%Q.
Proof.
  intros f s g t b F G S' T B D N.
  pose proof (by_seasons (fun f s => forallb (fun b => if deepb f s then negb (Qle_bool (asked_in (of_season f s) b) 450) else Qle_bool (asked_in (of_season f s) b) 225) ["u"; "y"]) ltac:(vm_compute; reflexivity)) as H.
  pose proof (by_seasons (fun f s => forallb (fun b => if deepb f s then negb (Qle_bool (asked_in (of_season f s) b) 450) else Qle_bool (asked_in (of_season f s) b) 225) ["g"; "r"; "i"; "z"]) ltac:(vm_compute; reflexivity)) as H2.
  assert (X : forall f s, In f fields -> (0 <= s <= 10)%Z -> (if deepb f s then negb (Qle_bool (asked_in (of_season f s) b) 450) else Qle_bool (asked_in (of_season f s) b) 225) = true).
  { intros f' s' F' S''. specialize (H f' s' F' S''). specialize (H2 f' s' F' S''). rewrite forallb_forall in H, H2. simpl in B.
    destruct B as [B|[B|[B|[B|[B|[B|[]]]]]]]; subst b; [apply H|apply H2|apply H2|apply H2|apply H2|apply H]; simpl; tauto. }
  pose proof (X f s F S') as X1. pose proof (X g t G T) as X2. rewrite (proj2 (deepb_deep f s) D) in X1.
  destruct (deepb g t) eqn:E; [apply deepb_deep in E; contradiction|]. apply Qle_bool_iff in X2. apply negb_true_iff in X1.
  assert (450 < asked_in (of_season f s) b)%Q. { apply Qnot_le_lt. intros C. apply Qle_bool_iff in C. congruence. } lra.
Qed.

(** The Euclid field, deep in one season only, then asks for more than any other deep season in every band. *)
Theorem C119_euclid : forall f s b, In f fields -> (0 <= s <= 10)%Z -> In b bands6 -> deep f s -> f <> "EDFS_a" ->
  (5 * asked_in (of_season f s) b < 4 * asked_in (of_season "EDFS_a" 1) b)%Q.
Proof.
  intros f s b F S' B D N.
  pose proof (by_seasons (fun f s => forallb (fun b => negb (deepb f s) || String.eqb f "EDFS_a" || negb (Qle_bool (4 * asked_in (of_season "EDFS_a" 1) b) (5 * asked_in (of_season f s) b))) bands6) ltac:(vm_compute; reflexivity) f s F S') as H.
  rewrite forallb_forall in H. specialize (H b B). rewrite (proj2 (deepb_deep f s) D), (proj2 (String.eqb_neq _ _) N) in H. cbn [negb orb] in H. apply negb_true_iff in H.
  apply Qnot_le_lt. intros C. apply Qle_bool_iff in C. congruence.
Qed.
(** Every row has a limit of depth: 23.5 in g, 22.8 for the rows of alternate nights. *)
Theorem C119_depth : forall c, In c define_ddf_seq -> exists d, c_depth c = Some d /\ (d == if String.eqb (c_parity c) "None" then 47 # 2 else 114 # 5)%Q.
Proof.
  intros c I. pose proof (by_rows (fun c => match c_depth c with Some d => Qeq_bool d (if String.eqb (c_parity c) "None" then 47 # 2 else 114 # 5) | None => false end) ltac:(vm_compute; reflexivity) c I) as H.
  cbv beta in H. destruct (c_depth c) as [d|]; [|discriminate H]. exists d. split; [reflexivity|apply Qeq_bool_eq, H].
Qed.
Print Assumptions C119_euclid.
Print Assumptions C119_depth.

(** The schedule of the plan. *)
Section Schedule.
Variable night : Q -> Z.
Variable start : Q.
Variable ddfs : string -> option (Q * Q).
Variable rad : Q -> Q.
Variable grid : string -> list gpt.
Variable G : gset.
(** Every row has an answer of at most as many nights as asked, if the fields are known and the grid has at least two times. *)
Theorem C119_times : (forall f, In f fields -> ddfs f <> None) -> (forall c, In c define_ddf_seq -> exists n, span (dset_of G c) (grid (c_name c)) n) ->
  forall c, In c define_ddf_seq -> exists ts, row_times night start ddfs grid G c = Ok ts /\ (inject_Z (Z.of_nat (List.length ts)) <= c_n c)%Q /\ StronglySorted Z.lt (map night ts).
Proof.
  intros K Sp c I. destruct (C119_seasons c I) as [F [s [S' _]]]. destruct (Sp c I) as [n N]. destruct (ddfs (c_name c)) as [p|] eqn:E; [|exfalso; exact (K _ F E)].
  pose proof (by_rows (fun c => Qle_bool 0 (c_n c) && Qle_bool (inject_Z (Qround_even (c_n c))) (c_n c)) ltac:(vm_compute; reflexivity) c I) as B. apply andb_true_iff in B. destruct B as [B1 B2]. apply Qle_bool_iff in B1, B2.
  destruct (C96_sequences night start ddfs grid G c p s n E S' B1 N) as [ts [T [L S'']]]. exists ts. split; [exact T|]. split; [|exact S'']. apply Qle_trans with (inject_Z (Qround_even (c_n c))); [|exact B2]. rewrite <- Zle_Qle. exact L.
Qed.
(** The nights of g and i, and those of r and z, of the shorter sequences never meet. *)
Theorem C119_apart : forall c d ts us t u, In c define_ddf_seq -> In d define_ddf_seq -> c_parity c = "even" -> c_parity d = "odd" ->
  row_times night start ddfs grid G c = Ok ts -> row_times night start ddfs grid G d = Ok us -> In t ts -> In u us -> night t <> night u.
Proof. intros c d ts us t u _ _ P1 P2. apply C96_apart; assumption. Qed.
(** Visits in u are while the moon is below the limit for the whole sequence, those in y while it is above. *)
Theorem C119_moon : forall obs v h m, (forall name, steady (grid name)) -> generate night start ddfs rad grid G define_ddf_seq = Ok obs -> In v obs ->
  (s_band v = "u" \/ s_band v = "y") ->
  exists c, In c define_ddf_seq /\ (exists moon name, visit_of ddfs rad G c (s_mjd v) moon name v) /\
    (In h (grid (c_name c)) -> (s_mjd v <= g_mjd h <= s_mjd v + seq_days G c)%Q -> g_moon h = EFin m -> (s_band v = "u" -> (m <= q_illum G)%Q) /\ (s_band v = "y" -> (q_illum G <= m)%Q)).
Proof.
  intros obs v h m St Ge I Bd. destruct (C96_dark _ _ _ _ _ _ _ _ _ St Ge I) as [c [Ic [V [_ D]]]]. exists c. split; [exact Ic|]. split; [exact V|].
  intros Ih R M. specialize (D h Ih R). destruct D as [_ [_ [_ [_ [_ [D1 D2]]]]]]. destruct V as [moon [name V]].
  assert (A : asks c (s_band v)) by apply V.
  assert (O : forall b, In b bands6 -> b <> s_band v -> c_count c b = 0%nat).
  { destruct (C119_seasons c Ic) as [_ [s [S' _]]]. intros b B Ne. destruct (Nat.eq_dec (c_count c b) 0) as [E|E]; [exact E|exfalso]. assert (Ab : asks c b) by (unfold asks; lia).
    assert (Vb : In (s_band v) bands6) by (simpl; destruct Bd as [-> | ->]; tauto).
    destruct (C119_kinds c s Ic S') as [[_ X]|[[_ X]|[[_ [X _]]|[[_ [X _]]|[_ [X _]]]]]]; apply (X b B) in Ab; apply (X _ Vb) in A; simpl in Ab, A;
      destruct Bd as [Bd|Bd]; rewrite Bd in *; repeat (destruct A as [A|A]; [try discriminate A|]); try destruct A;
      repeat (destruct Ab as [Ab|Ab]; [try (rewrite Ab in Ne; congruence)|]); try destruct Ab; congruence. }
  split; intros Eb; rewrite Eb in *; [apply D1; [intros b B Ne; apply O; assumption|exact M]|apply D2; [intros b B Ne; apply O; assumption|exact A|exact M]].
Qed.
(** A double field takes one u visit more than asked. *)
Theorem C119_double_refuted : forall s t l pa pb, (2 <= s <= 9)%Z -> ddfs "EDFS_a" = Some pa -> ddfs "EDFS_b" = Some pb ->
  exists c, In c define_ddf_seq /\ c_name c = "EDFS_a" /\ c_season c = Some s /\ c_count c "u" = 3%nat /\ (band_visits ddfs rad G c t "u" = Ok l -> List.length l = 4%nat).
Proof.
  intros s t l pa pb S' A B. exists (row "EDFS_a" s (nth 0 shallow_squences (Sequence [] 0 0 0 0 None))).
  split. { unfold define_ddf_seq. apply in_or_app. right. apply in_or_app. left. unfold rows_of. apply in_flat_map. exists ("EDFS_a", [2; 3; 4; 5; 6; 7; 8; 9]%Z). split; [simpl; tauto|].
    apply in_flat_map. exists s. split; [simpl; lia|]. simpl. tauto. }
  split; [reflexivity|]. split; [reflexivity|]. split; [reflexivity|]. unfold band_visits. cbn [row c_name nth shallow_squences]. rewrite A. change (has "EDFS" "EDFS_a") with true. cbv iota. change (a_to_b "EDFS_a") with "EDFS_b". rewrite B.
  intros E. injection E as <-. reflexivity.
Qed.
End Schedule.

(** Rows that ask for more nights of one parity than their season has. *)
Fixpoint run (a : Z) (n : nat) : list Z := match n with O => [] | S n => a :: run (a + 1)%Z n end.
Lemma run_half : forall n a, (List.length (filter Z.odd (run a n)) <= Nat.div2 (S n) /\ List.length (filter Z.even (run a n)) <= Nat.div2 (S n))%nat.
Proof.
  assert (G : forall n a, (List.length (filter Z.odd (run a n)) <= Nat.div2 (if Z.odd a then S n else n) /\ List.length (filter Z.even (run a n)) <= Nat.div2 (if Z.odd a then n else S n))%nat).
  { induction n as [|n IH]; intros a; [simpl; destruct (Z.odd a); simpl; lia|]. specialize (IH (a + 1)%Z). cbn [run filter]. rewrite Z.odd_add in IH. rewrite <- (Z.negb_odd a). destruct (Z.odd a); cbn [xorb negb] in *; cbn [List.length]; change (Z.odd 1) with true in IH; cbn in IH |- *; lia. }
  intros n a. specialize (G n a). assert (Nat.div2 n <= Nat.div2 (S n))%nat. { rewrite !Nat.div2_div. apply Nat.div_le_mono; lia. } destruct (Z.odd a); lia.
Qed.
Theorem C119_nights_refuted : forall f s, deep f s -> exists c d, In c define_ddf_seq /\ In d define_ddf_seq /\ c_name c = f /\ c_name d = f /\ c_season c = Some s /\ c_season d = Some s /\
  c_parity c = "even" /\ c_parity d = "odd" /\
  forall first parity, parity = Z.odd \/ parity = Z.even -> (inject_Z (Z.of_nat (List.length (filter parity (run first (Z.to_nat (Qfloor (c_len c))))))) < c_n c)%Q /\ (inject_Z (Z.of_nat (List.length (filter parity (run first (Z.to_nat (Qfloor (c_len d))))))) < c_n d)%Q.
Proof.
  intros f s D.
  assert (F : In f fields) by (unfold deep in D; simpl; intuition auto). assert (S' : (0 <= s <= 10)%Z) by (unfold deep in D; lia).
  pose proof (by_seasons (fun f s => negb (deepb f s) || (existsb (fun c => String.eqb (c_parity c) "even" && Qeq_bool (c_n c) 200 && Qeq_bool (c_len c) 225) (of_season f s) && existsb (fun c => String.eqb (c_parity c) "odd" && Qeq_bool (c_n c) 200 && Qeq_bool (c_len c) 225) (of_season f s))) ltac:(vm_compute; reflexivity) f s F S') as H.
  cbv beta in H. rewrite (proj2 (deepb_deep f s) D) in H. cbn [negb orb] in H. apply andb_true_iff in H. destruct H as [H1 H2]. apply existsb_exists in H1, H2. destruct H1 as [c [C P]], H2 as [d [D' P']].
  apply of_season_in in C, D'. rewrite !andb_true_iff, String.eqb_eq, !Qeq_bool_iff in P, P'. exists c, d.
  assert (L : forall c, (c_len c == 225)%Q -> Z.to_nat (Qfloor (c_len c)) = Z.to_nat 225) by (intros e E; rewrite E; reflexivity).
  repeat (split; [tauto|]). intros first parity Pr. rewrite (L c), (L d) by tauto.
  destruct P as [[_ P] _], P' as [[_ P'] _]. rewrite P, P'.
  assert (forall a, (inject_Z (Z.of_nat (List.length (filter Z.odd (run a (Z.to_nat 225))))) < 200)%Q) by (intros a; destruct (run_half (Z.to_nat 225) a) as [U _]; change 200%Q with (inject_Z 200); rewrite <- Zlt_Qlt; assert (Nat.div2 (S (Z.to_nat 225)) = 113)%nat by (vm_compute; reflexivity); lia).
  assert (forall a, (inject_Z (Z.of_nat (List.length (filter Z.even (run a (Z.to_nat 225))))) < 200)%Q) by (intros a; destruct (run_half (Z.to_nat 225) a) as [_ U]; change 200%Q with (inject_Z 200); rewrite <- Zlt_Qlt; assert (Nat.div2 (S (Z.to_nat 225)) = 113)%nat by (vm_compute; reflexivity); lia).
  destruct Pr as [-> | ->]; split; auto.
Qed.
(** The deep griz sequences last longer than the shadow of 30 minutes that is to cover them. *)
Theorem C119_shadow_refuted : forall G f s, deep f s -> (forall b, In b bands6 -> (30 <= q_expt G b)%Q /\ (1 <= q_snaps G b)%Z) -> (q_over G == 2)%Q ->
  exists c, In c define_ddf_seq /\ c_name c = f /\ c_season c = Some s /\ (30 * 60 < seq_seconds G c)%Q.
Proof.
  intros G f s D Ex Ov. assert (F : In f fields) by (unfold deep in D; simpl; intuition auto). assert (S' : (0 <= s <= 10)%Z) by (unfold deep in D; lia).
  pose proof (by_seasons (fun f s => negb (deepb f s) || existsb (fun c => Nat.leb 50 (c_count c "i") && Nat.leb 50 (c_count c "z")) (of_season f s)) ltac:(vm_compute; reflexivity) f s F S') as H.
  cbv beta in H. rewrite (proj2 (deepb_deep f s) D) in H. cbn [negb orb] in H.
  assert (H' : exists c, In c (of_season f s) /\ (50 <= c_count c "i")%nat /\ (50 <= c_count c "z")%nat).
  { apply existsb_exists in H; destruct H as [c [C P]]; exists c; rewrite !andb_true_iff, !Nat.leb_le in P; tauto. }
  destruct H' as [c [C [P1 P2]]]. apply of_season_in in C. exists c. repeat (split; [tauto|]). unfold seq_seconds. cbn [fold_left bands6].
  assert (V : forall b, In b bands6 -> (32 <= q_expt G b + q_over G * inject_Z (q_snaps G b))%Q).
  { intros b B. destruct (Ex b B) as [E1 E2]. rewrite Ov. assert (1 <= inject_Z (q_snaps G b))%Q by (change 1%Q with (inject_Z 1); rewrite <- Zle_Qle; exact E2). lra. }
  assert (W : forall b, In b bands6 -> (0 <= (q_expt G b + q_over G * inject_Z (q_snaps G b)) * inject_Z (Z.of_nat (c_count c b)))%Q).
  { intros b B. apply Qmult_le_0_compat; [specialize (V b B); lra|]. change 0%Q with (inject_Z 0). rewrite <- Zle_Qle. lia. }
  assert (I50 : forall n, (50 <= n)%nat -> (50 <= inject_Z (Z.of_nat n))%Q) by (intros n N; change 50%Q with (inject_Z 50); rewrite <- Zle_Qle; lia).
  assert (Y : forall b, In b bands6 -> (50 <= c_count c b)%nat -> (1600 <= (q_expt G b + q_over G * inject_Z (q_snaps G b)) * inject_Z (Z.of_nat (c_count c b)))%Q).
  { intros b B N. specialize (V b B). specialize (I50 _ N). set (x := (q_expt G b + q_over G * inject_Z (q_snaps G b))%Q) in *. set (y := inject_Z (Z.of_nat (c_count c b))) in *. clearbody x y. nra. }
  pose proof (W "u" ltac:(simpl; tauto)). pose proof (W "g" ltac:(simpl; tauto)). pose proof (W "r" ltac:(simpl; tauto)). pose proof (W "y" ltac:(simpl; tauto)).
  pose proof (Y "i" ltac:(simpl; tauto) P1). pose proof (Y "z" ltac:(simpl; tauto) P2). lra.
Qed.

(** The stored schedule: whatever calls were made before, into the same files, by this code or another, each call gets what its code makes of its arguments. *)
Section Stored.
Variables K H A : Type.
Variable same : K -> K -> bool.
Variable heqb : H -> H -> bool.
Theorem C119_stored : forall make : H -> K -> res A, (forall h k l, same k l = true -> make h k = make h l) -> (forall g h, heqb g h = true -> g = h) ->
  forall calls, schedules same heqb make calls (fun _ => None) = map (fun hc => make (fst hc) (c_args (snd hc))) calls.
Proof.
  intros make Sm He calls.
  assert (Gn : forall calls fs, (forall p s, fs p = Some s -> make (st_hash s) (st_args s) = Ok (st_array s)) -> schedules same heqb make calls fs = map (fun hc => make (fst hc) (c_args (snd hc))) calls).
  { clear calls. induction calls as [|[h c] calls IH]; intros fs Inv; [reflexivity|]. cbn [schedules map fst snd]. unfold schedule.
    destruct (fs (c_path c)) as [s|] eqn:E.
    - destruct (heqb (st_hash s) h && same (c_args c) (st_args s)) eqn:B.
      + apply andb_true_iff in B. destruct B as [B1 B2]. apply He in B1. rewrite (IH fs Inv). f_equal. rewrite <- (Inv _ _ E), B1. symmetry. apply Sm. exact B2.
      + destruct (make h (c_args c)) as [a|e] eqn:M; [|now rewrite (IH fs Inv)]. rewrite IH; [reflexivity|]. destruct (c_save c); [|exact Inv].
        intros p t. unfold write. destruct (String.eqb p (c_path c)); [intros T; injection T as <-; exact M|apply Inv].
    - destruct (make h (c_args c)) as [a|e] eqn:M; [|now rewrite (IH fs Inv)]. rewrite IH; [reflexivity|]. destruct (c_save c); [|exact Inv].
      intros p t. unfold write. destruct (String.eqb p (c_path c)); [intros T; injection T as <-; exact M|apply Inv]. }
  apply Gn. discriminate.
Qed.
(** The checksum is of two files of code only: when the grid, the locations or the almanac change, the old schedule is kept. *)
Theorem C119_stored_refuted : forall (E : Type) (make : E -> K -> res A) (h : H) old new k path a, heqb h h = true -> same k k = true -> make old k = Ok a -> make new k <> Ok a ->
  let fs := snd (schedule same heqb (make old) h (Call path true k) (fun _ => None)) in
  fst (schedule same heqb (make new) h (Call path true k) fs) = Ok a /\ fst (schedule same heqb (make new) h (Call path true k) fs) <> make new k.
Proof.
  intros E make h old new k path a Hh Kk O N fs. subst fs. unfold schedule at 2 4. cbn [c_path c_args c_save]. rewrite O. cbn [snd]. unfold schedule, write. cbn [c_path c_args c_save]. rewrite String.eqb_refl. cbn [st_hash st_args st_array]. rewrite Hh, Kk.
  cbn [andb fst]. split; [reflexivity|congruence].
Qed.
End Stored.

(** The masks cover at least the shadow asked for in either way, at the resolution of the survey when no dictionary is given. *)
Theorem C119_masks : forall nside shadow safety, exists lo hi a b x, In (AltAzShadowMask (match safety with None => nside | Some p => dflt DEFAULT_NSIDE (p_nside p) end) lo hi a b x) (ddf_masks nside shadow safety) /\
  (shadow <= x)%Q /\ forall y, (exists p, safety = Some p /\ p_shadow p = Some y) -> (y <= x)%Q.
Proof.
  intros nside shadow safety. unfold ddf_masks. destruct safety as [p|].
  - cbn [base_params]. destruct (p_shadow p) as [y|] eqn:E.
    + destruct (Qle_bool shadow y) eqn:L.
      * apply Qle_bool_iff in L. do 5 eexists. split; [unfold safety_masks; apply in_or_app; left; right; right; right; left; reflexivity|]. rewrite E. cbn [dflt]. split; [exact L|]. intros z [q [Q Z']]. injection Q as <-. rewrite E in Z'. injection Z' as <-. apply Qle_refl.
      * do 5 eexists. split; [unfold safety_masks; apply in_or_app; left; right; right; right; left; reflexivity|]. cbn [dflt with_shadow p_shadow]. split; [apply Qle_refl|]. intros z [q [Q Z']]. injection Q as <-. rewrite E in Z'. injection Z' as <-.
        apply Qlt_le_weak, Qnot_le_lt. intros C. apply Qle_bool_iff in C. congruence.
    + do 5 eexists. split; [unfold safety_masks; apply in_or_app; left; right; right; right; left; reflexivity|]. cbn [dflt with_shadow p_shadow]. split; [apply Qle_refl|]. intros z [q [Q Z']]. injection Q as <-. congruence.
  - cbn [base_params]. do 5 eexists. split; [unfold safety_masks; apply in_or_app; left; right; right; right; left; reflexivity|]. cbn [dflt with_shadow p_shadow with_nside none]. split; [apply Qle_refl|]. intros z [q [Q _]]. discriminate Q.
Qed.

(** The plan has 227 rows; COSMOS is deep in its season 2. *)
Example C119_ex_rows : List.length define_ddf_seq = Z.to_nat 227 /\ map c_n (of_season "COSMOS" 2) = [75; 75; 200; 200; 110]%Q /\ map (fun c => c_count c "i") (of_season "COSMOS" 2) = [0; 0; 2; 0; 55]%nat.
Proof. vm_compute. repeat split. Qed.
Example C119_ex_deep : deep "COSMOS" 2 /\ ~ deep "XMM_LSS" 2 /\ (asked_in (of_season "COSMOS" 2) "g" == 840)%Q /\ (asked_in (of_season "XMM_LSS" 2) "g" == 200)%Q.
Proof. unfold deep. split; [left; split; [reflexivity|lia]|]. split; [intros X; repeat (destruct X as [X|X]; [destruct X; discriminate|]); destruct X; discriminate|]. split; vm_compute; reflexivity. Qed.
(** The plan over a grid of a dozen times: rows with times, an answer, and visits in u. *)
Definition ex_ddfs (f : string) : option (Q * Q) := if mem f ("EDFS_b" :: fields) then Some (ref_sun, 0)%Q else None.
Example C119_ex_times : (forall f, In f fields -> ex_ddfs f <> None) /\ (forall c, In c define_ddf_seq -> exists n, span (dset_of e_G c) w_grid n) /\
  row_times Qfloor w_start ex_ddfs (fun _ => w_grid) e_G (hd (mkCfg "" 0 0 0 (fun _ => 0%nat) "" None None) (of_season "ECDFS" 0)) = Ok [61030; 61090; 61120; 61150; 61180; 61210; 61240]%Q.
Proof.
  split; [intros f F; unfold ex_ddfs; rewrite (proj2 (mem_in f ("EDFS_b" :: fields)) (or_intror F)); discriminate|]. split; [|vm_compute; reflexivity].
  intros c _. assert (exists n, mask_steps (dset_of e_G c) w_grid = Ok n) as [n N] by (eexists; reflexivity). exists n. apply span_steps. split; [exact N|]. exists (w_pt 0), (w_pt 1), (map w_pt (seq 2 12)). split; reflexivity.
Qed.
Example C119_ex_moon : steady w_grid /\ exists obs v, generate Qfloor w_start ex_ddfs (fun x => x / 57)%Q (fun _ => w_grid) e_G define_ddf_seq = Ok obs /\ In v obs /\ s_band v = "u".
Proof. split; [exact w_steady|]. do 2 eexists. split; [vm_compute; reflexivity|]. split; [left; reflexivity|reflexivity]. Qed.
Example C119_ex_stored : schedules Nat.eqb Nat.eqb (fun h k => Ok (10 * h + k)%nat) [(1%nat, Call "a" true 2%nat); (1%nat, Call "a" true 2%nat); (2%nat, Call "a" false 2%nat); (1%nat, Call "a" true 3%nat); (1%nat, Call "a" true 2%nat)] (fun _ => None)
  = [Ok 12; Ok 12; Ok 22; Ok 13; Ok 12]%nat.
Proof. reflexivity. Qed.
Example C119_ex_masks : exists lo hi a b, In (AltAzShadowMask 64 lo hi a b 45) (ddf_masks 64 45 None).
Proof. do 4 eexists. unfold ddf_masks, safety_masks. apply in_or_app. left. right. right. right. left. reflexivity. Qed.

Print Assumptions C119_seasons.
Print Assumptions C119_bands.
Print Assumptions C119_kinds.
Print Assumptions C119_once.
Print Assumptions C119_deeper.
Print Assumptions C119_times.
Print Assumptions C119_apart.
Print Assumptions C119_moon.
Print Assumptions C119_double_refuted.
Print Assumptions C119_nights_refuted.
Print Assumptions C119_shadow_refuted.
Print Assumptions C119_stored.
Print Assumptions C119_stored_refuted.
Print Assumptions C119_masks.
