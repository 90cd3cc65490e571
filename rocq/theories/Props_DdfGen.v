(** C96: the prescheduled deep drilling visits are those of the configured sequences at their times. *)
From Coq Require Import List ZArith QArith Qround Bool String Lia Lqa Sorted.
From Verif Require Import Base IntRounded Blob Pointings SeasonBf Feat Script Ddf Ddf_proofs Props_Ddf.
Import ListNotations.
Open Scope nat_scope.

(** ** What a sequence should hold *)
Section Spec.
Variable ddfs : string -> option (Q * Q).
Variable rad : Q -> Q.
Variable G : gset.
Definition edfs (c : cfg) : bool := has "EDFS" (c_name c).
(** A visit of a row at a time: limits, exposure and position of its field.  [moon] is the limit
    on the distance of the moon. *)
Definition visit_of (c : cfg) (t : Q) (moon : Q) (name : string) (v : sobs) : Prop :=
  s_note v = substring 0 60 ("DD:" ++ name) /\ s_mjd v = t /\ s_tol v = q_tol G /\ s_flush v = (t + c_flush c)%Q /\
  In (s_band v) bands6 /\ 0 < c_count c (s_band v) /\ s_exptime v = q_expt G (s_band v) /\ s_nexp v = q_snaps G (s_band v) /\
  s_alt_min v = q_amin G /\ s_alt_max v = q_amax G /\ s_ha_min v = q_hamin G /\ s_ha_max v = q_hamax G /\ s_sun_alt_max v = q_sun G /\
  s_moon_min v = moon /\ s_done v = false /\ exists p, ddfs name = Some p /\ s_ra v = rad (fst p) /\ s_dec v = rad (snd p).
Definition in_band (b : string) (l : list sobs) : nat := List.length (filter (fun v => String.eqb (s_band v) b) l).
End Spec.

Section Facts.
Variable night : Q -> Z.
Variable start : Q.
Variable ddfs : string -> option (Q * Q).
Variable rad : Q -> Q.
Variable grid : string -> list gpt.
Variable G : gset.
Lemma filter_repeat : forall A (p : A -> bool) x n, filter p (repeat x n) = if p x then repeat x n else [].
Proof. intros A p x. induction n as [|n IH]; cbn; [destruct (p x); reflexivity|]. rewrite IH. destruct (p x); reflexivity. Qed.
Lemma band_of : forall b, In b bands6 -> substring 0 1 b = b.
Proof. intros b I. cbn in I. repeat (destruct I as [<-|I]; [reflexivity|]). contradiction. Qed.
Lemma band_part : forall c t b l, In b bands6 -> band_visits ddfs rad G c t b = Ok l ->
  Forall (fun v => s_band v = b /\ if edfs c then visit_of ddfs rad G c t 0 (c_name c) v \/ visit_of ddfs rad G c t (q_moon G) (a_to_b (c_name c)) v else visit_of ddfs rad G c t (q_moon G) (c_name c) v) l /\
  List.length l = (if edfs c then 2 * Nat.div (c_count c b + 1) 2 else c_count c b) /\
  forall b', in_band b' l = if String.eqb b b' then List.length l else 0.
Proof.
  intros c t b l Ib H. pose proof (band_of b Ib) as Eb. assert (Cnt : forall n name at_ moon b', in_band b' (repeat (visit rad G name b at_ t (c_flush c) moon) n) = if String.eqb b b' then n else 0).
  { intros n name at_ moon b'. unfold in_band. rewrite filter_repeat. unfold visit. cbn [s_band]. unfold trunc. rewrite Eb. destruct (String.eqb b b'); [apply repeat_length|reflexivity]. }
  assert (Vis : forall n name p moon, ddfs name = Some p -> 0 < c_count c b -> Forall (fun v => s_band v = b /\ visit_of ddfs rad G c t moon name v) (repeat (visit rad G name b p t (c_flush c) moon) n)).
  { intros n name p moon Ep Pc. apply Forall_forall. intros v Iv. apply repeat_spec in Iv. subst v. unfold visit, visit_of, trunc. cbn. cbn in Eb. rewrite Eb. split; [reflexivity|]. repeat (split; [try reflexivity; try assumption|]). exists p. repeat split; assumption. }
  unfold band_visits in H. destruct (ddfs (c_name c)) as [pa|] eqn:Ea; [|discriminate]. fold (edfs c) in H. destruct (edfs c) eqn:Ed.
  - destruct (ddfs (a_to_b (c_name c))) as [pb|] eqn:Epb; [|discriminate]. injection H as <-. unfold half_up. set (k := Nat.div (c_count c b + 1) 2). assert (K : k = 0 \/ 0 < c_count c b) by (unfold k; destruct (c_count c b); [left; reflexivity|right; lia]). split; [|split].
    + destruct K as [->|K]; [constructor|]. apply Forall_app. split; eapply Forall_impl; try (apply (Vis _ _ _ _ Ea K)); try (apply (Vis _ _ _ _ Epb K)); cbn beta; intros v [A B]; (split; [exact A|]); [left|right]; exact B.
    + rewrite app_length, !repeat_length. lia.
    + intros b'. rewrite app_length, !repeat_length. unfold in_band. rewrite filter_app, app_length. fold (in_band b' (repeat (visit rad G (c_name c) b pa t (c_flush c) 0) k)). fold (in_band b' (repeat (visit rad G (a_to_b (c_name c)) b pb t (c_flush c) (q_moon G)) k)). rewrite !Cnt. destruct (String.eqb b b'); lia.
  - injection H as <-. split; [|split].
    + destruct (c_count c b) as [|n] eqn:En; [constructor|]. apply Vis; [exact Ea|lia].
    + apply repeat_length.
    + intros b'. rewrite repeat_length. apply Cnt.
Qed.
Lemma bands6_nodup : NoDup bands6.
Proof. repeat constructor; cbn; intros X; repeat (destruct X as [X|X]; [discriminate|]); exact X. Qed.
Lemma in_band_app : forall b l r, in_band b (l ++ r) = in_band b l + in_band b r.
Proof. intros b l r. unfold in_band. rewrite filter_app, app_length. reflexivity. Qed.
Lemma seq_part : forall c t bs ls, NoDup bs -> incl bs bands6 -> Forall2 (fun b l => band_visits ddfs rad G c t b = Ok l) bs ls ->
  Forall (fun v => if edfs c then visit_of ddfs rad G c t 0 (c_name c) v \/ visit_of ddfs rad G c t (q_moon G) (a_to_b (c_name c)) v else visit_of ddfs rad G c t (q_moon G) (c_name c) v) (List.concat ls) /\
  forall b, in_band b (List.concat ls) = if in_dec String.string_dec b bs then (if edfs c then 2 * Nat.div (c_count c b + 1) 2 else c_count c b) else 0.
Proof.
  intros c t bs ls Nd Inc F. induction F as [|b l bs ls H F IH]; [split; [constructor|intros b; reflexivity]|]. inversion Nd as [|x y N1 N2]; subst. destruct IH as [I1 I2]; [exact N2|intros z Iz; apply Inc; right; exact Iz|]. destruct (band_part c t b l (Inc b (or_introl eq_refl)) H) as (A & B & C). cbn [List.concat]. split.
  - apply Forall_app. split; [|exact I1]. eapply Forall_impl; [|exact A]. intros v [_ V]. exact V.
  - intros b'. rewrite in_band_app, C, I2, B. destruct (String.eqb_spec b b') as [->|N].
    + destruct (in_dec string_dec b' bs) as [X|X]; [contradiction|]. destruct (in_dec string_dec b' (b' :: bs)) as [Y|Y]; [lia|exfalso; apply Y; left; reflexivity].
    + destruct (in_dec string_dec b' bs) as [X|X], (in_dec string_dec b' (b :: bs)) as [Y|Y]; try reflexivity; exfalso; [apply Y; right; exact X|destruct Y as [Y|Y]; contradiction].
Qed.
End Facts.
Lemma Forall2_weaken : forall A B (P Q : A -> B -> Prop) l r, (forall x y, P x y -> Q x y) -> Forall2 P l r -> Forall2 Q l r.
Proof. intros A B P Q l r H F. induction F; constructor; auto. Qed.
Lemma bind_ok : forall A B (x : res A) (f : A -> res B) y, bind x f = Ok y -> exists a, x = Ok a /\ f a = Ok y.
Proof. intros A B [a|e] f y H; [exists a; split; [reflexivity|exact H]|discriminate]. Qed.

(** A part per row and time: nothing but visits of the row at the time, of the configured number
    in each band; for a double field, as many in each of the two parts together, rounded up. *)
Theorem C96_visits : forall night start ddfs rad grid G cs obs, generate night start ddfs rad grid G cs = Ok obs ->
  exists partss, obs = List.concat (map (@List.concat sobs) partss) /\
  Forall2 (fun c parts => exists ts, row_times night start ddfs grid G c = Ok ts /\
    Forall2 (fun t part =>
      (forall v, In v part -> if has "EDFS" (c_name c) then visit_of ddfs rad G c t 0 (c_name c) v \/ visit_of ddfs rad G c t (q_moon G) (a_to_b (c_name c)) v
                              else visit_of ddfs rad G c t (q_moon G) (c_name c) v) /\
      forall b, In b bands6 -> in_band b part = if has "EDFS" (c_name c) then 2 * Nat.div (c_count c b + 1) 2 else c_count c b) ts parts) cs partss.
Proof.
  intros night start ddfs rad grid G cs obs H. unfold generate in H. apply bind_ok in H. destruct H as (l & C & H). apply bind_ok in H. destruct H as (tss & C2 & H). destruct (forallb _ tss); [discriminate|]. assert (E : obs = List.concat l) by congruence. subst obs. clear H C2 tss. apply collect_spec in C.
  assert (X : exists partss, l = map (@List.concat sobs) partss /\ Forall2 (fun c parts => exists ts, row_times night start ddfs grid G c = Ok ts /\
    Forall2 (fun t part => (forall v, In v part -> if has "EDFS" (c_name c) then visit_of ddfs rad G c t 0 (c_name c) v \/ visit_of ddfs rad G c t (q_moon G) (a_to_b (c_name c)) v else visit_of ddfs rad G c t (q_moon G) (c_name c) v) /\
      forall b, In b bands6 -> in_band b part = if has "EDFS" (c_name c) then 2 * Nat.div (c_count c b + 1) 2 else c_count c b) ts parts) cs partss).
  { induction C as [|c row cs l H C IH]; [exists []; split; [reflexivity|constructor]|]. destruct IH as (ps & -> & IH). unfold row_visits in H. apply bind_ok in H. destruct H as (ts & Et & H). apply bind_ok in H. destruct H as (parts & Ec & H). assert (row = List.concat parts) by congruence. subst row. exists (parts :: ps). split; [reflexivity|]. constructor; [|exact IH].
    exists ts. split; [exact Et|]. apply collect_spec in Ec. eapply Forall2_weaken; [|exact Ec]. cbn beta. intros t part Hp. apply bind_ok in Hp. destruct Hp as (ls & El & Hp). assert (part = List.concat ls) by congruence. subst part. apply collect_spec in El. destruct (seq_part ddfs rad G c t bands6 ls bands6_nodup (incl_refl _) El) as [A B]. split.
    - intros v Iv. rewrite Forall_forall in A. apply A. exact Iv.
    - intros b Ib. rewrite (B b). destruct (in_dec string_dec b bands6) as [_|N]; [reflexivity|contradiction]. }
  destruct X as (ps & -> & X). exists ps. split; [reflexivity|exact X].
Qed.
Print Assumptions C96_visits.

(** ** Examples *)
Definition e_G : gset := mkGset (1 # 96) (4 # 10) (15 # 10) 21 3 (-3 # 10) (4 # 10) 2 40 (fun b => if String.eqb b "u" then 38 else 30)%Q (fun b => if String.eqb b "u" then 1 else 2)%Z (-3 # 10).
Definition e_ddfs (s : string) : option (Q * Q) :=
  if String.eqb s "COSMOS" then Some (ref_sun, 2%Q) else if String.eqb s "EDFS_a" then Some (ref_sun, (-48)%Q) else if String.eqb s "EDFS_b" then Some ((ref_sun + 1)%Q, (-47)%Q) else None.
Definition e_row (name : string) (n : Q) (par : string) (f : string -> nat) : cfg := mkCfg name 219 n 2 f par (Some (47 # 2)) (Some 0%Z).
Definition e_gen (cs : list cfg) := generate Qfloor w_start e_ddfs (fun x => x / 57)%Q (fun _ => w_grid) e_G cs.
Definition only_r (n : nat) (b : string) : nat := if String.eqb b "r" then n else 0.
Example C96_ex_visits : exists obs, e_gen [e_row "COSMOS" 2 "None" (fun b => if String.eqb b "g" then 2 else only_r 3 b); e_row "COSMOS" 1 "odd" (only_r 1)] = Ok obs /\
  map s_mjd obs = map (fun z => inject_Z z) [61060; 61060; 61060; 61060; 61060; 61210; 61210; 61210; 61210; 61210; 61120]%Z.
Proof. eexists. split; [vm_compute; reflexivity|vm_compute; reflexivity]. Qed.

(** ** Times *)
(** The length of a sequence in days: exposures and the overhead of each snap. *)
Definition seq_days (G : gset) (c : cfg) : Q := (fold_right (fun b a => (q_expt G b + q_over G * inject_Z (q_snaps G b)) * inject_Z (Z.of_nat (c_count c b)) + a) 0 bands6 / 86400)%Q.
Lemma seq_days_eq : forall G c, (d_seq (dset_of G c) / 1440 == seq_days G c)%Q.
Proof. intros G c. unfold dset_of, seq_days, seq_seconds, bands6. cbn [d_seq fold_left fold_right]. field. Qed.
Lemma in_obs : forall night start ddfs rad grid G cs obs v, generate night start ddfs rad grid G cs = Ok obs -> In v obs ->
  exists c ts, In c cs /\ row_times night start ddfs grid G c = Ok ts /\ In (s_mjd v) ts /\ exists moon name, visit_of ddfs rad G c (s_mjd v) moon name v.
Proof.
  intros night start ddfs rad grid G cs obs v H I. destruct (C96_visits _ _ _ _ _ _ _ _ H) as (partss & -> & F). clear H. apply in_concat in I. destruct I as (row & I & Iv). apply in_map_iff in I. destruct I as (parts & <- & I). apply in_concat in Iv. destruct Iv as (part & Ip & Iv).
  assert (X : exists c, In c cs /\ exists ts, row_times night start ddfs grid G c = Ok ts /\ Forall2 (fun t part => (forall v, In v part -> if has "EDFS" (c_name c) then visit_of ddfs rad G c t 0 (c_name c) v \/ visit_of ddfs rad G c t (q_moon G) (a_to_b (c_name c)) v else visit_of ddfs rad G c t (q_moon G) (c_name c) v) /\ forall b, In b bands6 -> in_band b part = if has "EDFS" (c_name c) then 2 * Nat.div (c_count c b + 1) 2 else c_count c b) ts parts).
  { clear - F I. induction F as [|c ps cs pss Hc F IH]; [contradiction|]. destruct I as [<-|I]; [exists c; split; [left; reflexivity|exact Hc]|]. destruct (IH I) as (c' & I' & E). exists c'. split; [right; exact I'|exact E]. }
  destruct X as (c & Ic & ts & Et & F2). assert (Y : exists t, In t ts /\ if has "EDFS" (c_name c) then visit_of ddfs rad G c t 0 (c_name c) v \/ visit_of ddfs rad G c t (q_moon G) (a_to_b (c_name c)) v else visit_of ddfs rad G c t (q_moon G) (c_name c) v).
  { clear - F2 Ip Iv. induction F2 as [|t p ts ps [Hp _] F2 IH]; [contradiction|]. destruct Ip as [<-|Ip]; [exists t; split; [left; reflexivity|apply Hp; exact Iv]|]. destruct (IH Ip) as (t' & I' & E). exists t'. split; [right; exact I'|exact E]. }
  destruct Y as (t & It & V). assert (Z : exists moon name, visit_of ddfs rad G c t moon name v) by (destruct (has "EDFS" (c_name c)); [destruct V as [V|V]|]; do 2 eexists; exact V). destruct Z as (moon & name & Z). assert (M : s_mjd v = t) by apply Z. exists c, ts. rewrite M. repeat (split; [assumption|]). exists moon, name. exact Z.
Qed.
(** Through the sequence of every visit it is dark, the field low enough in airmass and deep
    enough, on the nights and moons of its row. *)
Theorem C96_dark : forall night start ddfs rad grid G cs obs v, (forall name, steady (grid name)) -> generate night start ddfs rad grid G cs = Ok obs -> In v obs ->
  exists c, In c cs /\ (exists moon name, visit_of ddfs rad G c (s_mjd v) moon name v) /\ (exists g, In g (grid (c_name c)) /\ g_mjd g = s_mjd v) /\
  forall h, In h (grid (c_name c)) -> (s_mjd v <= g_mjd h <= s_mjd v + seq_days G c)%Q ->
    (forall s, g_sun h = EFin s -> (s < q_sunlim G)%Q) /\ (forall a, g_air h = EFin a -> (a < 5 # 2)%Q) /\ (exists m, g_m5 h = EFin m /\ forall l, c_depth c = Some l -> (l <= m)%Q) /\
    (c_parity c = "even"%string -> Z.odd (night (g_mjd h)) = true) /\ (c_parity c = "odd"%string -> Z.odd (night (g_mjd h)) = false) /\
    ((forall b, In b bands6 -> b <> "u"%string -> c_count c b = 0) -> forall m, g_moon h = EFin m -> (m <= q_illum G)%Q) /\
    ((forall b, In b bands6 -> b <> "y"%string -> c_count c b = 0) -> 0 < c_count c "y" -> forall m, g_moon h = EFin m -> (q_illum G <= m)%Q).
Proof.
  intros night start ddfs rad grid G cs obs v St H I. destruct (in_obs _ _ _ _ _ _ _ _ _ H I) as (c & ts & Ic & Et & It & V). exists c. split; [exact Ic|]. split; [exact V|]. unfold row_times in Et. destruct (ddfs (c_name c)) as [p|]; [|discriminate]. apply bind_ok in Et. destruct Et as ([[mjds oc] sched] & Eo & E). cbn [fst] in E. assert (mjds = ts) by congruence. subst mjds.
  destruct (C95_safe _ _ _ _ _ _ _ _ (St _) Eo _ It) as [A B]. split; [exact A|]. intros h Ih R. assert (R' : (s_mjd v <= g_mjd h <= s_mjd v + d_seq (dset_of G c) / 1440)%Q) by (rewrite seq_days_eq; exact R). destruct (B h Ih R') as (W1 & W2 & _ & W4 & W5 & W6 & W7). split; [apply W1|]. split; [apply W2|]. split; [exact W4|]. split; [|split; [|split]].
  - intros Ev. apply W5. unfold dset_of. rewrite Ev. reflexivity.
  - intros Ev. apply W5. unfold dset_of. rewrite Ev. reflexivity.
  - intros U m Em. assert (X : d_mlt (dset_of G c) = Some (q_illum G)).
    { unfold dset_of. cbn [d_mlt]. unfold total, bands6. cbn [fold_left]. rewrite !(U "g"%string), !(U "r"%string), !(U "i"%string), !(U "z"%string), !(U "y"%string) by (try discriminate; cbn; tauto). rewrite !Nat.add_0_r. cbn [plus]. rewrite Nat.eqb_refl. reflexivity. }
    apply (proj2 (W6 _ X)). exact Em.
  - intros U Py m Em. assert (X : d_mgt (dset_of G c) = Some (q_illum G)).
    { unfold dset_of. cbn [d_mgt]. unfold total, bands6. cbn [fold_left]. rewrite !(U "g"%string), !(U "r"%string), !(U "i"%string), !(U "z"%string), !(U "u"%string) by (try discriminate; cbn; tauto). cbn [plus]. destruct (Nat.eqb_spec (c_count c "y") 0) as [E0|_]; [lia|]. rewrite Nat.eqb_refl. reflexivity. }
    apply (proj2 (W7 _ X)). exact Em.
Qed.
Print Assumptions C96_dark.
Example C96_ex_dark : (forall name, steady ((fun _ : string => w_grid) name)) /\ exists obs v, e_gen [e_row "COSMOS" 1 "odd" (only_r 1)] = Ok obs /\ In v obs /\ s_mjd v = 61120%Q.
Proof. split; [intros _; exact w_steady|]. do 2 eexists. split; [vm_compute; reflexivity|]. split; [left; reflexivity|reflexivity]. Qed.

(** Rows marked even and odd share no night. *)
Theorem C96_apart : forall night start ddfs grid G c1 c2 ts1 ts2 t1 t2, c_parity c1 = "even"%string -> c_parity c2 = "odd"%string ->
  row_times night start ddfs grid G c1 = Ok ts1 -> row_times night start ddfs grid G c2 = Ok ts2 -> In t1 ts1 -> In t2 ts2 -> night t1 <> night t2.
Proof.
  assert (P : forall night start ddfs grid G c ts t b, d_parity (dset_of G c) = Some b -> row_times night start ddfs grid G c = Ok ts -> In t ts -> Z.odd (night t) = b).
  { intros night start ddfs grid G c ts t b Pa Et It. unfold row_times in Et. destruct (ddfs (c_name c)) as [p|]; [|discriminate]. apply bind_ok in Et. destruct Et as ([[mjds oc] sched] & Eo & E). cbn [fst] in E. assert (mjds = ts) by congruence. subst mjds.
    destruct (times_start _ _ _ _ _ _ _ _ Eo) as (n & _ & T). destruct (T t It) as (i & g & q & Eg & -> & _ & [_ Gs] & _). destruct (Gs i g) as (_ & _ & _ & _ & W & _); [lia|exact Eg|]. apply W. exact Pa. }
  intros night start ddfs grid G c1 c2 ts1 ts2 t1 t2 E1 E2 R1 R2 I1 I2 N. assert (A : Z.odd (night t1) = true) by (apply (P night start ddfs grid G c1 ts1 t1 true); [unfold dset_of; rewrite E1; reflexivity|exact R1|exact I1]). assert (B : Z.odd (night t2) = false) by (apply (P night start ddfs grid G c2 ts2 t2 false); [unfold dset_of; rewrite E2; reflexivity|exact R2|exact I2]). congruence.
Qed.
Print Assumptions C96_apart.

(** A row with a season asks for no more sequences than configured, and gets an answer. *)
Theorem C96_sequences : forall night start ddfs grid G c p o n, ddfs (c_name c) = Some p -> c_season c = Some o -> (0 <= c_n c)%Q -> span (dset_of G c) (grid (c_name c)) n ->
  exists ts, row_times night start ddfs grid G c = Ok ts /\ (Z.of_nat (List.length ts) <= Qround_even (c_n c))%Z /\ StronglySorted Z.lt (map night ts).
Proof.
  intros night start ddfs grid G c p o n Ep Es Hn Sp. assert (Ho : d_only (dset_of G c) = Some o) by exact Es. assert (Hb : d_boost (dset_of G c) = None) by reflexivity. assert (Hd : (0 <= d_rate (dset_of G c))%Q) by (unfold dset_of; cbn [d_rate]; destruct (has _ _); lra).
  destruct (C95_total_partial night (fst p) start (dset_of G c) (grid (c_name c)) o n Ho Hb Hn Hd Sp) as (mjds & oc & sched & E). exists mjds. unfold row_times. rewrite Ep, E. split; [reflexivity|]. split; [|exact (proj1 (C95_nights _ _ _ _ _ _ _ _ E))].
  assert (R0 : (0 <= Qround_even (c_n c))%Z) by (pose proof (round_even_mono 0 (c_n c) Hn) as X; exact X).
  destruct (optimize_inv _ _ _ _ _ _ _ _ E) as (m & _ & [->|(base & _ & _ & -> & _)]); [cbn; exact R0|].
  set (cum := scaled night (fst p) start (dset_of G c) (grid (c_name c)) m base) in *. destruct (C95_count_partial night (fst p) start (dset_of G c) (grid (c_name c)) o n mjds cum sched (filter (is_free night (dset_of G c) (grid (c_name c)) n) (used night (fst p) start (dset_of G c) (grid (c_name c)))) Ho Hb Hn Hd Sp) as (_ & B & _); [apply NoDup_filter, Blob_proofs.sorted_lt_nodup, used_sorted| |exact E|].
  { intros u. rewrite filter_In, (used_only _ _ _ _ _ o u Ho), is_free_iff. split; intros [A (i & g & X & Y & Z)]; (split; [exact A|]); exists i, g; (split; [exact X|]); (split; [exact Y|]); apply good_iff; exact Z. }
  destruct cum as [|x r] eqn:Ec; [|eapply Z.le_trans; [apply B; discriminate|]; apply Z.le_min_l].
  destruct (optimize_inv _ _ _ _ _ _ _ _ E) as (m' & _ & [->|(base' & _ & _ & Eq & M & F)]); [cbn; exact R0|]. injection Eq as Eq. rewrite <- Eq in M. unfold match_cumulative in M. cbn in M. assert (sched = []) by congruence. subst sched. apply Ddf_proofs.Forall2_len in F. rewrite <- F. destruct (used night (fst p) start (dset_of G c) (grid (c_name c))); cbn; exact R0.
Qed.
Print Assumptions C96_sequences.
Example C96_ex_apart : let rt := row_times (fun t => (Qfloor t / 30)%Z) w_start e_ddfs (fun _ => map (fun k => mkGpt (w_start + inject_Z (Z.of_nat k)) (EFin (-1)) (EFin 1) (EFin 22) (EFin 24) (EFin 0)) (seq 100 240)) e_G in
  exists t1 r1 t2 r2, rt (e_row "COSMOS" 2 "even" (only_r 3)) = Ok (t1 :: r1) /\ rt (e_row "COSMOS" 2 "odd" (only_r 3)) = Ok (t2 :: r2).
Proof. cbv zeta. do 4 eexists. split; vm_compute; reflexivity. Qed.
Example C96_ex_sequences : span (dset_of e_G (e_row "COSMOS" 2 "None" (only_r 3))) w_grid 1 /\ row_times Qfloor w_start e_ddfs (fun _ => w_grid) e_G (e_row "COSMOS" 2 "None" (only_r 3)) = Ok [61060%Q; 61210%Q].
Proof. split; [|vm_compute; reflexivity]. apply span_steps. split; [vm_compute; reflexivity|]. exists (w_pt 0), (w_pt 1), (map w_pt (seq 2 12)). split; reflexivity. Qed.

(** Answers and errors: known fields and some time give an answer; no time at all raises. *)
Lemma collect_ok_in : forall A B (f : A -> res B) l x, In x l -> forall r, collect f l = Ok r -> exists y, f x = Ok y /\ In y r.
Proof.
  intros A B f l x I r H. apply collect_spec in H. induction H as [|a y l r Hf F IH]; [contradiction|]. destruct I as [<-|I]; [exists y; split; [exact Hf|left; reflexivity]|]. destruct (IH I) as (z & Z1 & Z2). exists z. split; [exact Z1|right; exact Z2].
Qed.
Theorem C96_answers : forall night start ddfs rad grid G cs,
  (forall c, In c cs -> (exists ts, row_times night start ddfs grid G c = Ok ts) /\ (has "EDFS" (c_name c) = true -> ddfs (a_to_b (c_name c)) <> None)) ->
  ((exists c t ts, In c cs /\ row_times night start ddfs grid G c = Ok ts /\ In t ts) -> exists obs, generate night start ddfs rad grid G cs = Ok obs) /\
  ((forall c, In c cs -> row_times night start ddfs grid G c = Ok []) -> generate night start ddfs rad grid G cs = Raise ValueError).
Proof.
  intros night start ddfs rad grid G cs H. destruct (collect_total _ _ (row_times night start ddfs grid G) cs) as [tss Et]; [intros c I; apply (H c I)|].
  assert (Ev : exists l, collect (row_visits night start ddfs rad grid G) cs = Ok l).
  { apply collect_total. intros c I. destruct (H c I) as [[ts E] Ed]. unfold row_visits. rewrite E. cbn [bind]. destruct (collect_total _ _ (fun t => bind (collect (band_visits ddfs rad G c t) bands6) (fun l => Ok (List.concat l))) ts) as [l El].
    - intros t It. destruct (collect_total _ _ (band_visits ddfs rad G c t) bands6) as [l El]; [|rewrite El; eexists; reflexivity]. intros b _. unfold band_visits. unfold row_times in E. destruct (ddfs (c_name c)) as [p|]; [|discriminate]. destruct (has "EDFS" (c_name c)); [|eexists; reflexivity]. destruct (ddfs (a_to_b (c_name c))) as [pb|]; [eexists; reflexivity|exfalso; apply Ed; reflexivity].
    - rewrite El. eexists. reflexivity. }
  destruct Ev as [l Ev]. unfold generate. rewrite Ev. cbn [bind]. rewrite Et. cbn [bind]. split.
  - intros (c & t & ts & Ic & Ec & It). destruct (forallb _ tss) eqn:Fb; [|eexists; reflexivity]. exfalso. destruct (collect_ok_in _ _ _ _ c Ic _ Et) as (y & Ey & Iy). assert (y = ts) by congruence. subst y. rewrite forallb_forall in Fb. specialize (Fb ts Iy). destruct ts; [contradiction|discriminate].
  - intros All. destruct (forallb _ tss) eqn:Fb; [reflexivity|]. exfalso. assert (X : forallb (fun ts : list Q => match ts with [] => true | _ => false end) tss = true); [|congruence]. apply forallb_forall. intros ts Its. apply collect_spec in Et. clear - Et All Its. induction Et as [|c y cs r Hf F IH]; [contradiction|]. destruct Its as [<-|Its].
    + rewrite (All c (or_introl eq_refl)) in Hf. assert (y = []) by congruence. subst y. reflexivity.
    + apply IH; [|exact Its]. intros c' I'. apply All. right. exact I'.
Qed.
Print Assumptions C96_answers.
Example C96_ex_answers : row_times Qfloor w_start e_ddfs (fun _ => w_grid) e_G (e_row "COSMOS" 1 "even" (only_r 1)) = Ok [] /\ e_gen [e_row "COSMOS" 1 "even" (only_r 1)] = Raise ValueError.
Proof. split; vm_compute; reflexivity. Qed.

(** The first part of a double field may be observed next to the moon, and an odd number of visits
    gives one more. *)
Theorem C96_double_refuted : exists night start ddfs rad grid G c obs, (0 < q_moon G)%Q /\ generate night start ddfs rad grid G [c] = Ok obs /\ row_times night start ddfs grid G c = Ok [61060%Q; 61210%Q] /\
  (exists v, In v obs /\ s_note v = "DD:EDFS_a"%string /\ (s_moon_min v == 0)%Q) /\ (exists v, In v obs /\ s_note v = "DD:EDFS_b"%string /\ (s_moon_min v == q_moon G)%Q) /\
  c_count c "r" = 3 /\ in_band "r" obs = 2 * 4.
Proof.
  exists Qfloor, w_start, e_ddfs, (fun x => x / 57)%Q, (fun _ => w_grid), e_G, (e_row "EDFS_a" 2 "None" (only_r 3)). eexists. split; [reflexivity|]. split; [vm_compute; reflexivity|]. split; [vm_compute; reflexivity|]. split; [|split; [|split; [reflexivity|vm_compute; reflexivity]]].
  - eexists. split; [left; reflexivity|]. split; reflexivity.
  - eexists. split; [right; right; left; reflexivity|]. split; reflexivity.
Qed.
Print Assumptions C96_double_refuted.
(** More than the sequence: the same night may be given to two rows of the same field. *)
Theorem C96_clash_refuted : exists night start ddfs rad grid G c1 c2 obs, generate night start ddfs rad grid G [c1; c2] = Ok obs /\ c_name c1 = c_name c2 /\ c_season c1 = c_season c2 /\
  exists v w, In v obs /\ In w obs /\ s_band v <> s_band w /\ s_mjd v = s_mjd w /\ c_count c1 (s_band w) = 0 /\ c_count c2 (s_band v) = 0.
Proof.
  exists Qfloor, w_start, e_ddfs, (fun x => x / 57)%Q, (fun _ => w_grid), e_G, (e_row "COSMOS" 2 "None" (only_r 1)), (e_row "COSMOS" 2 "None" (fun b => if String.eqb b "i" then 1 else 0)). eexists. split; [vm_compute; reflexivity|]. split; [reflexivity|]. split; [reflexivity|].
  do 2 eexists. split; [left; reflexivity|]. split; [right; right; left; reflexivity|]. split; [cbn; discriminate|]. split; [reflexivity|]. split; reflexivity.
Qed.
Print Assumptions C96_clash_refuted.
