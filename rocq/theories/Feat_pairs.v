(** Proofs about PairInNight. *)
From Coq Require Import List ZArith QArith Qround Qabs Bool String Lia Lqa Sorted.
From Verif Require Import Base IntRounded IntRounded_proofs Core Script Surveys Surveys_proofs Feat Feat_proofs Feat_proofs2.
Import ListNotations.
Open Scope nat_scope.

(** ** Lists *)
Lemma nth_skip : forall A (l : list A) k j, nth_error (skipn k l) j = nth_error l (k + j).
Proof. induction l as [|x l IH]; intros [|k] j; cbn; auto. destruct j; reflexivity. Qed.
Lemma nth_first : forall A (l : list A) k j, nth_error (firstn k l) j = if Nat.ltb j k then nth_error l j else None.
Proof.
  induction l as [|x l IH]; intros k j.
  - rewrite firstn_nil. destruct j; cbn [nth_error]; destruct (Nat.ltb _ k); reflexivity.
  - destruct k as [|k]; [destruct j; reflexivity|]. destruct j as [|j]; [reflexivity|]. cbn [firstn nth_error]. rewrite IH. reflexivity.
Qed.
Lemma where_map : forall A B (g : A -> B) (p : B -> bool) l i, where_from p i (map g l) = where_from (fun x => p (g x)) i l.
Proof. induction l as [|x l IH]; intros i; cbn; [reflexivity|]. rewrite IH. reflexivity. Qed.
Lemma combine_maps : forall A B C (f : A -> B) (g : A -> C) l, combine (map f l) (map g l) = map (fun x => (f x, g x)) l.
Proof. induction l as [|x l IH]; cbn; [reflexivity|]. now rewrite IH. Qed.
Lemma where_above : forall A (p : A -> bool) l i k, In k (where_from p i l) -> i <= k.
Proof. intros A p l i k H. apply where_from_spec in H. destruct H as (j & x & -> & _). lia. Qed.
Lemma where_range : forall A (p : A -> bool) l i d k, In k (where_from p i l) -> hd d (where_from p i l) <= k <= last (where_from p i l) d.
Proof.
  intros A p l. induction l as [|x l IH]; intros i d k H; cbn in *; [destruct H|].
  destruct (p x); [|now apply IH]. cbn [hd]. destruct (where_from p (S i) l) as [|y r] eqn:E.
  - destruct H as [<-|[]]. cbn. lia.
  - rewrite <- E in *. destruct H as [<-|H].
    + split; [lia|]. assert (Y : In y (where_from p (S i) l)) by (rewrite E; now left).
      assert (L := IH (S i) d y Y). assert (G := where_above _ _ _ _ _ Y). rewrite E in *. change (last (i :: y :: r) d) with (last (y :: r) d). lia.
    + assert (L := IH (S i) d k H). assert (G := where_above _ _ _ _ _ H). rewrite E in *. change (last (i :: y :: r) d) with (last (y :: r) d). lia.
Qed.
Lemma last_in : forall A (l : list A) x, In (last (x :: l) x) (x :: l).
Proof. induction l as [|y l IH]; intros x; [now left|]. right. change (last (x :: y :: l) x) with (last (y :: l) x).
  assert (E : forall (r : list A) a b z, last (z :: r) a = last (z :: r) b) by (induction r as [|q r IHr]; intros a b z; [reflexivity|exact (IHr a b q)]).
  rewrite (E l x y). apply IH.
Qed.

(** The slice of a time-ordered log between the first and the last entry in range
    holds exactly the entries in range. *)
Lemma slice_exact : forall (log : list (Q * nat)) (gmin gmax t : Q) lft idx,
  StronglySorted (fun a b => (fst a <= fst b)%Q) log ->
  let P := fun e : Q * nat => Qltb gmin (t - fst e) && Qltb (t - fst e) gmax in
  np_where P log = lft :: idx ->
  forall x, is_pix x (map snd (firstn (S (last (lft :: idx) lft) - lft) (skipn lft log))) = existsb (fun e => Nat.eqb (snd e) x && P e) log.
Proof.
  intros log gmin gmax t lft idx S P W x. apply eq_true_iff_eq. rewrite is_pix_in, in_map_iff, existsb_exists.
  assert (RG : forall k, In k (np_where P log) -> lft <= k <= last (lft :: idx) lft).
  { intros k Hk. assert (R := where_range _ P log 0 lft k Hk). unfold np_where in W. rewrite W in R. exact R. }
  assert (HL : In lft (np_where P log)) by (rewrite W; now left).
  assert (HR : In (last (lft :: idx) lft) (np_where P log)) by (rewrite W; apply last_in).
  set (rt := last (lft :: idx) lft) in *. clearbody rt.
  split.
  - intros ([q y] & <- & Hi). apply In_nth_error in Hi. destruct Hi as (j & Hj). rewrite nth_first, nth_skip in Hj.
    destruct (Nat.ltb_spec j (Datatypes.S rt - lft)) as [Lj|]; [|discriminate]. exists (q, y). split; [eapply nth_error_In; eauto|].
    cbn [snd]. rewrite Nat.eqb_refl. cbn [andb].
    apply np_where_spec in HL, HR. destruct HL as (a & Ha & Pa). destruct HR as (b & Hb & Pb).
    assert (MONO : forall i j u v, i <= j -> nth_error log i = Some u -> nth_error log j = Some v -> (fst u <= fst v)%Q).
    { clear -S. induction S as [|z log S IH F]; intros i j u v Le Hu Hv; [destruct i; discriminate|].
      destruct i as [|i], j as [|j]; cbn in *; try lia.
      - injection Hu as ->. injection Hv as ->. apply Qle_refl.
      - injection Hu as ->. rewrite Forall_forall in F. apply F. eapply nth_error_In; eauto.
      - eapply IH; [|eauto|eauto]. lia. }
    assert (M1 := MONO lft (lft + j) a (q, y) ltac:(lia) Ha Hj). assert (M2 := MONO (lft + j) rt (q, y) b ltac:(lia) Hj Hb).
    unfold P in *. apply andb_true_iff in Pa, Pb. rewrite !Qltb_lt in Pa, Pb. apply andb_true_iff. rewrite !Qltb_lt. cbn [fst] in *. lra.
  - intros ([q y] & Hi & C). apply andb_true_iff in C. destruct C as [C1 C2]. apply Nat.eqb_eq in C1. cbn in C1. subst y.
    apply In_nth_error in Hi. destruct Hi as (k & Hk). assert (K : In k (np_where P log)) by (apply np_where_spec; eauto).
    apply RG in K. exists (q, x). split; [reflexivity|]. apply nth_error_In with (k - lft). rewrite nth_first, nth_skip.
    destruct (Nat.ltb_spec (k - lft) (Datatypes.S rt - lft)); [|lia]. now replace (lft + (k - lft)) with k by lia.
Qed.

(** ** What the counts mean *)
Section Pairs.
Variable bn : option string.
Variables gmin gmax : Q.
Definition gap_in (u v : fvis) : bool := Qltb gmin (fv_mjd v - fv_mjd u) && Qltb (fv_mjd v - fv_mjd u) gmax.
(** Visits of a list covering pixel [x] that follow a visit of the list to the same
    pixel at a gap in range. *)
Definition completes (x : nat) (l : list fvis) (i : nat) : bool :=
  match nth_error l i with
  | None => false
  | Some v => is_pix x (fv_pix v) && existsb (fun u => is_pix x (fv_pix u) && gap_in u v) (firstn i l)
  end.
Definition pairs (x : nat) (l : list fvis) : Z := count (completes x l) (seq 0 (List.length l)).
(** Visits of a night in the band. *)
Definition of_night (n : Z) (h : list fvis) : list fvis := filter (fun v => night_is n v && band_is bn v) h.

Lemma pairs_snoc : forall x l v, pairs x (l ++ [v]) =
  (pairs x l + if is_pix x (fv_pix v) && existsb (fun u => is_pix x (fv_pix u) && gap_in u v) l then 1 else 0)%Z.
Proof.
  intros x l v. unfold pairs. rewrite app_length. cbn [List.length]. rewrite Nat.add_1_r, seq_S, count_app. cbn [Nat.add].
  f_equal.
  - apply count_ext. intros i Hi. apply in_seq in Hi. unfold completes. rewrite nth_error_app1 by lia.
    rewrite firstn_app. replace (i - List.length l) with 0 by lia. cbn [firstn]. now rewrite app_nil_r.
  - rewrite count_cons. unfold completes. rewrite nth_error_app2, Nat.sub_diag by lia. cbn [nth_error].
    rewrite firstn_app, Nat.sub_diag, firstn_all. cbn [firstn]. rewrite app_nil_r. unfold count. cbn. lia.
Qed.

Definition log_of (l : list fvis) : list (Q * nat) := flat_map (fun v => map (pair (fv_mjd v)) (fv_pix v)) l.
Lemma log_of_app : forall a b, log_of (a ++ b) = log_of a ++ log_of b.
Proof. intros. unfold log_of. now rewrite flat_map_app. Qed.
Lemma log_in : forall l q x, In (q, x) (log_of l) <-> exists v, In v l /\ fv_mjd v = q /\ In x (fv_pix v).
Proof.
  intros l q x. unfold log_of. rewrite in_flat_map. split.
  - intros (v & Hv & H). apply in_map_iff in H. destruct H as (y & [= <- <-] & Hy). eauto.
  - intros (v & Hv & <- & Hx). exists v. split; [exact Hv|]. now apply in_map.
Qed.
Lemma log_sorted : forall l, chrono l -> StronglySorted (fun a b => (fst a <= fst b)%Q) (log_of l).
Proof.
  intros l H. induction H as [|v l H IH F]; [constructor|]. cbn [log_of flat_map]. fold (log_of l).
  induction (fv_pix v) as [|x r IHr]; cbn [map app]; [exact IH|]. constructor; [exact IHr|]. apply Forall_forall. intros [q y] Hy. cbn.
  apply in_app_or in Hy. destruct Hy as [Hy|Hy].
  - apply in_map_iff in Hy. destruct Hy as (z & [= <- <-] & _). apply Qle_refl.
  - apply log_in in Hy. destruct Hy as (u & Hu & <- & _). rewrite Forall_forall in F. apply (F u Hu).
Qed.

Definition pn_R (h : list fvis) (s : pnst) : Prop :=
  (filter (band_is bn) h = [] -> s = pn0) /\
  forall w, last_opt (filter (band_is bn) h) = Some w ->
    pn_night s = fv_night w /\ pn_log s = log_of (of_night (fv_night w) h) /\
    forall x, pn_map s x = pairs x (of_night (fv_night w) h).
Definition pn_C (h : list fvis) : Prop :=
  chrono h /\ (forall v, In v h -> band_ok bn v) /\
  forall u v, In u h -> In v h -> far (fv_mjd v - fv_mjd u) gmin /\ far (fv_mjd v - fv_mjd u) gmax.

Lemma of_night_later : forall h n w, chrono h -> last_opt (filter (band_is bn) h) = Some w -> (fv_night w < n)%Z -> of_night n h = [].
Proof.
  intros h n w Ch L Lt. unfold of_night. destruct (filter (fun v => night_is n v && band_is bn v) h) as [|v r] eqn:E; [reflexivity|]. exfalso.
  assert (I : In v (filter (fun v => night_is n v && band_is bn v) h)) by (rewrite E; now left).
  apply filter_In in I. destruct I as [I C]. apply andb_true_iff in C. destruct C as [C1 C2]. apply Z.eqb_eq in C1.
  assert (X := chrono_last_night _ w v (filter_chrono _ _ Ch) L ltac:(apply filter_In; auto)). lia.
Qed.
Lemma of_night_none : forall h n, filter (band_is bn) h = [] -> of_night n h = [].
Proof.
  intros h n H. unfold of_night. destruct (filter (fun v => night_is n v && band_is bn v) h) as [|v r] eqn:E; [reflexivity|]. exfalso.
  assert (I : In v (filter (fun v => night_is n v && band_is bn v) h)) by (rewrite E; now left).
  apply filter_In in I. destruct I as [I C]. apply andb_true_iff in C.
  assert (J : In v (filter (band_is bn) h)) by (apply filter_In; tauto). rewrite H in J. destruct J.
Qed.

Lemma pn_one_ok : forall h s v, pn_R h s -> pn_C (h ++ [v]) -> exists s', pn_single bn gmin gmax s v = Ok s' /\ pn_R (h ++ [v]) s'.
Proof.
  intros h s v [H0 H1] (Ch & B & F). unfold pn_single, pn_one. rewrite band_in_is by (apply B, in_last).
  destruct (band_is bn v) eqn:Bv.
  2: { exists s. split; [reflexivity|]. split.
    - rewrite filter_app. cbn. rewrite Bv, app_nil_r. exact H0.
    - rewrite filter_app. cbn. rewrite Bv, app_nil_r. intros w Hw. unfold of_night. rewrite filter_app. cbn. rewrite Bv, andb_false_r, app_nil_r.
      now apply H1. }
  apply chrono_app in Ch. destruct Ch as (Ch & _ & Up).
  assert (S1 : exists s1, (if (pn_night s =? fv_night v)%Z then s else mkPn (fv_night v) (fun _ => 0%Z) []) = s1 /\
     pn_night s1 = fv_night v /\ pn_log s1 = log_of (of_night (fv_night v) h) /\ forall x, pn_map s1 x = pairs x (of_night (fv_night v) h)).
  { eexists. split; [reflexivity|]. destruct (last_opt (filter (band_is bn) h)) as [w|] eqn:L.
    - destruct (H1 w eq_refl) as (N & G & M). destruct (Z.eqb_spec (pn_night s) (fv_night v)) as [E|D].
      + rewrite <- E, N. auto.
      + rewrite (of_night_later h (fv_night v) w Ch L); [cbn; auto|].
        destruct (last_opt_split _ _ _ L) as (r & Er).
        assert (I : In w (filter (band_is bn) h)) by (rewrite Er; apply in_last). apply filter_In in I.
        assert (X := proj2 (Up w v (proj1 I) (or_introl eq_refl))). lia.
    - apply last_opt_none in L. rewrite (of_night_none h _ L), (H0 L). cbn [pn0 pn_night].
      destruct (Z.eqb_spec 0 (fv_night v)) as [E|D]; cbn; auto. }
  destruct S1 as (s1 & -> & N1 & G1 & M1). cbv zeta.
  set (l := of_night (fv_night v) h) in *.
  assert (IL : forall u, In u l -> In u h) by (intros u Hu; apply filter_In in Hu; tauto).
  assert (FA : forall g, (forall u, In u h -> far (fv_mjd v - fv_mjd u) g) -> forall a, In a (map (fun e => (fv_mjd v - fst e)%Q) (pn_log s1)) -> far a g).
  { intros g Hg a Ha. apply in_map_iff in Ha. destruct Ha as ([q y] & <- & Hi). rewrite G1 in Hi. apply log_in in Hi. destruct Hi as (u & Hu & <- & _). cbn [fst]. auto. }
  unfold ir_gt, ir_lt.
  rewrite (cmp_scalar _ _ gmin) by (apply FA; intros u Hu; apply F; [apply in_or_app; now left|apply in_last]). cbn [bind].
  rewrite (cmp_scalar _ _ gmax) by (apply FA; intros u Hu; apply F; [apply in_or_app; now left|apply in_last]). cbn [bind].
  rewrite !map_map, combine_maps. unfold np_where. rewrite where_map. cbn [fst snd].
  set (P := fun e : Q * nat => Qltb gmin (fv_mjd v - fst e) && Qltb (fv_mjd v - fst e) gmax). fold (np_where P (pn_log s1)).
  eexists. split; [reflexivity|].
  assert (ON : of_night (fv_night v) (h ++ [v]) = l ++ [v]).
  { unfold of_night. rewrite filter_app. cbn. unfold night_is at 2. rewrite Z.eqb_refl, Bv. reflexivity. }
  assert (EX : forall x, existsb (fun e => Nat.eqb (snd e) x && P e) (pn_log s1) = existsb (fun u => is_pix x (fv_pix u) && gap_in u v) l).
  { intros x. apply eq_true_iff_eq. rewrite !existsb_exists, G1. split.
    - intros ([q y] & Hi & C). apply andb_true_iff in C. destruct C as [C1 C2]. apply Nat.eqb_eq in C1. cbn in C1. subst y.
      apply log_in in Hi. destruct Hi as (u & Hu & <- & Hx). exists u. split; [exact Hu|]. apply andb_true_iff. split; [now apply is_pix_in|exact C2].
    - intros (u & Hu & C). apply andb_true_iff in C. destruct C as [C1 C2]. exists (fv_mjd u, x). split.
      + apply log_in. exists u. split; [exact Hu|]. split; [reflexivity|now apply is_pix_in].
      + cbn [snd]. rewrite Nat.eqb_refl. exact C2. }
  split; [rewrite filter_app; cbn; rewrite Bv; intros X; apply app_eq_nil in X; destruct X; discriminate|].
  intros w. rewrite filter_app, last_opt_app. cbn [filter]. rewrite Bv. cbn [last_opt rev app hd_error]. intros [= <-].
  cbn [pn_night pn_log pn_map]. rewrite ON, N1, G1. split; [reflexivity|]. split.
  { rewrite log_of_app. cbn. now rewrite app_nil_r. }
  intros x. rewrite pairs_snoc. rewrite <- EX. rewrite <- G1.
  assert (SO : StronglySorted (fun a b => (fst a <= fst b)%Q) (pn_log s1)) by (rewrite G1; apply log_sorted, filter_chrono, Ch).
  destruct (np_where P (pn_log s1)) as [|lft idx] eqn:W.
  - rewrite M1. assert (N : existsb (fun e => Nat.eqb (snd e) x && P e) (pn_log s1) = false).
    { destruct (existsb _ _) eqn:E; [|reflexivity]. apply existsb_exists in E. destruct E as (e & He & C). apply andb_true_iff in C.
      apply In_nth_error in He. destruct He as (k & Hk). assert (K : In k (np_where P (pn_log s1))) by (apply np_where_spec; exists e; tauto).
      rewrite W in K. destruct K. }
    rewrite N, andb_false_r. lia.
  - unfold bump. rewrite is_pix_filter, (slice_exact (pn_log s1) gmin gmax (fv_mjd v) lft idx SO W x), M1. fold P.
    destruct (is_pix x (fv_pix v) && _); lia.
Qed.
Lemma pn0_R : pn_R [] pn0.
Proof. split; [reflexivity|]. intros w H. discriminate. Qed.

(** ** A batch from one night *)
Definition pn_batch (l : list fvis) : Prop :=
  l <> [] /\ (forall u v, In u l -> In v l -> fv_night u = fv_night v) /\
  StronglySorted (fun a b => (fv_id a < fv_id b)%Z) l /\
  forall v, In v l -> fv_pix v <> [] /\ one_char (fv_band v).

Lemma zins_head : forall z l, zins_u z (z :: l) = z :: l.
Proof. intros. cbn. rewrite Z.ltb_irrefl, Z.eqb_refl. reflexivity. Qed.
Lemma zins_less : forall z l, (forall y, In y l -> (z < y)%Z) -> zins_u z l = z :: l.
Proof. intros z [|y l] H; [reflexivity|]. cbn. assert (L := H y (or_introl eq_refl)). apply Z.ltb_lt in L. now rewrite L. Qed.
Lemma uids_rows : forall l, StronglySorted (fun a b => (fv_id a < fv_id b)%Z) l -> (forall v, In v l -> fv_pix v <> []) ->
  uids (map (fun r => fv_id (fst r)) (rows l)) = map fv_id l.
Proof.
  intros l S. induction S as [|v l S IH F]; intros N; [reflexivity|]. change (rows (v :: l)) with (map (pair v) (fv_pix v) ++ rows l).
  unfold uids in *. rewrite map_app, fold_right_app, IH by (intros u Hu; apply N; now right). rewrite map_map. cbn [fst map].
  assert (L : zins_u (fv_id v) (map fv_id l) = fv_id v :: map fv_id l).
  { apply zins_less. intros y Hy. apply in_map_iff in Hy. destruct Hy as (u & <- & Hu). rewrite Forall_forall in F. auto. }
  assert (G : fv_pix v <> []) by (apply N; now left).
  induction (fv_pix v) as [|x r IHr]; [tauto|]. cbn [map fold_right]. destruct r as [|y r']; [exact L|].
  rewrite IHr by discriminate. apply zins_head.
Qed.
Lemma where_pick : forall A (p : A -> bool) (l pre : list A),
  flat_map (fun k => match nth_error (pre ++ l) k with Some r => [r] | None => [] end) (where_from p (List.length pre) l) = filter p l.
Proof.
  intros A p. induction l as [|x l IH]; intros pre; [reflexivity|]. cbn [where_from filter].
  assert (E : pre ++ x :: l = (pre ++ [x]) ++ l) by (rewrite <- app_assoc; reflexivity).
  assert (IH' := IH (pre ++ [x])). rewrite app_length in IH'. cbn in IH'. rewrite Nat.add_1_r in IH'. rewrite E.
  destruct (p x); [|exact IH']. cbn [flat_map]. rewrite IH'. rewrite <- E, nth_error_app2, Nat.sub_diag by lia. reflexivity.
Qed.
Lemma rows_of_id : forall l v, StronglySorted (fun a b => (fv_id a < fv_id b)%Z) l -> In v l ->
  filter (fun r => (fv_id (fst r) =? fv_id v)%Z) (rows l) = map (pair v) (fv_pix v).
Proof.
  intros l v S. induction S as [|u l S IH F]; intros I; [destruct I|]. change (rows (u :: l)) with (map (pair u) (fv_pix u) ++ rows l).
  rewrite filter_app. rewrite Forall_forall in F. destruct I as [<-|I].
  - rewrite (filter_true _ _ (map (pair u) (fv_pix u))).
    + assert (E : filter (fun r : fvis * nat => (fv_id (fst r) =? fv_id u)%Z) (rows l) = []).
      { destruct (filter _ (rows l)) as [|[w y] r] eqn:E; [reflexivity|]. exfalso.
        assert (J : In (w, y) (filter (fun r : fvis * nat => (fv_id (fst r) =? fv_id u)%Z) (rows l))) by (rewrite E; now left).
        apply filter_In in J. destruct J as [J1 J2]. apply Z.eqb_eq in J2. cbn in J2. apply rows_in in J1. assert (X := F w (proj1 J1)). lia. }
      rewrite E. apply app_nil_r.
    + intros r Hr. apply in_map_iff in Hr. destruct Hr as (y & <- & _). apply Z.eqb_refl.
  - rewrite IH by exact I.
    assert (E : filter (fun r : fvis * nat => (fv_id (fst r) =? fv_id v)%Z) (map (pair u) (fv_pix u)) = []).
    { destruct (filter _ (map (pair u) (fv_pix u))) as [|[w y] r] eqn:E; [reflexivity|]. exfalso.
      assert (J : In (w, y) (filter (fun r : fvis * nat => (fv_id (fst r) =? fv_id v)%Z) (map (pair u) (fv_pix u)))) by (rewrite E; now left).
      apply filter_In in J. destruct J as [J1 J2]. apply Z.eqb_eq in J2. apply in_map_iff in J1. destruct J1 as (z & [= <- <-] & _). cbn in J2.
      assert (X := F v I). lia. }
    rewrite E. reflexivity.
Qed.

Lemma fold_raise : forall A B (f : A -> B -> res A) l e, fold_left (fun acc i => bind acc (fun a => f a i)) l (Raise e) = Raise e.
Proof. induction l as [|x l IH]; intros e; [reflexivity|]. cbn. apply IH. Qed.

Lemma pn_arr_singles : forall l s, pn_batch l -> pn_arr bn gmin gmax s l = run (pn_single bn gmin gmax) (pn_arr bn gmin gmax) s (map One l).
Proof.
  intros l s (Ne & Nt & So & Ok_). unfold pn_arr. cbv zeta.
  destruct (map (fun r : fvis * nat => fv_night (fst r)) (rows l)) as [|z zs] eqn:E.
  { destruct l as [|v l]; [tauto|]. destruct (Ok_ v (or_introl eq_refl)) as [P _]. change (rows (v :: l)) with (map (pair v) (fv_pix v) ++ rows l) in E.
    destruct (fv_pix v); [tauto|discriminate]. }
  assert (A : forall r, In r (rows l) -> (fv_night (fst r) =? zmax_list z zs)%Z = true).
  { intros [v y] Hr. apply Z.eqb_eq. destruct (zmax_spec zs z) as (_ & _ & C).
    assert (I : In (zmax_list z zs) (map (fun r : fvis * nat => fv_night (fst r)) (rows l))) by (rewrite E; destruct C as [->|C]; [now left|now right]).
    apply in_map_iff in I. destruct I as ([u k] & <- & Hu). apply rows_in in Hr, Hu. cbn. now apply Nt. }
  rewrite (filter_true _ _ (rows l) A). rewrite uids_rows by (auto; intros v Hv; apply Ok_, Hv).
  assert (G : forall k s, (forall v, In v k -> In v l) ->
    fold_left (fun acc i => bind acc (fun a =>
        match flat_map (fun k0 => match nth_error (rows l) k0 with Some r => [r] | None => [] end) (np_where (fun r => (fv_id (fst r) =? i)%Z) (rows l)) with
        | [] => Raise IndexError
        | p :: _ => pn_one gmin gmax a (row_in bn (fst p)) (fv_night (fst p)) (fv_mjd (fst p)) (map snd (flat_map (fun k0 => match nth_error (rows l) k0 with Some r => [r] | None => [] end) (np_where (fun r => (fv_id (fst r) =? i)%Z) (rows l))))
        end)) (map fv_id k) (Ok s) = run (pn_single bn gmin gmax) (pn_arr bn gmin gmax) s (map One k)).
  { induction k as [|v k IH]; intros s0 Hk; [reflexivity|]. cbn [map fold_left run]. cbn [bind].
    assert (WP := where_pick _ (fun r : fvis * nat => (fv_id (fst r) =? fv_id v)%Z) (rows l) []).
    change ([] ++ rows l) with (rows l) in WP. cbn [List.length] in WP. unfold np_where. rewrite WP. clear WP.
    rewrite (rows_of_id l v So (Hk v (or_introl eq_refl))).
    destruct (Ok_ v (Hk v (or_introl eq_refl))) as [Pv (c & Bv)].
    assert (EQ : match map (pair v) (fv_pix v) with
        | [] => Raise IndexError
        | p :: _ => pn_one gmin gmax s0 (row_in bn (fst p)) (fv_night (fst p)) (fv_mjd (fst p)) (map snd (map (pair v) (fv_pix v)))
        end = pn_single bn gmin gmax s0 v).
    { unfold pn_single. rewrite map_map. cbn [snd]. rewrite map_id. destruct (fv_pix v) as [|x r] eqn:P; [tauto|]. cbn [map fst].
      unfold row_in, band_in. rewrite Bv. reflexivity. }
    rewrite EQ. destruct (pn_single bn gmin gmax s0 v) as [s1|e]; cbn [bind].
    - apply IH. intros u Hu. apply Hk. now right.
    - apply fold_raise. }
  apply G. auto.
Qed.
End Pairs.
