(** C136: restoring a scheduler and an observatory from a table of visits. *)
From Coq Require Import List ZArith QArith Qminmax Bool String Lia Lqa Sorted Permutation.
From Verif Require Import Base Obs Queue Core Core_proofs Downtime Observatory Restore Restore_proofs.
Import ListNotations.
Open Scope list_scope.
Open Scope nat_scope.

Section P.
Variable slew : slewing.
Variable readtime shuttertime shutter_2motion : Q.
Context {W X C : Type}.
Variable B : behav W X.
Variable shape : list nat.
Variable park_after : Q.
Variable conditions : tel -> Q -> C.

Notation tele := (telescope slew readtime shuttertime shutter_2motion).
Notation restore := (restore readtime shuttertime B shape park_after conditions).
Notation observing c n dn ms f := (Observatory.observe tele c n dn ms park_after f).

(** The visits of the table up to a number. *)
Definition upto (id : Z) (rows : list row) : list row := filter (fun r => (o_id (r_obs r) <=? id)%Z) rows.

Definition seen_rows (fast : bool) (good : list row) : list row :=
  if fast then match good with [_] => map backfill_row good | _ => r_sort (map backfill_row good) end else good.

Lemma seen_perm : forall fast good, Permutation (map (fun r => (o_mjd (r_obs r), o_night (r_obs r))) (seen_rows fast good))
                                                (map (fun r => (o_mjd (r_obs r), o_night (r_obs r))) good).
Proof.
  intros [|] good; [|reflexivity].
  assert (K : map (fun r => (o_mjd (r_obs r), o_night (r_obs r))) (map backfill_row good) = map (fun r => (o_mjd (r_obs r), o_night (r_obs r))) good).
  { rewrite map_map. apply map_ext. intros a. cbn. now rewrite backfill_mjd, backfill_night. }
  unfold seen_rows. destruct good as [|a [|b l]]; [reflexivity|rewrite K; reflexivity|].
  rewrite <- K. apply Permutation_map, r_sort_perm.
Qed.

Lemma seen_final : forall fast before r, (forall x, In x before -> (o_mjd (r_obs x) < o_mjd (r_obs r))%Q) ->
  final (seen_rows fast (before ++ [r])) = Some (if fast then backfill_row r else r).
Proof.
  intros fast before r H. unfold seen_rows. destruct fast; [|apply final_last].
  destruct before as [|a [|b l]].
  - reflexivity.
  - cbn [app map]. assert (L : r_sort [backfill_row a; backfill_row r] = r_sort [backfill_row a] ++ [backfill_row r]).
    { apply (r_sort_last [backfill_row a]). intros x [<-|[]]. cbn. rewrite !backfill_mjd. apply H. now left. }
    rewrite L. apply final_last.
  - cbn [app]. change (r_sort (map backfill_row (a :: b :: l ++ [r]))) with (r_sort (map backfill_row ((a :: b :: l) ++ [r]))).
    rewrite map_app. cbn [map]. rewrite r_sort_last; [apply final_last|].
    intros x Hx. change (backfill_row a :: backfill_row b :: map backfill_row l) with (map backfill_row (a :: b :: l)) in Hx.
    apply in_map_iff in Hx as (u & <- & Hu). cbn. rewrite !backfill_mjd. now apply H.
Qed.

(** ** The form of the result *)
Definition reported (fast : bool) (s : core W X) (good : list row) : core W X :=
  if fast then fst (add_arr B shape s (map r_obs good)) else fold_left (fun s r => add_obs B shape s (r_obs r)) good s.
Definition bands_of (band_sched : option (C -> list string)) (g0 : tel) (seen : list row) (o : obs) : tel * list string :=
  match band_sched with
  | Some f => let m := night_start seen (o_night o) in
              let g := if Qltb park_after (m - g_last g0)%Q then g_park g0 else g0 in (g, f (conditions g m))
  | None => (g0, default_bands)
  end.
Definition placed (g : tel) (bands : list string) (r : row) : osy tel :=
  let o := r_obs r in
  mkOsy (mkTel (Some (place_of o)) (r_cum r) (g_over g) (o_band o) (g_start g) bands (g_last g))
        (o_mjd o + visit_time readtime shuttertime o / 3600 / 24)%Q (o_id o + 1)%Z.

Lemma restore_eq : forall fast bs id s y rows,
  restore fast bs id s y rows =
  match counter id rows with
  | Raise e => ((s, y), Raise e)
  | Ok z => match final (seen_rows fast (upto id rows)) with
            | None => ((reported fast (set_ctr s z) (upto id rows), y), Raise IndexError)
            | Some r => ((reported fast (set_ctr s z) (upto id rows),
                          placed (fst (bands_of bs (y_k y) (seen_rows fast (upto id rows)) (r_obs r)))
                                 (snd (bands_of bs (y_k y) (seen_rows fast (upto id rows)) (r_obs r))) r), Ok tt)
            end
  end.
Proof.
  intros fast bs id s y rows. unfold Restore.restore. change (filter (taken id) rows) with (upto id rows).
  destruct (counter id rows) as [z|e]; [|reflexivity]. unfold reported, seen_rows, bands_of, placed.
  destruct fast; destruct (final _) as [r|]; try reflexivity; destruct bs as [f|]; reflexivity.
Qed.

Lemma counter_good : forall id rows z, counter id rows = Ok z -> upto id rows <> [].
Proof.
  intros id rows z H K. unfold counter in H.
  assert (N : forall x, In x rows -> taken id x = false).
  { intros x Hx. destruct (taken id x) eqn:E; [|reflexivity]. assert (Q : In x (upto id rows)) by (apply filter_In; tauto). rewrite K in Q. destruct Q. }
  unfold np_where in H. rewrite (where_none _ _ _ _ N) in H. cbn [List.length map all_some] in H.
  destruct rows as [|x l]; [discriminate|]. cbn in H. discriminate.
Qed.
Lemma seen_some : forall fast good, good <> [] -> exists r, final (seen_rows fast good) = Some r.
Proof.
  intros fast good H. assert (K : seen_rows fast good <> []).
  { intro E. pose proof (seen_perm fast good) as P. rewrite E in P. cbn in P. apply Permutation_nil in P. destruct good; [tauto|discriminate]. }
  unfold final. destruct (rev (seen_rows fast good)) as [|x l] eqn:E; [|now exists x].
  exfalso. apply K. rewrite <- (rev_involutive (seen_rows fast good)), E. reflexivity.
Qed.

(** ** C136: what the observatory is put back to *)

(** A visit of a run, restored from the table of the run, ordered by number and
    time, leaves the observatory at the time, with the visit number, place,
    rotation, accumulated azimuth and band it had after that visit. *)
Theorem C136_observatory : forall cloudy nights downs mjd_start fuel y d y' v nn,
  observing cloudy nights downs mjd_start fuel y d = (y', Ok (Some v, nn)) ->
  o_band d <> ""%string ->
  forall fast band_sched id s y0 before after,
  let r := mkRow (v_obs v) (g_cum (y_k y')) in
  in_order (before ++ r :: after) -> (o_id (v_obs v) <= id)%Z -> (forall x, In x after -> (id < o_id (r_obs x))%Z) ->
  exists s2 y2, restore fast band_sched id s y0 (before ++ r :: after) = ((s2, y2), Ok tt) /\
    (y_mjd y2 == y_mjd y')%Q /\ y_ctr y2 = y_ctr y' /\
    g_at (y_k y2) = g_at (y_k y') /\ g_at (y_k y2) <> None /\
    g_cum (y_k y2) = g_cum (y_k y') /\ g_band (y_k y2) = g_band (y_k y').
Proof.
  intros cloudy nights downs mjd_start fuel y d y' v nn H Hb fast bs id s y0 before after r Ord Hr Ha.
  assert (V : g_at (y_k y') = Some (place_of (v_obs v)) /\ g_band (y_k y') = o_band (v_obs v) /\ o_band (v_obs v) <> ""%string /\
              y_ctr y' = (o_id (v_obs v) + 1)%Z /\
              (y_mjd y' == o_mjd (v_obs v) + visit_time readtime shuttertime (v_obs v) / 86400)%Q).
  { unfold Observatory.observe, telescope in H. cbn [k_observe k_park k_last k_fill] in H.
    set (g0 := if Qltb park_after _ then _ else _) in H. unfold g_observe in H at 1.
    destruct (slew _ _ _ _ _ d (y_mjd y)) as [[t cum]|]; [|discriminate].
    destruct (check_mjd _ _ _ _ _) as [[[|] m]|e]; try discriminate. inversion H; subst. cbn. repeat split; try reflexivity; try exact Hb. }
  destruct V as (V1 & V2 & V3 & V4 & V5).
  destruct (counter_ok id before after r Ord Hr Ha) as (z & Z1 & _).
  assert (G : upto id (before ++ r :: after) = before ++ [r]) by (apply (filter_good id before after r Ord Hr Ha)).
  assert (F : final (seen_rows fast (before ++ [r])) = Some r).
  { rewrite seen_final; [|intros x Hx; apply (before_earlier before after r Ord x Hx)].
    destruct fast; [|reflexivity]. unfold backfill_row. cbn [r r_obs r_cum]. now rewrite backfill_same. }
  rewrite restore_eq, Z1, G, F. eexists. eexists. split; [reflexivity|]. unfold placed. cbn [y_mjd y_ctr y_k g_at g_cum g_band r r_obs r_cum].
  rewrite V1, V2, V4, V5. repeat split; try reflexivity; [|discriminate].
  apply Qplus_inj_l. unfold Qdiv. rewrite <- Qmult_assoc. reflexivity.
Qed.

(** The bands mounted are those the band scheduler gives for the conditions at
    the first visit of the night of the last visit, or five bands without one. *)
Theorem C136_bands : forall fast band_sched id s y0 before after r,
  in_order (before ++ r :: after) -> (o_id (r_obs r) <= id)%Z -> (forall x, In x after -> (id < o_id (r_obs x))%Z) ->
  exists s2 y2, restore fast band_sched id s y0 (before ++ r :: after) = ((s2, y2), Ok tt) /\
  match band_sched with
  | None => g_mounted (y_k y2) = ["u"; "g"; "r"; "i"; "y"]%string
  | Some f => exists g m b, g_mounted (y_k y2) = f (conditions g m) /\
      In b (before ++ [r]) /\ o_night (r_obs b) = o_night (r_obs r) /\ (m == o_mjd (r_obs b))%Q /\
      (forall x, In x (before ++ [r]) -> o_night (r_obs x) = o_night (r_obs r) -> (m <= o_mjd (r_obs x))%Q) /\
      (g = y_k y0 \/ g = g_park (y_k y0))
  end.
Proof.
  intros fast bs id s y0 before after r Ord Hr Ha.
  destruct (counter_ok id before after r Ord Hr Ha) as (z & Z1 & _).
  assert (G : upto id (before ++ r :: after) = before ++ [r]) by (apply (filter_good id before after r Ord Hr Ha)).
  assert (F := seen_final fast before r (fun x Hx => proj2 (before_earlier before after r Ord x Hx))).
  rewrite restore_eq, Z1, G, F. eexists. eexists. split; [reflexivity|]. unfold placed. cbn [y_k g_mounted].
  set (o := r_obs (if fast then backfill_row r else r)).
  assert (No : o_night o = o_night (r_obs r)) by (unfold o; destruct fast; [cbn; apply backfill_night|reflexivity]).
  destruct bs as [f|]; [|reflexivity]. unfold bands_of. cbn [snd]. rewrite No.
  set (seen := seen_rows fast (before ++ [r])). set (n := o_night (r_obs r)).
  assert (S1 : forall x, In x seen -> exists b, In b (before ++ [r]) /\ o_mjd (r_obs b) = o_mjd (r_obs x) /\ o_night (r_obs b) = o_night (r_obs x)).
  { intros x Hx. assert (I : In (o_mjd (r_obs x), o_night (r_obs x)) (map (fun r => (o_mjd (r_obs r), o_night (r_obs r))) (before ++ [r]))).
    { eapply Permutation_in; [apply (seen_perm fast)|]. apply in_map_iff. exists x. tauto. }
    apply in_map_iff in I as (b & Eb & Ib). inversion Eb. exists b. repeat split; congruence || exact Ib. }
  assert (S2 : forall b, In b (before ++ [r]) -> exists x, In x seen /\ o_mjd (r_obs b) = o_mjd (r_obs x) /\ o_night (r_obs b) = o_night (r_obs x)).
  { intros b Hb. assert (I : In (o_mjd (r_obs b), o_night (r_obs b)) (map (fun r => (o_mjd (r_obs r), o_night (r_obs r))) seen)).
    { eapply Permutation_in; [symmetry; apply (seen_perm fast)|]. apply in_map_iff. exists b. tauto. }
    apply in_map_iff in I as (x & Ex & Ix). inversion Ex. exists x. repeat split; congruence || exact Ix. }
  assert (M : exists x, In x seen /\ o_night (r_obs x) = n /\ (night_start seen n == o_mjd (r_obs x))%Q /\
                        forall u, In u seen -> o_night (r_obs u) = n -> (night_start seen n <= o_mjd (r_obs u))%Q).
  { assert (N : exists x, In x (filter (fun r => (o_night (r_obs r) =? n)%Z) seen)).
    { destruct (S2 r) as (x & Ix & _ & Nx); [apply in_or_app; right; now left|]. exists x. apply filter_In. split; [exact Ix|]. apply Z.eqb_eq. unfold n. congruence. }
    unfold night_start. set (l := filter (fun r => (o_night (r_obs r) =? n)%Z) seen) in *.
    assert (In_l : forall u, In u l <-> In u seen /\ o_night (r_obs u) = n) by (intros u; unfold l; rewrite filter_In, Z.eqb_eq; reflexivity).
    clearbody l. destruct N as [x0 Hx0]. destruct l as [|a l]; [destruct Hx0|]. cbn [map].
    assert (Min : forall l0 q, (exists y, (y = q \/ In y l0) /\ (qmin_list q l0 == y)%Q) /\ (qmin_list q l0 <= q)%Q /\ (forall y, In y l0 -> (qmin_list q l0 <= y)%Q)).
    { clear. induction l0 as [|b l0 IH]; intros q; cbn.
      - split; [exists q; split; [now left|reflexivity]|]. split; [lra|intros y []].
      - unfold qmin_list in *. cbn [fold_left]. destruct (IH (Qmin q b)) as ((y & Hy & Ey) & I1 & I2). split; [|split].
        + destruct Hy as [->|Hy]; [|exists y; tauto]. destruct (Q.min_spec q b) as [[_ E]|[_ E]]; [exists q|exists b]; (split; [tauto|]); rewrite Ey, E; reflexivity.
        + pose proof (Q.le_min_l q b). lra.
        + intros y' [<-|Hy']; [pose proof (Q.le_min_r q b); lra|now apply I2]. }
    destruct (Min (map (fun r => o_mjd (r_obs r)) l) (o_mjd (r_obs a))) as ((y & Hy & Ey) & I1 & I2).
    assert (Y : exists u, In u (a :: l) /\ o_mjd (r_obs u) = y).
    { destruct Hy as [->|Hy]; [exists a; split; [now left|reflexivity]|]. apply in_map_iff in Hy as (u & Eu & Iu). exists u. split; [now right|exact Eu]. }
    destruct Y as (u & Iu & Eu). exists u. apply In_l in Iu as [Iu1 Iu2]. split; [exact Iu1|]. split; [exact Iu2|]. split; [rewrite Eu; exact Ey|].
    intros w Iw Nw. assert (K : In w (a :: l)) by (apply In_l; tauto). destruct K as [<-|K]; [exact I1|]. apply I2, in_map_iff. exists w. tauto. }
  destruct M as (x & Ix & Nx & Mx & Least). destruct (S1 x Ix) as (b & Ib & Mb & Nb).
  eexists. exists (night_start seen n), b. split; [reflexivity|]. split; [exact Ib|]. split; [congruence|]. split; [rewrite Mb; exact Mx|]. split.
  - intros u Iu Nu. destruct (S2 u Iu) as (w & Iw & Mw & Nw). rewrite Mw. apply Least; [exact Iw|congruence].
  - destruct (Qltb _ _); tauto.
Qed.

(** ** C136: what the scheduler is told *)

Lemma add_ctr : forall (s : core W X) z o, c_w (add_obs B shape (set_ctr s z) o) = c_w (add_obs B shape s o) /\
  c_q (add_obs B shape (set_ctr s z) o) = c_q (add_obs B shape s o).
Proof. intros. split; reflexivity. Qed.
Lemma fold_add_wq : forall l (s s' : core W X), c_w s = c_w s' -> c_q s = c_q s' ->
  c_w (fold_left (fun s r => add_obs B shape s (r_obs r)) l s) = c_w (fold_left (fun s r => add_obs B shape s (r_obs r)) l s') /\
  c_q (fold_left (fun s r => add_obs B shape s (r_obs r)) l s) = c_q (fold_left (fun s r => add_obs B shape s (r_obs r)) l s').
Proof.
  induction l as [|a l IH]; intros s s' Hw Hq; cbn [fold_left]; [split; assumption|]. apply IH.
  - unfold add_obs. cbn [c_w]. now rewrite Hw.
  - unfold add_obs. cbn [c_q]. now rewrite Hq.
Qed.

(** Exactly the visits up to the number are reported, in the order of the table,
    one by one or as one array. *)
Theorem C136_visits : forall b2f too_flush fast band_sched id s y0 rows s2 y2,
  restore fast band_sched id s y0 rows = ((s2, y2), Ok tt) ->
  let visits := map r_obs (filter (fun r => (o_id (r_obs r) <=? id)%Z) rows) in
  let told := fst (run B shape b2f too_flush s (if fast then [OpAddArr visits] else map OpAdd visits)) in
  c_w s2 = c_w told /\ c_q s2 = c_q told /\ c_reported s2 = c_reported told.
Proof.
  intros b2f tf fast bs id s y0 rows s2 y2 H visits told. rewrite restore_eq in H.
  destruct (counter id rows) as [z|e]; [|discriminate]. destruct (final _) as [r|]; [|discriminate].
  inversion H; subst s2. clear H. change (map r_obs (upto id rows)) with visits. unfold reported, told. destruct fast.
  - change (map r_obs (upto id rows)) with visits. cbn [run step].
    unfold add_arr. destruct visits as [|a [|b l]]; cbn -[o_sort flatten_hp zmax_list]; try (repeat split; reflexivity).
    destruct (map o_tid (o_sort _)) as [|t ts] eqn:E; [repeat split; reflexivity|].
    destruct (c_q s) as [|q0 q1] eqn:Eq; repeat split; reflexivity.
  - assert (R : forall (l : list obs) (s0 : core W X), fst (run B shape b2f tf s0 (map OpAdd l)) = fold_left (add_obs B shape) l s0).
    { induction l as [|a l IH]; intros s0; cbn [map run step fold_left]; [reflexivity|].
      specialize (IH (add_obs B shape s0 a)). destruct (run B shape b2f tf (add_obs B shape s0 a) (map OpAdd l)) as [u v]. exact IH. }
    rewrite R. unfold visits. assert (FM : forall (l : list row) (s0 : core W X), fold_left (fun s r => add_obs B shape s (r_obs r)) l s0 = fold_left (add_obs B shape) (map r_obs l) s0).
    { induction l as [|a l IH]; intros s0; cbn [map fold_left]; [reflexivity|apply IH]. }
    rewrite <- FM. change (filter (fun r => (o_id (r_obs r) <=? id)%Z) rows) with (upto id rows).
    destruct (fold_add_wq (upto id rows) (set_ctr s z) s eq_refl eq_refl) as [K1 K2]. split; [exact K1|]. split; [exact K2|].
    assert (RP : forall l (s0 s1 : core W X), c_reported s0 = c_reported s1 ->
      c_reported (fold_left (fun s r => add_obs B shape s (r_obs r)) l s0) = c_reported (fold_left (fun s r => add_obs B shape s (r_obs r)) l s1)).
    { induction l as [|a l IH]; intros s0 s1 E; cbn [fold_left]; [exact E|]. apply IH. unfold add_obs. cbn [c_reported]. now rewrite E. }
    apply RP. reflexivity.
Qed.

(** ** C136: numbers *)
Lemma fold_ctr : forall l (s : core W X), c_ctr (fold_left (fun s r => add_obs B shape s (r_obs r)) l s) = fold_left (fun c r => Z.max c (o_tid (r_obs r) + 1)) l (c_ctr s).
Proof.
  induction l as [|a l IH]; intros s; cbn [fold_left]; [reflexivity|]. rewrite IH. f_equal. unfold add_obs. cbn [c_ctr].
  rewrite backfill_tid. apply bump_max.
Qed.
Lemma fold_max_spec : forall (l : list row) c,
  let m := fold_left (fun c r => Z.max c (o_tid (r_obs r) + 1)) l c in
  (c <= m)%Z /\ (forall x, In x l -> (o_tid (r_obs x) < m)%Z) /\ (m = c \/ exists x, In x l /\ m = (o_tid (r_obs x) + 1)%Z).
Proof.
  induction l as [|a l IH]; intros c m; cbn in m; subst m; [split; [lia|]; split; [intros x []|now left]|].
  destruct (IH (Z.max c (o_tid (r_obs a) + 1))) as (I1 & I2 & I3). split; [lia|]. split.
  - intros x [<-|Hx]; [lia|now apply I2].
  - destruct I3 as [E|(x & Hx & E)]; [|right; exists x; split; [now right|exact E]].
    rewrite E. destruct (Z.max_spec c (o_tid (r_obs a) + 1)) as [[_ M]|[_ M]]; rewrite M; [right; exists a; split; [now left|reflexivity]|now left].
Qed.
Lemma reported_ctr : forall fast (s : core W X) good, good <> [] ->
  let m := c_ctr (reported fast s good) in
  (c_ctr s <= m)%Z /\ (forall x, In x good -> (o_tid (r_obs x) < m)%Z) /\ (m = c_ctr s \/ exists x, In x good /\ m = (o_tid (r_obs x) + 1)%Z).
Proof.
  intros fast s good Ne m. subst m. unfold reported. destruct fast.
  - destruct good as [|a [|b l]]; [tauto| |].
    + cbn [map add_arr fst]. unfold add_obs. cbn [c_ctr]. rewrite backfill_tid, bump_max. split; [lia|]. split.
      * intros x [<-|[]]. lia.
      * destruct (Z.max_spec (c_ctr s) (o_tid (r_obs a) + 1)) as [[_ M]|[_ M]]; rewrite M; [right; exists a; split; [now left|reflexivity]|now left].
    + set (g := a :: b :: l) in *. unfold add_arr. cbn [g map]. change (r_obs a :: r_obs b :: map r_obs l) with (map r_obs g).
      change (backfill_band (r_obs a) :: backfill_band (r_obs b) :: map backfill_band (map r_obs l)) with (map backfill_band (map r_obs g)).
      pose proof (sort_tids (map r_obs g)) as P. destruct (map o_tid (o_sort (map backfill_band (map r_obs g)))) as [|t ts] eqn:E.
      { apply Permutation_nil in P. discriminate. }
      destruct (zmax_list_ge ts t) as [G1 G2].
      assert (Mi : In (zmax_list t ts) (map o_tid (map r_obs g))).
      { eapply Permutation_in; [exact P|]. destruct (zmax_in ts t) as [M|M]; [rewrite M; now left|now right]. }
      rewrite map_map in Mi. apply in_map_iff in Mi as (x & Ex & Ix).
      assert (Up : forall u, In u g -> (o_tid (r_obs u) <= zmax_list t ts)%Z).
      { intros u Hu. assert (K : In (o_tid (r_obs u)) (t :: ts)) by (eapply Permutation_in; [symmetry; exact P|]; apply in_map, in_map; exact Hu).
        destruct K as [K|K]; [rewrite <- K; exact G1|now apply G2]. }
      assert (Fin : forall m, m = Z.max (c_ctr s) (zmax_list t ts + 1) ->
        (c_ctr s <= m)%Z /\ (forall u, In u g -> (o_tid (r_obs u) < m)%Z) /\ (m = c_ctr s \/ exists u, In u g /\ m = (o_tid (r_obs u) + 1)%Z)).
      { intros m ->. split; [lia|]. split; [intros u Hu; specialize (Up u Hu); lia|].
        destruct (Z.max_spec (c_ctr s) (zmax_list t ts + 1)) as [[_ M']|[_ M']]; rewrite M'; [right; exists x; split; [exact Ix|rewrite Ex; reflexivity]|now left]. }
      apply Fin. destruct (c_q s); cbn [fst c_ctr]; apply bump_max.
  - rewrite fold_ctr. apply fold_max_spec.
Qed.

(** No target id is used again: those handed out after restoring are above every
    one restored, whatever the table. *)
Theorem C136_ids : forall fast band_sched id s y0 rows s2 y2,
  restore fast band_sched id s y0 rows = ((s2, y2), Ok tt) ->
  forall x, In x rows -> (o_id (r_obs x) <= id)%Z -> (o_tid (r_obs x) < c_ctr s2)%Z.
Proof.
  intros fast bs id s y0 rows s2 y2 H x Hx Hid. rewrite restore_eq in H.
  destruct (counter id rows) as [z|e] eqn:Ec; [|discriminate]. destruct (final _) as [r|]; [|discriminate]. inversion H; subst.
  assert (I : In x (upto id rows)) by (apply filter_In; split; [exact Hx|now apply Z.leb_le]).
  assert (Ne : upto id rows <> []) by (intro E; rewrite E in I; destruct I).
  now apply (reported_ctr fast (set_ctr s z) (upto id rows) Ne).
Qed.

(** When the ids of the table increase, the next target gets the id of the visit
    that follows in the table, or the next one after the last. *)
Theorem C136_next_id : forall fast band_sched id s y0 before after r,
  in_order (before ++ r :: after) -> (o_id (r_obs r) <= id)%Z -> (forall x, In x after -> (id < o_id (r_obs x))%Z) ->
  StronglySorted (fun a b => (o_tid (r_obs a) < o_tid (r_obs b))%Z) (before ++ r :: after) ->
  exists s2 y2, restore fast band_sched id s y0 (before ++ r :: after) = ((s2, y2), Ok tt) /\
    c_ctr s2 = match after with [] => (o_tid (r_obs r) + 1)%Z | n :: _ => o_tid (r_obs n) end.
Proof.
  intros fast bs id s y0 before after r Ord Hr Ha Inc.
  destruct (counter_ok id before after r Ord Hr Ha) as (z & Z1 & Z2).
  assert (G : upto id (before ++ r :: after) = before ++ [r]) by (apply (filter_good id before after r Ord Hr Ha)).
  assert (F := seen_final fast before r (fun x Hx => proj2 (before_earlier before after r Ord x Hx))).
  rewrite restore_eq, Z1, G, F. eexists. eexists. split; [reflexivity|].
  assert (Ne : before ++ [r] <> []) by (destruct before; discriminate).
  destruct (reported_ctr fast (set_ctr s z) (before ++ [r]) Ne) as (C1 & C2 & C3). cbn [set_ctr c_ctr] in C1, C3.
  set (m := c_ctr _) in *. clearbody m.
  destruct (sorted_app _ _ _ _ Inc) as (_ & Inc2 & Inc3).
  assert (Lr : forall x, In x (before ++ [r]) -> (o_tid (r_obs x) <= o_tid (r_obs r))%Z).
  { intros x Hx. apply in_app_or in Hx as [Hx|[<-|[]]]; [|lia]. specialize (Inc3 x r Hx (or_introl eq_refl)). cbn in Inc3. lia. }
  assert (Rr : (o_tid (r_obs r) < m)%Z) by (apply C2, in_or_app; right; now left).
  destruct after as [|n after'].
  - destruct Z2 as (t & It & Et & _). pose proof (Lr t It). destruct C3 as [E|(x & Ix & E)]; [lia|]. specialize (Lr x Ix). lia.
  - destruct Z2 as (t & It & Et & Nz).
    assert (Ln : (o_tid (r_obs r) < o_tid (r_obs n))%Z) by (inversion Inc2 as [|? ? _ K]; subst; inversion K; assumption).
    assert (Tn : (o_tid (r_obs t) <= o_tid (r_obs n))%Z).
    { apply in_app_or in It as [It|[<-|[<-|[]]]]; [|lia|lia]. assert (K := Lr t (in_or_app _ _ _ (or_introl It))). lia. }
    destruct C3 as [E|(x & Ix & E)]; [lia|]. specialize (Lr x Ix). lia.
Qed.

(** ** C136: what cannot be restored leaves everything as it was *)
Theorem C136_refused : forall fast band_sched id s y0 rows p e,
  restore fast band_sched id s y0 rows = (p, Raise e) -> p = (s, y0).
Proof.
  intros fast bs id s y0 rows p e H. rewrite restore_eq in H. destruct (counter id rows) as [z|e'] eqn:Ec; [|now inversion H].
  destruct (seen_some fast (upto id rows) (counter_good _ _ _ Ec)) as (r & Er). rewrite Er in H. discriminate.
Qed.
Theorem C136_nothing : forall fast band_sched id s y0 rows,
  (forall x, In x rows -> (id < o_id (r_obs x))%Z) -> restore fast band_sched id s y0 rows = ((s, y0), Raise ValueError).
Proof.
  intros fast bs id s y0 rows H. rewrite restore_eq. unfold counter, np_where. rewrite where_none.
  - cbn [List.length map all_some]. destruct rows; reflexivity.
  - intros x Hx. unfold taken. apply Z.leb_gt. now apply H.
Qed.

(** ** C136, refuted: the telescope is parked at once *)

(** The time of the last slew is not restored.  An observatory restored more than
    park_after after the last slew of the new one (the start of the survey, for an
    observatory just made) parks before the next visit, so that it goes on as one
    parked there, in the band it starts with. *)
Theorem C136_parked_refuted : forall fast band_sched id s y0 rows s2 y2,
  restore fast band_sched id s y0 rows = ((s2, y2), Ok tt) ->
  (park_after < y_mjd y2 - g_last (y_k y0))%Q ->
  forall cloudy nights downs mjd_start fuel d,
  observing cloudy nights downs mjd_start fuel y2 d =
  observing cloudy nights downs mjd_start fuel
    (mkOsy (mkTel None 0 0 (g_start (y_k y0)) (g_start (y_k y0)) (g_mounted (y_k y2)) (g_last (y_k y0))) (y_mjd y2) (y_ctr y2)) d.
Proof.
  intros fast bs id s y0 rows s2 y2 H Gap cloudy nights downs mjd_start fuel d. rewrite restore_eq in H.
  destruct (counter id rows) as [z|e]; [|discriminate]. destruct (final _) as [r|]; [|discriminate]. inversion H; subst. clear H.
  assert (L : forall seen o, g_last (fst (bands_of bs (y_k y0) seen o)) = g_last (y_k y0) /\ g_start (fst (bands_of bs (y_k y0) seen o)) = g_start (y_k y0)).
  { intros seen o. unfold bands_of. destruct bs; [|split; reflexivity]. destruct (Qltb _ _); split; reflexivity. }
  destruct (L (seen_rows fast (upto id rows)) (r_obs r)) as [L1 L2].
  unfold Observatory.observe, telescope, placed. cbn [k_observe k_park k_last k_fill y_k y_mjd y_ctr g_last g_mounted g_start].
  rewrite L1, L2. unfold placed in Gap. cbn [y_mjd] in Gap. apply Qltb_lt in Gap. rewrite Gap. unfold g_park. cbn [g_start g_mounted g_last g_at]. reflexivity.
Qed.
End P.
Print Assumptions C136_observatory.
Print Assumptions C136_bands.
Print Assumptions C136_visits.
Print Assumptions C136_ids.
Print Assumptions C136_next_id.
Print Assumptions C136_refused.
Print Assumptions C136_nothing.
Print Assumptions C136_parked_refuted.

(** ** Fixtures: a survey that starts at 0 with one long night, a slew of one
    second or the overhead while tracking, of a minute from the park position,
    two minutes more to change the band, and none to a band not mounted. *)
Definition xSlew : slewing := fun at_ cum over band mounted o _ =>
  if existsb (String.eqb (o_band o)) mounted then
    match at_ with
    | None => Some (60, 1)%Q
    | Some _ => Some (Qmax over (if String.eqb band (o_band o) then 1 else 121), cum + 1)%Q
    end
  else None.
Definition xB : behav nat unit :=
  mkBehav nat unit (fun w _ _ _ => (w, [])) (fun w _ _ _ => (w, GPyList)) (fun w _ _ _ _ => S w) (fun w _ _ l _ => w + List.length l)
          (fun w _ _ _ => w) (fun _ _ _ => None) (fun _ _ _ => true) (fun w l _ => (w, l)) (fun w _ => w) (fun w _ _ => w) (fun _ => []) (fun _ => []).
Definition xT : kinB tel := telescope xSlew 2 1 15.
Definition xPark : Q := 1 # 144.
Definition xObserve := Observatory.observe xT (fun _ => false) [(0, 1000)%Q] [] 0 xPark 10.
Definition xRun := orun xT (fun _ => false) [(0, 1000)%Q] [] 0 xPark 10.
Definition xNew (bands : list string) : osy tel := mkOsy (mkTel None 0 0 "r" "r" bands 0) 0 0.
Definition xRestore fast bs := restore 2 1 xB [1] xPark (fun _ m => m) fast bs.
Definition xWant (tid : Z) (ra : Q) (band : string) : obs := mkObs 0 tid 0 0 1000 ra 0 (1 # 2) 30 1 band "" "".
(** The rows of a run: the visits and the azimuth accumulated (one more each). *)
Fixpoint xRows (k : Q) (l : list visit) : list row :=
  match l with [] => [] | v :: r => mkRow (v_obs v) k :: xRows (k + 1) r end.

(** Three visits half a day after the start; the first two are restored. *)
Definition xOps := [YAdvance (1 # 2); YObserve (xWant 4 0 "r"); YObserve (xWant 5 1 "g"); YObserve (xWant 9 2 "g")].
Definition xTable : list row := xRows 1 (snd (xRun (xNew ["u"; "g"; "r"; "i"; "z"]) xOps))%string.
Definition xAfter2 : osy tel := fst (xRun (xNew ["u"; "g"; "r"; "i"; "z"]%string) (firstn 3 xOps)).
Definition xBack fast := xRestore fast None 1 (init 0 0) (xNew []) xTable.

Definition xShow (y : osy tel) := (Qred (y_mjd y), y_ctr y, g_at (y_k y), Qred (g_cum (y_k y)), g_band (y_k y)).
Example C136_example :
  in_order xTable /\ List.length xTable = 3 /\
  StronglySorted (fun a b => (o_tid (r_obs a) < o_tid (r_obs b))%Z) xTable /\
  Forall (fun fast => snd (xBack fast) = Ok tt /\
    xShow (snd (fst (xBack fast))) = xShow xAfter2 /\
    xShow xAfter2 = (1609 # 3200, 2%Z, Some (mkPlace 1 0 (1 # 2)), 2, "g"%string)%Q /\
    c_w (fst (fst (xBack fast))) = 2 /\ c_ctr (fst (fst (xBack fast))) = 9%Z) [true; false].
Proof.
  split; [|split; [vm_compute; reflexivity|split]].
  - unfold in_order. let l := eval vm_compute in xTable in change xTable with l.
    repeat constructor; cbn; lia || reflexivity.
  - let l := eval vm_compute in xTable in change xTable with l. repeat constructor.
  - constructor; [vm_compute; repeat split|]. constructor; [vm_compute; repeat split|constructor].
Qed.

(** Without a band scheduler the bands mounted lack the z band, with one they
    follow the time of the first visit of the night. *)
Example C136_bands_example :
  snd (fst (xRestore true None 1 (init 0 0) (xNew []) xTable)) = snd (fst (xBack true)) /\
  g_mounted (y_k (snd (fst (xRestore true (Some (fun m : Q => if Qltb m (501 # 1000) then ["u"; "z"]%string else ["y"]%string)) 1 (init 0 0) (xNew []) xTable))))
  = ["u"; "z"]%string.
Proof. split; vm_compute; reflexivity. Qed.

(** ** C136, refuted *)

(** The run goes on from the second visit with the slew of a telescope that
    tracks; the restored one starts from the park position in another band. *)
Theorem C136_continue_refuted :
  let y2 := snd (fst (xBack true)) in
  let d := xWant 9 2 "g" in
  exists v1 v2, snd (xObserve xAfter2 d) = Ok (Some v1, false) /\ snd (xObserve y2 d) = Ok (Some v2, false) /\
    (v_slew v1 == 2)%Q /\ (v_slew v2 == 60)%Q /\ ~ (o_mjd (v_obs v1) == o_mjd (v_obs v2))%Q.
Proof. cbn zeta. eexists. eexists. split; [vm_compute; reflexivity|]. split; [vm_compute; reflexivity|]. repeat split; vm_compute; try reflexivity; discriminate. Qed.

(** Even within ten minutes of the start, the readout after the last visit is
    forgotten, so that the next slew is shorter. *)
Definition xSoon := [YObserve (xWant 4 0 "r"); YObserve (xWant 5 1 "r")].
Theorem C136_readout_refuted :
  let all := ["u"; "g"; "r"; "i"; "y"]%string in
  let '(y1, vs) := xRun (xNew all) (firstn 1 xSoon) in
  let y2 := snd (fst (xRestore true None 0 (init 0 0) (xNew all) (xRows 1 vs))) in
  xShow y2 = xShow y1 /\
  exists v1 v2, snd (xObserve y1 (xWant 5 1 "r")) = Ok (Some v1, false) /\ snd (xObserve y2 (xWant 5 1 "r")) = Ok (Some v2, false) /\
    (v_slew v1 == 2)%Q /\ (v_slew v2 == 1)%Q.
Proof. vm_compute. split; [reflexivity|]. eexists. eexists. split; [reflexivity|]. split; [reflexivity|]. split; reflexivity. Qed.

(** Restored after a visit in z, the telescope uses a band that is not mounted,
    and refuses visits in it. *)
Theorem C136_mounted_refuted :
  let bands := ["u"; "g"; "r"; "i"; "z"]%string in
  let '(y1, vs) := xRun (xNew bands) [YObserve (xWant 4 0 "z")] in
  let y2 := snd (fst (xRestore true None 0 (init 0 0) (xNew bands) (xRows 1 vs))) in
  g_band (y_k y2) = "z"%string /\ ~ In "z"%string (g_mounted (y_k y2)) /\
  (exists v, snd (xObserve y1 (xWant 5 1 "z")) = Ok (Some v, false)) /\
  snd (xObserve y2 (xWant 5 1 "z")) = Ok (None, false).
Proof.
  vm_compute. split; [reflexivity|]. split; [intuition discriminate|]. split; [eexists; reflexivity|reflexivity].
Qed.

(** A table that is not in the order of the numbers is refused although the
    visits are all there. *)
Theorem C136_order_refuted :
  exists rows, xRestore true None 1 (init 0 0) (xNew []) rows = ((init 0 0, xNew []), Raise IndexError) /\
    Permutation rows xTable.
Proof.
  exists (rev xTable). split; [vm_compute; reflexivity|]. symmetry. apply Permutation_rev.
Qed.

(** When only the filter of the visits is filled in, the band in use after
    restoring one by one is empty; the scheduler fills it in for the array. *)
Theorem C136_blank_refuted :
  let rows := [mkRow (mkObs 0 4 (1 # 2) 0 1000 0 0 0 30 1 "" "r_57" "") 1] in
  g_band (y_k (snd (fst (xRestore true None 0 (init 0 0) (xNew []) rows)))) = "r"%string /\
  g_band (y_k (snd (fst (xRestore false None 0 (init 0 0) (xNew []) rows)))) = ""%string.
Proof. split; vm_compute; reflexivity. Qed.
Print Assumptions C136_continue_refuted.
Print Assumptions C136_readout_refuted.
Print Assumptions C136_mounted_refuted.
Print Assumptions C136_order_refuted.
Print Assumptions C136_blank_refuted.

(** ** What a slew reads *)
From Coq Require Import Reals.
From Verif Require Kinem.

(** The kinematic model of Kinem.v tracking a place: the outcome of the next visit,
    and the place, azimuth, overhead and band after it, follow from what [tel]
    keeps.  The angles kept for reference do not matter. *)
Theorem C136_reads : forall (E : Kinem.conv) (P : Kinem.cfg) (a b : Kinem.kin) v mjd lax whl,
  Kinem.k_parked a = false -> Kinem.k_parked b = false ->
  Kinem.k_rotsky a <> None ->
  (Kinem.k_ra a, Kinem.k_dec a, Kinem.k_rotsky a, Kinem.k_cum a, Kinem.k_overhead a, Kinem.k_band a, Kinem.k_mounted a) =
  (Kinem.k_ra b, Kinem.k_dec b, Kinem.k_rotsky b, Kinem.k_cum b, Kinem.k_overhead b, Kinem.k_band b, Kinem.k_mounted b) ->
  let '(a1, ra) := Kinem.observe E P a v mjd None lax whl in
  let '(b1, rb) := Kinem.observe E P b v mjd None lax whl in
  ra = rb /\
  (Kinem.k_parked a1, Kinem.k_ra a1, Kinem.k_dec a1, Kinem.k_rotsky a1, Kinem.k_cum a1, Kinem.k_overhead a1, Kinem.k_band a1, Kinem.k_mounted a1) =
  (Kinem.k_parked b1, Kinem.k_ra b1, Kinem.k_dec b1, Kinem.k_rotsky b1, Kinem.k_cum b1, Kinem.k_overhead b1, Kinem.k_band b1, Kinem.k_mounted b1).
Proof.
  intros E P [pa ra da rs cum az alt rt ov bd sb mt] [pa' ra' da' rs' cum' az' alt' rt' ov' bd' sb' mt'] v mjd lax whl Pa Pb Rs Eq.
  cbn in Pa, Pb, Rs, Eq. subst pa pa'. inversion Eq; subst. clear Eq. destruct rs' as [rs|]; [|congruence].
  unfold Kinem.observe, Kinem.slew_times, Kinem.band_of, Kinem.band_ok, Kinem.dest, Kinem.origin, Kinem.rotation, Kinem.current_rot.
  cbn [Kinem.a_band Kinem.a_altaz Kinem.a_start Kinem.a_rottel Kinem.a_rotsky Kinem.a_start_rot Kinem.a_mjd Kinem.a_ra Kinem.a_dec Kinem.a_lax Kinem.a_while Kinem.a_const Kinem.a_update
       Kinem.k_parked Kinem.k_ra Kinem.k_dec Kinem.k_rotsky Kinem.k_cum Kinem.k_overhead Kinem.k_band Kinem.k_start_band Kinem.k_mounted Kinem.k_rottel bind].
  destruct (existsb _ mt'); cbn [negb]; [|split; reflexivity].
  destruct (Kinem.radec2altaz E (Kinem.v_ra v) (Kinem.v_dec v) mjd) as [[al az1] pa1].
  destruct (Kinem.radec2altaz E ra' da' mjd) as [[al0 az0] pa0].
  cbv beta iota zeta delta [bind].
  match goal with |- context [if Rlt_dec (Kinem.telalt_max P) al then None else ?u] =>
    destruct (if Rlt_dec (Kinem.telalt_max P) al then None else u) end; cbn; split; reflexivity.
Qed.
Print Assumptions C136_reads.
