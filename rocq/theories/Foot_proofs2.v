(** Proofs about footprint objects. *)
From Coq Require Import List ZArith QArith Qround Qabs Qfield Bool Lia Lqa Permutation.
From Verif Require Import Base VaryExpt Foot Foot_proofs.
Import ListNotations.
Open Scope nat_scope.

(** ** Grids *)
Definition cell (g : grid) (b p : nat) : Q := nth p (nth b g []) 0%Q.
Definition shape (nb np : nat) (g : grid) : Prop := List.length g = nb /\ forall r, In r g -> List.length r = np.
Lemma map2_len : forall {A B C} (f : A -> B -> C) a b, List.length (map2 f a b) = Nat.min (List.length a) (List.length b).
Proof. intros. unfold map2. rewrite map_length, combine_length. reflexivity. Qed.
Lemma map2_nth : forall {A B C} (f : A -> B -> C) a b i da db dc, i < List.length a -> i < List.length b -> nth i (map2 f a b) dc = f (nth i a da) (nth i b db).
Proof.
  intros A B C f a. induction a as [|x a IH]; intros [|y b] i da db dc I J; cbn in I, J; try lia. destruct i as [|i]; [reflexivity|]. apply (IH b i); lia.
Qed.
Lemma shape_row : forall nb np g b, shape nb np g -> b < nb -> List.length (nth b g []) = np.
Proof. intros nb np g b [L R] B. apply R, nth_In. lia. Qed.
Lemma in_map2 : forall {A B C} (f : A -> B -> C) a b x, In x (map2 f a b) -> exists y z, In y a /\ In z b /\ x = f y z.
Proof.
  intros A B C f a b x I. unfold map2 in I. apply in_map_iff in I. destruct I as ((y, z) & <- & J). exists y, z. split; [apply in_combine_l in J; exact J|]. split; [apply in_combine_r in J; exact J|reflexivity].
Qed.
Lemma shape_op : forall op nb np g h, shape nb np g -> shape nb np h -> shape nb np (map2 (map2 op) g h).
Proof.
  intros op nb np g h [G1 G2] [H1 H2]. split; [rewrite map2_len; lia|]. intros r R. apply in_map2 in R. destruct R as (y & z & Y & Z & ->). rewrite map2_len, (G2 y Y), (H2 z Z). lia.
Qed.
Lemma cell_op : forall op nb np g h b p, shape nb np g -> shape nb np h -> b < nb -> p < np -> cell (map2 (map2 op) g h) b p = op (cell g b p) (cell h b p).
Proof.
  intros op nb np g h b p G H B P. unfold cell. pose proof (shape_row _ _ _ b G B). pose proof (shape_row _ _ _ b H B). destruct G as [G _], H as [H _].
  rewrite (map2_nth (map2 op) g h b [] [] []) by lia. rewrite (map2_nth op _ _ p 0%Q 0%Q 0%Q) by lia. reflexivity.
Qed.
Lemma shape_repeat : forall nb np r, List.length r = np -> shape nb np (repeat r nb).
Proof. intros nb np r R. split; [apply repeat_length|]. intros x X. apply repeat_spec in X. subst x. exact R. Qed.
Lemma cell_repeat : forall nb r b p, b < nb -> cell (repeat r nb) b p = nth p r 0%Q.
Proof. intros nb r b p B. unfold cell. f_equal. erewrite nth_indep; [apply nth_repeat|rewrite repeat_length; exact B]. Qed.
Lemma shape_map : forall f nb np g, shape nb np g -> shape nb np (map (map f) g).
Proof. intros f nb np g [L R]. split; [rewrite map_length; exact L|]. intros r I. apply in_map_iff in I. destruct I as (x & <- & X). rewrite map_length. apply R. exact X. Qed.
Lemma cell_map : forall f nb np g b p, shape nb np g -> b < nb -> p < np -> cell (map (map f) g) b p = f (cell g b p).
Proof.
  intros f nb np g b p G B P. unfold cell. pose proof (shape_row _ _ _ b G B). destruct G as [G _].
  rewrite (nth_indep (map (map f) g) [] (map f [])) by (rewrite map_length; lia). rewrite map_nth. rewrite (nth_indep _ 0%Q (f 0%Q)) by (rewrite map_length; lia). apply map_nth.
Qed.
(** Sums cell by cell *)
Lemma qsum_ext : forall a b, List.length a = List.length b -> (forall i, i < List.length a -> (nth i a 0 == nth i b 0)%Q) -> (qsum a == qsum b)%Q.
Proof.
  unfold qsum. induction a as [|x a IH]; intros [|y b] L H; cbn in L; try lia; [reflexivity|]. cbn [fold_right]. rewrite (IH b); [|lia|intros i I; exact (H (S i) ltac:(cbn; lia))]. pose proof (H 0 ltac:(cbn; lia)) as E. cbn in E. rewrite E. reflexivity.
Qed.
Lemma gsum_ext : forall nb np g h, shape nb np g -> shape nb np h -> (forall b p, b < nb -> p < np -> (cell g b p == cell h b p)%Q) -> (gsum g == gsum h)%Q.
Proof.
  intros nb np g h G H E. unfold gsum. apply qsum_ext; [rewrite !map_length; destruct G, H; congruence|]. intros b B. rewrite map_length in B.
  assert (B' : b < nb) by (destruct G; lia). pose proof (shape_row _ _ _ b G B'). pose proof (shape_row _ _ _ b H B').
  rewrite (nth_indep (map qsum g) 0%Q (qsum [])) by (rewrite map_length; destruct G, H; lia). rewrite (nth_indep (map qsum h) 0%Q (qsum [])) by (rewrite map_length; destruct G, H; lia). rewrite !map_nth. apply qsum_ext; [congruence|]. intros p P. apply E; [exact B'|congruence].
Qed.
Lemma qsum_div : forall l c, ~ (c == 0)%Q -> (qsum (map (fun x => x / c) l) == qsum l / c)%Q.
Proof. intros l c C. unfold qsum. induction l as [|x l IH]; cbn [map fold_right]; [field; exact C|]. rewrite IH. field. exact C. Qed.
Lemma gsum_div : forall g c, ~ (c == 0)%Q -> (gsum (gdiv g c) == gsum g / c)%Q.
Proof.
  intros g c C. unfold gsum, gdiv. induction g as [|r g IH]; [unfold qsum; cbn; field; exact C|]. cbn [map]. 
  transitivity (qsum (map (fun x => (x / c)%Q) r) + qsum (map qsum (map (map (fun x => (x / c)%Q)) g)))%Q; [reflexivity|]. rewrite IH, qsum_div by exact C.
  transitivity ((qsum r + qsum (map qsum g)) / c)%Q; [field; exact C|reflexivity].
Qed.
(** A normed footprint adds up to one, or is zero everywhere. *)
Lemma normed_sum : forall g, (gsum (normed true g) == 1)%Q \/ (gsum g == 0)%Q /\ normed true g = g.
Proof.
  intro g. unfold normed. destruct (Qeq_bool (gsum g) 0) eqn:E.
  - apply Qeq_bool_iff in E. right. auto.
  - apply Qeq_bool_neq in E. left. rewrite gsum_div by exact E. field. exact E.
Qed.

(** ** Asking *)
Definition wanted (f : fp) (norm : bool) (mjd : Q) : res grid :=
  bind (cover (f_step f) (List.length (f_maps f)) (mjd - f_start f) (f_phase f)) (fun c => Ok (normed norm (gmul (f_maps f) (gsub c (f_zero f))))).
Definition same_fp (f g : fp) : Prop := f_maps f = f_maps g /\ f_zero f = f_zero g /\ f_start f = f_start g /\ f_phase f = f_phase g /\ f_step f = f_step g.
Lemma same_wanted : forall f g norm mjd, same_fp f g -> wanted f norm mjd = wanted g norm mjd.
Proof. intros f g norm mjd (A & B & C & D & E). unfold wanted. rewrite A, B, C, D, E. reflexivity. Qed.
Definition alike (ms : list Q) : Prop := forall m m', In m ms -> In m' ms -> (m == m')%Q -> m = m'.
Definition steady (norm : bool) (ms : list Q) (f : fp) : Prop :=
  match f_mjd f with None => True | Some m => In m ms /\ wanted f norm m = Ok (f_cur f) end.
Lemma update_steady : forall norm ms f m g, alike ms -> In m ms -> steady norm ms f -> wanted f norm m = Ok g ->
  exists f', update_fp m norm f = (f', None) /\ f_cur f' = g /\ same_fp f' f /\ steady norm ms f'.
Proof.
  intros norm ms f m g A M S W. unfold update_fp. destruct (same_mjd (f_mjd f) m) eqn:E.
  - exists f. unfold steady in S. destruct (f_mjd f) as [m0|] eqn:Em; [|discriminate]. cbn in E. apply Qeq_bool_iff in E. destruct S as [S1 S2]. rewrite (A m0 m S1 M E) in *.
    split; [reflexivity|]. split; [congruence|]. split; [repeat split|]. unfold steady. rewrite Em. auto.
  - unfold wanted in W. destruct (cover _ _ _ _) as [c|e] eqn:C; [|discriminate]. cbn [bind] in W. injection W as <-.
    eexists. split; [reflexivity|]. split; [reflexivity|]. split; [repeat split|]. unfold steady. cbn [f_mjd]. split; [exact M|]. unfold wanted. cbn [f_step f_maps f_start f_phase f_zero f_cur]. rewrite C. reflexivity.
Qed.
Fixpoint asks (norm : bool) (f : fp) (ms : list Q) : list (res grid) :=
  match ms with [] => [] | m :: r => let a := ask_fp m norm f in snd a :: asks norm (fst a) r end.
Lemma asks_wanted : forall norm all ms f g, alike all -> incl ms all -> steady norm all f -> same_fp f g -> (forall m, In m ms -> exists w, wanted g norm m = Ok w) ->
  asks norm f ms = map (wanted g norm) ms.
Proof.
  intros norm all ms. induction ms as [|m ms IH]; intros f g A I S E W; [reflexivity|]. destruct (W m (or_introl eq_refl)) as [w Hw].
  assert (Hf : wanted f norm m = Ok w) by (rewrite (same_wanted f g norm m E); exact Hw).
  destruct (update_steady norm all f m w A (I m (or_introl eq_refl)) S Hf) as (f' & U1 & U2 & U3 & U4).
  cbn [asks map]. unfold ask_fp. rewrite U1. cbn [fst snd]. rewrite U2, Hw. f_equal. apply IH; auto.
  - intros x X. apply I. now right.
  - destruct U3 as (a & b & c & d & e), E as (a' & b' & c' & d' & e'). repeat split; congruence.
  - intros x X. apply W. now right.
Qed.

(** ** Asking a sum *)
Definition wanted_parts (parts : list fp) (mjd : Q) : res (list grid) := mapM (fun f => wanted f false mjd) parts.
Lemma mapM_ok : forall {A B} (f : A -> res B) l ys, mapM f l = Ok ys -> Forall2 (fun x y => f x = Ok y) l ys.
Proof.
  induction l as [|x l IH]; intros ys H; cbn in H; [injection H as <-; constructor|]. destruct (f x) as [y|] eqn:E; [|discriminate]. cbn in H. destruct (mapM f l) as [zs|] eqn:F; [|discriminate]. cbn in H. injection H as <-. constructor; [exact E|]. apply IH. reflexivity.
Qed.
Lemma mapM_all : forall {A B} (f : A -> res B) l, (forall x, In x l -> exists y, f x = Ok y) -> exists ys, mapM f l = Ok ys.
Proof.
  induction l as [|x l IH]; intro H; [exists []; reflexivity|]. destruct (H x (or_introl eq_refl)) as [y Y]. destruct IH as [ys Ys]; [intros z Z; apply H; now right|]. exists (y :: ys). cbn. rewrite Y. cbn. rewrite Ys. reflexivity.
Qed.
Lemma update_parts_steady : forall ms m parts cur gs, alike ms -> In m ms -> Forall (steady false ms) parts -> wanted_parts parts m = Ok gs ->
  exists parts', update_parts m cur parts = (parts', fold_left gadd gs cur, None) /\ Forall2 same_fp parts' parts /\ Forall (steady false ms) parts'.
Proof.
  intros ms m parts. induction parts as [|f parts IH]; intros cur gs A M S W.
  - cbn in W. injection W as <-. exists []. repeat split; constructor.
  - unfold wanted_parts in W. cbn [mapM] in W. destruct (wanted f false m) as [g|] eqn:Wf; [|discriminate]. cbn [bind] in W. destruct (mapM _ parts) as [hs|] eqn:Wp; [|discriminate]. cbn [bind] in W. injection W as <-.
    inversion S as [|? ? S1 S2]; subst. destruct (update_steady false ms f m g A M S1 Wf) as (f' & U1 & U2 & U3 & U4).
    destruct (IH (gadd cur g) hs A M S2 Wp) as (parts' & V1 & V2 & V3). exists (f' :: parts'). cbn [update_parts]. rewrite U1. cbn [fst snd]. rewrite U2, V1. cbn [fst snd fold_left].
    repeat split; constructor; auto.
Qed.
Definition wanted_sum (F : fps) (norm : bool) (mjd : Q) : res grid :=
  bind (wanted_parts (p_parts F) mjd) (fun gs => Ok (normed norm (fold_left gadd gs (map (map (fun _ => 0%Q)) (p_maps F))))).
Definition steady_sum (norm : bool) (ms : list Q) (F : fps) : Prop :=
  Forall (steady false ms) (p_parts F) /\ match p_mjd F with None => True | Some m => In m ms /\ wanted_sum F norm m = Ok (p_cur F) end.
Lemma same_parts_wanted : forall parts parts' m, Forall2 same_fp parts' parts -> wanted_parts parts' m = wanted_parts parts m.
Proof. intros parts parts' m H. unfold wanted_parts. induction H as [|f g l l' E _ IH]; [reflexivity|]. cbn [mapM]. rewrite (same_wanted f g false m E), IH. reflexivity. Qed.
Fixpoint asks_sum (norm : bool) (F : fps) (ms : list Q) : list (res grid) :=
  match ms with [] => [] | m :: r => let a := ask_fps m norm F in snd a :: asks_sum norm (fst a) r end.
Lemma asks_sum_wanted : forall norm all ms F G, alike all -> incl ms all -> steady_sum norm all F -> Forall2 same_fp (p_parts F) (p_parts G) -> p_maps F = p_maps G ->
  (forall m, In m ms -> exists w, wanted_sum G norm m = Ok w) -> asks_sum norm F ms = map (wanted_sum G norm) ms.
Proof.
  intros norm all ms. induction ms as [|m ms IH]; intros F G A I [S1 S2] E EM W; [reflexivity|]. destruct (W m (or_introl eq_refl)) as [w Hw].
  assert (Hf : wanted_sum F norm m = Ok w) by (unfold wanted_sum in *; rewrite (same_parts_wanted _ _ m E), EM; exact Hw). assert (Im : In m all) by (apply I; now left).
  cbn [asks_sum map]. unfold ask_fps at 1 2. destruct (same_mjd (p_mjd F) m) eqn:Sm.
  - cbn [fst snd]. destruct (p_mjd F) as [m0|] eqn:Em; [|discriminate]. cbn in Sm. apply Qeq_bool_iff in Sm. destruct S2 as [S2 S3]. rewrite (A m0 m S2 Im Sm) in *. rewrite Hf in S3. injection S3 as ->. rewrite Hw. f_equal.
    apply IH; auto; [intros x X; apply I; now right| |intros x X; apply W; now right]. split; [exact S1|]. rewrite Em. auto.
  - assert (Hf2 := Hf). unfold wanted_sum in Hf. destruct (wanted_parts (p_parts F) m) as [gs|] eqn:Wp; [|discriminate]. cbn [bind] in Hf. injection Hf as Hf.
    destruct (update_parts_steady all m (p_parts F) (map (map (fun _ => 0%Q)) (p_maps F)) gs A Im S1 Wp) as (parts' & U1 & U2 & U3). rewrite U1. cbn [fst snd]. rewrite Hf, Hw. f_equal.
    apply IH; auto; [intros x X; apply I; now right| | |intros x X; apply W; now right].
    + split; [exact U3|]. cbn [p_mjd]. split; [exact Im|]. unfold wanted_sum. cbn [p_parts p_maps p_cur]. rewrite (same_parts_wanted _ _ m U2), Wp. cbn [bind]. rewrite Hf. reflexivity.
    + cbn [p_parts]. clear - U2 E. revert U2 E. generalize (p_parts F). intros l U2. generalize (p_parts G). induction U2 as [|x y l l' H _ IH]; intros g E; inversion E as [|? ? ? ? E1 E2]; subst; constructor; auto.
      destruct H as (a & b & c & d & e), E1 as (a' & b' & c' & d' & e'). repeat split; congruence.
Qed.
(** the sum of parts, cell by cell *)
Lemma fold_gadd : forall nb np gs z b p, Forall (shape nb np) gs -> shape nb np z -> b < nb -> p < np ->
  shape nb np (fold_left gadd gs z) /\ (cell (fold_left gadd gs z) b p == cell z b p + qsum (map (fun g => cell g b p) gs))%Q.
Proof.
  intros nb np gs. induction gs as [|g gs IH]; intros z b p G Z B P; [split; [exact Z|unfold qsum; cbn [fold_left map fold_right]; ring]|]. inversion G as [|? ? G1 G2]; subst. cbn [fold_left map].
  destruct (IH (gadd z g) b p G2 (shape_op Qplus _ _ _ _ Z G1) B P) as [X Y]. split; [exact X|]. rewrite Y. unfold gadd. rewrite (cell_op Qplus nb np z g b p Z G1 B P). unfold qsum. cbn [fold_right]. ring.
Qed.

(** ** Maps of the rolling footprints *)
Lemma keep_nth : forall sel m p, nth p (keep_at sel m) 0%Q = if sel p then nth p m 0%Q else 0%Q.
Proof.
  intros sel m p. unfold keep_at.
  assert (G : forall m s p, nth p (map (fun px : nat * Q => if sel (fst px) then snd px else 0%Q) (combine (seq s (List.length m)) m)) 0%Q = if sel (s + p) then nth p m 0%Q else 0%Q).
  { clear. induction m as [|x m IH]; intros s p; [cbn; destruct p; destruct (sel _); reflexivity|]. cbn [List.length seq combine map fst snd]. destruct p as [|p]; [rewrite Nat.add_0_r; reflexivity|]. cbn [nth]. rewrite IH. replace (S s + p) with (s + S p) by lia. reflexivity. }
  apply G.
Qed.
Lemma keep_len : forall sel m, List.length (keep_at sel m) = List.length m.
Proof. intros. unfold keep_at. rewrite map_length, combine_length, seq_length. lia. Qed.
Lemma mem_in : forall p l, mem p l = true <-> In p l.
Proof. intros. unfold mem. rewrite existsb_exists. split; [intros (x & X & E); apply Nat.eqb_eq in E; subst; exact X|intro I; exists p; split; [exact I|apply Nat.eqb_refl]]. Qed.
Lemma sum_one : forall (sel : nat -> bool) x l, NoDup l -> (forall j, In j l -> sel j = false) -> (qsum (map (fun j => if sel j then x else 0%Q) l) == 0)%Q.
Proof. intros sel x l _. unfold qsum. induction l as [|j l IH]; intro H; [reflexivity|]. cbn [map fold_right]. rewrite (H j (or_introl eq_refl)), IH by (intros k K; apply H; now right). ring. Qed.
Lemma sum_only : forall (sel : nat -> bool) x l j, NoDup l -> In j l -> sel j = true -> (forall k, In k l -> sel k = true -> k = j) -> (qsum (map (fun j => if sel j then x else 0%Q) l) == x)%Q.
Proof.
  intros sel x l. induction l as [|k l IH]; intros j D I S U; [destruct I|]. inversion D as [|? ? D1 D2]; subst. cbn [map].
  transitivity ((if sel k then x else 0) + qsum (map (fun j => if sel j then x else 0%Q) l))%Q; [reflexivity|]. destruct I as [->|I].
  - rewrite S. rewrite sum_one; [ring|exact D2|]. intros i Hi. destruct (sel i) eqn:E; [|reflexivity]. exfalso. apply D1. rewrite <- (U i (or_intror Hi) E). exact Hi.
  - destruct (sel k) eqn:E; [exfalso; apply D1; rewrite (U k (or_introl eq_refl) E); exact I|]. rewrite (IH j D2 I S); [ring|]. intros i Hi. apply U. now right.
Qed.
Lemma roll_maps_sum : forall nslice north wfd ra sun uniform m p, 1 <= nslice -> NoDup wfd -> (0 <= ra p < 1)%Q ->
  (uniform = true -> ~ (ra p == qrem (sun + (1 # 4)) 1)%Q /\ ~ (ra p == qrem (sun + (3 # 4)) 1)%Q) ->
  (qsum (map (fun m' => nth p m' 0%Q) (roll_maps nslice north wfd ra sun uniform m)) == nth p m 0)%Q.
Proof.
  intros nslice north wfd ra sun uniform m p N D R B. unfold roll_maps. cbv zeta. set (first := fun q => in_ra_range (ra q) (sun + (3 # 4)) (sun + (1 # 4))). set (second := fun q => in_ra_range (ra q) (sun + (1 # 4)) (sun + (3 # 4))).
  rewrite map_cons, map_app, !map_map. transitivity (nth p (keep_at (fun q => negb (mem q wfd)) m) 0 + qsum (map (fun x => nth p (keep_at (fun q => mem q wfd && mem q (slice_indx nslice north wfd x) && (if uniform then first q else true)) m) 0%Q) (seq 0 nslice) ++ map (fun x => nth p (keep_at (fun q => uniform && mem q wfd && mem q (slice_indx nslice north wfd x) && second q) m) 0%Q) (seq 0 nslice)))%Q; [reflexivity|].
  rewrite qsum_app, keep_nth.
  rewrite (map_ext (fun x => nth p (keep_at _ m) 0%Q) (fun x => if (fun x => mem p wfd && mem p (slice_indx nslice north wfd x) && (if uniform then first p else true)) x then nth p m 0%Q else 0%Q)) by (intro x; apply keep_nth).
  rewrite (map_ext (fun x => nth p (keep_at _ m) 0%Q) (fun x => if (fun x => uniform && mem p wfd && mem p (slice_indx nslice north wfd x) && second p) x then nth p m 0%Q else 0%Q)) by (intro x; apply keep_nth).
  set (v := nth p m 0%Q). destruct (mem p wfd) eqn:M; cbn [negb].
  - apply mem_in in M. destruct (slice_one nslice north wfd p N D M) as (j & [J1 J2] & J3).
    assert (Sj : forall x, In x (seq 0 nslice) -> mem p (slice_indx nslice north wfd x) = true -> x = j) by (intros x X E; apply J3; [apply in_seq in X; lia|apply mem_in; exact E]).
    assert (Ij : In j (seq 0 nslice)) by (apply in_seq; lia). assert (Mj : mem p (slice_indx nslice north wfd j) = true) by (apply mem_in; exact J2).
    pose proof (seq_NoDup nslice 0) as Ds. destruct uniform.
    + pose proof (in_range_halves (ra p) sun R (proj1 (B eq_refl)) (proj2 (B eq_refl))) as H. fold (first p) in H. fold (second p) in H. destruct (first p) eqn:F; cbn [negb] in H.
      * rewrite (sum_only _ v _ j Ds Ij); [|rewrite Mj; reflexivity|intros k K E; apply Sj; [exact K|]; apply andb_true_iff in E; destruct E as [E _]; exact E]. rewrite sum_one; [ring|exact Ds|]. intros k K. rewrite H, andb_false_r. reflexivity.
      * rewrite sum_one; [|exact Ds|intros k K; rewrite andb_false_r; reflexivity]. rewrite (sum_only _ v _ j Ds Ij); [ring|rewrite Mj, H; reflexivity|]. intros k K E. apply Sj; [exact K|]. apply andb_true_iff in E. destruct E as [E _]. exact E.
    + rewrite (sum_only _ v _ j Ds Ij); [|rewrite Mj; reflexivity|intros k K E; apply Sj; [exact K|]; apply andb_true_iff in E; destruct E as [E _]; exact E]. rewrite sum_one; [ring|exact Ds|]. intros. reflexivity.
  - pose proof (seq_NoDup nslice 0) as Ds. rewrite !sum_one; [ring|exact Ds| |exact Ds|].
    + intros k K. rewrite andb_false_r. reflexivity.
    + intros k K. reflexivity.
Qed.

(** ** The rolling footprint as a whole *)
Lemma Forall2_right : forall {A B} (R : A -> B -> Prop) l l' y, Forall2 R l l' -> In y l' -> exists x, R x y.
Proof. induction 1 as [|a b l l' H _ IH]; intro I; [destruct I|]. destruct I as [<-|I]; [exists a; exact H|apply IH; exact I]. Qed.
Lemma Forall2_join : forall {A B C} (R : A -> B -> Prop) (S : B -> C -> Prop) l l' l'', Forall2 R l l' -> Forall2 S l' l'' -> Forall2 (fun x z => exists y, R x y /\ S y z) l l''.
Proof. intros A B C R T l l' l'' H. revert l''. induction H as [|a b l l' H _ IH]; intros l'' K; inversion K; subst; constructor; [exists b; auto|apply IH; assumption]. Qed.
Lemma Forall2_len : forall {A B} (R : A -> B -> Prop) l l', Forall2 R l l' -> List.length l = List.length l'.
Proof. induction 1; cbn; congruence. Qed.
Lemma Forall2_qsum : forall {A B} (R : A -> B -> Prop) (f : A -> Q) (g : B -> Q) l l', Forall2 R l l' -> (forall x y, R x y -> (f x == g y)%Q) -> (qsum (map f l) == qsum (map g l'))%Q.
Proof. intros A B R f g l l' H E. unfold qsum. induction H as [|x y l l' X _ IH]; [reflexivity|]. cbn [map fold_right]. rewrite IH, (E x y X). reflexivity. Qed.
Lemma map_fst_combine : forall {A B C} (h : A -> C) (a : list A) (b : list B), List.length a = List.length b -> map (fun x => h (fst x)) (combine a b) = map h a.
Proof. induction a as [|x a IH]; intros [|y b] L; cbn in L; try lia; [reflexivity|]. cbn. f_equal. apply IH. lia. Qed.
Lemma phase_range : forall sun ra, (0 <= pix_phase year sun ra < year)%Q.
Proof.
  intros sun ra. unfold pix_phase. destruct (qrem_spec (0 - ra + sun + (1 # 4)) 1 ltac:(lra)) as [[A B] _]. set (r := qrem _ 1) in *. clearbody r.
  assert (Y : (0 < year)%Q) by reflexivity. set (y := year) in *. clearbody y. split; nra.
Qed.
Section Rolling.
Variables (nslice : nat) (scale : Q) (order : Z) (n_start n_end n_cycles : nat) (uniform : bool).
Hypothesis two : 2 <= nslice.
Hypothesis start2 : 2 <= n_start.
Hypothesis end1 : 1 <= n_end.
Let cl := cycle_len nslice uniform.
Let total := n_start + n_cycles * cl + n_end.
Let ST := Line year 1 0 :: map (fun s => Slopes year s 0) (all_slopes nslice scale order n_start n_end n_cycles uniform).
(** out of the rolling seasons *)
Definition still (t ph : Q) : Prop := (Qfloor ((t + ph - 0) / year) + 1 < Z.of_nat n_start \/ Z.of_nat (n_start + n_cycles * cl) <= Qfloor ((t + ph - 0) / year) + 1)%Z.
Lemma slopes_form : forall s, In s (all_slopes nslice scale order n_start n_end n_cycles uniform) ->
  exists c, s = one_slopes n_start n_end n_cycles c /\ List.length c = cl /\ (qsum c == inject_Z (Z.of_nat (List.length c)))%Q.
Proof using two.
  clear start2 end1.
  intros s I. unfold all_slopes in I. apply in_app_or in I. destruct I as [I|I]; apply in_map_iff in I; destruct I as (i & <- & _).
  - eexists. split; [reflexivity|]. rewrite cycle_length by lia. split; [reflexivity|]. apply cycle_sum. lia.
  - eexists. split; [reflexivity|]. assert (L : 2 <= List.length (slice_cycle nslice scale order uniform i)) by (rewrite cycle_length by lia; unfold cycle_len; lia).
    pose proof (swap_perm _ L) as P. rewrite (Permutation_length P), cycle_length by lia. split; [reflexivity|]. rewrite (qsum_perm _ _ P). apply cycle_sum. lia.
Qed.
Lemma season_bound : forall t ph, (0 <= t < inject_Z (Z.of_nat total - 2) * year)%Q -> (0 <= ph < year)%Q -> (0 <= Qfloor ((t + ph - 0) / year) /\ Qfloor ((t + ph - 0) / year) + 1 < Z.of_nat total)%Z.
Proof.
  intros t ph T P. assert (Y : (0 < year)%Q) by reflexivity. split; [apply floor_nonneg, Qle_shift_div_l; lra|].
  assert (B : ((t + ph - 0) / year < inject_Z (Z.of_nat total - 1))%Q).
  { apply Qlt_shift_div_r; [exact Y|]. replace (Z.of_nat total - 1)%Z with (Z.of_nat total - 2 + 1)%Z by lia. rewrite inject_Z_plus. change (inject_Z 1) with 1%Q. lra. }
  pose proof (Qfloor_le ((t + ph - 0) / year)) as F. assert (G : (inject_Z (Qfloor ((t + ph - 0) / year)) < inject_Z (Z.of_nat total - 1))%Q) by lra. rewrite <- Zlt_Qlt in G. lia.
Qed.
Lemma cover_row : forall sf nb t phase, In sf ST -> (0 <= t < inject_Z (Z.of_nat total - 2) * year)%Q -> (forall ph, In ph phase -> (0 <= ph < year)%Q) ->
  exists row, cover sf nb t phase = Ok (repeat row nb) /\ List.length row = List.length phase /\
    forall p, p < List.length phase -> still t (nth p phase 0%Q) -> (nth p row 0 == line_at year 1 0 t (nth p phase 0))%Q.
Proof.
  intros sf nb t phase I T P. assert (Y : (0 < year)%Q) by reflexivity. destruct I as [<-|I].
  - eexists. split; [reflexivity|]. split; [apply map_length|]. intros p L _. rewrite (nth_indep _ 0%Q (line_at year 1 0 t 0)) by (rewrite map_length; exact L). rewrite (map_nth (line_at year 1 0 t)). reflexivity.
  - apply in_map_iff in I. destruct I as (s & <- & I). destruct (slopes_form s I) as (c & -> & Lc & Mc).
    assert (Ok1 : forall ph, In ph phase -> exists v, slopes_at year (one_slopes n_start n_end n_cycles c) 0 t ph = Ok v).
    { intros ph H. destruct (season_bound t ph T (P ph H)) as [S1 S2]. destruct (slopes_stair year (one_slopes n_start n_end n_cycles c) 0 t ph Y) as (v & V & _); [pose proof (P ph H); lra| |exists v; exact V].
      rewrite one_len, Lc. exact S2. }
    destruct (mapM_all (slopes_at year (one_slopes n_start n_end n_cycles c) 0 t) phase Ok1) as [row Hr]. exists row. cbn [cover]. rewrite Hr. cbn [bind]. split; [reflexivity|].
    apply mapM_ok in Hr. split; [symmetry; eapply Forall2_len; exact Hr|]. intros p L S.
    assert (H : slopes_at year (one_slopes n_start n_end n_cycles c) 0 t (nth p phase 0%Q) = Ok (nth p row 0%Q)).
    { clear - Hr L. revert p L. induction Hr as [|x y l l' H _ IH]; intros p L; cbn in L; [lia|]. destruct p as [|p]; [exact H|]. apply IH. lia. }
    assert (Pp : (0 <= nth p phase 0 < year)%Q) by (apply P, nth_In; exact L). destruct (season_bound t _ T Pp) as [S1 S2].
    destruct (slopes_line n_start n_end n_cycles c Mc year 0 t (nth p phase 0%Q) Y) as (v & V1 & V2); [lia|lra| |rewrite H in V1; injection V1 as ->; exact V2].
    rewrite Lc. unfold still in S. fold total. destruct S as [S|S]; [left; exact S|right; split; [exact S|exact S2]].
Qed.
Variables (maps : grid) (start sun : Q) (ras : list Q) (north : nat -> bool) (wfd : list nat).
Hypothesis maps_fit : forall m, In m maps -> List.length m = List.length ras.
Hypothesis wfd_nodup : NoDup wfd.
Hypothesis ra_range : forall r, In r ras -> (0 <= r < 1)%Q.
Let nb := List.length maps.
Let np := List.length ras.
Let rm := roll_maps nslice north wfd (fun p => nth p ras 0%Q) sun uniform.
Definition off_edge (p : nat) : Prop := uniform = true -> ~ (nth p ras 0 == qrem (sun + (1 # 4)) 1)%Q /\ ~ (nth p ras 0 == qrem (sun + (3 # 4)) 1)%Q.
Definition phase_of (p : nat) : Q := pix_phase year sun (nth p ras 0%Q).
Lemma rm_len : forall m, List.length (rm m) = List.length ST.
Proof. intro m. unfold rm, ST, roll_maps, all_slopes. cbn [List.length]. rewrite !app_length, !map_length, app_length, !map_length, seq_length. lia. Qed.
Lemma rm_rows : forall m x, In x (rm m) -> List.length x = List.length m.
Proof.
  intros m x I. unfold rm, roll_maps in I. destruct I as [<-|I]; [apply keep_len|]. apply in_app_or in I. destruct I as [I|I]; apply in_map_iff in I; destruct I as (j & <- & _); apply keep_len.
Qed.
Lemma part_maps_shape : forall k, k < List.length ST -> shape nb np (map (fun m => nth k (rm m) []) maps).
Proof.
  intros k K. split; [apply map_length|]. intros r R. apply in_map_iff in R. destruct R as (m & <- & M). rewrite (rm_rows m) by (apply nth_In; rewrite rm_len; exact K). apply maps_fit. exact M.
Qed.
Lemma part_cell : forall k b p, b < nb -> cell (map (fun m => nth k (rm m) []) maps) b p = nth p (nth k (rm (nth b maps [])) []) 0%Q.
Proof.
  intros k b p B. unfold cell. f_equal. rewrite (nth_indep _ [] ((fun m => nth k (rm m) []) [])) by (rewrite map_length; exact B). rewrite (map_nth (fun m => nth k (rm m) [])). reflexivity.
Qed.
Lemma sum_k : forall b p, b < nb -> p < np -> off_edge p -> (qsum (map (fun k => nth p (nth k (rm (nth b maps [])) []) 0%Q) (seq 0 (List.length ST))) == cell maps b p)%Q.
Proof.
  intros b p B P O. rewrite <- (rm_len (nth b maps [])). set (l := rm (nth b maps [])).
  assert (E : map (fun k => nth p (nth k l []) 0%Q) (seq 0 (List.length l)) = map (fun m' => nth p m' 0%Q) l).
  { clearbody l. clear. apply nth_ext with (d := 0%Q) (d' := 0%Q); [rewrite !map_length, seq_length; reflexivity|]. intros k K. rewrite map_length, seq_length in K.
    rewrite (nth_indep _ 0%Q (nth p (nth 0 l []) 0%Q)) by (rewrite map_length, seq_length; exact K). rewrite (map_nth (fun k => nth p (nth k l []) 0%Q)), seq_nth by exact K.
    rewrite (nth_indep (map _ l) 0%Q (nth p [] 0%Q)) by (rewrite map_length; exact K). rewrite (map_nth (fun m' => nth p m' 0%Q)). reflexivity. }
  rewrite E. unfold l, rm. rewrite roll_maps_sum; [reflexivity|lia|exact wfd_nodup|apply ra_range, nth_In; exact P|exact O].
Qed.
Lemma rolling_spec : exists F, make_rolling maps start sun ras north wfd nslice scale order n_start n_end n_cycles uniform = Ok F /\
  p_mjd F = None /\ Forall (fun f => f_mjd f = None) (p_parts F) /\ shape nb np (p_maps F) /\
  (forall b p, b < nb -> p < np -> off_edge p -> (cell (p_maps F) b p == cell maps b p)%Q) /\
  forall mjd, (0 <= mjd - start < inject_Z (Z.of_nat total - 2) * year)%Q ->
    exists gs, wanted_parts (p_parts F) mjd = Ok gs /\ Forall (shape nb np) gs /\
      forall b p, b < nb -> p < np -> off_edge p -> still (mjd - start) (phase_of p) ->
        (qsum (map (fun g => cell g b p) gs) == cell maps b p * (line_at year 1 0 (mjd - start) (phase_of p) - line_at year 1 0 0 (phase_of p)))%Q.
Proof.
  set (phase := map (pix_phase year sun) ras).
  assert (Lp : List.length phase = np) by apply map_length.
  assert (Pr : forall ph, In ph phase -> (0 <= ph < year)%Q) by (intros ph H; apply in_map_iff in H; destruct H as (r & <- & _); apply phase_range).
  assert (Pn : forall p, p < np -> nth p phase 0%Q = phase_of p).
  { intros p P. unfold phase, phase_of. rewrite (nth_indep _ 0%Q (pix_phase year sun 0)) by (rewrite map_length; exact P). apply (map_nth (pix_phase year sun)). }
  assert (T0 : (0 <= 0 < inject_Z (Z.of_nat total - 2) * year)%Q).
  { split; [lra|]. assert (1 <= inject_Z (Z.of_nat total - 2))%Q by (change 1%Q with (inject_Z 1); rewrite <- Zle_Qle; unfold total; lia). assert (0 < year)%Q by reflexivity. nra. }
  assert (S0 : forall p, p < np -> still 0 (phase_of p)).
  { intros p P. left. destruct (phase_range sun (nth p ras 0%Q)) as [A B]. fold (phase_of p) in A, B.
    replace (Qfloor ((0 + phase_of p - 0) / year)) with 0%Z; [lia|]. symmetry. apply floor_unique. change (inject_Z 0) with 0%Q. assert (Y : (0 < year)%Q) by reflexivity.
    split; [apply Qle_shift_div_l; lra|]. apply Qlt_shift_div_r; lra. }
  set (mk := fun ks : nat * stepf => bind (new_fp nb start sun year ras (snd ks)) (fun f => Ok (set_all (map (fun m => nth (fst ks) (rm m) []) maps) f))).
  set (KS := combine (seq 0 (List.length ST)) ST).
  assert (Hmk : forall ks, In ks KS -> exists z, mk ks = Ok (mkFp (map (fun m => nth (fst ks) (rm m) []) maps) (gzero nb np) None (repeat z nb) start phase (snd ks)) /\ List.length z = np /\
    forall p, p < np -> (nth p z 0 == line_at year 1 0 0 (phase_of p))%Q).
  { intros ks I. unfold KS in I. destruct ks as [k sf]. assert (Is : In sf ST) by (apply in_combine_r in I; exact I).
    destruct (cover_row sf nb 0 phase Is T0 Pr) as (row & R1 & R2 & R3). exists row. unfold mk, new_fp. cbn [fst snd]. fold phase. rewrite R1. cbn [bind]. split; [reflexivity|]. split; [congruence|].
    intros p P. rewrite <- Pn by exact P. apply R3; [rewrite Lp; exact P|]. rewrite Pn by exact P. apply S0. exact P. }
  destruct (mapM_all mk KS) as [parts Hp]; [intros ks I; destruct (Hmk ks I) as (z & Z & _); eexists; exact Z|].
  assert (Hp' := mapM_ok _ _ _ Hp).
  assert (F2 : Forall2 (fun ks f => In ks KS /\ mk ks = Ok f) KS parts).
  { clear - Hp'. assert (G : forall l l', Forall2 (fun x y => mk x = Ok y) l l' -> incl l KS -> Forall2 (fun ks f => In ks KS /\ mk ks = Ok f) l l').
    { induction 1 as [|x y l l' H _ IH]; intro I; constructor; [split; [apply I; now left|exact H]|]. apply IH. intros a A. apply I. now right. }
    apply G; [exact Hp'|apply incl_refl]. }
  assert (Lk : List.length (seq 0 (List.length ST)) = List.length ST) by apply seq_length.
  assert (Kin : forall ks, In ks KS -> fst ks < List.length ST) by (intros [k sf] I; apply in_combine_l, in_seq in I; cbn in *; lia).
  assert (Pf : forall f, In f parts -> exists ks, In ks KS /\ mk ks = Ok f).
  { intros f I. exact (Forall2_right _ _ _ f F2 I). }
  assert (Fm : Forall (shape nb np) (map f_maps parts)).
  { apply Forall_forall. intros g G. apply in_map_iff in G. destruct G as (f & <- & I). destruct (Pf f I) as (ks & K1 & K2). destruct (Hmk ks K1) as (z & Z & _). rewrite Z in K2. injection K2 as <-. apply part_maps_shape, Kin, K1. }
  destruct parts as [|f0 rest] eqn:Ep; [inversion F2 as [H|]; unfold KS, ST in H; cbn in H; discriminate|]. rewrite <- Ep in *.
  set (z0 := map (map (fun _ => 0%Q)) (f_maps f0)).
  assert (Sf0 : shape nb np (f_maps f0)) by (rewrite Ep in Fm; cbn [map] in Fm; inversion Fm; assumption).
  assert (Sz0 : shape nb np z0) by (apply shape_map; exact Sf0).
  exists (mkFps parts (fold_left gadd (map f_maps parts) z0) z0 None). split.
  { unfold make_rolling. fold nb. fold ST. fold rm. fold KS. change (bind (mapM mk KS) new_fps = Ok (mkFps parts (fold_left gadd (map f_maps parts) z0) z0 None)). rewrite Hp. cbn [bind]. unfold new_fps. rewrite Ep. reflexivity. }
  cbn [p_mjd p_parts p_maps]. split; [reflexivity|]. split.
  { apply Forall_forall. intros f I. destruct (Pf f I) as (ks & K1 & K2). destruct (Hmk ks K1) as (z & Z & _). rewrite Z in K2. injection K2 as <-. reflexivity. }
  assert (Sp : shape nb np (fold_left gadd (map f_maps parts) z0)).
  { clear - Fm Sz0. revert Fm Sz0. generalize (map f_maps parts). intro l. generalize z0. induction l as [|g l IH]; intros z F Z; [exact Z|]. inversion F; subst. cbn. apply IH; [assumption|]. apply shape_op; assumption. }
  split; [exact Sp|]. split.
  { intros b p B P O. destruct (fold_gadd nb np (map f_maps parts) z0 b p Fm Sz0 B P) as [_ E]. rewrite E. unfold z0. rewrite (cell_map _ nb np) by assumption. rewrite map_map.
    rewrite <- (Forall2_qsum _ (fun ks => nth p (nth (fst ks) (rm (nth b maps [])) []) 0%Q) (fun f => cell (f_maps f) b p) _ _ F2).
    - unfold KS. rewrite (map_fst_combine (fun k => nth p (nth k (rm (nth b maps [])) []) 0%Q)) by exact Lk. rewrite sum_k by assumption. ring.
    - intros ks f [K1 K2]. destruct (Hmk ks K1) as (z & Z & _). rewrite Z in K2. injection K2 as <-. cbn [f_maps]. rewrite <- (part_cell (fst ks) b p B). reflexivity. }
  intros mjd T.
  assert (W : forall ks f, In ks KS -> mk ks = Ok f -> exists g, wanted f false mjd = Ok g /\ shape nb np g /\
    forall b p, b < nb -> p < np -> still (mjd - start) (phase_of p) -> (cell g b p == nth p (nth (fst ks) (rm (nth b maps [])) []) 0 * (line_at year 1 0 (mjd - start) (phase_of p) - line_at year 1 0 0 (phase_of p)))%Q).
  { intros ks f K1 K2. destruct (Hmk ks K1) as (z & Z & Lz & Nz). rewrite Z in K2. injection K2 as <-. assert (Is : In (snd ks) ST) by (destruct ks; apply in_combine_r in K1; exact K1).
    destruct (cover_row (snd ks) nb (mjd - start) phase Is T Pr) as (row & R1 & R2 & R3). unfold wanted. cbn [f_step f_maps f_start f_phase f_zero]. rewrite map_length. fold nb. rewrite R1. cbn [bind normed].
    pose proof (part_maps_shape (fst ks) (Kin ks K1)) as Sm. assert (Sr : shape nb np (repeat row nb)) by (apply shape_repeat; congruence). assert (Szz : shape nb np (repeat z nb)) by (apply shape_repeat; exact Lz).
    assert (Sd : shape nb np (gsub (repeat row nb) (repeat z nb))) by (apply shape_op; assumption).
    eexists. split; [reflexivity|]. split; [apply shape_op; assumption|]. intros b p B P S. unfold gmul. rewrite (cell_op Qmult nb np) by assumption. unfold gsub. rewrite (cell_op Qminus nb np) by assumption.
    rewrite !cell_repeat by exact B. rewrite <- (part_cell (fst ks) b p B). rewrite (Nz p P). rewrite <- (Pn p P) in *. rewrite R3; [reflexivity|rewrite Lp; exact P|exact S]. }
  destruct (mapM_all (fun f => wanted f false mjd) parts) as [gs Hg].
  { intros f I. destruct (Pf f I) as (ks & K1 & K2). destruct (W ks f K1 K2) as (g & G & _). exists g. exact G. }
  exists gs. split; [exact Hg|]. assert (G2 := mapM_ok _ _ _ Hg).
  assert (G3 : Forall2 (fun ks g => exists f, (In ks KS /\ mk ks = Ok f) /\ wanted f false mjd = Ok g) KS gs) by (exact (Forall2_join _ _ _ _ _ F2 G2)).
  split.
  { apply Forall_forall. intros g I. destruct (Forall2_right _ _ _ g G3 I) as (x & f & (H1 & H2) & H3). destruct (W x f H1 H2) as (g' & A & B & _). rewrite A in H3. injection H3 as <-. exact B. }
  intros b p B P O S.
  rewrite <- (Forall2_qsum _ (fun ks => (nth p (nth (fst ks) (rm (nth b maps [])) []) 0 * (line_at year 1 0 (mjd - start) (phase_of p) - line_at year 1 0 0 (phase_of p)))%Q) (fun g => cell g b p) _ _ G3).
  - unfold KS. rewrite (map_fst_combine (fun k => (nth p (nth k (rm (nth b maps [])) []) 0 * (line_at year 1 0 (mjd - start) (phase_of p) - line_at year 1 0 0 (phase_of p)))%Q)) by exact Lk.
    rewrite <- (sum_k b p B P O). set (c := (line_at year 1 0 (mjd - start) (phase_of p) - line_at year 1 0 0 (phase_of p))%Q). clearbody c. generalize (seq 0 (List.length ST)). intro l.
    unfold qsum. induction l as [|k l IH]; cbn [map fold_right]; [ring|]. rewrite IH. ring.
  - intros ks g (f & (K1 & K2) & K3). destruct (W ks f K1 K2) as (g' & A & _ & C). rewrite A in K3. injection K3 as <-. rewrite (C b p B P S). reflexivity.
Qed.
End Rolling.
