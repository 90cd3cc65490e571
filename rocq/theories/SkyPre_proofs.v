(** Proofs about the stored sky brightness maps. *)
From Coq Require Import List ZArith QArith Qround Qabs Bool String Lia Lqa Sorted.
From Verif Require Import Base Bisect Script Script_proofs TimeGate_proofs SiteData SiteData_proofs Surveys SkyPre.
Import ListNotations.
Open Scope nat_scope.

(** ** Sorted times *)
Definition increasing (l : list Q) : Prop := forall i j x y, i < j -> nth_error l i = Some x -> nth_error l j = Some y -> (x < y)%Q.
Lemma inc_parted : forall l t, increasing l -> parted (fun a => Qltb a t) l.
Proof.
  intros l t H i j x y L A B P. apply Qltb_lt in P. apply Qltb_lt. destruct (Nat.eq_dec i j) as [->|N]; [rewrite A in B; injection B as ->; exact P|].
  pose proof (H i j x y ltac:(lia) A B). lra.
Qed.
Lemma search_bracket : forall l t j ml mr, increasing l -> nth_error l j = Some ml -> nth_error l (S j) = Some mr -> (ml < t)%Q -> (t <= mr)%Q ->
  searchsorted (fun a => Qltb a t) 0%Q l = S j.
Proof.
  intros l t j ml mr H A B C D. apply searchsorted_unique; [apply inc_parted; exact H|apply Nat.lt_le_incl; apply nth_error_Some; congruence| |].
  - intros i x L E. apply Qltb_lt. destruct (Nat.eq_dec i j) as [->|N]; [congruence|]. pose proof (H i j x ml ltac:(lia) E A). lra.
  - intros i x L E. apply Qltb_false. destruct (Nat.eq_dec i (S j)) as [->|N]; [rewrite B in E; injection E as ->; exact D|]. pose proof (H (S j) i mr x ltac:(lia) B E). lra.
Qed.
Lemma search_after : forall l t, increasing l -> (forall i x, nth_error l i = Some x -> (x < t)%Q) -> searchsorted (fun a => Qltb a t) 0%Q l = List.length l.
Proof.
  intros l t H A. apply searchsorted_unique; [apply inc_parted; exact H|lia| |].
  - intros i x L E. apply Qltb_lt. eapply A; exact E.
  - intros i x L E. exfalso. apply nth_error_None in L. congruence.
Qed.
Lemma search_before : forall l t, increasing l -> (forall i x, nth_error l i = Some x -> (t <= x)%Q) -> searchsorted (fun a => Qltb a t) 0%Q l = 0.
Proof.
  intros l t H A. apply searchsorted_unique; [apply inc_parted; exact H|lia| |]; [intros i x L; lia|]. intros i x L E. apply Qltb_false. eapply A; exact E.
Qed.

(** ** Angles *)
Lemma Qmod_small' : forall x m, (0 < m)%Q -> (0 <= x)%Q -> (x < m)%Q -> (Qmod x m == x)%Q.
Proof. intros x m M A B. rewrite (Qmod_unique x m 0 M); [|change (inject_Z 0) with 0%Q; lra|change (inject_Z 0) with 0%Q; lra]. change (inject_Z 0) with 0%Q. lra. Qed.
Lemma short_spec : forall tw a0 a1, (0 < tw)%Q -> (- tw <= 2 * short_dist tw a0 a1)%Q /\ (2 * short_dist tw a0 a1 < tw)%Q /\ exists k : Z, (short_dist tw a0 a1 == a1 - a0 + inject_Z k * tw)%Q.
Proof.
  intros tw a0 a1 T. unfold short_dist. destruct (Qmod_range (a1 - a0) tw T) as [A B]. destruct (Qmod_shift (a1 - a0) tw T) as [k K]. set (da := Qmod (a1 - a0) tw) in *. clearbody da.
  destruct (Qlt_le_dec (2 * da) tw) as [L|L].
  - assert (E : (Qmod (2 * da) tw == 2 * da)%Q) by (apply Qmod_small'; lra). set (m := Qmod (2 * da) tw) in *. clearbody m. split; [lra|]. split; [lra|]. exists k. lra.
  - assert (E : (Qmod (2 * da) tw == 2 * da + inject_Z (-1) * tw)%Q) by (apply Qmod_unique; change (inject_Z (-1)) with (-1 # 1)%Q; lra). change (inject_Z (-1)) with (-1 # 1)%Q in E. set (m := Qmod (2 * da) tw) in *. clearbody m. split; [lra|]. split; [lra|]. exists (k - 1)%Z.
    unfold Z.sub. rewrite inject_Z_plus. change (inject_Z (- (1))) with (-1 # 1)%Q. lra.
Qed.

(** ** Loading *)
Section K.
Variable files : list sfile.
Variable len : Q.
Definition good_loaded (k : loaded) : Prop := In (k_file k) files /\ k_from k < k_to k /\ k_to k < List.length (f_mjds (k_file k)).
Definition good_sky (s : sky) : Prop := match s with Ready k => good_loaded k | Broken _ _ _ => True end.

Lemma best_in : forall t f, best_file files t = Ok f -> In f files.
Proof.
  intros t f H. unfold best_file in H. destruct (rev _) as [|x r] eqn:E; [discriminate|]. injection H as ->.
  assert (I : In f (rev (filter (fun f => Qle_bool (f_left f) t && Qle_bool t (f_right f)) files))) by (rewrite E; left; reflexivity).
  apply in_rev in I. apply filter_In in I. apply I.
Qed.
Lemma what_in : forall t f t', load_what files t = Ok (f, t') -> In f files.
Proof.
  intros t f t' H. unfold load_what in H. destruct (best_file files t) as [g|e] eqn:E; [|discriminate]. cbn [bind] in H. destruct (f_mjds g); [discriminate|]. destruct (Qltb (qmax _) t).
  - destruct (best_file files (in_dayobs t)) as [g2|e] eqn:E2; [|discriminate]. cbn [bind] in H. destruct (f_mjds g2) eqn:Em; [discriminate|]. destruct (Qltb t _); [destruct (Qltb _ 1); [|discriminate]|]; injection H as <- _; eapply best_in; exact E2.
  - injection H as <- _. eapply best_in; exact E.
Qed.
Lemma last_cons' : forall (r : list nat) z i, last (z :: r) i = last r z.
Proof.
  assert (D : forall (r : list nat) w a b, last (w :: r) a = last (w :: r) b) by (induction r as [|x r IH]; intros w a b; [reflexivity|exact (IH x a b)]).
  intros [|w r] z i; [reflexivity|]. exact (D r w i z).
Qed.
Lemma where_last : forall (p : Q -> bool) l i r, np_where p l = i :: r -> i <= last r i /\ last r i < List.length l /\ (forall j, j < i -> forall x, nth_error l j = Some x -> p x = false) /\
  (exists x, nth_error l i = Some x /\ p x = true) /\ (exists x, nth_error l (last r i) = Some x /\ p x = true) /\ (forall j x, last r i < j -> nth_error l j = Some x -> p x = false).
Proof.
  intros p l i r H. pose proof (np_where_spec Q p l) as Sp. rewrite H in Sp. assert (Inc : forall l k, StronglySorted lt (where_from p k l)).
  { clear. induction l as [|x l IH]; intros k; cbn; [constructor|]. destruct (p x); [|apply IH]. constructor; [apply IH|]. apply Forall_forall. intros y I.
    assert (G : forall l k y, In y (where_from p k l) -> k <= y) by (clear; induction l as [|x l IH]; intros k y I; cbn in I; [contradiction|]; destruct (p x); [destruct I as [<-|I]; [lia|]|]; apply IH in I; lia).
    apply G in I. lia. }
  assert (S1 : StronglySorted lt (i :: r)) by (rewrite <- H; apply Inc).
  assert (Li : In (last r i) (i :: r)) by (destruct r as [|y r]; [left; reflexivity|right; clear; revert y; induction r as [|z r IH]; intros y; [left; reflexivity|right; apply IH]]).
  assert (Mx : forall y, In y (i :: r) -> y <= last r i).
  { clear -S1. revert i S1. induction r as [|z r IH]; intros i S1 y I; [destruct I as [<-|[]]; reflexivity|]. inversion S1 as [|a b S2 S3]; subst. rewrite (last_cons' r z i).
    destruct I as [<-|I]; [|apply IH; assumption]. rewrite Forall_forall in S3. pose proof (S3 z ltac:(left; reflexivity)). pose proof (IH z S2 z ltac:(left; reflexivity)). lia. }
  assert (Mn : forall y, In y (i :: r) -> i <= y) by (intros y [<-|I]; [lia|]; inversion S1 as [|a b S2 S3]; subst; rewrite Forall_forall in S3; pose proof (S3 y I); lia).
  assert (P1 : forall j, In j (i :: r) -> exists x, nth_error l j = Some x /\ p x = true) by (intros j I; apply Sp in I; exact I).
  split; [apply Mx; left; reflexivity|]. split; [destruct (P1 _ Li) as (x & E & _); apply nth_error_Some; congruence|]. split.
  - intros j L x E. destruct (p x) eqn:Px; [|reflexivity]. exfalso. assert (I : In j (i :: r)) by (apply Sp; exists x; split; assumption). apply Mn in I. lia.
  - split; [apply P1; left; reflexivity|]. split; [apply P1; exact Li|]. intros j x L E. destruct (p x) eqn:Px; [|reflexivity]. exfalso. assert (I : In j (i :: r)) by (apply Sp; exists x; split; assumption). apply Mx in I. lia.
Qed.
Lemma load_good : forall s t, good_sky (fst (load files len s t)) \/ fst (load files len s t) = s.
Proof.
  intros s t. unfold load. destruct (load_what files t) as [[f t']|e] eqn:E; [|right; reflexivity]. left. destruct (np_where _ (f_mjds f)) as [|i r] eqn:Ew; [exact I|]. cbv zeta.
  destruct (Nat.eqb_spec (i - 1) (last r i)) as [X|X]; [exact I|]. cbn. destruct (where_last _ _ _ _ Ew) as (A & B & _). split; [eapply what_in; exact E|]. cbn. split; lia.
Qed.
Variables (sun_alt : Q -> Q) (sun_limit : Q) (pix_alt : Q -> nat -> Q) (dist : nat -> nat -> Q) (npix : nat).
Let ask := ask files len sun_alt sun_limit pix_alt dist npix.
Let asked := asked files len sun_alt sun_limit pix_alt dist npix.
Lemma ask_state : forall s t i b bs x, fst (ask s t i b bs x) = fst (refresh files len s t).
Proof. intros. unfold ask, SkyPre.ask. destruct (refresh files len s t) as [[k|lo hi e] [u|e']]; reflexivity. Qed.
Lemma refresh_good : forall s t, good_sky s -> good_sky (fst (refresh files len s t)).
Proof. intros s t G. unfold refresh. destruct (_ || _); [|exact G]. destruct (load_good s t) as [H|H]; [exact H|rewrite H; exact G]. Qed.
Lemma asked_good : forall ts s, good_sky s -> good_sky (asked s ts).
Proof. induction ts as [|t ts IH]; intros s G; [exact G|]. cbn. apply IH. fold ask. rewrite ask_state. apply refresh_good. exact G. Qed.

(** ** Slices *)
Lemma nth_error_firstn_lt : forall A (l : list A) n i, i < n -> nth_error (firstn n l) i = nth_error l i.
Proof. intros A l n. revert l. induction n as [|n IH]; intros l i L; [lia|]. destruct l as [|x l]; [destruct i; reflexivity|]. destruct i; [reflexivity|]. cbn. apply IH. lia. Qed.
Lemma nth_error_skipn_add : forall A (l : list A) n i, nth_error (skipn n l) i = nth_error l (n + i).
Proof. intros A l n. revert l. induction n as [|n IH]; intros l i; [reflexivity|]. destruct l as [|x l]; [destruct i; reflexivity|]. cbn. apply IH. Qed.
Lemma slice_nth : forall k i, i < k_to k - k_from k -> nth_error (k_mjds k) i = nth_error (f_mjds (k_file k)) (k_from k + i).
Proof. intros k i L. unfold k_mjds. rewrite nth_error_firstn_lt by exact L. apply nth_error_skipn_add. Qed.
Lemma slice_len : forall k, good_loaded k -> List.length (k_mjds k) = k_to k - k_from k.
Proof. intros k (_ & A & B). unfold k_mjds. rewrite firstn_length, skipn_length. lia. Qed.
Lemma slice_inc : forall k, good_loaded k -> increasing (f_mjds (k_file k)) -> increasing (k_mjds k).
Proof.
  intros k G H i j x y L A B. assert (J : j < k_to k - k_from k) by (rewrite <- (slice_len k G); apply nth_error_Some; congruence).
  rewrite slice_nth in A, B by lia. eapply H; [|exact A|exact B]. lia.
Qed.
Lemma nth_of : forall (l : list Q) i x, nth_error l i = Some x -> nth i l 0%Q = x.
Proof. intros l i x H. apply nth_error_nth. exact H. Qed.

(** The time between two loaded maps. *)
Lemma sides_inside : forall k t j ml mr, good_loaded k -> increasing (f_mjds (k_file k)) -> k_from k <= j -> S j < k_to k ->
  nth_error (f_mjds (k_file k)) j = Some ml -> nth_error (f_mjds (k_file k)) (S j) = Some mr -> (ml < t)%Q -> (t <= mr)%Q ->
  sides (k_mjds k) t = Ok (j - k_from k, S j - k_from k, (mr - ml)%Q).
Proof.
  intros k t j ml mr G H L1 L2 A B C D. assert (A' : nth_error (k_mjds k) (j - k_from k) = Some ml) by (rewrite slice_nth by lia; replace (k_from k + (j - k_from k)) with j by lia; exact A).
  assert (B' : nth_error (k_mjds k) (S (j - k_from k)) = Some mr) by (rewrite slice_nth by lia; replace (k_from k + S (j - k_from k)) with (S j) by lia; exact B).
  unfold sides. rewrite (search_bracket _ t _ ml mr (slice_inc k G H) A' B' C D), (slice_len k G). destruct (Nat.leb_spec (k_to k - k_from k) (S (j - k_from k))) as [X|X]; [lia|].
  rewrite (nth_of _ _ _ A'), (nth_of _ _ _ B'). assert (Qle_bool ml t = true) by (apply Qle_bool_iff; lra). assert (Qle_bool t mr = true) by (apply Qle_bool_iff; lra). rewrite H0, H1. cbn [andb].
  replace (S (j - k_from k)) with (S j - k_from k) by lia. reflexivity.
Qed.
(** The time after the last loaded map. *)
Lemma sides_after : forall k t ml, good_loaded k -> increasing (f_mjds (k_file k)) -> nth_error (f_mjds (k_file k)) (k_to k - 1) = Some ml -> (ml < t)%Q -> (t - ml < 3 # 4)%Q ->
  sides (k_mjds k) t = Ok (k_to k - 1 - k_from k, k_to k - 1 - k_from k, 1%Q).
Proof.
  intros k t ml G H A C D. pose proof G as (_ & L1 & L2). assert (A' : nth_error (k_mjds k) (k_to k - 1 - k_from k) = Some ml) by (rewrite slice_nth by lia; replace (k_from k + (k_to k - 1 - k_from k)) with (k_to k - 1) by lia; exact A).
  assert (All : forall i x, nth_error (k_mjds k) i = Some x -> (x < t)%Q).
  { intros i x E. assert (J : i < k_to k - k_from k) by (rewrite <- (slice_len k G); apply nth_error_Some; congruence). destruct (Nat.eq_dec i (k_to k - 1 - k_from k)) as [->|N]; [congruence|].
    pose proof (slice_inc k G H i (k_to k - 1 - k_from k) x ml ltac:(lia) E A'). lra. }
  unfold sides. rewrite (search_after _ t (slice_inc k G H) All), (slice_len k G). rewrite Nat.leb_refl. replace (k_to k - k_from k - 1) with (k_to k - 1 - k_from k) by lia. rewrite (nth_of _ _ _ A').
  replace (Qltb (t - ml) (3 # 4)) with true by (symmetry; apply Qltb_lt; exact D). reflexivity.
Qed.
(** The time of the first loaded map, or before it. *)
Lemma sides_before : forall k t mf, good_loaded k -> increasing (f_mjds (k_file k)) -> nth_error (f_mjds (k_file k)) (k_from k) = Some mf -> (t <= mf)%Q -> (mf - t < 3 # 4)%Q ->
  sides (k_mjds k) t = Ok (0, 0, 1%Q).
Proof.
  intros k t mf G H A C D. pose proof G as (_ & L1 & L2). assert (A' : nth_error (k_mjds k) 0 = Some mf) by (rewrite slice_nth by lia; rewrite Nat.add_0_r; exact A).
  assert (All : forall i x, nth_error (k_mjds k) i = Some x -> (t <= x)%Q) by (intros [|i] x E; [congruence|]; pose proof (slice_inc k G H 0 (S i) mf x ltac:(lia) A' E); lra).
  unfold sides. rewrite (search_before _ t (slice_inc k G H) All), (slice_len k G). destruct (Nat.leb_spec (k_to k - k_from k) 0) as [X|X]; [lia|]. rewrite (nth_of _ _ _ A').
  replace (Qltb (mf - t) (3 # 4)) with true by (symmetry; apply Qltb_lt; exact D). reflexivity.
Qed.

(** ** Filling *)
Lemma set_at_length : forall A i (x : A) l, List.length (set_at i x l) = List.length l.
Proof. intros A i x l. revert i. induction l as [|y l IH]; intros [|i]; cbn; try reflexivity; rewrite IH; reflexivity. Qed.
Lemma set_at_nth : forall A i j (x : A) l d, j < List.length l -> nth j (set_at i x l) d = if Nat.eqb i j then x else nth j l d.
Proof. intros A i j x l d. revert i j. induction l as [|y l IH]; intros [|i] [|j] L; cbn in *; try lia; try reflexivity. apply IH. lia. Qed.
Lemma fill_length : forall full good pix masked i vals, List.length (fill_band dist full good pix i masked vals) = List.length vals.
Proof. intros full good pix. induction masked as [|mi r IH]; intros i vals; [reflexivity|]. cbn. rewrite IH, set_at_length. reflexivity. Qed.
Lemma fill_other : forall full good pix masked i vals j d, ~ In j masked -> nth j (fill_band dist full good pix i masked vals) d = nth j vals d.
Proof.
  intros full good pix. induction masked as [|mi r IH]; intros i vals j d N; [reflexivity|]. cbn. rewrite IH by (intros X; apply N; right; exact X).
  destruct (Nat.lt_ge_cases j (List.length vals)) as [L|L]; [rewrite set_at_nth by exact L; destruct (Nat.eqb_spec mi j); [exfalso; apply N; left; assumption|reflexivity]|rewrite !nth_overflow; [reflexivity|lia|rewrite set_at_length; lia]].
Qed.
Lemma fill_nth : forall full good pix masked i vals a j d, NoDup masked -> nth_error masked a = Some j -> j < List.length vals ->
  nth j (fill_band dist full good pix i masked vals) d = er_min (map full (nearest dist good (nth (i + a) pix 0))).
Proof.
  intros full good pix. induction masked as [|mi r IH]; intros i vals a j d N E L; [destruct a; discriminate|]. inversion N as [|x y N1 N2]; subst. destruct a as [|a]; cbn in E; cbn [fill_band].
  - injection E as ->. rewrite fill_other by exact N1. rewrite set_at_nth by exact L. rewrite Nat.eqb_refl, Nat.add_0_r. reflexivity.
  - rewrite (IH (S i) _ a j d N2 E) by (rewrite set_at_length; exact L). replace (S i + a) with (i + S a) by lia. reflexivity.
Qed.
Lemma qmin_spec : forall l, l <> [] -> In (qmin l) l /\ forall x, In x l -> (qmin l <= x)%Q.
Proof.
  intros [|x r] H; [congruence|]. clear H. cbn [qmin]. revert x.
  induction r as [|y r IH]; intros x; cbn [fold_left]; [split; [left; reflexivity|intros z [<-|[]]; apply Qle_refl]|].
  destruct (Qle_bool x y) eqn:E.
  - apply Qle_bool_iff in E. destruct (IH x) as [A C]. split; [destruct A as [A|A]; [left; exact A|right; right; exact A]|].
    intros z [<-|[<-|I]]; [apply C; left; reflexivity|apply Qle_trans with x; [apply C; left; reflexivity|exact E]|apply C; right; exact I].
  - apply Qle_bool_false in E. destruct (IH y) as [A C]. split; [right; exact A|].
    intros z [<-|[<-|I]]; [apply Qle_trans with y; [apply C; left; reflexivity|lra]|apply C; left; reflexivity|apply C; right; exact I].
Qed.
Lemma nearest_iff : forall good p g, In g (nearest dist good p) <-> In g good /\ forall g', In g' good -> (dist p g <= dist p g')%Q.
Proof.
  intros good p g. unfold nearest. rewrite filter_In, Qeq_bool_iff. split.
  - intros [I E]. split; [exact I|]. intros g' I'. rewrite E. apply qmin_spec; [destruct good; [contradiction|discriminate]|]. apply in_map. exact I'.
  - intros [I M]. split; [exact I|]. destruct (qmin_spec (map (dist p) good)) as [A B]; [destruct good; [contradiction|discriminate]|].
    apply Qle_antisym; [|apply B; apply in_map; exact I]. apply in_map_iff in A. destruct A as (g' & <- & I'). apply M. exact I'.
Qed.
Lemma nearest_some : forall good p, good <> [] -> nearest dist good p <> [].
Proof.
  intros good p N. destruct (qmin_spec (map (dist p) good)) as [A B]; [destruct good; [congruence|discriminate]|]. apply in_map_iff in A. destruct A as (g & E & I).
  assert (X : In g (nearest dist good p)) by (apply nearest_iff; split; [exact I|]; intros g' I'; rewrite E; apply B; apply in_map; exact I'). intros Y. rewrite Y in X. exact X.
Qed.
Lemma er_min_spec : forall l, l <> [] -> (forall x, In x l -> is_nan x = false) -> In (er_min l) l /\ forall x, In x l -> er_ltb x (er_min l) = false.
Proof.
  intros [|x r] H N; [congruence|]. clear H. unfold er_min. revert x N. induction r as [|y r IH]; intros x N; cbn [fold_left].
  - split; [left; reflexivity|]. intros z [<-|[]]. destruct x as [| |q|]; try reflexivity. cbn. apply Qltb_false. apply Qle_refl.
  - rewrite (N x), (N y) by (cbn; tauto). cbn [orb]. destruct (er_ltb y x) eqn:E.
    + destruct (IH y) as [A C]; [intros z I; apply N; right; exact I|]. split; [right; exact A|]. intros z [<-|I]; [|apply C; exact I]. pose proof (C y ltac:(left; reflexivity)) as Cy.
      set (m := fold_left _ r y) in *. clearbody m. destruct (er_ltb x m) eqn:Em; [|reflexivity]. exfalso. destruct x as [| |a|], y as [| |b|], m as [| |c|]; cbn in *; try discriminate. apply Qltb_lt in E, Em. apply Qltb_false in Cy. lra.
    + destruct (IH x) as [A C]; [intros z [<-|I]; apply N; cbn; tauto|]. split; [destruct A as [A|A]; [left; exact A|right; right; exact A]|]. intros z [<-|[<-|I]]; [apply C; left; reflexivity| |apply C; right; exact I].
      pose proof (C x ltac:(left; reflexivity)) as Cx. pose proof (N y ltac:(cbn; tauto)) as Ny. pose proof (N x ltac:(cbn; tauto)) as Nx. assert (Nm : is_nan (fold_left (fun a y => if is_nan a || is_nan y then ENaN else if er_ltb y a then y else a) r x) = false) by (apply N; destruct A as [A|A]; [left; exact A|right; right; exact A]).
      set (m := fold_left _ r x) in *. clearbody m. destruct (er_ltb y m) eqn:Em; [|reflexivity]. exfalso. destruct x as [| |a|], y as [| |b|], m as [| |c|]; cbn in *; try discriminate. apply Qltb_lt in Em. apply Qltb_false in E, Cx. lra.
Qed.
End K.
