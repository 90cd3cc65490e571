(** Proofs about the history-driven gates. *)
From Coq Require Import List ZArith QArith Qround Bool String Lia Lqa Sorted.
From Verif Require Import Base Bisect Script Feat GateLoop.
Import ListNotations.
Open Scope nat_scope.

(** ** Substrings *)
Definition within (s t : string) : Prop := exists a b, t = (a ++ s ++ b)%string.
Lemma prefixb_iff : forall p s, prefixb p s = true <-> exists b, s = (p ++ b)%string.
Proof.
  induction p as [|c p IH]; intro s.
  - split; [intros _; exists s; reflexivity|reflexivity].
  - destruct s as [|d s]; cbn.
    + split; [discriminate|intros [b H]; discriminate H].
    + rewrite andb_true_iff, IH. split.
      * intros [H [b ->]]. apply Ascii.eqb_eq in H. subst. exists b. reflexivity.
      * intros [b H]. injection H as -> ->. split; [apply Ascii.eqb_refl|exists b; reflexivity].
Qed.
Lemma contains_iff : forall p s, contains p s = true <-> within p s.
Proof.
  intros p s. induction s as [|c s IH]; cbn [contains]; rewrite orb_true_iff, prefixb_iff.
  - split.
    + intros [[b H]|H]; [exists EmptyString, b; exact H|discriminate].
    + intros [a [b H]]. left. destruct a; [exists b; exact H|discriminate H].
  - rewrite IH. split.
    + intros [[b H]|[a [b ->]]]; [exists EmptyString, b; exact H|exists (String c a), b; reflexivity].
    + intros [a [b H]]. destruct a as [|x a]; [left; exists b; exact H|]. right. injection H as -> ->. exists a, b. reflexivity.
Qed.
(** A visit carries the note a gate asks for: any, when it asks for none. *)
Definition carries (note : option string) (v : fvis) : Prop := match note with None => True | Some s => within s (fv_note v) end.
Lemma note_has_iff : forall note v, note_has note v = true <-> carries note v.
Proof. intros [s|] v; cbn; [apply contains_iff|tauto]. Qed.
Lemma nc_note_has : forall note v, note_has (nc_note note) v = note_has note v.
Proof. intros [[|c s]|] v; cbn; try reflexivity. destruct (fv_note v); reflexivity. Qed.

(** ** Folds of the features *)
Lemma lo_fold : forall note bn h s, fold_left (lo_one note bn) h s =
  match last_opt (filter (lo_match note bn) h) with None => s | Some v => Some v end.
Proof.
  intros note bn h. induction h as [|v h IH] using rev_ind; intro s; [reflexivity|].
  rewrite fold_left_app, filter_app. cbn [fold_left filter]. unfold lo_one at 1. destruct (lo_match note bn v) eqn:E.
  - unfold last_opt. rewrite rev_app_distr. reflexivity.
  - rewrite app_nil_r. apply IH.
Qed.
Lemma last_opt_sorted : forall (P : fvis -> bool) h w, StronglySorted (fun a b => (fv_mjd a <= fv_mjd b)%Q) h -> In w h -> P w = true ->
  exists u, last_opt (filter P h) = Some u /\ In u h /\ P u = true /\ (fv_mjd w <= fv_mjd u)%Q.
Proof.
  intros P h. induction h as [|v h IH] using rev_ind; intros w S I Pw; [destruct I|].
  assert (Sh : StronglySorted (fun a b => (fv_mjd a <= fv_mjd b)%Q) h /\ forall x, In x h -> (fv_mjd x <= fv_mjd v)%Q).
  { clear - S. induction h as [|a h IHh]; [split; [constructor|contradiction]|].
    inversion S as [|? ? S1 S2]; subst. destruct (IHh S1) as [A B]. rewrite Forall_app in S2. destruct S2 as [S2 S3].
    split; [constructor; assumption|]. inversion S3; subst. intros x [<-|Hx]; [assumption|apply B; exact Hx]. }
  destruct Sh as [Sh B]. rewrite filter_app. cbn [filter]. destruct (P v) eqn:E.
  - exists v. unfold last_opt. rewrite rev_app_distr. split; [reflexivity|]. split; [apply in_app_iff; right; left; reflexivity|].
    split; [exact E|]. apply in_app_iff in I. destruct I as [I|[<-|[]]]; [apply B; exact I|lra].
  - rewrite app_nil_r. apply in_app_iff in I. destruct I as [I|[<-|[]]]; [|congruence].
    destruct (IH w Sh I Pw) as [u [H1 [H2 [H3 H4]]]]. exists u. split; [exact H1|]. split; [apply in_app_iff; left; exact H2|]. split; assumption.
Qed.
Lemma last_opt_none : forall (P : fvis -> bool) h, last_opt (filter P h) = None <-> forall w, In w h -> P w = false.
Proof.
  intros P h. split.
  - intros H w I. destruct (P w) eqn:E; [exfalso|reflexivity].
    assert (X : In w (filter P h)) by (apply filter_In; auto). unfold last_opt in H. apply in_rev in X. destruct (rev (filter P h)); [exact X|discriminate].
  - intro H. replace (filter P h) with (@nil fvis); [reflexivity|]. symmetry. induction h as [|a h IH]; [reflexivity|].
    cbn. rewrite (H a (or_introl eq_refl)). apply IH. intros w I. apply H. right. exact I.
Qed.
Lemma last_opt_in : forall (P : fvis -> bool) h u, last_opt (filter P h) = Some u -> In u h /\ P u = true.
Proof.
  intros P h u H. unfold last_opt in H. apply filter_In. apply in_rev. destruct (rev (filter P h)); [discriminate|]. injection H as ->. left. reflexivity.
Qed.
Definition tally (P : fvis -> bool) (h : list fvis) : Z := Z.of_nat (List.length (filter P h)).
Lemma nc_fold : forall note h s, nn_count (fold_left (nc_one note None false) h s) = (nn_count s + tally (note_has note) h)%Z.
Proof.
  intros note h. induction h as [|v h IH]; intro s; [unfold tally; cbn; lia|].
  cbn [fold_left]. rewrite IH. unfold nc_one, tally. cbn [andb]. rewrite nc_note_has. cbn [filter].
  destruct (note_has note v); cbn [andb band_in nn_count]; [|reflexivity]. cbn [List.length]. rewrite Nat2Z.inj_succ. lia.
Qed.
Lemma fo_fold : forall note h s, fold_left (fo_add note) h s =
  (fold_left (nc_one None None false) h (fst s), fold_left (nc_one note None false) h (snd s)).
Proof. intros note h. induction h as [|v h IH]; intros [a b]; [reflexivity|]. cbn [fold_left]. rewrite IH. reflexivity. Qed.
Lemma sd_fold : forall note h s, fold_left (sd_add note) h s =
  mkSd (fold_left (lo_one note None) h (sd_last s)) (fold_left (nc_one None None false) h (sd_all s)) (fold_left (nc_one note None false) h (sd_note s)).
Proof. intros note h. induction h as [|v h IH]; intros [a b c]; [reflexivity|]. cbn [fold_left]. rewrite IH. reflexivity. Qed.
Lemma tally_all : forall h, tally (note_has None) h = Z.of_nat (List.length h).
Proof. intro h. unfold tally. f_equal. induction h as [|v h IH]; [reflexivity|]. cbn. f_equal. exact IH. Qed.
Lemma tally_app : forall P a b, tally P (a ++ b) = (tally P a + tally P b)%Z.
Proof. intros P a b. unfold tally. rewrite filter_app, app_length, Nat2Z.inj_add. reflexivity. Qed.
Lemma tally_le : forall P h, (0 <= tally P h <= Z.of_nat (List.length h))%Z.
Proof. intros P h. unfold tally. induction h as [|v h IH]; [cbn; lia|]. cbn [filter List.length]. destruct (P v); cbn [List.length]; lia. Qed.
Lemma tally_0 : forall P h, (forall v, In v h -> P v = false) -> tally P h = 0%Z.
Proof. intros P h H. unfold tally. induction h as [|v h IH]; [reflexivity|]. cbn. rewrite (H v (or_introl eq_refl)). apply IH. intros w I. apply H. right. exact I. Qed.

(** The ratio test as a product. *)
Lemma fo_check_iff : forall frac note h,
  fo_check frac (fold_left (fo_add note) h fo0) = true <->
  (h = [] \/ (inject_Z (tally (note_has note) h) <= frac * inject_Z (Z.of_nat (List.length h)))%Q).
Proof.
  intros frac note h. rewrite fo_fold. unfold fo_check, fo0. cbn [fst snd]. rewrite !nc_fold, tally_all. cbn [nc0 nn_count]. rewrite !Z.add_0_l.
  destruct (Z.ltb_spec 0 (Z.of_nat (List.length h))) as [L|L].
  - rewrite negb_true_iff. rewrite Qltb_false.
    assert (P : (0 < inject_Z (Z.of_nat (List.length h)))%Q) by (change 0%Q with (inject_Z 0); rewrite <- Zlt_Qlt; exact L).
    set (a := inject_Z (tally (note_has note) h)) in *. set (n := inject_Z (Z.of_nat (List.length h))) in *.
    assert (E : (a == (a / n) * n)%Q) by (field; lra). split.
    + intro H. right. rewrite E. apply Qmult_le_compat_r; [exact H|lra].
    + intros [->|H]; [cbn in L; lia|]. rewrite E in H. apply Qmult_lt_0_le_reg_r with n; assumption.
  - split; [intros _; left; destruct h; [reflexivity|cbn in L; lia]|reflexivity].
Qed.

(** ** NoteInNight over nights in order *)
Lemma sorted_last : forall (R : fvis -> fvis -> Prop) h v, StronglySorted R (h ++ [v]) -> StronglySorted R h /\ forall x, In x h -> R x v.
Proof.
  intros R h v S. induction h as [|a h IHh]; [split; [constructor|contradiction]|].
  inversion S as [|? ? S1 S2]; subst. destruct (IHh S1) as [A B]. rewrite Forall_app in S2. destruct S2 as [S2 S3].
  split; [constructor; assumption|]. inversion S3; subst. intros x [<-|Hx]; [assumption|apply B; exact Hx].
Qed.
Definition night_le (a b : fvis) : Prop := (fv_night a <= fv_night b)%Z.
Lemma nn_fold : forall notes h, StronglySorted night_le h ->
  let s := fold_left (on_add notes) h nn0 in
  (forall v, In v h -> (fv_night v <= nn_night s)%Z) /\
  (h = [] \/ exists v, In v h /\ fv_night v = nn_night s) /\
  nn_count s = tally (fun v => (fv_night v =? nn_night s)%Z && existsb (String.eqb (fv_note v)) notes) h.
Proof.
  intros notes h. induction h as [|v h IH] using rev_ind; intros S; cbv zeta.
  - split; [contradiction|]. split; [left; reflexivity|reflexivity].
  - apply sorted_last in S. destruct S as [S B]. specialize (IH S). cbv zeta in IH. rewrite fold_left_app. cbn [fold_left].
    set (s := fold_left (on_add notes) h nn0) in *. destruct IH as [I1 [I2 I3]].
    unfold on_add, nn_one. unfold nn_match.
    destruct (Z.eqb_spec (nn_night s) (fv_night v)) as [E|E].
    + assert (X : nn_night (if existsb (String.eqb (fv_note v)) notes then mkNn (nn_night s) (nn_count s + 1) else s) = nn_night s) by (destruct (existsb _ notes); reflexivity).
      rewrite X. split; [|split].
      * intros w H. apply in_app_iff in H. destruct H as [H|[<-|[]]]; [apply I1; exact H|lia].
      * right. exists v. split; [apply in_app_iff; right; left; reflexivity|congruence].
      * rewrite tally_app, <- I3. unfold tally at 1. cbn [filter]. rewrite E, Z.eqb_refl. cbn [andb]. destruct (existsb _ notes); cbn; lia.
    + assert (L : forall w, In w h -> (fv_night w < fv_night v)%Z).
      { intros w H. pose proof (B w H) as B1. unfold night_le in B1. specialize (I1 w H).
        destruct I2 as [->|[u [U1 U2]]]; [destruct H|]. pose proof (B u U1) as B2. unfold night_le in B2. lia. }
      assert (X : nn_night (if existsb (String.eqb (fv_note v)) notes then mkNn (nn_night (mkNn (fv_night v) 0)) (nn_count (mkNn (fv_night v) 0) + 1) else mkNn (fv_night v) 0) = fv_night v) by (destruct (existsb _ notes); reflexivity).
      rewrite X. split; [|split].
      * intros w H. apply in_app_iff in H. destruct H as [H|[<-|[]]]; [specialize (L w H); lia|lia].
      * right. exists v. split; [apply in_app_iff; right; left; reflexivity|reflexivity].
      * rewrite tally_app. rewrite (tally_0 _ h).
        -- unfold tally. cbn [filter]. rewrite Z.eqb_refl. cbn [andb]. destruct (existsb _ notes); reflexivity.
        -- intros w H. specialize (L w H). destruct (Z.eqb_spec (fv_night w) (fv_night v)); [lia|reflexivity].
Qed.
Lemma note_in : forall notes v, existsb (String.eqb (fv_note v)) notes = true <-> In (fv_note v) notes.
Proof.
  intros notes v. rewrite existsb_exists. split.
  - intros [x [H E]]. apply String.eqb_eq in E. subst. exact H.
  - intro H. exists (fv_note v). split; [exact H|apply String.eqb_refl].
Qed.

(** ** SoftDelay *)
Definition ordered (l : list Q) : Prop := forall i j x y, i <= j -> nth_error l i = Some x -> nth_error l j = Some y -> (x <= y)%Q.
(** The delay for a ratio: the entry beside the first fraction not below it, or the last one. *)
Definition delay_at (fractions delays : list Q) (ratio d : Q) : Prop :=
  exists i, nth_error delays i = Some d /\ i < List.length fractions /\
    (forall j x, j < i -> nth_error fractions j = Some x -> (x < ratio)%Q) /\
    (S i = List.length fractions \/ exists x, nth_error fractions i = Some x /\ (ratio <= x)%Q).
Lemma ordered_parted : forall l r, ordered l -> parted (fun f => Qltb f r) l.
Proof. intros l r O i j x y L Ex Ey H. apply Qltb_lt in H. apply Qltb_lt. pose proof (O i j x y L Ex Ey). lra. Qed.
Lemma sd_delay_spec : forall fractions delays ratio, ordered fractions -> fractions <> [] -> List.length fractions = List.length delays ->
  exists d, sd_delay fractions delays ratio = Ok d /\ delay_at fractions delays ratio d.
Proof.
  intros fr de r O N L. unfold sd_delay. destruct (searchsorted_ok (fun f => Qltb f r) 0%Q fr (ordered_parted fr r O)) as [R [R1 R2]].
  set (i := searchsorted (fun f => Qltb f r) 0%Q fr) in *.
  assert (Lp : 0 < List.length fr) by (destruct fr; [contradiction|cbn; lia]).
  destruct (Nat.eqb_spec i (List.length fr)) as [E|E].
  - destruct (nth_error de (i - 1)) as [d|] eqn:D; [|apply nth_error_None in D; lia]. exists d. split; [reflexivity|].
    exists (i - 1). split; [exact D|]. split; [lia|]. split; [|left; lia].
    intros j x H Ex. apply Qltb_lt. apply (R1 j x); [lia|exact Ex].
  - destruct (nth_error de i) as [d|] eqn:D; [|apply nth_error_None in D; lia]. exists d. split; [reflexivity|].
    exists i. split; [exact D|]. split; [lia|]. split.
    + intros j x H Ex. apply Qltb_lt. apply (R1 j x); assumption.
    + right. destruct (nth_error fr i) as [x|] eqn:X; [|apply nth_error_None in X; lia]. exists x. split; [reflexivity|].
      apply Qltb_false. apply (R2 i x); [lia|exact X].
Qed.
Lemma delay_at_fun : forall fractions delays ratio d d', ordered fractions -> delay_at fractions delays ratio d -> delay_at fractions delays ratio d' -> d = d'.
Proof.
  intros fr de r d d' O [i [D [L [B E]]]] [i' [D' [L' [B' E']]]].
  assert (i = i') as <-; [|congruence].
  destruct (Nat.lt_trichotomy i i') as [C|[C|C]]; [exfalso| exact C|exfalso].
  - destruct E as [E|[x [X Y]]]; [lia|]. pose proof (B' i x C X). lra.
  - destruct E' as [E'|[x [X Y]]]; [lia|]. pose proof (B i' x C X). lra.
Qed.
Lemma delay_mono : forall fractions delays r r' d d', ordered fractions -> ordered delays -> (r <= r')%Q ->
  delay_at fractions delays r d -> delay_at fractions delays r' d' -> (d <= d')%Q.
Proof.
  intros fr de r r' d d' O Od R [i [D [L [B E]]]] [i' [D' [L' [B' E']]]].
  assert (C : i <= i'); [|exact (Od i i' d d' C D D')].
  destruct (le_lt_dec i i') as [C|C]; [exact C|exfalso]. destruct E' as [E'|[x [X Y]]]; [lia|]. pose proof (B i' x C X). lra.
Qed.

(** ** VisitGap *)
Lemma vg_fold : forall note bands h, fold_left (vg_add note bands) h (vg0 bands) =
  map (fun k => fold_left (lo_one (Some note) k) h None) (vg_keys bands).
Proof.
  intros note bands h. induction h as [|v h IH] using rev_ind.
  - unfold vg0. reflexivity.
  - rewrite fold_left_app. cbn [fold_left]. rewrite IH. unfold vg_add.
    generalize (vg_keys bands). intro l. induction l as [|k l IHl]; [reflexivity|]. cbn. rewrite IHl. f_equal. rewrite fold_left_app. reflexivity.
Qed.
