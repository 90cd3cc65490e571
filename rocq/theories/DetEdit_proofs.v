(** Proofs about the detailers that edit columns. *)
From Coq Require Import List ZArith QArith Bool String Ascii DecimalString DecimalNat Lia Lqa.
From Verif Require Import Base DetEdit.
Import ListNotations.
Local Open Scope string_scope.
Open Scope list_scope.
Open Scope nat_scope.

(** All columns but those named are equal. *)
Inductive col := CBand | CFilter | CNote | CTarget | CProg | CReason | CExpt | CNexp | CFlush.
Definition same_except (cs : list col) (r s : row) : Prop :=
  w_id s = w_id r /\
  (In CBand cs \/ w_band s = w_band r) /\ (In CFilter cs \/ w_filter s = w_filter r) /\
  (In CNote cs \/ w_note s = w_note r) /\ (In CTarget cs \/ w_target s = w_target r) /\
  (In CProg cs \/ w_prog s = w_prog r) /\ (In CReason cs \/ w_reason s = w_reason r) /\
  (In CExpt cs \/ w_expt s = w_expt r) /\ (In CNexp cs \/ w_nexp s = w_nexp r) /\
  (In CFlush cs \/ w_flush s = w_flush r).
Ltac same := unfold same_except; cbn; intuition auto.

Lemma has_in : forall l b, has l b = true <-> In b l.
Proof.
  intros l b. unfold has. rewrite existsb_exists. split; [intros (x & X & E); apply String.eqb_eq in E; now subst|].
  intro I. exists b. split; [exact I|apply String.eqb_refl].
Qed.
Lemma has_not : forall l b, has l b = false <-> ~ In b l.
Proof. intros l b. rewrite <- has_in. destruct (has l b); split; intros H; congruence || (exfalso; apply H; reflexivity) || (intro; discriminate) || auto. Qed.
Lemma Forall2_map_r : forall A B (P : A -> B -> Prop) (f : A -> B) l, (forall r, In r l -> P r (f r)) -> Forall2 P l (map f l).
Proof.
  induction l as [|x l IH]; intros H; cbn; constructor; [apply H; left; reflexivity|]. apply IH. intros r R. apply H. right. exact R.
Qed.
Lemma Forall2_same : forall A (P : A -> A -> Prop) l, (forall r, In r l -> P r r) -> Forall2 P l l.
Proof. induction l as [|x l IH]; intros H; constructor; [apply H; left; reflexivity|]. apply IH. intros r R. apply H. right. exact R. Qed.

Lemma substitute_spec : forall orig repl mounted l,
  Forall2 (fun r s => same_except [CBand] r s /\
     (w_band r = orig /\ ~ In orig mounted -> w_band s = substring 0 10 repl) /\
     (w_band r <> orig \/ In orig mounted -> w_band s = w_band r)) l (substitute orig repl mounted l).
Proof.
  intros orig repl mounted l. unfold substitute. destruct (has mounted orig) eqn:E.
  - apply has_in in E. apply Forall2_same. intros r _. split; [same|]. split; [tauto|auto].
  - apply has_not in E. apply Forall2_map_r. intros r _. destruct (String.eqb (w_band r) orig) eqn:B.
    + apply String.eqb_eq in B. split; [same|]. split; [reflexivity|tauto].
    + apply String.eqb_neq in B. split; [same|]. split; [tauto|auto].
Qed.
Lemma pick_spec : forall start stop limit check dark moon dist mounted l,
  let swap := (exists d, dist = Some d /\ (d < limit)%Q) /\ (dark = true -> (moon <= 50)%Q) /\ (check = true -> In stop mounted) in
  Forall2 (fun r s => same_except [CBand] r s /\
     (swap -> w_band r = start -> w_band s = substring 0 10 stop) /\
     (~ swap \/ w_band r <> start -> w_band s = w_band r)) l (pick_too start stop limit check dark moon dist mounted l).
Proof.
  intros start stop limit check dark moon dist mounted l swap. unfold pick_too.
  assert (No : ~ swap -> Forall2 (fun r s => same_except [CBand] r s /\
     (swap -> w_band r = start -> w_band s = substring 0 10 stop) /\
     (~ swap \/ w_band r <> start -> w_band s = w_band r)) l l).
  { intros N. apply Forall2_same. intros r _. split; [same|]. split; [intro; contradiction|auto]. }
  destruct dist as [d|]; [|apply No; intros ((d & D & _) & _); discriminate].
  destruct (dark && Qltb 50 moon) eqn:E1.
  { apply No. intros (_ & D & _). apply andb_true_iff in E1. destruct E1 as [E1 E2]. apply Qltb_lt in E2. apply D in E1. lra. }
  destruct (Qltb d limit && (negb check || has mounted stop)) eqn:E2.
  - apply andb_true_iff in E2. destruct E2 as [E2 E3]. apply Qltb_lt in E2.
    assert (S : swap).
    { split; [exists d; auto|]. split.
      - intros ->. cbn in E1. apply Qltb_false in E1. exact E1.
      - intros ->. cbn in E3. apply has_in. exact E3. }
    apply Forall2_map_r. intros r _. destruct (String.eqb (w_band r) start) eqn:B.
    + apply String.eqb_eq in B. split; [same|]. split; [reflexivity|tauto].
    + apply String.eqb_neq in B. split; [same|]. split; [tauto|auto].
  - apply No. intros ((d' & D & L) & _ & C). injection D as <-. apply Qltb_lt in L. rewrite L in E2. cbn in E2.
    apply orb_false_iff in E2. destruct E2 as [E2 E3]. apply negb_false_iff in E2. apply has_not in E3. auto.
Qed.

(** ** Tracking information *)
Definition filled (old value new : string) : Prop :=
  (old = "" \/ old = "None" -> new = substring 0 60 value) /\ (old <> "" -> old <> "None" -> new = old).
Lemma unset_spec : forall s, unset s = true <-> s = "" \/ s = "None".
Proof. intro s. unfold unset. rewrite orb_true_iff, !String.eqb_eq. tauto. Qed.
Lemma unset_false : forall s, unset s = false -> s <> "" /\ s <> "None".
Proof. intros s H. split; intros ->; discriminate. Qed.
Lemma tracking_map : forall t p x l, tracking t p x l =
  map (fun r => mkRow (w_id r) (w_band r) (w_filter r) (w_note r)
     (if unset (w_target r) then cut 60 (stored t) else w_target r)
     (if unset (w_prog r) then cut 60 (stored p) else w_prog r)
     (if unset (w_reason r) then cut 60 (stored (option_map underscores x)) else w_reason r)
     (w_expt r) (w_nexp r) (w_flush r)) l.
Proof.
  intros t p x l. unfold tracking. rewrite !map_map. apply map_ext. intros [i b f n tt pp rr e ne fl]. cbn.
  destruct (unset pp) eqn:E1; cbn; destruct (unset tt) eqn:E2; cbn; destruct (unset rr) eqn:E3; reflexivity.
Qed.
Lemma tracking_spec : forall t p x l,
  Forall2 (fun r s => same_except [CTarget; CProg; CReason] r s /\
     filled (w_target r) (match t with Some v => v | None => "None" end) (w_target s) /\
     filled (w_prog r) (match p with Some v => v | None => "None" end) (w_prog s) /\
     filled (w_reason r) (match x with Some v => underscores v | None => "None" end) (w_reason s)) l (tracking t p x l).
Proof.
  intros t p x l. rewrite tracking_map. apply Forall2_map_r. intros r _. split; [same|]. unfold filled. cbn -[substring unset].
  assert (G : forall old v, (old = "" \/ old = "None" -> (if unset old then cut 60 v else old) = substring 0 60 v) /\
     (old <> "" -> old <> "None" -> (if unset old then cut 60 v else old) = old)).
  { intros old v. destruct (unset old) eqn:E.
    - split; [reflexivity|]. apply unset_spec in E. tauto.
    - apply unset_false in E. tauto. }
  repeat split; try apply G; destruct t, p, x; apply G.
Qed.
Lemma substring_length : forall s n, String.length (substring 0 n s) = Nat.min n (String.length s).
Proof.
  intros s n. revert s. induction n as [|n IH]; intros s; [destruct s; reflexivity|]. destruct s as [|c s]; [reflexivity|].
  cbn. rewrite IH. reflexivity.
Qed.
Lemma substring_id : forall s n, String.length s <= n -> substring 0 n s = s.
Proof.
  induction s as [|c s IH]; intros n H; [destruct n; reflexivity|]. destruct n; cbn in *; [lia|]. f_equal. apply IH. lia.
Qed.
Lemma substring_app : forall s t n, n <= String.length s -> substring 0 n (s ++ t)%string = substring 0 n s.
Proof.
  induction s as [|c s IH]; intros t n H; cbn in H.
  - assert (n = 0) by lia. subst. destruct t; reflexivity.
  - destruct n; [reflexivity|]. cbn. f_equal. apply IH. lia.
Qed.
Lemma tracking_idem : forall t p x l, tracking t p x (tracking t p x l) = tracking t p x l.
Proof.
  intros t p x l. rewrite !tracking_map, map_map. apply map_ext. intros r. cbn -[cut unset].
  f_equal; match goal with |- (if unset ?a then _ else _) = _ => destruct (unset a) eqn:E; [|reflexivity] end;
  match goal with |- _ = (if unset ?b then _ else _) => destruct (unset b) eqn:F; [reflexivity|] end; congruence.
Qed.

(** ** Flush times, filters, exposures *)
Lemma flush_by_spec : forall ft mjd l,
  Forall2 (fun r s => same_except [CFlush] r s /\ (w_flush s == mjd + ft / 1440)%Q) l (flush_by ft mjd l).
Proof. intros. apply Forall2_map_r. intros r _. split; [same|]. cbn. field. Qed.
Lemma b2f_spec : forall d l,
  Forall2 (fun r s => same_except [CFilter] r s /\
    match d with
    | None => String.length (w_band r) <= 10 -> w_filter s = w_band r
    | Some d => forall f, String.length f <= 10 ->
        (In (w_band r, f) d -> NoDup (map fst d) -> w_filter s = f)
    end /\
    (match d with Some d => ~ In (w_band r) (map fst d) | None => True end -> String.length (w_band r) <= 10 -> w_filter s = w_band r))
   l (band_to_filter d l).
Proof.
  assert (GI : forall d k f, NoDup (map fst d) -> In (k, f) d -> get d k = Some f).
  { induction d as [|(a, v) d IH]; intros k f N I; [destruct I|]. cbn in *. inversion N; subst. destruct I as [I|I].
    - injection I as <- <-. now rewrite String.eqb_refl.
    - destruct (String.eqb a k) eqn:E; [|auto]. apply String.eqb_eq in E. subst a. exfalso. apply H1. apply in_map_iff. exists (k, f). auto. }
  assert (GN : forall d k, ~ In k (map fst d) -> get d k = None).
  { induction d as [|(a, v) d IH]; intros k N; [reflexivity|]. cbn in *. destruct (String.eqb a k) eqn:E; [apply String.eqb_eq in E; tauto|]. apply IH. tauto. }
  assert (DF : forall k, match get default_dict k with Some f => f | None => k end = k).
  { intros k. unfold default_dict. cbn [map get].
    repeat match goal with |- context [String.eqb ?a k] => destruct (String.eqb a k) eqn:?; [apply String.eqb_eq; assumption|] end. reflexivity. }
  intros d l. unfold band_to_filter. apply Forall2_map_r. intros r _. split; [same|]. destruct d as [d|]; cbn [w_filter set_filter].
  - split.
    + intros f L I N. rewrite (GI d _ _ N I). apply substring_id. exact L.
    + intros N L. rewrite (GN d _ N). apply substring_id. exact L.
  - rewrite DF. split; intros; apply substring_id; assumption.
Qed.
Lemma nexp_spec : forall b n e l,
  Forall2 (fun r s => same_except [CNexp; CExpt] r s /\
    (w_band r = b -> w_nexp s = n /\ w_expt s = match e with Some x => x | None => w_expt r end) /\
    (w_band r <> b -> s = r)) l (band_nexp b n e l).
Proof.
  intros. apply Forall2_map_r. intros r _. destruct (String.eqb (w_band r) b) eqn:B.
  - apply String.eqb_eq in B. split; [destruct e; same|]. split; [destruct e; auto|tauto].
  - apply String.eqb_neq in B. split; [same|]. split; tauto.
Qed.
Fixpoint chronological (h : list visit) : Prop :=
  match h with [] => True | v :: r => (forall w, In w r -> (v_mjd v <= v_mjd w)%Q) /\ chronological r end.
Definition starts (prog note : option string) (v : visit) : Prop :=
  (forall p, prog = Some p -> v_prog v = p) /\ (forall n, note = Some n -> v_note v = n) /\ (v_dist v < 35 # 10)%Q.
Lemma start_match_spec : forall prog note v, start_match prog note v = true <-> starts prog note v.
Proof.
  intros prog note v. unfold start_match, starts. rewrite !andb_true_iff, negb_true_iff, Qle_bool_false. split.
  - intros [[H1 H2] H3]. split; [|split; [|exact H3]].
    + intros p ->. symmetry. apply String.eqb_eq. exact H1.
    + intros n ->. symmetry. apply String.eqb_eq. exact H2.
  - intros (H1 & H2 & H3). split; [split|exact H3].
    + destruct prog as [p|]; [|reflexivity]. apply String.eqb_eq. symmetry. apply H1. reflexivity.
    + destruct note as [n|]; [|reflexivity]. apply String.eqb_eq. symmetry. apply H2. reflexivity.
Qed.
Lemma start_last_spec : forall prog note h m, chronological h -> (forall v, In v h -> (m <= v_mjd v)%Q) ->
  let r := fold_left (fun m v => if start_match prog note v then v_mjd v else m) h m in
  (m <= r)%Q /\ (r = m \/ exists v, In v h /\ starts prog note v /\ r = v_mjd v) /\
  forall v, In v h -> starts prog note v -> (v_mjd v <= r)%Q.
Proof.
  intros prog note. induction h as [|v h IH]; intros m C M; cbn [fold_left].
  - split; [apply Qle_refl|]. split; [left; reflexivity|intros v []].
  - destruct C as [C1 C2]. destruct (start_match prog note v) eqn:E.
    + destruct (IH (v_mjd v) C2 C1) as (I1 & I2 & I3). cbn zeta. pose proof (M v (or_introl eq_refl)) as Mv.
      set (r := fold_left _ h (v_mjd v)) in *.
      split; [lra|]. split.
      * right. destruct I2 as [I2|(w & W1 & W2 & W3)]; [exists v; split; [left; reflexivity|]; split; [apply start_match_spec; exact E|exact I2]|].
        exists w. split; [right; exact W1|auto].
      * intros w [<-|W] S; [exact I1|apply I3; assumption].
    + destruct (IH m C2) as (I1 & I2 & I3); [intros w W; apply M; right; exact W|]. cbn zeta.
      set (r := fold_left _ h m) in *. split; [exact I1|]. split.
      * destruct I2 as [I2|(w & W1 & W2)]; [left; exact I2|right; exists w; split; [right; exact W1|exact W2]].
      * intros w [<-|W] S; [apply start_match_spec in S; congruence|apply I3; assumption].
Qed.
Lemma start_spec : forall ang hours prog note hist mjd sequence l,
  chronological hist -> (forall v, In v hist -> (0 <= v_mjd v)%Q) -> (hours / 24 <= mjd)%Q ->
  ((forall v, In v hist -> starts prog note v -> (hours / 24 <= mjd - v_mjd v)%Q) ->
     start_sequence ang hours prog note hist mjd sequence l = sequence ++ l) /\
  ((exists v, In v hist /\ starts prog note v /\ (mjd - v_mjd v < hours / 24)%Q) ->
     start_sequence ang hours prog note hist mjd sequence l = l).
Proof.
  intros ang hours prog note hist mjd sequence l C P H. unfold start_sequence, start_last.
  destruct (start_last_spec prog note hist 0 C P) as (R1 & R2 & R3). cbn zeta in *. set (r := fold_left _ hist 0%Q) in *. split.
  - intros A. assert (B : Qle_bool (hours / 24) (mjd - r) = true).
    { apply Qle_bool_iff. destruct R2 as [R2|(v & V1 & V2 & V3)]; [rewrite R2; lra|rewrite V3; apply A; assumption]. }
    now rewrite B.
  - intros (v & V1 & V2 & V3). pose proof (R3 v V1 V2) as R. assert (B : Qle_bool (hours / 24) (mjd - r) = false).
    { apply Qle_bool_false. set (t := (hours / 24)%Q) in *. lra. }
    now rewrite B.
Qed.
Lemma tag_spec : forall near suffix target l,
  Forall2 (fun r s => same_except [CNote; CTarget] r s /\
    (near r = true -> w_note s = substring 0 60 (w_note r ++ suffix) /\ w_target s = substring 0 60 target) /\
    (near r = false -> s = r)) l (tag_radial near suffix target l).
Proof.
  intros. apply Forall2_map_r. intros r _. destruct (near r) eqn:E; (split; [same|]; split; intros H; [split; reflexivity || discriminate|discriminate || reflexivity]).
Qed.

(** ** Random bands *)
Lemma py_nth_ok : forall X (t : list X) i, (- Z.of_nat (List.length t) <= i < Z.of_nat (List.length t))%Z -> exists x, py_nth t i = Ok x /\ In x t.
Proof.
  intros X t i H. unfold py_nth. set (j := if (i <? 0)%Z then _ else _).
  assert (J : (0 <= j < Z.of_nat (List.length t))%Z) by (unfold j; destruct (i <? 0)%Z eqn:E; [apply Z.ltb_lt in E|apply Z.ltb_ge in E]; lia).
  destruct (j <? 0)%Z eqn:E; [apply Z.ltb_lt in E; lia|].
  destruct (nth_error t (Z.to_nat j)) eqn:N; [exists x; split; [reflexivity|]; eapply nth_error_In; exact N|].
  apply nth_error_None in N. lia.
Qed.
Lemma random_mounted : forall bands table fallback night mounted l out,
  random_band bands table fallback night mounted l = Ok out ->
  exists b, In b mounted /\ (In b bands \/ In b fallback) /\
    Forall2 (fun r s => same_except [CBand] r s /\ w_band s = substring 0 10 b) l out.
Proof.
  intros bands table fallback night mounted l out. unfold random_band. destruct (py_nth table night) as [i|]; cbn; [|discriminate].
  destruct (nth_error bands i) as [b|] eqn:E; [|discriminate]. destruct (has mounted b) eqn:M.
  - intros H. injection H as <-. exists b. apply has_in in M. split; [exact M|]. split; [left; eapply nth_error_In; exact E|].
    apply Forall2_map_r. intros r _. split; [same|reflexivity].
  - destruct (filter (has mounted) fallback) as [|f fs] eqn:F; [discriminate|]. intros H. injection H as <-.
    assert (I : In f (filter (has mounted) fallback)) by (rewrite F; left; reflexivity). apply filter_In in I. destruct I as [I1 I2].
    exists f. apply has_in in I2. split; [exact I2|]. split; [right; exact I1|].
    apply Forall2_map_r. intros r _. split; [same|reflexivity].
Qed.
Lemma random_ok : forall bands table fallback night mounted l,
  (- Z.of_nat (List.length table) <= night < Z.of_nat (List.length table))%Z ->
  (forall i, In i table -> i < List.length bands) -> (exists b, In b fallback /\ In b mounted) ->
  exists out, random_band bands table fallback night mounted l = Ok out.
Proof.
  intros bands table fallback night mounted l N T (b & B1 & B2). unfold random_band.
  destruct (py_nth_ok _ table night N) as (i & -> & I). cbn. destruct (nth_error bands i) as [x|] eqn:E.
  - destruct (has mounted x); [eauto|]. destruct (filter (has mounted) fallback) eqn:F; [|eauto]. exfalso.
    assert (In b (filter (has mounted) fallback)) by (apply filter_In; split; [exact B1|apply has_in; exact B2]). rewrite F in H. destruct H.
  - apply nth_error_None in E. apply T in I. lia.
Qed.

(** ** Pairs *)
Lemma pairs_spec : forall b e nexp cur l,
  exists p o,
    Forall2 (fun r s => same_except [CBand; CExpt; CNexp; CNote] r s /\ w_band s = substring 0 10 b /\
       w_expt s = match e with Some x => x | None => w_expt r end /\
       w_nexp s = match nexp with Some n => n | None => w_nexp r end) l p /\
    Forall2 (fun r s => same_except [CNote] r s) l o /\
    ((cur = b /\ take_as_pairs b e nexp cur l = p ++ o /\
      Forall2 (fun r s => w_note s = substring 0 60 (w_note r ++ ", a")) l p /\
      Forall2 (fun r s => w_note s = substring 0 60 (w_note r ++ ", b")) l o) \/
     (cur <> b /\ take_as_pairs b e nexp cur l = o ++ p /\
      Forall2 (fun r s => w_note s = substring 0 60 (w_note r ++ ", a")) l o /\
      Forall2 (fun r s => w_note s = substring 0 60 (w_note r ++ ", b")) l p)).
Proof.
  intros b e nexp cur l. unfold take_as_pairs. cbv zeta. destruct (String.eqb cur b) eqn:E.
  - apply String.eqb_eq in E. do 2 eexists. split; [|split; [|left; split; [exact E|]; split; [reflexivity|]; split]].
    + apply Forall2_map_r. intros r _. destruct e, nexp; split; try same; auto.
    + apply Forall2_map_r. intros r _. same.
    + apply Forall2_map_r. intros r _. destruct e, nexp; reflexivity.
    + apply Forall2_map_r. intros r _. reflexivity.
  - apply String.eqb_neq in E. do 2 eexists. split; [|split; [|right; split; [exact E|]; split; [reflexivity|]; split]].
    + apply Forall2_map_r. intros r _. destruct e, nexp; split; try same; auto.
    + apply Forall2_map_r. intros r _. same.
    + apply Forall2_map_r. intros r _. reflexivity.
    + apply Forall2_map_r. intros r _. destruct e, nexp; reflexivity.
Qed.

(** ** Numbered notes *)
Definition digit (c : ascii) : bool := let n := nat_of_ascii c in (48 <=? n) && (n <=? 57).
Fixpoint last_char (s : string) : option ascii :=
  match s with EmptyString => None | String c EmptyString => Some c | String _ r => last_char r end.
Lemma las_app : forall a b, list_ascii_of_string (a ++ b)%string = list_ascii_of_string a ++ list_ascii_of_string b.
Proof. induction a as [|c a IH]; intros b; [reflexivity|]. cbn. now rewrite IH. Qed.
Lemma las_inj : forall a b, list_ascii_of_string a = list_ascii_of_string b -> a = b.
Proof. intros a b H. rewrite <- (string_of_list_ascii_of_string a), <- (string_of_list_ascii_of_string b). now rewrite H. Qed.
Lemma dec_digits : forall n c, In c (list_ascii_of_string (dec n)) -> digit c = true.
Proof.
  intro n. unfold dec. assert (K : forall u c, In c (list_ascii_of_string (NilEmpty.string_of_uint u)) -> digit c = true).
  { induction u; cbn; [intros c []|..]; (intros c [<-|H]; [reflexivity|auto]). }
  intros c. destruct (Nat.to_uint n); try apply K. cbn. intros [<-|[]]; reflexivity.
Qed.
Lemma dec_inj : forall a b, dec a = dec b -> a = b.
Proof.
  intros a b H. unfold dec in H. apply (f_equal NilZero.uint_of_string) in H.
  assert (K : forall n, NilZero.uint_of_string (NilZero.string_of_uint (Nat.to_uint n)) = Some (Nat.to_uint n)).
  { intro n. apply NilZero.usu. intro E. assert (F : Nat.of_uint (Nat.to_uint n) = 0) by (rewrite E; reflexivity).
    rewrite DecimalNat.Unsigned.of_to in F. subst n. discriminate E. }
  rewrite !K in H. injection H as H. now apply DecimalNat.Unsigned.to_uint_inj.
Qed.
Lemma tail_digits : forall d1 d2 c1 c2 t1 t2, (forall c, In c d1 -> digit c = true) -> (forall c, In c d2 -> digit c = true) ->
  digit c1 = false -> digit c2 = false -> d1 ++ c1 :: t1 = d2 ++ c2 :: t2 -> d1 = d2.
Proof.
  induction d1 as [|x d1 IH]; intros d2 c1 c2 t1 t2 H1 H2 C1 C2 E; destruct d2 as [|y d2]; cbn in E; auto.
  - injection E as -> _. rewrite (H2 y (or_introl eq_refl)) in C1. discriminate.
  - injection E as -> _. rewrite (H1 c2 (or_introl eq_refl)) in C2. discriminate.
  - injection E as -> E. f_equal. apply (IH d2 c1 c2 t1 t2); [intros c I; apply H1; right; exact I|intros c I; apply H2; right; exact I|exact C1|exact C2|exact E].
Qed.
Lemma last_rev : forall s c, last_char s = Some c -> exists t, rev (list_ascii_of_string s) = c :: t.
Proof.
  induction s as [|x s IH]; intros c H; [discriminate|]. cbn in H. destruct s as [|y s].
  - injection H as ->. exists []. reflexivity.
  - destruct (IH c H) as [t T]. exists (t ++ [x]). cbn [list_ascii_of_string]. cbn [rev] in *. cbn [list_ascii_of_string rev] in T. rewrite T. reflexivity.
Qed.
Lemma note_index_inj : forall sep c a b i j, last_char sep = Some c -> digit c = false ->
  (a ++ sep ++ dec i = b ++ sep ++ dec j)%string -> i = j.
Proof.
  intros sep c a b i j L D E. apply dec_inj. apply las_inj.
  apply (f_equal list_ascii_of_string) in E. rewrite !las_app in E. apply (f_equal (@rev ascii)) in E. rewrite !rev_app_distr in E.
  destruct (last_rev _ _ L) as [t T]. rewrite T in E. rewrite <- !app_assoc in E. cbn [app] in E.
  assert (R : rev (list_ascii_of_string (dec i)) = rev (list_ascii_of_string (dec j))).
  { eapply tail_digits; [| | | |exact E]; auto; intros x X; apply in_rev in X; eapply dec_digits; exact X. }
  rewrite <- (rev_involutive (list_ascii_of_string (dec i))), R. apply rev_involutive.
Qed.
Lemma index_spec : forall sep l k,
  Forall2 (fun p s => same_except [CNote] (snd p) s /\ w_note s = substring 0 60 (w_note (snd p) ++ sep ++ dec (fst p)))
    (combine (seq k (List.length l)) l)
    (map (fun p => set_note (w_note (snd p) ++ sep ++ dec (fst p)) (snd p)) (combine (seq k (List.length l)) l)).
Proof. intros. apply Forall2_map_r. intros r _. split; [same|reflexivity]. Qed.
Lemma combine_fst : forall A B (l : list A) (m : list B), List.length l = List.length m -> map fst (combine l m) = l.
Proof. induction l as [|x l IH]; intros [|y m] H; cbn in *; try discriminate; auto. f_equal. apply IH. lia. Qed.
Lemma index_nodup : forall sep c l, last_char sep = Some c -> digit c = false ->
  (forall i r, nth_error l i = Some r -> String.length (w_note r ++ sep ++ dec i) <= 60) ->
  NoDup (map w_note (index_note sep l)).
Proof.
  intros sep c l L D S. unfold index_note. rewrite map_map. set (ps := combine (seq 0 (List.length l)) l).
  assert (N : NoDup (map fst ps)) by (unfold ps; rewrite combine_fst; [apply seq_NoDup|apply seq_length]).
  assert (F : forall p, In p ps -> String.length (w_note (snd p) ++ sep ++ dec (fst p)) <= 60).
  { intros (i, r) I. apply S. unfold ps in I. clear - I.
    assert (G : forall l k i (r : row), In (i, r) (combine (seq k (List.length l)) l) -> exists j, i = k + j /\ nth_error l j = Some r).
    { clear. induction l as [|x l IH]; intros k i r H; [destruct H|]. cbn in H. destruct H as [H|H].
      - injection H as <- <-. exists 0. split; [lia|reflexivity].
      - destruct (IH _ _ _ H) as (j & -> & J). exists (S j). split; [lia|exact J]. }
    destruct (G _ _ _ _ I) as (j & -> & J). exact J. }
  clearbody ps. induction ps as [|p ps IH]; cbn -[cut]; [constructor|]. inversion N; subst. constructor.
  - intro I. apply in_map_iff in I. destruct I as (q & E & Q). apply H1. unfold cut in E.
    rewrite !substring_id in E by (apply F; cbn; auto). apply (note_index_inj sep c) in E; auto. rewrite <- E. now apply in_map.
  - apply IH; [assumption|]. intros q Q. apply F. right. exact Q.
Qed.
