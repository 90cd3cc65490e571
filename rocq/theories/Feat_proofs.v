(** Proofs about the survey features. *)
From Coq Require Import List ZArith QArith Qround Qabs Bool String Lia Lqa Sorted.
From Verif Require Import Base IntRounded IntRounded_proofs Core Script Surveys Surveys_proofs Feat.
Import ListNotations.
Open Scope nat_scope.

(** ** Feeding a history *)
Inductive feed : Type := One (v : fvis) | Many (l : list fvis).
Definition fed (f : feed) : list fvis := match f with One v => [v] | Many l => l end.
(** The visits reported, in order. *)
Definition history (fs : list feed) : list fvis := List.concat (map fed fs).

Section Run.
Context {S : Type}.
Variable one : S -> fvis -> res S.
Variable arr : S -> list fvis -> res S.
Fixpoint run (s : S) (fs : list feed) : res S :=
  match fs with
  | [] => Ok s
  | One v :: r => bind (one s v) (fun s' => run s' r)
  | Many l :: r => bind (arr s l) (fun s' => run s' r)
  end.

Variable R : list fvis -> S -> Prop.
Variable C : list fvis -> Prop.
Hypothesis C_pre : forall a b, C (a ++ b) -> C a.
Hypothesis one_ok : forall h s v, R h s -> C (h ++ [v]) -> exists s', one s v = Ok s' /\ R (h ++ [v]) s'.

Lemma run_ones : forall l s h, R h s -> C (h ++ l) -> exists s', run s (map One l) = Ok s' /\ R (h ++ l) s'.
Proof.
  induction l as [|v l IH]; intros s h H Hc; cbn [map run].
  - exists s. rewrite app_nil_r. auto.
  - change (v :: l) with ([v] ++ l) in *. rewrite app_assoc in *.
    destruct (one_ok h s v H (C_pre _ _ Hc)) as (s' & E & H'). rewrite E. cbn [bind]. now apply IH.
Qed.

Hypothesis arr_ok : forall h s l, l <> [] -> R h s -> C (h ++ l) -> exists s', arr s l = Ok s' /\ R (h ++ l) s'.
Lemma run_inv : forall fs s h, R h s -> (forall l, In (Many l) fs -> l <> []) -> C (h ++ history fs) ->
  exists s', run s fs = Ok s' /\ R (h ++ history fs) s'.
Proof.
  induction fs as [|f fs IH]; intros s h H Ne Hc.
  - exists s. unfold history. cbn. rewrite app_nil_r. auto.
  - unfold history in *. cbn [map List.concat] in *. fold (history fs) in *. rewrite app_assoc in *.
    destruct f as [v|l]; cbn [run fed] in *.
    + destruct (one_ok h s v H (C_pre _ _ Hc)) as (s' & E & H'). rewrite E. cbn [bind].
      apply IH; auto. intros l Hl. apply Ne. now right.
    + destruct (arr_ok h s l (Ne l (or_introl eq_refl)) H (C_pre _ _ Hc)) as (s' & E & H'). rewrite E. cbn [bind].
      apply IH; auto. intros l' Hl. apply Ne. now right.
Qed.
End Run.

Lemma history_ones : forall l, history (map One l) = l.
Proof. unfold history. induction l as [|v l IH]; [reflexivity|]. cbn. now rewrite IH. Qed.

(** ** Lists *)
Definition count {A} (p : A -> bool) (l : list A) : Z := Z.of_nat (List.length (filter p l)).
Lemma count_app : forall A (p : A -> bool) l1 l2, count p (l1 ++ l2) = (count p l1 + count p l2)%Z.
Proof. intros. unfold count. rewrite filter_app, app_length. lia. Qed.
Lemma count_ext : forall A (p q : A -> bool) l, (forall x, In x l -> p x = q x) -> count p l = count q l.
Proof. intros A p q l H. unfold count. do 2 f_equal. induction l as [|x l IH]; [reflexivity|]. cbn. rewrite (H x (or_introl eq_refl)), IH by (intros; apply H; now right). reflexivity. Qed.
Lemma count_none : forall A (p : A -> bool) l, (forall x, In x l -> p x = false) -> count p l = 0%Z.
Proof. intros A p l H. rewrite (count_ext _ p (fun _ => false) l H). unfold count. clear. induction l; cbn; auto. Qed.
Lemma count_cons : forall A (p : A -> bool) x l, count p (x :: l) = ((if p x then 1 else 0) + count p l)%Z.
Proof. intros. unfold count. cbn. destruct (p x); cbn [List.length]; lia. Qed.
Lemma filter_filter : forall A (p q : A -> bool) l, filter p (filter q l) = filter (fun x => q x && p x) l.
Proof. intros A p q l. induction l as [|x l IH]; [reflexivity|]. cbn. destruct (q x); cbn; [|exact IH]. destruct (p x); now rewrite IH. Qed.

Lemma last_opt_app : forall A (l1 l2 : list A), last_opt (l1 ++ l2) = match last_opt l2 with Some x => Some x | None => last_opt l1 end.
Proof. intros A l1 l2. unfold last_opt. rewrite rev_app_distr. destruct (rev l2); reflexivity. Qed.
Lemma last_opt_none : forall A (l : list A), last_opt l = None -> l = [].
Proof. intros A l H. unfold last_opt in H. destruct (rev l) eqn:E; [|discriminate]. apply (f_equal (@rev A)) in E. now rewrite rev_involutive in E. Qed.
Lemma last_opt_split : forall A (l : list A) x, last_opt l = Some x -> exists r, l = r ++ [x].
Proof.
  intros A l x H. unfold last_opt in H. destruct (rev l) as [|y r] eqn:E; [discriminate|]. injection H as <-.
  exists (rev r). apply (f_equal (@rev A)) in E. rewrite rev_involutive in E. exact E.
Qed.

(** ** Time order *)
Definition before (a b : fvis) : Prop := (fv_mjd a <= fv_mjd b)%Q /\ (fv_night a <= fv_night b)%Z.
Definition chrono (l : list fvis) : Prop := StronglySorted before l.

Lemma chrono_app : forall a b, chrono (a ++ b) <-> chrono a /\ chrono b /\ forall x y, In x a -> In y b -> before x y.
Proof.
  unfold chrono. induction a as [|x a IH]; intros b; cbn.
  - split; [intros H; split; [constructor|split; [exact H|intros ? ? []]]|tauto].
  - split.
    + intros H. inversion H as [|? ? H1 H2]; subst. apply IH in H1. destruct H1 as (A & B & C). rewrite Forall_forall in H2.
      split; [constructor; [exact A|]; apply Forall_forall; intros y Hy; apply H2, in_or_app; now left|]. split; [exact B|].
      intros u y [<-|Hu] Hy; [apply H2, in_or_app; now right|auto].
    + intros (A & B & C). inversion A as [|? ? A1 A2]; subst. constructor.
      * apply IH. split; [exact A1|split; [exact B|]]. intros u y Hu Hy. apply C; auto.
      * apply Forall_forall. intros y Hy. apply in_app_or in Hy. destruct Hy as [Hy|Hy]; [rewrite Forall_forall in A2; auto|apply C; auto; now left].
Qed.
Lemma chrono_pre : forall a b, chrono (a ++ b) -> chrono a.
Proof. intros a b H. now apply chrono_app in H. Qed.
Lemma chrono_last : forall l w v, chrono l -> last_opt l = Some w -> In v l -> v = w \/ before v w.
Proof.
  intros l w v H L I. destruct (last_opt_split _ _ _ L) as (r & ->). apply chrono_app in H. destruct H as (_ & _ & H).
  apply in_app_or in I. destruct I as [I|[<-|[]]]; [right; apply H; auto; now left|now left].
Qed.
Lemma chrono_last_night : forall l w v, chrono l -> last_opt l = Some w -> In v l -> (fv_night v <= fv_night w)%Z.
Proof. intros l w v H L I. destruct (chrono_last l w v H L I) as [->|[_ ?]]; lia. Qed.
Lemma chrono_last_mjd : forall l w v, chrono l -> last_opt l = Some w -> In v l -> (fv_mjd v <= fv_mjd w)%Q.
Proof. intros l w v H L I. destruct (chrono_last l w v H L I) as [->|[? _]]; [apply Qle_refl|auto]. Qed.

Lemma zmax_spec : forall l z, (z <= zmax_list z l)%Z /\ (forall x, In x l -> (x <= zmax_list z l)%Z) /\ (zmax_list z l = z \/ In (zmax_list z l) l).
Proof.
  unfold zmax_list. induction l as [|x l IH]; intros z; cbn.
  - repeat split; [lia|intros ? []|now left].
  - destruct (IH (Z.max z x)) as (A & B & C). split; [lia|]. split; [intros y [<-|Hy]; [lia|auto]|].
    destruct C as [C|C]; [|now right; right]. rewrite C. destruct (Z.max_spec z x) as [[_ ->]|[_ ->]]; auto.
Qed.
Lemma max_night : forall l w, chrono l -> last_opt l = Some w -> exists z r, map fv_night l = z :: r /\ zmax_list z r = fv_night w.
Proof.
  intros l w H L. destruct (map fv_night l) as [|z r] eqn:E; [destruct l; [discriminate|discriminate]|].
  exists z, r. split; [reflexivity|]. destruct (zmax_spec r z) as (A & B & C).
  assert (Lw : In w l) by (destruct (last_opt_split _ _ _ L) as (q & ->); apply in_or_app; right; now left).
  assert (Up : forall x, In x (z :: r) -> (x <= fv_night w)%Z).
  { intros x Hx. rewrite <- E in Hx. apply in_map_iff in Hx. destruct Hx as (v & <- & Hv). now apply (chrono_last_night l). }
  assert (I : In (fv_night w) (z :: r)) by (rewrite <- E; now apply in_map).
  apply Z.le_antisymm; [destruct C as [->|C]; apply Up; [now left|now right]|].
  destruct I as [<-|I]; auto.
Qed.

(** ** Bands *)
(** A band is one character. *)
Definition one_char (s : string) : Prop := exists c, s = String c EmptyString.
Definition band_ok (bn : option string) (v : fvis) : Prop :=
  match bn with None => True | Some s => one_char s /\ fv_band v <> EmptyString end.
Lemma band_in_is : forall bn v, band_ok bn v -> band_in bn v = band_is bn v.
Proof.
  intros [s|] v H; [|reflexivity]. destruct H as ((c & ->) & N). unfold band_in, band_is.
  destruct (String.eqb_spec (fv_band v) (String c "")) as [->|D].
  - apply contains_spec. exists ""%string, ""%string. reflexivity.
  - destruct (Script.contains (fv_band v) (String c "")) eqn:E; [|reflexivity]. exfalso. apply contains_spec in E.
    destruct E as (a & b & E). destruct a as [|x a]; cbn in E.
    + destruct (fv_band v) as [|y t]; [congruence|]. cbn in E. injection E as <- E. destruct t; [|discriminate]. now apply D.
    + injection E as _ E. destruct a; [|discriminate]. destruct (fv_band v); [congruence|discriminate].
Qed.

(** ** Pixels *)
Lemma is_pix_in : forall h l, is_pix h l = true <-> In h l.
Proof.
  intros h l. unfold is_pix. rewrite existsb_exists. split.
  - intros (x & Hx & E). apply Nat.eqb_eq in E. now subst.
  - intros H. exists h. split; [exact H|apply Nat.eqb_refl].
Qed.
Lemma rows_app : forall a b, rows (a ++ b) = rows a ++ rows b.
Proof. intros. unfold rows. now rewrite flat_map_app. Qed.
Lemma rows_in : forall l v h, In (v, h) (rows l) <-> In v l /\ In h (fv_pix v).
Proof.
  intros l v h. unfold rows. rewrite in_flat_map. split.
  - intros (u & Hu & H). apply in_map_iff in H. destruct H as (x & E & Hx). injection E as <- <-. auto.
  - intros [H1 H2]. exists v. split; [exact H1|]. apply in_map_iff. now exists h.
Qed.
Definition pix_ok (v : fvis) : Prop := NoDup (fv_pix v).

Lemma pix_count : forall (l : list nat) h, NoDup l -> List.length (filter (fun x => Nat.eqb x h) l) = if is_pix h l then 1 else 0.
Proof.
  induction l as [|x l IH]; intros h N; [reflexivity|]. inversion N as [|? ? N1 N2]; subst. cbn. rewrite Nat.eqb_sym.
  destruct (Nat.eqb_spec h x) as [->|D]; cbn; [|apply IH; exact N2]. rewrite IH by exact N2. fold (is_pix x l).
  destruct (is_pix x l) eqn:E; [|reflexivity]. apply is_pix_in in E. tauto.
Qed.

(** Rows of a pixel selected by a condition, against visits covering it.  The
    condition may look at the pixel. *)
Lemma n_rows_count : forall (P : fvis -> nat -> bool) l h, (forall v, In v l -> pix_ok v) ->
  n_rows (filter (fun r => P (fst r) (snd r)) (rows l)) h = count (fun v => P v h && is_pix h (fv_pix v)) l.
Proof.
  intros P l h H. unfold n_rows. induction l as [|v l IH]; [reflexivity|].
  rewrite count_cons, <- IH by (intros; apply H; now right). change (rows (v :: l)) with (map (pair v) (fv_pix v) ++ rows l).
  rewrite !filter_app, app_length, Nat2Z.inj_add. f_equal. rewrite filter_filter.
  assert (N := H v (or_introl eq_refl)). unfold pix_ok in N. clear -N.
  transitivity (Z.of_nat (List.length (filter (fun x => P v h && Nat.eqb x h) (fv_pix v)))).
  { f_equal. induction (fv_pix v) as [|x r IH]; [reflexivity|]. cbn [map filter fst snd]. inversion N; subst.
    destruct (Nat.eqb_spec x h) as [->|D].
    - destruct (P v h); cbn; now rewrite IH.
    - rewrite !andb_false_r. now rewrite IH. }
  destruct (P v h); cbn [andb].
  - rewrite pix_count by exact N. destruct (is_pix h (fv_pix v)); reflexivity.
  - induction (fv_pix v); cbn; [reflexivity|]. inversion N; subst. now apply IHl.
Qed.

(** ** NoteInNight *)
Definition night_is (z : Z) (v : fvis) : bool := (fv_night v =? z)%Z.
Section NoteNight.
Variable notes : option (list string).
Definition nn_R (h : list fvis) (s : nnst) : Prop :=
  nn_count s = count (fun v => night_is (nn_night s) v && nn_match notes v) h /\
  forall w, last_opt h = Some w -> nn_night s = fv_night w.

(** The counter after the reset for a visit [w] later than the history. *)
Lemma night_reset : forall (m : fvis -> bool) h n c w,
  c = count (fun v => night_is n v && m v) h -> (forall u, last_opt h = Some u -> n = fv_night u) ->
  chrono h -> (forall x, In x h -> (fv_night x <= fv_night w)%Z) ->
  (if (n =? fv_night w)%Z then c else 0%Z) = count (fun v => night_is (fv_night w) v && m v) h.
Proof.
  intros m h n c w Hc Hn Ch Up. destruct (Z.eqb_spec n (fv_night w)) as [<-|D]; [exact Hc|].
  symmetry. apply count_none. intros x Hx. unfold night_is. destruct (Z.eqb_spec (fv_night x) (fv_night w)) as [E|E]; [|reflexivity].
  exfalso. destruct (last_opt h) as [u|] eqn:L; [|apply last_opt_none in L; subst; destruct Hx].
  specialize (Hn u eq_refl). assert (A := chrono_last_night h u x Ch L Hx).
  destruct (last_opt_split _ _ _ L) as (r & ->). assert (B : (fv_night u <= fv_night w)%Z) by (apply Up, in_or_app; right; now left). lia.
Qed.

Lemma chrono_up : forall h v, chrono (h ++ [v]) -> chrono h /\ forall x, In x h -> (fv_night x <= fv_night v)%Z.
Proof. intros h v H. apply chrono_app in H. destruct H as (A & _ & B). split; [exact A|]. intros x Hx. apply (B x v Hx). now left. Qed.

Lemma last_one : forall A (h : list A) v, last_opt (h ++ [v]) = Some v.
Proof. intros. rewrite last_opt_app. reflexivity. Qed.

Lemma nn_one_ok : forall h s v, nn_R h s -> chrono (h ++ [v]) -> nn_R (h ++ [v]) (nn_one notes s v).
Proof.
  intros h s v [Hc Hn] Ch. destruct (chrono_up h v Ch) as [Ch1 Up].
  assert (K := night_reset (nn_match notes) h (nn_night s) (nn_count s) v Hc Hn Ch1 Up).
  unfold nn_one. set (s1 := if (nn_night s =? fv_night v)%Z then s else mkNn (fv_night v) 0).
  assert (N1 : nn_night s1 = fv_night v) by (unfold s1; destruct (Z.eqb_spec (nn_night s) (fv_night v)); auto).
  assert (C1 : nn_count s1 = count (fun u => night_is (fv_night v) u && nn_match notes u) h).
  { rewrite <- K. unfold s1. destruct (nn_night s =? fv_night v)%Z; reflexivity. }
  unfold nn_R. rewrite last_one. destruct (nn_match notes v) eqn:M; cbn [nn_night nn_count]; rewrite ?N1.
  - split; [|intros w [= <-]; reflexivity]. rewrite count_app, C1, count_cons. unfold night_is at 3. rewrite Z.eqb_refl, M. cbn. lia.
  - split; [|intros w [= <-]; reflexivity]. rewrite count_app, C1, count_cons. rewrite M, andb_false_r. cbn. lia.
Qed.

Lemma fold_count : forall l a, fold_left (fun a v => if nn_match notes v then mkNn (nn_night a) (nn_count a + 1) else a) l a =
  mkNn (nn_night a) (nn_count a + count (nn_match notes) l).
Proof.
  induction l as [|v l IH]; intros a; cbn [fold_left].
  - destruct a; cbn. unfold count. cbn. f_equal. lia.
  - rewrite IH, count_cons. destruct (nn_match notes v); cbn [nn_night nn_count]; f_equal; lia.
Qed.

Lemma nn_arr_ok : forall h s l, l <> [] -> nn_R h s -> chrono (h ++ l) -> exists s', nn_arr notes s l = Ok s' /\ nn_R (h ++ l) s'.
Proof.
  intros h s l Ne [Hc Hn] Ch. unfold nn_arr. destruct (last_opt l) as [w|] eqn:L; [|apply last_opt_none in L; tauto].
  eexists. split; [reflexivity|]. rewrite fold_count. apply chrono_app in Ch. destruct Ch as (C1 & C2 & C3).
  assert (Lw : In w l) by (destruct (last_opt_split _ _ _ L) as (q & ->); apply in_or_app; right; now left).
  assert (Up : forall x, In x h -> (fv_night x <= fv_night w)%Z) by (intros x Hx; apply (C3 x w Hx Lw)).
  assert (K := night_reset (nn_match notes) h (nn_night s) (nn_count s) w Hc Hn C1 Up).
  set (s1 := if (nn_night s =? fv_night w)%Z then s else mkNn (fv_night w) 0).
  assert (N1 : nn_night s1 = fv_night w) by (unfold s1; destruct (Z.eqb_spec (nn_night s) (fv_night w)); auto).
  assert (K1 : nn_count s1 = count (fun u => night_is (fv_night w) u && nn_match notes u) h).
  { rewrite <- K. unfold s1. destruct (nn_night s =? fv_night w)%Z; reflexivity. }
  unfold nn_R. cbn [nn_night nn_count]. rewrite last_opt_app, L, N1. split; [|intros u [= <-]; reflexivity].
  rewrite count_app, K1. f_equal. unfold count. now rewrite filter_filter.
Qed.
End NoteNight.

(** ** NObsCount *)
Section ObsCount.
Variables note bn : option string.
Definition nc_match (v : fvis) : bool := note_has (nc_note note) v && band_is bn v.
Definition all_band (h : list fvis) : Prop := forall v, In v h -> band_ok bn v.
Lemma all_band_pre : forall a b, all_band (a ++ b) -> all_band a.
Proof. intros a b H v Hv. apply H, in_or_app. now left. Qed.

Definition nc_R (h : list fvis) (s : nnst) : Prop := nn_count s = count nc_match h.
Lemma nc_one_ok : forall h s v, nc_R h s -> all_band (h ++ [v]) -> nc_R (h ++ [v]) (nc_one note bn false s v).
Proof.
  intros h s v H B. unfold nc_R, nc_one in *. cbn [andb]. rewrite band_in_is by (apply B, in_or_app; right; now left).
  fold (nc_match v). rewrite count_app, count_cons, <- H. unfold count. cbn. destruct (nc_match v); cbn; lia.
Qed.
Lemma nc_arr_ok : forall h s l, nc_R h s -> exists s', nc_arr note bn false s l = Ok s' /\ nc_R (h ++ l) s'.
Proof. intros h s l H. eexists. split; [reflexivity|]. unfold nc_R in *. cbn [nn_count fst snd]. rewrite count_app, H. reflexivity. Qed.

(** Counting within a night. *)
Definition ncn_R (h : list fvis) (s : nnst) : Prop :=
  nn_count s = count (fun v => night_is (nn_night s) v && nc_match v) h /\
  forall w, last_opt h = Some w -> nn_night s = fv_night w.
Lemma ncn_one_ok : forall h s v, ncn_R h s -> chrono (h ++ [v]) /\ all_band (h ++ [v]) -> ncn_R (h ++ [v]) (nc_one note bn true s v).
Proof.
  intros h s v [Hc Hn] [Ch B]. destruct (chrono_up h v Ch) as [Ch1 Up].
  assert (K := night_reset nc_match h (nn_night s) (nn_count s) v Hc Hn Ch1 Up).
  unfold nc_one. cbn [andb]. rewrite band_in_is by (apply B, in_or_app; right; now left). fold (nc_match v).
  set (s1 := if negb (fv_night v =? nn_night s)%Z then mkNn (fv_night v) 0 else s).
  assert (N1 : nn_night s1 = fv_night v) by (unfold s1; destruct (Z.eqb_spec (fv_night v) (nn_night s)); auto).
  assert (C1 : nn_count s1 = count (fun u => night_is (fv_night v) u && nc_match u) h).
  { rewrite <- K. unfold s1. rewrite Z.eqb_sym. destruct (nn_night s =? fv_night v)%Z; reflexivity. }
  unfold ncn_R. rewrite last_one. destruct (nc_match v) eqn:M; cbn [nn_night nn_count]; rewrite ?N1.
  - split; [|intros w [= <-]; reflexivity]. rewrite count_app, C1, count_cons. unfold night_is at 3. rewrite Z.eqb_refl, M. cbn. lia.
  - split; [|intros w [= <-]; reflexivity]. rewrite count_app, C1, count_cons. rewrite M, andb_false_r. cbn. lia.
Qed.
Lemma ncn_arr_ok : forall l, l <> [] -> chrono l -> exists s', nc_arr note bn true nc0 l = Ok s' /\ ncn_R l s'.
Proof.
  intros l Ne Ch. destruct (last_opt l) as [w|] eqn:L; [|apply last_opt_none in L; tauto].
  destruct (max_night l w Ch L) as (z & r & E & M). unfold nc_arr. rewrite E. cbn [bind]. cbv zeta. rewrite M.
  eexists. split; [reflexivity|]. unfold ncn_R. cbn [nn_count nn_night fst snd]. rewrite L. split; [|intros u [= <-]; reflexivity].
  rewrite filter_filter. reflexivity.
Qed.
End ObsCount.

(** ** LastObservation *)
Section LastObs.
Variables note bn : option string.
Definition lo_R (h : list fvis) (s : option fvis) : Prop := s = last_opt (filter (lo_match note bn) h).
Lemma lo_one_ok : forall h s v, lo_R h s -> lo_R (h ++ [v]) (lo_one note bn s v).
Proof.
  intros h s v ->. unfold lo_R, lo_one. rewrite filter_app, last_opt_app. cbn. destruct (lo_match note bn v); reflexivity.
Qed.
Lemma lo_arr_ok : forall h s l, lo_R h s -> exists s', lo_arr note bn s l = Ok s' /\ lo_R (h ++ l) s'.
Proof.
  intros h s l ->. eexists. split; [reflexivity|]. unfold lo_R. rewrite filter_app, last_opt_app.
  destruct (last_opt (filter (lo_match note bn) l)); reflexivity.
Qed.
End LastObs.

(** ** LastObservedMatching *)
Section LastMatch.
Variables prog note : option string.
Variable pos : option ((fvis -> Q) * Q).
Definition om_match (v : fvis) : bool :=
  om_text prog note v && match pos with None => true | Some (d, lim) => Qltb (d v) lim end.
Definition off_edge (h : list fvis) : Prop :=
  match pos with None => True | Some (d, lim) => forall v, In v h -> ~ (d v == lim)%Q end.
Lemma off_edge_pre : forall a b, off_edge (a ++ b) -> off_edge a.
Proof. unfold off_edge. intros a b. destruct pos as [[d lim]|]; [|auto]. intros H v Hv. apply H, in_or_app. now left. Qed.
Definition om_R (h : list fvis) (s : option fvis) : Prop := s = last_opt (filter om_match h).
Lemma om_one_ok : forall h s v, om_R h s -> om_R (h ++ [v]) (om_one prog note pos s v).
Proof.
  intros h s v ->. unfold om_R, om_one. rewrite filter_app, last_opt_app. cbn [filter]. unfold om_match at 2.
  assert (E : match pos with None => true | Some (d, lim) => negb (Qle_bool lim (d v)) end = match pos with None => true | Some (d, lim) => Qltb (d v) lim end).
  { destruct pos as [[d lim]|]; reflexivity. }
  rewrite E. destruct (om_text prog note v && _); reflexivity.
Qed.
Lemma om_arr_ok : forall h s l, om_R h s -> off_edge (h ++ l) -> exists s', om_arr prog note pos s l = Ok s' /\ om_R (h ++ l) s'.
Proof.
  intros h s l -> Off. eexists. split; [reflexivity|]. unfold om_R. rewrite filter_app, last_opt_app.
  assert (E : filter (fun v => om_text prog note v && match pos with None => true | Some (d, lim) => Qle_bool (d v) lim end) l = filter om_match l).
  { apply filter_ext_in. intros v Hv. unfold om_match. f_equal. unfold off_edge in Off. destruct pos as [[d lim]|]; [|reflexivity].
    assert (N := Off v (in_or_app _ _ _ (or_intror Hv))). unfold Qltb.
    destruct (Qle_bool (d v) lim) eqn:A; destruct (Qle_bool lim (d v)) eqn:B; try reflexivity.
    - apply Qle_bool_iff in A, B. exfalso. apply N. now apply Qle_antisym.
    - apply Qle_bool_false in A, B. lra. }
  rewrite E. destruct (last_opt (filter om_match l)); reflexivity.
Qed.
End LastMatch.
