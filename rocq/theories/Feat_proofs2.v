(** Proofs about the survey features kept per pixel. *)
From Coq Require Import List ZArith QArith Qround Qabs Bool String Lia Lqa Sorted.
From Verif Require Import Base IntRounded IntRounded_proofs Core Script Surveys Surveys_proofs Feat Feat_proofs.
Import ListNotations.
Open Scope nat_scope.

(** ** Comparisons with one number *)
Definition far (a x : Q) : Prop := (x == 0)%Q \/ ((1 # 1000000000) * Qabs x < Qabs (a - x))%Q.
Lemma bcast_scalar : forall v x, bcast v [x] = Ok (map (fun a => (a, x)) v).
Proof. intros [|a [|b v]] x; reflexivity. Qed.
Lemma cmp_scalar : forall (cmp : Q -> Q -> bool) v x, (forall a, In a v -> far a x) -> ir_cmp cmp v [x] = Ok (map (fun a => cmp a x) v).
Proof.
  intros cmp v x F.
  assert (E : map (fun p : Q * Q => cmp (fst p) (snd p)) (map (fun a => (a, x)) v) = map (fun a => cmp a x) v) by (rewrite map_map; reflexivity).
  destruct (Qeq_dec x 0) as [Z|NZ].
  - unfold ir_cmp. rewrite bcast_scalar. cbn [bind]. rewrite <- E. do 2 f_equal. unfold check_limit, order_of_mag.
    assert (N : filter nonzero (map snd (map (fun a : Q => (a, x)) v)) = []).
    { rewrite map_map. cbn. clear F E. induction v as [|a v IH]; [reflexivity|]. cbn. unfold nonzero at 1.
      rewrite (proj2 (Qeq_bool_iff x 0) Z). exact IH. }
    rewrite N. cbn. destruct (map om10 _); reflexivity.
  - destruct v as [|a v]; [reflexivity|]. rewrite <- E. apply (ir_cmp_exact cmp _ _ _ x (bcast_scalar _ _)); [right; now left|exact NZ|].
    intros p q Hp. apply in_map_iff in Hp. destruct Hp as (u & [= <- <-] & Hu). destruct (F u Hu) as [?|?]; [tauto|auto].
Qed.

Lemma filter_combine : forall A (rs : list A) (b : A -> bool) (g : A -> bool -> bool),
  map fst (filter (fun p => g (fst p) (snd p)) (combine rs (map b rs))) = filter (fun r => g r (b r)) rs.
Proof. induction rs as [|r rs IH]; intros b g; [reflexivity|]. cbn. destruct (g r (b r)); cbn; now rewrite IH. Qed.

Definition all_pix (h : list fvis) : Prop := forall v, In v h -> pix_ok v.
Lemma all_pre : forall (P : fvis -> Prop) a b, (forall v, In v (a ++ b) -> P v) -> forall v, In v a -> P v.
Proof. intros P a b H v Hv. apply H, in_or_app. now left. Qed.
Lemma all_post : forall (P : fvis -> Prop) a b, (forall v, In v (a ++ b) -> P v) -> forall v, In v b -> P v.
Proof. intros P a b H v Hv. apply H, in_or_app. now right. Qed.

Lemma in_last {A} : forall (h : list A) v, In v (h ++ [v]).
Proof. intros. apply in_or_app. right. now left. Qed.

(** ** NObservations *)
Section NObs.
Variables note bn : option string.
Variable lim : seelim.
Variable fill : Q.
Definition see_ok (v : fvis) : bool := match lim with LScalar x => Qltb (see_val fill v) x | _ => true end.
Definition see_far (v : fvis) : Prop :=
  match lim with LNone => True | LScalar x => ~ (see_val fill v == x)%Q /\ far (see_val fill v) x | LMap _ => False end.
Definition no_match (x : nat) (v : fvis) : bool := is_pix x (fv_pix v) && band_is bn v && see_ok v && note_within note v.
Definition no_R (h : list fvis) (f : nat -> Z) : Prop := forall x, f x = count (no_match x) h.
Definition no_C (h : list fvis) : Prop := forall v, In v h -> band_ok bn v /\ pix_ok v /\ see_far v.

Lemma le_lt_far : forall a x, ~ (a == x)%Q -> Qle_bool a x = Qltb a x.
Proof.
  intros a x N. unfold Qltb. destruct (Qle_bool a x) eqn:A, (Qle_bool x a) eqn:B; try reflexivity; exfalso.
  - apply Qle_bool_iff in A, B. apply N. now apply Qle_antisym.
  - apply Qle_bool_false in A, B. lra.
Qed.

Lemma no_one_ok : forall h f v, no_R h f -> no_C (h ++ [v]) -> exists f', no_one note bn lim fill f v = Ok f' /\ no_R (h ++ [v]) f'.
Proof.
  intros h f v H C. assert (Cv := C v (in_last h v)). destruct Cv as (B & P & S). unfold no_one.
  assert (E : match lim with
        | LNone => Ok true
        | LScalar x => bind (ir_le [see_val fill v] [x]) (fun b => Ok (any_true b))
        | LMap m => bind (ir_le [see_val fill v] (map m (fv_pix v))) (fun b => Ok (any_true b))
        end = Ok (see_ok v)).
  { unfold see_ok, see_far in *. destruct lim as [|x|]; [reflexivity| |destruct S].
    unfold ir_le. rewrite cmp_scalar by (intros a [<-|[]]; apply S). cbn. rewrite orb_false_r, le_lt_far by apply S. reflexivity. }
  rewrite E. cbn [bind]. eexists. split; [reflexivity|]. intros x. rewrite count_app, count_cons. unfold count at 2. cbn.
  rewrite <- H. unfold no_match. rewrite (band_in_is _ _ B). unfold bump.
  destruct (band_is bn v), (see_ok v), (note_within note v), (is_pix x (fv_pix v)) eqn:X; cbn; rewrite ?X; lia.
Qed.

Lemma no_arr_ok : forall h f l, no_R h f -> no_C (h ++ l) -> exists f', no_arr note bn lim fill f l = Ok f' /\ no_R (h ++ l) f'.
Proof.
  intros h f l H C. unfold no_arr. cbv zeta.
  assert (E : match lim with
        | LNone => Ok (map (fun _ => false) (rows l))
        | LScalar x => ir_ge (map (fun r => see_val fill (fst r)) (rows l)) [x]
        | LMap m => ir_ge (map (fun r => see_val fill (fst r)) (rows l)) (map (fun r => m (snd r)) (rows l))
        end = Ok (map (fun r => negb (see_ok (fst r))) (rows l))).
  { unfold see_ok. destruct lim as [|x|m] eqn:L; [reflexivity| |].
    - unfold ir_ge. rewrite cmp_scalar.
      + rewrite map_map. f_equal. apply map_ext. intros r. unfold Qltb. now rewrite negb_involutive.
      + intros a Ha. apply in_map_iff in Ha. destruct Ha as ([v p] & <- & Hv). apply rows_in in Hv.
        assert (S := proj2 (proj2 (C v (in_or_app _ _ _ (or_intror (proj1 Hv)))))). unfold see_far in S. rewrite L in S. apply S.
    - destruct l as [|v l]; [reflexivity|]. exfalso. assert (S : see_far v) by (apply C, in_or_app; right; now left).
      unfold see_far in S. now rewrite L in S. }
  rewrite E. cbn [bind]. eexists. split; [reflexivity|]. intros x.
  rewrite (filter_combine _ (rows l) (fun r => negb (see_ok (fst r))) (fun r b => negb b && band_is bn (fst r) && note_within note (fst r))).
  rewrite (n_rows_count (fun v _ => negb (negb (see_ok v)) && band_is bn v && note_within note v)) by (intros v Hv; apply C, in_or_app; now right).
  rewrite count_app, <- H. f_equal. apply count_ext. intros v _. unfold no_match. rewrite negb_involutive.
  destruct (see_ok v), (band_is bn v), (note_within note v), (is_pix x (fv_pix v)); reflexivity.
Qed.
End NObs.

(** ** LastNObsTimes *)
Section NTimes.
Variable bn : option string.
Variable n : nat.
Definition at_pix (x : nat) (v : fvis) : bool := is_pix x (fv_pix v) && band_is bn v.
(** Times of the visits covering a pixel, latest first. *)
Definition times (x : nat) (h : list fvis) : list Q := rev (map fv_mjd (filter (at_pix x) h)).
Definition lt_R (h : list fvis) (f : nat -> list Q) : Prop := forall x, f x = firstn n (times x h ++ repeat 0%Q n).
Definition lt_C (h : list fvis) : Prop := forall v, In v h -> band_ok bn v /\ pix_ok v.

Lemma lt_len : forall A (l : list A) (x : A), List.length (firstn n (l ++ repeat x n)) = n.
Proof. intros. rewrite firstn_length, app_length, repeat_length. lia. Qed.
Lemma lt_one_ok : forall h f v, lt_R h f -> lt_C (h ++ [v]) -> lt_R (h ++ [v]) (lt_one bn f v).
Proof.
  intros h f v H C x. unfold lt_one. rewrite (band_in_is bn v) by (apply C, in_or_app; right; now left).
  rewrite (H x), lt_len. unfold times. rewrite filter_app, map_app, rev_app_distr. cbn [filter]. change (at_pix x v) with (is_pix x (fv_pix v) && band_is bn v).
  rewrite andb_comm. destruct (is_pix x (fv_pix v) && band_is bn v); cbn [map rev app]; [|reflexivity].
  destruct n as [|m]; [reflexivity|]. rewrite !firstn_cons. f_equal. rewrite firstn_firstn. replace (Nat.min m (S m)) with m by lia.
  replace (repeat 0%Q (S m)) with (repeat 0%Q m ++ [0%Q]) by (symmetry; apply repeat_cons). reflexivity.
Qed.
Lemma nth_pad : forall (l : list Q) k, map (fun i => nth i l 0%Q) (seq 0 k) = firstn k (l ++ repeat 0%Q k).
Proof.
  induction l as [|q l IH]; intros k.
  - cbn [app]. rewrite firstn_all2 by (rewrite repeat_length; lia).
    assert (G : forall s, map (fun i => nth i (@nil Q) 0%Q) (seq s k) = repeat 0%Q k).
    { induction k as [|k IHk]; intros s; [reflexivity|]. cbn [seq map repeat]. rewrite IHk. destruct s; reflexivity. }
    apply G.
  - destruct k as [|k]; [reflexivity|]. cbn [seq map app firstn nth]. f_equal.
    rewrite <- seq_shift, map_map. cbn [nth]. rewrite IH.
    replace (repeat 0%Q (S k)) with (repeat 0%Q k ++ [0%Q]) by (symmetry; apply repeat_cons).
    rewrite app_assoc, (firstn_app k (l ++ repeat 0%Q k)), app_length, repeat_length.
    replace (k - (List.length l + k)) with 0 by lia. cbn. now rewrite app_nil_r.
Qed.
Lemma filter_rows_times : forall l x, all_pix l -> map (fun r : fvis * nat => fv_mjd (fst r))
    (filter (fun r => Nat.eqb (snd r) x) (filter (fun r => band_is bn (fst r)) (rows l))) = map fv_mjd (filter (at_pix x) l).
Proof.
  intros l x H. induction l as [|v l IH]; [reflexivity|]. change (rows (v :: l)) with (map (pair v) (fv_pix v) ++ rows l).
  rewrite !filter_app, map_app, IH by (intros u Hu; apply H; now right). cbn [filter].
  assert (N := H v (or_introl eq_refl)). unfold pix_ok in N.
  assert (E : map (fun r : fvis * nat => fv_mjd (fst r)) (filter (fun r => Nat.eqb (snd r) x) (filter (fun r => band_is bn (fst r)) (map (pair v) (fv_pix v)))) =
              if at_pix x v then [fv_mjd v] else []).
  { unfold at_pix. destruct (band_is bn v) eqn:B.
    - rewrite andb_true_r. induction (fv_pix v) as [|y r IHr]; [reflexivity|]. inversion N as [|? ? N1 N2]; subst.
      cbn [map filter fst snd]. rewrite B. cbn [filter snd]. unfold is_pix in *. cbn [existsb]. rewrite (Nat.eqb_sym x y).
      destruct (Nat.eqb_spec y x) as [->|D]; cbn [map orb fst]; [|auto].
      rewrite IHr by exact N2. destruct (existsb (Nat.eqb x) r) eqn:X; [|reflexivity]. apply (proj1 (is_pix_in x r)) in X. tauto.
    - rewrite andb_false_r. clear N. induction (fv_pix v) as [|y r IHr]; [reflexivity|]. cbn [map filter fst]. rewrite B. exact IHr. }
  rewrite E. destruct (at_pix x v); reflexivity.
Qed.
Lemma lt_arr_ok : forall l, (1 <= n)%nat -> lt_C l -> exists f, lt_arr bn n (lt0 n) l = Ok f /\ lt_R l f.
Proof.
  intros l Hn C. eexists. split; [reflexivity|]. intros x. assert (T := filter_rows_times l x (fun v Hv => proj2 (C v Hv))).
  assert (Z : lt0 n x = repeat 0%Q n) by (unfold lt0; f_equal; lia).
  destruct (filter (fun r => band_is bn (fst r)) (rows l)) as [|r rs] eqn:D.
  - cbn in T. rewrite Z. unfold times. rewrite <- T. cbn. rewrite firstn_all2; [reflexivity|rewrite repeat_length; lia].
  - cbv beta iota zeta. rewrite T. fold (times x l). rewrite nth_pad, Z, skipn_all2, app_nil_r by (rewrite repeat_length; lia). reflexivity.
Qed.
Lemma lt0_R : (1 <= n)%nat -> lt_R [] (lt0 n).
Proof. intros H x. unfold lt0, times. cbn [filter map rev app]. rewrite firstn_all2 by (rewrite repeat_length; lia). f_equal. lia. Qed.
End NTimes.

(** ** LastObserved *)
Section LastPix.
Variable bn : option string.
Definition qopt_eq (a b : option Q) : Prop := match a, b with Some x, Some y => (x == y)%Q | None, None => True | _, _ => False end.
Definition ld_R (h : list fvis) (f : nat -> option Q) : Prop := forall x, qopt_eq (f x) (last_opt (map fv_mjd (filter (at_pix bn x) h))).
Definition ld_C (h : list fvis) : Prop := chrono h /\ forall v, In v h -> band_ok bn v /\ pix_ok v /\ (0 < fv_mjd v)%Q.

Lemma qopt_refl : forall a, qopt_eq a a.
Proof. intros [x|]; cbn; [reflexivity|exact I]. Qed.
Lemma ld_one_ok : forall h f v, ld_R h f -> ld_C (h ++ [v]) -> ld_R (h ++ [v]) (ld_one bn f v).
Proof.
  intros h f v H C x. unfold ld_one. rewrite (band_in_is bn v) by (apply C, in_or_app; right; now left).
  rewrite filter_app, map_app, last_opt_app. cbn [filter]. change (at_pix bn x v) with (is_pix x (fv_pix v) && band_is bn v). rewrite andb_comm.
  destruct (is_pix x (fv_pix v) && band_is bn v); [apply qopt_refl|apply H].
Qed.
Lemma qmax_spec : forall l q, (q <= qmax_list q l)%Q /\ (forall x, In x l -> (x <= qmax_list q l)%Q) /\ (qmax_list q l = q \/ In (qmax_list q l) l).
Proof.
  unfold qmax_list. induction l as [|x l IH]; intros q; cbn.
  - split; [apply Qle_refl|]. split; [intros ? []|now left].
  - destruct (Qltb q x) eqn:E.
    + apply Qltb_lt in E. destruct (IH x) as (A & B & C). split; [lra|]. split; [intros y [<-|Hy]; auto|]. destruct C as [->|C]; auto.
    + apply Qltb_false in E. destruct (IH q) as (A & B & C). split; [exact A|]. split; [intros y [<-|Hy]; [lra|auto]|]. destruct C as [->|C]; auto.
Qed.
Lemma filter_chrono : forall p l, chrono l -> chrono (filter p l).
Proof.
  intros p l H. induction H as [|v l H IH F]; [constructor|]. cbn. destruct (p v); [|exact IH]. constructor; [exact IH|].
  rewrite Forall_forall in *. intros u Hu. apply filter_In in Hu. now apply F.
Qed.
Lemma last_opt_map : forall A B (g : A -> B) l, last_opt (map g l) = option_map g (last_opt l).
Proof. intros. unfold last_opt. rewrite <- map_rev. destruct (rev l); reflexivity. Qed.
Lemma ld_arr_ok : forall h f l, ld_R h f -> ld_C (h ++ l) -> exists f', ld_arr bn f l = Ok f' /\ ld_R (h ++ l) f'.
Proof.
  intros h f l H [Ch C]. eexists. split; [reflexivity|]. intros x.
  assert (T := filter_rows_times bn l x (fun v Hv => proj1 (proj2 (C v (in_or_app _ _ _ (or_intror Hv)))))). rewrite T. clear T.
  rewrite filter_app, map_app, last_opt_app. destruct (last_opt (map fv_mjd (filter (at_pix bn x) l))) as [m|] eqn:L.
  - rewrite last_opt_map in L. destruct (last_opt (filter (at_pix bn x) l)) as [w|] eqn:W; [|discriminate]. injection L as <-.
    assert (CF : chrono (filter (at_pix bn x) l)) by (apply filter_chrono; apply chrono_app in Ch; tauto).
    assert (Iw : In w (filter (at_pix bn x) l)) by (destruct (last_opt_split _ _ _ W) as (q & ->); apply in_or_app; right; now left).
    assert (IM : In (fv_mjd w) (map fv_mjd (filter (at_pix bn x) l))) by now apply in_map.
    assert (Up : forall y, In y (map fv_mjd (filter (at_pix bn x) l)) -> (y <= fv_mjd w)%Q).
    { intros y Hy. apply in_map_iff in Hy. destruct Hy as (v & <- & Hv). now apply (chrono_last_mjd _ w v CF W). }
    assert (Pw : (0 < fv_mjd w)%Q) by (apply C, in_or_app; right; now apply filter_In in Iw).
    destruct (map fv_mjd (filter (at_pix bn x) l)) as [|q r] eqn:E; [destruct IM|].
    destruct (qmax_spec r q) as (A & B & D).
    assert (EQ : (qmax_list q r == fv_mjd w)%Q).
    { apply Qle_antisym; [apply Up; destruct D as [->|D]; [now left|now right]|]. destruct IM as [<-|IM]; auto. }
    cbv zeta. assert (P : Qltb 0 (qmax_list q r) = true) by (apply Qltb_lt; rewrite EQ; exact Pw). rewrite P. exact EQ.
  - apply last_opt_none in L. rewrite L. apply H.
Qed.
End LastPix.

(** ** NObsNight *)
Section NightPix.
Variable bn : option string.
Definition nb_R (h : list fvis) (s : nbst) : Prop :=
  (h = [] -> s = nb0) /\
  forall w, last_opt h = Some w -> nb_night s = Some (fv_night w) /\
    forall x, nb_map s x = count (fun v => night_is (fv_night w) v && at_pix bn x v) h.
Definition nb_C (h : list fvis) : Prop := chrono h /\ bn <> Some EmptyString /\ forall v, In v h -> band_ok bn v /\ pix_ok v.

Lemma nb_reset : forall h s w, nb_R h s -> chrono h -> (forall x, In x h -> (fv_night x <= fv_night w)%Z) ->
  let s1 := if zopt_eqb (nb_night s) (fv_night w) then s else mkNb (Some (fv_night w)) (fun _ => 0%Z) in
  nb_night s1 = Some (fv_night w) /\ forall x, nb_map s1 x = count (fun v => night_is (fv_night w) v && at_pix bn x v) h.
Proof.
  intros h s w [H0 H1] Ch Up. cbv zeta. destruct (last_opt h) as [u|] eqn:L.
  - destruct (H1 u eq_refl) as [E M]. rewrite E. cbn [zopt_eqb]. destruct (Z.eqb_spec (fv_night u) (fv_night w)) as [Q|D].
    + rewrite E, <- Q. auto.
    + split; [reflexivity|]. intros x. cbn [nb_map].
      assert (K := night_reset (at_pix bn x) h (fv_night u) _ w eq_refl (fun u' Hu => ltac:(congruence)) Ch Up).
      destruct (Z.eqb_spec (fv_night u) (fv_night w)); [tauto|exact K].
  - apply last_opt_none in L. subst. rewrite H0 by reflexivity. cbn. auto.
Qed.
Lemma nb_one_ok : forall h s v, nb_R h s -> nb_C (h ++ [v]) -> nb_R (h ++ [v]) (nb_one bn s v).
Proof.
  intros h s v H (Ch & NE & C). destruct (chrono_up h v Ch) as [Ch1 Up]. destruct (nb_reset h s v H Ch1 Up) as [E M].
  unfold nb_one. set (s1 := if zopt_eqb (nb_night s) (fv_night v) then s else mkNb (Some (fv_night v)) (fun _ => 0%Z)) in *.
  clearbody s1. split; [destruct h; discriminate|]. rewrite last_one. intros w [= <-].
  assert (B : band_ok bn v) by (apply C, in_or_app; right; now left).
  assert (G : (match bn with None => true | Some EmptyString => true | _ => false end) || band_in bn v = band_is bn v).
  { rewrite band_in_is by exact B. destruct bn as [[|c t]|]; [congruence|reflexivity|reflexivity]. }
  cbv zeta. rewrite G. split; [destruct (band_is bn v); exact E|]. intros x. rewrite count_app, count_cons. unfold night_is at 2.
  rewrite Z.eqb_refl. unfold count at 2. cbn [andb filter List.length]. rewrite <- M. unfold at_pix.
  destruct (band_is bn v); cbn [nb_map]; unfold bump; destruct (is_pix x (fv_pix v)); cbn; lia.
Qed.
Lemma nb_arr_ok : forall h s l, l <> [] -> nb_R h s -> nb_C (h ++ l) -> exists s', nb_arr bn s l = Ok s' /\ nb_R (h ++ l) s'.
Proof.
  intros h s l Ne H (Ch & NE & C). apply chrono_app in Ch. destruct Ch as (C1 & C2 & C3).
  destruct (last_opt l) as [w|] eqn:L; [|apply last_opt_none in L; tauto].
  destruct (max_night l w C2 L) as (z & r & E & M). unfold nb_arr. rewrite E. cbv zeta. rewrite M.
  assert (Lw : In w l) by (destruct (last_opt_split _ _ _ L) as (q & ->); apply in_or_app; right; now left).
  destruct (nb_reset h s w H C1 (fun x Hx => proj2 (C3 x w Hx Lw))) as [E1 M1].
  eexists. split; [reflexivity|]. split; [intros X; apply app_eq_nil in X; tauto|]. intros u. rewrite last_opt_app, L. intros [= <-].
  cbn [nb_night nb_map]. split; [exact E1|]. intros x. rewrite M1, count_app. f_equal.
  rewrite (n_rows_count (fun v _ => band_is bn v && (fv_night v =? fv_night w)%Z)) by (intros v Hv; apply C, in_or_app; now right).
  apply count_ext. intros v _. unfold night_is, at_pix. destruct (band_is bn v), (fv_night v =? fv_night w)%Z, (is_pix x (fv_pix v)); reflexivity.
Qed.
End NightPix.

(** ** Seasons *)
Lemma season_shift : forall ra t start, (calc_season ra start start + (t - start) / yr == calc_season ra t start)%Q.
Proof. intros. unfold calc_season, yr. field. Qed.

Lemma season_start_range : forall ra start, (- 1 < calc_season ra start start <= 0)%Q.
Proof.
  intros ra start. unfold calc_season, season_began. set (b := (ref_time + (ra - ref_sun) / 360 * yr)%Q). clearbody b.
  set (k := Qfloor ((b - start) / yr)).
  assert (E : ((start - (b - inject_Z k * yr)) / yr == inject_Z k - (b - start) / yr)%Q) by (unfold yr; field).
  rewrite E. assert (A := Qfloor_le ((b - start) / yr)). assert (B := Qlt_floor ((b - start) / yr)). fold k in A, B.
  rewrite inject_Z_plus in B. change (inject_Z 1) with 1%Q in B. split; lra.
Qed.

Lemma season_year : forall ra t start, (calc_season ra (t + yr) start == calc_season ra t start + 1)%Q.
Proof. intros. unfold calc_season, yr. field. Qed.

Lemma season_turn : forall ra t start, (calc_season (ra + 360) t start == calc_season ra t start)%Q.
Proof.
  intros ra t start. unfold calc_season, season_began.
  set (b := (ref_time + (ra - ref_sun) / 360 * yr)%Q).
  set (c := (ref_time + (ra + 360 - ref_sun) / 360 * yr)%Q).
  assert (E : (c == b + yr)%Q) by (unfold b, c, yr; field).
  assert (F : Qfloor ((c - start) / yr) = (Qfloor ((b - start) / yr) + 1)%Z).
  { assert (G : ((c - start) / yr == (b - start) / yr + inject_Z 1)%Q) by (rewrite E; unfold yr; field).
    rewrite (Qfloor_comp _ _ G). clear. set (q := ((b - start) / yr)%Q). clearbody q.
    change (inject_Z 1) with 1%Q.
    assert (A := Qfloor_le (q + 1)). assert (B := Qlt_floor q). assert (C := Qfloor_le q). assert (D := Qlt_floor (q + 1)).
    rewrite inject_Z_plus in B, D. change (inject_Z 1) with 1%Q in B, D.
    set (u := Qfloor (q + 1)) in *. set (k := Qfloor q) in *. clearbody u k.
    assert (X : (inject_Z u < inject_Z (k + 2))%Q) by (rewrite inject_Z_plus; change (inject_Z 2) with 2%Q; lra).
    assert (Y : (inject_Z k < inject_Z u)%Q) by lra.
    rewrite <- Zlt_Qlt in X, Y. lia. }
  rewrite F, E, inject_Z_plus. unfold yr. change (inject_Z 1) with 1%Q. field.
Qed.

Lemma is_pix_filter : forall x p l, is_pix x (filter p l) = is_pix x l && p x.
Proof.
  intros x p l. apply eq_true_iff_eq. rewrite andb_true_iff, !is_pix_in, filter_In. tauto.
Qed.
Lemma filter_true : forall A (p : A -> bool) l, (forall x, In x l -> p x = true) -> filter p l = l.
Proof. intros A p l H. induction l as [|x l IH]; [reflexivity|]. cbn. rewrite (H x (or_introl eq_refl)), IH; auto. intros y Hy. apply H. now right. Qed.

Section SeasonCount.
Variable pix_ra : nat -> Q.
Variable dark : nat -> er.
Variable start : Q.
Variable bn : option string.
Variable m5max : option Q.
Notation pse := (pix_season pix_ra start).

Lemma pix_season_mono : forall x t t', (t <= t')%Q -> (pse x t <= pse x t')%Z.
Proof.
  intros x t t' H. unfold pix_season. apply Qfloor_resp_le. assert (E : forall u, ((u - start) / yr == (u - start) * (4 # 1461))%Q) by (intros; unfold yr; field).
  rewrite !E. lra.
Qed.
Lemma pix_season_calc : forall x t, pse x t = Qfloor (calc_season (pix_ra x) t start).
Proof. intros. apply Qfloor_comp. apply season_shift. Qed.

Definition deep_ok (x : nat) (v : fvis) : bool :=
  match m5_limit bn m5max with None => true | Some q => er_ltb (penalty dark v x) (EFin q) || er_eqb (penalty dark v x) (EFin q) end.
Definition cs_match (x : nat) (v : fvis) : bool := is_pix x (fv_pix v) && band_is bn v && deep_ok x v.
(** Visits of the pixel's season at time [t]. *)
Definition cs_count (x : nat) (t : Q) (h : list fvis) : Z := count (fun v => cs_match x v && (pse x (fv_mjd v) =? pse x t)%Z) h.
Definition cs_R (h : list fvis) (s : csst) : Prop :=
  cs_mjd s = match last_opt h with Some w => fv_mjd w | None => start end /\
  (forall x, cs_season s x = pse x (cs_mjd s)) /\
  (forall x, cs_map s x = cs_count x (cs_mjd s) h).
Definition cs_visit (v : fvis) : Prop :=
  (start <= fv_mjd v)%Q /\ pix_ok v /\ ~ In 0 (fv_pix v) /\
  forall x, In x (fv_pix v) ->
    Qfloor (calc_season (fv_ra v) (fv_mjd v) start) = pse x (fv_mjd v) /\
    (m5_limit bn m5max = None \/ er_isnan (penalty dark v x) = false).
Definition cs_C (h : list fvis) : Prop := chrono h /\ forall v, In v h -> cs_visit v.

Lemma cs0_R : cs_R [] (cs0 pix_ra start).
Proof.
  split; [reflexivity|]. split; [|reflexivity]. intros x. cbn [cs0 cs_season cs_mjd]. unfold pix_season. apply Qfloor_comp. unfold yr. field.
Qed.

Lemma update_R : forall h s t, cs_R h s -> chrono h -> (start <= t)%Q -> (forall v, In v h -> (fv_mjd v <= t)%Q) ->
  let s1 := season_update pix_ra start s t in
  cs_mjd s1 = t /\ (forall x, cs_season s1 x = pse x t) /\ (forall x, cs_map s1 x = cs_count x t h).
Proof.
  intros h s t (H1 & H2 & H3) Ch St Up. unfold season_update. cbv zeta.
  assert (L : (cs_mjd s <= t)%Q).
  { rewrite H1. destruct (last_opt h) as [w|] eqn:L; [|exact St]. apply Up. destruct (last_opt_split _ _ _ L) as (r & ->). apply in_or_app. right. now left. }
  rewrite (proj2 (Qltb_false t (cs_mjd s)) L). cbn [cs_mjd cs_season cs_map]. split; [reflexivity|]. split; [reflexivity|].
  intros x. rewrite H2. assert (M := pix_season_mono x _ _ L). destruct (Z.ltb_spec (pse x (cs_mjd s)) (pse x t)) as [D|D].
  - symmetry. apply count_none. intros v Hv. assert (V : (fv_mjd v <= cs_mjd s)%Q).
    { rewrite H1. destruct (last_opt h) as [w|] eqn:Lw; [now apply (chrono_last_mjd h)|]. apply last_opt_none in Lw. subst. destruct Hv. }
    assert (M2 := pix_season_mono x _ _ V). destruct (Z.eqb_spec (pse x (fv_mjd v)) (pse x t)); [lia|apply andb_false_r].
  - rewrite H3. apply count_ext. intros v _. f_equal. replace (pse x t) with (pse x (cs_mjd s)) by lia. reflexivity.
Qed.

Lemma cs_one_ok : forall h s v, cs_R h s -> cs_C (h ++ [v]) -> cs_R (h ++ [v]) (cs_one pix_ra dark start bn m5max s v).
Proof.
  intros h s v H [Ch C]. assert (V : cs_visit v) by (apply C, in_or_app; right; now left). destruct V as (St & P & _ & VP).
  apply chrono_app in Ch. destruct Ch as (C1 & _ & C3).
  assert (U := update_R h s (fv_mjd v) H C1 St (fun u Hu => proj1 (C3 u v Hu (or_introl eq_refl)))).
  unfold cs_one. set (s1 := season_update pix_ra start s (fv_mjd v)) in *. clearbody s1. cbv zeta in U. destruct U as (U1 & U2 & U3).
  cbv zeta. rewrite (filter_true _ (fun x => (pse x (fv_mjd v) =? cs_season s1 x)%Z) (fv_pix v)) by (intros x _; rewrite U2; apply Z.eqb_refl).
  assert (N : forall x, cs_count x (fv_mjd v) (h ++ [v]) = (cs_map s1 x + if cs_match x v then 1 else 0)%Z).
  { intros x. rewrite U3. unfold cs_count. rewrite count_app, count_cons, Z.eqb_refl, andb_true_r. unfold count at 2. cbn. lia. }
  unfold cs_R. rewrite last_one. destruct (band_is bn v) eqn:B; cbn [cs_mjd cs_season cs_map]; rewrite U1.
  - split; [reflexivity|]. split; [exact U2|]. intros x. rewrite N. unfold cs_match, deep_ok, bump. rewrite B, andb_true_r.
    destruct (m5_limit bn m5max) as [q|]; [|rewrite andb_true_r; destruct (is_pix x (fv_pix v)); lia].
    rewrite is_pix_filter. destruct (is_pix x (fv_pix v) && _); lia.
  - split; [reflexivity|]. split; [exact U2|]. intros x. rewrite N. unfold cs_match. rewrite B, andb_false_r. cbn. lia.
Qed.

Lemma cs_arr_ok : forall h s l, l <> [] -> cs_R h s -> cs_C (h ++ l) -> exists s', cs_arr pix_ra dark start bn m5max s l = Ok s' /\ cs_R (h ++ l) s'.
Proof.
  intros h s l Ne H [Ch C]. unfold cs_arr. destruct (last_opt l) as [w|] eqn:L; [|apply last_opt_none in L; tauto].
  apply chrono_app in Ch. destruct Ch as (C1 & C2 & C3).
  assert (Lw : In w l) by (destruct (last_opt_split _ _ _ L) as (q & ->); apply in_or_app; right; now left).
  assert (St : (start <= fv_mjd w)%Q) by (apply C, in_or_app; now right).
  assert (U := update_R h s (fv_mjd w) H C1 St (fun u Hu => proj1 (C3 u w Hu Lw))).
  set (s1 := season_update pix_ra start s (fv_mjd w)) in *. clearbody s1. cbv zeta in U. destruct U as (U1 & U2 & U3). cbv zeta.
  set (G := fun (v : fvis) (x : nat) => band_is bn v && (Qfloor (calc_season (fv_ra v) (fv_mjd v) start) =? cs_season s1 x)%Z &&
    match m5_limit bn m5max with None => true | Some q => negb (er_ltb (EFin q) (penalty dark v x)) end).
  change (filter (fun r : fvis * nat => _) (rows l)) with (filter (fun r : fvis * nat => G (fst r) (snd r)) (rows l)).
  assert (N : forall x, n_rows (filter (fun r => G (fst r) (snd r)) (rows l)) x = cs_count x (fv_mjd w) l).
  { intros x. rewrite n_rows_count by (intros v Hv; apply C, in_or_app; now right). apply count_ext. intros v Hv.
    unfold cs_match, G, deep_ok. destruct (is_pix x (fv_pix v)) eqn:X; [|rewrite andb_false_r; reflexivity]. apply is_pix_in in X.
    assert (V : cs_visit v) by (apply C, in_or_app; now right). destruct V as (_ & _ & _ & VP). destruct (VP x X) as [VS VD]. rewrite VS, U2.
    destruct (band_is bn v); [|reflexivity]. cbn [andb]. rewrite andb_true_r, andb_comm. f_equal.
    destruct (m5_limit bn m5max) as [q|]; [|reflexivity]. destruct VD as [VD|VD]; [discriminate|].
    destruct (penalty dark v x) as [| |a|]; try discriminate; cbn; try reflexivity.
    unfold Qltb. destruct (Qle_bool a q) eqn:A, (Qle_bool q a) eqn:B; cbn.
    - symmetry. apply Qeq_bool_iff. apply Qle_bool_iff in A, B. now apply Qle_antisym.
    - reflexivity.
    - destruct (Qeq_bool a q) eqn:E; [|reflexivity]. apply Qeq_bool_iff in E. apply Qle_bool_false in A. lra.
    - apply Qle_bool_false in A, B. lra. }
  destruct (Nat.eqb_spec (list_sum (map snd (filter (fun r => G (fst r) (snd r)) (rows l)))) 0) as [Z|Z].
  - exists s1. split; [reflexivity|]. unfold cs_R. rewrite last_opt_app, L, U1. split; [reflexivity|]. split; [exact U2|].
    intros x. rewrite U3. unfold cs_count. rewrite count_app. fold (cs_count x (fv_mjd w) l). rewrite <- N.
    destruct (filter (fun r => G (fst r) (snd r)) (rows l)) as [|[v y] rs] eqn:F; [unfold n_rows; cbn; lia|]. exfalso.
    assert (I : In (v, y) (filter (fun r => G (fst r) (snd r)) (rows l))) by (rewrite F; now left).
    apply filter_In in I. destruct I as [I _]. apply rows_in in I. destruct I as [I1 I2]. cbn in Z. assert (y = 0) by lia. subst y.
    assert (V : cs_visit v) by (apply C, in_or_app; now right). now apply (proj1 (proj2 (proj2 V))).
  - eexists. split; [reflexivity|]. unfold cs_R. cbn [cs_mjd cs_season cs_map]. rewrite last_opt_app, L, U1. split; [reflexivity|]. split; [exact U2|].
    intros x. rewrite U3, N. unfold cs_count. now rewrite count_app.
Qed.
End SeasonCount.
