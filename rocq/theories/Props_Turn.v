(** C82: rewards that share out turns, finish sequences and keep the band in use. *)
From Coq Require Import List ZArith QArith Qround Qabs Bool String Lia Lqa.
From Verif Require Import Base IntRounded Script Feat Feat_proofs GateLoop_proofs TimeGate TimeGate_proofs Turn Turn_proofs.
Import ListNotations.
Open Scope nat_scope.

(** Visits known by a column, the note or the band. *)
Definition of_name (key : fvis -> string) (n : string) (h : list fvis) : Z :=
  Z.of_nat (List.length (filter (fun v => String.eqb (key v) n) h)).
(** Each named visit goes to a name that no other beats at that time. *)
Definition greedy (key : fvis -> string) (names : list string) (beats : list fvis -> string -> string -> Prop) (h : list fvis) : Prop :=
  forall a v b, h = a ++ v :: b -> In (key v) names -> forall n, In n names -> ~ beats a n (key v).
(** A note that has a name in it is that name. *)
Definition plain_notes (names : list string) (h : list fvis) : Prop :=
  forall v n x y, In v h -> In n names -> fv_note v = (x ++ n ++ y)%string -> fv_note v = n.
Definition letters_only (names : list string) (h : list fvis) : Prop :=
  (forall n, In n names -> exists c, n = String c EmptyString) /\ forall v, In v h -> fv_band v <> EmptyString.
Lemma plain_clear : forall names h, plain_notes names h -> clear names h.
Proof. intros names h P v n V N (x & y & E). exact (P v n x y V N E). Qed.

(** ** RewardNObsSequence *)
(** Among surveys rewarded for finishing their sequences, by a weight larger than any difference
    of their other rewards, at most one is in the middle of its sequence at any time. *)
Theorem C82_sequence : forall names (k : string -> Z) (base : string -> list fvis -> Q) w h,
  (forall n, In n names -> (1 <= k n)%Z) -> plain_notes names h -> (forall n m a, In n names -> In m names -> (base n a - base m a < w)%Q) ->
  greedy fv_note names (fun a n m => exists x y, sequence (k n) n a = Ok x /\ sequence (k m) m a = Ok y /\
    (base m a + w * inject_Z y < base n a + w * inject_Z x)%Q) h ->
  forall n m, In n names -> In m names -> ~ (k n | of_name fv_note n h)%Z -> ~ (k m | of_name fv_note m h)%Z -> n = m.
Proof.
  intros names k base w h K C B G n m N M On Om.
  assert (W : (0 < w)%Q) by (pose proof (B n n h N N); lra).
  refine (one_open fv_note names k (fun n a m => ~ exists x y, sequence (k n) n a = Ok x /\ sequence (k m) m a = Ok y /\ (base m a + w * inject_Z y < base n a + w * inject_Z x)%Q) h _ _ n m N M _ _).
  - intros i j a b E I J R Oj Z. apply R. pose proof (plain_clear _ _ C) as C'. rewrite E in C'. apply clear_pre in C'.
    unfold sequence. pose proof (K i I). pose proof (K j J). rewrite (proj2 (Z.eqb_neq (k i) 0)), (proj2 (Z.eqb_neq (k j) 0)) by lia.
    rewrite (counted_clear _ _ i C' I), (counted_clear _ _ j C' J). eexists. eexists. split; [reflexivity|]. split; [reflexivity|]. rewrite Z.
    assert (P : (1 <= taken fv_note j a mod k j)%Z) by (pose proof (Z.mod_pos_bound (taken fv_note j a) (k j)); lia).
    rewrite Zle_Qle in P. pose proof (B i j a I J). change (inject_Z 0) with 0%Q. change (inject_Z 1) with 1%Q in P.
    set (q := inject_Z _) in *. clearbody q. nra.
  - intros a v b E I i J. exact (G a v b E I i J).
  - intro X. apply On, Z.mod_divide; [pose proof (K n N); lia|exact X].
  - intro X. apply Om, Z.mod_divide; [pose proof (K m M); lia|exact X].
Qed.
Print Assumptions C82_sequence.

(** ** BalanceVisits *)
Definition behind (ref : Z) (interest : string) (a : list fvis) (n m : string) : Prop :=
  exists x y, balance ref n interest a = Ok x /\ balance ref m interest a = Ok y /\ (y < x)%Q.
Lemma balance_le : forall ref interest names a n m, (1 <= ref)%Z -> clear names a -> In n names -> In m names ->
  ~ behind ref interest a m n -> (Z.max 1 (taken fv_note n a) <= Z.max 1 (taken fv_note m a))%Z.
Proof.
  intros ref interest names a n m R C N M B. destruct (Z.le_gt_cases (Z.max 1 (taken fv_note n a)) (Z.max 1 (taken fv_note m a))) as [L|L]; [exact L|]. exfalso. apply B.
  unfold behind, balance. rewrite (proj2 (Z.eqb_neq ref 0)) by lia. rewrite (counted_clear _ _ n C N), (counted_clear _ _ m C M). rewrite counted_note.
  eexists. eexists. split; [reflexivity|]. split; [reflexivity|].
  set (f := Qfloor _). assert (F : (0 <= f)%Z).
  { unfold f. change 0%Z with (Qfloor 0). apply Qfloor_resp_le. apply Qle_shift_div_l; [change 0%Q with (inject_Z 0); rewrite <- Zlt_Qlt; lia|].
    rewrite Qmult_0_l. change 0%Q with (inject_Z 0). rewrite <- Zle_Qle. apply tally_le. }
  assert (F' : (0 < 1 + inject_Z f)%Q) by (rewrite Zle_Qle in F; change (inject_Z 0) with 0%Q in F; lra).
  assert (X : forall z, (0 <= z)%Z -> (if (0 <? z)%Z then z else 1%Z) = Z.max 1 z) by (intros z Z; destruct (Z.ltb_spec 0 z); lia).
  rewrite !X by apply taken_nonneg. destruct (Qlt_le_dec ((1 + inject_Z f) / inject_Z (Z.max 1 (taken fv_note n a))) ((1 + inject_Z f) / inject_Z (Z.max 1 (taken fv_note m a)))) as [D|D]; [exact D|exfalso].
  apply frac_le in D; [lia|exact F'|lia|lia].
Qed.
(** The numbers of visits stay within one of each other, a survey not visited yet counting as
    visited once. *)
Theorem C82_balance_partial : forall ref interest names h, (1 <= ref)%Z -> plain_notes names h -> greedy fv_note names (behind ref interest) h ->
  forall n m, In n names -> In m names -> (of_name fv_note n h <= Z.max 1 (of_name fv_note m h) + 1)%Z.
Proof.
  intros ref interest names h R C G n m N M.
  refine (fair fv_note names (Z.max 1) (fun n a m => ~ behind ref interest a n m) h _ _ _ _ n m N M); try (intros; lia).
  - intros i j a b E I J K. eapply balance_le; eauto. apply plain_clear in C. rewrite E in C. eapply clear_pre; eauto.
  - intros a v b E I i J. exact (G a v b E I i J).
Qed.
Print Assumptions C82_balance_partial.
Definition t0 (note band : string) : fvis := mkFv 1 1 60000 band note "p" (EFin 1) (EFin 25) 10 [1].
(** A survey visited twice while another has had no visit. *)
Theorem C82_balance_refuted : exists ref interest names h n m, (1 <= ref)%Z /\ plain_notes names h /\ greedy fv_note names (behind ref interest) h /\ In n names /\ In m names /\
  of_name fv_note n h = 2%Z /\ of_name fv_note m h = 0%Z.
Proof.
  exists 2%Z, "A"%string, ["A1"; "A2"]%string, [t0 "A1" "r"; t0 "A1" "r"], "A1"%string, "A2"%string. split; [lia|]. split; [|split; [|repeat split; cbn; auto]].
  - intros v n x y [<-|[<-|[]]] [<-|[<-|[]]] E; cbn in *; try reflexivity; exfalso;
      (destruct x as [|? [|? x]]; cbn in E; injection E; intros; try discriminate; repeat (destruct x as [|? x]; try discriminate)).
  - intros a v b E I n N (x & y & X & Y & L).
    destruct a as [|? [|? a]]; cbn in E; injection E; intros; subst; try (destruct a; discriminate); cbn in N, X, Y; destruct N as [<-|[<-|[]]];
      vm_compute in X, Y; injection X as <-; injection Y as <-; vm_compute in L; discriminate L.
Qed.
Print Assumptions C82_balance_refuted.
(** One visit of the group does not raise the rewards of the others. *)
Theorem C82_boost_refuted : exists ref interest n v, (1 <= ref)%Z /\ fv_note v <> n /\ contains interest n = true /\ contains interest (fv_note v) = true /\
  balance ref n interest [v] = balance ref n interest [].
Proof. exists 3%Z, "A"%string, "A2"%string, (t0 "A1" "r"). repeat split; try lia; try reflexivity; discriminate. Qed.
Print Assumptions C82_boost_refuted.
(** A survey whose note is the start of another's may never get a turn. *)
Theorem C82_note_part_refuted : exists ref interest n m, (1 <= ref)%Z /\ n <> m /\
  forall k, greedy fv_note [n; m] (behind ref interest) (repeat (t0 m "r") k) /\ of_name fv_note n (repeat (t0 m "r") k) = 0%Z.
Proof.
  exists 1%Z, "A"%string, "A1"%string, "A10"%string. split; [lia|]. split; [discriminate|]. intro k. split.
  - intros a v b E I n N (x & y & X & Y & L).
    assert (A : forall w, In w a \/ w = v -> w = t0 "A10" "r").
    { intros w W. apply (repeat_spec k). rewrite E. apply in_or_app. destruct W as [W| ->]; [now left|right; now left]. }
    rewrite (A v (or_intror eq_refl)) in *. change (fv_note (t0 "A10" "r")) with "A10"%string in *.
    assert (T : forall s, In s ["A1"; "A10"; "A"]%string -> counted (Some s) None a = Z.of_nat (List.length a)).
    { intros s S. rewrite counted_note. unfold tally. f_equal. f_equal. assert (F : forall w, In w a -> note_has (Some s) w = true) by (intros w W; rewrite (A w (or_introl W)); destruct S as [<-|[<-|[<-|[]]]]; reflexivity).
      clear - F. induction a as [|w a IH]; [reflexivity|]. cbn [filter]. rewrite (F w (or_introl eq_refl)). f_equal. apply IH. intros u U. apply F. now right. }
    assert (Q : balance 1 n "A" a = balance 1 "A10" "A" a).
    { unfold balance. cbn [Z.eqb]. rewrite (T "A"%string), (T "A10"%string), (T n) by (cbn; destruct N as [<-|[<-|[]]]; auto). reflexivity. }
    rewrite Q, Y in X. injection X as <-. lra.
  - unfold of_name. induction k; [reflexivity|exact IHk].
Qed.
Print Assumptions C82_note_part_refuted.

(** ** BandDist *)
Theorem C82_band_turns : forall names h, letters_only names h -> greedy fv_band names (fun a n m => (band_dist m a < band_dist n a)%Q) h ->
  forall n m, In n names -> In m names -> (of_name fv_band n h <= of_name fv_band m h + 1)%Z.
Proof.
  intros names h L G n m N M.
  refine (fair fv_band names (fun z => z) (fun n a m => ~ (band_dist m a < band_dist n a)%Q) h _ _ _ _ n m N M); try (intros; lia).
  - intros i j a b E I J R. change (letters names h) in L. rewrite E in L. apply letters_pre in L.
    destruct (Z.le_gt_cases (taken fv_band i a) (taken fv_band j a)) as [D|D]; [exact D|exfalso]. apply R. clear R. unfold band_dist.
    rewrite (counted_letter _ _ i L I), (counted_letter _ _ j L J), counted_note, tally_all.
    assert (P : (0 < Z.of_nat (List.length a))%Z) by (pose proof (taken_nonneg fv_band j a); pose proof (tally_le (fun v => String.eqb (fv_band v) i) a); unfold taken in *; lia).
    pose proof (taken_nonneg fv_band i a). pose proof (taken_nonneg fv_band j a).
    match goal with |- (?x < ?y)%Q => destruct (Qlt_le_dec x y) as [Y|Y]; [exact Y|exfalso] end.
    apply frac_le in Y; try lia. change 0%Q with (inject_Z 0). rewrite <- Zlt_Qlt. exact P.
  - intros a v b E I i J. exact (G a v b E I i J).
Qed.
Print Assumptions C82_band_turns.
(** Of two surveys of the same number of visits, the one with the smaller fraction in the band
    gives the larger reward. *)
Theorem C82_fraction_partial : forall b h1 h2, letters_only [b] (h1 ++ h2) -> List.length h1 = List.length h2 ->
  (of_name fv_band b h1 < of_name fv_band b h2)%Z -> (band_dist b h2 < band_dist b h1)%Q.
Proof.
  intros b h1 h2 L E D. change (letters [b] (h1 ++ h2)) in L.
  assert (L2 : letters [b] h2) by (destruct L as [A B]; split; [exact A|]; intros v V; apply B, in_or_app; now right). apply letters_pre in L.
  unfold band_dist. rewrite !counted_note, !tally_all, (counted_letter [b] h1), (counted_letter [b] h2), E by (cbn; auto).
  change (taken fv_band b h1 < taken fv_band b h2)%Z in D.
  assert (P : (0 < Z.of_nat (List.length h2))%Z) by (pose proof (taken_nonneg fv_band b h1); pose proof (tally_le (fun v => String.eqb (fv_band v) b) h2); unfold taken in *; lia).
  match goal with |- (?x < ?y)%Q => destruct (Qlt_le_dec x y) as [Y|Y]; [exact Y|exfalso] end.
  apply frac_le in Y; [lia|change 0%Q with (inject_Z 0); rewrite <- Zlt_Qlt; exact P| |]; pose proof (taken_nonneg fv_band b h1); pose proof (taken_nonneg fv_band b h2); lia.
Qed.
Print Assumptions C82_fraction_partial.
Theorem C82_fraction_refuted : exists b h1 h2, h1 <> [] /\ h2 <> [] /\
  (inject_Z (of_name fv_band b h1) / inject_Z (Z.of_nat (List.length h1)) < inject_Z (of_name fv_band b h2) / inject_Z (Z.of_nat (List.length h2)))%Q /\
  (band_dist b h1 < band_dist b h2)%Q.
Proof. exists "r"%string, [t0 "A" "g"], [t0 "A" "g"; t0 "A" "g"; t0 "A" "r"]. repeat split; discriminate. Qed.
Print Assumptions C82_fraction_refuted.

(** ** StrictBand and BandChange *)
Definition opposite (x y : Q) : Prop := (x < 0 < y)%Q \/ (y < 0 < x)%Q.
Lemma opposite_mul : forall x y, Qltb (x * y) 0 = true <-> opposite x y.
Proof.
  intros x y. rewrite Qltb_lt. unfold opposite. split.
  - intro H. destruct (Qlt_le_dec x 0) as [A|A], (Qlt_le_dec y 0) as [B|B].
    + nra.
    + left. split; [exact A|]. destruct (Qle_lt_or_eq _ _ B) as [C|C]; [exact C|]. rewrite <- C in H. lra.
    + right. split; [exact B|]. destruct (Qle_lt_or_eq _ _ A) as [C|C]; [exact C|]. rewrite <- C in H. lra.
    + nra.
  - intros [[A B]|[A B]]; nra.
Qed.
(** A change of band is free: the moon rose or set, twilight began or ended, the last visit was
    long ago or has the note. *)
Definition freed (lag twi : Q) (free : string) (v : lvis) (c : scond) : Prop :=
  opposite (sc_moon c) (lv_moon v) \/ opposite (sc_sun c - twi) (lv_sun v - twi) \/ (lag < sc_mjd c - lv_mjd v)%Q \/
  exists a b, lv_note v = (a ++ free ++ b)%string.
Theorem C82_strict_partial : forall lag twi free b s l v c, apart (sc_mjd c - lv_mjd v) lag ->
  (strict lag twi free b (last_batch s (l ++ [v])) c == 1)%Q /\ In b (sc_mounted c) /\ (sc_band c = None \/ sc_band c = Some b \/ freed lag twi free v c) \/
  (strict lag twi free b (last_batch s (l ++ [v])) c == 0)%Q /\ ~ (In b (sc_mounted c) /\ (sc_band c = None \/ sc_band c = Some b \/ freed lag twi free v c)).
Proof.
  intros lag twi free b s l v c A.
  assert (L : last_batch s (l ++ [v]) = LRecord v) by (unfold last_batch, last_opt; rewrite rev_app_distr; reflexivity). rewrite L. unfold strict. cbn [lo_vis note_free_in].
  assert (Mt : existsb (String.eqb b) (sc_mounted c) = true <-> In b (sc_mounted c)).
  { rewrite existsb_exists. split; [intros (x & X & Y); apply String.eqb_eq in Y; congruence|intro X; exists b; split; [exact X|apply String.eqb_refl]]. }
  assert (Us : in_use b c = true <-> sc_band c = None \/ sc_band c = Some b).
  { unfold in_use. destruct (sc_band c) as [x|]; [rewrite String.eqb_eq|]; split; auto; [intros ->; auto|intros [X|X]; congruence]. }
  assert (D : (Qltb (sc_moon c * lv_moon v) 0 || in_use b c || truth (ir_gt [(sc_mjd c - lv_mjd v)%Q] [lag]) || Qltb ((sc_sun c - twi) * (lv_sun v - twi)) 0 || contains free (lv_note v)) && existsb (String.eqb b) (sc_mounted c) = true <->
    In b (sc_mounted c) /\ (sc_band c = None \/ sc_band c = Some b \/ freed lag twi free v c)).
  { rewrite andb_true_iff, !orb_true_iff, Mt, Us, !opposite_mul, (truth_gt_exact _ _ A), contains_iff. unfold freed, within. tauto. }
  destruct (_ && _).
  - left. split; [reflexivity|]. apply D. reflexivity.
  - right. split; [reflexivity|]. intro X. apply D in X. discriminate.
Qed.
Print Assumptions C82_strict_partial.
(** Reported alone, a visit whose note only contains the text does not free the band; reported in
    an array, it does. *)
Theorem C82_strict_note_refuted : exists lag twi free b v c, (exists x y, lv_note v = (x ++ free ++ y)%string) /\ In b (sc_mounted c) /\
  (strict lag twi free b (last_add last0 v) c == 0)%Q /\ (strict lag twi free b (last_batch last0 [v]) c == 1)%Q.
Proof.
  exists (10 # 1440)%Q, (-18)%Q, "DD"%string, "r"%string, (mkLv 60000 10 (-30) "DD:COSMOS"), (mkSc (60000 + (1 # 1440)) 10 (-30) (Some "g"%string) ["g"; "r"]%string)%Q.
  split; [exists ""%string, ":COSMOS"%string; reflexivity|]. split; [right; left; reflexivity|]. split; reflexivity.
Qed.
Print Assumptions C82_strict_note_refuted.
(** Unless a change is free, a survey in the band in use is chosen, when the weight is larger than
    any difference of the other rewards. *)
Theorem C82_stay : forall lag twi free s c cur bands (base : string -> Q) w chosen,
  sc_band c = Some cur -> In cur (sc_mounted c) -> In cur bands -> ~ freed lag twi free (lo_vis s) c ->
  (forall b, In b bands -> (base b - base cur < w)%Q) -> In chosen bands ->
  (forall b, In b bands -> (base b + w * strict lag twi free b s c <= base chosen + w * strict lag twi free chosen s c)%Q) -> chosen = cur.
Proof.
  intros lag twi free s c cur bands base w chosen Bd Mt Ic NF Bs Ich Gr. destruct (string_dec chosen cur) as [E|NE]; [exact E|exfalso].
  assert (S1 : strict lag twi free cur s c = 1%Q).
  { unfold strict. assert (U : in_use cur c = true) by (unfold in_use; rewrite Bd; apply String.eqb_refl). rewrite U, orb_true_r. cbn [orb].
    assert (M1 : existsb (String.eqb cur) (sc_mounted c) = true) by (apply existsb_exists; exists cur; split; [exact Mt|apply String.eqb_refl]). rewrite M1. reflexivity. }
  assert (S0 : strict lag twi free chosen s c = 0%Q).
  { unfold strict. assert (U : in_use chosen c = false) by (unfold in_use; rewrite Bd; apply String.eqb_neq; congruence). rewrite U.
    assert (K1 : Qltb (sc_moon c * lv_moon (lo_vis s)) 0 = false) by (apply not_true_is_false; rewrite opposite_mul; intro X; apply NF; left; exact X).
    assert (K2 : Qltb ((sc_sun c - twi) * (lv_sun (lo_vis s) - twi)) 0 = false) by (apply not_true_is_false; rewrite opposite_mul; intro X; apply NF; right; left; exact X).
    assert (K3 : truth (ir_gt [(sc_mjd c - lv_mjd (lo_vis s))%Q] [lag]) = false) by (apply not_true_is_false; intro X; apply truth_gt_sound in X; apply NF; right; right; left; exact X).
    assert (K4 : note_free_in free s = false).
    { apply not_true_is_false. intro X. apply NF. right. right. right. destruct s as [v|v]; cbn in *.
      - apply String.eqb_eq in X. exists ""%string, ""%string. cbn. rewrite X. clear. induction free; [reflexivity|]. cbn. f_equal. exact IHfree.
      - apply contains_iff in X. exact X. }
    rewrite K1, K2, K3, K4. reflexivity. }
  pose proof (Gr cur Ic) as G. rewrite S1, S0 in G. pose proof (Bs chosen Ich). lra.
Qed.
Print Assumptions C82_stay.
(** Before the first visit every mounted band is rewarded alike. *)
Theorem C82_strict_start : forall lag twi free b c, apart (sc_mjd c - 0) lag -> (lag < sc_mjd c)%Q -> In b (sc_mounted c) -> (strict lag twi free b last0 c == 1)%Q.
Proof.
  intros lag twi free b c A L M. unfold strict. cbn [last0 lo_vis lv_mjd].
  rewrite (proj2 (truth_gt_exact _ _ A)) by lra. rewrite orb_true_r. cbn [orb].
  assert (M1 : existsb (String.eqb b) (sc_mounted c) = true) by (apply existsb_exists; exists b; split; [exact M|apply String.eqb_refl]). rewrite M1. reflexivity.
Qed.
Print Assumptions C82_strict_start.

(** ** Slewtime beside BandChange *)
(** A survey in the band in use is preferred to one in another band exactly while its slew is
    shorter than the weights allow; places that cannot be reached are masked in both. *)
Theorem C82_slew : forall max cur b wb ws c slew, (0 < max)%Q -> (0 < ws)%Q -> sc_band c = Some cur -> b <> cur ->
  match slew_reward max (Some cur) (sc_band c) slew, slew_reward max (Some b) (sc_band c) slew with
  | EFin x, EFin y => exists q, slew = EFin q /\ ((ws * y + wb * band_change b c < ws * x + wb * band_change cur c)%Q <-> (q * ws < wb * max)%Q)
  | x, y => x = ENaN /\ y = ENaN /\ forall q, slew <> EFin q
  end.
Proof.
  intros max cur b wb ws c slew M W E N. unfold slew_reward. rewrite E, String.eqb_refl. rewrite (proj2 (String.eqb_neq cur b)) by congruence. cbn [negb].
  destruct slew as [| |q|]; try (repeat split; discriminate). exists q. split; [reflexivity|].
  unfold band_change, in_use. rewrite E, String.eqb_refl, (proj2 (String.eqb_neq cur b)) by congruence.
  setoid_replace (ws * (- q / max) + wb * 1)%Q with ((wb * max - q * ws) / max)%Q by (field; lra). setoid_replace (ws * 0 + wb * 0)%Q with 0%Q by ring.
  split; intro H.
  - apply (Qmult_lt_r _ _ max M) in H. setoid_replace ((wb * max - q * ws) / max * max)%Q with (wb * max - q * ws)%Q in H by (field; lra). lra.
  - apply Qlt_shift_div_l; [exact M|]. lra.
Qed.
Print Assumptions C82_slew.
(** Of two places in the band in use the one reached sooner has the larger reward. *)
Theorem C82_slew_order : forall max b p q x y, (0 < max)%Q -> (p < q)%Q ->
  slew_reward max b b (EFin p) = EFin x -> slew_reward max b b (EFin q) = EFin y -> (y < x)%Q.
Proof.
  intros max b p q x y M L. unfold slew_reward. assert (O : match b with None => false | Some x => match b with None => true | Some y => negb (String.eqb y x) end end = false) by (destruct b; [rewrite String.eqb_refl|]; reflexivity).
  rewrite O. intros X Y. injection X as <-. injection Y as <-. apply Qlt_shift_div_l; [exact M|]. setoid_replace (- q / max * max)%Q with (- q)%Q by (field; lra). lra.
Qed.
Print Assumptions C82_slew_order.

(** ** MapModulo: in as many nights as there are maps each is used once *)
Theorem C82_modulo : forall (maps : list (nat -> Q)) night i m, nth_error maps i = Some m ->
  exists d, (0 <= d < Z.of_nat (List.length maps))%Z /\ map_modulo maps (night + d) = Ok m /\
  forall d' z, (d' = d + z * Z.of_nat (List.length maps))%Z -> map_modulo maps (night + d') = Ok m.
Proof.
  intros maps night i m H. set (n := Z.of_nat (List.length maps)). assert (Li : i < List.length maps) by (apply nth_error_Some; congruence).
  assert (Pn : (0 < n)%Z) by (unfold n; lia). exists ((Z.of_nat i - night) mod n)%Z. split; [apply Z.mod_pos_bound; exact Pn|].
  assert (G : forall z, map_modulo maps (night + ((Z.of_nat i - night) mod n + z * n)) = Ok m).
  { intro z.
    assert (U : forall t, map_modulo maps t = match nth_error maps (Z.to_nat (t mod n)) with Some m => Ok m | None => Raise IndexError end) by (intro t; unfold n; destruct maps; [cbn in Li; lia|reflexivity]).
    rewrite U.
    replace ((night + ((Z.of_nat i - night) mod n + z * n)) mod n)%Z with (Z.of_nat i).
    - rewrite Nat2Z.id, H. reflexivity.
    - rewrite Z.add_assoc, Z.mod_add by lia. rewrite Z.add_mod_idemp_r by lia. replace (night + (Z.of_nat i - night))%Z with (Z.of_nat i) by lia. rewrite Z.mod_small; [reflexivity|unfold n; lia]. }
  split; [specialize (G 0%Z); rewrite Z.mul_0_l, Z.add_0_r in G; exact G|]. intros d' z ->. apply G.
Qed.
Print Assumptions C82_modulo.

(** ** Examples *)
Example C82_ex_sequence : let k := fun _ : string => 2%Z in let h := [t0 "A" "r"; t0 "A" "r"; t0 "B" "r"] in let names := ["A"; "B"]%string in
  plain_notes names h /\
  greedy fv_note names (fun a n m => exists x y, sequence (k n) n a = Ok x /\ sequence (k m) m a = Ok y /\ (0 + 1 * inject_Z y < 0 + 1 * inject_Z x)%Q) h /\
  ~ (k "B"%string | of_name fv_note "B" h)%Z /\ sequence 2 "B" h = Ok 1%Z /\ sequence 2 "A" h = Ok 0%Z.
Proof.
  cbv zeta. split; [|split; [|split; [intros [z Z]; cbn in Z; lia|split; reflexivity]]].
  - intros v n x y [<-|[<-|[<-|[]]]] [<-|[<-|[]]] E; cbn in *; try reflexivity; exfalso; (destruct x as [|? x]; cbn in E; injection E; intros; try discriminate; destruct x; discriminate).
  - intros a v b E I n N (x & y & X & Y & L).
    destruct a as [|? [|? [|? a]]]; cbn in E; injection E; intros; subst; try (destruct a; discriminate); cbn in N, X, Y; destruct N as [<-|[<-|[]]];
      vm_compute in X, Y; injection X as <-; injection Y as <-; vm_compute in L; discriminate L.
Qed.
Example C82_ex_bands : let h := [t0 "A" "r"; t0 "A" "g"; t0 "A" "r"] in letters_only ["r"; "g"]%string h /\
  greedy fv_band ["r"; "g"]%string (fun a n m => (band_dist m a < band_dist n a)%Q) h /\ of_name fv_band "r" h = 2%Z.
Proof.
  cbv zeta. split; [split; [intros n [<-|[<-|[]]]; eexists; reflexivity|intros v [<-|[<-|[<-|[]]]]; discriminate]|]. split; [|reflexivity].
  intros a v b E I n N L.
  destruct a as [|? [|? [|? a]]]; cbn in E; injection E; intros; subst; try (destruct a; discriminate); cbn in N, L; destruct N as [<-|[<-|[]]];
      vm_compute in L; discriminate L.
Qed.
Example C82_ex_strict : let v := mkLv 60000 10 (-30) "a" in let c := mkSc (60000 + (1 # 1440)) 10 (-30) (Some "g"%string) ["g"; "r"]%string in
  apart (sc_mjd c - lv_mjd v) (10 # 1440) /\ ~ freed (10 # 1440) (-18) "DD" v c /\
  (strict (10 # 1440) (-18) "DD" "g" (last_add last0 v) c == 1)%Q /\ (strict (10 # 1440) (-18) "DD" "r" (last_add last0 v) c == 0)%Q /\
  (strict (10 # 1440) (-18) "DD" "r" (last_add last0 v) (mkSc (60000 + (11 # 1440)) 10 (-30) (Some "g"%string) ["g"; "r"]%string) == 1)%Q.
Proof.
  cbv zeta. split; [exists (10 # 1440); split; [right; reflexivity|]; split; [intro X; discriminate X|reflexivity]|]. split; [|repeat split].
  intros [H|[H|[H|(x & y & H)]]].
  - unfold opposite in H. cbn in H. lra.
  - unfold opposite in H. cbn in H. lra.
  - vm_compute in H. discriminate H.
  - cbn in H. destruct x as [|? x]; cbn in H; [discriminate|]. injection H as _ H. destruct x; discriminate.
Qed.
Example C82_ex_slew : slew_reward 135 (Some "r"%string) (Some "r"%string) (EFin 27) = EFin (- (27) / 135)%Q /\ slew_reward 135 (Some "r"%string) (Some "r"%string) EPInf = ENaN.
Proof. split; reflexivity. Qed.
Example C82_ex_modulo : map (fun z => match map_modulo [fun _ : nat => 1%Q; fun _ => 2%Q] z with Ok m => m 0 | Raise _ => 0%Q end) [4; 5; 6]%Z = [1; 2; 1]%Q.
Proof. reflexivity. Qed.
