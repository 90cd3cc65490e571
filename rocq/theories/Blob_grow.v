(** Proofs about the growing of a blob (hp_grow_argsort). *)
From Coq Require Import List ZArith QArith Bool String Lia Permutation Sorted.
From Verif Require Import Base IntRounded Obs Queue Core Core_proofs Surveys Surveys_proofs Blob Blob_proofs.
Import ListNotations.
Open Scope nat_scope.

Section Grow.
Variable nb : nat -> list Z.
Variable m : list er.

(** Pixel [q] is listed as a neighbour of pixel [p]. *)
Definition adj (p q : nat) : Prop := In (Z.of_nat q) (nb p).
(** The neighbour table is well formed: entries are pixels or -1, and being
    neighbours is mutual. *)
Definition table_ok : Prop :=
  (forall p z, p < List.length m -> In z (nb p) -> z = (-1)%Z \/ exists q, z = Z.of_nat q /\ q < List.length m) /\
  (forall p q, p < List.length m -> q < List.length m -> adj p q -> adj q p).
Definition observable (q : nat) : Prop := er_isnan (get_pix m q) = false.
(** Pixels next to a set, not in it. *)
Definition frontier (l : list nat) (q : nat) : Prop := ~ In q l /\ q < List.length m /\ exists p, In p l /\ adj p q.

Hypothesis OK : table_ok.

Lemma slots_in : forall p s z, In (s, z) (slots nb p) <-> nth_error (nb p) s = Some z.
Proof.
  intros p s z. unfold slots.
  assert (G : forall (l : list Z) d, In (s, z) (combine (seq d (List.length l)) l) <-> d <= s /\ nth_error l (s - d) = Some z).
  { induction l as [|y l IH]; intros d; cbn [List.length seq combine].
    - split; [intros []|intros [_ H]; destruct (s - d); discriminate].
    - cbn [In]. rewrite IH. split.
      + intros [E|[L H]].
        * injection E as -> ->. rewrite Nat.sub_diag. auto.
        * split; [lia|]. replace (s - d) with (S (s - S d)) by lia. exact H.
      + intros [L H]. destruct (s - d) as [|k] eqn:E.
        * left. cbn in H. injection H as ->. f_equal. lia.
        * right. split; [lia|]. replace (s - S d) with k by lia. exact H. }
  rewrite G, Nat.sub_0_r. split; [tauto|]. intros H. split; [lia|exact H].
Qed.

Lemma is_off_in : forall off p s, is_off off p s = true <-> In (p, s) off.
Proof.
  intros off p s. unfold is_off. rewrite existsb_exists. split.
  - intros ((a & b) & H & E). cbn in E. rewrite andb_true_iff, !Nat.eqb_eq in E. destruct E as [-> ->]. exact H.
  - intros H. exists (p, s). split; [exact H|]. cbn. now rewrite !Nat.eqb_refl.
Qed.

(** What the mask means while the pixels [l] are taken. *)
Definition mask_inv (l : list nat) (off : list (nat * nat)) : Prop :=
  forall p s z, p < List.length m -> nth_error (nb p) s = Some z ->
    (In (p, s) off <-> z = (-1)%Z \/ exists q, In q l /\ z = Z.of_nat q).

Lemma py_pix_nat : forall q, py_pix m (Z.of_nat q) = q.
Proof. intros q. unfold py_pix. destruct (Z.ltb_spec (Z.of_nat q) 0); lia. Qed.

Lemma off0_inv : mask_inv [] (off0 nb m).
Proof.
  intros p s z Hp Hs. unfold off0. rewrite in_flat_map. split.
  - intros (p' & _ & H). apply in_map_iff in H. destruct H as ((s' & z') & E & H). injection E as -> ->. cbn in *.
    apply filter_In in H. destruct H as [H E]. apply slots_in in H. cbn in E. apply Z.eqb_eq in E. left. congruence.
  - intros [->|(q & [] & _)]. exists p. split; [apply in_seq; lia|]. apply in_map_iff. exists (s, (-1)%Z). split; [reflexivity|].
    apply filter_In. split; [now apply slots_in|reflexivity].
Qed.

Lemma mask_back_in : forall cur qs p s, In (p, s) (mask_back nb m cur qs) <->
  exists z, In z qs /\ py_pix m z = p /\ nth_error (nb p) s = Some (Z.of_nat cur).
Proof.
  intros cur qs p s. unfold mask_back. rewrite in_flat_map. split.
  - intros (z & Hz & H). apply in_map_iff in H. destruct H as ((s' & z') & E & H). injection E as E1 E2. cbn in E2. subst s'.
    apply filter_In in H. destruct H as [H E]. apply slots_in in H. cbn in E. apply Z.eqb_eq in E. exists z.
    split; [exact Hz|]. split; [exact E1|]. rewrite <- E1. congruence.
  - intros (z & Hz & E & H). exists z. split; [exact Hz|]. apply in_map_iff. exists (s, Z.of_nat cur). cbn. split; [now rewrite E|].
    apply filter_In. rewrite slots_in, E. split; [exact H|]. cbn. apply Z.eqb_refl.
Qed.

Lemma mask_step : forall l off cur qs, mask_inv l off -> cur < List.length m ->
  (forall z, In z (nb cur) -> z <> (-1)%Z -> In z qs) -> mask_inv (l ++ [cur]) (mask_back nb m cur qs ++ off).
Proof.
  intros l off cur qs I Hc Hq p s z Hp Hs. rewrite in_app_iff, mask_back_in, (I p s z Hp Hs). split.
  - intros [(z' & _ & _ & E)|[->|(q & Hl & ->)]]; [|now left|].
    + right. exists cur. split; [apply in_or_app; right; now left|congruence].
    + right. exists q. split; [apply in_or_app; now left|reflexivity].
  - intros [->|(q & Hl & ->)]; [right; now left|]. apply in_app_or in Hl. destruct Hl as [Hl|[<-|[]]].
    + right. right. now exists q.
    + left. exists (Z.of_nat p). rewrite py_pix_nat. split; [|auto]. apply Hq; [|lia].
      destruct OK as [_ Sy]. apply Sy; auto. unfold adj. eapply nth_error_In; eauto.
Qed.

Lemma valid_in : forall l off p z, mask_inv l off -> p < List.length m -> In z (valid_nb nb off p) <->
  exists q, z = Z.of_nat q /\ q < List.length m /\ adj p q /\ ~ In q l.
Proof.
  intros l off p z I Hp. unfold valid_nb. rewrite in_map_iff. split.
  - intros ((s & z') & E & H). cbn in E. subst z'. apply filter_In in H. destruct H as [H E]. apply slots_in in H.
    cbn in E. rewrite negb_true_iff, <- not_true_iff_false, is_off_in, (I p s z Hp H) in E.
    destruct (proj1 OK p z Hp) as [->|(q & -> & Hq)]; [eapply nth_error_In; eauto|tauto|].
    exists q. split; [reflexivity|]. split; [exact Hq|]. split; [eapply nth_error_In; eauto|].
    intros K. apply E. right. now exists q.
  - intros (q & -> & Hq & Ha & Hn). apply In_nth_error in Ha. destruct Ha as (s & Hs). exists (s, Z.of_nat q). split; [reflexivity|].
    apply filter_In. split; [now apply slots_in|]. cbn. rewrite negb_true_iff, <- not_true_iff_false, is_off_in, (I p s _ Hp Hs).
    intros [K|(q' & K & E)]; [lia|]. apply Nat2Z.inj in E. subst. contradiction.
Qed.

Lemma cand_in : forall l off z, mask_inv l off -> (forall p, In p l -> p < List.length m) ->
  In z (flat_map (valid_nb nb off) l) <-> exists q, z = Z.of_nat q /\ frontier l q.
Proof.
  intros l off z I B. rewrite in_flat_map. split.
  - intros (p & Hp & H). apply (valid_in l) in H; auto. destruct H as (q & -> & Hq & Ha & Hn). exists q. split; [reflexivity|].
    split; [exact Hn|]. split; [exact Hq|]. now exists p.
  - intros (q & -> & Hn & Hq & p & Hp & Ha). exists p. split; [exact Hp|]. apply (valid_in l); auto. now exists q.
Qed.

(** Orders that start at the peak and always add a best neighbour. *)
Inductive grown : list nat -> Prop :=
| grown_one : forall p, is_peak m p -> grown [p]
| grown_more : forall l q, grown l -> frontier l q -> observable q ->
    (forall q', frontier l q' -> observable q' -> er_le (get_pix m q') (get_pix m q)) -> grown (l ++ [q]).

Lemma grown_facts : forall l, grown l -> NoDup l /\ l <> [] /\ (forall p, In p l -> p < List.length m /\ observable p).
Proof.
  induction 1 as [p (L & N & _)|l q G (ND & NE & B) (Fn & Fl & _) O _].
  - split; [repeat constructor; auto|]. split; [discriminate|]. intros x [<-|[]]. auto.
  - split; [|split].
    + apply NoDup_app_intro; [exact ND|repeat constructor; auto|]. intros x Hx [<-|[]]. contradiction.
    + destruct l; discriminate.
    + intros x Hx. apply in_app_or in Hx. destruct Hx as [Hx|[<-|[]]]; auto.
Qed.

Definition closed (l : list nat) : Prop := forall q, frontier l q -> ~ observable q.

Lemma grow_spec : forall n l off r, grown l -> mask_inv l off -> grow nb m n l off = Ok r ->
  grown r /\ (closed r \/ List.length r = List.length l + n).
Proof.
  induction n as [|n IH]; intros l off r G I H; cbn [grow] in H.
  - injection H as <-. split; [exact G|]. right. lia.
  - destruct (grown_facts l G) as (ND & NE & B).
    assert (C := fun z => cand_in l off z I (fun p Hp => proj1 (B p Hp))).
    destruct (flat_map (valid_nb nb off) l) as [|z0 zs] eqn:Ec; [discriminate|].
    set (cand := z0 :: zs) in *. destruct (hd_error _) as [k|] eqn:E.
    + apply argmax_spec in E. destruct E as (x & Nk & NN & Bx & _). rewrite nth_error_map in Nk.
      destruct (nth_error cand k) as [zk|] eqn:Ek; [|discriminate]. cbn in Nk. injection Nk as <-.
      rewrite (nth_error_nth _ _ 0%Z Ek) in H.
      destruct (proj1 (C zk)) as (q & -> & F); [eapply nth_error_In; eauto|]. rewrite py_pix_nat in *.
      assert (G' : grown (l ++ [q])).
      { constructor; auto. intros q' F' O'. apply Bx; [|exact O']. apply in_map_iff. exists (Z.of_nat q'). rewrite py_pix_nat.
        split; [reflexivity|]. apply C. now exists q'. }
      assert (I' : mask_inv (l ++ [q]) (mask_back nb m q (nb q) ++ off)) by (apply mask_step; auto; apply F).
      destruct (IH _ _ _ G' I' H) as [G1 [K|K]]; (split; [exact G1|]); [now left|]. right. rewrite K, app_length. cbn. lia.
    + injection H as <-. split; [exact G|]. left. intros q F O. pose proof (argmax_none _ E (get_pix m q)) as K.
      unfold observable in O. rewrite K in O; [discriminate|]. apply in_map_iff. exists (Z.of_nat q). rewrite py_pix_nat.
      split; [reflexivity|]. apply C. now exists q.
Qed.

Lemma observable_count : List.length (filter (fun x => negb (er_isnan x)) m) =
  List.length (filter (fun i => negb (er_isnan (get_pix m i))) (seq 0 (List.length m))).
Proof.
  assert (G : forall k d, List.length (filter (fun i => negb (er_isnan (nth (i - d) k ENaN))) (seq d (List.length k))) =
    List.length (filter (fun x => negb (er_isnan x)) k)).
  { induction k as [|x k IH]; intros d; cbn [List.length seq filter]; [reflexivity|].
    rewrite Nat.sub_diag. cbn [nth]. rewrite (filter_ext_in_iff _ _ (fun i => negb (er_isnan (nth (i - S d) k ENaN))) (seq (S d) _)).
    - destruct (er_isnan x); cbn; now rewrite IH.
    - intros i Hi. apply in_seq in Hi. replace (i - d) with (S (i - S d)) by lia. reflexivity. }
  rewrite <- (G m 0). f_equal. apply filter_ext. intros i. unfold get_pix. now rewrite Nat.sub_0_r.
Qed.

Lemma full_closed : forall l, NoDup l -> (forall p, In p l -> p < List.length m /\ observable p) ->
  List.length l = List.length (filter (fun x => negb (er_isnan x)) m) -> closed l.
Proof.
  intros l ND B L q (Fn & Fl & _) O. apply Fn. rewrite observable_count in L.
  assert (Inc : incl l (filter (fun i => negb (er_isnan (get_pix m i))) (seq 0 (List.length m)))).
  { intros p Hp. destruct (B p Hp) as [B1 B2]. apply filter_In. split; [apply in_seq; lia|]. unfold observable in B2. now rewrite B2. }
  assert (Inc2 := NoDup_length_incl ND (Nat.eq_le_incl _ _ (eq_sym L)) Inc).
  apply Inc2. apply filter_In. split; [apply in_seq; lia|]. unfold observable in O. now rewrite O.
Qed.

Lemma first_mask : forall p, p < List.length m -> mask_inv [p] (mask_back nb m p (valid_nb nb (off0 nb m) p) ++ off0 nb m).
Proof.
  intros p Hp. apply (mask_step [] (off0 nb m) p); [apply off0_inv|exact Hp|].
  intros z Hz N. apply (valid_in [] (off0 nb m) p z off0_inv Hp).
  destruct (proj1 OK p z Hp Hz) as [->|(q & -> & Hq)]; [contradiction|]. exists q. auto.
Qed.

Lemma grow_argsort_spec : forall r, grow_argsort nb m = Ok r -> grown r /\ closed r.
Proof.
  intros r H. unfold grow_argsort in H. destruct (peak m) as [p|] eqn:P; [|discriminate]. cbv zeta in H.
  apply peak_spec in P. assert (G : grown [p]) by (constructor; exact P).
  destruct (grow_spec _ _ _ _ G (first_mask p (proj1 P)) H) as [G1 [K|K]]; (split; [exact G1|]); [exact K|].
  destruct (grown_facts r G1) as (ND & NE & B). apply full_closed; auto. rewrite K. cbn.
  assert (0 < List.length (filter (fun x => negb (er_isnan x)) m)).
  { destruct P as (Lp & Np & _). rewrite observable_count.
    assert (In p (filter (fun i => negb (er_isnan (get_pix m i))) (seq 0 (List.length m)))) by (apply filter_In; rewrite Np; split; [apply in_seq; lia|reflexivity]).
    destruct (filter (fun i => negb (er_isnan (get_pix m i))) (seq 0 (List.length m))); [contradiction|cbn; lia]. }
  lia.
Qed.

(** Any prefix of a grown order. *)
Lemma grown_prefix : forall r l1 q l2, grown r -> r = l1 ++ q :: l2 -> l1 <> [] ->
  frontier l1 q /\ observable q /\ forall q', frontier l1 q' -> observable q' -> er_le (get_pix m q') (get_pix m q).
Proof.
  intros r l1 q l2 G. revert l1 q l2. induction G as [p P|l x G IH F O B]; intros l1 q l2 E NE.
  - destruct l1 as [|y l1]; [congruence|]. destruct l1; discriminate.
  - destruct l2 as [|y l2] using rev_ind.
    + apply app_inj_tail in E. destruct E as [-> ->]. auto.
    + clear IHl2. assert (E' : l ++ [x] = (l1 ++ q :: l2) ++ [y]) by (rewrite E, <- app_assoc; reflexivity).
      apply app_inj_tail in E'. destruct E' as [E' _]. now apply (IH l1 q l2).
Qed.
Lemma grown_head : forall r, grown r -> exists p l, r = p :: l /\ is_peak m p.
Proof.
  induction 1 as [p P|l x G (p & l' & -> & P) F O B]; [now exists p, []|]. exists p, (l' ++ [x]). auto.
Qed.

(** Connection through observable pixels. *)
Inductive linked (p : nat) : nat -> Prop :=
| linked_self : linked p p
| linked_step : forall q r, linked p q -> adj q r -> r < List.length m -> observable r -> linked p r.

Lemma grown_component : forall r p l, grown r -> closed r -> r = p :: l -> forall q, In q r <-> linked p q.
Proof.
  intros r p l G C E q. split.
  - revert p l E q C. induction G as [p0 P|l0 x G IH F O B]; intros p l E q C Hq.
    + injection E as -> <-. destruct Hq as [<-|[]]. constructor.
    + destruct l0 as [|y l0]; [destruct (grown_facts _ G) as (_ & NE & _); congruence|]. injection E as -> E.
      assert (K : forall q, In q (p :: l0) -> linked p q).
      { clear -G. intros q Hq. remember (p :: l0) as r eqn:Er. revert p l0 Er q Hq.
        induction G as [p0 P|l x G IH F O B]; intros p l0 Er q Hq.
        - injection Er as -> <-. destruct Hq as [<-|[]]. constructor.
        - destruct l as [|y l]; [destruct (grown_facts _ G) as (_ & NE & _); congruence|]. injection Er as -> Er.
          specialize (IH p l eq_refl). apply in_app_or in Hq. destruct Hq as [Hq|[<-|[]]]; [now apply IH|].
          destruct F as (_ & Fl & z & Fz & Fa). econstructor; [apply (IH z Fz)|exact Fa|exact Fl|exact O]. }
      apply in_app_or in Hq. destruct Hq as [Hq|[<-|[]]]; [now apply K|].
      destruct F as (_ & Fl & z & Fz & Fa). econstructor; [apply (K z Fz)|exact Fa|exact Fl|exact O].
  - intros L. induction L as [|q r' L IH A Lr O]; [rewrite E; now left|].
    destruct (in_dec Nat.eq_dec r' r) as [Hi|Hi]; [exact Hi|]. exfalso. apply (C r'); [|exact O].
    split; [exact Hi|]. split; [exact Lr|]. now exists q.
Qed.

(** No exception when every pixel can be reached from every other. *)
Definition connected : Prop := forall l, (exists p, In p l) -> (forall p, In p l -> p < List.length m) ->
  (forall q, ~ frontier l q) -> forall q, q < List.length m -> In q l.

Lemma grow_no_raise : forall n l off, connected -> grown l -> mask_inv l off ->
  List.length l + n <= List.length (filter (fun x => negb (er_isnan x)) m) -> exists r, grow nb m n l off = Ok r.
Proof.
  induction n as [|n IH]; intros l off K G I L; cbn [grow]; [now exists l|].
  destruct (grown_facts l G) as (ND & NE & B).
  assert (C := fun z => cand_in l off z I (fun p Hp => proj1 (B p Hp))).
  destruct (flat_map (valid_nb nb off) l) as [|z0 zs] eqn:Ec.
  - exfalso. assert (A : forall q, q < List.length m -> In q l).
    { apply K; [destruct l as [|p l]; [congruence|exists p; now left]|intros p Hp; now apply B|].
      intros q F. apply (proj2 (C (Z.of_nat q))). now exists q. }
    assert (L2 : List.length m <= List.length l).
    { rewrite <- (seq_length (List.length m) 0). apply NoDup_incl_length; [apply seq_NoDup|]. intros q Hq. apply in_seq in Hq. apply A. lia. }
    assert (List.length (filter (fun x => negb (er_isnan x)) m) <= List.length m) by (clear; induction m as [|x k IHk]; cbn; [lia|]; destruct (er_isnan x); cbn; lia).
    lia.
  - set (cand := z0 :: zs) in *. destruct (hd_error _) as [k|] eqn:E; [|now exists l].
    pose proof (argmax_spec _ _ E) as (x & Nk & NN & Bx & _). rewrite nth_error_map in Nk.
    destruct (nth_error cand k) as [zk|] eqn:Ek; [|discriminate]. cbn in Nk. injection Nk as <-.
    rewrite (nth_error_nth _ _ 0%Z Ek).
    destruct (proj1 (C zk)) as (q & -> & F); [eapply nth_error_In; eauto|]. rewrite py_pix_nat in *.
    apply IH; [exact K| | |].
    + constructor; auto. intros q' F' O'. apply Bx; [|exact O']. apply in_map_iff. exists (Z.of_nat q'). rewrite py_pix_nat.
      split; [reflexivity|]. apply C. now exists q'.
    + apply mask_step; auto. apply F.
    + rewrite app_length. cbn. lia.
Qed.

Lemma grow_argsort_no_raise : connected -> (exists i, observable i) -> exists r, grow_argsort nb m = Ok r.
Proof.
  intros K O. destruct (peak_ex m O) as (p & P). unfold grow_argsort. rewrite P. cbv zeta. apply peak_spec in P.
  apply grow_no_raise; [exact K|constructor; exact P|apply first_mask, P|].
  cbn. destruct O as (i & Oi). assert (0 < List.length (filter (fun x => negb (er_isnan x)) m)); [|lia].
  rewrite observable_count. assert (In i (filter (fun i => negb (er_isnan (get_pix m i))) (seq 0 (List.length m)))).
  { apply filter_In. unfold observable in Oi. rewrite Oi. split; [apply in_seq; apply get_pix_in in Oi; lia|reflexivity]. }
  destruct (filter (fun i => negb (er_isnan (get_pix m i))) (seq 0 (List.length m))); [contradiction|cbn; lia].
Qed.

End Grow.

(** ** Fields of one pass *)
Lemma keep_first_in : forall l seen x, In x (keep_first seen l) <-> In x l /\ ~ In x seen.
Proof.
  induction l as [|y l IH]; intros seen x; cbn; [tauto|]. destruct (existsb (Z.eqb y) seen) eqn:E.
  - rewrite IH. apply existsb_exists in E. destruct E as (z & Hz & E). apply Z.eqb_eq in E. subst z.
    split; [tauto|]. intros [[<-|H] N]; [contradiction|tauto].
  - cbn. rewrite IH. cbn. assert (~ In y seen).
    { intros K. rewrite <- not_true_iff_false in E. apply E. apply existsb_exists. exists y. split; [exact K|apply Z.eqb_refl]. }
    destruct (Z.eq_dec y x) as [->|N]; tauto.
Qed.
Lemma keep_first_nodup : forall l seen, NoDup (keep_first seen l).
Proof.
  induction l as [|y l IH]; intros seen; cbn; [constructor|]. destruct (existsb (Z.eqb y) seen); [apply IH|].
  constructor; [|apply IH]. rewrite keep_first_in. cbn. tauto.
Qed.
