(** Proofs about get_all_trixels and _find_htmid_fast. *)
From Coq Require Import List Bool ZArith Reals Lra Lia Psatz Sorted.
From Verif Require Import Base Sphere Sphere_proofs Htm Htm_proofs.
Import ListNotations.
Open Scope Z_scope.

(** ** get_all_trixels *)
Definition has (d : dict) (k : Z) : Prop := exists t, d k = Some t.
Lemma dhas_true : forall d k, dhas d k = true <-> has d k.
Proof. intros. unfold dhas, has. destruct (d k) as [t|]; split; intros H; try reflexivity; [now exists t|discriminate|destruct H; discriminate]. Qed.
Lemma dhas_false : forall d k, dhas d k = false <-> ~ has d k.
Proof. intros. rewrite <- dhas_true. destruct (dhas d k); split; intros; try reflexivity; try discriminate; try congruence. Qed.
Definition ext (d d' : dict) : Prop := forall k, has d k -> has d' k.
Lemma ext_refl : forall d, ext d d. Proof. intros d k H. exact H. Qed.
Lemma ext_trans : forall a b c, ext a b -> ext b c -> ext a c. Proof. intros a b c F G k H. apply G, F, H. Qed.
Lemma ext_dset : forall d k t, ext d (dset d k t).
Proof. intros d k t i (u & E). unfold has, dset. destruct (i =? k); eauto. Qed.
Lemma has_dset : forall d k t, has (dset d k t) k.
Proof. intros. unfold has, dset. rewrite Z.eqb_refl. eauto. Qed.
Section All.
Variable L : Z.
Definition closed (d : dict) : Prop := forall k t, d k = Some t -> exists l, 1 <= l <= L /\ node l k t /\ (1 < l -> has d (k / 4)).
Definition bases (d : dict) : Prop := forall b, 8 <= b < 16 -> has d b.
Lemma closed_dset : forall d l k t, closed d -> 1 <= l <= L -> node l k t -> (1 < l -> has d (k / 4)) -> closed (dset d k t).
Proof.
  intros d l k t C B N P i u E. unfold dset in E. destruct (i =? k) eqn:I.
  - apply Z.eqb_eq in I. subst i. injection E as <-. exists l. split; [exact B|]. split; [exact N|]. intros H. apply ext_dset, P, H.
  - destruct (C _ _ E) as (l' & B' & N' & P'). exists l'. split; [exact B'|]. split; [exact N'|]. intros H. apply ext_dset, P', H.
Qed.
Lemma div4 : forall h k, 0 <= k < 4 -> (4 * h + k) / 4 = h.
Proof. intros. rewrite Z.mul_comm, Z.div_add_l by lia. rewrite Z.div_small; lia. Qed.
Lemma add_children_ok : forall d l id t, closed d -> 1 <= l -> l + 1 <= L -> node l id t -> has d id ->
  exists d', add_children d id t = Ok d' /\ closed d' /\ ext d d' /\ forall k, 0 <= k < 4 -> has d' (4 * id + k).
Proof.
  intros d l id t C B1 B2 N H. unfold add_children. change (Z.shiftl id 2) with (Z.shiftl id (2 * 1)). rewrite shiftl2, Z.pow_1_r by lia.
  pose proof (node_tid _ _ _ N) as TT.
  destruct (get_child_in t 0 ltac:(lia)) as (u0 & -> & I0 & E0). destruct (get_child_in t 1 ltac:(lia)) as (u1 & -> & I1 & E1).
  destruct (get_child_in t 2 ltac:(lia)) as (u2 & -> & I2 & E2). destruct (get_child_in t 3 ltac:(lia)) as (u3 & -> & I3 & E3). cbn [bind].
  rewrite TT in *.
  assert (M : forall k u, In u (get_children t) -> tid u = 4 * id + k -> node (l + 1) (4 * id + k) u) by (intros k u I E; rewrite <- E; econstructor; eassumption).
  assert (S : forall d1 k u, closed d1 -> ext d d1 -> 0 <= k < 4 -> In u (get_children t) -> tid u = 4 * id + k -> closed (dset d1 (4 * id + k) u) /\ ext d (dset d1 (4 * id + k) u)).
  { intros d1 k u C1 X1 K I E. split; [|eapply ext_trans; [exact X1|apply ext_dset]].
    apply (closed_dset _ (l + 1)); [exact C1|lia|now apply M|]. intros _. rewrite div4 by exact K. apply X1, H. }
  replace (id * 4) with (4 * id + 0) by lia. replace (4 * id + 0 + 1) with (4 * id + 1) by lia.
  replace (4 * id + 0 + 2) with (4 * id + 2) by lia. replace (4 * id + 0 + 3) with (4 * id + 3) by lia.
  destruct (S d 0 u0 C (ext_refl d) ltac:(lia) I0 E0) as (C0 & X0). destruct (S _ 1 u1 C0 X0 ltac:(lia) I1 E1) as (C1 & X1).
  destruct (S _ 2 u2 C1 X1 ltac:(lia) I2 E2) as (C2 & X2). destruct (S _ 3 u3 C2 X2 ltac:(lia) I3 E3) as (C3 & X3).
  eexists. split; [reflexivity|]. split; [exact C3|]. split; [exact X3|]. intros k K.
  assert (k = 0 \/ k = 1 \/ k = 2 \/ k = 3) as [->|[->|[->| ->]]] by lia.
  - do 3 apply ext_dset. apply has_dset.
  - do 2 apply ext_dset. apply has_dset.
  - apply ext_dset. apply has_dset.
  - apply has_dset.
Qed.
Lemma scan_seq : forall d h N s cur, let f := fun k => 2 + 2 * Z.of_nat k in let r := scan d h (map f (seq s N)) cur in
  (exists i, (s <= i < s + N)%nat /\ r = Some (f i) /\ has d (h / 4 ^ (Z.of_nat i + 1)) /\
     forall j, (s <= j < i)%nat -> ~ has d (h / 4 ^ (Z.of_nat j + 1))) \/
  ((forall j, (s <= j < s + N)%nat -> ~ has d (h / 4 ^ (Z.of_nat j + 1))) /\
     r = match N with O => cur | S m => Some (f (s + m)%nat) end).
Proof.
  intros d h N. induction N as [|N IH]; intros s cur f r.
  - right. split; [intros; lia|reflexivity].
  - subst r. cbn [seq map scan]. assert (SH : Z.shiftr h (f s) = h / 4 ^ (Z.of_nat s + 1)) by (unfold f; replace (2 + 2 * Z.of_nat s) with (2 * (Z.of_nat s + 1)) by lia; apply shiftr2; lia). rewrite SH.
    destruct (dhas d (h / 4 ^ (Z.of_nat s + 1))) eqn:E.
    + left. exists s. apply dhas_true in E. split; [lia|]. split; [reflexivity|]. split; [exact E|]. intros; lia.
    + apply dhas_false in E. destruct (IH (S s) (Some (f s))) as [(i & B & R & H & F)|(F & R)].
      * left. exists i. split; [lia|]. split; [exact R|]. split; [exact H|]. intros j J.
        destruct (Nat.eq_dec j s) as [->|]; [exact E|apply F; lia].
      * right. split; [intros j J; destruct (Nat.eq_dec j s) as [->|]; [exact E|apply F; lia]|].
        fold f in R. rewrite R. destruct N as [|m]; unfold f; f_equal; lia.
Qed.
Lemma valid_div : forall h j, valid L h -> 0 <= j <= L - 1 -> valid (L - j) (h / 4 ^ j).
Proof.
  intros h j (B & V) J. split; [lia|]. pose proof (pow4_pos j ltac:(lia)) as P.
  replace (4 ^ (L - 1)) with (4 ^ j * 4 ^ (L - j - 1)) in V by (rewrite <- Z.pow_add_r by lia; f_equal; lia).
  split; [apply Z.div_le_lower_bound; lia|apply Z.div_lt_upper_bound; lia].
Qed.
Lemma div_step : forall h e, 0 <= e -> exists k, 0 <= k < 4 /\ h / 4 ^ e = 4 * (h / 4 ^ (e + 1)) + k.
Proof.
  intros h e E. exists ((h / 4 ^ e) mod 4). split; [apply Z.mod_pos_bound; lia|].
  rewrite pow4_S, (Z.mul_comm 4 (4 ^ e)), <- Z.div_div by (try apply pow4_pos; lia). apply Z.div_mod. lia.
Qed.
Lemma while_ok : forall fuel d h j, valid L h -> closed d -> bases d -> 1 <= j <= L - 1 -> has d (h / 4 ^ j) -> j <= Z.of_nat fuel + 1 ->
  exists d', while_parent fuel (2 * (L - 1)) h (Z.shiftr h 2) d = Ok d' /\ closed d' /\ ext d d' /\ has d' (h / 4).
Proof.
  assert (SH : forall h, Z.shiftr h 2 = h / 4) by (intros; change 2 with (2 * 1); rewrite shiftr2, Z.pow_1_r by lia; reflexivity).
  induction fuel as [|f IH]; intros d h j V C B J H F; cbn [while_parent]; rewrite SH; destruct (dhas d (h / 4)) eqn:E.
  - apply dhas_true in E. exists d. split; [reflexivity|]. split; [exact C|]. split; [apply ext_refl|exact E].
  - exfalso. assert (j = 1) by lia. subst j. rewrite Z.pow_1_r in H. apply dhas_false in E. contradiction.
  - apply dhas_true in E. exists d. split; [reflexivity|]. split; [exact C|]. split; [apply ext_refl|exact E].
  - apply dhas_false in E. assert (J2 : 2 <= j).
    { destruct (Z.eq_dec j 1) as [->|]; [rewrite Z.pow_1_r in H; contradiction|lia]. }
    unfold range2. replace ((2 * (L - 1) - 2 + 1) / 2) with (L - 2) by (apply (Z.div_unique _ _ _ 1); lia).
    destruct (scan_seq d h (Z.to_nat (L - 2)) 0 None) as [(i & BI & -> & HI & FI)|(FI & ->)].
    + set (e := Z.of_nat i + 1) in *. replace (2 + 2 * Z.of_nat i) with (2 * e) by lia. rewrite shiftr2 by lia.
      destruct HI as (t & HT). rewrite HT. cbn [bind].
      assert (E1 : e <> 1) by (intros Q; apply E; exists t; rewrite Q, Z.pow_1_r in HT; exact HT).
      assert (EJ : e <= j).
      { destruct (Z_le_gt_dec e j) as [|G]; [assumption|]. exfalso. apply (FI (Z.to_nat (j - 1))); [lia|]. replace (Z.of_nat (Z.to_nat (j - 1)) + 1) with j by lia. exact H. }
      destruct (C _ _ HT) as (l & BL & N & _). assert (l = L - e).
      { apply (valid_unique _ _ (h / 4 ^ e)); [eapply node_valid; eassumption|apply valid_div; [exact V|lia]]. } subst l.
      destruct (add_children_ok d (L - e) (h / 4 ^ e) t C ltac:(lia) ltac:(lia) N ltac:(eexists; exact HT)) as (d' & A & C' & X' & K'). rewrite A. cbn [bind].
      assert (H' : has d' (h / 4 ^ (e - 1))).
      { destruct (div_step h (e - 1) ltac:(lia)) as (k & KK & ->). replace (e - 1 + 1) with e by lia. now apply K'. }
      destruct (IH d' h (e - 1) V C') as (d2 & R & C2 & X2 & H2); [intros b Q; apply X', B, Q|lia|exact H'|lia|].
      rewrite SH in R. exists d2. split; [exact R|]. split; [exact C2|]. split; [eapply ext_trans; eassumption|exact H2].
    + destruct (Z.to_nat (L - 2)) as [|m] eqn:EM; [lia|]. set (e := L - 2) in *. replace (2 + 2 * Z.of_nat (0 + m)) with (2 * e) by lia. rewrite shiftr2 by lia.
      assert (NE : ~ has d (h / 4 ^ e)) by (replace e with (Z.of_nat m + 1) by lia; apply FI; lia).
      assert (JL : j = L - 1).
      { destruct (Z.eq_dec j (L - 1)) as [|Q]; [assumption|]. exfalso. apply (FI (Z.to_nat (j - 1))); [lia|]. replace (Z.of_nat (Z.to_nat (j - 1)) + 1) with j by lia. exact H. }
      destruct (d (h / 4 ^ e)) as [t|] eqn:ET; [exfalso; apply NE; now exists t|].
      destruct (from_htmid (L - e) (h / 4 ^ e)) as (t & FT & N); [apply valid_div; [exact V|lia]|]. rewrite FT. cbn [bind].
      assert (C1 : closed (dset d (h / 4 ^ e) t)).
      { apply (closed_dset _ (L - e)); [exact C|lia|exact N|]. intros _.
        replace (h / 4 ^ e / 4) with (h / 4 ^ j); [exact H|]. rewrite Z.div_div by (try apply Z.pow_nonzero; lia).
        rewrite Z.mul_comm, <- pow4_S by lia. do 2 f_equal. lia. }
      destruct (add_children_ok _ (L - e) (h / 4 ^ e) t C1 ltac:(lia) ltac:(lia) N ltac:(apply has_dset)) as (d' & A & C' & X' & K'). rewrite A. cbn [bind].
      destruct (IH d' h e V C') as (d2 & R & C2 & X2 & H2); [intros b Q; apply X', ext_dset, B, Q|lia|apply X', has_dset|lia|].
      rewrite SH in R. exists d2. split; [exact R|]. split; [exact C2|]. split; [|exact H2].
      eapply ext_trans; [apply ext_dset|eapply ext_trans; eassumption].
Qed.
Lemma gen_one_ok : forall d h, valid L h -> closed d -> bases d -> exists d', gen_one (2 * (L - 1)) d h = Ok d' /\ closed d' /\ ext d d' /\ has d' h.
Proof.
  intros d h V C B. unfold gen_one. destruct (dhas d h) eqn:E.
  - apply dhas_true in E. exists d. split; [reflexivity|]. split; [exact C|]. split; [apply ext_refl|exact E].
  - apply dhas_false in E. assert (2 <= L).
    { destruct (Z_le_gt_dec 2 L) as [|G]; [assumption|]. exfalso. apply E, B. destruct V as (A & V). replace (L - 1) with 0 in V by lia. cbn in V. lia. }
    destruct (while_ok (Z.to_nat (2 * (L - 1))) d h (L - 1) V C B) as (d1 & -> & C1 & X1 & H1); [lia| |lia|].
    { apply B. pose proof (valid_div h (L - 1) V ltac:(lia)) as (_ & W). replace (L - (L - 1) - 1) with 0 in W by lia. cbn in W. lia. }
    cbn [bind]. replace (Z.shiftr h 2) with (h / 4) by (change 2 with (2 * 1); now rewrite shiftr2, Z.pow_1_r by lia).
    destruct H1 as (t & HT). rewrite HT. destruct (C1 _ _ HT) as (l & BL & N & _).
    assert (l = L - 1). { apply (valid_unique _ _ (h / 4)); [eapply node_valid; eassumption|]. pose proof (valid_div h 1 V ltac:(lia)) as W. now rewrite Z.pow_1_r in W. } subst l.
    destruct (add_children_ok d1 (L - 1) (h / 4) t C1 ltac:(lia) ltac:(lia) N ltac:(now exists t)) as (d' & A & C' & X' & K'). exists d'.
    split; [exact A|]. split; [exact C'|]. split; [eapply ext_trans; eassumption|].
    rewrite (Z.div_mod h 4) by lia. apply K'. apply Z.mod_pos_bound. lia.
Qed.
End All.
Lemma fold_res_ok : forall A B (f : A -> B -> res A) (P : A -> Prop) (X : A -> A -> Prop) (Q : B -> A -> Prop) l a,
  (forall a, X a a) -> (forall a b c, X a b -> X b c -> X a c) -> (forall x a b, X a b -> Q x a -> Q x b) ->
  (forall a x, In x l -> P a -> exists a', f a x = Ok a' /\ P a' /\ X a a' /\ Q x a') -> P a ->
  exists a', fold_res f a l = Ok a' /\ P a' /\ X a a' /\ forall x, In x l -> Q x a'.
Proof.
  intros A B f P X Q l a R T M. revert a. induction l as [|x l IH]; intros a S PA; cbn [fold_res].
  - exists a. split; [reflexivity|]. split; [exact PA|]. split; [apply R|intros x []].
  - destruct (S a x (or_introl eq_refl) PA) as (a1 & -> & P1 & X1 & Q1). cbn [bind].
    destruct (IH a1) as (a2 & F & P2 & X2 & Q2); [intros a' y I; apply S; now right|exact P1|].
    exists a2. split; [exact F|]. split; [exact P2|]. split; [eapply T; eassumption|]. intros y [<-|I]; [eapply M; eassumption|now apply Q2].
Qed.
Definition full (L : Z) (d : dict) : Prop := forall h t, d h = Some t <-> exists l, 1 <= l <= L /\ node l h t.
Lemma get_all_ok : forall L, 1 <= L -> exists d, get_all_trixels L = Ok d /\ full L d.
Proof.
  intros L H. unfold get_all_trixels. cbv zeta.
  destruct (fold_res_ok dict Z (fun d k => bind (trixel_from_htmid k) (fun t => Ok (dset d k t))) (closed L) ext (fun k d => has d k) start_trixels (fun _ => None))
    as (d0 & -> & C0 & _ & B0).
  - apply ext_refl.
  - apply ext_trans.
  - intros x a b X. apply X.
  - intros a x I C. assert (VX : valid 1 x) by (split; [lia|]; cbn in I; cbn; lia).
    destruct (from_htmid 1 x VX) as (t & -> & N). cbn [bind]. exists (dset a x t). split; [reflexivity|].
    split; [apply (closed_dset L a 1); [exact C|lia|exact N|lia]|]. split; [apply ext_dset|apply has_dset].
  - intros k t E. discriminate.
  - cbn [bind]. destruct (2 * (L - 1) <? 0) eqn:E; [apply Z.ltb_lt in E; lia|]. clear E.
    assert (B0' : bases d0). { intros b B. apply B0. cbn. lia. }
    destruct (fold_res_ok dict Z (fun d k =>
        fold_res (fun d dt => gen_one (2 * (L - 1)) d (Z.shiftl k (2 * (L - 1)) + Z.of_nat dt)) d (seq 0 (Z.to_nat (2 ^ (2 * (L - 1))))))
        (fun d => closed L d /\ bases d) ext (fun k d => forall dt, 0 <= dt < 4 ^ (L - 1) -> has d (k * 4 ^ (L - 1) + dt)) start_trixels d0)
      as (d1 & -> & (C1 & _) & _ & A1).
    + apply ext_refl.
    + apply ext_trans.
    + intros x a b X F dt I. apply X, F, I.
    + intros a x I (C & B). cbv zeta. rewrite shiftl2, Z.pow_mul_r by lia. change (2 ^ 2) with 4.
      destruct (fold_res_ok dict nat (fun d dt => gen_one (2 * (L - 1)) d (x * 4 ^ (L - 1) + Z.of_nat dt)) (fun d => closed L d /\ bases d) ext
         (fun dt d => has d (x * 4 ^ (L - 1) + Z.of_nat dt)) (seq 0 (Z.to_nat (4 ^ (L - 1)))) a) as (a1 & F & P1 & X1 & Q1).
      * apply ext_refl.
      * apply ext_trans.
      * intros y u v X. apply X.
      * intros u y J (CU & BU). apply in_seq in J. destruct (gen_one_ok L u (x * 4 ^ (L - 1) + Z.of_nat y)) as (u' & G & C' & X' & H'); try assumption.
        { split; [exact H|]. cbn in I. nia. }
        exists u'. split; [exact G|]. split; [split; [exact C'|intros b Q; apply X', BU, Q]|]. split; assumption.
      * split; assumption.
      * exists a1. split; [exact F|]. split; [exact P1|]. split; [exact X1|]. intros dt D.
        rewrite <- (Z2Nat.id dt) by lia. apply Q1. apply in_seq. lia.
    + split; assumption.
    + exists d1. split; [reflexivity|]. intros h t. split.
      * intros E. destruct (C1 _ _ E) as (l & B & N & _). exists l. split; assumption.
      * intros (l & B & N).
        assert (TOP : forall g, valid L g -> has d1 g).
        { intros g (_ & V). rewrite (Z.div_mod g (4 ^ (L - 1))) by (pose proof (pow4_pos (L - 1)); lia). rewrite (Z.mul_comm (4 ^ (L - 1))).
          pose proof (pow4_pos (L - 1) ltac:(lia)) as P. apply A1; [|apply Z.mod_pos_bound; lia].
          assert (8 <= g / 4 ^ (L - 1) < 16) by (split; [apply Z.div_le_lower_bound; lia|apply Z.div_lt_upper_bound; lia]). cbn. lia. }
        assert (UP : forall j g, valid L g -> (Z.of_nat j <= L - 1) -> has d1 (g / 4 ^ Z.of_nat j)).
        { induction j as [|j IH]; intros g V J; [rewrite Z.pow_0_r, Z.div_1_r; now apply TOP|].
          destruct (IH g V ltac:(lia)) as (u & U). destruct (C1 _ _ U) as (l' & BL & NL & PL).
          assert (l' = L - Z.of_nat j) by (apply (valid_unique _ _ (g / 4 ^ Z.of_nat j)); [eapply node_valid; eassumption|apply valid_div; [exact V|lia]]).
          subst l'. specialize (PL ltac:(lia)). rewrite Nat2Z.inj_succ. unfold Z.succ. rewrite pow4_S, Z.mul_comm, <- Z.div_div by (try apply Z.pow_nonzero; lia). exact PL. }
        pose proof (node_valid _ _ _ N) as (BL & V). pose proof (pow4_pos (L - l) ltac:(lia)) as P.
        assert (W : valid L (h * 4 ^ (L - l))).
        { split; [exact H|]. replace (4 ^ (L - 1)) with (4 ^ (L - l) * 4 ^ (l - 1)) by (rewrite <- Z.pow_add_r by lia; f_equal; lia). nia. }
        destruct (UP (Z.to_nat (L - l)) _ W ltac:(lia)) as (u & U). rewrite Z2Nat.id, Z.div_mul in U by lia.
        destruct (C1 _ _ U) as (l' & _ & N' & _). destruct (node_fun _ _ _ N _ _ N') as (_ & ->). exact U.
Qed.

(** ** _find_htmid_fast *)
Section Fast.
Variable pts : list vec.
Let n := List.length pts.
Definition memb (i : nat) (l : list nat) : bool := existsb (Nat.eqb i) l.
Lemma memb_In : forall i l, memb i l = true <-> In i l.
Proof.
  intros. unfold memb. rewrite existsb_exists. split; [intros (x & I & E); apply Nat.eqb_eq in E; now subst|intros I; exists i; split; [exact I|apply Nat.eqb_refl]].
Qed.
Lemma assign_in : forall arr l v i, In i l -> assign arr l v i = v.
Proof. intros arr l v i I. unfold assign. apply memb_In in I. unfold memb in I. now rewrite I. Qed.
Lemma assign_out : forall arr l v i, ~ In i l -> assign arr l v i = arr i.
Proof. intros arr l v i I. unfold assign. fold (memb i l). destruct (memb i l) eqn:E; [apply memb_In in E; contradiction|reflexivity]. Qed.
(** The last key whose list has [i]. *)
Definition lastk (i : nat) (es : list (Z * list nat)) : option Z := fold_left (fun o e => if memb i (snd e) then Some (fst e) else o) es None.
Lemma lastk_app : forall i es new, lastk i (new ++ es) = fold_left (fun o e => if memb i (snd e) then Some (fst e) else o) es (lastk i new).
Proof. intros. unfold lastk. apply fold_left_app. Qed.
Lemma lastk_none : forall i es new, (forall e, In e es -> ~ In i (snd e)) -> lastk i (new ++ es) = lastk i new.
Proof.
  intros i es new H. rewrite lastk_app. generalize (lastk i new). induction es as [|e es IH]; intros o; [reflexivity|]. cbn [fold_left].
  destruct (memb i (snd e)) eqn:E; [apply memb_In in E; exfalso; now apply (H e (or_introl eq_refl))|]. apply IH. intros e' I. apply H. now right.
Qed.
Lemma lastk_some : forall i es new k, (exists e, In e es /\ In i (snd e)) -> (forall e, In e es -> In i (snd e) -> fst e = k) -> lastk i (new ++ es) = Some k.
Proof.
  intros i es new k X H. rewrite lastk_app. generalize (lastk i new).
  assert (G : forall es, (forall e, In e es -> In i (snd e) -> fst e = k) -> fold_left (fun o e => if memb i (snd e) then Some (fst e) else o) es (Some k) = Some k).
  { clear. induction es as [|e es IH]; intros H; [reflexivity|]. cbn [fold_left]. destruct (memb i (snd e)) eqn:E.
    - apply memb_In in E. rewrite (H e (or_introl eq_refl) E). apply IH. intros e' I. apply H. now right.
    - apply IH. intros e' I. apply H. now right. }
  induction es as [|e es IH]; intros o; [destruct X as (e & [] & _)|]. cbn [fold_left]. destruct (memb i (snd e)) eqn:E.
  - apply memb_In in E. rewrite (H e (or_introl eq_refl) E). apply G. intros e' I. apply H. now right.
  - apply IH; [|intros e' I; apply H; now right]. destruct X as (e' & [<-|I] & J); [|eauto]. exfalso. apply memb_In in J. congruence.
Qed.
Lemma child_pass_ok : forall d cs cons arr new, (forall c, In c cs -> d (tid c) = Some c) -> exists arr' es,
  child_pass d pts (map tid cs) cons arr new = Ok (arr', new ++ es) /\
  (forall i, ~ In i cons -> arr' i = arr i) /\
  (forall i c, In i cons -> find (fun c => in_trixel pts c i) cs = Some c -> arr' i = tid c /\ exists l, In (tid c, l) es /\ In i l) /\
  (forall i, In i cons -> find (fun c => in_trixel pts c i) cs = None -> arr' i = arr i) /\
  (forall h l i, In (h, l) es -> In i l -> In i cons /\ exists c, find (fun c => in_trixel pts c i) cs = Some c /\ h = tid c) /\
  (forall h l, In (h, l) es -> exists c, In c cs /\ h = tid c).
Proof.
  intros d cs. induction cs as [|c cs IH]; intros cons arr new D; cbn [map child_pass].
  - exists arr, []. rewrite app_nil_r. split; [reflexivity|]. split; [reflexivity|]. split; [discriminate|]. split; [reflexivity|]. split; [intros h l i []|intros h l []].
  - destruct cons as [|i0 cons0].
    + exists arr, []. rewrite app_nil_r. split; [reflexivity|]. split; [reflexivity|]. split; [intros i c' []|]. split; [reflexivity|]. split; [intros h l i []|intros h l []].
    + set (cons := i0 :: cons0). rewrite (D c (or_introl eq_refl)).
      assert (D' : forall c', In c' cs -> d (tid c') = Some c') by (intros; apply D; now right).
      set (valid := filter (in_trixel pts c) cons). set (rest := filter (fun i => negb (in_trixel pts c i)) cons).
      assert (INR : forall i, In i rest <-> In i cons /\ in_trixel pts c i = false) by (intros; unfold rest; rewrite filter_In, negb_true_iff; reflexivity).
      assert (INV : forall i, In i valid <-> In i cons /\ in_trixel pts c i = true) by (intros; unfold valid; apply filter_In).
      assert (K : forall arr1 new1 es1, arr1 = assign arr valid (tid c) -> new1 = new ++ es1 -> (es1 = [(tid c, valid)] \/ (valid = [] /\ es1 = [])) -> exists arr' es,
        child_pass d pts (map tid cs) rest arr1 new1 = Ok (arr', new ++ es) /\
        (forall i, ~ In i cons -> arr' i = arr i) /\
        (forall i c', In i cons -> find (fun c => in_trixel pts c i) (c :: cs) = Some c' -> arr' i = tid c' /\ exists l, In (tid c', l) es /\ In i l) /\
        (forall i, In i cons -> find (fun c => in_trixel pts c i) (c :: cs) = None -> arr' i = arr i) /\
        (forall h l i, In (h, l) es -> In i l -> In i cons /\ exists c', find (fun c => in_trixel pts c i) (c :: cs) = Some c' /\ h = tid c') /\
        (forall h l, In (h, l) es -> exists c', In c' (c :: cs) /\ h = tid c')).
      { intros arr1 new1 es1 -> -> ES. destruct (IH rest (assign arr valid (tid c)) (new ++ es1) D') as (arr' & es & R & O & F & N & E & T).
        exists arr', (es1 ++ es). rewrite app_assoc. split; [exact R|]. split; [|split; [|split; [|split]]].
        - intros i I. rewrite O by (rewrite INR; tauto). apply assign_out. rewrite INV. tauto.
        - intros i c' I Q. cbn [find] in Q. destruct (in_trixel pts c i) eqn:B.
          + injection Q as <-. rewrite O by (rewrite INR; intros (_ & Z); congruence). rewrite assign_in by (rewrite INV; tauto). split; [reflexivity|].
            exists valid. split; [|rewrite INV; tauto]. apply in_or_app. left. destruct ES as [->|(Z & _)]; [now left|].
            exfalso. assert (In i valid) by (rewrite INV; tauto). rewrite Z in H. destruct H.
          + destruct (F i c') as (A & l & J & M); [rewrite INR; tauto|exact Q|]. split; [exact A|]. exists l. split; [apply in_or_app; now right|exact M].
        - intros i I Q. cbn [find] in Q. destruct (in_trixel pts c i) eqn:B; [discriminate|]. rewrite N; [|rewrite INR; tauto|exact Q].
          apply assign_out. rewrite INV. intros (_ & Z). congruence.
        - intros h l i J M. apply in_app_or in J as [J|J].
          + destruct ES as [->|(_ & ->)]; [|destruct J]. destruct J as [J|[]]. injection J as <- <-. apply INV in M as (M1 & M2). split; [exact M1|].
            exists c. cbn [find]. rewrite M2. split; reflexivity.
          + destruct (E _ _ _ J M) as (R1 & c' & R2 & R3). apply INR in R1 as (R1 & B). split; [exact R1|]. exists c'. cbn [find]. rewrite B. split; assumption.
        - intros h l J. apply in_app_or in J as [J|J].
          + destruct ES as [->|(_ & ->)]; [|destruct J]. destruct J as [J|[]]. injection J as <- <-. exists c. split; [now left|reflexivity].
          + destruct (T _ _ J) as (c' & I & Q). exists c'. split; [now right|exact Q]. }
      destruct valid as [|v0 vs] eqn:EV.
      * destruct (K arr new []) as (arr' & es & R); [unfold assign; reflexivity|now rewrite app_nil_r|now right|]. exists arr', es. exact R.
      * apply (K (assign arr (v0 :: vs) (tid c)) (new ++ [(tid c, v0 :: vs)]) [(tid c, v0 :: vs)]); [reflexivity|reflexivity|now left].
Qed.
(** A table of parents: trixels of one level, each with points inside it. *)
Definition table (l : Z) (es : list (Z * list nat)) : Prop :=
  forall h idx, In (h, idx) es -> exists t, node l h t /\ forall i, In i idx -> (i < n)%nat /\ in_trixel pts t i = true.
Lemma children_ids : forall h t, tid t = h -> children_htmid h = map tid (get_children t).
Proof. intros h t <-. reflexivity. Qed.
Lemma owner : forall l h t i, node l h t -> in_trixel pts t i = true -> exists c, find (fun c => in_trixel pts c i) (get_children t) = Some c /\ In c (get_children t) /\ node (l + 1) (tid c) c /\ in_trixel pts c i = true.
Proof.
  intros l h t i N I. unfold in_trixel in *. destruct (nth_error pts i) as [p|] eqn:E; [|discriminate].
  destruct (find_child _ _ _ p N I) as (u & F & J & M & C). exists u. split; [exact F|]. split; [exact J|]. split; assumption.
Qed.
Lemma pass_ok : forall L d l, full L d -> l + 1 <= L -> forall ps done arr new, 1 <= l -> table l ps -> table (l + 1) new ->
  (forall i h, (i < n)%nat -> lastk i done = Some h -> arr i / 4 = h /\ lastk i new = Some (arr i)) ->
  exists arr' new', fold_res (fun '(arr, new) '(h, considered) => child_pass d pts (children_htmid h) considered arr new) (arr, new) ps = Ok (arr', new') /\
    table (l + 1) new' /\
    (forall i h, (i < n)%nat -> lastk i (done ++ ps) = Some h -> arr' i / 4 = h /\ lastk i new' = Some (arr' i)).
Proof.
  intros L d l FU LL ps. induction ps as [|(h, idx) ps IH]; intros done arr new L1 TP TN INV; cbn [fold_res].
  - exists arr, new. split; [reflexivity|]. split; [exact TN|]. now rewrite app_nil_r.
  - destruct (TP h idx (or_introl eq_refl)) as (t & N & TI). rewrite (children_ids h t) by (eapply node_tid; eassumption).
    assert (DC : forall c, In c (get_children t) -> d (tid c) = Some c).
    { intros c I. apply FU. exists (l + 1). split; [lia|]. econstructor; eassumption. }
    destruct (child_pass_ok d (get_children t) idx arr new DC) as (arr1 & es & -> & O & F & _ & E & T). cbn [bind].
    destruct (IH (done ++ [(h, idx)]) arr1 (new ++ es) L1) as (arr2 & new2 & R & T2 & I2).
    + intros h' idx' J. apply TP. now right.
    + intros h' idx' J. apply in_app_or in J as [J|J]; [now apply TN|].
      destruct (T _ _ J) as (c & IC & ->). exists c. split; [econstructor; eassumption|]. intros i M.
      destruct (E _ _ _ J M) as (MI & c' & FC & Q). destruct (TI i MI) as (B & _). split; [exact B|].
      apply find_some in FC as (IC' & IN). now rewrite (child_tid_inj t c c' IC IC' Q).
    + intros i k B K. destruct (memb i idx) eqn:M.
      * apply memb_In in M. destruct (TI i M) as (_ & IT). destruct (owner _ _ _ i N IT) as (c & FC & IC & NC & _).
        destruct (F i c M FC) as (A & lst & J1 & J2). rewrite A.
        assert (k = h). { unfold lastk in K. rewrite fold_left_app in K. cbn [fold_left snd fst] in K. apply memb_In in M. rewrite M in K. now injection K as <-. } subst k.
        split.
        -- destruct (child_tid _ _ IC) as (q & Q & ->). rewrite (node_tid _ _ _ N). now apply div4.
        -- apply lastk_some; [exists (tid c, lst); split; assumption|]. intros (h', l') J M'. cbn in *.
           destruct (E _ _ _ J M') as (_ & c' & FC' & ->). congruence.
      * assert (NI : ~ In i idx) by (rewrite <- memb_In; congruence). rewrite (O i NI).
        unfold lastk in K. rewrite fold_left_app in K. cbn [fold_left snd fst] in K. rewrite M in K.
        destruct (INV i k B K) as (A1 & A2). split; [exact A1|]. rewrite lastk_none; [exact A2|]. intros (h', l') J M'. cbn in M'.
        destruct (E _ _ _ J M') as (X & _). contradiction.
    + exists arr2, new2. rewrite <- app_assoc in I2. split; [exact R|]. split; [exact T2|exact I2].
Qed.
Lemma levels_ok : forall L d k l arr es, full L d -> 1 <= l -> l + Z.of_nat k <= L -> table l es -> (forall i, (i < n)%nat -> lastk i es = Some (arr i)) ->
  exists arr', levels d pts k arr es = Ok arr' /\ forall i, (i < n)%nat -> arr' i / 4 ^ Z.of_nat k = arr i /\
    exists t, node (l + Z.of_nat k) (arr' i) t /\ in_trixel pts t i = true.
Proof.
  intros L d k. induction k as [|k IH]; intros l arr es FU L1 LL T LK; cbn [levels].
  - exists arr. split; [reflexivity|]. intros i B. rewrite Z.pow_0_r, Z.div_1_r, Z.add_0_r. split; [reflexivity|].
    specialize (LK i B). assert (exists idx, In (arr i, idx) es /\ In i idx) as (idx & J & M).
    { revert LK. unfold lastk. assert (G : forall (es : list (Z * list nat)) o k, fold_left (fun o e => if memb i (snd e) then Some (fst e) else o) es o = Some k -> (exists idx, In (k, idx) es /\ In i idx) \/ o = Some k).
      { clear. induction es as [|(h, l) es IH]; intros o k E; [now right|]. cbn [fold_left snd fst] in E. apply IH in E as [(idx & J & M)|E].
        - left. exists idx. split; [now right|exact M].
        - destruct (memb i l) eqn:Q; [|now right]. injection E as ->. left. exists l. split; [now left|now apply memb_In]. }
      intros E. apply G in E as [E|E]; [exact E|discriminate]. }
    destruct (T _ _ J) as (t & N & TI). exists t. split; [exact N|]. now apply TI.
  - rewrite Nat2Z.inj_succ in *. destruct (pass_ok L d l FU ltac:(lia) es [] arr [] L1 T) as (arr1 & new & -> & T1 & I1).
    + intros h idx [].
    + intros i h _ E. discriminate.
    + cbn [app bind] in *. destruct (IH (l + 1) arr1 new FU ltac:(lia) ltac:(lia) T1) as (arr' & -> & R).
      { intros i B. destruct (I1 i (arr i) B (LK i B)) as (_ & X). exact X. }
      exists arr'. split; [reflexivity|]. intros i B. destruct (R i B) as (A & t & N & C). destruct (I1 i (arr i) B (LK i B)) as (Q & _). split.
      * unfold Z.succ. rewrite pow4_S, Z.mul_comm, <- Z.div_div by (try apply Z.pow_nonzero; lia). now rewrite A.
      * exists t. split; [|exact C]. now replace (l + Z.succ (Z.of_nat k)) with (l + 1 + Z.of_nat k) by lia.
Qed.
(** The initial trixels: the last one that has the point. *)
Definition pick (i : nat) (o : option Z) (bs : list trixel) : option Z := fold_left (fun o b => if in_trixel pts b i then Some (tid b) else o) bs o.
Lemma base_pass_ok : forall bs arr ps, incl bs base_trixels -> table 1 ps -> (forall i k, (i < n)%nat -> lastk i ps = Some k -> arr i = k) ->
  let '(arr', ps') := base_pass pts bs arr ps in
  table 1 ps' /\ forall i, (i < n)%nat -> lastk i ps' = pick i (lastk i ps) bs /\ (forall k, lastk i ps' = Some k -> arr' i = k).
Proof.
  intros bs. induction bs as [|b bs IH]; intros arr ps IN T H; cbn [base_pass].
  - split; [exact T|]. intros i B. split; [reflexivity|]. intros k E. now apply H.
  - set (valid := filter (in_trixel pts b) (seq 0 (List.length pts))).
    assert (INV : forall i, In i valid <-> (i < n)%nat /\ in_trixel pts b i = true).
    { intros i. unfold valid. rewrite filter_In, in_seq. fold n. split; intros (A & C); (split; [lia|exact C]). }
    assert (IN' : incl bs base_trixels) by (intros x J; apply IN; now right).
    assert (NO : valid = [] -> forall i, (i < n)%nat -> in_trixel pts b i = false).
    { intros E i B. destruct (in_trixel pts b i) eqn:Q; [|reflexivity]. assert (In i valid) by (apply INV; split; assumption). rewrite E in H0. destruct H0. }
    assert (KEY : let ps1 := ps ++ [(tid b, valid)] in table 1 ps1 /\ forall i, (i < n)%nat -> lastk i ps1 = (if in_trixel pts b i then Some (tid b) else lastk i ps)).
    { split.
      - intros h idx J. apply in_app_or in J as [J|[J|[]]]; [now apply T|]. injection J as <- <-. exists b. split; [constructor; apply IN; now left|]. intros i M. now apply INV.
      - intros i B. unfold lastk. rewrite fold_left_app. cbn [fold_left snd fst]. destruct (in_trixel pts b i) eqn:Q.
        + assert (M : memb i valid = true) by (apply memb_In, INV; split; assumption). now rewrite M.
        + destruct (memb i valid) eqn:M; [|reflexivity]. apply memb_In, INV in M as (_ & M). congruence. }
    destruct KEY as (T1 & K1). destruct valid as [|v0 vs] eqn:EV.
    + specialize (IH arr ps IN' T H). destruct (base_pass pts bs arr ps) as (arr', ps'). destruct IH as (T' & R). split; [exact T'|].
      intros i B. destruct (R i B) as (R1 & R2). split; [|exact R2]. rewrite R1. unfold pick. cbn [fold_left]. now rewrite (NO eq_refl i B).
    + specialize (IH (assign arr (v0 :: vs) (tid b)) (ps ++ [(tid b, v0 :: vs)]) IN' T1).
      destruct (base_pass pts bs (assign arr (v0 :: vs) (tid b)) (ps ++ [(tid b, v0 :: vs)])) as (arr', ps').
      destruct IH as (T' & R).
      { intros i k B E. rewrite (K1 i B) in E. destruct (in_trixel pts b i) eqn:Q.
        - injection E as <-. apply assign_in, INV. split; assumption.
        - rewrite assign_out; [now apply H|]. rewrite INV. intros (_ & X). congruence. }
      split; [exact T'|]. intros i B. destruct (R i B) as (R1 & R2). split; [|exact R2]. rewrite R1, (K1 i B). unfold pick. reflexivity.
Qed.
Lemma pick_max : forall i bs o, (forall b k, In b bs -> o = Some k -> k <= tid b) -> StronglySorted (fun a b => tid a <= tid b) bs ->
  forall b, In b bs -> in_trixel pts b i = true -> exists k, pick i o bs = Some k /\ tid b <= k.
Proof.
  intros i bs. assert (MONO : forall bs o k, StronglySorted (fun a b => tid a <= tid b) bs -> (forall b, In b bs -> k <= tid b) -> o = Some k -> exists k', pick i o bs = Some k' /\ k <= k').
  { clear. induction bs as [|b bs IH]; intros o k S H ->; [exists k; split; [reflexivity|lia]|]. unfold pick. cbn [fold_left].
    apply StronglySorted_inv in S as (S & F). rewrite Forall_forall in F. destruct (in_trixel pts b i).
    - destruct (IH (Some (tid b)) (tid b) S F eq_refl) as (k' & E & Q). exists k'. split; [exact E|]. specialize (H b (or_introl eq_refl)). lia.
    - apply IH; [exact S| |reflexivity]. intros b' J. apply H. now right. }
  induction bs as [|b0 bs IH]; intros o H S b J Q; [destruct J|]. apply StronglySorted_inv in S as (S & F). rewrite Forall_forall in F. unfold pick. cbn [fold_left].
  destruct J as [->|J].
  - rewrite Q. apply MONO; try assumption. reflexivity.
  - apply IH; try assumption. intros b' k J' E. destruct (in_trixel pts b0 i); [injection E as <-; now apply F|]. apply (H b' k); [now right|exact E].
Qed.
Lemma pick_in : forall i bs o k, pick i o bs = Some k -> o = Some k \/ exists b, In b bs /\ tid b = k /\ in_trixel pts b i = true.
Proof.
  intros i bs. induction bs as [|b bs IH]; intros o k E; [now left|]. unfold pick in E. cbn [fold_left] in E. apply IH in E as [E|(b' & J & E)].
  - destruct (in_trixel pts b i) eqn:Q; [|now left]. injection E as <-. right. exists b. split; [now left|split; [reflexivity|exact Q]].
  - right. exists b'. split; [now right|exact E].
Qed.
Lemma base_sorted : StronglySorted (fun a b => tid a <= tid b) base_trixels.
Proof. unfold base_trixels. repeat (constructor; [|repeat (constructor; [cbn; lia|]); constructor]). constructor. Qed.
Lemma fast_ok : forall L d m, full L d -> 1 <= m <= L -> exists arr', (let '(arr, parents) := base_pass pts base_trixels (fun _ => 0) [] in
   levels d pts (Z.to_nat (m - 1)) arr parents) = Ok arr' /\ forall i p, nth_error pts i = Some p ->
   (exists t, node m (arr' i) t /\ contains_pt t p = true) /\
   (forall b, In b base_trixels -> contains_pt b p = true -> tid b <= arr' i / 4 ^ (m - 1)).
Proof.
  intros L d m FU M. pose proof (base_pass_ok base_trixels (fun _ => 0) [] (incl_refl _)) as B.
  destruct (base_pass pts base_trixels (fun _ => 0) []) as (arr, ps). destruct B as (T & B); [intros h idx []|intros i k _ E; discriminate|].
  assert (LK : forall i, (i < n)%nat -> lastk i ps = Some (arr i)).
  { intros i I. destruct (B i I) as (B1 & B2). destruct (nth_error pts i) as [p|] eqn:E; [|apply nth_error_None in E; unfold n in I; lia].
    destruct (base_cover p) as (b & J & C). destruct (pick_max i base_trixels (lastk i [])) with (b := b) as (k & K & _).
    - intros b' k _ Q. discriminate.
    - apply base_sorted.
    - exact J.
    - unfold in_trixel. now rewrite E.
    - rewrite K in B1. rewrite B1. f_equal. symmetry. apply B2. exact B1. }
  destruct (levels_ok L d (Z.to_nat (m - 1)) 1 arr ps FU) as (arr' & E & R); [lia|lia|exact T|exact LK|]. exists arr'. split; [exact E|].
  intros i p P. assert (I : (i < n)%nat) by (apply nth_error_Some; congruence). destruct (R i I) as (Q & t & N & C). rewrite Z2Nat.id in * by lia.
  replace (1 + (m - 1)) with m in N by lia. split.
  - exists t. split; [exact N|]. unfold in_trixel in C. now rewrite P in C.
  - intros b J CB. rewrite Q. destruct (B i I) as (B1 & _). rewrite (LK i I) in B1.
    destruct (pick_max i base_trixels (lastk i [])) with (b := b) as (k & K & KB); [intros b' k _ X; discriminate|apply base_sorted|exact J|unfold in_trixel; now rewrite P|].
    rewrite K in B1. injection B1 as ->. exact KB.
Qed.
End Fast.
Definition cache_ok (c : cache) : Prop := match c with None => True | Some (l, d) => 1 <= l /\ full l d end.
Lemma fast_spec : forall c ps m, cache_ok c -> 1 <= m <= 10 -> exists hs c', find_htmid_fast c ps m = Ok (hs, c') /\ cache_ok c' /\
  List.length hs = List.length ps /\ forall i p h, nth_error ps i = Some p -> nth_error hs i = Some h ->
   (exists t, node m h t /\ contains_pt t (point p) = true) /\
   (forall b, In b base_trixels -> contains_pt b (point p) = true -> tid b <= h / 4 ^ (m - 1)).
Proof.
  intros c ps m CO M. unfold find_htmid_fast. destruct (m >? 10) eqn:E; [rewrite Z.gtb_lt in E; lia|]. clear E.
  assert (CA : exists L d, (match c with
        | Some (l, d) => if l <? m then bind (get_all_trixels m) (fun d => Ok (m, d)) else Ok (l, d)
        | None => bind (get_all_trixels m) (fun d => Ok (m, d)) end) = Ok (L, d) /\ 1 <= L /\ full L d /\ m <= L).
  { destruct (get_all_ok m ltac:(lia)) as (d0 & G & F0). destruct c as [(l, d)|].
    - destruct (l <? m) eqn:E; [|apply Z.ltb_ge in E; exists l, d; split; [reflexivity|]; destruct CO; split; [assumption|split; [assumption|lia]]].
      rewrite G. cbn [bind]. exists m, d0. split; [reflexivity|split; [lia|split; [exact F0|lia]]].
    - rewrite G. cbn [bind]. exists m, d0. split; [reflexivity|split; [lia|split; [exact F0|lia]]]. }
  destruct CA as (L & d & -> & L1 & FU & LM). cbn [bind].
  destruct (fast_ok (map point ps) L d m FU ltac:(lia)) as (arr' & E & R).
  destruct (base_pass (map point ps) base_trixels (fun _ => 0) []) as (arr, parents). rewrite E. cbn [bind].
  eexists. eexists. split; [reflexivity|]. split; [split; assumption|]. split; [now rewrite map_length, seq_length, map_length|].
  intros i p h P H. assert (I : (i < List.length ps)%nat) by (apply nth_error_Some; congruence).
  assert (H' : h = arr' i).
  { rewrite nth_error_map in H. rewrite (nth_error_nth' _ 0%nat) in H by (rewrite seq_length, map_length; exact I). rewrite seq_nth in H by (rewrite map_length; exact I). cbn in H. congruence. }
  subst h. apply R. rewrite nth_error_map, P. reflexivity.
Qed.
