(** C106: growing a mask. *)
From Coq Require Import List Bool Reals Lra Lia ZArith Sorted.
From Verif Require Import Base Sphere Sphere_proofs Fov Fov_proofs.
Import ListNotations.
Open Scope R_scope.

(** The answer of a call made after others, and of one made first. *)
Definition after (hp : Z -> res (list (R * R))) (calls : list args) : kept := fold_left (fun k a => snd (hp_grow_mask hp k a)) calls unused.
Definition answer (hp : Z -> res (list (R * R))) (a : args) : res (list nat) := fst (hp_grow_mask hp unused a).
(** Two positions are separated by no more than [r]. *)
Definition within (r : R) (p q : R * R) : Prop := exists s, sep1 (fst p) (snd p) (fst q) (snd q) = Some s /\ s <= r.
(** The maps: positions of pixels in radians, some for every nside that is taken. *)
Definition sky (hp : Z -> res (list (R * R))) : Prop :=
  forall n radec, hp n = Ok radec -> radec <> [] /\ forall p, In p radec -> Rabs (fst p) <= 2 * PI /\ Rabs (snd p) <= 2 * PI.
(** A call that can be served. *)
Definition proper (hp : Z -> res (list (R * R))) (a : args) (radec : list (R * R)) : Prop :=
  hp (a_nside a) = Ok radec /\ a_mask a <> [] /\ forall i, In i (a_mask a) -> (i < List.length radec)%nat.

Lemma within_ang : forall r p q, within r p q <-> ang (spot p) (spot q) <= r.
Proof.
  intros r p q. unfold within, spot. rewrite sep1_ang. split.
  - intros (s & E & S). injection E as E. now rewrite E.
  - intros S. eexists. split; [reflexivity|exact S].
Qed.
Lemma answer_pure : forall hp a, sky hp -> answer hp a = pure hp a.
Proof. intros hp a S. apply call_unused. exact S. Qed.

(** Earlier calls make no difference, whatever they were and however many, if the very first was for
    an nside that healpy takes. *)
Theorem C106_calls : forall hp calls a, sky hp -> match calls with [] => True | c :: _ => exists radec, hp (a_nside c) = Ok radec end ->
  fst (hp_grow_mask hp (after hp calls) a) = answer hp a.
Proof. intros hp calls a S H. exact (calls_fresh hp S calls a H). Qed.
Print Assumptions C106_calls.

(** Refuted without that: after a first call for an nside healpy refuses, every later call fails with
    AttributeError, a good one too. *)
Theorem C106_first_refuted : forall hp bad e a, hp (a_nside bad) = Raise e ->
  answer hp bad = Raise e /\ fst (hp_grow_mask hp (after hp [bad]) a) = Raise AttributeError.
Proof.
  intros hp bad e a E. unfold answer, after. cbn [fold_left]. unfold hp_grow_mask at 1 3. cbn [unused k_memo find]. unfold hp_grow_mask_body, prepare, rebuild, tree_for_mask. cbn [k_nside]. rewrite E. cbn [bind fst snd].
  split; [reflexivity|]. reflexivity.
Qed.
Print Assumptions C106_first_refuted.
Example C106_first_ex : exists hp bad a radec, sky hp /\ proper hp a radec /\ hp (a_nside bad) = Raise ValueError.
Proof.
  exists (fun n => if Z.eqb n 1 then Ok [(0, 0)] else Raise ValueError), (Args 0 [0%nat] 0 None), (Args 1 [0%nat] 0 None), [(0, 0)].
  assert (PP := PI_RGT_0). repeat split; cbn; try discriminate.
  - destruct (Z.eqb n 1); [|discriminate]. injection H as <-. discriminate.
  - destruct (Z.eqb n 1); [|discriminate]. injection H as <-. destruct H0 as [<-|[]]. cbn. rewrite Rabs_R0. lra.
  - destruct (Z.eqb n 1); [|discriminate]. injection H as <-. destruct H0 as [<-|[]]. cbn. rewrite Rabs_R0. lra.
  - intros i [<-|[]]. lia.
Qed.

(** Without a scale: exactly the pixels separated by no more than grow_size from a masked one, each
    once, in rising order. *)
Theorem C106_exact : forall hp a radec, sky hp -> proper hp a radec -> a_scale a = None -> 0 <= a_size a <= PI ->
  exists l, answer hp a = Ok l /\ StronglySorted lt l /\
  forall p, In p l <-> exists m x y, nth_error radec p = Some x /\ In m (a_mask a) /\ nth_error radec m = Some y /\ within (a_size a) x y.
Proof.
  intros hp a radec S (E & N & B) SC R. rewrite answer_pure by assumption. destruct (pure_ok hp S a radec E N B) as (l & P & O & I). exists l. split; [exact P|]. split; [exact O|].
  intros p. rewrite I, SC. cbn [rounded rounded_length]. assert (PP := PI_RGT_0).
  assert (T : forall x y, apart (spot x) (spot y) <= 2 * sin (a_size a / 2) <-> within (a_size a) x y).
  { intros x y. rewrite within_ang, <- radius_sin by lra. apply chord_radius; try assumption; apply xyz_unit. }
  split; intros (m & x & y & X & M & Y & D); exists m, x, y; repeat split; try assumption; now apply T.
Qed.
Print Assumptions C106_exact.

(** With a scale: no pixel is missed that is closer than grow_size by three units of the scale, and
    none is taken that is further by three units (0.17 degrees for the default of 1000). *)
Theorem C106_margin : forall hp a radec k, sky hp -> proper hp a radec -> a_scale a = Some k -> 0 < k -> 0 <= a_size a -> a_size a + 3 / k <= PI / 3 ->
  exists l, answer hp a = Ok l /\ StronglySorted lt l /\
  (forall p m x y, nth_error radec p = Some x -> In m (a_mask a) -> nth_error radec m = Some y -> within (a_size a - 3 / k) x y -> In p l) /\
  (forall p, In p l -> exists m x y, nth_error radec p = Some x /\ In m (a_mask a) /\ nth_error radec m = Some y /\ within (a_size a + 3 / k) x y).
Proof.
  intros hp a radec k S (E & N & B) SC K R0 R. rewrite answer_pure by assumption. destruct (pure_ok hp S a radec E N B) as (l & P & O & I). exists l. split; [exact P|]. split; [exact O|].
  assert (K3 : 0 < 3 / k) by (apply Rdiv_lt_0_compat; lra). split.
  - intros p m x y X M Y W. apply I. exists m, x, y. repeat split; try assumption. rewrite SC. apply within_ang in W. cbn [rounded_length]. apply near_in; try apply xyz_unit; lra.
  - intros p J. apply I in J as (m & x & y & X & M & Y & D). exists m, x, y. repeat split; try assumption. rewrite SC in D. apply within_ang. cbn [rounded_length] in D. apply (near_out k); try apply xyz_unit; assumption.
Qed.
Print Assumptions C106_margin.

(** Refuted: that with a scale every pixel within grow_size is masked. *)
Theorem C106_round_refuted : exists hp a radec, sky hp /\ proper hp a radec /\ a_scale a = Some 1000 /\ a_mask a = [0%nat] /\
  (exists x y, nth_error radec 0 = Some x /\ nth_error radec 1 = Some y /\ within (a_size a) x y) /\ answer hp a = Ok [0%nat].
Proof.
  set (radec := [(0, 4 / 10000); (0, 6 / 10000)] : list (R * R)). set (a := Args 1 [0%nat] (3 / 10000) (Some 1000)). assert (PP := PI_RGT_0). assert (P3 := PI2_3_2).
  exists (fun _ => Ok radec), a, radec.
  assert (S : sky (fun _ => Ok radec)).
  { intros n r E. injection E as <-. split; [discriminate|]. intros p [<-|[<-|[]]]; cbn; rewrite Rabs_R0; (split; [lra|]); apply Rabs_le; lra. }
  assert (PR : proper (fun _ => Ok radec) a radec) by (split; [reflexivity|]; split; [discriminate|]; intros i [<-|[]]; cbn; lia).
  split; [exact S|]. split; [exact PR|]. split; [reflexivity|]. split; [reflexivity|]. split.
  { exists (0, 4 / 10000), (0, 6 / 10000). split; [reflexivity|]. split; [reflexivity|]. apply within_ang. cbn [a a_size].
    replace (ang (spot (0, 4 / 10000)) (spot (0, 6 / 10000))) with (2 / 10000); [lra|]. symmetry. apply ang_val; [lra|]. unfold dot, spot. cbn. rewrite cos_0, sin_0.
    replace (2 / 10000) with (6 / 10000 - 4 / 10000) by field. rewrite cos_minus. ring. }
  rewrite answer_pure by exact S. destruct PR as (E & N & B). destruct (pure_ok (fun _ => Ok radec) S a radec E N B) as (l & P & O & I). rewrite P. f_equal.
  assert (Z0' : rounded_length (a_scale a) (2 * sin (a_size a / 2)) = 0).
  { cbn [a a_scale a_size rounded_length]. rewrite (np_round_near _ 0); [reflexivity|]. rewrite Rminus_0_r. assert (U := sin_lt_x (3 / 10000 / 2) ltac:(lra)). assert (V := sin_gt_0 (3 / 10000 / 2) ltac:(lra) ltac:(lra)). apply Rabs_def1; lra. }
  assert (I0 : In 0%nat l).
  { apply I. exists 0%nat, (0, 4 / 10000), (0, 4 / 10000). split; [reflexivity|]. split; [now left|]. split; [reflexivity|]. rewrite apart_self, Z0'. lra. }
  assert (Z1 : np_round (sin (4 / 10000) * 1000) = 0%Z).
  { apply np_round_near. rewrite Rminus_0_r. assert (U := sin_lt_x (4 / 10000) ltac:(lra)). assert (V := sin_gt_0 (4 / 10000) ltac:(lra) ltac:(lra)). apply Rabs_def1; lra. }
  assert (Z2 : np_round (sin (6 / 10000) * 1000) = 1%Z).
  { apply np_round_near. assert (U := sin_lt_x (6 / 10000) ltac:(lra)). assert (V := sin_gap (6 / 10000) 0 ltac:(lra) ltac:(lra)). rewrite sin_0 in V.
    assert (17 / 10 <= sqrt 3) by (rewrite <- (sqrt_square (17 / 10)) by lra; apply sqrt_le_1_alt; lra). apply Rabs_def1; lra. }
  assert (N1 : ~ In 1%nat l).
  { intros J. apply I in J as (m & x & y & X & M & Y & D). cbn in X. injection X as <-. destruct M as [<-|[]]. cbn in Y. injection Y as <-. rewrite Z0' in D.
    assert (H : 1 <= apart (rounded (a_scale a) (spot (0, 6 / 10000))) (rounded (a_scale a) (spot (0, 4 / 10000)))); [|lra].
    unfold apart, spot. cbn [a a_scale rounded vx vy vz xyz_from_ra_dec fst snd]. rewrite Z1, Z2. rewrite <- sqrt_1 at 1. apply sqrt_le_1_alt. set (u := _ - _). set (v := IZR (np_round (sin 0 * cos (6 / 10000) * 1000)) - _).
    assert (0 <= u ^ 2) by apply pow2_ge_0. assert (0 <= v ^ 2) by apply pow2_ge_0. lra. }
  assert (LT : forall p, In p l -> p = 0%nat).
  { intros p J. destruct p as [|[|p]]; [reflexivity|contradiction|]. apply I in J as (m & x & y & X & _). destruct p; discriminate. }
  destruct l as [|p l]; [destruct I0|]. rewrite (LT p (or_introl eq_refl)) in *. apply StronglySorted_inv in O as (_ & F). destruct l as [|q l]; [reflexivity|]. exfalso.
  rewrite Forall_forall in F. specialize (F q (or_introl eq_refl)). rewrite (LT q (or_intror (or_introl eq_refl))) in F. lia.
Qed.
Print Assumptions C106_round_refuted.

(** Masked pixels stay masked, more masked pixels give no fewer, and a larger size up to half a turn
    gives no fewer, with or without a scale. *)
Theorem C106_grows : forall hp a radec, sky hp -> proper hp a radec -> match a_scale a with Some k => 0 < k | None => True end -> 0 <= a_size a <= PI ->
  exists l, answer hp a = Ok l /\ (forall m, In m (a_mask a) -> In m l) /\
  forall mask size, (forall m, In m (a_mask a) -> In m mask) -> (forall i, In i mask -> (i < List.length radec)%nat) -> a_size a <= size <= PI ->
  exists l', answer hp (Args (a_nside a) mask size (a_scale a)) = Ok l' /\ forall p, In p l -> In p l'.
Proof.
  intros hp a radec S (E & N & B) SC R. rewrite answer_pure by assumption. destruct (pure_ok hp S a radec E N B) as (l & P & O & I). exists l. split; [exact P|].
  assert (PP := PI_RGT_0). assert (MONO : forall s t, 0 <= s -> s <= t -> t <= PI -> rounded_length (a_scale a) (2 * sin (s / 2)) <= rounded_length (a_scale a) (2 * sin (t / 2))).
  { intros s t H1 H2 H3. assert (M := half_sin_mono s t H1 H2 H3). destruct (a_scale a) as [k|]; [|exact M]. cbn. apply IZR_le, np_round_mono, Rmult_le_compat_r; lra. }
  split.
  - intros m M. assert (B' := B m M). apply nth_error_Some in B'. destruct (nth_error radec m) as [x|] eqn:X; [|congruence]. apply I. exists m, x, x. repeat split; try assumption. rewrite apart_self.
    assert (M0 := MONO 0 (a_size a) ltac:(lra) ltac:(lra) ltac:(lra)). replace (0 / 2) with 0 in M0 by field. rewrite sin_0, Rmult_0_r in M0. eapply Rle_trans; [|exact M0].
    destruct (a_scale a) as [k|]; cbn; [|lra]. rewrite Rmult_0_l, (np_round_near 0 0); [lra|]. rewrite Rminus_0_r, Rabs_R0. lra.
  - intros mask size SUB BM L. rewrite answer_pure by assumption.
    destruct (pure_ok hp S (Args (a_nside a) mask size (a_scale a)) radec E) as (l' & P' & O' & I'); [cbn; intros ->; destruct (a_mask a) as [|m0 ?]; [congruence|exact (SUB m0 (or_introl eq_refl))]|exact BM|].
    exists l'. split; [exact P'|]. intros p J. apply I in J as (m & x & y & X & M & Y & D). apply I'. cbn [a_mask a_scale a_size]. exists m, x, y. repeat split; auto. eapply Rle_trans; [exact D|]. apply MONO; lra.
Qed.
Print Assumptions C106_grows.

(** Refuted beyond half a turn: a grow_size of a full turn adds nothing, though every pixel is within it. *)
Theorem C106_wide_refuted : exists hp a radec, sky hp /\ proper hp a radec /\ a_size a = 2 * PI /\
  (forall x y, In x radec -> In y radec -> within (a_size a) x y) /\ List.length radec = 2%nat /\ answer hp a = Ok [0%nat].
Proof.
  set (radec := [(0, 0); (1, 0)] : list (R * R)). set (a := Args 1 [0%nat] (2 * PI) None). assert (PP := PI_RGT_0). assert (P3 := PI2_3_2).
  exists (fun _ => Ok radec), a, radec.
  assert (S : sky (fun _ => Ok radec)).
  { intros n r E. injection E as <-. split; [discriminate|]. intros p [<-|[<-|[]]]; cbn; rewrite ?Rabs_R0, ?Rabs_R1; lra. }
  assert (PR : proper (fun _ => Ok radec) a radec) by (split; [reflexivity|]; split; [discriminate|]; intros i [<-|[]]; cbn; lia).
  split; [exact S|]. split; [exact PR|]. split; [reflexivity|]. split.
  { intros x y _ _. apply within_ang. cbn. destruct (ang_range (spot x) (spot y)). lra. }
  split; [reflexivity|]. rewrite answer_pure by exact S. destruct PR as (E & N & B). destruct (pure_ok (fun _ => Ok radec) S a radec E N B) as (l & P & O & I). rewrite P. f_equal.
  assert (D0 : rounded_length (a_scale a) (2 * sin (a_size a / 2)) = 0) by (cbn; replace (2 * PI / 2) with PI by field; rewrite sin_PI; ring).
  assert (I0 : In 0%nat l).
  { apply I. exists 0%nat, (0, 0), (0, 0). split; [reflexivity|]. split; [now left|]. split; [reflexivity|]. rewrite apart_self, D0. lra. }
  assert (LT : forall p, In p l -> p = 0%nat).
  { intros p J. destruct p as [|[|p]]; [reflexivity| |]; apply I in J as (m & x & y & X & M & Y & D); [|destruct p; discriminate]. exfalso. cbn in X. injection X as <-. destruct M as [<-|[]]. cbn in Y. injection Y as <-.
    rewrite D0 in D. cbn [a a_scale rounded] in D. unfold spot in D. cbn [fst snd] in D. rewrite chord_ang in D by apply xyz_unit.
    replace (ang (xyz_from_ra_dec 1 0) (xyz_from_ra_dec 0 0)) with 1 in D; [assert (0 < sin (1 / 2)) by (apply sin_gt_0; lra); lra|].
    symmetry. apply ang_val; [lra|]. unfold dot. cbn. rewrite cos_0, sin_0. ring. }
  destruct l as [|p l]; [destruct I0|]. rewrite (LT p (or_introl eq_refl)) in *. apply StronglySorted_inv in O as (_ & F). destruct l as [|q l]; [reflexivity|]. exfalso.
  rewrite Forall_forall in F. specialize (F q (or_introl eq_refl)). rewrite (LT q (or_intror (or_introl eq_refl))) in F. lia.
Qed.
Print Assumptions C106_wide_refuted.

(** Refuted: that a mask of nothing grows to nothing.  It raises. *)
Theorem C106_empty_refuted : forall hp a radec, sky hp -> hp (a_nside a) = Ok radec -> a_mask a = [] -> answer hp a = Raise ValueError.
Proof. intros hp a radec S E N. rewrite answer_pure by exact S. eapply pure_empty; eassumption. Qed.
Print Assumptions C106_empty_refuted.
(** And a masked index past the last pixel is an error. *)
Theorem C106_index : forall hp a radec m, sky hp -> hp (a_nside a) = Ok radec -> In m (a_mask a) -> (List.length radec <= m)%nat -> answer hp a = Raise IndexError.
Proof.
  intros hp a radec m S E M L. rewrite answer_pure by exact S. unfold pure, tree_for_mask. rewrite E. cbn [bind]. rewrite build_tree_ok by (eapply S; eassumption). cbn [bind]. unfold grow_with. rewrite E. cbn [bind].
  now rewrite (take_past _ _ m M L).
Qed.
Print Assumptions C106_index.
Example C106_empty_ex : sky (fun _ => Ok [(0, 0)]) /\ answer (fun _ => Ok [(0, 0)]) (Args 1 [] 1 (Some 1000)) = Raise ValueError.
Proof.
  assert (S : sky (fun _ => Ok [(0, 0)])) by (intros n r E; injection E as <-; split; [discriminate|]; intros p [<-|[]]; cbn; rewrite Rabs_R0; assert (PP := PI_RGT_0); lra).
  split; [exact S|]. now apply (C106_empty_refuted _ _ [(0, 0)]).
Qed.
