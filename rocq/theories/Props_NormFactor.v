(** C150: the norm factor makes the goals of a visit add up to the pixels it covers. *)
From Coq Require Import List Arith Reals Lia Lra Permutation.
From Verif Require Import Base NormFactor.
Import ListNotations.
Open Scope R_scope.

Lemma nside_below_in : forall fuel n, (n < fuel)%nat -> nside_below fuel (12 * (S n * S n)) = Some (S n).
Proof.
  induction fuel as [|f IH]; intros n L; [lia|]. cbn [nside_below]. destruct (Nat.eqb_spec (12 * (S f * S f)) (12 * (S n * S n))) as [E|E].
  - f_equal. nia.
  - apply IH. assert (f <> n) by (intros ->; apply E; reflexivity). lia.
Qed.
Lemma nside_of : forall n, (0 < n)%nat -> npix2nside (12 * (n * n)) = Ok n.
Proof. intros [|n] H; [lia|]. unfold npix2nside. rewrite nside_below_in; [reflexivity|nia]. Qed.
Lemma nside_below_none : forall fuel npix, (forall n, (0 < n)%nat -> npix <> (12 * (n * n))%nat) -> nside_below fuel npix = None.
Proof.
  induction fuel as [|f IH]; intros npix H; [reflexivity|]. cbn [nside_below]. destruct (Nat.eqb_spec (12 * (S f * S f)) npix) as [E|E]; [exfalso; apply (H (S f)); [lia|now symmetry]|now apply IH].
Qed.

Definition gt0 (x : R) : bool := if Rlt_dec 0 x then true else false.
Lemma pos_sum_cons : forall x m, pos_sum (x :: m) = (if Rlt_dec 0 x then x else 0) + pos_sum m.
Proof. intros x m. unfold pos_sum. cbn [filter]. destruct (Rlt_dec 0 x); cbn [fold_right]; lra. Qed.
Lemma pos_sum_app : forall a b, pos_sum (a ++ b) = pos_sum a + pos_sum b.
Proof. induction a as [|x a IH]; intros b; [cbn; unfold pos_sum; cbn; lra|]. cbn [app]. rewrite !pos_sum_cons, IH. lra. Qed.
Lemma pos_sum_nonneg : forall m, 0 <= pos_sum m.
Proof. induction m as [|x m IH]; [unfold pos_sum; cbn; lra|]. rewrite pos_sum_cons. destruct (Rlt_dec 0 x); lra. Qed.
Lemma all_sum_nonneg : forall ms, 0 <= all_sum ms.
Proof. induction ms as [|m ms IH]; [unfold all_sum; cbn; lra|]. unfold all_sum in *. cbn [map fold_right]. pose proof (pos_sum_nonneg m). lra. Qed.
Lemma all_sum_perm : forall a b, Permutation a b -> all_sum a = all_sum b.
Proof. intros a b P. induction P; unfold all_sum in *; cbn [map fold_right]; lra. Qed.
Lemma all_sum_pos : forall ms, (exists m x, In m ms /\ In x m /\ 0 < x) -> 0 < all_sum ms.
Proof.
  intros ms (m & x & Im & Ix & X). assert (P : 0 < pos_sum m).
  { clear Im. induction m as [|y m IH]; [destruct Ix|]. rewrite pos_sum_cons. pose proof (pos_sum_nonneg m). destruct Ix as [->|Ix]; [destruct (Rlt_dec 0 x); lra|]. specialize (IH Ix). destruct (Rlt_dec 0 y); lra. }
  induction ms as [|k ms IH]; [destruct Im|]. unfold all_sum in *. cbn [map fold_right]. pose proof (all_sum_nonneg ms) as N. unfold all_sum in N. pose proof (pos_sum_nonneg k).
  destruct Im as [->|Im]; [lra|]. specialize (IH Im). lra.
Qed.
Definition alike (npix : nat) (ms : list (list R)) : Prop := forall m, In m ms -> length m = npix.
Lemma last_alike : forall npix m ms, alike npix (m :: ms) -> length (last ms m) = npix.
Proof.
  intros npix m ms. revert m. induction ms as [|k ms IH]; intros m H; [apply H; now left|]. cbn [last]. destruct ms as [|j ms]; [apply H; right; now left|].
  specialize (IH m). cbn [last] in IH |- *. apply IH. intros x [->|I]; apply H; [now left|right; now right].
Qed.
Lemma pixarea_pos : forall n, (0 < n)%nat -> 0 < pixarea n.
Proof.
  intros n H. unfold pixarea. pose proof PI_RGT_0. assert (0 < INR n) by (apply lt_0_INR; exact H).
  apply Rmult_lt_0_compat; [apply Rdiv_lt_0_compat; nra|]. assert (0 < 180 / PI) by (apply Rdiv_lt_0_compat; lra). nra.
Qed.
(** All pixels together are the sky, in square degrees. *)
Theorem C150_sky : forall n, (0 < n)%nat -> INR (12 * (n * n)) * pixarea n = 4 * PI * ((180 / PI) * (180 / PI)).
Proof.
  intros n H. unfold pixarea. assert (0 < INR n) by (apply lt_0_INR; exact H). rewrite !mult_INR. pose proof PI_RGT_0. replace (INR 12) with 12 by (cbn; lra). field. split; lra.
Qed.
Print Assumptions C150_sky.

(** The goals of all pixels in all maps, a negative one as none. *)
Definition goals (ms : list (list R)) : R := fold_right Rplus 0 (map (Rmax 0) (concat ms)).
Lemma goals_sum : forall ms, goals ms = all_sum ms.
Proof.
  assert (P : forall m, fold_right Rplus 0 (map (Rmax 0) m) = pos_sum m).
  { induction m as [|x m IH]; [reflexivity|]. cbn [map fold_right]. rewrite pos_sum_cons, IH. unfold Rmax. destruct (Rle_dec 0 x), (Rlt_dec 0 x); lra. }
  assert (A : forall a b, fold_right Rplus 0 (map (Rmax 0) (a ++ b)) = fold_right Rplus 0 (map (Rmax 0) a) + fold_right Rplus 0 (map (Rmax 0) b)).
  { induction a as [|x a IH]; intros b; cbn [app map fold_right]; [lra|]. rewrite IH. lra. }
  induction ms as [|m ms IH]; [reflexivity|]. unfold goals, all_sum in *. cbn [concat map fold_right]. rewrite A, IH, P. reflexivity.
Qed.

(** For maps of one size with something to observe: times the sum of the positive goals and the area of a pixel, it is the area of the field of view. *)
Theorem C150_norm : forall n ms radius, (0 < n)%nat -> ms <> [] -> alike (12 * (n * n)) ms -> (exists m x, In m ms /\ In x m /\ 0 < x) ->
  exists v, calc_norm_factor ms radius = Ok (Some v) /\ v * goals ms * pixarea n = PI * (radius * radius).
Proof.
  intros n [|m ms] radius Hn Ne Al Ex; [contradiction|]. rewrite goals_sum. unfold calc_norm_factor. rewrite (last_alike _ _ _ Al), (nside_of n Hn). cbn [bind].
  pose proof (all_sum_pos _ Ex) as P. destruct (Req_EM_T (all_sum (m :: ms)) 0) as [E|E]; [lra|]. eexists. split; [reflexivity|].
  pose proof (pixarea_pos n Hn). field. split; lra.
Qed.
Print Assumptions C150_norm.
(** The order of the maps makes no difference, nor do pixels that are not positive; goals k times as large give a factor k times as small. *)
Theorem C150_order : forall npix a b radius, alike npix a -> Permutation a b -> calc_norm_factor a radius = calc_norm_factor b radius.
Proof.
  intros npix [|x a] [|y b] radius Al P; [reflexivity|apply Permutation_nil_cons in P; destruct P|symmetry in P; apply Permutation_nil_cons in P; destruct P|].
  assert (Al' : alike npix (y :: b)) by (intros m I; apply Al; apply (Permutation_in _ (Permutation_sym P)); exact I).
  unfold calc_norm_factor. rewrite (last_alike _ _ _ Al), (last_alike _ _ _ Al'), (all_sum_perm _ _ P). reflexivity.
Qed.
Print Assumptions C150_order.
Lemma pos_sum_map : forall (f : R -> R) k m, (forall x, In x m -> (if Rlt_dec 0 (f x) then f x else 0) = k * (if Rlt_dec 0 x then x else 0)) -> pos_sum (map f m) = k * pos_sum m.
Proof.
  intros f k. induction m as [|x m IH]; intros H; [unfold pos_sum; cbn; lra|]. cbn [map]. rewrite !pos_sum_cons, IH by (intros y I; apply H; now right). rewrite (H x (or_introl eq_refl)). lra.
Qed.
Lemma all_sum_map : forall (f : list R -> list R) k ms, (forall m, In m ms -> pos_sum (f m) = k * pos_sum m) -> all_sum (map f ms) = k * all_sum ms.
Proof.
  intros f k. induction ms as [|m ms IH]; intros H; [unfold all_sum; cbn; lra|]. unfold all_sum in *. cbn [map fold_right]. rewrite IH by (intros y I; apply H; now right). rewrite (H m (or_introl eq_refl)). lra.
Qed.
Lemma last_map : forall (f : list R -> list R) ms m, last (map f ms) (f m) = f (last ms m).
Proof. intros f. induction ms as [|k ms IH]; intros m; [reflexivity|]. cbn [map last]. destruct ms as [|j ms]; [reflexivity|]. cbn [map] in *. apply IH. Qed.
Theorem C150_scale : forall n ms radius k v, (0 < n)%nat -> 0 < k -> alike (12 * (n * n)) ms -> calc_norm_factor ms radius = Ok (Some v) ->
  calc_norm_factor (map (map (Rmult k)) ms) radius = Ok (Some (v / k)).
Proof.
  intros n [|m ms] radius k v Hn Hk Al H; [discriminate|]. unfold calc_norm_factor in *. cbn [map]. rewrite last_map, map_length.
  change (map (Rmult k) m :: map (map (Rmult k)) ms) with (map (map (Rmult k)) (m :: ms)).
  rewrite (last_alike _ _ _ Al), (nside_of n Hn) in *. cbn [bind] in *. rewrite (all_sum_map (map (Rmult k)) k).
  2:{ intros x _. apply pos_sum_map. intros y _. destruct (Rlt_dec 0 y) as [Y|Y], (Rlt_dec 0 (k * y)) as [Z|Z]; try lra; nra. }
  destruct (Req_EM_T (all_sum (m :: ms)) 0) as [E|E]; [discriminate|]. pose proof (pixarea_pos n Hn). assert (k * all_sum (m :: ms) <> 0) by nra.
  destruct (Req_EM_T (k * all_sum (m :: ms)) 0) as [E'|E']; [contradiction|]. injection H as <-. f_equal. f_equal. field. repeat split; lra.
Qed.
Print Assumptions C150_scale.
Theorem C150_floor : forall ms radius, calc_norm_factor (map (map (Rmax 0)) ms) radius = calc_norm_factor ms radius.
Proof.
  intros [|m ms] radius; [reflexivity|]. unfold calc_norm_factor. cbn [map]. rewrite last_map, map_length.
  change (map (Rmax 0) m :: map (map (Rmax 0)) ms) with (map (map (Rmax 0)) (m :: ms)). rewrite (all_sum_map (map (Rmax 0)) 1).
  - rewrite Rmult_1_l. reflexivity.
  - intros x _. apply pos_sum_map. intros y _. unfold Rmax. destruct (Rle_dec 0 y), (Rlt_dec 0 y); try lra; destruct (Rlt_dec 0 _); lra.
Qed.
Print Assumptions C150_floor.
(** It does not depend on the resolution: every pixel split into four of its value gives the same factor. *)
Definition split4 (m : list R) : list R := flat_map (fun x => [x; x; x; x]) m.
Theorem C150_resolution : forall n ms radius, (0 < n)%nat -> alike (12 * (n * n)) ms -> calc_norm_factor (map split4 ms) radius = calc_norm_factor ms radius.
Proof.
  intros n [|m ms] radius Hn Al; [reflexivity|]. unfold calc_norm_factor. cbn [map]. rewrite last_map.
  change (split4 m :: map split4 ms) with (map split4 (m :: ms)). rewrite (all_sum_map split4 4).
  2:{ intros x _. induction x as [|y x IH]; [unfold pos_sum; cbn; lra|]. cbn [split4 flat_map app] in *. rewrite !pos_sum_cons. unfold split4 in IH. rewrite IH. destruct (Rlt_dec 0 y); lra. }
  assert (L : forall x, length (split4 x) = (4 * length x)%nat) by (induction x as [|y x IH]; [reflexivity|]; cbn [split4 flat_map app length] in *; unfold split4 in IH; lia).
  rewrite L, (last_alike _ _ _ Al), (nside_of n Hn). replace (4 * (12 * (n * n)))%nat with (12 * ((2 * n) * (2 * n)))%nat by lia. rewrite nside_of by lia. cbn [bind].
  assert (A : pixarea (2 * n) = pixarea n / 4). { unfold pixarea. assert (0 < INR n) by (apply lt_0_INR; exact Hn). rewrite mult_INR. replace (INR 2) with 2 by (cbn; lra). pose proof PI_RGT_0. field. split; lra. }
  pose proof (pixarea_pos n Hn). rewrite A. destruct (Req_EM_T (all_sum (m :: ms)) 0) as [E|E], (Req_EM_T (4 * all_sum (m :: ms)) 0) as [E'|E']; try reflexivity; try (exfalso; lra).
  f_equal. f_equal. field. repeat split; lra.
Qed.
Print Assumptions C150_resolution.
(** With no maps, or maps that are no full sky, it is refused. *)
Theorem C150_refused : forall radius, calc_norm_factor [] radius = Raise UnboundLocalError /\
  (forall npix m ms, alike npix (m :: ms) -> (forall n, (0 < n)%nat -> npix <> (12 * (n * n))%nat) -> calc_norm_factor (m :: ms) radius = Raise ValueError).
Proof.
  intros radius. split; [reflexivity|]. intros npix m ms Al H. unfold calc_norm_factor. rewrite (last_alike _ _ _ Al). unfold npix2nside. rewrite nside_below_none by exact H. reflexivity.
Qed.
Print Assumptions C150_refused.
(** Refuted: maps of other sizes together are refused or brought to one resolution.  The last one counts for all, so the order matters. *)
Theorem C150_mixed_refuted : forall radius, radius <> 0 -> calc_norm_factor [repeat 1 12; repeat 1 48] radius <> calc_norm_factor [repeat 1 48; repeat 1 12] radius /\
  exists v w, calc_norm_factor [repeat 1 12; repeat 1 48] radius = Ok (Some v) /\ calc_norm_factor [repeat 1 48; repeat 1 12] radius = Ok (Some w).
Proof.
  intros radius Hr. unfold calc_norm_factor. cbn [last]. rewrite !repeat_length. change 12%nat with (12 * (1 * 1))%nat at 1 6.
  assert (N1 : npix2nside 12 = Ok 1%nat) by exact (nside_of 1 ltac:(lia)). assert (N2 : npix2nside 48 = Ok 2%nat) by exact (nside_of 2 ltac:(lia)).
  cbn [Nat.mul Nat.add]. rewrite N1, N2. cbn [bind].
  assert (S1 : 0 < all_sum [repeat 1 12; repeat 1 48]) by (apply all_sum_pos; exists (repeat 1 12), 1; repeat split; [now left|now left|lra]).
  assert (S2 : all_sum [repeat 1 48; repeat 1 12] = all_sum [repeat 1 12; repeat 1 48]) by (apply all_sum_perm, perm_swap). rewrite S2.
  set (t := all_sum [repeat 1 12; repeat 1 48]) in *. destruct (Req_EM_T t 0) as [E|E]; [lra|].
  pose proof (pixarea_pos 1 ltac:(lia)) as P1. pose proof (pixarea_pos 2 ltac:(lia)) as P2.
  assert (A : pixarea 2 = pixarea 1 / 4). { unfold pixarea. replace (INR 2) with 2 by (cbn; lra). replace (INR 1) with 1 by (cbn; lra). pose proof PI_RGT_0. field. lra. }
  split; [|eexists; eexists; split; reflexivity]. intros Eq. injection Eq as Eq. rewrite A in Eq.
  assert (B : radius * radius * PI / (pixarea 1 / 4) / t = 4 * (radius * radius * PI / pixarea 1 / t)) by (field; repeat split; lra). rewrite B in Eq.
  assert (C : 0 < radius * radius * PI / pixarea 1 / t). { pose proof PI_RGT_0. assert (0 < radius * radius) by nra. apply Rdiv_lt_0_compat; [apply Rdiv_lt_0_compat; [nra|lra]|lra]. }
  lra.
Qed.
Print Assumptions C150_mixed_refuted.

(** A map of twelve pixels, one of them to be observed twice as often as two others. *)
Definition ex_map : list R := [2; 1; 1; 0; 0; 0; 0; 0; 0; 0; 0; -1].
Example C150_ex : alike (12 * (1 * 1)) [ex_map] /\ goals [ex_map] = 4 /\ exists m x, In m [ex_map] /\ In x m /\ 0 < x.
Proof.
  split; [intros m [<-|[]]; reflexivity|]. split.
  - rewrite goals_sum. unfold all_sum, ex_map. cbn [map fold_right]. rewrite !pos_sum_cons. unfold pos_sum. cbn [filter fold_right].
    repeat (destruct (Rlt_dec 0 _); try lra).
  - exists ex_map, 2. repeat split; [now left|now left|lra].
Qed.
(** Two maps: the factor, its value for goals four times as large, and a size that is no map. *)
Example C150_ex_two : alike (12 * (1 * 1)) [ex_map; ex_map] /\
  (exists v, calc_norm_factor [ex_map; ex_map] 2 = Ok (Some v) /\ v * 8 * pixarea 1 = PI * 4) /\
  calc_norm_factor [[1; 2]] 2 = Raise ValueError.
Proof.
  assert (A : alike (12 * (1 * 1)) [ex_map; ex_map]) by (intros m [<-|[<-|[]]]; reflexivity). split; [exact A|]. split; [|reflexivity].
  destruct (C150_norm 1 [ex_map; ex_map] 2 ltac:(lia) ltac:(discriminate) A) as (v & E & V).
  - exists ex_map, 2. repeat split; [now left|now left|lra].
  - exists v. split; [exact E|]. rewrite <- (Rmult_1_r 4). replace (PI * (4 * 1)) with (PI * (2 * 2)) by ring. rewrite <- V. f_equal. f_equal.
    rewrite goals_sum. unfold all_sum, ex_map. cbn [map fold_right]. rewrite !pos_sum_cons. unfold pos_sum. cbn [filter fold_right].
    repeat (destruct (Rlt_dec 0 _); try lra).
Qed.
