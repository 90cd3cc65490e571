(** Proofs about the triangular mesh. *)
From Coq Require Import List Bool ZArith Reals Lra Lia Psatz.
From Verif Require Import Base Sphere Sphere_proofs Htm.
Import ListNotations.
Open Scope R_scope.

Lemma geb0_true : forall x, geb0 x = true <-> 0 <= x.
Proof. intros. unfold geb0. destruct (Rle_dec 0 x); split; intros; try assumption; try reflexivity; [discriminate|contradiction]. Qed.
Definition det (a b c : vec) : R := dot (cross a b) c.
Ltac dd := unfold det, dot, cross, vplus, vtimes; cbn [vx vy vz].
Lemma contains_spec : forall t p, contains_pt t p = true <->
  0 <= det (tc0 t) (tc1 t) p /\ 0 <= det (tc1 t) (tc2 t) p /\ 0 <= det (tc2 t) (tc0 t) p.
Proof. intros. unfold contains_pt, det. rewrite !andb_true_iff, !geb0_true. tauto. Qed.
Definition good (t : trixel) : Prop := unit (tc0 t) /\ unit (tc1 t) /\ unit (tc2 t) /\ 0 < det (tc0 t) (tc1 t) (tc2 t).

(** ** Children *)
Lemma det_rot : forall a b c, det a b c = det b c a.
Proof. intros. dd. ring. Qed.
Lemma sum_pos : forall a b c, det a b c <> 0 -> 0 < dot (vplus a b) (vplus a b).
Proof.
  intros a b c H. destruct (dot_self (vplus a b)) as [L|E]; [exact L|]. exfalso. apply H. symmetry in E. revert E. dd. intros E.
  destruct (sumsq0 _ _ _ E) as (X & Y & Z).
  replace (vx b) with (- vx a) by lra. replace (vy b) with (- vy a) by lra. replace (vz b) with (- vz a) by lra. ring.
Qed.
Lemma inv_norm : forall v, 0 < dot v v -> 0 < / sqrt (dot v v).
Proof. intros. now apply Rinv_0_lt_compat, sqrt_lt_R0. Qed.
Lemma vnorm_unit : forall v, 0 < dot v v -> unit (vnorm v).
Proof.
  intros v H. unfold unit, vnorm. replace (dot (vtimes (/ sqrt (dot v v)) v) (vtimes (/ sqrt (dot v v)) v)) with (/ sqrt (dot v v) * / sqrt (dot v v) * dot v v) by (dd; ring).
  pose proof (sqrt_sqrt (dot v v) ltac:(lra)) as Q. pose proof (sqrt_lt_R0 _ H). set (s := sqrt (dot v v)) in *. rewrite <- Q. field. lra.
Qed.
Section Children.
Variable t : trixel.
Let a := tc0 t. Let b := tc1 t. Let c := tc2 t.
Hypothesis G : good t.
Let D : 0 < det a b c. Proof. apply G. Qed.
Let k0 := / sqrt (dot (vplus b c) (vplus b c)).
Let k1 := / sqrt (dot (vplus a c) (vplus a c)).
Let k2 := / sqrt (dot (vplus a b) (vplus a b)).
Lemma k0_pos : 0 < k0.
Proof. apply inv_norm. apply (sum_pos b c a). rewrite <- det_rot. lra. Qed.
Lemma k1_pos : 0 < k1.
Proof. apply inv_norm. apply (sum_pos a c b). replace (det a c b) with (- det a b c) by (dd; ring). lra. Qed.
Lemma k2_pos : 0 < k2.
Proof. apply inv_norm. apply (sum_pos a b c). lra. Qed.
Lemma w_unit : unit (w0 t) /\ unit (w1 t) /\ unit (w2 t).
Proof.
  split; [|split]; apply vnorm_unit.
  - apply (sum_pos b c a). rewrite <- det_rot. lra.
  - apply (sum_pos a c b). replace (det a c b) with (- det a b c) by (dd; ring). lra.
  - apply (sum_pos a b c). lra.
Qed.
Lemma good_children : forall u, In u (get_children t) -> good u.
Proof.
  destruct w_unit as (U0 & U1 & U2). destruct G as (A & B & C & _). pose proof k0_pos as K0. pose proof k1_pos as K1. pose proof k2_pos as K2.
  assert (K12 := Rmult_lt_0_compat _ _ K1 K2). assert (K02 := Rmult_lt_0_compat _ _ K0 K2). assert (K01 := Rmult_lt_0_compat _ _ K0 K1).
  intros u [<-|[<-|[<-|[<-|[]]]]]; (split; [|split; [|split]]); cbn [tc0 tc1 tc2 t0 t1 t2 t3]; try assumption.
  - replace (det (tc0 t) (w2 t) (w1 t)) with (k1 * k2 * det a b c); [now apply Rmult_lt_0_compat|].
    unfold w1, w2, vnorm. fold a b c k1 k2. dd. ring.
  - replace (det (tc1 t) (w0 t) (w2 t)) with (k0 * k2 * det a b c); [now apply Rmult_lt_0_compat|].
    unfold w0, w2, vnorm. fold a b c k0 k2. dd. ring.
  - replace (det (tc2 t) (w1 t) (w0 t)) with (k0 * k1 * det a b c); [now apply Rmult_lt_0_compat|].
    unfold w0, w1, vnorm. fold a b c k0 k1. dd. ring.
  - replace (det (w0 t) (w1 t) (w2 t)) with (2 * (k0 * k1 * k2 * det a b c)).
    + apply Rmult_lt_0_compat; [lra|]. apply Rmult_lt_0_compat; [|exact D]. now apply Rmult_lt_0_compat.
    + unfold w0, w1, w2, vnorm. fold a b c k0 k1 k2. dd. ring.
Qed.
Variable p : vec.
Let x := det b c p. Let y := det c a p. Let z := det a b p.
Lemma in_t : contains_pt t p = true <-> 0 <= x /\ 0 <= y /\ 0 <= z.
Proof. rewrite contains_spec. fold a b c. fold x y z. tauto. Qed.
Lemma mul_ge0 : forall k v, 0 < k -> (0 <= k * v <-> 0 <= v).
Proof. intros k v H. split; intros; [|nra]. apply (Rmult_le_reg_l k); lra. Qed.
Lemma mul_eq0 : forall k v, 0 < k -> (k * v = 0 <-> v = 0).
Proof. intros k v H. split; intros E; [|rewrite E; ring]. apply Rmult_integral in E as [E|E]; lra. Qed.
Lemma dets_t0 : det (tc0 (t0 t)) (tc1 (t0 t)) p = k2 * z /\ det (tc1 (t0 t)) (tc2 (t0 t)) p = k1 * k2 * (x - y - z) /\ det (tc2 (t0 t)) (tc0 (t0 t)) p = k1 * y.
Proof. cbn [tc0 tc1 tc2 t0]. unfold w1, w2, vnorm, x, y, z. fold a b c k1 k2. repeat split; dd; ring. Qed.
Lemma dets_t1 : det (tc0 (t1 t)) (tc1 (t1 t)) p = k0 * x /\ det (tc1 (t1 t)) (tc2 (t1 t)) p = k0 * k2 * (y - x - z) /\ det (tc2 (t1 t)) (tc0 (t1 t)) p = k2 * z.
Proof. cbn [tc0 tc1 tc2 t1]. unfold w0, w2, vnorm, x, y, z. fold a b c k0 k2. repeat split; dd; ring. Qed.
Lemma dets_t2 : det (tc0 (t2 t)) (tc1 (t2 t)) p = k1 * y /\ det (tc1 (t2 t)) (tc2 (t2 t)) p = k0 * k1 * (z - x - y) /\ det (tc2 (t2 t)) (tc0 (t2 t)) p = k0 * x.
Proof. cbn [tc0 tc1 tc2 t2]. unfold w0, w1, vnorm, x, y, z. fold a b c k0 k1. repeat split; dd; ring. Qed.
Lemma dets_t3 : det (tc0 (t3 t)) (tc1 (t3 t)) p = k0 * k1 * (x + y - z) /\ det (tc1 (t3 t)) (tc2 (t3 t)) p = k1 * k2 * (y + z - x) /\ det (tc2 (t3 t)) (tc0 (t3 t)) p = k0 * k2 * (x + z - y).
Proof. cbn [tc0 tc1 tc2 t3]. unfold w0, w1, w2, vnorm, x, y, z. fold a b c k0 k1 k2. repeat split; dd; ring. Qed.
Ltac kk := repeat first [apply Rmult_lt_0_compat|apply k0_pos|apply k1_pos|apply k2_pos].
Lemma in_t0 : contains_pt (t0 t) p = true <-> 0 <= y /\ 0 <= z /\ y + z <= x.
Proof. rewrite contains_spec. destruct dets_t0 as (-> & -> & ->). rewrite !mul_ge0 by kk. lra. Qed.
Lemma in_t1 : contains_pt (t1 t) p = true <-> 0 <= x /\ 0 <= z /\ x + z <= y.
Proof. rewrite contains_spec. destruct dets_t1 as (-> & -> & ->). rewrite !mul_ge0 by kk. lra. Qed.
Lemma in_t2 : contains_pt (t2 t) p = true <-> 0 <= x /\ 0 <= y /\ x + y <= z.
Proof. rewrite contains_spec. destruct dets_t2 as (-> & -> & ->). rewrite !mul_ge0 by kk. lra. Qed.
Lemma in_t3 : contains_pt (t3 t) p = true <-> z <= x + y /\ x <= y + z /\ y <= x + z.
Proof. rewrite contains_spec. destruct dets_t3 as (-> & -> & ->). rewrite !mul_ge0 by kk. lra. Qed.
(** The children fill the trixel and nothing else. *)
Lemma children_cover : contains_pt t p = true <-> exists u, In u (get_children t) /\ contains_pt u p = true.
Proof.
  split.
  - rewrite in_t. intros H. unfold get_children.
    destruct (Rle_dec (y + z) x); [exists (t0 t); split; [now left|apply in_t0; lra]|].
    destruct (Rle_dec (x + z) y); [exists (t1 t); split; [right; now left|apply in_t1; lra]|].
    destruct (Rle_dec (x + y) z); [exists (t2 t); split; [right; right; now left|apply in_t2; lra]|].
    exists (t3 t). split; [right; right; right; now left|apply in_t3; lra].
  - intros (u & [<-|[<-|[<-|[<-|[]]]]] & H); rewrite in_t; [apply in_t0 in H|apply in_t1 in H|apply in_t2 in H|apply in_t3 in H]; lra.
Qed.
(** On an edge: one of the three is zero. *)
Definition on_edge (t : trixel) (p : vec) : Prop :=
  det (tc0 t) (tc1 t) p = 0 \/ det (tc1 t) (tc2 t) p = 0 \/ det (tc2 t) (tc0 t) p = 0.
Lemma edge_t0 : on_edge (t0 t) p <-> z = 0 \/ x - y - z = 0 \/ y = 0.
Proof. unfold on_edge. destruct dets_t0 as (-> & -> & ->). rewrite !mul_eq0 by kk. reflexivity. Qed.
Lemma edge_t1 : on_edge (t1 t) p <-> x = 0 \/ y - x - z = 0 \/ z = 0.
Proof. unfold on_edge. destruct dets_t1 as (-> & -> & ->). rewrite !mul_eq0 by kk. reflexivity. Qed.
Lemma edge_t2 : on_edge (t2 t) p <-> y = 0 \/ z - x - y = 0 \/ x = 0.
Proof. unfold on_edge. destruct dets_t2 as (-> & -> & ->). rewrite !mul_eq0 by kk. reflexivity. Qed.
Lemma edge_t3 : on_edge (t3 t) p <-> x + y - z = 0 \/ y + z - x = 0 \/ x + z - y = 0.
Proof. unfold on_edge. destruct dets_t3 as (-> & -> & ->). rewrite !mul_eq0 by kk. reflexivity. Qed.
(** Children of different places meet only on edges; an edge of the trixel is made of edges of
    the children. *)
Ltac use_in H := first [apply in_t0 in H|apply in_t1 in H|apply in_t2 in H|apply in_t3 in H].
Ltac cases_lra := first [lra|left; lra|right; left; lra|right; right; lra].
Lemma children_apart : forall u v, In u (get_children t) -> In v (get_children t) -> tid u <> tid v ->
  contains_pt u p = true -> contains_pt v p = true -> on_edge u p.
Proof.
  intros u v [<-|[<-|[<-|[<-|[]]]]] [<-|[<-|[<-|[<-|[]]]]] N U V; try (exfalso; apply N; reflexivity); clear N;
  use_in U; use_in V; rewrite ?edge_t0, ?edge_t1, ?edge_t2, ?edge_t3; cases_lra.
Qed.
Lemma children_edge : forall u, In u (get_children t) -> contains_pt u p = true -> on_edge t p -> on_edge u p.
Proof.
  intros u [<-|[<-|[<-|[<-|[]]]]] U E; unfold on_edge in E; fold a b c in E; fold x y z in E;
  use_in U; rewrite ?edge_t0, ?edge_t1, ?edge_t2, ?edge_t3; destruct E as [E|[E|E]]; cases_lra.
Qed.
End Children.

(** ** Ids *)
Open Scope Z_scope.
Definition valid (l h : Z) : Prop := 1 <= l /\ 8 * 4 ^ (l - 1) <= h < 16 * 4 ^ (l - 1).
Lemma shiftr2 : forall h k, 0 <= k -> Z.shiftr h (2 * k) = h / 4 ^ k.
Proof. intros h k H. rewrite Z.shiftr_div_pow2 by lia. now rewrite Z.pow_mul_r by lia. Qed.
Lemma shiftl2 : forall h k, 0 <= k -> Z.shiftl h (2 * k) = h * 4 ^ k.
Proof. intros h k H. rewrite Z.shiftl_mul_pow2 by lia. now rewrite Z.pow_mul_r by lia. Qed.
Lemma pow4_pos : forall k, 0 <= k -> 0 < 4 ^ k.
Proof. intros. apply Z.pow_pos_nonneg; lia. Qed.
Lemma pow4_S : forall k, 0 <= k -> 4 ^ (k + 1) = 4 * 4 ^ k.
Proof. intros. rewrite Z.pow_add_r by lia. lia. Qed.
Lemma level_loop_spec : forall fuel h i, Z.log2 h <= Z.of_nat fuel -> exists c j,
  level_loop fuel h i = Ok (c, i + j) /\ 0 <= j /\ c = h / 4 ^ j /\ c <= 15 /\ (j = 0 \/ 4 <= c).
Proof.
  induction fuel as [|f IH]; intros h i F; cbn [level_loop]; destruct (h >? 15) eqn:E.
  - exfalso. assert (4 <= Z.log2 h) by (change 4 with (Z.log2 16); apply Z.log2_le_mono; lia). lia.
  - exists h, 0. rewrite Z.add_0_r, Z.pow_0_r, Z.div_1_r. split; [reflexivity|]. split; [lia|]. split; [reflexivity|]. split; [lia|now left].
  - assert (4 <= Z.log2 h) by (change 4 with (Z.log2 16); apply Z.log2_le_mono; lia).
    destruct (IH (Z.shiftr h 2) (i + 1)) as (c & j & L & J & C & B & A).
    { rewrite Z.log2_shiftr by lia. lia. }
    change 2 with (2 * 1) in C. rewrite shiftr2, Z.pow_1_r in C by lia. exists c, (j + 1).
    split; [rewrite L; do 2 f_equal; lia|]. split; [lia|]. split.
    { rewrite C, pow4_S, Z.div_div by (try apply pow4_pos; lia). reflexivity. }
    split; [exact B|]. right. destruct A as [->|A]; [|exact A]. rewrite C, Z.pow_0_r, Z.div_1_r.
    apply Z.div_le_lower_bound; lia.
  - exists h, 0. rewrite Z.add_0_r, Z.pow_0_r, Z.div_1_r. split; [reflexivity|]. split; [lia|]. split; [reflexivity|]. split; [lia|now left].
Qed.
Lemma level_spec : forall h, (exists l, level_from_htmid h = Ok l /\ valid l h) \/ (level_from_htmid h = Raise RuntimeError /\ forall l, ~ valid l h).
Proof.
  intros h. unfold level_from_htmid.
  destruct (level_loop_spec (Z.to_nat (Z.log2 h)) h 1) as (c & j & -> & J & C & B & A); [pose proof (Z.log2_nonneg h); lia|]. cbn [bind].
  pose proof (pow4_pos j J) as P. destruct (c <? 8) eqn:E.
  - right. split; [reflexivity|]. intros l (L & V). apply Z.ltb_lt in E.
    destruct (Z.lt_trichotomy j (l - 1)) as [H|[H|H]].
    + assert (4 ^ (j + 1) <= 4 ^ (l - 1)) by (apply Z.pow_le_mono_r; lia). rewrite pow4_S in H0 by lia.
      assert (32 <= h / 4 ^ j) by (apply Z.div_le_lower_bound; nia). lia.
    + subst j. assert (8 <= h / 4 ^ (l - 1)) by (apply Z.div_le_lower_bound; nia). lia.
    + assert (4 ^ (l - 1 + 1) <= 4 ^ j) by (apply Z.pow_le_mono_r; lia). rewrite pow4_S in H0 by lia.
      assert (h / 4 ^ j < 4) by (apply Z.div_lt_upper_bound; nia). lia.
  - left. exists (1 + j). split; [reflexivity|]. apply Z.ltb_ge in E. split; [lia|]. replace (1 + j - 1) with j by lia.
    pose proof (Z.mul_div_le h (4 ^ j) P). pose proof (Z.mul_succ_div_gt h (4 ^ j) P). nia.
Qed.
Lemma valid_unique : forall l l' h, valid l h -> valid l' h -> l = l'.
Proof.
  assert (W : forall l l' h, valid l h -> valid l' h -> l < l' -> False).
  { intros l l' h (A & B) (A' & B') L. assert (4 ^ (l - 1 + 1) <= 4 ^ (l' - 1)) by (apply Z.pow_le_mono_r; lia).
    rewrite pow4_S in H by lia. lia. }
  intros l l' h A B. destruct (Z.lt_trichotomy l l') as [H|[H|H]]; [exfalso; eauto|exact H|exfalso; eauto].
Qed.
Lemma level_ok : forall l h, valid l h -> level_from_htmid h = Ok l.
Proof. intros l h V. destruct (level_spec h) as [(l' & E & V')|(_ & N)]; [|exfalso; now apply (N l)]. now rewrite (valid_unique l l' h). Qed.
Lemma valid_log2 : forall l h, valid l h -> Z.log2 h = 2 * l + 1.
Proof.
  intros l h (L & V). apply Z.log2_unique; [lia|]. rewrite !Z.pow_succ_r, Z.pow_add_r by lia. rewrite Z.pow_mul_r by lia.
  change (2 ^ 2) with 4. replace (4 ^ l) with (4 * 4 ^ (l - 1)); [lia|]. rewrite <- pow4_S by lia. f_equal. lia.
Qed.

(** The trixels of the mesh. *)
Inductive node : Z -> Z -> trixel -> Prop :=
| node_base : forall t, In t base_trixels -> node 1 (tid t) t
| node_child : forall l h t u, node l h t -> In u (get_children t) -> node (l + 1) (tid u) u.
Lemma child_tid : forall t u, In u (get_children t) -> exists k, 0 <= k < 4 /\ tid u = 4 * tid t + k.
Proof.
  intros t u [<-|[<-|[<-|[<-|[]]]]]; cbn [tid t0 t1 t2 t3]; change (Z.shiftl (tid t) 2) with (Z.shiftl (tid t) (2 * 1));
  rewrite shiftl2, Z.pow_1_r by lia; [exists 0|exists 1|exists 2|exists 3]; lia.
Qed.
Lemma node_tid : forall l h t, node l h t -> tid t = h.
Proof. intros l h t []; reflexivity. Qed.
Lemma node_valid : forall l h t, node l h t -> valid l h.
Proof.
  intros l h t N. induction N as [t I|l h t u N IH I].
  - split; [lia|]. cbn in I. repeat (destruct I as [<-|I]; [cbn; lia|]). destruct I.
  - destruct (child_tid _ _ I) as (k & K & ->). rewrite (node_tid _ _ _ N). destruct IH as (L & V). split; [lia|].
    replace (l + 1 - 1) with (l - 1 + 1) by lia. rewrite pow4_S by lia. lia.
Qed.
Lemma node_good : forall l h t, node l h t -> good t.
Proof.
  intros l h t N. induction N as [t I|l h t u N IH I]; [|now apply (good_children t IH)].
  cbn in I. repeat (destruct I as [<-|I]; [unfold good, unit; cbn [tc0 tc1 tc2 s0_trixel s1_trixel s2_trixel s3_trixel n0_trixel n1_trixel n2_trixel n3_trixel]; unfold det, dot, cross; cbn [vx vy vz]; lra|]). destruct I.
Qed.
Lemma child_tid_inj : forall t u v, In u (get_children t) -> In v (get_children t) -> tid u = tid v -> u = v.
Proof.
  intros t u v [<-|[<-|[<-|[<-|[]]]]] [<-|[<-|[<-|[<-|[]]]]] E; try reflexivity; cbn [tid t0 t1 t2 t3] in E; lia.
Qed.
Lemma node_inv : forall l h t, node l h t -> (l = 1 /\ In t base_trixels) \/
  (1 < l /\ exists t', node (l - 1) (h / 4) t' /\ In t (get_children t')).
Proof.
  intros l h t N. destruct N as [t I|l h t u N I]; [now left|]. right. pose proof (node_valid _ _ _ N) as (L & _).
  split; [lia|]. exists t. replace (l + 1 - 1) with l by lia.
  destruct (child_tid _ _ I) as (k & K & ->). rewrite (node_tid _ _ _ N).
  replace ((4 * h + k) / 4) with h by (rewrite Z.mul_comm, Z.div_add_l by lia; rewrite Z.div_small; lia). split; assumption.
Qed.
Lemma base_inj : forall t u, In t base_trixels -> In u base_trixels -> tid t = tid u -> t = u.
Proof.
  intros t u I J E. cbn in I, J.
  repeat (destruct I as [<-|I]; [repeat (destruct J as [<-|J]; [first [reflexivity|discriminate E]|]); destruct J|]). destruct I.
Qed.
Lemma node_fun : forall l h t, node l h t -> forall l' t', node l' h t' -> l' = l /\ t' = t.
Proof.
  intros l h t N. induction N as [t I|l h t u N IH I]; intros l' t' N'.
  - assert (E : l' = 1) by (apply (valid_unique l' 1 (tid t)); [now apply (node_valid _ _ t')|apply (node_valid _ _ t); now constructor]).
    split; [exact E|]. destruct (node_inv _ _ _ N') as [(_ & I')|(L & _)]; [|lia]. apply base_inj; try assumption. now apply node_tid in N'.
  - pose proof (node_valid _ _ _ N) as (L & _). pose proof (node_child _ _ _ _ N I) as M.
    assert (E : l' = l + 1) by (apply (valid_unique l' (l + 1) (tid u)); eapply node_valid; eassumption).
    split; [exact E|]. destruct (node_inv _ _ _ N') as [(K & _)|(_ & w & W & C)]; [lia|]. subst l'. replace (l + 1 - 1) with l in W by lia.
    destruct (child_tid _ _ I) as (k & K & T). rewrite (node_tid _ _ _ N) in T.
    replace (tid u / 4) with h in W by (rewrite T, Z.mul_comm, Z.div_add_l by lia; rewrite Z.div_small; lia).
    destruct (IH _ _ W) as (_ & ->). apply (child_tid_inj t); try assumption. now apply node_tid in N'.
Qed.
Lemma get_child_in : forall t k, 0 <= k < 4 -> exists u, get_child t k = Ok u /\ In u (get_children t) /\ tid u = 4 * tid t + k.
Proof.
  intros t k K. assert (k = 0 \/ k = 1 \/ k = 2 \/ k = 3) as [->|[->|[->| ->]]] by lia; cbn [get_child Z.eqb Pos.eqb]; eexists; (split; [reflexivity|]);
  (split; [cbn; tauto|]); cbn [tid t0 t1 t2 t3]; change (Z.shiftl (tid t) 2) with (Z.shiftl (tid t) (2 * 1)); rewrite shiftl2, Z.pow_1_r by lia; lia.
Qed.
(** The two bits looked at. *)
Lemma target_spec : forall h k, 0 <= k -> Z.shiftr (Z.land h (Z.shiftl 3 (2 * k))) (2 * k) = (h / 4 ^ k) mod 4.
Proof.
  intros h k K. rewrite Z.shiftr_land, Z.shiftr_shiftl_l, Z.sub_diag, Z.shiftl_0_r, shiftr2 by lia.
  change 3 with (Z.ones 2). now rewrite Z.land_ones by lia.
Qed.
Lemma descend_ok : forall n h l ans, Z.of_nat n < l -> node (l - Z.of_nat n) (h / 4 ^ Z.of_nat n) ans ->
  exists t, descend h l n (l - 1 - Z.of_nat n) ans (Z.shiftr (Z.shiftl 3 (2 * Z.of_nat n)) 2) = Ok t /\ node l h t.
Proof.
  induction n as [|n IH]; intros h l ans L N.
  - exists ans. split; [reflexivity|]. rewrite Z.pow_0_r, Z.div_1_r, Z.sub_0_r in N. exact N.
  - cbn [descend]. rewrite Nat2Z.inj_succ in *. set (m := Z.of_nat n) in *.
    assert (C : Z.shiftr (Z.shiftl 3 (2 * Z.succ m)) 2 = Z.shiftl 3 (2 * m)).
    { rewrite Z.shiftr_shiftl_l by lia. f_equal. lia. }
    rewrite C. replace (l - (l - 1 - Z.succ m) - 2) with m by lia. rewrite target_spec by lia.
    pose proof (Z.mod_pos_bound (h / 4 ^ m) 4 ltac:(lia)) as B.
    destruct ((h / 4 ^ m) mod 4 >=? 4) eqn:E; [apply Z.geb_le in E; lia|].
    destruct (get_child_in ans _ B) as (u & G & I & TU). rewrite G. cbn [bind].
    replace (l - 1 - Z.succ m + 1) with (l - 1 - m) by lia. apply IH; [lia|]. fold m.
    replace (l - m) with (l - Z.succ m + 1) by lia.
    assert (TH : tid u = h / 4 ^ m).
    { rewrite TU, (node_tid _ _ _ N). unfold Z.succ. rewrite pow4_S, Z.mul_comm, Z.mul_comm, (Z.mul_comm 4 (4 ^ m)), <- Z.div_div by (try apply pow4_pos; lia).
      symmetry. apply Z.div_mod. lia. }
    rewrite <- TH. econstructor; eassumption.
Qed.
Lemma base_trixel_in : forall b, 8 <= b < 16 -> exists t, base_trixel b = Some t /\ In t base_trixels /\ tid t = b.
Proof.
  intros b B. assert (b = 8 \/ b = 9 \/ b = 10 \/ b = 11 \/ b = 12 \/ b = 13 \/ b = 14 \/ b = 15) as H by lia.
  repeat destruct H as [->|H]; try subst b; eexists; (split; [reflexivity|]); (split; [cbn; tauto|reflexivity]).
Qed.
Lemma from_htmid : forall l h, valid l h -> exists t, trixel_from_htmid h = Ok t /\ node l h t.
Proof.
  intros l h V. unfold trixel_from_htmid. rewrite (level_ok _ _ V). cbn [bind]. destruct V as (L & V).
  rewrite shiftr2 by lia. pose proof (pow4_pos (l - 1) ltac:(lia)) as P.
  assert (B : 8 <= h / 4 ^ (l - 1) < 16) by (split; [apply Z.div_le_lower_bound; lia|apply Z.div_lt_upper_bound; lia]).
  destruct (base_trixel_in _ B) as (t & -> & I & E). destruct (l =? 1) eqn:E1.
  - apply Z.eqb_eq in E1. subst l. exists t. split; [reflexivity|]. rewrite Z.sub_diag, Z.pow_0_r, Z.div_1_r in E. rewrite <- E. now constructor.
  - apply Z.eqb_neq in E1. pose proof (descend_ok (Z.to_nat (l - 1)) h l t) as D. rewrite Z2Nat.id in D by lia.
    replace (l - 1 - (l - 1)) with 0 in D by lia. replace (l - (l - 1)) with 1 in D by lia.
    assert (C : Z.shiftr (Z.shiftl 3 (2 * (l - 1))) 2 = Z.shiftl 3 (2 * (l - 2))).
    { rewrite Z.shiftr_shiftl_l by lia. f_equal. lia. }
    rewrite C in D. apply D; [lia|]. rewrite <- E. now constructor.
Qed.
Lemma node_from : forall l h t, node l h t -> trixel_from_htmid h = Ok t.
Proof.
  intros l h t N. destruct (from_htmid l h (node_valid _ _ _ N)) as (t' & E & N'). destruct (node_fun _ _ _ N _ _ N') as (_ & ->). exact E.
Qed.
Lemma from_node : forall h t, trixel_from_htmid h = Ok t -> exists l, valid l h /\ node l h t.
Proof.
  intros h t E. destruct (level_spec h) as [(l & _ & V)|(F & _)].
  - exists l. split; [exact V|]. destruct (from_htmid l h V) as (t' & E' & N). congruence.
  - unfold trixel_from_htmid in E. rewrite F in E. discriminate.
Qed.
Lemma from_invalid : forall h, (forall l, ~ valid l h) -> trixel_from_htmid h = Raise RuntimeError.
Proof. intros h N. unfold trixel_from_htmid. destruct (level_spec h) as [(l & _ & V)|(-> & _)]; [exfalso; now apply (N l)|reflexivity]. Qed.

(** ** Cover *)
Lemma base_cover : forall p, exists t, In t base_trixels /\ contains_pt t p = true.
Proof.
  intros [x y z].
  destruct (Rle_dec 0 x); destruct (Rle_dec 0 y); destruct (Rle_dec 0 z);
  [exists n3_trixel|exists s0_trixel|exists n0_trixel|exists s3_trixel|exists n2_trixel|exists s1_trixel|exists n1_trixel|exists s2_trixel];
  (split; [cbn; tauto|]); apply contains_spec; cbn [tc0 tc1 tc2 s0_trixel s1_trixel s2_trixel s3_trixel n0_trixel n1_trixel n2_trixel n3_trixel];
  unfold det, dot, cross; cbn [vx vy vz]; lra.
Qed.
Lemma base_apart : forall t u p, In t base_trixels -> In u base_trixels -> tid t <> tid u -> contains_pt t p = true -> contains_pt u p = true -> on_edge t p.
Proof.
  intros t u [x y z] I J N A B. apply contains_spec in A. apply contains_spec in B. unfold on_edge. cbn in I, J.
  repeat (destruct I as [<-|I]; [repeat (destruct J as [<-|J]; [try (exfalso; apply N; reflexivity);
    cbn [tc0 tc1 tc2 s0_trixel s1_trixel s2_trixel s3_trixel n0_trixel n1_trixel n2_trixel n3_trixel] in *;
    unfold det, dot, cross in *; cbn [vx vy vz] in *; first [left; lra|right; left; lra|right; right; lra]|]); destruct J|]). destruct I.
Qed.
Lemma node_cover : forall l p, 1 <= l -> exists h t, node l h t /\ contains_pt t p = true.
Proof.
  intros l p L. replace l with (1 + Z.of_nat (Z.to_nat (l - 1))) by lia. induction (Z.to_nat (l - 1)) as [|n (h & t & N & C)].
  - destruct (base_cover p) as (t & I & C). exists (tid t), t. split; [now constructor|exact C].
  - apply children_cover in C as (u & I & C); [|eapply node_good; eassumption]. exists (tid u), u. split; [|exact C].
    rewrite Nat2Z.inj_succ. replace (1 + Z.succ (Z.of_nat n)) with (1 + Z.of_nat n + 1) by lia. econstructor; eassumption.
Qed.
Lemma node_apart : forall l h t h' t' p, node l h t -> node l h' t' -> h <> h' -> contains_pt t p = true -> contains_pt t' p = true -> on_edge t p.
Proof.
  intros l h t h' t' p N. revert h' t'. induction N as [t I|l h t u N IH I]; intros h' t' N' D A B.
  - destruct (node_inv _ _ _ N') as [(_ & I')|(L & _)]; [|lia]. apply (base_apart t t'); try assumption. now rewrite (node_tid _ _ _ N').
  - pose proof (node_valid _ _ _ N) as (L & _). destruct (node_inv _ _ _ N') as [(L' & _)|(_ & w & W & C)]; [lia|].
    replace (l + 1 - 1) with l in W by lia. pose proof (node_good _ _ _ N) as G.
    destruct (Z.eq_dec h (h' / 4)) as [E|E].
    + rewrite <- E in W. destruct (node_fun _ _ _ N _ _ W) as (_ & ->). apply (children_apart t G p u t'); try assumption.
      now rewrite (node_tid _ _ _ N').
    + apply (children_edge t G p); try assumption. apply (IH _ _ W E).
      * apply children_cover; [exact G|]. eauto.
      * apply children_cover; [eapply node_good; eassumption|]. eauto.
Qed.

(** ** Finding one point *)
Lemma node_level2 : forall l h t, node l h t -> level2 t = 2 * l.
Proof. intros l h t N. unfold level2, bits. rewrite (node_tid _ _ _ N), (valid_log2 l) by (eapply node_valid; eassumption). lia. Qed.
Lemma find_child : forall l h t p, node l h t -> contains_pt t p = true -> exists u,
  find (fun c => contains_pt c p) (get_children t) = Some u /\ In u (get_children t) /\ node (l + 1) (tid u) u /\ contains_pt u p = true.
Proof.
  intros l h t p N C. apply children_cover in C as (u & I & C); [|eapply node_good; eassumption].
  destruct (find (fun c => contains_pt c p) (get_children t)) as [v|] eqn:F.
  - exists v. apply find_some in F as (J & D). split; [reflexivity|]. split; [exact J|]. split; [econstructor; eassumption|exact D].
  - exfalso. apply (find_none _ _ F) in I. cbn in I. congruence.
Qed.
Lemma iterate_ok : forall fuel l h t p m, node l h t -> contains_pt t p = true -> l < m -> (m - l <= Z.of_nat fuel) -> exists h' t',
  iterate_trixel_finder fuel p t m = Ok (Some h') /\ node m h' t' /\ contains_pt t' p = true /\ h' / 4 ^ (m - l) = h.
Proof.
  induction fuel as [|f IH]; intros l h t p m N C L F; [lia|]. cbn [iterate_trixel_finder].
  destruct (find_child _ _ _ p N C) as (u & -> & I & M & D). rewrite (node_level2 _ _ _ M).
  destruct (child_tid _ _ I) as (k & K & TU). rewrite (node_tid _ _ _ N) in TU.
  assert (Q : tid u / 4 = h) by (rewrite TU, Z.mul_comm, Z.div_add_l by lia; rewrite Z.div_small; lia).
  destruct (2 * (l + 1) =? 2 * m) eqn:E.
  - apply Z.eqb_eq in E. assert (m = l + 1) by lia. subst m. exists (tid u), u. repeat split; try assumption.
    replace (l + 1 - l) with 1 by lia. now rewrite Z.pow_1_r.
  - apply Z.eqb_neq in E. destruct (IH _ _ _ p m M D) as (h' & t' & R & N' & C' & A); [lia|lia|]. exists h', t'. repeat split; try assumption.
    replace (m - l) with (m - (l + 1) + 1) by lia. rewrite pow4_S, (Z.mul_comm 4), <- Z.div_div by (try apply pow4_pos; lia). now rewrite A.
Qed.
Lemma iterate_never : forall fuel l h t p m, node l h t -> contains_pt t p = true -> m <= l ->
  iterate_trixel_finder fuel p t m = Raise OutOfFuel.
Proof.
  induction fuel as [|f IH]; intros l h t p m N C L; [reflexivity|]. cbn [iterate_trixel_finder].
  destruct (find_child _ _ _ p N C) as (u & -> & I & M & D). rewrite (node_level2 _ _ _ M).
  destruct (2 * (l + 1) =? 2 * m) eqn:E; [apply Z.eqb_eq in E; lia|]. apply (IH (l + 1) _ _ _ _ M D). lia.
Qed.
Lemma slow_base : forall p, exists b, find (fun t => contains_pt t p) base_trixels = Some b /\ node 1 (tid b) b /\ contains_pt b p = true.
Proof.
  intros p. destruct (base_cover p) as (t & I & C). destruct (find (fun t => contains_pt t p) base_trixels) as [b|] eqn:F.
  - exists b. apply find_some in F as (J & D). split; [reflexivity|]. split; [now constructor|exact D].
  - exfalso. apply (find_none _ _ F) in I. cbn in I. congruence.
Qed.
