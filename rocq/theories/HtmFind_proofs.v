(** Proofs about the search for the trixels of a half space. *)
From Coq Require Import List Bool ZArith Reals Lra Lia Permutation.
From Verif Require Import Base Sphere Sphere_proofs Htm Htm_proofs HtmAll_proofs HtmHalf HtmBounds_proofs HtmHalf_proofs.
Import ListNotations.
Open Scope Z_scope.

Lemma node_anc : forall k l h t, (Z.of_nat k < l) -> node l h t -> exists u, node (l - Z.of_nat k) (h / 4 ^ Z.of_nat k) u /\
  forall p, contains_pt t p = true -> contains_pt u p = true.
Proof.
  induction k as [|k IH]; intros l h t K N.
  - exists t. rewrite Z.sub_0_r. change (4 ^ Z.of_nat 0) with 1. rewrite Z.div_1_r. split; [exact N|auto].
  - destruct (IH l h t ltac:(lia) N) as (u & NU & SUB). destruct (node_inv _ _ _ NU) as [(E & _)|(_ & u' & NU' & I)]; [lia|].
    exists u'. split.
    + replace (l - Z.of_nat (S k)) with (l - Z.of_nat k - 1) by lia. rewrite Nat2Z.inj_succ, Z.pow_succ_r by lia.
      rewrite (Z.mul_comm 4), <- Z.div_div by (try lia; apply Z.pow_nonzero; lia). exact NU'.
    + intros p C. apply (children_cover u' (node_good _ _ _ NU')). exists u. auto.
Qed.
Lemma node_child_of : forall l h t u, node l h t -> In u (get_children t) -> node (l + 1) (tid u) u /\ tid u / 4 = h.
Proof.
  intros l h t u N I. split; [eapply node_child; eauto|]. destruct (child_tid t u I) as (k & K & E). rewrite (node_tid _ _ _ N) in E. rewrite E.
  symmetry. apply (Z.div_unique_pos _ 4 h k); lia.
Qed.
Lemma range_div : forall x a k, 0 <= k -> (a * 4 ^ k <= x <= a * 4 ^ k + (4 ^ k - 1) <-> x / 4 ^ k = a).
Proof.
  intros x a k K. assert (P := pow4_pos k K). split.
  - intros H. symmetry. apply (Z.div_unique_pos _ _ a (x - a * 4 ^ k)); lia.
  - intros <-. assert (M := Z.div_mod x (4 ^ k) ltac:(lia)). assert (B := Z.mod_pos_bound x (4 ^ k) P). lia.
Qed.
Lemma max_d_start : forall n, Nat.iter n (fun m => Z.shiftl (m + 3) 2) 0 = 4 * (4 ^ Z.of_nat n - 1).
Proof.
  induction n as [|n IH]; [reflexivity|]. change (Nat.iter (S n) (fun m => Z.shiftl (m + 3) 2) 0) with (Z.shiftl (Nat.iter n (fun m => Z.shiftl (m + 3) 2) 0 + 3) 2). rewrite IH. rewrite Nat2Z.inj_succ, Z.pow_succ_r by lia.
  rewrite Z.shiftl_mul_pow2 by lia. change (2 ^ 2) with 4. lia.
Qed.
Lemma max_d_shift : forall k, 0 <= k -> Z.shiftr (4 * (4 ^ k - 1)) 2 = 4 ^ k - 1.
Proof. intros k K. rewrite Z.shiftr_div_pow2 by lia. change (2 ^ 2) with 4. rewrite Z.mul_comm. apply Z.div_mul. lia. Qed.
Lemma max_d_shift' : forall k, 0 <= k -> Z.shiftr (4 ^ (k + 1) - 1) 2 = 4 ^ k - 1.
Proof.
  intros k K. rewrite Z.shiftr_div_pow2 by lia. change (2 ^ 2) with 4. rewrite pow4_S by exact K. symmetry. apply (Z.div_unique_pos _ 4 _ 3); lia.
Qed.

Section Find.
Variables (h : half) (L : Z).
Hypothesis OK : okh h.
Lemma node_contains : forall l i t, 2 <= l -> node l i t -> exists c, contains_trixel h t = Ok c /\
  (c = Outside -> forall p, contains_pt t p = true -> ~ within h p) /\
  (c = Full -> (0 <= hd h)%R -> forall p, contains_pt t p = true -> p <> V 0 0 0 -> within h p) /\
  (c <> Outside -> (hd h <= 1)%R -> meets h t).
Proof.
  intros l i t H N. destruct (node_shape _ _ _ N) as (A & C). apply contains_trixel_ok; [exact OK|now apply (node_good l i)|exact A|now apply C].
Qed.
Definition row_of (i : Z) (u : trixel) : bound := (tid u * 4 ^ (L - i), tid u * 4 ^ (L - i) + (4 ^ (L - i) - 1)).
Lemma visit_fold : forall i cs na out, 2 <= i <= L -> (forall u, In u cs -> exists j, node i j u) ->
  exists na' out', fold_res (visit h L i (4 ^ (L - i) - 1)) (na, out) cs = Ok (na', out') /\
  (forall u, In u na' <-> In u na \/ (In u cs /\ contains_trixel h u = Ok Partial)) /\
  (forall r, In r out' <-> In r out \/ exists u, In u cs /\ contains_trixel h u = Ok Full /\ r = row_of i u).
Proof.
  intros i cs. induction cs as [|c cs IH]; intros na out LI N.
  { exists na, out. split; [reflexivity|]. split; [intros u; cbn; tauto|intros r; split; [auto|intros [H|(u & [] & _)]; exact H]]. }
  destruct (N c (or_introl eq_refl)) as (j & Nc). destruct (node_contains _ _ _ (proj1 LI) Nc) as (k & E & _).
  assert (N' : forall u, In u cs -> exists j, node i j u) by (intros u I; apply N; right; exact I).
  cbn [fold_res]. unfold visit at 1. rewrite E. cbn [bind]. destruct k; cbn [bind].
  - destruct (IH na (out ++ [(Z.shiftl (tid c) (2 * (L - i)), Z.shiftl (tid c) (2 * (L - i)) + (4 ^ (L - i) - 1))]) LI N') as (na' & out' & F & A & B).
    exists na', out'. split; [exact F|]. split.
    + intros u. rewrite A. cbn [In]. split; [tauto|]. intros [H|([<- | H] & H')]; [tauto|congruence|tauto].
    + intros r. rewrite B, in_app_iff. rewrite shiftl2 by lia. cbn [In]. fold (row_of i c). split.
      * intros [[H|[<- | []]]|(u & I & H)]; [tauto|right; exists c; tauto|right; exists u; tauto].
      * intros [H|(u & [<- | I] & P & Q)]; [tauto|left; right; left; congruence|right; exists u; tauto].
  - destruct (IH (na ++ [c]) out LI N') as (na' & out' & F & A & B). exists na', out'. split; [exact F|]. split.
    + intros u. rewrite A, in_app_iff. cbn [In]. split; [intros [[H|[<- | []]]|H]; tauto|intros [H|([<- | H] & H')]; tauto].
    + intros r. rewrite B. split; [intros [H|(u & I & H)]; [tauto|right; exists u; cbn; tauto]|].
      intros [H|(u & [<- | I] & P & Q)]; [tauto|congruence|right; exists u; tauto].
  - destruct (IH na out LI N') as (na' & out' & F & A & B). exists na', out'. split; [exact F|]. split.
    + intros u. rewrite A. cbn [In]. split; [tauto|]. intros [H|([<- | H] & H')]; [tauto|congruence|tauto].
    + intros r. rewrite B. split; [intros [H|(u & I & H)]; [tauto|right; exists u; cbn; tauto]|].
      intros [H|(u & [<- | I] & P & Q)]; [tauto|congruence|right; exists u; tauto].
Qed.
Lemma final_fold : forall cs out, 2 <= L -> (forall u, In u cs -> exists j, node L j u) ->
  exists out', fold_res (fun output child => bind (contains_trixel h child) (fun c =>
    match c with Outside => Ok output | _ => Ok (output ++ [(tid child, tid child)]) end)) out cs = Ok out' /\
  (forall r, In r out' <-> In r out \/ exists u c, In u cs /\ contains_trixel h u = Ok c /\ c <> Outside /\ r = (tid u, tid u)).
Proof.
  induction cs as [|c cs IH]; intros out LL N.
  { exists out. split; [reflexivity|]. intros r; split; [auto|intros [H|(u & ? & [] & _)]; exact H]. }
  destruct (N c (or_introl eq_refl)) as (j & Nc). destruct (node_contains _ _ _ LL Nc) as (k & E & _).
  assert (N' : forall u, In u cs -> exists j, node L j u) by (intros u I; apply N; right; exact I).
  cbn [fold_res]. rewrite E. cbn [bind].
  assert (K : k = Outside \/ k <> Outside) by (destruct k; [right|right|left]; congruence). destruct K as [-> | NK].
  - cbn [bind]. destruct (IH out LL N') as (out' & F & B). exists out'. split; [exact F|]. intros r. rewrite B. split; [intros [H|(u & d & I & H)]; [tauto|right; exists u, d; cbn; tauto]|].
    intros [H|(u & d & [<- | I] & P & Q & R)]; [tauto|congruence|right; exists u, d; tauto].
  - assert (M : forall A (x y : A), match k with Outside => x | _ => y end = y) by (intros; destruct k; congruence). rewrite M. cbn [bind].
    destruct (IH (out ++ [(tid c, tid c)]) LL N') as (out' & F & B). exists out'. split; [exact F|]. intros r. rewrite B, in_app_iff. cbn [In]. split.
    + intros [[H|[<- | []]]|(u & d & I & H)]; [tauto|right; exists c, k; tauto|right; exists u, d; tauto].
    + intros [H|(u & d & [<- | I] & P & Q & R)]; [tauto|left; right; left; congruence|right; exists u, d; tauto].
Qed.
(** x belongs to the trixel of level L whose point p is within the half space. *)
Definition seen (x : Z) : Prop := exists t p, node L x t /\ contains_pt t p = true /\ within h p.
Lemma seen_anc : forall x i, 1 <= i <= L -> seen x -> exists u p, node i (x / 4 ^ (L - i)) u /\ contains_pt u p = true /\ within h p.
Proof.
  intros x i I (t & p & N & C & W). destruct (node_anc (Z.to_nat (L - i)) L x t ltac:(lia) N) as (u & NU & S). rewrite Z2Nat.id in NU by lia.
  replace (L - (L - i)) with i in NU by lia. exists u, p. auto.
Qed.
Lemma child_active : forall x i active, 1 < i <= L -> seen x -> (forall u, In u active -> exists j, node (i - 1) j u) ->
  (exists u, In u active /\ tid u = x / 4 ^ (L - (i - 1))) ->
  exists c p, In c (flat_map get_children active) /\ node i (x / 4 ^ (L - i)) c /\ tid c = x / 4 ^ (L - i) /\ contains_pt c p = true /\ within h p.
Proof.
  intros x i active I S N (u & IU & TU). destruct (seen_anc x i ltac:(lia) S) as (c & p & NC & C & W). exists c, p.
  split; [|split; [exact NC|]; split; [now apply node_tid in NC|]; tauto].
  destruct (node_inv _ _ _ NC) as [(E & _)|(_ & u' & NU' & IC)]; [lia|].
  destruct (N u IU) as (j & NU). assert (EJ := node_tid _ _ _ NU). subst j.
  assert (E : x / 4 ^ (L - i) / 4 = tid u).
  { rewrite TU. replace (L - (i - 1)) with (L - i + 1) by lia. rewrite pow4_S by lia. rewrite (Z.mul_comm 4). rewrite Z.div_div; [reflexivity|apply Z.pow_nonzero; lia|lia]. }
  rewrite E in NU'. destruct (node_fun _ _ _ NU _ _ NU') as (_ & ->). apply in_flat_map. exists u. auto.
Qed.
Lemma levels_ok : forall n i m active out, 2 <= i -> i + Z.of_nat n = L -> (n <> O -> Z.shiftr m 2 = 4 ^ (L - i) - 1) ->
  (forall u, In u active -> exists j, node (i - 1) j u) ->
  exists active' out', levels_loop h L n i m active out = Ok (active', out') /\
  (forall u, In u active' -> exists j, node (L - 1) j u) /\
  (forall r, In r out -> In r out') /\
  (forall r, In r out' -> In r out \/ exists j u, i <= j < L /\ node j (tid u) u /\ contains_trixel h u = Ok Full /\ r = row_of j u) /\
  (forall x, seen x -> (exists u, In u active /\ tid u = x / 4 ^ (L - (i - 1))) -> cov out' x \/ exists u, In u active' /\ tid u = x / 4).
Proof.
  induction n as [|n IH]; intros i m active out I E M N.
  { exists active, out. cbn [levels_loop]. split; [reflexivity|]. replace (i - 1) with (L - 1) in * by lia. repeat (split; [auto|]). intros x S H. right. replace (L - (L - 1)) with 1 in H by lia. exact H. }
  cbn [levels_loop]. cbv zeta. rewrite M by discriminate.
  assert (NC : forall u, In u (flat_map get_children active) -> exists j, node i j u).
  { intros u IU. apply in_flat_map in IU as (v & IV & IU). destruct (N v IV) as (j & NV). exists (tid u). replace i with (i - 1 + 1) by lia. eapply node_child; eauto. }
  destruct (visit_fold i (flat_map get_children active) [] out ltac:(lia) NC) as (na & out1 & F & A & B). rewrite F. cbn [bind].
  assert (NA : forall u, In u na -> exists j, node (i + 1 - 1) j u).
  { intros u IU. apply A in IU as [[]|(IU & _)]. replace (i + 1 - 1) with i by lia. auto. }
  assert (STEP : forall x, seen x -> (exists u, In u active /\ tid u = x / 4 ^ (L - (i - 1))) -> cov out1 x \/ exists u, In u na /\ tid u = x / 4 ^ (L - (i + 1 - 1))).
  { intros x S H. replace (i + 1 - 1) with i by lia. destruct (child_active x i active ltac:(lia) S N H) as (c & p & IC & NCc & TC & C & W).
    destruct (node_contains _ _ _ I NCc) as (k & K & O & _). destruct k.
    - left. exists (row_of i c). split; [apply B; right; exists c; auto|]. cbn. apply range_div; [lia|symmetry; exact TC].
    - right. exists c. split; [apply A; auto|exact TC].
    - exfalso. exact (O eq_refl p C W). }
  destruct na as [|u0 na0] eqn:ENA.
  { exists [], out1. split; [reflexivity|]. split; [intros u []|]. split; [intros r IR; apply B; auto|]. split.
    - intros r IR. apply B in IR as [IR|(u & IU & K & R)]; [auto|right]. exists i, u. destruct (NC u IU) as (j & NU). rewrite (node_tid _ _ _ NU). split; [lia|]. auto.
    - intros x S H. destruct (STEP x S H) as [C|(u & [] & _)]. auto. }
  rewrite <- ENA in *. clear u0 na0 ENA.
  destruct (IH (i + 1) (4 ^ (L - i) - 1) na out1 ltac:(lia) ltac:(lia)) as (active' & out' & G & NA' & MO & SO & CO).
  { intros Z. replace (L - i) with (L - (i + 1) + 1) by lia. apply max_d_shift'. lia. }
  { exact NA. }
  exists active', out'. split; [exact G|]. split; [exact NA'|]. split; [intros r IR; apply MO, B; auto|]. split.
  - intros r IR. apply SO in IR as [IR|(j & u & J & H)]; [|right; exists j, u; split; [lia|exact H]].
    apply B in IR as [IR|(u & IU & K & R)]; [auto|right]. exists i, u. destruct (NC u IU) as (j & NU). rewrite (node_tid _ _ _ NU). split; [lia|]. auto.
  - intros x S H. destruct (STEP x S H) as [C|C]; [|apply CO; assumption]. left. destruct C as (r & IR & C). exists r. split; [apply MO, IR|exact C].
Qed.
Lemma basic_in : forall t, In t basic_trixels <-> In t base_trixels.
Proof. intros t. unfold basic_trixels, base_trixels. cbn. tauto. Qed.
Lemma row_valid : forall j u x, 2 <= j <= L -> node j (tid u) u -> fst (row_of j u) <= x <= snd (row_of j u) -> exists t, node L x t /\ forall p, contains_pt t p = true -> contains_pt u p = true.
Proof.
  intros j u x J N R. unfold row_of in R. cbn [fst snd] in R.
  assert (V : valid L x).
  { destruct (node_valid _ _ _ N) as (_ & V). assert (P := pow4_pos (L - j) ltac:(lia)). assert (Q := pow4_pos (j - 1) ltac:(lia)). split; [lia|].
    replace (L - 1) with ((j - 1) + (L - j)) by lia. rewrite Z.pow_add_r by lia. nia. }
  destruct (from_htmid _ _ V) as (t & _ & NT). exists t. split; [exact NT|].
  destruct (node_anc (Z.to_nat (L - j)) L x t ltac:(lia) NT) as (u' & NU & S). rewrite Z2Nat.id in NU by lia. replace (L - (L - j)) with j in NU by lia.
  apply range_div in R; [|lia]. rewrite R in NU. destruct (node_fun _ _ _ N _ _ NU) as (_ & ->). exact S.
Qed.
Lemma find_all_ok : 2 <= L -> exists b, find_all_trixels h L = Ok b /\ spaced 0 b /\
  (forall x t p, node L x t -> contains_pt t p = true -> within h p -> cov b x) /\
  (forall x, cov b x -> exists t, node L x t /\ ((0 <= hd h <= 1)%R -> meets h t)).
Proof.
  intros LL. unfold find_all_trixels. rewrite max_d_start. rewrite Z2Nat.id by lia.
  destruct (levels_ok (Z.to_nat (L - 2)) 2 (4 * (4 ^ (L - 2) - 1)) basic_trixels [] ltac:(lia) ltac:(lia)) as (active & out & E & NA & _ & SO & CO).
  { intros _. apply max_d_shift. lia. }
  { intros u I. exists (tid u). apply node_base, basic_in, I. }
  rewrite E. cbn [bind]. unfold final_pass.
  assert (NF : forall u, In u (flat_map get_children active) -> exists j, node L j u).
  { intros u IU. apply in_flat_map in IU as (v & IV & IU). destruct (NA v IV) as (j & NV). exists (tid u). replace L with (L - 1 + 1) by lia. eapply node_child; eauto. }
  destruct (final_fold (flat_map get_children active) out LL NF) as (out' & F & B). rewrite F. cbn [bind].
  assert (ROW : forall r, In r out' -> exists j u, 2 <= j <= L /\ node j (tid u) u /\ r = row_of j u /\
     ((contains_trixel h u = Ok Full) \/ (j = L /\ exists c, contains_trixel h u = Ok c /\ c <> Outside))).
  { intros r IR. apply B in IR as [IR|(u & c & IU & K & O & R)].
    - apply SO in IR as [[]|(j & u & J & N & K & R)]. exists j, u. split; [lia|]. auto.
    - exists L, u. destruct (NF u IU) as (j & NU). rewrite (node_tid _ _ _ NU). split; [lia|]. split; [exact NU|]. split; [|right; split; [reflexivity|exists c; auto]].
      rewrite R. unfold row_of. rewrite Z.sub_diag. change (4 ^ 0) with 1. f_equal; lia. }
  assert (KB : okb (sort_bounds out')).
  { intros r IR. apply (Permutation_in _ (sort_perm out')) in IR. destruct (ROW r IR) as (j & u & J & N & -> & _). unfold row_of. cbn [fst snd].
    destruct (node_valid _ _ _ N) as (_ & V). assert (P := pow4_pos (L - j) ltac:(lia)). assert (Q := pow4_pos (j - 1) ltac:(lia)). nia. }
  destruct (merge_spec _ KB) as (SP & CM). exists (merge_trixel_bounds (sort_bounds out')). split; [reflexivity|]. split; [exact SP|].
  assert (CV : forall x, cov (merge_trixel_bounds (sort_bounds out')) x <-> cov out' x).
  { intros x. rewrite CM. split; apply cov_perm; [apply sort_perm|apply Permutation_sym, sort_perm]. }
  split.
  - intros x t p N C W. apply CV. assert (S : seen x) by (exists t, p; auto).
    destruct (CO x S) as [Q|(u & IU & TU)].
    + destruct (seen_anc x 1 ltac:(lia) S) as (u & _ & NU & _). exists u. replace (L - (2 - 1)) with (L - 1) by lia. rewrite (node_tid _ _ _ NU). split; [|reflexivity].
      apply basic_in. destruct (node_inv _ _ _ NU) as [(_ & IU)|(Q & _)]; [exact IU|lia].
    + destruct Q as (r & IR & Q). exists r. split; [apply B; auto|exact Q].
    + destruct (child_active x L active ltac:(lia) S NA) as (c & q & IC & NCc & TC & Cq & Wq).
      { exists u. split; [exact IU|]. replace (L - (L - 1)) with 1 by lia. exact TU. }
      rewrite Z.sub_diag in TC. change (4 ^ 0) with 1 in TC. rewrite Z.div_1_r in TC.
      destruct (node_contains _ _ _ LL NCc) as (k & K & O & _).
      exists (tid c, tid c). split; [|cbn; lia]. apply B. right. exists c, k. repeat split; auto. intros ->. exact (O eq_refl q Cq Wq).
  - intros x Q. apply CV in Q as (r & IR & Q). destruct (ROW r IR) as (j & u & J & N & -> & H). destruct (row_valid j u x J N Q) as (t & NT & SUB).
    exists t. split; [exact NT|]. intros D. destruct H as [H|(-> & c & K & O)].
    + destruct (node_contains _ _ _ (proj1 J) N) as (c & K & _ & FU & _). rewrite H in K. injection K as <-.
      assert (G := node_good _ _ _ NT). destruct (corner_in t G) as (I0 & _). destruct G as (U0 & _).
      apply (unit_meets h t (tc0 t) U0 I0). assert (W := FU eq_refl (proj1 D) (tc0 t) (SUB _ I0) (unit_nonzero _ U0)). unfold within in W. rewrite (unit_norm _ U0) in W. lra.
    + destruct (node_contains _ _ _ (proj1 J) N) as (c' & K' & _ & _ & ME). rewrite K in K'. injection K' as <-.
      unfold row_of in Q. rewrite Z.sub_diag in Q. change (4 ^ 0) with 1 in Q. cbn [fst snd] in Q. assert (x = tid u) by lia. subst x.
      destruct (node_fun _ _ _ N _ _ NT) as (_ & ->). apply ME; [exact O|apply D].
Qed.
End Find.
