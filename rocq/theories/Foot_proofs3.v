(** Proofs about the footprint reward, and about the steps of the slices season by season. *)
From Coq Require Import List ZArith QArith Qround Qabs Qfield Bool Lia Lqa Permutation.
From Verif Require Import Base VaryExpt Foot Foot_proofs Foot_proofs2.
Import ListNotations.
Open Scope nat_scope.

(** ** Sums over cells *)
Definition cells (nb np : nat) : list (nat * nat) := list_prod (seq 0 nb) (seq 0 np).
Lemma in_cells : forall nb np b p, In (b, p) (cells nb np) <-> b < nb /\ p < np.
Proof. intros. unfold cells. rewrite in_prod_iff, !in_seq. lia. Qed.
Lemma cells_nodup : forall nb np, NoDup (cells nb np).
Proof.
  intros nb np. unfold cells. pose proof (seq_NoDup nb 0) as A. pose proof (seq_NoDup np 0) as B. revert A B. generalize (seq 0 nb) (seq 0 np). intros l l' A B.
  induction l as [|x l IH]; [constructor|]. inversion A as [|? ? A1 A2]; subst. cbn [list_prod]. apply NoDup_app_intro; [|apply IH; exact A2|].
  - apply nodup_map_in; [intros; congruence|exact B].
  - intros [u v] I J. apply in_map_iff in I. destruct I as (y & E & _). injection E as <- <-. apply in_prod_iff in J. tauto.
Qed.
Lemma qsum_list_prod : forall (f : nat * nat -> Q) l l', (qsum (map f (list_prod l l')) == qsum (map (fun b => qsum (map (fun p => f (b, p)) l')) l))%Q.
Proof.
  intros f l l'. induction l as [|x l IH]; [reflexivity|]. cbn [list_prod map]. rewrite map_app, qsum_app, IH, map_map. reflexivity.
Qed.
Lemma gsum_cells : forall nb np g, shape nb np g -> (gsum g == qsum (map (fun c => cell g (fst c) (snd c)) (cells nb np)))%Q.
Proof.
  intros nb np g [L R]. unfold cells. rewrite qsum_list_prod. unfold gsum. apply qsum_ext; [rewrite !map_length, seq_length; exact L|]. intros b B. rewrite map_length in B.
  rewrite (nth_indep (map qsum g) 0%Q (qsum [])) by (rewrite map_length; exact B). rewrite (map_nth qsum).
  rewrite (nth_indep (map _ (seq 0 nb)) 0%Q ((fun b => qsum (map (fun p => cell g b p) (seq 0 np))) 0)) by (rewrite map_length, seq_length; lia).
  cbn [fst snd]. rewrite (map_nth (fun b => qsum (map (fun p => cell g b p) (seq 0 np)))), seq_nth by lia. cbn [plus].
  unfold cell. rewrite <- (R (nth b g [])) by (apply nth_In; exact B). rewrite map_nth_seq. reflexivity.
Qed.
Lemma qsum_scale : forall {A} (f : A -> Q) c l, (qsum (map (fun x => f x * c)%Q l) == qsum (map f l) * c)%Q.
Proof. intros A f c l. unfold qsum. induction l as [|x l IH]; cbn [map fold_right]; [ring|]. rewrite IH. ring. Qed.
Lemma qsum_minus : forall {A} (f g : A -> Q) l, (qsum (map (fun x => f x - g x)%Q l) == qsum (map f l) - qsum (map g l))%Q.
Proof. intros A f g l. unfold qsum. induction l as [|x l IH]; cbn [map fold_right]; [ring|]. rewrite IH. ring. Qed.
Lemma qsum_filter : forall {A} (sel : A -> bool) (f : A -> Q) l, (qsum (map f l) == qsum (map f (filter sel l)) + qsum (map f (filter (fun x => negb (sel x)) l)))%Q.
Proof. intros A sel f l. unfold qsum. induction l as [|x l IH]; cbn [map filter fold_right]; [ring|]. rewrite IH. destruct (sel x); cbn [negb map fold_right]; ring. Qed.
Lemma qsum_zero : forall {A} (f : A -> Q) l, (forall x, In x l -> (f x == 0)%Q) -> (qsum (map f l) == 0)%Q.
Proof. intros A f l H. unfold qsum. induction l as [|x l IH]; cbn [map fold_right]; [reflexivity|]. rewrite IH, (H x (or_introl eq_refl)) by (intros y Y; apply H; now right). ring. Qed.
Lemma qsum_ext_in : forall {A} (f g : A -> Q) l, (forall x, In x l -> (f x == g x)%Q) -> (qsum (map f l) == qsum (map g l))%Q.
Proof. intros A f g l H. unfold qsum. induction l as [|x l IH]; cbn [map fold_right]; [reflexivity|]. rewrite IH, (H x (or_introl eq_refl)) by (intros y Y; apply H; now right). reflexivity. Qed.

(** ** Counting *)
Definition hits (vis : list (nat * nat)) (b p : nat) : nat := List.length (filter (fun v => Nat.eqb (fst v) b && Nat.eqb (snd v) p) vis).
Definition qn (n : nat) : Q := inject_Z (Z.of_nat n).
Lemma qn_add : forall a b, (qn (a + b) == qn a + qn b)%Q.
Proof. intros. unfold qn. rewrite Nat2Z.inj_add, inject_Z_plus. reflexivity. Qed.
Lemma hits_sum : forall nb np vis, (forall v, In v vis -> fst v < nb /\ snd v < np) -> (qsum (map (fun c => qn (hits vis (fst c) (snd c))) (cells nb np)) == qn (List.length vis))%Q.
Proof.
  intros nb np vis. induction vis as [|v vis IH]; intro H; [apply qsum_zero; intros; reflexivity|].
  destruct (H v (or_introl eq_refl)) as [V1 V2].
  rewrite (qsum_ext_in _ (fun c => (if Nat.eqb (fst v) (fst c) && Nat.eqb (snd v) (snd c) then 1 else 0) + qn (hits vis (fst c) (snd c)))%Q).
  - assert (S : forall (f g : nat * nat -> Q) l, (qsum (map (fun x => f x + g x)%Q l) == qsum (map f l) + qsum (map g l))%Q) by (intros f g l; unfold qsum; induction l as [|x l IHl]; cbn [map fold_right]; [ring|]; rewrite IHl; ring).
    rewrite S, IH by (intros w W; apply H; now right). change (List.length (v :: vis)) with (1 + List.length vis). rewrite qn_add. apply Qplus_comp; [|reflexivity].
    assert (I : In v (cells nb np)) by (destruct v; apply in_cells; auto). pose proof (cells_nodup nb np) as D. revert I D. generalize (cells nb np). intro l. induction l as [|c l IHl]; intros I D; [destruct I|]. inversion D as [|? ? D1 D2]; subst.
    cbn [map]. transitivity ((if Nat.eqb (fst v) (fst c) && Nat.eqb (snd v) (snd c) then 1 else 0) + qsum (map (fun x => if Nat.eqb (fst v) (fst x) && Nat.eqb (snd v) (snd x) then 1 else 0) l))%Q; [reflexivity|].
    destruct I as [->|I].
    + rewrite !Nat.eqb_refl. cbn [andb]. rewrite qsum_zero; [reflexivity|]. intros x X. destruct (Nat.eqb_spec (fst v) (fst x)) as [E1|_]; [|reflexivity]. destruct (Nat.eqb_spec (snd v) (snd x)) as [E2|_]; [|reflexivity]. exfalso. apply D1. destruct v, x. cbn in E1, E2. subst. exact X.
    + rewrite IHl by assumption. destruct (Nat.eqb_spec (fst v) (fst c)) as [E1|_]; [|cbn; ring]. destruct (Nat.eqb_spec (snd v) (snd c)) as [E2|_]; [|cbn; ring]. exfalso. apply D1. destruct v, c. cbn in E1, E2. subst. exact I.
  - intros c _. unfold hits. cbn [filter]. destruct (Nat.eqb (fst v) (fst c) && Nat.eqb (snd v) (snd c)); [cbn [List.length]; change (S ?n) with (1 + n); rewrite (qn_add 1); reflexivity|ring].
Qed.
Lemma zsum_inject : forall l, inject_Z (fold_right Z.add 0%Z l) == qsum (map inject_Z l).
Proof. unfold qsum. induction l as [|x l IH]; [reflexivity|]. cbn [map fold_right]. rewrite inject_Z_plus, IH. reflexivity. Qed.
Lemma nobs_all : forall np vis, (forall v, In v vis -> snd v < np) -> (inject_Z (fold_right Z.add 0%Z (nobs None np vis)) == qn (List.length vis))%Q.
Proof.
  intros np vis H. rewrite zsum_inject. unfold nobs. rewrite map_map. set (vis' := map (fun v : nat * nat => (0, snd v)) vis).
  assert (E : forall p, List.length (filter (fun v : nat * nat => true && Nat.eqb (snd v) p) vis) = hits vis' 0 p).
  { intro p. unfold hits, vis'. clear. induction vis as [|v vis IH]; [reflexivity|]. cbn [map filter fst snd]. cbn [Nat.eqb andb]. destruct (Nat.eqb (snd v) p); cbn [List.length]; rewrite ?IH; auto. }
  rewrite (map_ext _ (fun p => qn (hits vis' 0 p))) by (intro p; rewrite E; reflexivity).
  replace (List.length vis) with (List.length vis') by apply map_length. rewrite <- (hits_sum 1 np vis').
  - unfold cells. cbn [seq list_prod]. rewrite app_nil_r, map_map. reflexivity.
  - intros v V. apply in_map_iff in V. destruct V as (u & <- & U). cbn. split; [lia|apply H; exact U].
Qed.
(** the reward of a pixel *)
Lemma foot_reward_at : forall nb np w maps b p out vis, shape nb np w -> shape nb np maps -> b < nb -> p < np -> (forall v, In v vis -> fst v < nb /\ snd v < np) ->
  exists x, (x == cell w b p * qn (List.length vis) - qn (hits vis b p))%Q /\ nth p (foot_reward w maps np b out vis) ENaN = if Qle_bool (cell maps b p) 0 then out else EFin x.
Proof.
  intros nb np w maps b p out vis W M B P V. unfold foot_reward, foot_value. cbv zeta. set (N := inject_Z (fold_right Z.add 0%Z (nobs None np vis))).
  exists (cell w b p * N - qn (hits vis b p))%Q. split; [unfold N; rewrite nobs_all by (intros v Hv; apply V, Hv); reflexivity|].
  pose proof (shape_row _ _ _ b W B) as Lw. pose proof (shape_row _ _ _ b M B) as Lm.
  assert (Lo : List.length (oob_of (nth b maps [])) = np) by (unfold oob_of; rewrite map_length; exact Lm). assert (Ln : List.length (nobs (Some b) np vis) = np) by (unfold nobs; rewrite map_length, seq_length; reflexivity).
  rewrite (nth_indep _ ENaN ((fun q : bool * (Q * Z) => if fst q then out else EFin (fst (snd q) * N - inject_Z (snd (snd q)))%Q) (false, (0%Q, 0%Z)))) by (rewrite map_length, !combine_length; lia).
  rewrite (map_nth (fun q : bool * (Q * Z) => if fst q then out else EFin (fst (snd q) * N - inject_Z (snd (snd q)))%Q)). rewrite combine_nth by (rewrite combine_length; lia). rewrite combine_nth by lia. cbn [fst snd].
  unfold oob_of. rewrite (nth_indep _ false (Qle_bool 0 0)) by (rewrite map_length; lia). rewrite (map_nth (fun x => Qle_bool x 0)). fold (cell maps b p). fold (cell w b p).
  replace (inject_Z (nth p (nobs (Some b) np vis) 0%Z)) with (qn (hits vis b p)); [reflexivity|]. unfold nobs, qn. f_equal.
  rewrite (nth_indep _ 0%Z ((fun p => Z.of_nat (List.length (filter (fun v => Nat.eqb (fst v) b && Nat.eqb (snd v) p) vis))) 0)) by (rewrite map_length, seq_length; exact P).
  rewrite (map_nth (fun p => Z.of_nat (List.length (filter (fun v => Nat.eqb (fst v) b && Nat.eqb (snd v) p) vis)))), seq_nth by exact P. reflexivity.
Qed.
(** The needs of all cells add up to nothing. *)
Lemma needs_balance : forall nb np w vis, shape nb np w -> (gsum w == 1)%Q -> (forall v, In v vis -> fst v < nb /\ snd v < np) ->
  (qsum (map (fun c => cell w (fst c) (snd c) * qn (List.length vis) - qn (hits vis (fst c) (snd c)))%Q (cells nb np)) == 0)%Q.
Proof.
  intros nb np w vis W G V. rewrite (qsum_minus (fun c => (cell w (fst c) (snd c) * qn (List.length vis))%Q) (fun c => qn (hits vis (fst c) (snd c)))).
  rewrite qsum_scale, <- (gsum_cells nb np w W), G, hits_sum by exact V. ring.
Qed.
Lemma some_nonneg : forall {A} (f : A -> Q) l, l <> [] -> (0 <= qsum (map f l))%Q -> exists x, In x l /\ (0 <= f x)%Q.
Proof.
  intros A f l N H. destruct (existsb (fun x => Qle_bool 0 (f x)) l) eqn:E; [apply existsb_exists in E; destruct E as (x & X & Y); exists x; split; [exact X|apply Qle_bool_iff; exact Y]|].
  exfalso. assert (F : forall x, In x l -> (f x < 0)%Q).
  { intros x X. destruct (Qlt_le_dec (f x) 0) as [L|L]; [exact L|]. apply Qle_bool_iff in L. rewrite (proj2 (existsb_exists _ _)) in E; [discriminate|]. exists x. auto. }
  assert (G : (qsum (map f l) < 0)%Q); [|lra]. clear H E. destruct l as [|y l]; [congruence|]. clear N. revert y F. induction l as [|z l IH]; intros y F; [unfold qsum; cbn; pose proof (F y (or_introl eq_refl)); lra|].
  transitivity (qsum (map f (y :: l))); [|apply IH; intros x X; apply F; destruct X as [->|X]; [now left|right; now right]].
  unfold qsum. cbn [map fold_right]. pose proof (F z (or_intror (or_introl eq_refl))). lra.
Qed.
Lemma sum_lower : forall {A} (f : A -> Q) l x, In x l -> (forall y, In y l -> (-1 <= f y)%Q) -> (f x <= qsum (map f l) + qn (List.length l) - 1)%Q.
Proof.
  intros A f l. induction l as [|y l IH]; intros x X H; [destruct X|]. cbn [map List.length]. change (S (List.length l)) with (1 + List.length l). rewrite qn_add. change (qn 1) with 1%Q.
  apply Qle_trans with (f y + (qsum (map f l) + qn (List.length l)))%Q; [|change (qsum (f y :: map f l)) with (f y + qsum (map f l))%Q; lra].
  destruct X as [->|X].
  - assert (G : forall l, (forall y, In y l -> (-1 <= f y)%Q) -> (0 <= qsum (map f l) + qn (List.length l))%Q).
    { clear. induction l as [|y l IH]; intro H; [cbn; vm_compute; congruence|]. cbn [map List.length]. change (S (List.length l)) with (1 + List.length l). rewrite qn_add. change (qn 1) with 1%Q. change (qsum (f y :: map f l)) with (f y + qsum (map f l))%Q.
      pose proof (IH ltac:(intros z Z; apply H; now right)). pose proof (H y (or_introl eq_refl)). lra. }
    pose proof (G l ltac:(intros z Z; apply H; now right)). lra.
  - pose proof (IH x X ltac:(intros z Z; apply H; now right)). pose proof (H y (or_introl eq_refl)). lra.
Qed.

(** ** Season by season *)
Lemma cycles_nth : forall n (l : list Q) k, k < n * List.length l -> nth k (cycles n l) 0%Q = nth (k mod List.length l) l 0%Q.
Proof.
  intros n l. induction n as [|n IH]; intros k K; [cbn in K; lia|]. unfold cycles. cbn [repeat List.concat]. fold (cycles n l). destruct (Nat.lt_ge_cases k (List.length l)) as [L|L].
  - rewrite app_nth1 by exact L. rewrite Nat.mod_small by exact L. reflexivity.
  - rewrite app_nth2 by exact L. rewrite IH by (cbn in K; lia). f_equal. destruct (Nat.eq_dec (List.length l) 0) as [E|E]; [cbn in K; rewrite E, Nat.mul_0_r in K; lia|].
    replace k with ((k - List.length l) + 1 * List.length l) at 2 by lia. rewrite Nat.mod_add by exact E. reflexivity.
Qed.
Lemma one_nth : forall n_start n_end n_cycles c k, k < n_start + n_cycles * List.length c + n_end ->
  nth k (one_slopes n_start n_end n_cycles c) 0%Q = if (n_start <=? k) && (k <? n_start + n_cycles * List.length c) then nth ((k - n_start) mod List.length c) c 0%Q else 1%Q.
Proof.
  intros n_start n_end n_cycles c k K. destruct (Nat.leb_spec n_start k) as [A|A]; [destruct (Nat.ltb_spec k (n_start + n_cycles * List.length c)) as [B|B]|]; cbn [andb].
  - unfold one_slopes. rewrite app_nth2 by (rewrite repeat_length; exact A). rewrite repeat_length. rewrite app_nth1 by (rewrite cycles_len; lia). apply cycles_nth. lia.
  - apply ones_after; lia.
  - apply ones_before. exact A.
Qed.
Lemma swap_nth : forall l k, 2 <= List.length l -> k < List.length l -> nth k (swap_ends l) 0%Q = nth (if k =? 0 then List.length l - 1 else if k =? List.length l - 1 then 0 else k) l 0%Q.
Proof.
  intros [|x [|y l]] k L K; cbn [List.length] in L; try lia. change (swap_ends (x :: y :: l)) with (last (y :: l) 0%Q :: removelast (y :: l) ++ [x]).
  destruct (exists_last (l := y :: l) ltac:(discriminate)) as (a & z & E). rewrite E in *. rewrite last_last, removelast_last. clear E L y l. cbn [List.length] in *. rewrite app_length in *. cbn [List.length] in *.
  replace (S (List.length a + 1) - 1) with (S (List.length a)) by lia. destruct k as [|k]; cbn [Nat.eqb].
  - cbn [nth]. rewrite app_nth2 by lia. rewrite Nat.sub_diag. reflexivity.
  - destruct (Nat.eqb_spec k (List.length a)) as [E|E]; cbn [nth].
    + subst. rewrite app_nth2 by lia. rewrite Nat.sub_diag. reflexivity.
    + rewrite !app_nth1 by lia. reflexivity.
Qed.
Lemma slice_share : forall nslice scale order uniform j, 2 <= nslice -> j < cycle_len nslice uniform ->
  (qsum (map (fun i => nth j (slice_cycle nslice scale order uniform i) 0%Q) (seq 0 nslice)) == qn nslice)%Q.
Proof.
  intros nslice scale order uniform j N J. set (l := roll_of nslice scale order). assert (L : List.length l = nslice) by (apply roll_len; lia).
  destruct (Nat.lt_ge_cases j nslice) as [H|H].
  - assert (E : forall i, nth j (slice_cycle nslice scale order uniform i) 0%Q = nth j (np_roll l (Z.of_nat i)) 0%Q).
    { intro i. unfold slice_cycle. fold l. apply app_nth1. rewrite (Permutation_length (roll_perm _ _)). lia. }
    rewrite (map_ext _ _ E).
    rewrite <- L at 1. rewrite roll_share by lia. unfold l. apply roll_sum. lia.
  - unfold cycle_len in J. destruct uniform; [|lia]. rewrite (map_ext _ (fun _ => 1%Q)).
    + transitivity (qsum (repeat 1%Q nslice)); [|rewrite qsum_repeat; unfold qn; ring]. rewrite <- (seq_length nslice 0) at 2. generalize (seq 0 nslice). intro s. clear. unfold qsum. induction s as [|x s IH]; [reflexivity|]. cbn [map List.length repeat fold_right]. rewrite IH. reflexivity.
    + intro i. cbv beta. unfold slice_cycle. fold l. rewrite app_nth2 by (rewrite (Permutation_length (roll_perm _ _)); lia). rewrite (Permutation_length (roll_perm _ _)), L. replace (j - nslice) with 0 by lia. reflexivity.
Qed.
Lemma qsum_ones : forall {A} (l : list A), (qsum (map (fun _ => 1%Q) l) == qn (List.length l))%Q.
Proof. intros A l. induction l as [|x l IH]; [reflexivity|]. cbn [map List.length]. change (S (List.length l)) with (1 + List.length l). rewrite qn_add, <- IH. reflexivity. Qed.
Lemma season_share : forall nslice scale order n_start n_end n_cycles uniform k, 2 <= nslice -> k < n_start + n_cycles * cycle_len nslice uniform + n_end ->
  let AS := all_slopes nslice scale order n_start n_end n_cycles uniform in
  (qsum (map (fun i => nth k (nth i AS []) 0%Q) (seq 0 nslice)) == qn nslice)%Q /\ (qsum (map (fun i => nth k (nth (nslice + i) AS []) 0%Q) (seq 0 nslice)) == qn nslice)%Q.
Proof.
  intros nslice scale order n_start n_end n_cycles uniform k N K AS.
  set (cyc := slice_cycle nslice scale order uniform). assert (Lc : forall i, List.length (cyc i) = cycle_len nslice uniform) by (intro i; apply cycle_length; lia).
  assert (Ls : forall i, List.length (swap_ends (cyc i)) = cycle_len nslice uniform) by (intro i; rewrite (Permutation_length (swap_perm (cyc i) ltac:(rewrite Lc; unfold cycle_len; lia))); apply Lc).
  assert (A1 : forall i, i < nslice -> nth i AS [] = one_slopes n_start n_end n_cycles (cyc i)).
  { intros i I. unfold AS, all_slopes. rewrite app_nth1 by (rewrite map_length, seq_length; exact I). rewrite (nth_indep _ [] ((fun i => one_slopes n_start n_end n_cycles (cyc i)) 0)) by (rewrite map_length, seq_length; exact I).
    rewrite (map_nth (fun i => one_slopes n_start n_end n_cycles (cyc i))), seq_nth by exact I. reflexivity. }
  assert (A2 : forall i, i < nslice -> nth (nslice + i) AS [] = one_slopes n_start n_end n_cycles (swap_ends (cyc i))).
  { intros i I. unfold AS, all_slopes. rewrite app_nth2 by (rewrite map_length, seq_length; lia). rewrite map_length, seq_length. replace (nslice + i - nslice) with i by lia.
    rewrite (nth_indep _ [] ((fun i => one_slopes n_start n_end n_cycles (swap_ends (cyc i))) 0)) by (rewrite map_length, seq_length; exact I).
    rewrite (map_nth (fun i => one_slopes n_start n_end n_cycles (swap_ends (cyc i)))), seq_nth by exact I. reflexivity. }
  set (cl := cycle_len nslice uniform) in *. assert (Hcl : 2 <= cl) by (unfold cl, cycle_len; lia).
  rewrite (qsum_ext_in _ (fun i => if (n_start <=? k) && (k <? n_start + n_cycles * cl) then nth ((k - n_start) mod cl) (cyc i) 0%Q else 1%Q)) by (intros i I; apply in_seq in I; rewrite A1, one_nth, Lc by (rewrite ?Lc; lia); reflexivity).
  rewrite (qsum_ext_in (fun i => nth k (nth (nslice + i) AS []) 0%Q) (fun i => if (n_start <=? k) && (k <? n_start + n_cycles * cl) then nth ((k - n_start) mod cl) (swap_ends (cyc i)) 0%Q else 1%Q)) by (intros i I; apply in_seq in I; rewrite A2, one_nth, Ls by (rewrite ?Ls; lia); reflexivity).
  destruct ((n_start <=? k) && (k <? n_start + n_cycles * cl)).
  - set (j := (k - n_start) mod cl). assert (J : j < cl) by (apply Nat.mod_upper_bound; lia). split; [apply slice_share; assumption|].
    rewrite (qsum_ext_in _ (fun i => nth (if j =? 0 then cl - 1 else if j =? cl - 1 then 0 else j) (cyc i) 0%Q)) by (intros i _; rewrite swap_nth by (rewrite Lc; assumption); rewrite Lc; reflexivity).
    apply slice_share; [exact N|]. fold cl. destruct (j =? 0); [lia|]. destruct (j =? cl - 1); lia.
  - rewrite qsum_ones, seq_length. split; reflexivity.
Qed.
