(** C105: binning by id, into pixels, and multi-order maps. *)
From Coq Require Import List Bool ZArith QArith Lia Permutation Sorted.
From Verif Require Import Base HealBin HealBin_proofs.
Import ListNotations.
Open Scope Z_scope.

(** A sort of ids whose order among equals is open: positions, each once, with ids not falling. *)
Definition sorts (argsort : list Z -> list nat) : Prop := forall l,
  Permutation (argsort l) (seq 0 (List.length l)) /\ Sorted Z.le (map (fun i => nth i l 0) (argsort l)).
(** The values whose id is [u]. *)
Definition having {A} (u : Z) (ids : list Z) (values : list A) : list A := map snd (filter (fun p => fst p =? u) (combine ids values)).

(** A sort to use in examples: repeated insertion, later of equals first when [last]. *)
Fixpoint place_in (last : bool) (l : list Z) (i : nat) (order : list nat) : list nat :=
  match order with
  | [] => [i]
  | j :: o => let a := nth i l 0 in let b := nth j l 0 in if (if last then a <? b else a <=? b) then i :: order else j :: place_in last l i o
  end.
Definition sort_by (last : bool) (l : list Z) : list nat := fold_right (place_in last l) [] (seq 0 (List.length l)).
Lemma place_in_perm : forall last l i o, Permutation (place_in last l i o) (i :: o).
Proof.
  induction o as [|j o IH]; cbn; [apply Permutation_refl|]. destruct (if last then _ else _); [apply Permutation_refl|].
  eapply Permutation_trans; [apply perm_skip, IH|]. apply perm_swap.
Qed.
Lemma place_in_sorted : forall last l i o, Sorted Z.le (map (fun i => nth i l 0) o) -> Sorted Z.le (map (fun i => nth i l 0) (place_in last l i o)).
Proof.
  induction o as [|j o IH]; intros S; cbn [place_in map]; [repeat constructor|]. cbn [map] in S. apply Sorted_inv in S as (S & H).
  assert (D : (if last then nth i l 0 <? nth j l 0 else nth i l 0 <=? nth j l 0) = true -> nth i l 0 <= nth j l 0) by (destruct last; [rewrite Z.ltb_lt|rewrite Z.leb_le]; lia).
  assert (D' : (if last then nth i l 0 <? nth j l 0 else nth i l 0 <=? nth j l 0) = false -> nth j l 0 <= nth i l 0) by (destruct last; [rewrite Z.ltb_ge|rewrite Z.leb_gt]; lia).
  destruct (if last then _ else _) eqn:E; cbn [map]; [repeat (constructor; auto)|]. constructor; [now apply IH|].
  destruct o as [|k o]; cbn [place_in map]; [constructor; auto|]. cbn [map] in H. inversion H as [|? ? H1]. destruct (if last then nth i l 0 <? nth k l 0 else _); cbn [map]; constructor; auto.
Qed.
Lemma sort_by_sorts : forall last, sorts (sort_by last).
Proof.
  intros last l. unfold sort_by. induction (seq 0 (List.length l)) as [|i o (P & S)]; cbn [fold_right]; [repeat constructor|]. split.
  - eapply Permutation_trans; [apply place_in_perm|]. now apply perm_skip.
  - now apply place_in_sorted.
Qed.

(** int_binned_stat: the ids come back once each in rising order, and with each the statistic of
    exactly the values given for it, for any statistic that does not look at the order of its input
    ([alike'] says when two of its answers agree). *)
Theorem C105_bins : forall A B (alike' : B -> B -> Prop) argsort statistic ids (values : list A), sorts argsort ->
  (forall a b, Permutation a b -> alike' (statistic a) (statistic b)) -> List.length ids = List.length values ->
  exists uids stats, int_binned_stat argsort statistic ids values = Ok (uids, stats) /\
    StronglySorted Z.lt uids /\ (forall u, In u uids <-> In u ids) /\
    Forall2 (fun u s => alike' s (statistic (having u ids values)) /\ having u ids values <> []) uids stats.
Proof.
  intros A B R argsort statistic ids values K H L. destruct (groups argsort _ ids values K L) as (oi & ov & G1 & G2 & P & S).
  unfold int_binned_stat. rewrite G1, G2. cbn [bind]. eexists _, _. split; [reflexivity|]. split; [apply unique_sorted|]. split; [intros; apply unique_in|].
  assert (U : forall u, In u (unique ids) -> In u ids) by (intros; now apply unique_in). induction (unique ids) as [|u us IH]; cbn [map]; [constructor|]. constructor.
  - split; [apply H, S|]. intros N. apply (with_id_nil _ _ values u L) in N. apply N, U. now left.
  - apply IH. intros; apply U. now right.
Qed.
Print Assumptions C105_bins.
Example C105_bins_ex : int_binned_stat (sort_by false) np_sum [7; 2; 7; 2; 5] [Some 1%Q; Some 2%Q; Some 3%Q; None; Some 4%Q] = Ok ([2; 5; 7], [None; Some 4%Q; Some 4%Q]).
Proof. reflexivity. Qed.

(** A statistic that looks at the order has no settled answer: two sorts that both put the ids in
    order give different first values. *)
Theorem C105_order_refuted : exists argsort argsort' ids values, sorts argsort /\ sorts argsort' /\ List.length ids = List.length values /\
  int_binned_stat argsort (fun l => hd 0 l) ids values <> int_binned_stat argsort' (fun l => hd 0 l) ids values.
Proof.
  exists (sort_by false), (sort_by true), [3; 3], [10; 20]. split; [apply sort_by_sorts|]. split; [apply sort_by_sorts|]. split; [reflexivity|]. vm_compute. discriminate.
Qed.
Print Assumptions C105_order_refuted.

(** More ids than values is an error. *)
Theorem C105_short : forall A B argsort (statistic : list A -> B) ids values, sorts argsort -> (List.length values < List.length ids)%nat ->
  int_binned_stat argsort statistic ids values = Raise IndexError.
Proof.
  intros A B argsort statistic ids values K L. unfold int_binned_stat. destruct (K ids) as (P & _).
  rewrite (gather_ok _ ids 0) by (intros i I; apply (Permutation_in _ P), in_seq in I; lia). cbn [bind].
  assert (I : In (List.length values) (argsort ids)) by (apply (Permutation_in _ (Permutation_sym P)), in_seq; lia).
  replace (gather values (argsort ids)) with (@Raise (list A) IndexError); [reflexivity|]. symmetry. induction (argsort ids) as [|j o IH]; [destruct I|]. cbn [gather].
  destruct (nth_error values j) eqn:E; [|reflexivity]. destruct I as [->|I].
  - assert (N : nth_error values (List.length values) <> None) by congruence. apply nth_error_Some in N. lia.
  - enough (F : gather values o = Raise IndexError) by now rewrite F. clear P. revert I. clear. induction o as [|k o IH]; intros I; [destruct I|]. cbn [gather]. destruct (nth_error values k) eqn:E; [|reflexivity].
    destruct I as [->|I]; [|now rewrite IH]. assert (N : nth_error values (List.length values) <> None) by congruence. apply nth_error_Some in N. lia.
Qed.
Print Assumptions C105_short.
Example C105_short_ex : int_binned_stat (sort_by true) (fun l : list Z => List.length l) [1; 2] [5] = Raise IndexError.
Proof. reflexivity. Qed.

(** _healbin: every pixel holds the reduction of the values that fall in it, and the fill value where
    none falls or the reduction is nan. *)
Theorem C105_healbin : forall argsort reduce npix fill hpids values, sorts argsort ->
  (forall a b, Permutation a b -> alike (reduce a) (reduce b)) -> List.length hpids = List.length values ->
  (forall i, In i hpids -> 0 <= i < Z.of_nat npix) ->
  exists m, healbin argsort reduce npix fill hpids values = Ok m /\ List.length m = npix /\
  forall p, (p < npix)%nat -> exists v, nth_error m p = Some v /\
    (~ In (Z.of_nat p) hpids -> v = fill) /\
    (In (Z.of_nat p) hpids -> forall x, alike (reduce (having (Z.of_nat p) hpids values)) (Some x) -> alike v (Some x)) /\
    (In (Z.of_nat p) hpids -> reduce (having (Z.of_nat p) hpids values) = None -> v = fill).
Proof.
  intros argsort reduce npix fill ids values K R L B. destruct (groups argsort _ ids values K L) as (oi & ov & G1 & G2 & P & S).
  unfold healbin. rewrite G1, G2. cbn [bind]. eexists. split; [reflexivity|].
  destruct (fold_set _ (fun idx => reduce (slice ov (left_of oi idx) (right_of oi idx))) (unique oi) (repeat fill npix)) as (LN & G).
  { intros i I. rewrite repeat_length. apply B, (Permutation_in _ P), unique_in, I. }
  rewrite repeat_length in LN, G. rewrite map_length. split; [exact LN|]. intros p Hp. rewrite nth_error_map, (G p Hp).
  assert (A := R _ _ (S (Z.of_nat p))). change (with_id (Z.of_nat p) ids values) with (having (Z.of_nat p) ids values) in A.
  destruct (existsb (fun i => i =? Z.of_nat p) (unique oi)) eqn:E.
  - rewrite existsb_in, unique_in in E. apply (Permutation_in _ P) in E. eexists. split; [reflexivity|]. split; [tauto|].
    destruct (reduce (slice ov _ _)) as [s|], (reduce (having _ _ _)) as [h|]; cbn in A; try tauto; cbn.
    + split; [|discriminate]. intros _ x X. now rewrite A.
    + split; [tauto|reflexivity].
  - rewrite (nth_error_nth' _ fill) by (rewrite repeat_length; exact Hp). cbn [option_map]. rewrite nth_repeat. eexists. split; [reflexivity|].
    assert (N : ~ In (Z.of_nat p) ids) by (intros I; apply (Permutation_in _ (Permutation_sym P)), unique_in, existsb_in in I; congruence).
    split; [intros _; now destruct fill|]. split; tauto.
Qed.
Print Assumptions C105_healbin.
Example C105_healbin_ex : healbin (sort_by false) np_sum 4 (Some (-1)%Q) [2; 0; 2; 3] [Some 5%Q; Some 1%Q; Some 2%Q; None] = Ok [Some 1%Q; Some (-1)%Q; Some 7%Q; Some (-1)%Q].
Proof. reflexivity. Qed.

(** The cell numbers of a multi-order map are read back: order and pixel, one pair for each number. *)
Definition code (c : Z * Z) : Z := 4 * 4 ^ fst c + snd c.
Definition cell (c : Z * Z) : Prop := 0 <= fst c /\ 0 <= snd c < 12 * 4 ^ fst c.
Theorem C105_cells : (forall c, cell c -> 4 <= code c /\ (order_of (code c), pix_of (code c)) = c) /\
  (forall u, 4 <= u -> cell (order_of u, pix_of u) /\ code (order_of u, pix_of u) = u).
Proof.
  split.
  - intros (o, p) (O & P). cbn [fst snd] in *. unfold code. cbn [fst snd]. destruct (cell_decode o p O P) as (-> & ->). split; [|reflexivity].
    assert (0 < 4 ^ o) by (apply Z.pow_pos_nonneg; lia). lia.
  - intros u U. destruct (cell_encode u U) as (A & B & C). split; [split; assumption|exact C].
Qed.
Print Assumptions C105_cells.
Example C105_cells_ex : cell (3, 700) /\ code (3, 700) = 956 /\ order_of 956 = 3 /\ pix_of 956 = 700.
Proof. vm_compute. repeat split; discriminate. Qed.

(** moc2array with the sum, a density and zero fill: what a pixel holds times its area is the sum of
    density times area over the cells whose centre it holds, and the sum over the sky is kept. *)
Definition area (sky : Q) (order : Z) : Q := (sky / inject_Z (12 * 4 ^ order))%Q.
Definition amount (sky : Q) (cd : (Z * Z) * Q) : Q := (snd cd * area sky (fst (fst cd)))%Q.
Definition value (v : option Q) : Q := match v with Some x => x | None => 0%Q end.
Lemma area_pos : forall sky o, (0 < sky)%Q -> 0 <= o -> (0 < area sky o)%Q.
Proof.
  intros sky o S O. unfold area. apply Qlt_shift_div_l; [|now rewrite Qmult_0_l]. change 0%Q with (inject_Z 0). rewrite <- Zlt_Qlt. assert (0 < 4 ^ o) by (apply Z.pow_pos_nonneg; lia). lia.
Qed.
Lemma tobin_amounts : forall sky cells ds, Forall cell cells -> List.length cells = List.length ds ->
  map (fun '(d, u) => scale_by (pix_area sky (order_of u)) d) (combine (map Some ds) (map code cells)) = map Some (map (amount sky) (combine cells ds)).
Proof.
  intros sky. induction cells as [|c cells IH]; intros [|d ds] F L; try discriminate; [reflexivity|]. inversion F as [|? ? C F']. injection L as L. cbn [map combine]. rewrite IH by assumption.
  destruct C as (C1 & C2). destruct (cell_decode (fst c) (snd c) C1 C2) as (E & _). unfold code at 1. rewrite E. reflexivity.
Qed.
Lemma lands_cells : forall (lands : Z -> Z -> Z) cells, Forall cell cells -> map (fun u => lands (order_of u) (pix_of u)) (map code cells) = map (fun c => lands (fst c) (snd c)) cells.
Proof.
  intros lands. induction cells as [|c cells IH]; intros F; [reflexivity|]. inversion F as [|? ? (C1 & C2) F']. cbn [map]. rewrite IH by assumption.
  destruct (cell_decode (fst c) (snd c) C1 C2) as (E & E'). unfold code at 1 2. now rewrite E, E'.
Qed.
Lemma differs_some : forall x y, differs (Some x) (Some y) = false -> (x == y)%Q.
Proof. intros x y. cbn. rewrite negb_false_iff. apply Qeq_bool_iff. Qed.
Theorem C105_moc : forall argsort lands sky out_order cells ds, sorts argsort -> (0 < sky)%Q -> 0 <= out_order ->
  Forall cell cells -> List.length cells = List.length ds -> (forall c, In c cells -> 0 <= lands (fst c) (snd c) < 12 * 4 ^ out_order) ->
  exists m, moc2array argsort lands sky np_sum true out_order (Some 0%Q) (map Some ds) (map code cells) = Ok m /\ Z.of_nat (List.length m) = 12 * 4 ^ out_order /\
    (forall p, (p < List.length m)%nat -> exists x, nth_error m p = Some (Some x) /\
      (x * area sky out_order == total (map (amount sky) (filter (fun cd => Z.eqb (lands (fst (fst cd)) (snd (fst cd))) (Z.of_nat p)) (combine cells ds))))%Q) /\
    (total (map value m) * area sky out_order == total (map (amount sky) (combine cells ds)))%Q.
Proof.
  intros argsort lands sky oo cells ds K S O F L B. unfold moc2array. rewrite tobin_amounts, lands_cells by assumption.
  set (npix := Z.to_nat (12 * 4 ^ oo)). assert (NP : Z.of_nat npix = 12 * 4 ^ oo) by (unfold npix; assert (0 < 4 ^ oo) by (apply Z.pow_pos_nonneg; lia); lia).
  set (ids := map (fun c => lands (fst c) (snd c)) cells). set (am := map (amount sky) (combine cells ds)).
  assert (L' : List.length ids = List.length am) by (unfold ids, am; rewrite !map_length, combine_length, L; lia).
  assert (B' : forall i, In i ids -> 0 <= i < Z.of_nat npix) by (intros i I; unfold ids in I; apply in_map_iff in I as (c & <- & I); rewrite NP; now apply B).
  destruct (healbin_get argsort np_sum npix (Some 0%Q) ids (map Some am) K np_sum_perm) as (m & E & LM & G); [now rewrite map_length|exact B'|].
  rewrite E. cbn [bind]. assert (A := area_pos sky oo S O). assert (A0 : ~ (area sky oo == 0)%Q) by (intros Z0; rewrite Z0 in A; now apply Qlt_irrefl in A).
  assert (W : forall p, total (with_id p ids am) = total (map (amount sky) (filter (fun cd : (Z * Z) * Q => Z.eqb (lands (fst (fst cd)) (snd (fst cd))) p) (combine cells ds)))).
  { intros p. unfold ids, am, with_id. clear - L. revert ds L. induction cells as [|c cells IH]; intros [|d ds] L; try discriminate; [reflexivity|]. injection L as L. cbn [map combine filter fst snd].
    destruct (lands (fst c) (snd c) =? p); cbn [map snd]; unfold total in *; cbn [fold_right]; now rewrite IH. }
  eexists. split; [reflexivity|]. rewrite map_length, LM. split; [exact NP|].
  assert (GET : forall p, (p < npix)%nat -> exists x, nth_error (map (fun v => if differs v (Some 0%Q) then scale_by (/ pix_area sky oo)%Q v else v) m) p = Some (Some x) /\ (x * area sky oo == total (with_id (Z.of_nat p) ids am))%Q).
  { intros p Hp. destruct (G p Hp) as (v & N & V). rewrite nth_error_map, N. cbn [option_map].
    assert (V' : alike v (Some (total (with_id (Z.of_nat p) ids am)))).
    { eapply alike_trans; [exact V|]. rewrite with_id_map. unfold binned. destruct (with_id (Z.of_nat p) ids am) as [|x l]; cbn [map]; [cbn; reflexivity|].
      change (Some x :: map Some l) with (map Some (x :: l)). rewrite np_sum_some. cbn [or_fill]. apply alike_refl. }
    destruct v as [v|]; [|destruct V']. cbn [alike] in V'. destruct (differs (Some v) (Some 0%Q)) eqn:D.
    - eexists. split; [reflexivity|]. change (pix_area sky oo) with (area sky oo). rewrite <- V'. field. exact A0.
    - apply differs_some in D. exists v. split; [reflexivity|]. rewrite <- V', D. ring. }
  split.
  - intros p Hp. destruct (GET p Hp) as (x & N & X). exists x. split; [exact N|]. now rewrite X, W.
  - set (r := map (fun v => if differs v (Some 0%Q) then scale_by (/ pix_area sky oo)%Q v else v) m) in *. assert (LR : List.length r = npix) by (unfold r; now rewrite map_length). clearbody r.
    rewrite <- (total_groups npix ids am L' B'). clear - GET LR.
    enough (T : forall r k, (forall p, (p < List.length r)%nat -> exists x, nth_error r p = Some (Some x) /\ (x * area sky oo == total (with_id (Z.of_nat (k + p)) ids am))%Q) ->
      (total (map value r) * area sky oo == total (map (fun p => total (with_id (Z.of_nat p) ids am)) (seq k (List.length r))))%Q).
    { rewrite <- LR. apply T. rewrite LR. exact GET. }
    clear. induction r as [|v r IH]; intros k H; [cbn; ring|]. destruct (H 0%nat ltac:(cbn; lia)) as (x & X & Y). cbn in X. injection X as ->.
    cbn [List.length seq map value]. unfold total. cbn [fold_right]. fold (total (map value r)) (total (map (fun p => total (with_id (Z.of_nat p) ids am)) (seq (S k) (List.length r)))).
    rewrite Nat.add_0_r in Y. rewrite Qmult_plus_distr_l, Y. fold (total (with_id (Z.of_nat k) ids am)). rewrite <- IH; [reflexivity|].
    intros p Hp. destruct (H (S p) ltac:(cbn; lia)) as (x' & X' & Y'). exists x'. split; [exact X'|]. now rewrite Nat.add_succ_r in Y'.
Qed.
Print Assumptions C105_moc.
(** Two order 1 cells of pixel 0 of order 0 and one order 0 cell (pixels in nested order). *)
Definition up (out o p : Z) : Z := if o <=? out then p * 4 ^ (out - o) else p / 4 ^ (o - out).
Example C105_moc_ex : exists m, moc2array (sort_by false) (up 0) 48 np_sum true 0 (Some 0%Q) (map Some [2; 6; 5]%Q) (map code [(1, 0); (1, 3); (0, 7)]) = Ok m /\
  map (fun v => Qred (value v)) m = [2; 0; 0; 0; 0; 0; 0; 5; 0; 0; 0; 0]%Q /\ Forall cell [(1, 0); (1, 3); (0, 7)].
Proof. eexists. split; [reflexivity|]. split; [reflexivity|]. repeat constructor; cbn; lia. Qed.

(** Without density: plain sums of the data, the fill value where no centre falls. *)
Theorem C105_moc_plain : forall argsort lands sky out_order fill cells ds, sorts argsort -> 0 <= out_order ->
  Forall cell cells -> List.length cells = List.length ds -> (forall c, In c cells -> 0 <= lands (fst c) (snd c) < 12 * 4 ^ out_order) ->
  exists m, moc2array argsort lands sky np_sum false out_order fill (map Some ds) (map code cells) = Ok m /\ Z.of_nat (List.length m) = 12 * 4 ^ out_order /\
    (forall p, (p < List.length m)%nat -> 
      let here := filter (fun cd => Z.eqb (lands (fst (fst cd)) (snd (fst cd))) (Z.of_nat p)) (combine cells ds) in
      (here = [] -> exists v, nth_error m p = Some v /\ alike v fill) /\
      (here <> [] -> exists x, nth_error m p = Some (Some x) /\ (x == total (map snd here))%Q)).
Proof.
  intros argsort lands sky oo fill cells ds K O F L B. unfold moc2array. rewrite lands_cells by assumption.
  set (npix := Z.to_nat (12 * 4 ^ oo)). assert (NP : Z.of_nat npix = 12 * 4 ^ oo) by (unfold npix; assert (0 < 4 ^ oo) by (apply Z.pow_pos_nonneg; lia); lia).
  set (ids := map (fun c => lands (fst c) (snd c)) cells).
  assert (B' : forall i, In i ids -> 0 <= i < Z.of_nat npix) by (intros i I; unfold ids in I; apply in_map_iff in I as (c & <- & I); rewrite NP; now apply B).
  destruct (healbin_get argsort np_sum npix fill ids (map Some ds) K np_sum_perm) as (m & E & LM & G); [unfold ids; now rewrite !map_length|exact B'|].
  rewrite E. cbn [bind]. exists m. split; [reflexivity|]. rewrite LM. split; [exact NP|]. intros p Hp. set (here := filter (fun cd : (Z * Z) * Q => Z.eqb (lands (fst (fst cd)) (snd (fst cd))) (Z.of_nat p)) (combine cells ds)). destruct (G p Hp) as (v & N & V). rewrite N.
  assert (W : with_id (Z.of_nat p) ids ds = map snd here).
  { unfold here, ids, with_id. clear - L. revert ds L. induction cells as [|c cells IH]; intros [|d ds] L; try discriminate; [reflexivity|]. injection L as L. cbn [map combine filter fst snd].
    destruct (lands (fst c) (snd c) =? Z.of_nat p); cbn [map snd]; now rewrite IH. }
  rewrite with_id_map, W in V. clearbody here. split; intros H.
  - rewrite H in V. exists v. split; [reflexivity|exact V].
  - destruct here as [|h here]; [congruence|]. cbn [map binned] in V. change (Some (snd h) :: map Some (map snd here)) with (map Some (map snd (h :: here))) in V. rewrite np_sum_some in V. cbn [or_fill] in V.
    destruct v as [v|]; [|destruct V]. exists v. split; [reflexivity|exact V].
Qed.
Print Assumptions C105_moc_plain.
Example C105_moc_plain_ex : moc2array (sort_by true) (up 0) 48 np_sum false 0 None (map Some [2; 6; 5]%Q) (map code [(1, 0); (1, 3); (0, 7)]) =
  Ok [Some 8%Q; None; None; None; None; None; None; Some 5%Q; None; None; None; None].
Proof. reflexivity. Qed.

(** Refuted: that a density given over the whole sky comes back everywhere.  Twelve cells that cover
    the sky with density one leave a pixel of a finer map at zero, wherever the centres fall. *)
Theorem C105_moc_refuted : exists cells ds out_order, Forall cell cells /\ List.length cells = List.length ds /\ (forall p, 0 <= p < 12 -> In (0, p) cells) /\ Forall (fun d => d = 1%Q) ds /\
  forall argsort lands sky, sorts argsort -> (0 < sky)%Q -> (forall c, In c cells -> 0 <= lands (fst c) (snd c) < 12 * 4 ^ out_order) ->
  exists m p x, moc2array argsort lands sky np_sum true out_order (Some 0%Q) (map Some ds) (map code cells) = Ok m /\ nth_error m p = Some (Some x) /\ (x == 0)%Q.
Proof.
  set (cells := map (fun p => (0, Z.of_nat p)) (seq 0 12)). exists cells, (repeat 1%Q 12), 1.
  assert (F : Forall cell cells) by (apply Forall_forall; intros c I; apply in_map_iff in I as (p & <- & I); apply in_seq in I; split; cbn; lia).
  split; [exact F|]. split; [reflexivity|]. split; [intros p P; apply in_map_iff; exists (Z.to_nat p); split; [f_equal; lia|apply in_seq; lia]|].
  split; [apply Forall_forall; intros d D; now apply repeat_spec in D|]. intros argsort lands sky K S B.
  destruct (C105_moc argsort lands sky 1 cells (repeat 1%Q 12) K S ltac:(lia) F eq_refl B) as (m & E & LM & G & _).
  set (hit := map (fun c => lands (fst c) (snd c)) cells).
  assert (X : exists p, In p (seq 0 48) /\ ~ In (Z.of_nat p) hit).
  { destruct (Forall_Exists_dec (fun p => In (Z.of_nat p) hit) (fun p => in_dec Z.eq_dec (Z.of_nat p) hit) (seq 0 48)) as [A|X].
    - exfalso. assert (I : incl (map Z.of_nat (seq 0 48)) hit) by (intros z Hz; apply in_map_iff in Hz as (p & <- & Hp); rewrite Forall_forall in A; now apply A).
      apply NoDup_incl_length in I; [|apply FinFun.Injective_map_NoDup; [intros a b; apply Nat2Z.inj|apply seq_NoDup]]. vm_compute in I. lia.
    - apply Exists_exists in X. exact X. }
  destruct X as (p & P & N). apply in_seq in P. assert (P' : (p < List.length m)%nat) by (change (12 * 4 ^ 1) with 48 in LM; lia).
  destruct (G p P') as (x & X & V). exists m, p, x. split; [exact E|]. split; [exact X|].
  rewrite (filter_none _ _ (combine cells (repeat 1%Q 12))) in V.
  - cbn in V. apply Qmult_integral in V as [V|V]; [exact V|]. exfalso. assert (A := area_pos sky 1 S ltac:(lia)). rewrite V in A. now apply Qlt_irrefl in A.
  - intros (c, d) I. apply in_combine_l in I. cbn [fst snd]. apply Z.eqb_neq. intros Q. apply N. rewrite <- Q. unfold hit. apply in_map_iff. exists c. split; [reflexivity|exact I].
Qed.
Print Assumptions C105_moc_refuted.

(** Refuted for another fill value: a pixel whose sum happens to equal the fill value is taken for an
    empty one and is not divided by its area. *)
Theorem C105_fill_refuted : exists argsort lands sky fill m x y, sorts argsort /\ (0 < sky)%Q /\
  moc2array argsort lands sky np_sum true 0 (Some fill) [Some 3%Q; Some 1%Q] (map code [(0, 0); (0, 1)]) = Ok m /\
  nth_error m 0 = Some (Some x) /\ (x == 3)%Q /\ nth_error m 1 = Some (Some y) /\ (y == 2)%Q.
Proof.
  exists (sort_by false), (up 0), 24%Q, 2%Q. eexists _, _, _. split; [apply sort_by_sorts|]. split; [reflexivity|]. split; [vm_compute; reflexivity|].
  split; [reflexivity|]. split; [reflexivity|]. split; reflexivity.
Qed.
Print Assumptions C105_fill_refuted.

(** ra_dec_nearest_interp: the mean of the map over the nearest pixels, those no other of the four
    outweighs; one of them alone gives the map's own value there. *)
Definition heaviest (near : list (Z * Q)) : list Z := map fst (filter (fun p : Z * Q => forallb (fun q : Z * Q => Qle_bool (snd q) (snd p)) near) near).
Lemma qmax_spec : forall l m, (m <= fold_left (fun m (q : Z * Q) => qmax m (snd q)) l m)%Q /\ (forall q, In q l -> snd q <= fold_left (fun m (q : Z * Q) => qmax m (snd q)) l m)%Q /\ (fold_left (fun m (q : Z * Q) => qmax m (snd q)) l m = m \/ exists q, In q l /\ fold_left (fun m (q : Z * Q) => qmax m (snd q)) l m = snd q).
Proof.
  induction l as [|q l IH]; intros m; cbn [fold_left]; [split; [apply Qle_refl|]; split; [intros q []|now left]|]. destruct (IH (qmax m (snd q))) as (A & B & C).
  assert (M : (m <= qmax m (snd q))%Q /\ (snd q <= qmax m (snd q))%Q /\ (qmax m (snd q) = m \/ qmax m (snd q) = snd q)).
  { unfold qmax. destruct (Qle_bool m (snd q)) eqn:E; [apply Qle_bool_iff in E; split; [exact E|split; [apply Qle_refl|now right]]|].
    split; [apply Qle_refl|]. split; [|now left]. destruct (Qlt_le_dec (snd q) m) as [H|H]; [now apply Qlt_le_weak|]. apply Qle_bool_iff in H. congruence. }
  destruct M as (M1 & M2 & M3). split; [eapply Qle_trans; eassumption|]. split.
  - intros q' [<-|I]; [eapply Qle_trans; eassumption|now apply B].
  - destruct C as [C|(q' & I & C)]; [|right; exists q'; split; [now right|exact C]]. destruct M3 as [M3|M3]; [left; congruence|right; exists q; split; [now left|congruence]].
Qed.
Theorem C105_nearest : forall in_array near, near <> [] -> heaviest near <> [] /\
  (nearest_interp in_array near == total (map in_array (heaviest near)) / inject_Z (Z.of_nat (List.length (heaviest near))))%Q.
Proof.
  intros f near N. unfold nearest_interp. set (mw := match near with [] => 0%Q | p :: l => fold_left (fun m q => qmax m (snd q)) l (snd p) end).
  assert (MW : (forall q, In q near -> snd q <= mw)%Q /\ exists q, In q near /\ snd q = mw).
  { destruct near as [|p l]; [congruence|]. unfold mw. destruct (qmax_spec l (snd p)) as (A & B & C). split.
    - intros q [<-|I]; [exact A|now apply B].
    - destruct C as [C|(q & I & C)]; [exists p; split; [now left|now symmetry]|exists q; split; [now right|now symmetry]]. }
  destruct MW as (M1 & q0 & I0 & M2).
  assert (T : forall p, In p near -> forallb (fun q : Z * Q => Qle_bool (snd q) (snd p)) near = Qle_bool mw (snd p)).
  { intros p I. destruct (Qle_bool mw (snd p)) eqn:E.
    - apply forallb_forall. intros q J. apply Qle_bool_iff. apply Qle_bool_iff in E. eapply Qle_trans; [apply M1, J|exact E].
    - apply not_true_is_false. intros F. rewrite forallb_forall in F. specialize (F q0 I0). rewrite M2 in F. congruence. }
  assert (H : heaviest near = map fst (filter (fun p : Z * Q => Qle_bool mw (snd p)) near)).
  { unfold heaviest. f_equal. apply filter_ext_in. exact T. }
  rewrite H. split.
  { intros E. apply map_eq_nil in E. assert (J : In q0 (filter (fun p : Z * Q => Qle_bool mw (snd p)) near)) by (apply filter_In; split; [exact I0|apply Qle_bool_iff; rewrite M2; apply Qle_refl]). rewrite E in J. destruct J. }
  assert (P : (0 < List.length (filter (fun p : Z * Q => Qle_bool mw (snd p)) near))%nat).
  { assert (J : In q0 (filter (fun p : Z * Q => Qle_bool mw (snd p)) near)) by (apply filter_In; split; [exact I0|apply Qle_bool_iff; rewrite M2; apply Qle_refl]). destruct (filter _ near); [destruct J|cbn; lia]. }
  clearbody mw. clear - P. rewrite map_length. set (n := List.length (filter (fun p : Z * Q => Qle_bool mw (snd p)) near)) in *.
  assert (S : (fold_right Qplus 0 (map (fun p : Z * Q => if Qle_bool mw (snd p) then 1 else 0) near) == inject_Z (Z.of_nat n))%Q).
  { unfold n. clear. induction near as [|p l IH]; [reflexivity|]. cbn [map fold_right filter]. destruct (Qle_bool mw (snd p)); cbn [List.length]; rewrite IH; [|ring]. rewrite Nat2Z.inj_succ. unfold Z.succ. rewrite inject_Z_plus. change (inject_Z 1) with 1%Q. ring. }
  assert (NZ : ~ (inject_Z (Z.of_nat n) == 0)%Q) by (intros HZ; change 0%Q with (inject_Z 0) in HZ; rewrite inject_Z_injective in HZ; change 0 with (Z.of_nat 0) in HZ; apply Nat2Z.inj in HZ; rewrite HZ in P; inversion P).
  set (t := fold_right Qplus 0%Q (map (fun p : Z * Q => if Qle_bool mw (snd p) then 1%Q else 0%Q) near)) in *. clearbody t n.
  clear P. assert (TZ : ~ (t == 0)%Q) by (now rewrite S). rewrite <- S. clear S NZ n. induction near as [|p l IH]; [cbn; field; exact TZ|].
  cbn [map combine fold_right filter]. rewrite IH. destruct (Qle_bool mw (snd p)); cbn [map]; unfold total; cbn [fold_right]; field; exact TZ.
Qed.
Print Assumptions C105_nearest.
Definition four : list (Z * Q) := [(4, (1 # 8)%Q); (5, (3 # 8)%Q); (9, (1 # 8)%Q); (10, (3 # 8)%Q)].
Example C105_nearest_ex : heaviest four = [5; 10] /\ (nearest_interp (fun p => inject_Z (p * p)) four == 125 # 2)%Q.
Proof. vm_compute. split; reflexivity. Qed.

(** match_hp_resolution: no mark for "no value" is left, and other values are those of the regraded
    map, or of the map itself at its own resolution. *)
Theorem C105_match : forall nside_of ud_grade in_map nside_out i, 
  let src := if nside_of in_map =? nside_out then in_map else ud_grade in_map nside_out in
  let out := fst (match_hp_resolution nside_of ud_grade in_map nside_out true) in
  List.length out = List.length src /\ nth_error out i <> Some (Some unseen) /\
  (forall x, nth_error src i = Some (Some x) -> ~ (x == unseen)%Q -> nth_error out i = Some (Some x)) /\
  (forall x, nth_error src i = Some (Some x) -> (x == unseen)%Q -> nth_error out i = Some None) /\
  fst (match_hp_resolution nside_of ud_grade in_map nside_out false) = src.
Proof.
  intros nside_of ud_grade in_map nside_out i src out. subst src out. unfold match_hp_resolution.
  destruct (nside_of in_map =? nside_out); cbn [fst]; rewrite map_length, nth_error_map; (split; [reflexivity|]); (split; [|split; [|split; [|reflexivity]]]).
  1, 4: destruct (nth_error _ i) as [[x|]|]; cbn [option_map]; try discriminate; destruct (Qeq_bool x unseen) eqn:E; [discriminate|]; intros H; injection H as ->; vm_compute in E; discriminate.
  1, 3: intros x -> N; cbn [option_map]; destruct (Qeq_bool x unseen) eqn:E; [apply Qeq_bool_iff in E; contradiction|reflexivity].
  all: intros x -> N; cbn [option_map]; apply Qeq_bool_iff in N; rewrite N; reflexivity.
Qed.
Print Assumptions C105_match.
Example C105_match_ex : fst (match_hp_resolution (fun m => Z.of_nat (List.length m)) (fun m _ => m ++ m) [Some 1%Q; Some unseen] 4 true) = [Some 1%Q; None; Some 1%Q; None].
Proof. vm_compute. reflexivity. Qed.

(** Refuted: that the caller's map is left alone.  At its own resolution the map is altered in place. *)
Theorem C105_match_refuted : exists nside_of ud_grade in_map nside_out, nside_of in_map = nside_out /\
  snd (match_hp_resolution nside_of ud_grade in_map nside_out true) <> in_map.
Proof. exists (fun _ => 1), (fun m _ => m), [Some 1%Q; Some unseen], 1. split; [reflexivity|]. vm_compute. discriminate. Qed.
Print Assumptions C105_match_refuted.
