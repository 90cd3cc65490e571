(** C143: scanning a grid up and down. *)
From Coq Require Import List Bool ZArith QArith Qround Qminmax Lia Lqa Permutation Sorted.
From Verif Require Import Base Raster.
Import ListNotations.
Open Scope Q_scope.
Open Scope nat_scope.

(** ** Slices *)
Fixpoint runs {A} (y : A -> Q) (l : list A) : list (list A) :=
  match l with
  | [] => []
  | a :: r => match runs y r with
              | c :: cs => match r with b :: _ => if Qltb (y b) (y a) then [a] :: c :: cs else (a :: c) :: cs | [] => [[a]] end
              | [] => [[a]]
              end
  end.
Lemma cut_map : forall A B (f : A -> B) ps l s, cut (map f l) s ps = map (map f) (cut l s ps).
Proof. intros A B f. induction ps as [|p ps IH]; intros l s; cbn; [reflexivity|]. rewrite firstn_map, skipn_map, IH. reflexivity. Qed.
Lemma alt_map : forall A B (f : A -> B) ls t, alternate t (map (map f) ls) = map f (alternate t ls).
Proof. intros A B f. induction ls as [|s ls IH]; intros t; cbn; [reflexivity|]. rewrite map_app, IH. destruct t; [rewrite map_rev|]; reflexivity. Qed.
Lemma descents_gt : forall l i p, In p (descents l i) -> i < p.
Proof.
  induction l as [|a [|b r] IH]; intros i p H; [destruct H|destruct H|]. change (descents (a :: b :: r) i) with (if Qltb b a then S i :: descents (b :: r) (S i) else descents (b :: r) (S i)) in H.
  destruct (Qltb b a); [destruct H as [<-|H]; [lia|]|]; apply IH in H; lia.
Qed.
Lemma cut_runs : forall A (y : A -> Q) l s, l <> [] -> cut l s (descents (map y l) s) = runs y l.
Proof.
  intros A y. induction l as [|a [|b r] IH]; intros s N; [contradiction|reflexivity|]. specialize (IH (S s) ltac:(discriminate)).
  change (descents (map y (a :: b :: r)) s) with (if Qltb (y b) (y a) then S s :: descents (map y (b :: r)) (S s) else descents (map y (b :: r)) (S s)).
  change (runs y (a :: b :: r)) with (match runs y (b :: r) with c :: cs => if Qltb (y b) (y a) then [a] :: c :: cs else (a :: c) :: cs | [] => [[a]] end).
  rewrite <- IH. destruct (Qltb (y b) (y a)).
  - change (cut (a :: b :: r) s (S s :: descents (map y (b :: r)) (S s))) with (firstn (S s - s) (a :: b :: r) :: cut (skipn (S s - s) (a :: b :: r)) (S s) (descents (map y (b :: r)) (S s))).
    replace (S s - s) with 1 by lia. cbn [firstn skipn]. destruct (cut (b :: r) (S s) (descents (map y (b :: r)) (S s))) eqn:E; [destruct (descents (map y (b :: r)) (S s)); discriminate|]. reflexivity.
  - destruct (descents (map y (b :: r)) (S s)) as [|p ps] eqn:D; [reflexivity|]. assert (G : S s < p) by (apply (descents_gt (map y (b :: r)) (S s)); rewrite D; left; reflexivity).
    cbn [cut]. replace (p - s) with (S (p - S s)) by lia. reflexivity.
Qed.
Lemma concat_runs : forall A (y : A -> Q) l, concat (runs y l) = l.
Proof.
  intros A y. induction l as [|a [|b r] IH]; [reflexivity|reflexivity|].
  change (runs y (a :: b :: r)) with (match runs y (b :: r) with c :: cs => if Qltb (y b) (y a) then [a] :: c :: cs else (a :: c) :: cs | [] => [[a]] end).
  destruct (runs y (b :: r)) as [|c cs]; [discriminate|]. destruct (Qltb (y b) (y a)); cbn [concat app] in *; rewrite IH; reflexivity.
Qed.
Lemma alt_perm : forall A (ls : list (list A)) t, Permutation (alternate t ls) (concat ls).
Proof.
  intros A. induction ls as [|s ls IH]; intros t; cbn; [constructor|]. apply Permutation_app; [|apply IH]. destruct t; [apply Permutation_sym, Permutation_rev|apply Permutation_refl].
Qed.
Lemma map_nth_seq : forall (l : list nat), map (fun i => nth i l 0) (seq 0 (List.length l)) = l.
Proof.
  intros l. induction l as [|a l IH]; [reflexivity|]. cbn [List.length seq map nth]. f_equal. rewrite <- seq_shift, map_map. exact IH.
Qed.
(** ** Sorting *)
Lemma insert_perm : forall p l, Permutation (insert p l) (p :: l).
Proof. intros p l. induction l as [|q r IH]; cbn; [apply Permutation_refl|]. destruct (before (fst p) (fst q)); [apply Permutation_refl|]. apply Permutation_trans with (q :: p :: r); [constructor; exact IH|constructor]. Qed.
Lemma sort_perm : forall l, Permutation (sort l) l.
Proof. induction l as [|p l IH]; [constructor|]. apply Permutation_trans with (p :: sort l); [apply insert_perm|constructor; exact IH]. Qed.
Definition le2 (p q : (nat * Q) * nat) : Prop := before (fst p) (fst q) = true.
Lemma before_iff : forall p q, before p q = true <-> fst p < fst q \/ (fst p = fst q /\ (snd p <= snd q)%Q).
Proof. intros p q. unfold before. rewrite orb_true_iff, andb_true_iff, Nat.ltb_lt, Nat.eqb_eq, Qle_bool_iff. tauto. Qed.
Lemma before_total : forall p q, before p q = false -> before q p = true.
Proof.
  intros p q H. apply before_iff. destruct (lt_eq_lt_dec (fst p) (fst q)) as [[L|E]|G]; [|right|left; exact G].
  - exfalso. assert (before p q = true) by (apply before_iff; left; exact L). congruence.
  - split; [lia|]. destruct (Qlt_le_dec (snd q) (snd p)) as [L|L]; [apply Qlt_le_weak; exact L|]. exfalso. assert (before p q = true) by (apply before_iff; right; split; assumption). congruence.
Qed.
Lemma le2_trans : forall a b c, le2 a b -> le2 b c -> le2 a c.
Proof. unfold le2. intros a b c H K. rewrite before_iff in *. destruct H as [H|[H1 H2]], K as [K|[K1 K2]]; [left; lia|left; lia|left; lia|right; split; [lia|]]. apply Qle_trans with (snd (fst b)); assumption. Qed.
Lemma insert_sorted : forall p l, StronglySorted le2 l -> StronglySorted le2 (insert p l).
Proof.
  intros p l S. induction l as [|q r IH]; cbn; [repeat constructor|]. inversion S as [|? ? S' F]; subst. destruct (before (fst p) (fst q)) eqn:B.
  - constructor; [exact S|]. constructor; [exact B|]. rewrite Forall_forall in *. intros z Z1. apply le2_trans with q; [exact B|apply F; exact Z1].
  - constructor; [apply IH; exact S'|]. rewrite Forall_forall in *. intros z Z1. apply (Permutation_in z (insert_perm p r)) in Z1. destruct Z1 as [<-|Z1]; [apply before_total; exact B|apply F; exact Z1].
Qed.
Lemma sort_sorted : forall l, StronglySorted le2 (sort l).
Proof. induction l as [|p l IH]; [constructor|]. apply insert_sorted. exact IH. Qed.
(** ** Parts of the scan *)
Notation bin s := (fst (fst s)).
Notation yy s := (snd (fst s)).
Lemma runs_head : forall A (y : A -> Q) b r, exists c cs, runs y (b :: r) = (b :: c) :: cs.
Proof.
  intros A y b r. cbn. destruct (runs y r) as [|c cs]; [exists [], []; reflexivity|]. destruct r as [|d r]; [exists [], []; reflexivity|]. destruct (Qltb (y d) (y b)); [exists [], (c :: cs)|exists c, cs]; reflexivity.
Qed.
Definition apart (p q : list ((nat * Q) * nat)) : Prop := forall a b, In a p -> In b q -> bin a < bin b.
Definition rise (a b : (nat * Q) * nat) : Prop := bin a <= bin b /\ (yy a <= yy b)%Q.
Lemma runs_parts : forall l, StronglySorted le2 l ->
  Forall (fun p => p <> []) (runs (fun s => yy s) l) /\ ForallOrdPairs apart (runs (fun s => yy s) l) /\ Forall (StronglySorted rise) (runs (fun s => yy s) l).
Proof.
  induction l as [|a [|b r] IH]; intros S.
  - cbn. repeat constructor.
  - cbn. split; [repeat constructor; discriminate|]. split; repeat constructor.
  - inversion S as [|? ? S' F]; subst. destruct (IH S') as (N & P & R). clear IH. rewrite Forall_forall in F.
    pose proof (concat_runs _ (fun s : (nat * Q) * nat => yy s) (b :: r)) as C. destruct (runs_head _ (fun s : (nat * Q) * nat => yy s) b r) as (c & cs & E).
    change (runs (fun s => yy s) (a :: b :: r)) with (match runs (fun s => yy s) (b :: r) with c :: cs => if Qltb (yy b) (yy a) then [a] :: c :: cs else (a :: c) :: cs | [] => [[a]] end).
    rewrite E in *. assert (Ab : bin a <= bin b) by (specialize (F b (or_introl eq_refl)); apply before_iff in F; lia).
    assert (Bz : forall z, In z (b :: r) -> bin b <= bin z).
    { intros z [<-|Iz]; [lia|]. inversion S' as [|? ? S2 F2]; subst. rewrite Forall_forall in F2. specialize (F2 z Iz). apply before_iff in F2. lia. }
    destruct (Qltb (yy b) (yy a)) eqn:D.
    + apply Qltb_lt in D. assert (L : bin a < bin b). { specialize (F b (or_introl eq_refl)). apply before_iff in F. destruct F as [F|[_ F]]; [exact F|]. exfalso. apply Qle_not_lt in F. contradiction. }
      split; [constructor; [discriminate|exact N]|]. split; [|constructor; [repeat constructor|exact R]]. constructor; [|exact P]. rewrite Forall_forall. intros q Iq u v [<-|[]] Iv. assert (In v (b :: r)) by (rewrite <- C; apply in_concat; exists q; split; assumption).
      specialize (Bz v H). lia.
    + apply Qltb_false in D. inversion N as [|? ? N1 N2]; subst. inversion P as [|? ? P1 P2]; subst. inversion R as [|? ? R1 R2]; subst.
      split; [constructor; [discriminate|exact N2]|]. split.
      * constructor; [|exact P2]. rewrite Forall_forall in *. intros q Iq u v [<-|Iu] Iv; [|apply (P1 q Iq); assumption]. specialize (P1 q Iq b v (or_introl eq_refl) Iv). lia.
      * constructor; [|exact R2]. constructor; [exact R1|]. rewrite Forall_forall. intros z Iz.
        assert (Iz' : In z (b :: r)) by (rewrite <- C; cbn [concat]; apply in_or_app; left; exact Iz). split; [specialize (Bz z Iz'); lia|].
        destruct Iz as [<-|Iz]; [exact D|]. inversion R1 as [|? ? R3 R4]; subst. rewrite Forall_forall in R4. apply Qle_trans with (yy b); [exact D|apply R4; exact Iz].
Qed.

(** The strips, [xbin] wide, counted from half a strip left of the least x. *)
Definition strip (m xbin x : Q) (k : nat) : Prop := (m - xbin / 2 + inject_Z (Z.of_nat k) * xbin <= x < m - xbin / 2 + (inject_Z (Z.of_nat k) + 1) * xbin)%Q.
Definition least_x (rows : list row) (m : Q) : Prop := (exists r, In r rows /\ r_x r == m)%Q /\ forall r, In r rows -> (m <= r_x r)%Q.
Lemma least_spec : forall l x, (forall z, In z (x :: l) -> least x l <= z)%Q /\ exists z, In z (x :: l) /\ (z == least x l)%Q.
Proof.
  induction l as [|a l IH]; intros x.
  - split; [intros z [<-|[]]; apply Qle_refl|exists x; split; [left; reflexivity|apply Qeq_refl]].
  - destruct (IH x) as [A (w & W & E)]. change (least x (a :: l)) with (Qmin a (least x l)). split.
    + intros z Hz. destruct Hz as [<-|[<-|Hz]]; [apply Qle_trans with (least x l); [apply Q.le_min_r|apply A; left; reflexivity]|apply Q.le_min_l|apply Qle_trans with (least x l); [apply Q.le_min_r|apply A; right; exact Hz]].
    + destruct (Qlt_le_dec a (least x l)) as [L|L].
      * exists a. split; [right; left; reflexivity|]. symmetry. apply Q.min_l. apply Qlt_le_weak. exact L.
      * exists w. split; [destruct W as [W|W]; [left|right; right]; exact W|]. rewrite E. symmetry. apply Q.min_r. exact L.
Qed.
Lemma most_spec : forall l x z, In z (x :: l) -> (z <= most x l)%Q.
Proof.
  induction l as [|a l IH]; intros x z H; [destruct H as [<-|[]]; apply Qle_refl|]. change (most x (a :: l)) with (Qmax a (most x l)).
  destruct H as [<-|[<-|H]]; [apply Qle_trans with (most x l); [apply IH; left; reflexivity|apply Q.le_max_r]|apply Q.le_max_l|apply Qle_trans with (most x l); [apply IH; right; exact H|apply Q.le_max_r]].
Qed.
Lemma count_seq : forall (g : nat -> bool) n k, k < n -> (forall j, j < n -> (g j = true <-> j <= k)) -> List.length (filter g (seq 0 n)) = S k.
Proof.
  intros g n k L H. replace n with (S k + (n - S k)) by lia. rewrite seq_app, filter_app, app_length.
  assert (A : filter g (seq 0 (S k)) = seq 0 (S k)). { assert (G : forall l, (forall j, In j l -> g j = true) -> filter g l = l). { induction l as [|j l IH]; intros K; [reflexivity|]. cbn. rewrite (K j (or_introl eq_refl)). f_equal. apply IH. intros i I. apply K. right. exact I. } apply G. intros j J. apply in_seq in J. apply H; lia. }
  assert (B : filter g (seq (0 + S k) (n - S k)) = []). { assert (G : forall l, (forall j, In j l -> g j = false) -> filter g l = []). { induction l as [|j l IH]; intros K; [reflexivity|]. cbn. rewrite (K j (or_introl eq_refl)). apply IH. intros i I. apply K. right. exact I. } apply G. intros j J. apply in_seq in J. destruct (g j) eqn:E; [|reflexivity]. apply H in E; lia. }
  rewrite A, B, seq_length. cbn. lia.
Qed.
Lemma filter_map_len : forall A B (f : A -> B) g l, List.length (filter g (map f l)) = List.length (filter (fun a => g (f a)) l).
Proof. intros A B f g. induction l as [|a l IH]; [reflexivity|]. cbn. destruct (g (f a)); cbn; rewrite IH; reflexivity. Qed.
Lemma strip_unique : forall m xbin x k j, (0 < xbin)%Q -> strip m xbin x k -> strip m xbin x j -> k = j.
Proof.
  intros m xbin x k j P [A B] [C D]. assert (E : (inject_Z (Z.of_nat k) < inject_Z (Z.of_nat j) + 1)%Q) by (apply Qmult_lt_r with xbin; [exact P|]; lra).
  assert (F : (inject_Z (Z.of_nat j) < inject_Z (Z.of_nat k) + 1)%Q) by (apply Qmult_lt_r with xbin; [exact P|]; lra).
  change 1%Q with (inject_Z 1) in E, F. rewrite <- inject_Z_plus, <- Zlt_Qlt in E, F. lia.
Qed.
(** The number given to a row is that of its strip. *)
Lemma digit_strip : forall x l xbin z, (0 < xbin)%Q -> In z (x :: l) -> exists k, digitize (edges x l xbin) z = S k /\ strip (least x l) xbin z k.
Proof.
  intros x l xbin z P I. unfold edges, arange, digitize. set (a := (least x l - xbin / 2)%Q). set (b := (most x l + 3 * xbin / 2)%Q).
  pose proof (proj1 (least_spec l x) z I) as Lz. pose proof (most_spec l x z I) as Mz.
  set (t := ((z - a) / xbin)%Q). assert (T : (z - a == t * xbin)%Q) by (unfold t; field; lra).
  assert (H2 : (xbin / 2 * 2 == xbin)%Q) by field. assert (H3 : (3 * xbin / 2 * 2 == 3 * xbin)%Q) by field.
  assert (T0 : (0 <= t)%Q). { apply Qmult_le_r with xbin; [exact P|]. rewrite <- T. unfold a. lra. }
  pose proof (Qfloor_le t) as F1. pose proof (Qlt_floor t) as F2. rewrite inject_Z_plus in F2. change (inject_Z 1) with 1%Q in F2.
  assert (F0 : (0 <= Qfloor t)%Z). { change 0%Z with (Qfloor 0). apply Qfloor_resp_le. exact T0. }
  set (k := Z.to_nat (Qfloor t)). assert (K : inject_Z (Z.of_nat k) = inject_Z (Qfloor t)) by (unfold k; rewrite Z2Nat.id by exact F0; reflexivity).
  assert (B : strip (least x l) xbin z k).
  { unfold strip. fold a. rewrite K. split.
    - assert (inject_Z (Qfloor t) * xbin <= t * xbin)%Q by (apply Qmult_le_compat_r; [exact F1|lra]). lra.
    - assert (t * xbin < (inject_Z (Qfloor t) + 1) * xbin)%Q by (apply Qmult_lt_r; assumption). lra. }
  exists k. split; [|exact B]. rewrite filter_map_len. apply count_seq.
  - assert (D : (t < (b - a) / xbin - 1)%Q). { apply Qmult_lt_r with xbin; [exact P|]. rewrite <- T. assert (((b - a) / xbin - 1) * xbin == b - a - xbin)%Q as -> by (field; lra). unfold b, a. lra. }
    pose proof (Qle_ceiling ((b - a) / xbin)) as G. assert (inject_Z (Qfloor t) < inject_Z (Qceiling ((b - a) / xbin)))%Q as Q1 by lra. rewrite <- Zlt_Qlt in Q1. unfold k. lia.
  - intros j _. rewrite Qle_bool_iff. destruct B as [B1 B2]. fold a in B1, B2. split.
    + intros H. assert (E : (inject_Z (Z.of_nat j) < inject_Z (Z.of_nat k) + 1)%Q) by (apply Qmult_lt_r with xbin; [exact P|]; lra). change 1%Q with (inject_Z 1) in E. rewrite <- inject_Z_plus, <- Zlt_Qlt in E. lia.
    + intros H. assert (inject_Z (Z.of_nat j) * xbin <= inject_Z (Z.of_nat k) * xbin)%Q by (apply Qmult_le_compat_r; [rewrite <- Zle_Qle; lia|lra]). lra.
Qed.
(** Up the first part, down the second, up the third. *)
Inductive snake : bool -> list (list nat) -> list nat -> Prop :=
| snake_end : forall t, snake t [] []
| snake_up : forall p ps out, snake false ps out -> snake true (p :: ps) (p ++ out)
| snake_down : forall p ps out, snake true ps out -> snake false (p :: ps) (rev p ++ out).
Lemma snake_alternate : forall ls t, snake (negb t) ls (alternate t ls).
Proof. induction ls as [|s ls IH]; intros t; cbn; [constructor|]. destruct t; [apply (snake_down s ls (alternate false ls)), (IH false)|apply (snake_up s ls (alternate true ls)), (IH true)]. Qed.
Definition x_of (rows : list row) (i : nat) : Q := r_x (nth i rows (mkRw 0 0)).
Definition y_of (rows : list row) (i : nat) : Q := r_y (nth i rows (mkRw 0 0)).
Definition tagged (e : list Q) (rows : list row) : list ((nat * Q) * nat) := combine (map (fun r => (digitize e (r_x r), r_y r)) rows) (seq 0 (List.length rows)).
Lemma snd_combine : forall A B (l : list A) (m : list B), List.length l = List.length m -> map snd (combine l m) = m.
Proof. intros A B. induction l as [|a l IH]; intros [|b m] H; try discriminate; [reflexivity|]. cbn. f_equal. apply IH. cbn in H. lia. Qed.
Lemma tagged_in : forall e rows s, In s (tagged e rows) -> snd s < List.length rows /\ bin s = digitize e (x_of rows (snd s)) /\ yy s = y_of rows (snd s).
Proof.
  intros e rows s H. unfold tagged in H. set (f := fun r : row => (digitize e (r_x r), r_y r)) in *.
  apply In_nth with (d := (f (mkRw 0 0), 0)) in H. destruct H as (n & L & E). rewrite combine_length, map_length, seq_length in L. rewrite combine_nth in E by (rewrite map_length, seq_length; reflexivity).
  rewrite map_nth, seq_nth in E by lia. subst s. cbn. split; [lia|]. split; reflexivity.
Qed.
Lemma tagged_has : forall e rows i, i < List.length rows -> In ((digitize e (x_of rows i), y_of rows i), i) (tagged e rows).
Proof.
  intros e rows i L. unfold tagged. set (f := fun r : row => (digitize e (r_x r), r_y r)). pose proof (combine_nth (map f rows) (seq 0 (List.length rows)) i (f (mkRw 0 0)) 0) as E. rewrite map_length, seq_length in E. specialize (E eq_refl).
  rewrite map_nth, seq_nth in E by exact L. cbn [Nat.add] in E. change (digitize e (x_of rows i), y_of rows i) with (f (nth i rows (mkRw 0 0))). rewrite <- E. apply nth_In. rewrite combine_length, map_length, seq_length. lia.
Qed.
Lemma raster_form : forall r rs xbin, let e := edges (r_x r) (map r_x rs) xbin in
  raster_sort (r :: rs) xbin = Ok (alternate false (map (map snd) (runs (fun s => yy s) (sort (tagged e (r :: rs)))))).
Proof.
  intros r rs xbin e. unfold raster_sort. cbn [map]. fold e. change ((digitize e (r_x r), r_y r) :: map (fun r => (digitize e (r_x r), r_y r)) rs) with (map (fun r => (digitize e (r_x r), r_y r)) (r :: rs)). fold (tagged e (r :: rs)).
  set (so := sort (tagged e (r :: rs))). assert (N : so <> []). { intros E. pose proof (Permutation_length (sort_perm (tagged e (r :: rs)))) as L. fold so in L. rewrite E in L. discriminate. }
  pose proof (cut_runs _ (fun s : (nat * Q) * nat => yy s) so 0 N) as C. destruct (descents (map (fun s => yy s) so) 0) as [|p ps] eqn:D.
  - rewrite <- C. cbn. rewrite app_nil_r. reflexivity.
  - rewrite <- C, <- cut_map, <- alt_map, <- cut_map. replace (List.length so) with (List.length (map snd so)) by apply map_length. rewrite map_nth_seq. reflexivity.
Qed.

Definition parts_of (r : row) (rs : list row) (xbin : Q) : list (list nat) := map (map snd) (runs (fun s => yy s) (sort (tagged (edges (r_x r) (map r_x rs) xbin) (r :: rs)))).
Lemma parts_facts : forall r rs xbin, (0 < xbin)%Q -> let rows := r :: rs in let m := least (r_x r) (map r_x rs) in let parts := parts_of r rs xbin in let out := alternate false parts in
  least_x rows m /\ raster_sort rows xbin = Ok out /\ snake true parts out /\ Permutation (concat parts) (seq 0 (List.length rows)) /\
  Forall (fun p => p <> []) parts /\
  ForallOrdPairs (fun p q => forall a b j k, In a p -> In b q -> strip m xbin (x_of rows a) j -> strip m xbin (x_of rows b) k -> j < k) parts /\
  Forall (StronglySorted (fun a b => (y_of rows a <= y_of rows b)%Q /\ forall j k, strip m xbin (x_of rows a) j -> strip m xbin (x_of rows b) k -> j <= k)) parts.
Proof.
  intros r rs xbin P rows m parts out. set (e := edges (r_x r) (map r_x rs) xbin). set (R := runs (fun s : (nat * Q) * nat => yy s) (sort (tagged e rows))).
  change parts with (map (map snd) R) in *. unfold out. clear out. unfold m. clear m parts.
  assert (In_x : forall q, In q rows -> In (r_x q) (r_x r :: map r_x rs)) by (intros q Hq; change (r_x r :: map r_x rs) with (map r_x rows); apply in_map; exact Hq).
  split. { destruct (least_spec (map r_x rs) (r_x r)) as [A (w & W & E)]. split.
    - change (r_x r :: map r_x rs) with (map r_x rows) in W. apply in_map_iff in W. destruct W as (q & Q1 & Q2). exists q. split; [exact Q2|]. rewrite Q1. exact E.
    - intros q Hq. apply A, In_x, Hq. }
  split; [apply (raster_form r rs xbin)|]. split; [apply (snake_alternate _ false)|]. split.
  { rewrite <- concat_map. unfold R. rewrite concat_runs. eapply Permutation_trans; [apply Permutation_map, sort_perm|]. unfold tagged. rewrite snd_combine by (rewrite map_length, seq_length; reflexivity). apply Permutation_refl. }
  destruct (runs_parts _ (sort_sorted (tagged e rows))) as (A & B & C). fold R in A, B, C.
  assert (T : forall p s, In p R -> In s p -> snd s < List.length rows /\ bin s = digitize e (x_of rows (snd s)) /\ yy s = y_of rows (snd s)).
  { intros p s Ip Is. apply tagged_in. apply (Permutation_in s (sort_perm _)). rewrite <- (concat_runs _ (fun s : (nat * Q) * nat => yy s)). apply in_concat. exists p. split; assumption. }
  assert (D : forall i j, i < List.length rows -> strip (least (r_x r) (map r_x rs)) xbin (x_of rows i) j -> digitize e (x_of rows i) = S j).
  { intros i j L H. destruct (digit_strip (r_x r) (map r_x rs) xbin (x_of rows i) P) as (k & K1 & K2); [apply In_x, nth_In, L|]. fold e in K1. rewrite K1. f_equal. apply (strip_unique _ _ _ _ _ P K2 H). }
  clearbody R. split; [|split].
  - rewrite Forall_forall in *. intros p Hp. apply in_map_iff in Hp. destruct Hp as (q & <- & Iq). specialize (A q Iq). destruct q; [contradiction|discriminate].
  - assert (G : forall R', incl R' R -> ForallOrdPairs apart R' -> ForallOrdPairs (fun p q => forall a b j k, In a p -> In b q -> strip (least (r_x r) (map r_x rs)) xbin (x_of rows a) j -> strip (least (r_x r) (map r_x rs)) xbin (x_of rows b) k -> j < k) (map (map snd) R')).
    { induction R' as [|p R' IH]; intros I F; [constructor|]. inversion F as [|? ? F1 F2]; subst. cbn. constructor; [|apply IH; [intros z Hz; apply I; right; exact Hz|exact F2]].
      rewrite Forall_forall in *. intros q Hq a b j k Ha Hb Sa Sb. apply in_map_iff in Hq. destruct Hq as (q' & <- & Iq). apply in_map_iff in Ha. destruct Ha as (s & <- & Is). apply in_map_iff in Hb. destruct Hb as (t & <- & It).
      specialize (F1 q' Iq s t Is It). destruct (T p s (I p (or_introl eq_refl)) Is) as (L1 & E1 & _). destruct (T q' t (I q' (or_intror Iq)) It) as (L2 & E2 & _).
      apply D in Sa; [|exact L1]. apply D in Sb; [|exact L2]. lia. }
    apply G; [apply incl_refl|exact B].
  - rewrite Forall_forall in *. intros p Hp. apply in_map_iff in Hp. destruct Hp as (q & <- & Iq). specialize (C q Iq). assert (U : forall s, In s q -> snd s < List.length rows /\ bin s = digitize e (x_of rows (snd s)) /\ yy s = y_of rows (snd s)) by (intros s; apply T; exact Iq).
    clear - C U D. induction q as [|s q IH]; [constructor|]. inversion C as [|? ? C1 C2]; subst. cbn. constructor; [apply IH; [exact C1|intros t Ht; apply U; right; exact Ht]|].
    rewrite Forall_forall in *. intros b Hb. apply in_map_iff in Hb. destruct Hb as (t & <- & It). specialize (C2 t It). destruct C2 as [C3 C4].
    destruct (U s (or_introl eq_refl)) as (L1 & E1 & Y1). destruct (U t (or_intror It)) as (L2 & E2 & Y2). split; [rewrite <- Y1, <- Y2; exact C4|].
    intros j k Sa Sb. apply D in Sa; [|exact L1]. apply D in Sb; [|exact L2]. lia.
Qed.
(** ** C143 *)
(** Every row once; with no rows there is no least x and the call raises. *)
Theorem C143_perm : forall rows xbin,
  match raster_sort rows xbin with Ok out => rows <> [] /\ Permutation out (seq 0 (List.length rows)) | Raise e => rows = [] /\ e = ValueError end.
Proof.
  intros [|r rs] xbin; [split; reflexivity|]. rewrite raster_form. split; [discriminate|]. eapply Permutation_trans; [apply alt_perm|]. rewrite <- concat_map, concat_runs.
  eapply Permutation_trans; [apply Permutation_map, sort_perm|]. unfold tagged. rewrite snd_combine by (rewrite map_length, seq_length; reflexivity). apply Permutation_refl.
Qed.
(** The scan goes up and down over parts; no strip is met again once left for a later part, and y rises along a part. *)
Theorem C143_parts : forall rows xbin, rows <> [] -> (0 < xbin)%Q -> exists m parts out,
  least_x rows m /\ raster_sort rows xbin = Ok out /\ snake true parts out /\ Permutation (concat parts) (seq 0 (List.length rows)) /\
  Forall (fun p => p <> []) parts /\
  ForallOrdPairs (fun p q => forall a b j k, In a p -> In b q -> strip m xbin (x_of rows a) j -> strip m xbin (x_of rows b) k -> j < k) parts /\
  Forall (StronglySorted (fun a b => (y_of rows a <= y_of rows b)%Q /\ forall j k, strip m xbin (x_of rows a) j -> strip m xbin (x_of rows b) k -> j <= k)) parts.
Proof.
  intros [|r rs] xbin N P; [contradiction|]. exists (least (r_x r) (map r_x rs)), (parts_of r rs xbin), (alternate false (parts_of r rs xbin)). apply parts_facts. exact P.
Qed.
Lemma sorted_mid : forall u a b v, StronglySorted le2 (u ++ a :: b :: v) -> (forall z, In z u -> le2 z a) /\ (forall z, In z v -> le2 b z) /\ le2 a b.
Proof.
  induction u as [|w u IH]; intros a b v S; cbn in S; inversion S as [|? ? S1 F1]; subst.
  - inversion S1 as [|? ? S2 F2]; subst. rewrite Forall_forall in *. split; [intros z []|]. split; [exact F2|apply F1; left; reflexivity].
  - destruct (IH a b v S1) as (A & B & C). split; [|split; assumption]. intros z [<-|Hz]; [|apply A; exact Hz]. rewrite Forall_forall in F1. apply F1. apply in_or_app. right. left. reflexivity.
Qed.
Lemma runs_columns : forall l, StronglySorted le2 l -> (forall u a b v, l = u ++ a :: b :: v -> bin a < bin b -> (yy b < yy a)%Q) -> Forall (fun p => forall s t, In s p -> In t p -> bin s = bin t) (runs (fun s => yy s) l).
Proof.
  induction l as [|a [|b r] IH]; intros S H.
  - constructor.
  - cbn. constructor; [|constructor]. intros s t [<-|[]] [<-|[]]. reflexivity.
  - inversion S as [|? ? S' F]; subst. assert (H' : forall u c d v, b :: r = u ++ c :: d :: v -> bin c < bin d -> (yy d < yy c)%Q) by (intros u c d v E; apply (H (a :: u) c d v); rewrite E; reflexivity).
    specialize (IH S' H'). destruct (runs_head _ (fun s : (nat * Q) * nat => yy s) b r) as (c & cs & E).
    change (runs (fun s => yy s) (a :: b :: r)) with (match runs (fun s => yy s) (b :: r) with c :: cs => if Qltb (yy b) (yy a) then [a] :: c :: cs else (a :: c) :: cs | [] => [[a]] end).
    rewrite E in *. destruct (Qltb (yy b) (yy a)) eqn:D.
    + constructor; [|exact IH]. intros s t [<-|[]] [<-|[]]. reflexivity.
    + inversion IH as [|? ? I1 I2]; subst. constructor; [|exact I2]. apply Qltb_false in D.
      assert (AB : bin a = bin b). { rewrite Forall_forall in F. specialize (F b (or_introl eq_refl)). apply before_iff in F. destruct F as [F|[F _]]; [|exact F]. exfalso. specialize (H [] a b r eq_refl F). apply Qle_not_lt in D. contradiction. }
      intros s t [<-|Is] [<-|It]; [reflexivity| | |apply I1; assumption].
      * rewrite AB. apply I1; [left; reflexivity|exact It].
      * rewrite AB. apply I1; [exact Is|left; reflexivity].
Qed.
(** Neighbouring strips overlap in y: the next one starts below the top of the one before. *)
Definition overlapping (rows : list row) (m xbin : Q) : Prop := forall j k, j < k -> (exists a, a < List.length rows /\ strip m xbin (x_of rows a) j) -> (exists b, b < List.length rows /\ strip m xbin (x_of rows b) k) ->
  (forall c i, c < List.length rows -> strip m xbin (x_of rows c) i -> ~ j < i < k) ->
  exists a b, a < List.length rows /\ b < List.length rows /\ strip m xbin (x_of rows a) j /\ strip m xbin (x_of rows b) k /\ (y_of rows b < y_of rows a)%Q.
(** Then the parts are the strips: the scan goes up the first, down the next, and so on. *)
Theorem C143_snake : forall rows xbin m, rows <> [] -> (0 < xbin)%Q -> least_x rows m -> overlapping rows m xbin -> exists parts out,
  raster_sort rows xbin = Ok out /\ snake true parts out /\ Permutation (concat parts) (seq 0 (List.length rows)) /\ Forall (fun p => p <> []) parts /\
  (forall p a b j k, In p parts -> In a p -> In b p -> strip m xbin (x_of rows a) j -> strip m xbin (x_of rows b) k -> j = k) /\
  ForallOrdPairs (fun p q => forall a b j k, In a p -> In b q -> strip m xbin (x_of rows a) j -> strip m xbin (x_of rows b) k -> j < k) parts /\
  Forall (StronglySorted (fun a b => (y_of rows a <= y_of rows b)%Q)) parts.
Proof.
  intros [|r rs] xbin m N P Lm O; [contradiction|]. destruct (parts_facts r rs xbin P) as (A & B & C & D & E & F & G). set (rows := r :: rs) in *. set (m' := least (r_x r) (map r_x rs)) in *.
  assert (M : (m == m')%Q). { destruct Lm as [(q & Q1 & Q2) Q3], A as [(w & W1 & W2) W3]. specialize (Q3 w W1). specialize (W3 q Q1). lra. }
  assert (SM : forall x j, strip m xbin x j <-> strip m' xbin x j) by (intros x j; unfold strip; rewrite M; tauto).
  exists (parts_of r rs xbin), (alternate false (parts_of r rs xbin)). split; [exact B|]. split; [exact C|]. split; [exact D|]. split; [exact E|]. split.
  - set (e := edges (r_x r) (map r_x rs) xbin). set (l := sort (tagged e rows)).
    assert (Dg : forall i, i < List.length rows -> exists k, digitize e (x_of rows i) = S k /\ strip m xbin (x_of rows i) k).
    { intros i L. destruct (digit_strip (r_x r) (map r_x rs) xbin (x_of rows i) P) as (k & K1 & K2); [change (r_x r :: map r_x rs) with (map r_x rows); unfold x_of; apply in_map, nth_In, L|]. exists k. split; [exact K1|]. apply SM. exact K2. }
    assert (Tl : forall s, In s l -> snd s < List.length rows /\ bin s = digitize e (x_of rows (snd s)) /\ yy s = y_of rows (snd s)) by (intros s Hs; apply tagged_in; apply (Permutation_in s (sort_perm _)); exact Hs).
    assert (Hl : forall i, i < List.length rows -> In ((digitize e (x_of rows i), y_of rows i), i) l) by (intros i L; apply (Permutation_in _ (Permutation_sym (sort_perm _))); apply tagged_has; exact L).
    assert (Hc : forall u a b v, l = u ++ a :: b :: v -> bin a < bin b -> (yy b < yy a)%Q).
    { intros u a b v El Lt. pose proof (sort_sorted (tagged e rows)) as S. fold l in S. rewrite El in S. destruct (sorted_mid u a b v S) as (Su & Sv & _). clear S.
      destruct (Tl a) as (La & Ba & Ya); [rewrite El; apply in_or_app; right; left; reflexivity|]. destruct (Tl b) as (Lb & Bb & Yb); [rewrite El; apply in_or_app; right; right; left; reflexivity|].
      destruct (Dg _ La) as (j & J1 & J2). destruct (Dg _ Lb) as (k & K1 & K2).
      assert (Split : forall z, In z l -> le2 z a \/ z = a \/ z = b \/ le2 b z).
      { intros z Hz. rewrite El in Hz. apply in_app_or in Hz. destruct Hz as [Hz|[<-|[<-|Hz]]]; [left; apply Su; exact Hz|right; left; reflexivity|right; right; left; reflexivity|right; right; right; apply Sv; exact Hz]. }
      destruct (O j k) as (a' & b' & La' & Lb' & Sa & Sb & Y); [lia|exists (snd a); split; assumption|exists (snd b); split; assumption| |].
      { intros c i Lc Sc Bt. destruct (Dg c Lc) as (i' & I1 & I2). assert (i = i') by (apply (strip_unique _ _ _ _ _ P Sc I2)). subst i'. specialize (Split _ (Hl c Lc)). unfold le2 in Split. rewrite !before_iff in Split. cbn in Split.
        destruct Split as [Q1|[Q1|[Q1|Q1]]]; [lia| | |lia]; [assert (bin a = digitize e (x_of rows c)) by (rewrite <- Q1; reflexivity); lia|assert (bin b = digitize e (x_of rows c)) by (rewrite <- Q1; reflexivity); lia]. }
      assert (Ea : digitize e (x_of rows a') = bin a). { destruct (Dg a' La') as (i & I1 & I2). rewrite (strip_unique _ _ _ _ _ P I2 Sa) in I1. lia. }
      assert (Eb : digitize e (x_of rows b') = bin b). { destruct (Dg b' Lb') as (i & I1 & I2). rewrite (strip_unique _ _ _ _ _ P I2 Sb) in I1. lia. }
      assert (Y1 : (y_of rows a' <= yy a)%Q). { specialize (Split _ (Hl a' La')). unfold le2 in Split. rewrite !before_iff in Split. cbn in Split. destruct Split as [Q1|[Q1|[Q1|Q1]]]; [destruct Q1 as [Q1|[_ Q1]]; [lia|exact Q1]|rewrite <- Q1; apply Qle_refl| |lia]. assert (bin b = digitize e (x_of rows a')) by (rewrite <- Q1; reflexivity). lia. }
      assert (Y2 : (yy b <= y_of rows b')%Q). { specialize (Split _ (Hl b' Lb')). unfold le2 in Split. rewrite !before_iff in Split. cbn in Split. destruct Split as [Q1|[Q1|[Q1|Q1]]]; [lia| |rewrite <- Q1; apply Qle_refl|destruct Q1 as [Q1|[_ Q1]]; [lia|exact Q1]]. assert (bin a = digitize e (x_of rows b')) by (rewrite <- Q1; reflexivity). lia. }
      lra. }
    pose proof (runs_columns l (sort_sorted _) Hc) as RC. rewrite Forall_forall in RC. intros p a b j k Ip Ia Ib Sa Sb. unfold parts_of in Ip. apply in_map_iff in Ip. destruct Ip as (q & <- & Iq). fold rows e l in Iq.
    apply in_map_iff in Ia. destruct Ia as (s & <- & Is). apply in_map_iff in Ib. destruct Ib as (t & <- & It). specialize (RC q Iq s t Is It).
    assert (Inl : forall z, In z q -> In z l) by (intros z Hz; rewrite <- (concat_runs _ (fun s : (nat * Q) * nat => yy s) l); apply in_concat; exists q; split; assumption).
    destruct (Tl s (Inl s Is)) as (Ls & Bs & _). destruct (Tl t (Inl t It)) as (Lt & Bt & _). destruct (Dg _ Ls) as (j' & J1 & J2). destruct (Dg _ Lt) as (k' & K1 & K2).
    rewrite (strip_unique _ _ _ _ _ P Sa J2), (strip_unique _ _ _ _ _ P Sb K2). lia.
  - split.
    + clear - F SM. induction F as [|p ps H F IH]; constructor; [|exact IH]. rewrite Forall_forall in *. intros q Hq a b j k Ia Ib Sa Sb. apply SM in Sa, Sb. apply (H q Hq a b); assumption.
    + rewrite Forall_forall in *. intros p Hp. specialize (G p Hp). clear - G. induction G as [|a l S IH Fa]; constructor; [exact IH|]. rewrite Forall_forall in *. intros z Hz. apply (Fa z Hz).
Qed.
(** Where the next column starts no lower than the top of the one before, both are one part, and a part that is
    turned around takes the columns in the wrong order: here x goes 0, 2, 1. *)
Theorem C143_skip_refuted : exists rows out, raster_sort rows 1 = Ok out /\ map (x_of rows) out = [0; 0; 2; 2; 1; 1]%Q.
Proof.
  exists [mkRw 0 0; mkRw 0 5; mkRw 1 0; mkRw 1 1; mkRw 2 2; mkRw 2 3]. eexists. split; [vm_compute; reflexivity|]. reflexivity.
Qed.

(** Three columns of three: up, down, up. *)
Example C143_ex_grid : raster_sort [mkRw 0 0; mkRw 0 1; mkRw 0 2; mkRw 1 0; mkRw 1 1; mkRw 1 2; mkRw 2 0; mkRw 2 1; mkRw 2 2] 1 = Ok [0; 1; 2; 5; 4; 3; 6; 7; 8].
Proof. vm_compute. reflexivity. Qed.
Example C143_ex_near : raster_sort [mkRw 1 1; mkRw (1 # 5) 2; mkRw 0 1; mkRw (6 # 5) 0] 1 = Ok [2; 1; 0; 3].
Proof. vm_compute. reflexivity. Qed.
(** The hypotheses of C143_snake hold on these. *)
Example C143_ex_hyp : let rows := [mkRw 1 1; mkRw (1 # 5) 2; mkRw 0 1; mkRw (6 # 5) 0] in least_x rows 0 /\ overlapping rows 0 1.
Proof.
  intros rows. split.
  - split; [exists (mkRw 0 1); split; [cbn; tauto|reflexivity]|]. intros r H. cbn in H. destruct H as [<-|[<-|[<-|[<-|[]]]]]; cbn; lra.
  - assert (S0 : forall i, i = 1 \/ i = 2 -> strip 0 1 (x_of rows i) 0) by (intros i [-> | ->]; unfold strip; (split; [apply Qle_bool_iff|apply Qltb_lt]; reflexivity)).
    assert (S1 : forall i, i = 0 \/ i = 3 -> strip 0 1 (x_of rows i) 1) by (intros i [-> | ->]; unfold strip; (split; [apply Qle_bool_iff|apply Qltb_lt]; reflexivity)).
    assert (U : forall i j, i < 4 -> strip 0 1 (x_of rows i) j -> j = 0 \/ j = 1).
    { intros i j L H. assert (i = 0 \/ i = 1 \/ i = 2 \/ i = 3) as [-> |[-> |[-> | ->]]] by lia;
      [right; apply (strip_unique 0 1 (x_of rows 0))|left; apply (strip_unique 0 1 (x_of rows 1))|left; apply (strip_unique 0 1 (x_of rows 2))|right; apply (strip_unique 0 1 (x_of rows 3))]; try reflexivity; try exact H; try (apply S0; lia); apply S1; lia. }
    intros j k L (a & La & Sa) (b & Lb & Sb) _. apply U in Sa; [|exact La]. apply U in Sb; [|exact Lb]. assert (j = 0) by lia. assert (k = 1) by lia. subst.
    exists 1, 0. split; [cbn; lia|]. split; [cbn; lia|]. split; [apply S0; lia|]. split; [apply S1; lia|]. apply Qltb_lt. reflexivity.
Qed.
Print Assumptions C143_perm.
Print Assumptions C143_parts.
Print Assumptions C143_snake.
Print Assumptions C143_skip_refuted.
