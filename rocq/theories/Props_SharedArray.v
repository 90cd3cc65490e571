(** C145: arrays shared between processes. *)
From Coq Require Import List Bool ZArith Arith Lia.
From Verif Require Import Base SharedArray.
Import ListNotations.

Lemma set_nth_length : forall A (l : list A) i x, List.length (set_nth l i x) = List.length l.
Proof. intros A l i x. unfold set_nth. rewrite app_length. rewrite <- (firstn_skipn i l) at 3. rewrite app_length. destruct (skipn i l); reflexivity. Qed.
Lemma set_nth_S : forall A (a : A) l i x, set_nth (a :: l) (S i) x = a :: set_nth l i x.
Proof. reflexivity. Qed.
Lemma set_nth_get : forall A (l : list A) i j x, nth_error (set_nth l i x) j = if (i =? j) && (i <? List.length l) then Some x else nth_error l j.
Proof.
  intros A. induction l as [|a l IH]; intros i j x.
  - unfold set_nth. destruct i, j; cbn; rewrite ?andb_false_r; reflexivity.
  - destruct i as [|i]; [destruct j; reflexivity|]. rewrite set_nth_S. destruct j as [|j]; [reflexivity|]. cbn [nth_error]. rewrite IH. reflexivity.
Qed.

Section Fresh.
Variable fresh : nat -> list Z.
Notation step := (step fresh).
Notation run := (run fresh).
(** An array with memory of its own changes only when written to itself: the array of the caller and all copies. *)
Theorem C145_own : forall ops m j l, nth_error (m_arrs m) j = Some (Own l) -> (forall i x, ~ In (Put j i x) ops) -> nth_error (m_arrs (run m ops)) j = Some (Own l).
Proof.
  induction ops as [|o ops IH]; intros m j l H N; [exact H|]. cbn [SharedArray.run]. apply IH; [|intros i x I; apply (N i x); right; exact I].
  assert (L : j < List.length (m_arrs m)) by (apply nth_error_Some; rewrite H; discriminate).
  destruct o as [|h|h|k i x|h]; cbn [SharedArray.step].
  - destruct (m_named m); exact H.
  - destruct (h <? _); [|exact H]. cbn. rewrite nth_error_app1 by exact L. exact H.
  - destruct (h <? _); [|exact H]. destruct (show _ _); [|exact H]. cbn. rewrite nth_error_app1 by exact L. exact H.
  - assert (k <> j) by (intros ->; apply (N i x); left; reflexivity). destruct (nth_error (m_arrs m) k) as [[l'|h]|]; [| |exact H].
    + destruct (i <? _); [|exact H]. cbn. rewrite set_nth_get. destruct (Nat.eqb_spec k j); [contradiction|exact H].
    + destruct (i <? _); [|exact H]. destruct (is_open m h); exact H.
  - destruct (h <? _); exact H.
Qed.

(** Places written through views; the last one counts. *)
Definition is_view (m : mem) (j : nat) : bool := match nth_error (m_arrs m) j with Some (View h) => is_open m h | _ => false end.
Fixpoint last_put (m : mem) (i : nat) (v : option Z) (ops : list op) : option Z :=
  match ops with
  | [] => v
  | o :: r => last_put (fst (step m o)) i (match o with Put j k x => if (k =? i) && is_view m j && (i <? List.length (m_cells m)) then Some x else v | _ => v end) r
  end.
Lemma cells_step : forall m o i, nth_error (m_cells (fst (step m o))) i = match o with Put j k x => if (k =? i) && is_view m j && (i <? List.length (m_cells m)) then Some x else nth_error (m_cells m) i | _ => nth_error (m_cells m) i end.
Proof.
  intros m [|h|h|j k x|h] i; cbn [SharedArray.step].
  - destruct (m_named m); reflexivity.
  - destruct (h <? _); reflexivity.
  - destruct (h <? _); [|reflexivity]. destruct (show _ _); reflexivity.
  - unfold is_view. destruct (nth_error (m_arrs m) j) as [[l|h]|]; [| |rewrite andb_false_r; reflexivity].
    + rewrite andb_false_r. destruct (k <? _); reflexivity.
    + destruct (k <? List.length (m_cells m)) eqn:K; destruct (is_open m h); cbn [fst m_cells]; rewrite ?andb_false_r, ?andb_true_r; try reflexivity.
      * rewrite set_nth_get, K, andb_true_r. destruct (Nat.eqb_spec k i) as [->|]; [rewrite K|]; reflexivity.
      * destruct (Nat.eqb_spec k i) as [->|]; [rewrite K|]; reflexivity.
  - destruct (h <? _); reflexivity.
Qed.
(** Every view, in every process, shows at each place what was last written there through any of them. *)
Theorem C145_shared : forall a m ops j h, make a = Ok m -> nth_error (m_arrs (run m ops)) j = Some (View h) ->
  is_open (run m ops) h = true -> exists l, show (run m ops) (View h) = Some l /\ List.length l = List.length a /\ forall i, nth_error l i = last_put m i (nth_error a i) ops.
Proof.
  intros a m ops j h M _ O. unfold show. rewrite O. eexists. split; [reflexivity|].
  assert (E : forall ops m, forall i, nth_error (m_cells (run m ops)) i = last_put m i (nth_error (m_cells m) i) ops).
  { clear. induction ops as [|o ops IH]; intros m i; [reflexivity|]. cbn [SharedArray.run last_put]. rewrite IH, cells_step. destruct o; reflexivity. }
  assert (L : forall ops m, List.length (m_cells (run m ops)) = List.length (m_cells m)).
  { clear. induction ops as [|o ops IH]; intros m; [reflexivity|]. cbn [SharedArray.run]. rewrite IH. destruct o as [|h|h|j k x|h]; cbn [SharedArray.step].
    - destruct (m_named m); reflexivity.
    - destruct (h <? _); reflexivity.
    - destruct (h <? _); [|reflexivity]. destruct (show _ _); reflexivity.
    - destruct (nth_error (m_arrs m) j) as [[l|h]|]; [| |reflexivity]; destruct (k <? _); try reflexivity. destruct (is_open m h); [apply set_nth_length|reflexivity].
    - destruct (h <? _); reflexivity. }
  assert (C : m_cells m = a) by (destruct a; [discriminate|injection M as <-; reflexivity]). split; [rewrite L, C; reflexivity|]. intros i. rewrite E, C. reflexivity.
Qed.
(** read and copy of a handle not yet unlinked: a view of the shared memory, and an array of its own with the same contents. *)
Theorem C145_read : forall m h, is_open m h = true -> exists m1 m2, step m (Read h) = (m1, Fine) /\ step m (Copy h) = (m2, Fine) /\
  m_arrs m1 = m_arrs m ++ [View h] /\ m_arrs m2 = m_arrs m ++ [Own (m_cells m)] /\ show m1 (View h) = Some (m_cells m).
Proof.
  intros m h O. assert (L : h <? List.length (m_open m) = true). { apply Nat.ltb_lt. unfold is_open in O. destruct (Nat.lt_ge_cases h (List.length (m_open m))) as [H|H]; [exact H|]. rewrite nth_overflow in O by exact H. discriminate. }
  cbn [SharedArray.step]. rewrite L. unfold read. rewrite O. cbn [show]. rewrite O. eexists. eexists. split; [reflexivity|]. split; [reflexivity|]. split; [reflexivity|]. split; [reflexivity|]. unfold show. change (is_open (push m (View h)) h) with (is_open m h). rewrite O. reflexivity.
Qed.
(** A handle elsewhere stays open when another is unlinked. *)
Theorem C145_elsewhere : forall m h h', is_open m h = true -> h <> h' -> is_open (fst (step m (Unlink h'))) h = true.
Proof.
  intros m h h' O N. cbn [SharedArray.step]. destruct (h' <? _); [|exact O]. unfold is_open in *. cbn [fst m_open]. destruct (Nat.lt_ge_cases h (List.length (m_open m))) as [H|H]; [|rewrite nth_overflow in O by exact H; discriminate].
  apply nth_error_nth. rewrite set_nth_get. destruct (Nat.eqb_spec h' h) as [E|E]; [congruence|]. cbn [andb]. rewrite (nth_error_nth' _ false H). rewrite O. reflexivity.
Qed.
(** The memory has its name until the first unlink; the next one, and sending the object, raise. *)
Theorem C145_unlink : forall m h o, h < List.length (m_open m) -> o = Attach \/ (exists h', o = Unlink h' /\ h' < List.length (m_open m)) ->
  snd (step m (Unlink h)) = (if m_named m then Fine else NotFound) /\ snd (step (fst (step m (Unlink h))) o) = NotFound.
Proof.
  intros m h o L H. cbn [SharedArray.step]. apply Nat.ltb_lt in L. rewrite L. cbn [fst snd]. split; [reflexivity|]. destruct H as [->|(h' & -> & L')]; cbn [SharedArray.step m_named m_open]; [reflexivity|]. rewrite set_nth_length. apply Nat.ltb_lt in L'. rewrite L'. reflexivity.
Qed.
End Fresh.
Print Assumptions C145_own.
Print Assumptions C145_shared.
Print Assumptions C145_read.
Print Assumptions C145_elsewhere.
Print Assumptions C145_unlink.
(** After unlink, read and copy do not raise: they give memory that holds anything. *)
Theorem C145_stale_refuted : forall fresh l a m, make a = Ok m -> fresh (List.length a) = l -> exists m1 m2,
  SharedArray.step fresh (fst (SharedArray.step fresh m (Unlink 0))) (Read 0) = (m1, Fine) /\ SharedArray.step fresh (fst (SharedArray.step fresh m (Unlink 0))) (Copy 0) = (m2, Fine) /\
  nth_error (m_arrs m1) 1 = Some (Own l) /\ nth_error (m_arrs m2) 1 = Some (Own l).
Proof. intros fresh l [|x a] m M F; [discriminate|]. injection M as <-. eexists. eexists. cbn. split; [reflexivity|]. split; [reflexivity|]. cbn in F. rewrite F. split; reflexivity. Qed.
(** A view kept over unlink cannot be used. *)
Theorem C145_dangling_refuted : forall fresh a m m1 m2, make a = Ok m -> SharedArray.step fresh m (Read 0) = (m1, Fine) -> SharedArray.step fresh m1 (Unlink 0) = (m2, Fine) ->
  nth_error (m_arrs m2) 1 = Some (View 0) /\ show m2 (View 0) = None.
Proof. intros fresh [|x a] m m1 m2 M H K; [discriminate|]. injection M as <-. cbn in H. injection H as <-. cbn in K. injection K as <-. split; reflexivity. Qed.
(** An array without elements is refused. *)
Example C145_ex_empty : make [] = Raise ValueError.
Proof. reflexivity. Qed.
Print Assumptions C145_stale_refuted.
Print Assumptions C145_dangling_refuted.
Open Scope Z_scope.
(** Two processes: the second writes, the first reads; the copy made before keeps the old value. *)
Example C145_ex : exists m, make [10; 20; 30] = Ok m /\
  let m' := SharedArray.run (fun n => repeat 0 n) m [Attach; Copy 0; Read 1; Put 2 1 25; Read 0; Unlink 0] in
  m_arrs m' = [Own [10; 20; 30]; Own [10; 20; 30]; View 1; View 0] /\ show m' (View 1) = Some [10; 25; 30] /\ show m' (View 0) = None.
Proof. eexists. split; [reflexivity|]. repeat split. Qed.
