(** Proofs behind Props_IntRounded.v. *)
From Coq Require Import List ZArith QArith Qabs Bool Lia Lqa.
From Verif Require Import Base IntRounded.
Import ListNotations.
Open Scope Q_scope.

Lemma ir_cmp_exact : forall (cmp : Q -> Q -> bool) v1 v2 ps z,
  bcast v1 v2 = Ok ps ->
  (In z (map fst ps) \/ In z (map snd ps)) -> ~ z == 0 ->
  (forall a b, In (a, b) ps -> (1 # 1000000000) * Qabs z < Qabs (a - b)) ->
  ir_cmp cmp v1 v2 = Ok (map (fun p => cmp (fst p) (snd p)) ps).
Proof.
  intros cmp v1 v2 ps z Hb Hin Hz Hfar. unfold ir_cmp. rewrite Hb. cbn [bind].
  rewrite (check_limit_exact ps z); auto.
Qed.

Lemma ir_cmp_at : forall cmp v1 v2 ps bs i x y,
  bcast v1 v2 = Ok ps -> nth_error ps i = Some (x, y) -> ir_cmp cmp v1 v2 = Ok bs ->
  nth_error bs i = Some (cmp x y) \/
  nth_error bs i = Some (cmp (fst (round_pair (x, y))) (snd (round_pair (x, y)))).
Proof.
  intros cmp v1 v2 ps bs i x y Hb Hn Hc. unfold ir_cmp in Hc. rewrite Hb in Hc.
  cbn [bind] in Hc. injection Hc as <-. rewrite nth_error_map.
  destruct (check_limit_cases ps) as [-> | ->].
  - rewrite Hn. left. reflexivity.
  - rewrite nth_error_map, Hn. right. reflexivity.
Qed.

Lemma ir_one_sided : forall v1 v2 ps les lts i x y,
  bcast v1 v2 = Ok ps -> nth_error ps i = Some (x, y) ->
  ir_le v1 v2 = Ok les -> ir_lt v1 v2 = Ok lts ->
  (x <= y -> nth_error les i = Some true) /\
  (nth_error lts i = Some true -> x < y) /\
  (nth_error les i = Some true -> x <= y + 1).
Proof.
  intros v1 v2 ps les lts i x y Hb Hn Hle Hlt.
  pose proof (ir_cmp_at _ _ _ _ _ _ _ _ Hb Hn Hle) as A.
  pose proof (ir_cmp_at _ _ _ _ _ _ _ _ Hb Hn Hlt) as B.
  repeat split.
  - intros H. destruct A as [A|A]; rewrite A; f_equal; apply Qle_bool_iff; [exact H|].
    now apply round_pair_mono.
  - intros H. destruct B as [B|B]; rewrite B in H; injection H as H; apply Qltb_lt in H; [exact H|].
    exact (round_pair_lt_bound (x, y) H).
  - intros H. destruct A as [A|A]; rewrite A in H; injection H as H; apply Qle_bool_iff in H; [lra|].
    exact (round_pair_le_bound (x, y) H).
Qed.

Lemma ir_eq_refl : forall v1 v2 ps eqs i x y,
  bcast v1 v2 = Ok ps -> nth_error ps i = Some (x, y) ->
  ir_eq v1 v2 = Ok eqs -> x == y -> nth_error eqs i = Some true.
Proof.
  intros v1 v2 ps eqs i x y Hb Hn He Hxy.
  destruct (ir_cmp_at _ _ _ _ _ _ _ _ Hb Hn He) as [A|A]; rewrite A; f_equal;
    apply Qeq_bool_iff; [exact Hxy|].
  apply Qle_antisym.
  - apply round_pair_mono. cbn. rewrite Hxy. apply Qle_refl.
  - apply round_pair_mono'. cbn. rewrite Hxy. apply Qle_refl.
Qed.

Lemma ir_le_array_refuted : exists v1 v2 les i x y,
  ir_le v1 v2 = Ok les /\ nth_error v1 0 = Some x /\ nth_error v2 i = Some y /\
  length v1 = 1%nat /\ nth_error les i = Some true /\ y + (3 # 10) <= x.
Proof.
  exists [604 # 10], [604 # 10; 601 # 10], [true; true], 1%nat, (604 # 10), (601 # 10).
  repeat split; vm_compute; congruence.
Qed.

Lemma ir_eq_close_refuted : exists a b,
  Qabs (a - b) <= (1 # 1000000000000) /\ ir_eq [a] [b] = Ok [false].
Proof.
  exists (1 # 2), ((1 # 2) + (1 # 1000000000000)). split; vm_compute; congruence.
Qed.

(** ** In terms of the arguments *)
(** Element [i] of an operand, a single value counting for every index. *)
Definition bget (v : list Q) (i : nat) : option Q :=
  match v with [a] => Some a | _ => nth_error v i end.
(** Lengths numpy can broadcast, and the length of the result. *)
Definition compatible (v1 v2 : list Q) : Prop :=
  length v1 = 1%nat \/ length v2 = 1%nat \/ length v1 = length v2.
Definition blen (v1 v2 : list Q) : nat := if Nat.eqb (length v1) 1 then length v2 else length v1.

Lemma bget_general : forall v i, length v <> 1%nat -> bget v i = nth_error v i.
Proof. intros [|a [|b r]] i H; cbn in *; try reflexivity. lia. Qed.

Lemma bcast_ok : forall v1 v2, compatible v1 v2 -> exists ps, bcast v1 v2 = Ok ps /\ length ps = blen v1 v2 /\
  (forall i p, nth_error ps i = Some p <-> (i < blen v1 v2)%nat /\ bget v1 i = Some (fst p) /\ bget v2 i = Some (snd p)).
Proof.
  intros v1 v2 C.
  assert (B1 : forall (a : Q) (l : list Q), exists ps, Ok (map (fun b => (a, b)) l) = Ok ps /\ length ps = length l /\
    forall i p, nth_error ps i = Some p <-> (i < length l)%nat /\ a = fst p /\ nth_error l i = Some (snd p)).
  { intros a l. eexists. split; [reflexivity|]. split; [apply map_length|]. intros i [x y]. rewrite nth_error_map. cbn [fst snd].
    destruct (nth_error l i) as [b|] eqn:N; cbn [option_map].
    - assert (i < length l)%nat by (apply nth_error_Some; congruence). split.
      + intros [= <- <-]. auto.
      + intros (_ & -> & [= <-]). reflexivity.
    - split; [discriminate|]. intros (_ & _ & K). discriminate. }
  destruct v1 as [|a [|a' r1]].
  - (* empty *)
    destruct v2 as [|b [|b' r2]]; cbn.
    + exists []. repeat split; try reflexivity; intros; destruct i; cbn in *; try discriminate; try lia; tauto || (destruct H as (? & ? & ?); discriminate).
    + exists []. split; [reflexivity|]. split; [reflexivity|]. intros [|i] p; cbn; (split; [discriminate|intros (_ & K & _); discriminate]).
    + exfalso. unfold compatible in C. cbn in C. lia.
  - cbn [bcast blen]. destruct (B1 a v2) as (ps & E & L & N). exists ps. split; [exact E|].
    unfold blen. cbn [length Nat.eqb]. split; [exact L|]. intros i p. rewrite N. cbn [bget].
    destruct v2 as [|b [|b' r2]]; cbn [bget length].
    + split; intros (K & _); lia.
    + split.
      * intros (K & -> & M). destruct i; [|lia]. cbn in M. auto.
      * intros (K & M & M'). destruct i; [|lia]. injection M as M. cbn. auto.
    + split; intros (K & M & M'); (split; [exact K|]); (split; [|exact M']); congruence.
  - assert (L1 : Nat.eqb (length (a :: a' :: r1)) 1 = false) by reflexivity.
    unfold blen. rewrite L1.
    assert (G : forall i, bget (a :: a' :: r1) i = nth_error (a :: a' :: r1) i) by reflexivity.
    set (l := a :: a' :: r1) in *.
    destruct v2 as [|b [|b' r2]].
    + exfalso. unfold compatible in C. cbn in C. lia.
    + exists (map (fun x => (x, b)) l). split; [reflexivity|]. split; [apply map_length|].
      intros i [x y]. rewrite nth_error_map, G. cbn [bget fst snd].
      destruct (nth_error l i) as [c|] eqn:N; cbn [option_map].
      * assert (i < length l)%nat by (apply nth_error_Some; congruence). split.
        -- intros [= <- <-]. auto.
        -- intros (_ & [= <-] & [= <-]). reflexivity.
      * split; [discriminate|]. intros (_ & K & _). discriminate.
    + assert (EL : length l = length (b :: b' :: r2)) by (unfold compatible in C; cbn in *; lia).
      assert (G2 : forall i, bget (b :: b' :: r2) i = nth_error (b :: b' :: r2) i) by reflexivity.
      set (l2 := b :: b' :: r2) in *.
      exists (combine l l2). split.
      * unfold bcast, l, l2 in *. rewrite EL, Nat.eqb_refl. reflexivity.
      * split; [rewrite combine_length; lia|]. intros i [x y]. rewrite G, G2. cbn [fst snd].
        assert (NC : forall (u w : list Q) i, length u = length w -> nth_error (combine u w) i =
           match nth_error u i, nth_error w i with Some x, Some y => Some (x, y) | _, _ => None end).
        { clear. induction u as [|x u IH]; intros [|y w] [|i] E; cbn in *; try reflexivity; try discriminate.
          apply IH. lia. }
        rewrite (NC _ _ _ EL).
        destruct (nth_error l i) as [c|] eqn:N.
        -- assert (LI : (i < length l)%nat) by (apply nth_error_Some; congruence).
           destruct (nth_error l2 i) as [d|] eqn:N2.
           ++ split; [intros [= <- <-]; auto|]. intros (_ & [= <-] & [= <-]). reflexivity.
           ++ split; [discriminate|]. intros (_ & _ & K). discriminate.
        -- split; [discriminate|]. intros (_ & K & _). discriminate.
Qed.

Lemma bcast_bad : forall v1 v2, ~ compatible v1 v2 -> bcast v1 v2 = Raise ValueError.
Proof.
  intros v1 v2 C. unfold compatible in C.
  destruct v1 as [|a [|a' r1]]; destruct v2 as [|b [|b' r2]]; cbn in C |- *; try (exfalso; lia); try reflexivity.
  destruct (Nat.eqb_spec (length r1) (length r2)); [exfalso; lia|reflexivity].
Qed.

Lemma cmp_total : forall cmp v1 v2, compatible v1 v2 -> exists bs, ir_cmp cmp v1 v2 = Ok bs /\ length bs = blen v1 v2.
Proof.
  intros cmp v1 v2 C. destruct (bcast_ok v1 v2 C) as (ps & E & L & _). unfold ir_cmp. rewrite E. cbn [bind].
  eexists. split; [reflexivity|]. now rewrite map_length, check_limit_length.
Qed.
Lemma bpair : forall v1 v2 i x y, compatible v1 v2 -> (i < blen v1 v2)%nat -> bget v1 i = Some x -> bget v2 i = Some y ->
  exists ps, bcast v1 v2 = Ok ps /\ nth_error ps i = Some (x, y).
Proof.
  intros v1 v2 i x y C L H1 H2. destruct (bcast_ok v1 v2 C) as (ps & E & _ & N). exists ps. split; [exact E|]. apply N. auto.
Qed.

Lemma cmp_exact_args : forall (cmp : Q -> Q -> bool) v1 v2 z, compatible v1 v2 ->
  (In z v1 \/ In z v2) -> ~ z == 0 ->
  (forall i x y, bget v1 i = Some x -> bget v2 i = Some y -> (1 # 1000000000) * Qabs z < Qabs (x - y)) ->
  exists bs, ir_cmp cmp v1 v2 = Ok bs /\ length bs = blen v1 v2 /\
  forall i, (i < blen v1 v2)%nat -> exists x y, bget v1 i = Some x /\ bget v2 i = Some y /\ nth_error bs i = Some (cmp x y).
Proof.
  intros cmp v1 v2 z C Z NZ F. destruct (bcast_ok v1 v2 C) as (ps & E & L & N).
  assert (EX : ir_cmp cmp v1 v2 = Ok (map (fun p => cmp (fst p) (snd p)) ps)).
  { destruct ps as [|p0 ps0] eqn:EP; [unfold ir_cmp; rewrite E; reflexivity|]. rewrite <- EP in *.
    apply (ir_cmp_exact cmp v1 v2 ps z E); [|exact NZ|].
    - assert (L0 : (0 < blen v1 v2)%nat) by (rewrite <- L, EP; cbn; lia).
      assert (IN : forall v, (v = v1 \/ v = v2) -> In z v -> exists i, (i < blen v1 v2)%nat /\ bget v i = Some z).
      { intros v V IZ. apply In_nth_error in IZ. destruct IZ as (k & K).
        assert (LK : (k < length v)%nat) by (apply nth_error_Some; congruence).
        destruct (Nat.eq_dec (length v) 1) as [O|O].
        - exists 0%nat. split; [exact L0|]. destruct v as [|w [|]]; cbn in O; try lia. destruct k; cbn in K, LK; [exact K|lia].
        - exists k. split; [|now rewrite bget_general]. unfold blen, compatible in *. destruct V; subst v;
          destruct (Nat.eqb_spec (length v1) 1); lia. }
      assert (AT : forall i, (i < blen v1 v2)%nat -> exists p, nth_error ps i = Some p /\ bget v1 i = Some (fst p) /\ bget v2 i = Some (snd p)).
      { intros i Li. rewrite <- L in Li. apply nth_error_Some in Li. destruct (nth_error ps i) as [p|] eqn:Ep; [|congruence].
        exists p. split; [reflexivity|]. apply N in Ep. tauto. }
      destruct Z as [Z|Z].
      + destruct (IN v1 (or_introl eq_refl) Z) as (i & Li & G). destruct (AT i Li) as (p & Ep & G1 & _).
        left. apply in_map_iff. exists p. split; [congruence|]. eapply nth_error_In; eauto.
      + destruct (IN v2 (or_intror eq_refl) Z) as (i & Li & G). destruct (AT i Li) as (p & Ep & _ & G1).
        right. apply in_map_iff. exists p. split; [congruence|]. eapply nth_error_In; eauto.
    - intros a b I. apply In_nth_error in I. destruct I as (k & K). apply N in K. destruct K as (_ & K1 & K2). exact (F k a b K1 K2). }
  eexists. split; [exact EX|]. split; [now rewrite map_length|]. intros i Li. rewrite <- L in Li.
  apply nth_error_Some in Li. destruct (nth_error ps i) as [p|] eqn:Ep; [|congruence].
  exists (fst p), (snd p). rewrite nth_error_map, Ep. apply N in Ep. tauto.
Qed.
