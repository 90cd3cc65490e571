(** Properties of the rounding comparison helper (C14). *)
From Coq Require Import List ZArith QArith Qabs Bool.
From Verif Require Import Base IntRounded IntRounded_proofs.
Import ListNotations.
Open Scope Q_scope.

(** [bget v i] is element [i] of an operand (a single value counts for every
    index), [compatible] the numpy broadcasting rule, [blen] the result length. *)

(** Away from near ties the comparison is exact, for every comparison operator:
    [z] is any nonzero element; if all pairs differ by more than 1e-9 * |z| then
    each result is the exact one. *)
Theorem C14_exact_away_from_ties : forall (cmp : Q -> Q -> bool) v1 v2 z, compatible v1 v2 ->
  (In z v1 \/ In z v2) -> ~ z == 0 ->
  (forall i x y, bget v1 i = Some x -> bget v2 i = Some y -> (1 # 1000000000) * Qabs z < Qabs (x - y)) ->
  exists bs, ir_cmp cmp v1 v2 = Ok bs /\ length bs = blen v1 v2 /\
  forall i, (i < blen v1 v2)%nat ->
    exists x y, bget v1 i = Some x /\ bget v2 i = Some y /\ nth_error bs i = Some (cmp x y).
Proof. exact cmp_exact_args. Qed.
Print Assumptions C14_exact_away_from_ties.

Example C14_exact_example :
  ir_lt [60000#1] [60001#1; 59999#1; 60000 # 2] = Ok [true; false; false].
Proof. vm_compute. reflexivity. Qed.

(** Whatever the arrays, an exact [<=] at an index is always reported as [<=],
    a reported [<] is always a real [<], and a reported [<=] can be wrong by at
    most one unit. *)
Theorem C14_one_sided : forall v1 v2 i x y, compatible v1 v2 -> (i < blen v1 v2)%nat ->
  bget v1 i = Some x -> bget v2 i = Some y ->
  exists les lts, ir_le v1 v2 = Ok les /\ ir_lt v1 v2 = Ok lts /\
  (x <= y -> nth_error les i = Some true) /\
  (nth_error lts i = Some true -> x < y) /\
  (nth_error les i = Some true -> x <= y + 1).
Proof.
  intros v1 v2 i x y C L H1 H2. destruct (bpair v1 v2 i x y C L H1 H2) as (ps & E & N).
  destruct (cmp_total Qle_bool v1 v2 C) as (les & E1 & _). destruct (cmp_total Qltb v1 v2 C) as (lts & E2 & _).
  exists les, lts. split; [exact E1|]. split; [exact E2|]. exact (ir_one_sided v1 v2 ps les lts i x y E N E1 E2).
Qed.
Print Assumptions C14_one_sided.

Example C14_one_sided_example :
  ir_le [604 # 10] [604 # 10; 601 # 10] = Ok [true; true] /\
  ir_lt [604 # 10] [604 # 10; 601 # 10] = Ok [false; false].
Proof. split; vm_compute; reflexivity. Qed.

(** Equal values always compare equal, whatever else the arrays contain. *)
Theorem C14_equal_values : forall v1 v2 i x y, compatible v1 v2 -> (i < blen v1 v2)%nat ->
  bget v1 i = Some x -> bget v2 i = Some y -> x == y ->
  exists eqs, ir_eq v1 v2 = Ok eqs /\ nth_error eqs i = Some true.
Proof.
  intros v1 v2 i x y C L H1 H2 H. destruct (bpair v1 v2 i x y C L H1 H2) as (ps & E & N).
  destruct (cmp_total Qeq_bool v1 v2 C) as (eqs & E1 & _). exists eqs. split; [exact E1|].
  exact (ir_eq_refl v1 v2 ps eqs i x y E N E1 H).
Qed.
Print Assumptions C14_equal_values.

Example C14_equal_values_example :
  ir_eq [1 # 3; 5 # 1] [2 # 6; 7 # 1] = Ok [true; false].
Proof. vm_compute. reflexivity. Qed.

(** Operands that cannot be broadcast raise ValueError, as numpy does. *)
Theorem C14_shapes : forall (cmp : Q -> Q -> bool) v1 v2,
  (compatible v1 v2 -> exists bs, ir_cmp cmp v1 v2 = Ok bs /\ length bs = blen v1 v2) /\
  (~ compatible v1 v2 -> ir_cmp cmp v1 v2 = Raise ValueError).
Proof.
  intros cmp v1 v2. split; [apply cmp_total|]. intros C. unfold ir_cmp. now rewrite (bcast_bad v1 v2 C).
Qed.
Print Assumptions C14_shapes.
Example C14_shapes_example : ir_lt [1; 2] [1; 2; 3] = Raise ValueError.
Proof. reflexivity. Qed.

(** Refuted: exactness per index.  A tie at one index makes a clearly different
    pair at another index (0.3 days apart) compare as equal. *)
Theorem C14_exact_per_index_refuted : exists v1 v2 les i x y,
  ir_le v1 v2 = Ok les /\ nth_error v1 0 = Some x /\ nth_error v2 i = Some y /\
  length v1 = 1%nat /\ nth_error les i = Some true /\ y + (3 # 10) <= x.
Proof. exact ir_le_array_refuted. Qed.
Print Assumptions C14_exact_per_index_refuted.

(** Refuted: values closer than the limit compare equal.  Two values 1e-12
    apart straddling a half-integer compare as different. *)
Theorem C14_close_values_equal_refuted : exists a b,
  Qabs (a - b) <= (1 # 1000000000000) /\ ir_eq [a] [b] = Ok [false].
Proof. exact ir_eq_close_refuted. Qed.
Print Assumptions C14_close_values_equal_refuted.
