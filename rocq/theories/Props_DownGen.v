(** C89: unscheduled downtimes are apart and looked up exactly. *)
From Coq Require Import List ZArith QArith Bool Lia Lqa Permutation.
From Verif Require Import Base Bisect GateLoop_proofs SiteData_proofs DownGen DownGen_proofs.
Import ListNotations.
Open Scope nat_scope.

(** Whatever the draws: every downtime starts on a whole night of the survey and
    lasts as long as its kind, at least one night lies between two, and together
    they are at most 13 nights longer than the survey. *)
Theorem C89_generated : forall night0 len u, exists l, make_data night0 len u = Ok l /\
  (forall d, In d l -> (exists n, n < len /\ (d_start d == night0 + inject_Z (Z.of_nat n))%Q) /\
     match d_act d with
     | Minor => (d_end d == d_start d + 1)%Q | Intermediate => (d_end d == d_start d + 3)%Q
     | Major => (d_end d == d_start d + 7)%Q | Catastrophic => (d_end d == d_start d + 14)%Q
     | Year1 => False
     end) /\
  (forall i j a b, i < j -> nth_error l i = Some a -> nth_error l j = Some b -> (d_end a + 1 <= d_start b)%Q) /\
  (total_downtime l <= inject_Z (Z.of_nat len) + 13)%Q.
Proof.
  intros night0 len u. destruct (events_ok (S len) u 0 0 len ltac:(lia)) as (l & E & S). exists (map (row_of night0) l).
  split; [unfold make_data; rewrite E; reflexivity|]. split; [|split].
  - intros d H. apply in_map_iff in H. destruct H as ([n k] & Ed & H). subst d. destruct (spaced_in _ _ _ _ S H) as [A B]. cbn [fst snd] in *.
    split; [exists n; split; [lia|reflexivity]|]. cbn [row_of d_act d_start d_end fst snd]. destruct k; try reflexivity. apply B. reflexivity.
  - intros i j a b H Ha Hb. rewrite nth_error_map in Ha, Hb. destruct (nth_error l i) as [x|] eqn:Ex; [|discriminate].
    destruct (nth_error l j) as [y|] eqn:Ey; [|discriminate]. inversion Ha; inversion Hb; subst. cbn [row_of d_end d_start].
    pose proof (spaced_pair _ _ _ _ _ _ _ S H Ex Ey) as P. apply inj_le in P. rewrite !Nat2Z.inj_add in P. rewrite Zle_Qle in P. rewrite !inject_Z_plus in P.
    change (inject_Z (Z.of_nat 1)) with 1%Q in P. lra.
  - unfold total_downtime. rewrite total_eq.
    assert (L : lost l <= len + 13). { destruct l as [|e r]; [cbn; lia|]. pose proof (spaced_lost _ _ _ S ltac:(discriminate)). lia. }
    apply inj_le in L. rewrite Nat2Z.inj_add in L. rewrite Zle_Qle in L. rewrite inject_Z_plus in L. change (inject_Z (Z.of_nat 13)) with 13%Q in L. lra.
Qed.
Print Assumptions C89_generated.
Definition draws1 : nat -> Q := fun k => if Nat.eqb k 5 then 0%Q else if Nat.eqb k 9 then (1 # 1000)%Q else if Nat.eqb k 13 then (1 # 100)%Q else 1%Q.
Example C89_generated_ex : make_data 100 12 draws1 = Ok [mkDown 101 108 Major; mkDown 109 110 Minor] /\
  make_data 100 8 draws1 = Ok [mkDown 101 108 Major] /\ make_data 100 3 (fun _ => 0%Q) = Ok [mkDown 100 114 Catastrophic].
Proof. repeat split; vm_compute; reflexivity. Qed.

(** The chances: after [m] nights without an event, the draws of the next night
    decide, the rarest kind first. *)
Theorem C89_chances : forall night0 len u m, m < len -> (forall j, j < 4 * m -> (137 # 10000 <= u j)%Q) ->
  exists l, make_data night0 len u = Ok l /\
    let first k n := exists r, l = mkDown (night0 + inject_Z (Z.of_nat m)) (night0 + inject_Z (Z.of_nat m) + n)%Q k :: r in
    let a := u (4 * m) in let b := u (4 * m + 1) in let c := u (4 * m + 2) in let d := u (4 * m + 3) in
    ((a < 274 # 1000000)%Q -> first Catastrophic 14%Q) /\
    ((274 # 1000000 <= a)%Q -> (b < 137 # 100000)%Q -> first Major 7%Q) /\
    ((274 # 1000000 <= a)%Q -> (137 # 100000 <= b)%Q -> (c < 548 # 100000)%Q -> first Intermediate 3%Q) /\
    ((274 # 1000000 <= a)%Q -> (137 # 100000 <= b)%Q -> (548 # 100000 <= c)%Q -> (d < 137 # 10000)%Q -> first Minor 1%Q).
Proof.
  intros night0 len u m H Q. destruct (events_ok (S len) u 0 0 len ltac:(lia)) as (l & E & S). exists (map (row_of night0) l).
  split; [unfold make_data; rewrite E; reflexivity|]. cbv zeta.
  replace (Datatypes.S len) with (m + Datatypes.S (len - m)) in E by lia. rewrite events_quiet in E; [|lia|exact Q]. rewrite Nat.add_0_l in E. cbn [events] in E.
  rewrite Nat.add_0_l in E. destruct (Nat.ltb_spec m len); [|lia].
  set (a := u (4 * m)) in *. set (b := u (4 * m + 1)) in *. set (c := u (4 * m + 2)) in *. set (d := u (4 * m + 3)) in *. clearbody a b c d.
  assert (Go : forall k x, bind x (fun r => Ok ((m, k) :: r)) = Ok l -> exists r, map (row_of night0) l = mkDown (night0 + inject_Z (Z.of_nat m)) (night0 + inject_Z (Z.of_nat m) + inject_Z (Z.of_nat (nights_lost k)))%Q k :: r).
  { intros k [r|] G; cbn [bind] in G; inversion G; subst l. exists (map (row_of night0) r). reflexivity. }
  cbn [chance] in E. repeat split; intros.
  - replace (Qltb a _) with true in E by (symmetry; apply Qltb_lt; assumption). exact (Go _ _ E).
  - replace (Qltb a _) with false in E by (symmetry; apply Qltb_false; assumption).
    replace (Qltb b _) with true in E by (symmetry; apply Qltb_lt; assumption). exact (Go _ _ E).
  - replace (Qltb a _) with false in E by (symmetry; apply Qltb_false; assumption).
    replace (Qltb b _) with false in E by (symmetry; apply Qltb_false; assumption).
    replace (Qltb c _) with true in E by (symmetry; apply Qltb_lt; assumption). exact (Go _ _ E).
  - replace (Qltb a _) with false in E by (symmetry; apply Qltb_false; assumption).
    replace (Qltb b _) with false in E by (symmetry; apply Qltb_false; assumption).
    replace (Qltb c _) with false in E by (symmetry; apply Qltb_false; assumption).
    replace (Qltb d _) with true in E by (symmetry; apply Qltb_lt; assumption). exact (Go _ _ E).
Qed.
Print Assumptions C89_chances.
Example C89_chances_ex : (forall j, j < 4 * 1 -> (137 # 10000 <= draws1 j)%Q) /\ (draws1 5 < 137 # 100000)%Q /\ (274 # 1000000 <= draws1 4)%Q.
Proof.
  split; [|split; vm_compute; congruence]. intros j H. destruct j as [|[|[|[|j]]]]; try (vm_compute; congruence). lia.
Qed.

(** Downtimes in order and apart, as those made are: the one that holds the time
    is named if there is one, and exactly those starting later are listed. *)
Theorem C89_status : forall l t,
  (forall d, In d l -> (d_start d < d_end d)%Q) ->
  (forall i j a b, i < j -> nth_error l i = Some a -> nth_error l j = Some b -> (d_end a <= d_start b)%Q) ->
  exists cur later, status l t = Ok (cur, later) /\
    (forall d, cur = Some d <-> In d l /\ (d_start d <= t < d_end d)%Q) /\
    (forall d, In d later <-> In d l /\ (t < d_start d)%Q) /\ (exists before, l = before ++ later).
Proof.
  intros l t P S. destruct (status_spec l t (conj P S)) as (cur & E & C). exists cur, (filter (fun d => Qltb t (d_start d)) l).
  split; [exact E|]. split; [exact C|]. split.
  - intros d. rewrite filter_In, Qltb_lt. reflexivity.
  - unfold status in E. set (ns := searchsorted _ _ (map d_start l)) in E. exists (firstn ns l).
    assert (F : skipn ns l = filter (fun d => Qltb t (d_start d)) l).
    { destruct (_ <? ns); [destruct (nth_error l _)|]; inversion E; reflexivity. }
    rewrite <- F. symmetry. apply firstn_skipn.
Qed.
Print Assumptions C89_status.
Theorem C89_status_made : forall night0 len u t, exists l cur later, make_data night0 len u = Ok l /\ status l t = Ok (cur, later) /\
    (forall d, cur = Some d <-> In d l /\ (d_start d <= t < d_end d)%Q) /\
    (forall d, In d later <-> In d l /\ (t < d_start d)%Q).
Proof.
  intros night0 len u t. destruct (C89_generated night0 len u) as (l & E & A & B & _). exists l.
  destruct (C89_status l t) as (cur & later & S & S1 & S2 & _).
  - intros d H. destruct (A d H) as [_ D]. destruct (d_act d); try lra; contradiction.
  - intros i j a b H Ha Hb. specialize (B i j a b H Ha Hb). lra.
  - exists cur, later. auto.
Qed.
Print Assumptions C89_status_made.
Example C89_status_ex : let l := [mkDown 101 108 Major; mkDown 110 111 Minor] in
  status l 108 = Ok (None, [mkDown 110 111 Minor]) /\ status l 101 = Ok (Some (mkDown 101 108 Major), [mkDown 110 111 Minor]) /\ status l 110 = Ok (Some (mkDown 110 111 Minor), []).
Proof. repeat split; vm_compute; reflexivity. Qed.

(** ** First-year engineering time *)
(** Each lies within one night of the first 380, is at least an hour long or is
    the whole of a shorter night, and they are in order and apart. *)
Theorem C89_year1 : forall nights r, (forall s x, In (s, x) nights -> (s < x)%Q) -> (forall k, (0 <= r_when (r k) <= 1)%Q) ->
  (forall i j a b, i < j -> nth_error nights i = Some a -> nth_error nights j = Some b -> (snd a <= fst b)%Q) ->
  let l := y1_from 380 0 nights r in
  (forall d, In d l -> exists m s x, nth_error nights m = Some (s, x) /\ m < 380 /\
     (s <= d_start d)%Q /\ (d_start d < d_end d)%Q /\ (d_end d <= x)%Q /\
     ((1 # 24 <= d_end d - d_start d)%Q \/ (d_start d = s /\ d_end d = x /\ (x - s < 1 # 24)%Q))) /\
  (forall i j a b, i < j -> nth_error l i = Some a -> nth_error l j = Some b -> (d_end a <= d_start b)%Q).
Proof.
  intros nights r P W S l. split.
  - intros d H. destruct (y1_from_in _ _ _ _ _ P W H) as (m & s & x & A & B & C & D & E & _ & F). exists m, s, x. repeat split; auto.
  - apply (y1_from_sep 380 r nights 0 P W S).
Qed.
Print Assumptions C89_year1.
Definition nights1 : list (Q * Q) := [(1 # 10, 5 # 10); (11 # 10, 15 # 10); (21 # 10, 215 # 100)]%Q.
Definition draws2 (k : nat) : draws := match k with 1 => mkDraws 1 3 (1 # 2) | 2 => mkDraws (1 # 4) (5 # 10) 1 | _ => mkDraws (1 # 2) 3 (1 # 2) end.
Example C89_year1_ex :
  map (fun d => (Qred (d_start d), Qred (d_end d))) (y1_from 380 0 nights1 draws2) =
  [(19 # 80, 29 # 80); (253 # 120, 43 # 20)]%Q.
Proof. vm_compute. reflexivity. Qed.

(** All first-year downtimes and the regular ones are there, in order of start. *)
Theorem C89_year1_all : forall night0 len u nights r, exists l reg, make_data night0 len u = Ok reg /\
  make_data_y1 night0 len u nights r = Ok l /\ Permutation l (y1_from 380 0 nights r ++ reg) /\
  (forall i j a b, i < j -> nth_error l i = Some a -> nth_error l j = Some b -> (d_start a <= d_start b)%Q).
Proof.
  intros night0 len u nights r. destruct (C89_generated night0 len u) as (reg & E & _). exists (s_sort (y1_from 380 0 nights r ++ reg)), reg.
  split; [exact E|]. split; [unfold make_data_y1; rewrite E; reflexivity|]. split; [apply s_sort_perm|].
  intros i j a b H Ha Hb. apply (s_sort_asc (y1_from 380 0 nights r ++ reg) i j); [lia| |]; rewrite nth_error_map, ?Ha, ?Hb; reflexivity.
Qed.
Print Assumptions C89_year1_all.

(** The two kinds can overlap and then the ends are out of order: the status
    says up, and so does DowntimeModel, within a downtime. *)
Theorem C89_year1_status_refuted : exists night0 len u nights r l d t, make_data_y1 night0 len u nights r = Ok l /\
  In d l /\ (d_start d <= t < d_end d)%Q /\ (exists later, status l t = Ok (None, later)) /\
  exists e n, downtime_model [mkDown 5 6 Minor] l t = Ok (mkReport false e n).
Proof.
  exists 0%Q, 1, (fun k => if Nat.eqb k 3 then 0%Q else 1%Q), [(1 # 10, 5 # 10)%Q], (fun _ => mkDraws 0 1 0).
  eexists. exists (mkDown (0 + inject_Z (Z.of_nat 0)) (0 + inject_Z (Z.of_nat 0) + inject_Z (Z.of_nat 1))%Q Minor), (3 # 10)%Q.
  split; [vm_compute; reflexivity|]. split; [left; vm_compute; reflexivity|]. split; [split; vm_compute; congruence|].
  split; [eexists; vm_compute; reflexivity|]. eexists. eexists. vm_compute. reflexivity.
Qed.
Print Assumptions C89_year1_status_refuted.

(** ** DowntimeModel *)
Definition apart (l : list down) : Prop :=
  (forall d, In d l -> (d_start d < d_end d)%Q) /\
  (forall i j a b, i < j -> nth_error l i = Some a -> nth_error l j = Some b -> (d_end a <= d_start b)%Q).
Lemma current_spec : forall l t, apart l -> exists cur, current l t = Ok cur /\ forall d, cur = Some d <-> In d l /\ (d_start d <= t < d_end d)%Q.
Proof. intros l t S. destruct (status_spec l t S) as (cur & E & C). exists cur. unfold current. rewrite E. split; [reflexivity|exact C]. Qed.

(** While a scheduled downtime is still to come: down exactly when some downtime
    holds the time, until the last of their ends; the next scheduled start. *)
Theorem C89_model_partial : forall sched unsched t, apart sched -> apart unsched -> (exists d, In d sched /\ (t < d_start d)%Q) ->
  exists rep, downtime_model sched unsched t = Ok rep /\
  let on d := In d (sched ++ unsched) /\ (d_start d <= t < d_end d)%Q in
    (is_down rep = true <-> exists d, on d) /\
  match end_down rep with
    | None => forall d, ~ on d
    | Some e => (exists d, on d /\ d_end d = e) /\ forall d, on d -> (d_end d <= e)%Q
    end /\
  (exists d, In d sched /\ d_start d = next_down rep /\ (t < d_start d)%Q) /\
  (forall d, In d sched -> (t < d_start d)%Q -> (next_down rep <= d_start d)%Q).
Proof.
  intros sched unsched t S U (d0 & I0 & T0). unfold downtime_model.
  destruct (current_spec sched t S) as (cs & Es & Cs). destruct (current_spec unsched t U) as (cu & Eu & Cu). rewrite Es. cbn [bind].
  destruct (next_spec sched t (sep_starts _ S)) as [N1 N2].
  destruct (nth_error sched _) as [nx|] eqn:En.
  2:{ exfalso. destruct N2 as [N2 _]. specialize (N2 eq_refl d0 I0). lra. }
  destruct (N1 nx eq_refl) as (Nin & Nt & Nmin). rewrite Eu. cbn [bind].
  assert (On : forall d, In d (sched ++ unsched) /\ (d_start d <= t < d_end d)%Q <-> cs = Some d \/ cu = Some d).
  { intros d. rewrite Cs, Cu, in_app_iff. tauto. }
  assert (Next : (exists d, In d sched /\ d_start d = d_start nx /\ (t < d_start d)%Q) /\ (forall d, In d sched -> (t < d_start d)%Q -> (d_start nx <= d_start d)%Q)).
  { split; [exists nx; auto|exact Nmin]. }
  destruct cs as [s|], cu as [n|]; eexists; (split; [reflexivity|]); cbv zeta; cbn [is_down end_down next_down];
    (split; [|split; [|exact Next]]); setoid_rewrite On.
  - split; [intros _; exists s; auto|auto].
  - unfold Qmaxb. split.
    + destruct (Qltb (d_end s) (d_end n)); [exists n|exists s]; auto.
    + intros d [H|H]; inversion H; subst; destruct (Qltb _ _) eqn:Z; [apply Qltb_lt in Z|apply Qltb_false in Z|apply Qltb_lt in Z|apply Qltb_false in Z]; lra.
  - split; [intros _; exists s; auto|auto].
  - split; [exists s; auto|]. intros d [H|H]; inversion H; subst; lra.
  - split; [intros _; exists n; auto|auto].
  - split; [exists n; auto|]. intros d [H|H]; inversion H; subst; lra.
  - split; [discriminate|]. intros (d & [H|H]); discriminate.
  - intros d [H|H]; discriminate.
Qed.
Print Assumptions C89_model_partial.
Example C89_model_ex : downtime_model [mkDown 1 4 Minor; mkDown 9 10 Minor] [mkDown 3 6 Intermediate] 3 = Ok (mkReport true (Some 6%Q) 9%Q) /\
  downtime_model [mkDown 1 4 Minor; mkDown 9 10 Minor] [mkDown 3 6 Intermediate] 6 = Ok (mkReport false None 9%Q).
Proof. split; vm_compute; reflexivity. Qed.

(** Once the last scheduled downtime has started every call raises. *)
Theorem C89_model_raises : forall sched unsched t, apart sched -> (forall d, In d sched -> (d_start d <= t)%Q) ->
  downtime_model sched unsched t = Raise IndexError.
Proof.
  intros sched unsched t S H. unfold downtime_model. destruct (current_spec sched t S) as (cs & Es & Cs). rewrite Es. cbn [bind].
  destruct (next_spec sched t (sep_starts _ S)) as [_ N2]. rewrite (proj2 N2 H). reflexivity.
Qed.
Print Assumptions C89_model_raises.
Theorem C89_model_refuted : exists sched unsched t d, In d unsched /\ (d_start d <= t < d_end d)%Q /\ apart unsched /\ apart sched /\
  forall rep, downtime_model sched unsched t <> Ok rep.
Proof.
  exists [mkDown 1 4 Minor], [mkDown 5 8 Intermediate], 6%Q, (mkDown 5 8 Intermediate). split; [left; reflexivity|]. split; [split; vm_compute; congruence|].
  assert (One : forall d, (d_start d < d_end d)%Q -> apart [d]).
  { intros d H. split; [intros e [E|[]]; subst; exact H|]. intros [|[|i]] [|[|j]] a b Hij Ha Hb; try discriminate; lia. }
  split; [apply One; reflexivity|]. split; [apply One; reflexivity|]. intros rep. vm_compute. discriminate.
Qed.
Print Assumptions C89_model_refuted.
