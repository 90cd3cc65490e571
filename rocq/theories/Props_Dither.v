(** C74: dithers repeat per night or advance per visit; C75: dithers that expand, split or tile. *)
From Coq Require Import List ZArith Bool String Lia Sorted Reals Lra.
From Verif Require Import Base Dither Dither_proofs.
Import ListNotations.
Open Scope Z_scope.

(** One dither a night: after any history, the offset depends on the night alone and is the same
    for the whole list. *)
Theorem C74_per_night : forall {P} big (f : Z -> P) pre n night, (0 < n)%nat ->
  snd (dither_call big true (fun k => [f k]) (fst (dither_run big true (fun k => [f k]) dst0 pre)) n night)
  = bind (dither_seed big night) (fun k => Ok (repeat (f k) n)).
Proof. intros P. exact per_night_spec. Qed.
Print Assumptions C74_per_night.
(** Nights within fifty years of the start have a seed each, different from all others. *)
Theorem C74_seeds : forall big a b, big_int_ok big = true -> -18262 <= a <= 18262 -> -18262 <= b <= 18262 ->
  (exists k, dither_seed big a = Ok k /\ 0 <= k) /\ (dither_seed big a = dither_seed big b -> a = b).
Proof.
  intros big a b H A B. split; [|apply seeds_distinct; assumption].
  rewrite seed_ok by (auto; lia). eexists. split; [reflexivity|].
  unfold big_int_ok in H. apply andb_prop in H. destruct H as [H _]. apply Z.ltb_lt in H.
  destruct (Z.ltb_spec a 0); lia.
Qed.
Print Assumptions C74_seeds.
(** Further away they can collide, or have no seed at all, although the constructor accepted
    the big integer as good for the survey. *)
Theorem C74_seeds_refuted : exists big, big_int_ok big = true /\
  dither_seed big (-1) = dither_seed big 36525 /\ dither_seed big (-36527) = Raise ValueError.
Proof. exists 36526. repeat split; reflexivity. Qed.
Print Assumptions C74_seeds_refuted.

(** One dither a visit: with [c] visits of the night done, and at least one if there were any on
    earlier nights, a list of n visits gets positions c to c+n of the night. *)
Theorem C74_per_visit_partial : forall {P} big (seeded : Z -> list P) pre n night k,
  (0 < n)%nat -> dither_seed big night = Ok k -> Sorted Z.le (visits pre) ->
  (visits pre = [] \/ last (visits pre) 0 = night) ->
  let c := count_occ Z.eq_dec (visits pre) night in
  (c + n <= List.length (seeded k))%nat ->
  snd (dither_call big false seeded (fst (dither_run big false seeded dst0 pre)) n night)
  = Ok (firstn n (skipn c (seeded k))).
Proof. intros P. exact per_visit_spec. Qed.
Print Assumptions C74_per_visit_partial.
(** The first list of a new night is placed by the count of the night before... *)
Theorem C74_per_visit_stale_refuted : exists pre,
  Sorted Z.le (visits pre) /\ count_occ Z.eq_dec (visits pre) 1 = O /\
  snd (dither_call 700000 false (fun _ => [10; 11; 12; 13]) (fst (dither_run 700000 false (fun _ => [10; 11; 12; 13]) dst0 pre)) 1 1)
  = Ok [12].
Proof. exists [DVisit 0; DVisit 0]. split; [repeat constructor; discriminate|]. split; reflexivity. Qed.
Print Assumptions C74_per_visit_stale_refuted.
(** ... so that the same position is given twice in the night ... *)
Theorem C74_per_visit_repeat_refuted : exists l,
  Sorted Z.le (visits l) /\
  snd (dither_run 700000 false (fun _ => [10; 11; 12; 13]) dst0 l) = [Ok [12]; Ok [11]; Ok [12]].
Proof.
  exists [DVisit 0; DVisit 0; DCall 1 1; DVisit 1; DCall 1 1; DVisit 1; DCall 1 1].
  split; [repeat constructor; discriminate|reflexivity].
Qed.
Print Assumptions C74_per_visit_repeat_refuted.
(** ... and once a night used all its positions no list of any later night can be made: every
    call raises until a visit is recorded. *)
Theorem C74_per_visit_stuck_refuted : forall {P} big (seeded : Z -> list P) pre n night k,
  (1 < n)%nat -> dither_seed big night = Ok k -> Sorted Z.le (visits pre) ->
  (List.length (seeded k) <= count_occ Z.eq_dec (visits pre) (last (visits pre) 0%Z))%nat ->
  snd (dither_call big false seeded (fst (dither_run big false seeded dst0 pre)) n night) = Raise ValueError.
Proof. intros P. exact per_visit_stuck. Qed.
Print Assumptions C74_per_visit_stuck_refuted.
(** With a single position left, a longer list is put on it whole. *)
Theorem C74_per_visit_broadcast_refuted :
  snd (dither_run 700000 false (fun _ => [10; 11]) dst0 [DVisit 3; DCall 3 3]) = [Ok [11; 11; 11]].
Proof. reflexivity. Qed.
Print Assumptions C74_per_visit_broadcast_refuted.
Example C74_ex1 : snd (dither_run 700000 false (fun k => [k; k + 1; k + 2; k + 3]) dst0
   [DCall 2 5; DVisit 5; DVisit 5; DCall 2 5]) = [Ok [5; 6]; Ok [7; 8]].
Proof. reflexivity. Qed.
Example C74_ex2 : snd (dither_run 700000 true (fun k => [k]) dst0 [DCall 2 5; DVisit 5; DCall 1 5; DCall 1 (-2)]) = [Ok [5; 5]; Ok [5]; Ok [699998]].
Proof. reflexivity. Qed.
Example C74_ex3 : let pre := [DCall 2 5; DVisit 5; DVisit 5; DVisit 6] in
  Sorted Z.le (visits pre) /\ last (visits pre) 0 = 6 /\ count_occ Z.eq_dec (visits pre) 6 = 1%nat.
Proof. split; [repeat constructor; discriminate|split; reflexivity]. Qed.
(** DitherDetailer moves RA by less than a quarter turn, but past the ends of its range. *)
Theorem C74_ra_moves : forall x y ra dec, (Rabs (gnomonic_ra x y ra dec - ra) < PI / 2)%R.
Proof.
  intros x y ra dec. unfold gnomonic_ra. set (a := atan (x / (cos dec - y * sin dec))).
  pose proof (atan_bound (x / (cos dec - y * sin dec))) as B. fold a in B.
  replace (ra + a - ra)%R with a by ring. apply Rabs_def1; lra.
Qed.
Print Assumptions C74_ra_moves.
Theorem C74_ra_range_refuted : exists x y ra dec, (0 <= ra < 2 * PI)%R /\ (0 < cos dec - y * sin dec)%R /\ (gnomonic_ra x y ra dec < 0)%R.
Proof.
  exists (-1)%R, 0%R, 0%R, 0%R. unfold gnomonic_ra. rewrite cos_0, sin_0.
  split; [pose proof PI_RGT_0; lra|]. split; [lra|].
  replace (-1 / (1 - 0 * 0))%R with (Ropp 1) by field. rewrite atan_opp, atan_1. pose proof PI_RGT_0. lra.
Qed.
Print Assumptions C74_ra_range_refuted.

(** ** C75 *)
(** SplitDetailer gives the observations without the string to the first detailer and those with
    it to the second, and puts the answers back in their places. *)
Theorem C75_split : forall {A S1 S2} (d1 : S1 -> list A -> S1 * res (list A)) (d2 : S2 -> list A -> S2 * res (list A))
    (note : A -> string) sub s l out xs ys,
  let mask := map (fun a => contains (note a) sub) l in
  snd (d1 (fst s) (filter (fun a => negb (contains (note a) sub)) l)) = Ok xs ->
  snd (d2 (snd s) (filter (fun a => contains (note a) sub) l)) = Ok ys ->
  List.length xs = List.length (filter (fun a => negb (contains (note a) sub)) l) ->
  List.length ys = List.length (filter (fun a => contains (note a) sub) l) ->
  snd (split_call d1 d2 note sub s l) = out ->
  exists o, out = Ok o /\ List.length o = List.length l /\ select mask false o = xs /\ select mask true o = ys.
Proof. intros A S1 S2. exact split_spec. Qed.
Print Assumptions C75_split.
(** Visits are not passed on to them: a per-visit dither inside a split gives every list the
    same positions, where by itself it would go on to the next. *)
Theorem C75_split_features_refuted :
  let seeded := fun _ : Z => [10; 11; 12] in
  let d s (l : list string) := let '(s1, r) := dither_call 700000 false seeded s (List.length l) 4 in (s1, bind r (fun os => Ok (map (fun _ => "x"%string) os))) in
  let s0 : dst Z * dst Z := (dst0, dst0) in
  let s1 := split_add (fst (split_call d d (fun x => x) "EDFS" s0 ["a"%string])) 4 in
  snd (dither_call 700000 false seeded (fst s1) 1 4) = Ok [10] /\
  snd (dither_call 700000 false seeded (dither_add (fst (dither_call 700000 false seeded dst0 1 4)) 4) 1 4) = Ok [11].
Proof. cbn zeta. split; reflexivity. Qed.
Print Assumptions C75_split_features_refuted.
(** A detailer that changes the number of observations cannot be split over. *)
Theorem C75_split_size_refuted : exists (d1 d2 : unit -> list string -> unit * res (list string)) l,
  (forall l, exists o, snd (d1 tt l) = Ok o) /\ (forall l, exists o, snd (d2 tt l) = Ok o) /\
  snd (split_call d1 d2 (fun x => x) "EDFS" (tt, tt) l) = Raise ValueError.
Proof.
  exists (fun _ l => (tt, Ok (l ++ l))), (fun _ l => (tt, Ok l)), ["a"; "EDFS"]%string.
  split; [intro l; eexists; reflexivity|]. split; [intro l; eexists; reflexivity|]. reflexivity.
Qed.
Print Assumptions C75_split_size_refuted.
Example C75_ex_split : snd (split_call (fun s l => (s, Ok (map (fun p => (fst p, 1)) l))) (fun s l => (s, Ok (map (fun p => (fst p, 2)) l)))
   fst "EDFS" (tt, tt) [("DD:EDFS_a", 0); ("COSMOS", 0); ("EDFS_b", 0)]%string)
  = Ok [("DD:EDFS_a", 2); ("COSMOS", 1); ("EDFS_b", 2)]%string.
Proof. reflexivity. Qed.

(** DeltaCoordDither turns every observation into one for each offset, in order, everything else
    the same. *)
Theorem C75_delta_partial : forall {Pos Off A} (move : Pos -> Off -> Pos) offs rots (l : list (@crow Pos A)) d,
  l <> [] -> match rots with Some rs => List.length rs = List.length offs | None => True end ->
  exists out, delta_call move offs rots l = Ok out /\
    List.length out = (List.length l * List.length offs)%nat /\
    forall i j r, nth_error l i = Some r -> (j < List.length offs)%nat ->
      exists q, nth_error out (i * List.length offs + j) = Some q /\
        k_pos q = move (k_pos r) (nth j offs d) /\ k_rest q = k_rest r /\
        k_rot q = k_rot r + match rots with Some rs => nth j rs 0 | None => 0 end.
Proof. intros Pos Off A. exact delta_spec. Qed.
Print Assumptions C75_delta_partial.
Theorem C75_delta_sizes : forall nra ndec nrot, delta_init nra ndec nrot = Ok tt <-> nra = ndec /\ forall k, nrot = Some k -> k = nra.
Proof.
  intros nra ndec [k|]; cbn.
  - destruct (Nat.eqb_spec nra k); [destruct (Nat.eqb_spec nra ndec)|]; split; intro H; try discriminate; auto.
    + split; [assumption|intros ? E; congruence].
    + destruct H; contradiction.
    + destruct H as [_ H]. specialize (H k eq_refl). congruence.
  - destruct (Nat.eqb_spec nra ndec); split; intro H; try discriminate; auto.
    + split; [assumption|intros; discriminate].
    + destruct H; contradiction.
Qed.
Print Assumptions C75_delta_sizes.
(** An empty list is not returned unchanged: it raises. *)
Theorem C75_delta_empty_refuted : forall {Pos Off A} (move : Pos -> Off -> Pos) offs rots,
  delta_call move offs rots ([] : list (@crow Pos A)) = Raise ValueError.
Proof. reflexivity. Qed.
Print Assumptions C75_delta_empty_refuted.
Example C75_ex_delta : delta_call Z.add [1; 2] (Some [10; 20]) [mkCrow 100 0 "g"%string; mkCrow 200 5 "r"%string]
  = Ok [mkCrow 101 10 "g"; mkCrow 102 20 "g"; mkCrow 201 15 "r"; mkCrow 202 25 "r"]%string.
Proof. reflexivity. Qed.

(** ComCamGrid: the j-th observation of a run of one band takes grid place j mod 4 and dither
    place (j / 4) mod 5, so twenty in a row are all different. *)
Theorem C75_grid : forall bands p j, place_in_run bands p j ->
  nth_error (grid_indices bands) p = Some (Nat.modulo j 4, Nat.modulo (Nat.div j 4) 5).
Proof. exact grid_spec. Qed.
Print Assumptions C75_grid.
Theorem C75_grid_distinct : forall bands p q i j a b,
  place_in_run bands p i -> place_in_run bands q j -> (i < j)%nat -> (j < i + 20)%nat ->
  nth_error (grid_indices bands) p = Some a -> nth_error (grid_indices bands) q = Some b -> a <> b.
Proof.
  intros bands p q i j a b Hp Hq L1 L2 Ea Eb. rewrite (grid_spec _ _ _ Hp) in Ea. rewrite (grid_spec _ _ _ Hq) in Eb.
  injection Ea as <-. injection Eb as <-. apply grid_20; assumption.
Qed.
Print Assumptions C75_grid_distinct.
Example C75_ex_grid : grid_indices ["g"; "g"; "g"; "g"; "g"; "r"; "r"]%string = [(0, 0); (1, 0); (2, 0); (3, 0); (0, 1); (0, 0); (1, 0)]%nat.
Proof. reflexivity. Qed.
Example C75_ex_place : place_in_run ["g"; "g"; "r"; "r"]%string 3 1.
Proof.
  exists "r"%string. split; [lia|]. split.
  - intros i H. assert (i = 2 \/ i = 3)%nat as [->| ->] by lia; reflexivity.
  - right. exists "g"%string. split; [reflexivity|discriminate].
Qed.

(** EuclidDither: each observation goes to the centre its note names, and a note naming neither
    is refused. *)
Theorem C75_euclid : forall {Pos} (a b : Pos) l,
  match euclid_call a b l with
  | Ok out => Forall2 (fun r q => fst q = fst r /\ (contains (fst r) "EDFS_b" = true -> snd q = b) /\
      (contains (fst r) "EDFS_b" = false -> contains (fst r) "EDFS_a" = true /\ snd q = a)) l out
  | Raise e => e = ValueError /\ exists r, In r l /\ contains (fst r) "EDFS_a" = false /\ contains (fst r) "EDFS_b" = false
  end.
Proof. intros Pos. exact euclid_spec. Qed.
Print Assumptions C75_euclid.
(** Nights before the start share the dither of the night as far after it. *)
Theorem C75_euclid_seed_refuted : exists a b, a <> b /\ euclid_seed a = euclid_seed b.
Proof. exists 3, (-3). split; [discriminate|reflexivity]. Qed.
Print Assumptions C75_euclid_seed_refuted.
Example C75_ex_euclid : euclid_call 1 2 [("DD:EDFS_b", 0); ("EDFS_a, 1", 0)]%string = Ok [("DD:EDFS_b", 2); ("EDFS_a, 1", 1)]%string
  /\ euclid_call 1 2 [("COSMOS", 0)]%string = Raise ValueError.
Proof. split; reflexivity. Qed.
