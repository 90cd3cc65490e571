(** C38: the band swap schedulers return the documented set. *)
From Coq Require Import List ZArith QArith Qabs Bool String Lia Lqa Sorted.
From Verif Require Import Base IntRounded Bisect Feat_proofs2 Bands Bands_proofs.
Import ListNotations.
Local Open Scope string_scope.
Open Scope list_scope.
Open Scope nat_scope.

Definition clearly_above (m limit : Q) : Prop := (limit < m)%Q /\ ((limit == 0)%Q \/ (limit + (1 # 1000000000) * Qabs limit < m)%Q).
Lemma clearly_bright : forall m limit, clearly_above m limit -> brighter m limit = true.
Proof.
  intros m limit [H1 H2]. rewrite brighter_far.
  - now apply Qltb_lt.
  - destruct H2 as [H2|H2]; [now left|right]. rewrite Qabs_pos with (x := (m - limit)%Q) by lra. lra.
Qed.
Lemma not_bright : forall m limit, (m <= limit)%Q -> brighter m limit = false.
Proof. intros m limit H. destruct (brighter m limit) eqn:E; [|reflexivity]. apply brighter_gt in E. lra. Qed.

(** The two-set scheduler: without u above the limit, without y up to it; a phase
    above the limit by less than one part in 1e9 gives one of the two sets. *)
Theorem C38_simple : forall limit c,
  ((bc_moon c <= limit)%Q -> simple_sched limit c = ["u"; "g"; "r"; "i"; "z"]) /\
  (clearly_above (bc_moon c) limit -> simple_sched limit c = ["g"; "r"; "i"; "z"; "y"]) /\
  (simple_sched limit c = ["u"; "g"; "r"; "i"; "z"] \/ simple_sched limit c = ["g"; "r"; "i"; "z"; "y"]).
Proof.
  intros limit c. unfold simple_sched. split; [|split].
  - intros H. now rewrite not_bright.
  - intros H. now rewrite clearly_bright.
  - destruct (brighter _ _); auto.
Qed.
Print Assumptions C38_simple.
Example C38_simple_ex : let c := mkBc 10 60000 [] in let d := mkBc (101 # 10) 60000 [] in
  (bc_moon c <= 10)%Q /\ simple_sched 10 c = ["u"; "g"; "r"; "i"; "z"] /\
  clearly_above (bc_moon d) 10 /\ simple_sched 10 d = ["g"; "r"; "i"; "z"; "y"].
Proof. repeat split; try (right; reflexivity); try reflexivity. discriminate. Qed.

(** ComCam: bins in increasing order.  A phase in the i-th bin (above its lower
    edge, up to its upper edge) gives the i-th group, a phase at or below the first
    edge the first group. *)
Theorem C38_comcam : forall groups bins g b q,
  comcam_init groups bins = Ok (g, b) -> StronglySorted Qle bins ->
  (forall i lo hi, nth_error bins i = Some lo -> nth_error bins (S i) = Some hi -> (lo < q)%Q -> (q <= hi)%Q ->
     exists x, nth_error groups i = Some x /\ comcam_sched g b (MNum q) = Ok x /\
               forall r, comcam_sched g b (MArr (q :: r)) = Ok x) /\
  (forall lo x, hd_error bins = Some lo -> hd_error groups = Some x -> (q <= lo)%Q ->
     comcam_sched g b (MNum q) = Ok x).
Proof.
  intros groups bins g b q H Srt. unfold comcam_init in H.
  destruct (Z.ltb_spec (Z.of_nat (List.length groups)) (Z.of_nat (List.length bins) - 1)) as [L|L]; [discriminate|].
  injection H as <- <-.
  assert (SS : forall i j x y, i <= j -> nth_error bins i = Some x -> nth_error bins j = Some y -> (x <= y)%Q).
  { clear L. induction Srt as [|a l Srt IH F]; intros i j x y Hij Hi Hj; [destruct i; discriminate|].
    rewrite Forall_forall in F. destruct i as [|i], j as [|j]; cbn in *; try lia.
    - injection Hi as ->. injection Hj as ->. apply Qle_refl.
    - injection Hi as ->. apply F. eapply nth_error_In; eauto.
    - apply (IH i j); auto; lia. }
  assert (P : parted (fun b => Qltb b q) bins).
  { intros i j x y Hij Hi Hj Hy. apply Qltb_lt in Hy. apply Qltb_lt. pose proof (SS i j x y Hij Hi Hj). lra. }
  split.
  - intros i lo hi Hi Hj L1 L2.
    assert (E : searchsorted (fun b => Qltb b q) 0%Q bins = S i).
    { apply searchsorted_unique; [exact P| | |].
      - assert (i < List.length bins) by (apply nth_error_Some; congruence). lia.
      - intros k x Hk Hx. apply Qltb_lt. pose proof (SS k i x lo ltac:(lia) Hx Hi). lra.
      - intros k x Hk Hx. apply Qltb_false. pose proof (SS (S i) k hi x Hk Hj Hx). lra. }
    assert (In2 : i < List.length groups).
    { assert (S i < List.length bins) by (apply nth_error_Some; congruence). lia. }
    destruct (nth_error groups i) as [x|] eqn:Ex; [|apply nth_error_None in Ex; lia].
    exists x. split; [reflexivity|]. unfold comcam_sched. cbv zeta. rewrite E.
    replace (Z.to_nat (Z.max 0 (Z.of_nat (S i) - 1))) with i by lia. rewrite Ex. split; [reflexivity|]. intros _. reflexivity.
  - intros lo x Hl Hx L1.
    assert (E : searchsorted (fun b => Qltb b q) 0%Q bins = 0).
    { apply searchsorted_unique; [exact P|lia| |].
      - intros k y Hk. lia.
      - intros k y _ Hy. apply Qltb_false. destruct bins as [|b0 bs]; [discriminate|]. cbn in Hl. injection Hl as ->.
        pose proof (SS 0 k lo y ltac:(lia) eq_refl Hy). lra. }
    unfold comcam_sched. cbv zeta. rewrite E. cbn. destruct groups as [|g0 gs]; [discriminate|]. cbn in *. congruence.
Qed.
Print Assumptions C38_comcam.
Definition cc_groups := [["u"; "g"; "r"]; ["g"; "r"; "i"]; ["r"; "i"; "z"]; ["i"; "z"; "y"]].
Definition cc_bins : list Q := [0; 25; 50; 75; 100]%Q.
Example C38_comcam_ex : comcam_init cc_groups cc_bins = Ok (cc_groups, cc_bins) /\ StronglySorted Qle cc_bins /\
  comcam_sched cc_groups cc_bins (MNum 25) = Ok ["u"; "g"; "r"] /\
  comcam_sched cc_groups cc_bins (MArr [26; 99]%Q) = Ok ["g"; "r"; "i"] /\
  comcam_sched cc_groups cc_bins (MNum 0) = Ok ["u"; "g"; "r"] /\ comcam_sched cc_groups cc_bins (MNum 100) = Ok ["i"; "z"; "y"].
Proof. repeat split; try reflexivity. repeat (constructor; [|repeat (constructor; [discriminate|]); constructor]). constructor. Qed.

(** Outside the table: above the last edge there is no group and the call fails,
    unless the table has a group to spare, which is then returned. *)
Theorem C38_comcam_above : forall groups bins q, (forall b, In b bins -> (b < q)%Q) -> bins <> [] ->
  comcam_sched groups bins (MNum q) =
  match nth_error groups (List.length bins - 1) with Some x => Ok x | None => Raise IndexError end.
Proof.
  intros groups bins q H N. unfold comcam_sched. cbv zeta.
  assert (E : searchsorted (fun b => Qltb b q) 0%Q bins = List.length bins).
  { apply searchsorted_unique; [|lia| |].
    - intros i j x y _ Hi _ _. apply Qltb_lt, H. eapply nth_error_In; eauto.
    - intros k x _ Hx. apply Qltb_lt, H. eapply nth_error_In; eauto.
    - intros k x Hk Hx. assert (k < List.length bins) by (apply nth_error_Some; congruence). lia. }
  rewrite E. replace (Z.to_nat (Z.max 0 (Z.of_nat (List.length bins) - 1))) with (List.length bins - 1) by lia. reflexivity.
Qed.
Print Assumptions C38_comcam_above.
Example C38_comcam_above_ex : comcam_sched [["u"]; ["g"]] [0; 40; 80]%Q (MNum 90) = Raise IndexError /\
  comcam_sched [["u"]; ["g"]; ["z"]] [0; 40; 80]%Q (MNum 90) = Ok ["z"].
Proof. split; reflexivity. Qed.

(** BandSchedUzy over any sequence of calls. *)
Fixpoint uzy_run (limit : Q) (n : nat) (cs : list bcond) : list (bcond * list string) :=
  match cs with
  | [] => []
  | c :: r => (c, snd (uzy_call limit n c)) :: uzy_run limit (fst (uzy_call limit n c)) r
  end.
Definition differs (p : bcond * list string) : bool := if list_eq_dec string_dec (snd p) (bc_mounted (fst p)) then false else true.

(** Phases at least one part in 1e9 off the limit: bright calls return grizy; a dark
    call returns ugriy after an even number of earlier dark calls whose answer was
    not what was mounted, ugriz after an odd number. *)
Theorem C38_uzy : forall limit cs,
  (forall c, In c cs -> (bc_moon c <= limit)%Q \/ clearly_above (bc_moon c) limit) ->
  forall before c b after, uzy_run limit 0 cs = before ++ (c, b) :: after ->
  let swaps := List.length (filter (fun p => Qle_bool (bc_moon (fst p)) limit && differs p) before) in
  b = if Qle_bool (bc_moon c) limit then (if Nat.even swaps then ["u"; "g"; "r"; "i"; "y"] else ["u"; "g"; "r"; "i"; "z"])
      else ["g"; "r"; "i"; "z"; "y"].
Proof.
  intros limit cs. assert (G : forall n, (forall c, In c cs -> (bc_moon c <= limit)%Q \/ clearly_above (bc_moon c) limit) ->
  forall before c b after, uzy_run limit n cs = before ++ (c, b) :: after ->
  b = if Qle_bool (bc_moon c) limit then
        (if Nat.even (n + List.length (filter (fun p => Qle_bool (bc_moon (fst p)) limit && differs p) before))
         then ["u"; "g"; "r"; "i"; "y"] else ["u"; "g"; "r"; "i"; "z"])
      else ["g"; "r"; "i"; "z"; "y"]).
  { induction cs as [|c0 cs IH]; intros n F before c b after H; [destruct before; discriminate|].
    assert (B : brighter (bc_moon c0) limit = negb (Qle_bool (bc_moon c0) limit)).
    { destruct (F c0 (or_introl eq_refl)) as [L|L].
      - rewrite not_bright by exact L. apply Qle_bool_iff in L. now rewrite L.
      - rewrite clearly_bright by exact L. destruct L as [L _]. now rewrite (proj2 (Qle_bool_false _ _) L). }
    assert (F' : forall c, In c cs -> (bc_moon c <= limit)%Q \/ clearly_above (bc_moon c) limit) by (intros; apply F; now right).
    unfold uzy_call in H. cbn [uzy_run] in H. unfold uzy_call in H. rewrite B in H.
    destruct before as [|p before]; cbn [app] in H.
    - cbn. rewrite Nat.add_0_r. destruct (Qle_bool (bc_moon c0) limit) eqn:D; cbn in H.
      + injection H as -> <- _. rewrite D. reflexivity.
      + injection H as -> <- _. rewrite D. reflexivity.
    - cbn [filter]. destruct (Qle_bool (bc_moon c0) limit) eqn:D; cbn [negb fst snd] in H.
      + injection H as <- H. cbn [fst snd]. rewrite D. cbn [andb]. unfold differs at 1. cbn [fst snd].
        rewrite (IH _ F' _ _ _ _ H).
        destruct (bands_eqb (uzy_dark n) (bc_mounted c0)) eqn:M;
        destruct (list_eq_dec string_dec (uzy_dark n) (bc_mounted c0)) as [E|E].
        * reflexivity.
        * apply bands_eqb_eq in M. contradiction.
        * apply bands_eqb_eq in E. congruence.
        * cbn [List.length]. now rewrite Nat.add_succ_r.
      + injection H as <- H. cbn [fst snd]. rewrite D. cbn [andb]. exact (IH _ F' _ _ _ _ H). }
  intros F before c b after H. cbv zeta. exact (G 0 F before c b after H).
Qed.
Print Assumptions C38_uzy.
Definition uzy_demo : list bcond :=
  [mkBc 5 1 ["u"; "g"; "r"; "i"; "z"]; mkBc 5 2 ["u"; "g"; "r"; "i"; "z"]; mkBc 50 3 []; mkBc 5 4 ["g"; "r"; "i"; "z"; "y"]].
Example C38_uzy_ex : (forall c, In c uzy_demo -> (bc_moon c <= 10)%Q \/ clearly_above (bc_moon c) 10) /\
  map snd (uzy_run 10 0 uzy_demo) =
  [["u"; "g"; "r"; "i"; "y"]; ["u"; "g"; "r"; "i"; "z"]; ["g"; "r"; "i"; "z"; "y"]; ["u"; "g"; "r"; "i"; "z"]].
Proof.
  split; [|reflexivity]. intros c H. cbn in H. destruct H as [<-|[<-|[<-|[<-|[]]]]].
  - left. discriminate.
  - left. discriminate.
  - right. split; [reflexivity|right; reflexivity].
  - left. discriminate.
Qed.

(** Finding: the set is not kept through the dark time.  Once the returned set is
    mounted, the next dark call asks for the other one. *)
Theorem C38_uzy_swaps_each_call : forall limit n c1 c2, (bc_moon c1 <= limit)%Q -> (bc_moon c2 <= limit)%Q ->
  let r1 := uzy_call limit n c1 in let r2 := uzy_call limit (fst r1) c2 in
  bc_mounted c1 <> snd r1 -> bc_mounted c2 = snd r1 -> snd r2 <> bc_mounted c2 /\ fst r2 = S (fst r1).
Proof.
  intros limit n c1 c2 H1 H2. cbv zeta. unfold uzy_call. rewrite !not_bright by assumption. cbn [fst snd].
  intros N1 N2.
  assert (E1 : bands_eqb (uzy_dark n) (bc_mounted c1) = false).
  { destruct (bands_eqb _ _) eqn:E; [|reflexivity]. apply bands_eqb_eq in E. congruence. }
  rewrite E1, N2. unfold uzy_dark. rewrite Nat.even_succ, <- Nat.negb_even.
  destruct (Nat.even n); cbn; split; congruence.
Qed.
Print Assumptions C38_uzy_swaps_each_call.
Example C38_uzy_swaps_ex : let c1 := mkBc 5 1 ["g"; "r"; "i"; "z"; "y"] in let c2 := mkBc 5 2 ["u"; "g"; "r"; "i"; "y"] in
  bc_mounted c1 <> snd (uzy_call 10 0 c1) /\ bc_mounted c2 = snd (uzy_call 10 0 c1) /\
  snd (uzy_call 10 1 c2) = ["u"; "g"; "r"; "i"; "z"].
Proof. repeat split; try reflexivity. discriminate. Qed.

(** The date table: before the end date, the entry of the latest day whose noon is
    not later than now, among the new entries and the past entries before all new
    ones; an IndexError before the first entry; the backup from the end date on. *)
Theorem C38_date : forall prev new end_date backup c,
  NoDup (map fst prev) -> NoDup (map fst new) -> new <> [] ->
  let entry k v := In (k, v) new \/ (In (k, v) prev /\ forall k' v', In (k', v') new -> (k < k')%Z) in
  let due k := (inject_Z k + (1 # 2) <= bc_mjd c)%Q in
  ((bc_mjd c < end_date)%Q ->
    (forall k v, entry k v -> due k -> (forall k' v', entry k' v' -> due k' -> (k' <= k)%Z) ->
       date_sched prev new end_date backup c = Ok v) /\
    ((forall k v, entry k v -> ~ due k) -> date_sched prev new end_date backup c = Raise IndexError)) /\
  ((end_date <= bc_mjd c)%Q -> date_sched prev new end_date backup c = backup c).
Proof.
  intros prev new e bk c Np Nn Ne entry due. unfold date_sched.
  destruct (date_init prev new) as [[t times]|x] eqn:E.
  - destruct (date_init_ok _ _ _ _ Np Nn E) as (Nt & Et & I). cbn [bind fst snd]. split.
    + intros L. destruct (date_call_ok t times e bk c Nt Et L) as [A B]. split.
      * intros k v H1 H2 H3. apply (A k v); [now apply I|exact H2|].
        intros k' v' H4 H5. exact (H3 k' v' (proj1 (I k' v') H4) H5).
      * intros H. apply B. intros k v H1. apply I in H1. specialize (H k v H1). unfold due, noon in *.
        destruct (Qlt_le_dec (bc_mjd c) (inject_Z k + (1 # 2))); [assumption|contradiction].
    + intros L. unfold date_call. now rewrite (proj2 (Qltb_false _ _) L).
  - exfalso. unfold date_init in E. destruct (t_sort (map fst new)) as [|f r] eqn:S; [|discriminate].
    destruct new as [|[k v] new]; [tauto|]. assert (X : In k (t_sort (map fst ((k, v) :: new)))) by (apply t_sort_in; now left).
    rewrite S in X. destruct X.
Qed.
Print Assumptions C38_date.
Definition sv_table : list (Z * list string) := [(60905%Z, ["r"; "i"; "z"; "y"]); (60897%Z, ["u"; "g"])].
Definition bk (c : bcond) : res (list string) := Ok (simple_sched 40 c).
Example C38_date_ex : NoDup (map fst past_table) /\ NoDup (map fst sv_table) /\
  date_sched past_table sv_table 60943 bk (mkBc 90 (60896 # 1) []) = Ok ["r"; "i"; "z"; "y"] /\
  date_sched past_table sv_table 60943 bk (mkBc 90 (121795 # 2) []) = Ok ["u"; "g"] /\
  date_sched past_table sv_table 60943 bk (mkBc 90 (60904 # 1) []) = Ok ["u"; "g"] /\
  date_sched past_table sv_table 60943 bk (mkBc 90 60906 []) = Ok ["r"; "i"; "z"; "y"] /\
  date_sched past_table sv_table 60943 bk (mkBc 90 60943 []) = Ok ["g"; "r"; "i"; "z"; "y"] /\
  date_sched past_table sv_table 60943 bk (mkBc 90 60846 []) = Raise IndexError /\
  date_sched past_table default_table 60943 bk (mkBc 90 60900 []) = Ok ["g"; "r"; "i"; "z"].
Proof.
  repeat split; try reflexivity; cbn; repeat (constructor; [cbn; intros X; repeat (destruct X as [X|X]; [discriminate|]); exact X|]); constructor.
Qed.
