(** Properties C37, C62, C63: survey features fed in batches or one visit at a time. *)
From Coq Require Import List ZArith QArith Qround Qabs Bool String Lia Lqa Sorted.
From Verif Require Import Base IntRounded IntRounded_proofs Core Script Surveys Surveys_proofs Feat Feat_proofs Feat_proofs2 Feat_pairs.
Import ListNotations.
Open Scope nat_scope.

(** A history reaches a feature as a list of [feed]s: single visits and
    non-empty batches.  [history] is the visits in order, [run] the feature's
    state afterwards. *)
Definition nonempty (fs : list feed) : Prop := forall l, In (Many l) fs -> l <> [].
Definition pure {S} (f : S -> fvis -> S) (s : S) (v : fvis) : res S := Ok (f s v).

Definition vis (id : Z) (night : Z) (mjd : Q) (band note : string) (see : er) (pix : list nat) : fvis :=
  mkFv id night mjd band note "prog" see (EFin 25) 10 pix.
Definition demo_h : list feed :=
  [Many [vis 1 1 100 "g" "a" (EFin 1) [1; 2]; vis 2 1 101 "r" "b" (EFin 2) [2; 3]];
   One (vis 3 1 102 "r" "ab" ENaN [3; 4]);
   Many [vis 4 2 103 "r" "a" (EFin 1) [1; 3]; vis 5 2 104 "r" "a" (EFin 1) [2]; vis 6 2 105 "g" "c" (EFin 2) [3]];
   One (vis 7 2 106 "r" "a" (EFin 2) [3; 5])].
Ltac chr := repeat constructor; cbn; try (unfold Qle; cbn; lia); lia.
Example demo_chrono : nonempty demo_h /\ chrono (history demo_h).
Proof.
  split; [intros l [H|[H|[H|[H|[]]]]]; inversion H; discriminate|].
  unfold chrono, history, demo_h, before. cbn. chr.
Qed.
Ltac each := let H := fresh in intros ? H; cbn in H; repeat (destruct H as [<-|H]); [..|destruct H].

(** What a visit has to satisfy, written out without the model's helpers. *)
Definition covers (x : nat) (v : fvis) : bool := existsb (Nat.eqb x) (fv_pix v).
Definition in_band (bn : option string) (v : fvis) : bool := match bn with None => true | Some s => String.eqb (fv_band v) s end.
Definition has_note (n : option string) (v : fvis) : bool := match n with None => true | Some s => Script.contains s (fv_note v) end.
Definition note_inside (n : option string) (v : fvis) : bool := match n with None => true | Some s => Script.contains (fv_note v) s end.
Definition seeing (fill : Q) (v : fvis) : Q := match fv_see v with EFin q => q | _ => fill end.
(** The dark sky depth exceeds the visit's by at most the limit (if a band is given). *)
Definition deep_enough (dark : nat -> er) (bn : option string) (m5max : option Q) (x : nat) (v : fvis) : bool :=
  match bn, m5max with
  | Some _, Some q => match dark x, fv_depth v with
                      | EFin a, EFin b => Qle_bool (a - b) q
                      | ENInf, EFin _ | EFin _, EPInf | ENInf, EPInf | EPInf, EPInf => true
                      | _, _ => false
                      end
  | _, _ => true
  end.
Lemma deep_enough_ok : forall dark bn m5max x v, deep_ok dark bn m5max x v = deep_enough dark bn m5max x v.
Proof.
  intros dark [b|] [q|] x v; try reflexivity. unfold deep_ok, deep_enough. cbn [m5_limit]. unfold penalty.
  destruct (dark x) as [| |a|], (fv_depth v) as [| |d|]; try reflexivity. cbn [er_ltb er_eqb]. fold (Qltb (a - d) q).
  destruct (Qle_bool (a - d) q) eqn:A.
  - apply Qle_bool_iff in A. destruct (Qltb (a - d) q) eqn:B; [reflexivity|]. apply Qltb_false in B. apply Qeq_bool_iff. lra.
  - apply Qle_bool_false in A. apply orb_false_iff. split; [apply Qltb_false; lra|]. destruct (Qeq_bool (a - d) q) eqn:B; [|reflexivity].
    apply Qeq_bool_iff in B. lra.
Qed.

Lemma nc_note_ok : forall note v, note_has (nc_note note) v = has_note note v.
Proof.
  intros [[|c t]|] v; try reflexivity. symmetry. apply contains_spec. exists ""%string, (fv_note v). reflexivity.
Qed.
Lemma ok_ex : forall S (r : res S) (P : S -> Prop), match r with Ok s => P s | Raise _ => False end -> exists s, r = Ok s /\ P s.
Proof. intros S [s|e] P H; [eauto|destruct H]. Qed.

(** ** C37 *)
(** NoteInNight: after any mix of batches and single visits in time order, the
    number of visits of the latest night with one of the notes. *)
Theorem C37_note_in_night :
  forall notes fs, nonempty fs -> chrono (history fs) ->
  exists s, run (pure (nn_one notes)) (nn_arr notes) nn0 fs = Ok s /\
  forall w, last_opt (history fs) = Some w ->
    nn_count s = count (fun v => night_is (fv_night w) v && match notes with None => true | Some l => existsb (String.eqb (fv_note v)) l end) (history fs).
Proof.
  intros notes fs Ne Ch.
  destruct (run_inv (pure (nn_one notes)) (nn_arr notes) (nn_R notes) chrono chrono_pre) with (fs := fs) (s := nn0) (h := @nil fvis) as (s & E & H1 & H2); auto.
  - intros h s v H C. eexists. split; [reflexivity|]. now apply nn_one_ok.
  - intros h s l. apply nn_arr_ok.
  - split; [reflexivity|]. intros w H. discriminate.
  - exists s. split; [exact E|]. intros w L. cbn [app] in *. rewrite H1, (H2 w L). reflexivity.
Qed.
Print Assumptions C37_note_in_night.
Example ex_note_in_night : exists s, run (pure (nn_one (Some ["a"%string]))) (nn_arr (Some ["a"%string])) nn0 demo_h = Ok s /\ nn_count s = 3%Z.
Proof. eexists. split; [vm_compute; reflexivity|]. reflexivity. Qed.

(** NObsCount without per_night: the number of visits with the note and band.
    The band asked for is a single letter. *)
Theorem C37_obs_count :
  forall note bn fs, nonempty fs -> (forall v, In v (history fs) -> band_ok bn v) ->
  exists s, run (pure (nc_one note bn false)) (nc_arr note bn false) nc0 fs = Ok s /\
  nn_count s = count (fun v => has_note note v && in_band bn v) (history fs).
Proof.
  intros note bn fs Ne B.
  destruct (run_inv (pure (nc_one note bn false)) (nc_arr note bn false) (nc_R note bn) (all_band bn) (all_band_pre bn)) with (fs := fs) (s := nc0) (h := @nil fvis) as (s & E & H); auto.
  - intros h s v H C. eexists. split; [reflexivity|]. now apply nc_one_ok.
  - intros h s l _ H _. now apply nc_arr_ok.
  - reflexivity.
  - exists s. split; [exact E|]. rewrite H. apply count_ext. intros v _. unfold nc_match. now rewrite nc_note_ok.
Qed.
Print Assumptions C37_obs_count.
Example ex_obs_count : exists s, run (pure (nc_one (Some "a"%string) (Some "r"%string) false)) (nc_arr (Some "a"%string) (Some "r"%string) false) nc0 demo_h = Ok s /\ nn_count s = 4%Z.
Proof. eexists. split; [vm_compute; reflexivity|]. reflexivity. Qed.

(** NObsCount with per_night: at most one batch, given first. *)
Theorem C37_obs_count_night_partial :
  forall note bn l r, chrono (l ++ r) -> (forall v, In v (l ++ r) -> band_ok bn v) -> l <> [] ->
  let spec w := count (fun v => night_is (fv_night w) v && (has_note note v && in_band bn v)) (l ++ r) in
  exists s s', run (pure (nc_one note bn true)) (nc_arr note bn true) nc0 (Many l :: map One r) = Ok s /\
    run (pure (nc_one note bn true)) (nc_arr note bn true) nc0 (map One (l ++ r)) = Ok s' /\
    forall w, last_opt (l ++ r) = Some w -> nn_count s = spec w /\ nn_count s' = spec w.
Proof.
  intros note bn l r Ch B Ne spec.
  set (C := fun h => chrono h /\ all_band bn h).
  assert (CP : forall a b, C (a ++ b) -> C a) by (intros a b [H1 H2]; split; [now apply chrono_pre in H1|now apply all_band_pre in H2]).
  assert (ST : forall h s v, ncn_R note bn h s -> C (h ++ [v]) -> exists s', pure (nc_one note bn true) s v = Ok s' /\ ncn_R note bn (h ++ [v]) s').
  { intros h s v H HC. eexists. split; [reflexivity|]. now apply ncn_one_ok. }
  destruct (ncn_arr_ok note bn l Ne (chrono_pre _ _ Ch)) as (s1 & E1 & R1).
  destruct (run_ones _ (nc_arr note bn true) _ C CP ST r s1 l R1 (conj Ch B)) as (s & E & Ra & Rb).
  assert (R0 : ncn_R note bn [] nc0) by (split; [reflexivity|intros w H; discriminate]).
  destruct (run_ones _ (nc_arr note bn true) (ncn_R note bn) C CP ST (l ++ r) nc0 [] R0 (conj Ch B)) as (s' & E' & Ra' & Rb').
  exists s, s'. split; [cbn [run]; rewrite E1; exact E|]. split; [exact E'|]. intros w L. cbn [app] in *. split.
  - rewrite Ra, (Rb w L). apply count_ext. intros v _. unfold nc_match. now rewrite nc_note_ok.
  - rewrite Ra', (Rb' w L). apply count_ext. intros v _. unfold nc_match. now rewrite nc_note_ok.
Qed.
Print Assumptions C37_obs_count_night_partial.
Example ex_obs_count_night : exists s, run (pure (nc_one None (Some "r"%string) true)) (nc_arr None (Some "r"%string) true) nc0
    [Many (history demo_h); One (vis 8 2 107 "r" "z" (EFin 1) [])] = Ok s /\ nn_count s = 4%Z.
Proof. eexists. split; [vm_compute; reflexivity|]. reflexivity. Qed.

(** A second batch, from a later night, is added to the count of the night before. *)
Theorem C37_obs_count_night_refuted :
  exists l1 l2 s s', chrono (l1 ++ l2) /\
  run (pure (nc_one None None true)) (nc_arr None None true) nc0 [Many l1; Many l2] = Ok s /\
  run (pure (nc_one None None true)) (nc_arr None None true) nc0 (map One (l1 ++ l2)) = Ok s' /\
  nn_count s = 2%Z /\ nn_count s' = 1%Z.
Proof.
  exists [vis 1 1 100 "g" "a" (EFin 1) []], [vis 2 2 101 "g" "a" (EFin 1) []]. eexists. eexists.
  split; [unfold chrono, before; cbn; chr|]. split; [vm_compute; reflexivity|]. split; [vm_compute; reflexivity|]. now vm_compute.
Qed.
Print Assumptions C37_obs_count_night_refuted.
(** A band name of several letters matches any of them one by one and none in a batch. *)
Theorem C37_obs_count_bands_refuted :
  exists l s s', run (pure (nc_one None (Some "gr"%string) false)) (nc_arr None (Some "gr"%string) false) nc0 [Many l] = Ok s /\
  run (pure (nc_one None (Some "gr"%string) false)) (nc_arr None (Some "gr"%string) false) nc0 (map One l) = Ok s' /\
  nn_count s = 0%Z /\ nn_count s' = 2%Z.
Proof.
  exists [vis 1 1 100 "g" "a" (EFin 1) []; vis 2 1 101 "r" "a" (EFin 1) []]. eexists. eexists.
  split; [vm_compute; reflexivity|]. split; [vm_compute; reflexivity|]. now vm_compute.
Qed.
Print Assumptions C37_obs_count_bands_refuted.

(** LastObservation and LastObservationMjd: the last visit with the note and band. *)
Theorem C37_last_observation :
  forall note bn fs, nonempty fs ->
  run (pure (lo_one note bn)) (lo_arr note bn) None fs = Ok (last_opt (filter (fun v => has_note note v && in_band bn v) (history fs))).
Proof.
  intros note bn fs Ne.
  destruct (run_inv (pure (lo_one note bn)) (lo_arr note bn) (lo_R note bn) (fun _ => True)) with (fs := fs) (s := @None fvis) (h := @nil fvis) as (s & E & H); auto.
  - intros h s v H _. eexists. split; [reflexivity|]. now apply lo_one_ok.
  - intros h s l _ H _. now apply lo_arr_ok.
  - reflexivity.
  - rewrite E. f_equal. exact H.
Qed.
Print Assumptions C37_last_observation.
Example ex_last_observation : exists v, run (pure (lo_one (Some "a"%string) (Some "g"%string))) (lo_arr (Some "a"%string) (Some "g"%string)) None demo_h = Ok (Some v) /\ fv_id v = 1%Z.
Proof. eexists. split; [vm_compute; reflexivity|]. reflexivity. Qed.

(** LastObservedMatching: the last visit with the program and note, closer than the
    limit; for no visit exactly at the limit. *)
Theorem C37_last_matching :
  forall prog note pos fs, nonempty fs -> off_edge pos (history fs) ->
  run (pure (om_one prog note pos)) (om_arr prog note pos) None fs =
  Ok (last_opt (filter (fun v =>
        match prog with None => true | Some s => String.eqb (fv_prog v) s end &&
        match note with None => true | Some s => String.eqb (fv_note v) s end &&
        match pos with None => true | Some (d, lim) => Qltb (d v) lim end) (history fs))).
Proof.
  intros prog note pos fs Ne O.
  destruct (run_inv (pure (om_one prog note pos)) (om_arr prog note pos) (om_R prog note pos) (off_edge pos) (off_edge_pre pos)) with (fs := fs) (s := @None fvis) (h := @nil fvis) as (s & E & H); auto.
  - intros h s v H _. eexists. split; [reflexivity|]. now apply om_one_ok.
  - intros h s l _. apply om_arr_ok.
  - reflexivity.
  - rewrite E. f_equal. exact H.
Qed.
Print Assumptions C37_last_matching.
Definition dist_demo (v : fvis) : Q := inject_Z (Z.of_nat (List.length (fv_pix v))).
Example ex_last_matching :
  off_edge (Some (dist_demo, (3 # 2))) (history demo_h) /\
  exists v, run (pure (om_one (Some "prog"%string) (Some "a"%string) (Some (dist_demo, (3 # 2))))) (om_arr (Some "prog"%string) (Some "a"%string) (Some (dist_demo, (3 # 2)))) None demo_h = Ok (Some v) /\ fv_id v = 5%Z.
Proof.
  split; [unfold off_edge; each; intros H; inversion H|]. eexists. split; [vm_compute; reflexivity|]. reflexivity.
Qed.
Theorem C37_last_matching_refuted :
  exists d lim v s, run (pure (om_one None None (Some (d, lim)))) (om_arr None None (Some (d, lim))) None [Many [v]] = Ok (Some s) /\
  run (pure (om_one None None (Some (d, lim)))) (om_arr None None (Some (d, lim))) None [One v] = Ok None.
Proof. exists dist_demo, 1%Q, (vis 1 1 100 "g" "a" (EFin 1) [7]). eexists. split; vm_compute; reflexivity. Qed.
Print Assumptions C37_last_matching_refuted.

(** NObservations: for each pixel the number of visits covering it in the band,
    with the note and seeing better than the limit.  The limit is absent or one
    number no visit's seeing is close to. *)
Theorem C37_n_observations :
  forall note bn lim fill fs, nonempty fs ->
  (forall v, In v (history fs) -> band_ok bn v /\ pix_ok v /\ see_far lim fill v) ->
  exists f, run (no_one note bn lim fill) (no_arr note bn lim fill) (fun _ => 0%Z) fs = Ok f /\
  forall x, f x = count (fun v => covers x v && in_band bn v &&
      match lim with LScalar q => Qltb (seeing fill v) q | _ => true end && note_inside note v) (history fs).
Proof.
  intros note bn lim fill fs Ne C.
  apply (run_inv (no_one note bn lim fill) (no_arr note bn lim fill) (no_R note bn lim fill) (no_C bn lim fill)) with (h := @nil fvis); auto.
  - intros a b H. exact (all_pre _ a b H).
  - intros h s v. apply no_one_ok.
  - intros h s l _. apply no_arr_ok.
  - intros x. reflexivity.
Qed.
Print Assumptions C37_n_observations.
Example ex_n_observations :
  (forall v, In v (history demo_h) -> band_ok (Some "r"%string) v /\ pix_ok v /\ see_far (LScalar (3 # 2)) 100 v) /\
  exists f, run (no_one (Some "aba"%string) (Some "r"%string) (LScalar (3 # 2)) 100) (no_arr (Some "aba"%string) (Some "r"%string) (LScalar (3 # 2)) 100) (fun _ => 0%Z) demo_h = Ok f /\
  map f (seq 0 6) = [0; 1; 1; 1; 0; 0]%Z.
Proof.
  split.
  - each; (split; [split; [eexists; reflexivity|discriminate]|split; [repeat constructor; cbn; intuition discriminate|]]);
      (split; [intros H; inversion H|right; reflexivity]).
  - eexists. split; [vm_compute; reflexivity|]. now vm_compute.
Qed.
(** Seeing exactly at the limit counts one by one and not in a batch. *)
Theorem C37_seeing_limit_refuted :
  exists v f f', pix_ok v /\ seeing 100 v = 1%Q /\
  run (no_one None None (LScalar 1) 100) (no_arr None None (LScalar 1) 100) (fun _ => 0%Z) [Many [v]] = Ok f /\
  run (no_one None None (LScalar 1) 100) (no_arr None None (LScalar 1) 100) (fun _ => 0%Z) [One v] = Ok f' /\
  f 3 = 0%Z /\ f' 3 = 1%Z.
Proof.
  exists (vis 1 1 100 "g" "a" (EFin 1) [3]). eexists. eexists. split; [repeat constructor; auto|]. split; [reflexivity|].
  split; [vm_compute; reflexivity|]. split; [vm_compute; reflexivity|]. now vm_compute.
Qed.
Print Assumptions C37_seeing_limit_refuted.
(** With a map of limits, a single visit counts on all its pixels as soon as it
    passes on one of them. *)
Theorem C37_seeing_map_refuted :
  exists m v f f', pix_ok v /\
  run (no_one None None (LMap m) 100) (no_arr None None (LMap m) 100) (fun _ => 0%Z) [Many [v]] = Ok f /\
  run (no_one None None (LMap m) 100) (no_arr None None (LMap m) 100) (fun _ => 0%Z) [One v] = Ok f' /\
  map f [3; 4] = [1; 0]%Z /\ map f' [3; 4] = [1; 1]%Z.
Proof.
  exists (fun h => if Nat.eqb h 3 then 5%Q else 1%Q), (vis 1 1 100 "g" "a" (EFin 2) [3; 4]). eexists. eexists.
  split; [repeat constructor; cbn; intuition discriminate|].
  split; [vm_compute; reflexivity|]. split; [vm_compute; reflexivity|]. now vm_compute.
Qed.
Print Assumptions C37_seeing_map_refuted.
(** Both paths look for the visit's note inside the feature's, against the
    documentation: a visit whose note contains the one asked for is not counted. *)
Theorem C37_note_direction_refuted :
  exists v f, pix_ok v /\ fv_note v = "blob, g"%string /\
  run (no_one (Some "blob"%string) None LNone 100) (no_arr (Some "blob"%string) None LNone 100) (fun _ => 0%Z) [One v; Many [v]] = Ok f /\ f 3 = 0%Z.
Proof.
  exists (vis 1 1 100 "g" "blob, g" (EFin 1) [3]). eexists. split; [repeat constructor; auto|]. split; [reflexivity|].
  split; [vm_compute; reflexivity|]. now vm_compute.
Qed.
Print Assumptions C37_note_direction_refuted.

(** LastNObsTimes: for each pixel the times of the last [n] visits in the band,
    latest first, padded with zeros; for at most one batch, given first. *)
Theorem C37_last_times_partial :
  forall bn n l r, 1 <= n -> (forall v, In v (l ++ r) -> band_ok bn v /\ pix_ok v) ->
  let spec x := firstn n (rev (map fv_mjd (filter (fun v => covers x v && in_band bn v) (l ++ r))) ++ repeat 0%Q n) in
  exists f f', run (pure (lt_one bn)) (lt_arr bn n) (lt0 n) (Many l :: map One r) = Ok f /\
    run (pure (lt_one bn)) (lt_arr bn n) (lt0 n) (map One (l ++ r)) = Ok f' /\
    forall x, f x = spec x /\ f' x = spec x.
Proof.
  intros bn n l r Hn C spec.
  assert (CP : forall a b, lt_C bn (a ++ b) -> lt_C bn a) by (intros a b H; exact (all_pre _ a b H)).
  assert (ST : forall h s v, lt_R bn n h s -> lt_C bn (h ++ [v]) -> exists s', pure (lt_one bn) s v = Ok s' /\ lt_R bn n (h ++ [v]) s').
  { intros h s v H HC. eexists. split; [reflexivity|]. now apply lt_one_ok. }
  destruct (lt_arr_ok bn n l Hn (CP _ _ C)) as (s1 & E1 & R1).
  destruct (run_ones _ (lt_arr bn n) _ (lt_C bn) CP ST r s1 l R1 C) as (s & E & Ra).
  destruct (run_ones _ (lt_arr bn n) (lt_R bn n) (lt_C bn) CP ST (l ++ r) (lt0 n) [] (lt0_R bn n Hn) C) as (s' & E' & Ra').
  exists s, s'. split; [cbn [run]; rewrite E1; exact E|]. split; [exact E'|]. intros x. split; [apply Ra|apply Ra'].
Qed.
Print Assumptions C37_last_times_partial.
Example ex_last_times : exists f, run (pure (lt_one (Some "r"%string))) (lt_arr (Some "r"%string) 2) (lt0 2) (Many (history demo_h) :: map One [vis 8 2 107 "r" "z" (EFin 1) [2; 9]]) = Ok f /\
  map f [2; 3; 9] = [[107; 104]; [106; 103]; [107; 0]]%Q.
Proof. eexists. split; [vm_compute; reflexivity|]. now vm_compute. Qed.
(** A later batch replaces the times instead of adding to them. *)
Theorem C37_last_times_refuted :
  exists l1 l2 f f', chrono (l1 ++ l2) /\
  run (pure (lt_one None)) (lt_arr None 3) (lt0 3) [Many l1; Many l2] = Ok f /\
  run (pure (lt_one None)) (lt_arr None 3) (lt0 3) (map One (l1 ++ l2)) = Ok f' /\
  f 3 = [101; 0; 0]%Q /\ f 4 = [0; 0; 0]%Q /\ f' 3 = [101; 100; 0]%Q /\ f' 4 = [100; 0; 0]%Q.
Proof.
  exists [vis 1 1 100 "g" "a" (EFin 1) [3; 4]], [vis 2 1 101 "g" "a" (EFin 1) [3]]. eexists. eexists.
  split; [unfold chrono, before; cbn; chr|]. split; [vm_compute; reflexivity|]. split; [vm_compute; reflexivity|]. now vm_compute.
Qed.
Print Assumptions C37_last_times_refuted.

(** LastObserved: for each pixel the time of the last visit in the band. *)
Theorem C37_last_observed :
  forall bn fs, nonempty fs -> chrono (history fs) ->
  (forall v, In v (history fs) -> band_ok bn v /\ pix_ok v /\ (0 < fv_mjd v)%Q) ->
  exists f, run (pure (ld_one bn)) (ld_arr bn) (fun _ => None) fs = Ok f /\
  forall x, qopt_eq (f x) (last_opt (map fv_mjd (filter (fun v => covers x v && in_band bn v) (history fs)))).
Proof.
  intros bn fs Ne Ch C.
  apply (run_inv (pure (ld_one bn)) (ld_arr bn) (ld_R bn) (ld_C bn)) with (h := @nil fvis); auto.
  - intros a b [H1 H2]. split; [now apply chrono_pre in H1|exact (all_pre _ _ _ H2)].
  - intros h s v H HC. eexists. split; [reflexivity|]. now apply ld_one_ok.
  - intros h s l _. apply ld_arr_ok.
  - intros x. exact I.
  - split; auto.
Qed.
Print Assumptions C37_last_observed.
Example ex_last_observed : exists f, run (pure (ld_one (Some "r"%string))) (ld_arr (Some "r"%string)) (fun _ => None) demo_h = Ok f /\
  map f (seq 0 6) = [None; Some 103; Some 104; Some 106; Some 102; Some 106]%Q.
Proof. eexists. split; [vm_compute; reflexivity|]. now vm_compute. Qed.

(** NObsNight: for each pixel the number of visits of the latest night in the band.
    The band is None or one letter. *)
Theorem C37_obs_night :
  forall bn fs, nonempty fs -> chrono (history fs) ->
  (forall v, In v (history fs) -> band_ok bn v /\ pix_ok v) ->
  exists s, run (pure (nb_one bn)) (nb_arr bn) nb0 fs = Ok s /\
  forall w, last_opt (history fs) = Some w -> nb_night s = Some (fv_night w) /\
  forall x, nb_map s x = count (fun v => night_is (fv_night w) v && (covers x v && in_band bn v)) (history fs).
Proof.
  intros bn fs Ne Ch C.
  destruct (history fs) as [|v0 h0] eqn:EH.
  - destruct fs as [|f fs]; [eexists; split; [reflexivity|]; intros w H; discriminate|]. exfalso.
    destruct f as [v|l]; [discriminate|]. unfold history in EH. cbn in EH. apply app_eq_nil in EH. apply (Ne l); [now left|tauto].
  - rewrite <- EH in *. assert (NE : bn <> Some EmptyString).
    { intros ->. destruct (C v0) as [[(c & X) _] _]; [rewrite EH; now left|discriminate]. }
    destruct (run_inv (pure (nb_one bn)) (nb_arr bn) (nb_R bn) (nb_C bn)) with (fs := fs) (s := nb0) (h := @nil fvis) as (s & E & _ & H); auto.
    + intros a b (H1 & H2 & H3). split; [now apply chrono_pre in H1|]. split; [exact H2|exact (all_pre _ _ _ H3)].
    + intros h s v H HC. eexists. split; [reflexivity|]. now apply nb_one_ok.
    + intros h s l. apply nb_arr_ok.
    + split; [reflexivity|]. intros w H. discriminate.
    + split; [exact Ch|]. split; [exact NE|exact C].
    + exists s. split; [exact E|]. exact H.
Qed.
Print Assumptions C37_obs_night.
Example ex_obs_night : exists s, run (pure (nb_one (Some "r"%string))) (nb_arr (Some "r"%string)) nb0 demo_h = Ok s /\ map (nb_map s) (seq 0 6) = [0; 1; 1; 2; 0; 1]%Z.
Proof. eexists. split; [vm_compute; reflexivity|]. now vm_compute. Qed.
Theorem C37_obs_night_refuted :
  exists v s s', pix_ok v /\ run (pure (nb_one (Some ""%string))) (nb_arr (Some ""%string)) nb0 [Many [v]] = Ok s /\
  run (pure (nb_one (Some ""%string))) (nb_arr (Some ""%string)) nb0 [One v] = Ok s' /\ nb_map s 3 = 0%Z /\ nb_map s' 3 = 1%Z.
Proof.
  exists (vis 1 1 100 "g" "a" (EFin 1) [3]). eexists. eexists. split; [repeat constructor; auto|].
  split; [vm_compute; reflexivity|]. split; [vm_compute; reflexivity|]. now vm_compute.
Qed.
Print Assumptions C37_obs_night_refuted.

(** NObservationsCurrentSeason: for each pixel the visits of the pixel's season, in the
    band and deep enough.  A visit's own season is that of its pixels, it does not
    cover pixel 0 and its depth is known. *)
Theorem C37_current_season_partial :
  forall pix_ra dark start bn m5max fs, nonempty fs -> chrono (history fs) ->
  (forall v, In v (history fs) -> cs_visit pix_ra dark start bn m5max v) ->
  exists s, run (pure (cs_one pix_ra dark start bn m5max)) (cs_arr pix_ra dark start bn m5max) (cs0 pix_ra start) fs = Ok s /\
  forall w, last_opt (history fs) = Some w -> forall x,
  cs_map s x = count (fun v => covers x v && in_band bn v && deep_enough dark bn m5max x v &&
      (Qfloor (calc_season (pix_ra x) (fv_mjd v) start) =? Qfloor (calc_season (pix_ra x) (fv_mjd w) start))%Z) (history fs).
Proof.
  intros pix_ra dark start bn m5max fs Ne Ch C.
  destruct (run_inv (pure (cs_one pix_ra dark start bn m5max)) (cs_arr pix_ra dark start bn m5max) (cs_R pix_ra dark start bn m5max) (cs_C pix_ra dark start bn m5max))
    with (fs := fs) (s := cs0 pix_ra start) (h := @nil fvis) as (s & E & H1 & _ & H3); auto.
  - intros a b [H1 H2]. split; [now apply chrono_pre in H1|exact (all_pre _ _ _ H2)].
  - intros h s v H HC. eexists. split; [reflexivity|]. now apply cs_one_ok.
  - intros h s l. apply cs_arr_ok.
  - apply cs0_R.
  - split; auto.
  - exists s. split; [exact E|]. intros w L x. cbn [app] in *. rewrite L in H1. rewrite H3, H1. apply count_ext. intros v _. unfold cs_match.
    now rewrite !pix_season_calc, deep_enough_ok.
Qed.
Print Assumptions C37_current_season_partial.
Definition sea (mjd : Q) (ra : Q) (depth : er) (pix : list nat) : fvis := mkFv 1 1 mjd "g" "a" "p" (EFin 1) depth ra pix.
Definition ra2 (h : nat) : Q := if Nat.ltb h 10 then 10 else 200.
Definition sea_demo : list feed :=
  [Many [sea 61000 10 (EFin 24) [1; 2]; sea 61010 10 (EFin 20) [2]; sea 61020 200 (EFin 24) [12]]; One (sea 61135 10 (EFin 24) [2; 3]); Many [sea 61140 10 (EFin 24) [2; 4]; sea 61145 200 (EFin 24) [12]]].
Example ex_current_season :
  (nonempty sea_demo /\ chrono (history sea_demo) /\ forall v, In v (history sea_demo) -> cs_visit ra2 (fun _ => EFin 25) 60980 (Some "g"%string) (Some 2%Q) v) /\
  exists s, run (pure (cs_one ra2 (fun _ => EFin 25) 60980 (Some "g"%string) (Some 2%Q))) (cs_arr ra2 (fun _ => EFin 25) 60980 (Some "g"%string) (Some 2%Q)) (cs0 ra2 60980) sea_demo = Ok s /\
  map (cs_map s) [0; 1; 2; 3; 4; 12] = [0; 0; 2; 1; 1; 2]%Z.
Proof.
  split; [split; [intros l [H|[H|[H|[]]]]; inversion H; discriminate|split; [unfold chrono, history, sea_demo, before; cbn; chr|]]|].
  - each; (split; [unfold Qle; cbn; lia|split; [repeat constructor; cbn; intuition discriminate|split; [cbn; intuition discriminate|]]]);
      (intros x X; cbn in X; repeat (destruct X as [<-|X]); [..|destruct X]); (split; [vm_compute; reflexivity|right; reflexivity]).
  - apply ok_ex. vm_compute. reflexivity.
Qed.
(** The batch path adds nothing when only pixel 0 is left: it tests the sum of the
    pixel numbers. *)
Theorem C37_current_season_refuted :
  exists v, let go := run (pure (cs_one ra2 (fun _ => EFin 25) 60980 None None)) (cs_arr ra2 (fun _ => EFin 25) 60980 None None) (cs0 ra2 60980) in
  (exists s, go [Many [v]] = Ok s /\ cs_map s 0 = 0%Z) /\ (exists s, go [One v] = Ok s /\ cs_map s 0 = 1%Z).
Proof.
  exists (sea 61000 10 (EFin 24) [0]). split; apply ok_ex; vm_compute; reflexivity.
Qed.
Print Assumptions C37_current_season_refuted.
(** The batch path takes the season of the pointing, the single path that of the pixel. *)
Theorem C37_current_season_ra_refuted :
  exists ra v, let go := run (pure (cs_one ra (fun _ => EFin 25) 60980 None None)) (cs_arr ra (fun _ => EFin 25) 60980 None None) (cs0 ra 60980) in
  pix_ok v /\ ~ In 0 (fv_pix v) /\
  (exists s, go [Many [v]] = Ok s /\ map (cs_map s) [1; 2] = [0; 1]%Z) /\ (exists s, go [One v] = Ok s /\ map (cs_map s) [1; 2] = [1; 1]%Z).
Proof.
  exists (fun h => if Nat.eqb h 1 then 45%Q else 55%Q), (sea 61170 46 (EFin 24) [1; 2]).
  split; [repeat constructor; cbn; intuition discriminate|]. split; [cbn; intuition discriminate|].
  split; apply ok_ex; vm_compute; reflexivity.
Qed.
Print Assumptions C37_current_season_ra_refuted.

(** PairInNight: batches taken in one night, with increasing IDs, are the same as
    their visits one by one, state and errors included. *)
Theorem C37_pairs_partial :
  forall bn gmin gmax fs s, (forall l, In (Many l) fs -> pn_batch l) ->
  run (pn_single bn gmin gmax) (pn_arr bn gmin gmax) s fs = run (pn_single bn gmin gmax) (pn_arr bn gmin gmax) s (map One (history fs)).
Proof.
  intros bn gmin gmax. induction fs as [|f fs IH]; intros s H; [reflexivity|].
  assert (RA : forall a b s0, run (pn_single bn gmin gmax) (pn_arr bn gmin gmax) s0 (a ++ b) =
     bind (run (pn_single bn gmin gmax) (pn_arr bn gmin gmax) s0 a) (fun s1 => run (pn_single bn gmin gmax) (pn_arr bn gmin gmax) s1 b)).
  { clear. induction a as [|x a IH]; intros b s0; [reflexivity|]. cbn [app run]. destruct x as [v|l].
    - destruct (pn_single bn gmin gmax s0 v); cbn [bind]; [apply IH|reflexivity].
    - destruct (pn_arr bn gmin gmax s0 l); cbn [bind]; [apply IH|reflexivity]. }
  change (history (f :: fs)) with (fed f ++ history fs). rewrite map_app, RA.
  assert (IH' : forall s, run (pn_single bn gmin gmax) (pn_arr bn gmin gmax) s fs = run (pn_single bn gmin gmax) (pn_arr bn gmin gmax) s (map One (history fs)))
    by (intros s0; apply IH; intros l Hl; apply H; now right).
  destruct f as [v|l]; cbn [run fed map].
  - destruct (pn_single bn gmin gmax s v); cbn [bind]; auto.
  - rewrite pn_arr_singles by (apply H; now left). destruct (run _ _ s (map One l)); cbn [bind]; auto.
Qed.
Print Assumptions C37_pairs_partial.
Definition pair_demo : list feed :=
  [Many [vis 1 3 100 "g" "a" (EFin 1) [1; 2]; vis 2 3 (100 + (1 # 96)) "r" "a" (EFin 1) [2]]; One (vis 3 3 (100 + (1 # 48)) "g" "a" (EFin 1) [2; 3]);
   Many [vis 4 3 (100 + (1 # 45)) "g" "a" (EFin 1) [1; 2]; vis 5 3 (100 + (1 # 25)) "g" "a" (EFin 1) [3; 1]]].
Example ex_pairs :
  (forall l, In (Many l) pair_demo -> pn_batch l) /\
  exists s, run (pn_single (Some "g"%string) (25 # 1440) (45 # 1440)) (pn_arr (Some "g"%string) (25 # 1440) (45 # 1440)) pn0 pair_demo = Ok s /\
  map (pn_map s) [1; 2; 3] = [2; 2; 1]%Z.
Proof.
  split.
  - intros l [H|[H|[H|[]]]]; inversion H; subst; clear H.
    + split; [discriminate|]. split; [intros u v Hu Hv; cbn in Hu, Hv; intuition (subst; reflexivity)|].
      split; [repeat (constructor; cbn; try lia)|]. each; (split; [discriminate|eexists; reflexivity]).
    + split; [discriminate|]. split; [intros u v Hu Hv; cbn in Hu, Hv; intuition (subst; reflexivity)|].
      split; [repeat (constructor; cbn; try lia)|]. each; (split; [discriminate|eexists; reflexivity]).
  - eexists. split; [vm_compute; reflexivity|]. now vm_compute.
Qed.
(** A batch over two nights looks up the second night's positions in the rows of the first. *)
Theorem C37_pairs_refuted :
  exists l s s', chrono l /\
  run (pn_single None (25 # 1440) (45 # 1440)) (pn_arr None (25 # 1440) (45 # 1440)) pn0 [Many l] = Ok s /\
  run (pn_single None (25 # 1440) (45 # 1440)) (pn_arr None (25 # 1440) (45 # 1440)) pn0 (map One l) = Ok s' /\
  pn_night s = 1%Z /\ pn_night s' = 2%Z /\ pn_map s 3 = 1%Z /\ pn_map s' 3 = 0%Z.
Proof.
  exists [vis 1 1 100 "g" "a" (EFin 1) [3]; vis 2 1 (100 + (1 # 48)) "g" "a" (EFin 1) [3]; vis 3 2 101 "g" "a" (EFin 1) [4]; vis 4 2 102 "g" "a" (EFin 1) [5]]. eexists. eexists.
  split; [unfold chrono, before; cbn; chr|]. split; [vm_compute; reflexivity|]. split; [vm_compute; reflexivity|]. now vm_compute.
Qed.
Print Assumptions C37_pairs_refuted.

(** Taken together: two ways of cutting one history into batches give the same values. *)
Theorem C37_batching_irrelevant :
  forall fs fs', nonempty fs -> nonempty fs' -> history fs = history fs' -> chrono (history fs) -> history fs <> [] ->
  (forall notes, exists s s', run (pure (nn_one notes)) (nn_arr notes) nn0 fs = Ok s /\ run (pure (nn_one notes)) (nn_arr notes) nn0 fs' = Ok s' /\ nn_count s = nn_count s') /\
  (forall note bn, run (pure (lo_one note bn)) (lo_arr note bn) None fs = run (pure (lo_one note bn)) (lo_arr note bn) None fs') /\
  (forall note bn, (forall v, In v (history fs) -> band_ok bn v) ->
     exists s s', run (pure (nc_one note bn false)) (nc_arr note bn false) nc0 fs = Ok s /\ run (pure (nc_one note bn false)) (nc_arr note bn false) nc0 fs' = Ok s' /\ nn_count s = nn_count s') /\
  (forall note bn, (forall v, In v (history fs) -> band_ok bn v /\ pix_ok v) ->
     exists f f', run (no_one note bn LNone 0) (no_arr note bn LNone 0) (fun _ => 0%Z) fs = Ok f /\ run (no_one note bn LNone 0) (no_arr note bn LNone 0) (fun _ => 0%Z) fs' = Ok f' /\ forall x, f x = f' x) /\
  (forall bn, (forall v, In v (history fs) -> band_ok bn v /\ pix_ok v) ->
     exists s s', run (pure (nb_one bn)) (nb_arr bn) nb0 fs = Ok s /\ run (pure (nb_one bn)) (nb_arr bn) nb0 fs' = Ok s' /\ forall x, nb_map s x = nb_map s' x) /\
  (forall bn, (forall v, In v (history fs) -> band_ok bn v /\ pix_ok v /\ (0 < fv_mjd v)%Q) ->
     exists f f', run (pure (ld_one bn)) (ld_arr bn) (fun _ => None) fs = Ok f /\ run (pure (ld_one bn)) (ld_arr bn) (fun _ => None) fs' = Ok f' /\ forall x, qopt_eq (f x) (f' x)).
Proof.
  intros fs fs' N N' E Ch NN. destruct (last_opt (history fs)) as [w|] eqn:L; [|apply last_opt_none in L; tauto].
  repeat split.
  - intros notes. destruct (C37_note_in_night notes fs N Ch) as (s & A & B). rewrite E in Ch, L. destruct (C37_note_in_night notes fs' N' Ch) as (s' & A' & B').
    exists s, s'. split; [exact A|split; [exact A'|]]. rewrite E in B. rewrite (B w L), (B' w L). reflexivity.
  - intros. rewrite !C37_last_observation by assumption. now rewrite E.
  - intros note bn B. destruct (C37_obs_count note bn fs N B) as (s & A & V). rewrite E in B. destruct (C37_obs_count note bn fs' N' B) as (s' & A' & V').
    exists s, s'. split; [exact A|split; [exact A'|]]. rewrite V, V', E. reflexivity.
  - intros note bn B. destruct (C37_n_observations note bn LNone 0 fs N) as (s & A & V); [intros v Hv; destruct (B v Hv); repeat split; auto|].
    rewrite E in B. destruct (C37_n_observations note bn LNone 0 fs' N') as (s' & A' & V'); [intros v Hv; destruct (B v Hv); repeat split; auto|].
    exists s, s'. split; [exact A|split; [exact A'|]]. intros x. rewrite V, V', E. reflexivity.
  - intros bn B. destruct (C37_obs_night bn fs N Ch B) as (s & A & V). rewrite E in B, Ch, L, V. destruct (C37_obs_night bn fs' N' Ch B) as (s' & A' & V').
    exists s, s'. split; [exact A|split; [exact A'|]]. intros x. rewrite (proj2 (V w L)), (proj2 (V' w L)). reflexivity.
  - intros bn B. destruct (C37_last_observed bn fs N Ch B) as (s & A & V). rewrite E in B, Ch, V. destruct (C37_last_observed bn fs' N' Ch B) as (s' & A' & V').
    exists s, s'. split; [exact A|split; [exact A'|]]. intros x. specialize (V x). specialize (V' x). unfold qopt_eq in *. clear L.
    destruct (s x), (s' x), (last_opt (map fv_mjd _)); cbv beta iota in V, V' |- *; try contradiction; [now rewrite V, V'|exact I].
Qed.
Print Assumptions C37_batching_irrelevant.
Example ex_batching : history demo_h = history (map One (history demo_h)) /\ nonempty (map One (history demo_h)) /\ history demo_h <> [].
Proof. split; [reflexivity|]. split; [|discriminate]. intros l H. apply in_map_iff in H. destruct H as (v & H & _). discriminate. Qed.

(** ** C62 *)
(** calc_season: at the start every right ascension is in the year before its season
    0; the season grows by one every 365.25 days, does not depend on the turn in
    which the right ascension is given, and never decreases. *)
Theorem C62_calc_season :
  (forall ra start, (- 1 < calc_season ra start start <= 0)%Q) /\
  (forall ra t start, (calc_season ra (t + (1461 # 4)) start == calc_season ra t start + 1)%Q) /\
  (forall ra t start, (calc_season (ra + 360) t start == calc_season ra t start)%Q) /\
  (forall ra t t' start, (t < t')%Q -> (calc_season ra t start < calc_season ra t' start)%Q).
Proof.
  split; [exact season_start_range|]. split; [exact season_year|]. split; [exact season_turn|].
  intros ra t t' start H. unfold calc_season. assert (E : forall u, ((u - season_began ra start) / yr == (u - season_began ra start) * (4 # 1461))%Q) by (intros; unfold yr; field).
  rewrite !E. lra.
Qed.
Print Assumptions C62_calc_season.

(** The season at a right ascension turns when the Sun is there: the starts of the
    seasons are whole years from the time the Sun, moving 360 degrees in 365.25
    days from its reference, reaches it.  Season 0 is the first to start at or after
    the start of the survey. *)
Theorem C62_season_zero :
  forall ra start t k, (calc_season ra t start == inject_Z k)%Q ->
  (exists m, t == 60940 + (ra - (17898403541421598 # 100000000000000)) / 360 * (1461 # 4) + inject_Z m * (1461 # 4))%Q /\
  (k = 0%Z -> start <= t < start + (1461 # 4))%Q.
Proof.
  intros ra start t k H. unfold calc_season, season_began in H. set (b := (ref_time + (ra - ref_sun) / 360 * yr)%Q) in *.
  set (f := Qfloor ((b - start) / yr)) in *.
  assert (T : (t == b + inject_Z (k - f) * yr)%Q).
  { unfold Zminus. rewrite inject_Z_plus, inject_Z_opp, <- H. unfold yr. field. }
  split; [exists (k - f)%Z; exact T|]. intros ->.
  assert (A := Qfloor_le ((b - start) / yr)). assert (B := Qlt_floor ((b - start) / yr)). fold f in A, B.
  rewrite inject_Z_plus in B. change (inject_Z 1) with 1%Q in B.
  unfold Zminus in T. rewrite inject_Z_plus, inject_Z_opp in T. change (inject_Z 0) with 0%Q in T.
  assert (E : (b == start + ((b - start) / yr) * yr)%Q) by (unfold yr; field).
  set (q := ((b - start) / yr)%Q) in *. clearbody q f b. unfold yr in *. split; lra.
Qed.
Print Assumptions C62_season_zero.
Example ex_season : (calc_season 100 61000 60980 == 61000 * (4 # 1461) - season_began 100 60980 * (4 # 1461))%Q /\ Qfloor (calc_season 100 61000 60980) = (-1)%Z /\ Qfloor (calc_season 230 61000 60980) = 0%Z /\
  (calc_season 100 (season_began 100 60980) 60980 == inject_Z 0)%Q.
Proof. repeat split; vm_compute; reflexivity. Qed.

(** ** C63 *)
(** PairInNight: for each pixel the number of visits of the latest night in the band
    that follow, at a gap strictly between the limits, an earlier visit of that
    night in the band to the same pixel. *)
Theorem C63_pairs_counted :
  forall bn gmin gmax fs, (forall l, In (Many l) fs -> pn_batch l) -> chrono (history fs) ->
  (forall v, In v (history fs) -> band_ok bn v) ->
  (forall u v, In u (history fs) -> In v (history fs) -> far (fv_mjd v - fv_mjd u) gmin /\ far (fv_mjd v - fv_mjd u) gmax) ->
  exists s, run (pn_single bn gmin gmax) (pn_arr bn gmin gmax) pn0 fs = Ok s /\
  forall w, last_opt (filter (in_band bn) (history fs)) = Some w ->
    pn_night s = fv_night w /\
    forall x, pn_map s x = pairs gmin gmax x (filter (fun v => night_is (fv_night w) v && in_band bn v) (history fs)).
Proof.
  intros bn gmin gmax fs Nb Ch B F. rewrite C37_pairs_partial by exact Nb.
  destruct (run_ones (pn_single bn gmin gmax) (pn_arr bn gmin gmax) (pn_R bn gmin gmax) (pn_C bn gmin gmax)) with (l := history fs) (s := pn0) (h := @nil fvis) as (s & E & _ & H).
  - intros a b (H1 & H2 & H3). split; [now apply chrono_pre in H1|]. split; [exact (all_pre _ _ _ H2)|].
    intros u v Hu Hv. apply H3; apply in_or_app; now left.
  - intros h s v. apply pn_one_ok.
  - apply pn0_R.
  - split; [exact Ch|]. split; [exact B|exact F].
  - exists s. split; [exact E|]. intros w L. destruct (H w L) as (N & _ & M). split; [exact N|exact M].
Qed.
Print Assumptions C63_pairs_counted.
Example ex_pairs_counted :
  chrono (history pair_demo) /\ (forall u v, In u (history pair_demo) -> In v (history pair_demo) -> far (fv_mjd v - fv_mjd u) (25 # 1440) /\ far (fv_mjd v - fv_mjd u) (45 # 1440)) /\
  map (fun x => pairs (25 # 1440) (45 # 1440) x (filter (fun v => night_is 3 v && band_is (Some "g"%string) v) (history pair_demo))) [1; 2; 3] = [2; 2; 1]%Z.
Proof.
  split; [unfold chrono, before; cbn; chr|]. split; [|now vm_compute].
  intros u v Hu Hv. cbn in Hu, Hv. repeat (destruct Hu as [<-|Hu]); try contradiction; repeat (destruct Hv as [<-|Hv]); try contradiction; split; right; reflexivity.
Qed.
