(** Properties C29-C32, C51, C52: the scripted survey. *)
From Coq Require Import List ZArith QArith Qround Bool String Ascii Lia Lqa Permutation.
From Verif Require Import Base Obs Labels Script Script_proofs.
Import ListNotations.
Open Scope nat_scope.

(** A configuration and rows used by the examples. *)
Definition demo (limit : nat) (twi : bool) (bct : Q) (ignore : list string) (feas : bool) : scfg :=
  mkScfg ignore limit twi bct true false None (fun _ => feas) (fun _ => None) (fun _ l => l)
    (fun _ _ dec => dec) (fun _ ra _ => ra) (fun _ _ _ => 1%Q) (fun ra => ra) 6.
Definition row (note : string) (mjd flush : Q) (band : string) : sobs :=
  mkSobs note mjd (1 # 10) flush band "" 1 1 0 30 1 0 2 12 11 0 0 false.
Definition cnd (mjd n18 : Q) : scond :=
  mkScond mjd ["r"; "g"; "i"]%string "r" 3 (-1) n18 None (0%Q, 2%Q) None (0%Q, 6%Q).
Definition pint (s : string) : option Z := None.
Definition visit (note : string) : obs := mkObs 0 0 0 0 0 0 0 0 30 1 "r" "" note.

(** ** C29 *)
(** At a time at which nothing was generated before, what a scripted survey
    offers is made from distinct rows of its script; each of them is eligible:
    unobserved, inside (mjd - mjd_tol, flush_by_mjd), band mounted (and active)
    when these checks are on, inside its altitude, hour angle, moon and sun
    limits, inside the limits of sky and telescope, not masked.  An eligible row
    is left out only when the number limit is reached or the rows would run into
    twilight. *)
Theorem C29_offered_rows_eligible :
  forall F py id ops st c,
  srun F py (script_init id) ops = Some st ->
  (0 < g_turn F)%Q -> (f_sort F = None \/ f_sort F = Some "HA"%string) ->
  (0 <= c_lmst c)%Q -> (c_lmst c < 24)%Q ->
  (forall s, In s (st_wanted st) -> (0 <= g_hours F (s_ra s))%Q /\ (g_hours F (s_ra s) < 24)%Q) ->
  ~ (c_mjd c == -1)%Q -> (forall c', In (SGen c') ops -> ~ (c_mjd c' == c_mjd c)%Q) ->
  exists rows,
    snd (generate F st c) = Ok (match rows with [] => [] | _ => f_det F c (map to_obs rows) end) /\
    NoDup (map s_note rows) /\ List.length rows <= f_limit F /\
    (forall s, In s rows -> In s (st_wanted st) /\ eligible F c s) /\
    (forall s, In s (st_wanted st) -> eligible F c s ->
       In s rows \/ List.length rows = f_limit F \/ (rows = [] /\ f_twi F = true)).
Proof.
  intros F py id ops st c R T FS L1 L2 RA N1 NG.
  pose proof (run_consistent F py ops _ _ (init_consistent id) R) as C.
  pose proof (run_fresh F py id ops st c R N1 NG) as FR.
  rewrite (generate_fresh F st c FR), (check_list_spec F st c C FS). cbn [bind].
  set (el := filter (fun s => selected F c s && masked F c s) (st_wanted st)).
  destruct (chosen_facts F c el) as (rest & P & _ & PL & LE).
  assert (EL : forall s, In s el <-> In s (st_wanted st) /\ eligible F c s).
  { intros s. unfold el. rewrite filter_In, andb_true_iff.
    split; intros [W K]; (split; [exact W|]); destruct (RA s W); apply (eligible_iff F T c s); repeat split; assumption || apply K. }
  assert (ND : NoDup (map s_note el)).
  { destruct C as [C _]. unfold el. clear - C. induction (st_wanted st) as [|x l IH]; cbn; [constructor|].
    cbn in C. inversion C; subst. destruct (selected F c x && masked F c x); [|auto]. cbn. constructor; [|auto].
    intros K. apply in_map_iff in K. destruct K as (y & E & K). apply filter_In in K. apply H1. rewrite <- E. apply in_map. tauto. }
  assert (INC : forall s, In s (chosen F c el) -> In s el).
  { intros s K. apply (Permutation_in _ P). apply in_or_app. now left. }
  assert (NDC : NoDup (map s_note (chosen F c el))).
  { apply (Permutation_map s_note) in P. rewrite map_app in P. apply (Permutation_NoDup (Permutation_sym P)) in ND.
    clear - ND. induction (map s_note (chosen F c el)) as [|x l IH]; [constructor|]. cbn in ND. inversion ND; subst. constructor; [|auto].
    intros K. apply H1. apply in_or_app. now left. }
  set (ch := chosen F c el) in *. clearbody ch.
  destruct (too_long F c ch) eqn:TL.
  - exists []. split; [destruct ch; reflexivity|]. split; [constructor|]. split; [cbn; lia|]. split; [intros s []|].
    intros s _ _. right. right. split; [reflexivity|]. unfold too_long in TL. apply andb_true_iff in TL. tauto.
  - exists ch. split; [destruct ch; reflexivity|]. split; [exact NDC|]. split; [exact LE|]. split.
    + intros s K. apply EL. now apply INC.
    + intros s W E. assert (K : In s el) by (apply EL; auto). apply (Permutation_in _ (Permutation_sym P)) in K.
      apply in_app_or in K. destruct K as [K|K]; [now left|]. right. left. apply PL. intros ->. destruct K.
Qed.
Print Assumptions C29_offered_rows_eligible.

Definition two : list sobs := [row "a" 10 11 "r"; row "b" 10 11 "g"; row "c" 20 21 "r"].
Example C29_example : exists st, srun (demo 5 true 0 [] true) pint (script_init 1)
    [SSet two true true; SGen (cnd 9 100); SAdd (visit "b, 2")] = Some st /\
  map s_note (st_wanted st) = ["a, 1"; "b, 2"; "c, 3"]%string /\
  option_map (map o_note) (match snd (generate (demo 5 true 0 [] true) st (cnd 10 100)) with Ok l => Some l | _ => None end)
    = Some ["a, 1"]%string.
Proof. eexists. split; [vm_compute; reflexivity|]. now vm_compute. Qed.

(** ** C30 *)
(** A row reported completed is not offered again at any time at which
    nothing was generated before, as long as the script is only appended to. *)
Theorem C30_completed_not_offered_at_new_times :
  forall F py id before rep after st st1 c n out,
  srun F py (script_init id) before = Some st1 -> In n (map s_note (st_wanted st1)) ->
  srun F py (script_init id) (before ++ rep :: after) = Some st ->
  (exists l, rep = SArray l /\ In n (map o_note l)) \/
  (exists o, rep = SAdd o /\ o_note o = n /\ forall ig, In ig (f_ignore F) -> contains ig n = false) ->
  (forall o, In o after -> match o with SClear => False | SSet _ append _ => append = true | _ => True end) ->
  (f_sort F = None \/ f_sort F = Some "HA"%string) ->
  (forall c l x, In x (f_det F c l) -> exists y, In y l /\ o_note y = o_note x) ->
  ~ (c_mjd c == -1)%Q -> (forall c', In (SGen c') (before ++ rep :: after) -> ~ (c_mjd c' == c_mjd c)%Q) ->
  snd (generate F st c) = Ok out -> forall x, In x out -> o_note x <> n.
Proof.
  intros F py id before rep after st st1 c n out R1 I R H K FS DET N1 NG G x X E.
  pose proof (run_consistent F py _ _ _ (init_consistent id) R) as C.
  pose proof (run_consistent F py _ _ _ (init_consistent id) R1) as C1.
  pose proof (run_fresh F py id _ st c R N1 NG) as FR.
  assert (CL : closed n st).
  { rewrite run_app, R1 in R. cbn [srun] in R. destruct (sstep F py st1 rep) as [st2|] eqn:S; [|discriminate].
    apply (closed_run F py n after st2 st); [now apply (step_consistent F py st1 rep)| |now apply Forall_forall|exact R].
    destruct H as [(l & -> & IL)|(o & -> & EO & IG)]; cbn in S; injection S as <-.
    - now apply closed_array.
    - rewrite <- EO. apply closed_add; [exact C1|now rewrite EO|]. unfold good_note. apply negb_true_iff.
      apply not_true_iff_false. intros Q. apply existsb_exists in Q. destruct Q as (ig & Q1 & Q2). rewrite EO, (IG ig Q1) in Q2. discriminate. }
  rewrite (generate_fresh F st c FR), (check_list_spec F st c C FS) in G. cbn [bind] in G. injection G as <-.
  set (el := filter (fun s => selected F c s && masked F c s) (st_wanted st)) in X.
  destruct (chosen_facts F c el) as (rest & P & _).
  destruct (chosen F c el) as [|y l] eqn:EC; [destruct X|]. destruct (too_long F c (y :: l)); [destruct X|].
  unfold apply_det in X. destruct (DET _ _ _ X) as (o & O1 & O2). apply in_map_iff in O1. destruct O1 as (s & <- & O1).
  assert (IE : In s el) by (apply (Permutation_in _ P); apply in_or_app; now left).
  unfold el in IE. apply filter_In in IE. destruct IE as [W SE]. apply andb_true_iff in SE. destruct SE as [SE _].
  destruct CL as [_ CL]. specialize (CL s W). cbn in O2. rewrite O2 in CL. specialize (CL E).
  unfold selected in SE. rewrite CL in SE. cbn in SE. rewrite !andb_false_r in SE. cbn in SE. discriminate.
Qed.
Print Assumptions C30_completed_not_offered_at_new_times.
Example C30_example : exists st, srun (demo 5 true 0 [] true) pint (script_init 1)
    ([SSet two true true; SGen (cnd 10 100)] ++ SAdd (visit "b, 2") :: [SSet [row "d" 10 11 "i"] true true]) = Some st /\
  option_map (map o_note) (match snd (generate (demo 5 true 0 [] true) st (cnd (101 # 10) 100)) with Ok l => Some l | _ => None end)
    = Some ["a, 1"; "d, 4"]%string.
Proof. eexists. split; [vm_compute; reflexivity|]. now vm_compute. Qed.

(** As stated the property fails: the answer for the last time asked is kept and
    given again after the completion report. *)
Theorem C30_refuted :
  exists F py id st c n out,
  srun F py (script_init id) [SSet two true true; SGen c; SAdd (visit n)] = Some st /\
  In n (map s_note (st_wanted st)) /\ snd (generate F st c) = Ok out /\ exists x, In x out /\ o_note x = n.
Proof.
  exists (demo 5 true 0 [] true), pint, 1%Z. eexists. exists (cnd 10 100), "b, 2"%string. eexists.
  split; [vm_compute; reflexivity|]. split; [cbn; auto|]. split; [vm_compute; reflexivity|]. eexists. split; [right; left; reflexivity|reflexivity].
Qed.
Print Assumptions C30_refuted.
(** The kept answer also survives a replaced or cleared script. *)
Theorem C30_cleared_refuted :
  exists F py id st c x, srun F py (script_init id) [SSet two true true; SGen c; SClear] = Some st /\
  st_wanted st = [] /\ snd (generate F st c) = Ok x /\ x <> [].
Proof.
  exists (demo 5 true 0 [] true), pint, 1%Z. eexists. exists (cnd 10 100). eexists.
  split; [vm_compute; reflexivity|]. split; [reflexivity|]. split; [vm_compute; reflexivity|discriminate].
Qed.
Print Assumptions C30_cleared_refuted.

(** ** C31 *)
(** Reports none of which contain an ignore string mark the same rows, and are
    shown alike to features, basis functions and detailers, in one array or one
    at a time. *)
Theorem C31_array_single_agree_unless_ignored :
  forall F py id ops st l,
  srun F py (script_init id) ops = Some st ->
  (forall o ig, In o l -> In ig (f_ignore F) -> contains ig (o_note o) = false) ->
  st_wanted (add_array F st l) = st_wanted (fold_left (add_observation F) l st) /\
  (forall s, In s (st_wanted (add_array F st l)) -> s_done s = true <->
     In (s_note s) (map o_note l) \/ exists s0, In s0 (st_wanted st) /\ s_note s0 = s_note s /\ s_done s0 = true) /\
  (st_wanted st <> [] -> st_seen (add_array F st l) = st_seen (fold_left (add_observation F) l st)).
Proof.
  intros F py id ops st l R IG. destruct (run_consistent F py _ _ _ (init_consistent id) R) as [N _].
  assert (G : Forall (fun o => good_note F o = true) l).
  { apply Forall_forall. intros o O. unfold good_note. apply negb_true_iff, not_true_iff_false. intros Q. apply existsb_exists in Q.
    destruct Q as (ig & Q1 & Q2). rewrite (IG o ig O Q1) in Q2. discriminate. }
  destruct (batch_single F py l st N G) as [B1 B2]. split; [exact B1|]. split; [|exact B2].
  assert (W : st_wanted (add_array F st l) = map (fun s => if smem (s_note s) (map o_note l) then set_done s else s) (st_wanted st)).
  { unfold add_array. destruct (st_wanted st) eqn:W; [cbn; now rewrite W|reflexivity]. }
  rewrite W. intros s IS. apply in_map_iff in IS. destruct IS as (x & <- & IX).
  destruct (smem (s_note x) (map o_note l)) eqn:E.
  - split; [|reflexivity]. intros _. left. apply smem_in. exact E.
  - split.
    + intros D. right. exists x. auto.
    + intros [K|(s0 & K1 & K2 & K3)]; [apply smem_in in K; congruence|].
      assert (s0 = x); [|now subst]. clear - N K1 K2 IX. induction (st_wanted st) as [|y r IH]; [destruct K1|].
      cbn in N. inversion N; subst. destruct K1 as [->|K1], IX as [->|IX]; auto.
      * exfalso. apply H1. rewrite K2. now apply in_map.
      * exfalso. apply H1. rewrite <- K2. now apply in_map.
Qed.
Print Assumptions C31_array_single_agree_unless_ignored.
Example C31_example : exists st, srun (demo 5 true 0 ["zz"%string] true) pint (script_init 1) [SSet two true true] = Some st /\
  map s_done (st_wanted (add_array (demo 5 true 0 ["zz"%string] true) st [visit "c, 3"; visit "other"; visit "a, 1"])) = [true; false; true].
Proof. eexists. split; [vm_compute; reflexivity|]. now vm_compute. Qed.

(** As stated the property fails: the array path marks rows whose notes match
    an ignore string, the single path does not. *)
Theorem C31_refuted :
  exists F py id st l, srun F py (script_init id) [SSet two true true] = Some st /\
  st_wanted (add_array F st l) <> st_wanted (fold_left (add_observation F) l st).
Proof.
  exists (demo 5 true 0 ["b"%string] true), pint, 1%Z. eexists. exists [visit "b, 2"]. split; [reflexivity|]. intros K.
  apply (f_equal (map s_done)) in K. discriminate.
Qed.
Print Assumptions C31_refuted.
(** The list of times still scheduled is brought up to date only by the array
    path, and an empty script shows single reports to nobody. *)
Theorem C31_scheduled_refuted :
  exists F py id st l, srun F py (script_init id) [SSet two true true] = Some st /\ f_ignore F = [] /\
  st_sched (add_array F st l) <> st_sched (fold_left (add_observation F) l st) /\
  st_seen (add_array F (script_init id) l) <> st_seen (fold_left (add_observation F) l (script_init id)).
Proof.
  exists (demo 5 true 0 [] true), pint, 1%Z. eexists. exists [visit "b, 2"]. repeat split; discriminate.
Qed.
Print Assumptions C31_scheduled_refuted.

(** ** C32 *)
(** Scripts appended with indexing on, with any reports and generate calls in
    between: if each note with its index fits the 60 characters of the field, no
    call raises, row [k] carries its note with index [id + k], all notes are
    distinct and the next id is [id] plus the number of rows. *)
Theorem C32_notes_distinct_when_short :
  forall F py id ops,
  (f_sort F = None \/ f_sort F = Some "HA"%string) ->
  (forall o, In o ops -> match o with SSet _ append add_index => append = true /\ add_index = true | SClear => False | _ => True end) ->
  let rows := flat_map (fun o => match o with SSet l _ _ => l | _ => [] end) ops in
  (forall k s, nth_error rows k = Some s -> String.length (s_note s ++ ", " ++ zdec (id + Z.of_nat k)) <= 60) ->
  exists st, srun F py (script_init id) ops = Some st /\
    List.length (st_wanted st) = List.length rows /\
    (forall k s, nth_error rows k = Some s ->
       exists s', nth_error (st_wanted st) k = Some s' /\ s_note s' = (s_note s ++ ", " ++ zdec (id + Z.of_nat k))%string) /\
    NoDup (map s_note (st_wanted st)) /\
    st_id st = (id + Z.of_nat (List.length rows))%Z.
Proof.
  intros F py id ops FS A rows SH.
  assert (ER : rows = flat_map script_of ops) by (unfold rows; apply flat_map_ext; intros []; reflexivity).
  destruct (appends_run F py ops (script_init id) id (init_consistent id) FS) as (st & R & W & I).
  - now apply Forall_forall.
  - exists []. cbn. split; [reflexivity|lia].
  - intros k s K. apply (SH k s). rewrite ER. exact K.
  - exists st. cbn in W, I. rewrite ER. split; [exact R|]. split.
    + rewrite <- (map_length s_note), W, numbered_length, map_length. reflexivity.
    + split; [|split; [rewrite W; apply numbered_nodup|exact I]]. intros k s K.
      assert (Q : nth_error (map s_note (st_wanted st)) k = Some (labelled (s_note s) (id + Z.of_nat k))).
      { rewrite W. apply numbered_nth. rewrite nth_error_map, K. reflexivity. }
      rewrite nth_error_map in Q. destruct (nth_error (st_wanted st) k) as [s'|]; [|discriminate]. injection Q as Q. exists s'. auto.
Qed.
Print Assumptions C32_notes_distinct_when_short.
Example C32_example : exists st, srun (demo 5 true 0 [] true) pint (script_init 8)
    [SSet [row "a" 1 2 "r"; row "a" 1 2 "r"] true true; SGen (cnd 1 9); SSet [row "a" 1 2 "r"] true true] = Some st /\
  map s_note (st_wanted st) = ["a, 8"; "a, 9"; "a, 10"]%string.
Proof. eexists. split; [vm_compute; reflexivity|]. now vm_compute. Qed.

Definition long : string := "0123456789012345678901234567890123456789012345678901234567890".
(** As stated the property fails: the note field keeps 60 characters, so long
    notes lose their index; the call raises and leaves the rejected rows in. *)
Theorem C32_refuted :
  exists py id l st', set_script py (script_init id) l true true = (st', Raise ValueError) /\
  ~ NoDup (map s_note (st_wanted st')).
Proof.
  exists pint, 1%Z, [row long 1 2 "r"; row long 1 2 "r"]. eexists. split; [reflexivity|]. intros K. inversion K; subst. apply H1. now left.
Qed.
Print Assumptions C32_refuted.
(** Mixed with a script that brings its own indices, the next id is read from
    the rows before that script, so indices can collide. *)
Theorem C32_own_indices_refuted :
  exists F py id l1 l2 st, srun F py (script_init id) [SSet l1 true false] = Some st /\
  snd (set_script py st l2 true true) = Raise ValueError /\
  forall s, In s (l1 ++ l2) -> String.length (s_note s) <= 4.
Proof.
  exists (demo 5 true 0 [] true), pint, 1%Z, [row "x, 1" 1 2 "r"], [row "x" 1 2 "r"]. eexists.
  split; [reflexivity|]. split; [reflexivity|]. intros s [<-|[<-|[]]]; cbn; lia.
Qed.
Print Assumptions C32_own_indices_refuted.

(** ** C51 *)
(** Number of band changes when the rows are observed in order. *)
Fixpoint band_changes (l : list sobs) : nat :=
  match l with
  | a :: (b :: _) as r => (if String.eqb (s_band a) (s_band b) then 0 else 1) + band_changes r
  | _ => 0
  end.
(** Time in days the rows take: exposures and band changes. *)
Definition takes (F : scfg) (l : list sobs) : Q :=
  (Qsum (map s_exptime l) / 86400 + inject_Z (Z.of_nat (band_changes l)) * f_bct F)%Q.

(** With before_twi_check on, the exposures of the offered rows alone end
    before twilight.  Missing: the time of their band changes. *)
Theorem C51_exposures_before_twilight_partial :
  forall F py id ops st c out,
  srun F py (script_init id) ops = Some st -> (0 <= f_bct F)%Q -> f_twi F = true ->
  (f_sort F = None \/ f_sort F = Some "HA"%string) ->
  ~ (c_mjd c == -1)%Q -> (forall c', In (SGen c') ops -> ~ (c_mjd c' == c_mjd c)%Q) ->
  snd (generate F st c) = Ok out -> out <> [] ->
  exists rows, (forall s, In s rows -> In s (st_wanted st)) /\ out = f_det F c (map to_obs rows) /\
  (Qsum (map s_exptime rows) / 86400 <= c_n18 c - c_mjd c)%Q.
Proof.
  intros F py id ops st c out R B T FS N1 NG G NE.
  pose proof (run_consistent F py _ _ _ (init_consistent id) R) as C.
  rewrite (generate_fresh F st c (run_fresh F py id ops st c R N1 NG)), (check_list_spec F st c C FS) in G. cbn [bind] in G. injection G as <-.
  set (el := filter _ (st_wanted st)) in *. destruct (chosen_facts F c el) as (rest & P & _).
  destruct (chosen F c el) as [|x rows] eqn:EC; [congruence|]. destruct (too_long F c (x :: rows)) eqn:TL; [congruence|].
  exists (x :: rows). split; [|split; [reflexivity|]].
  - intros s K. assert (IE : In s el) by (apply (Permutation_in _ P); apply in_or_app; now left). unfold el in IE. apply filter_In in IE. tauto.
  - unfold too_long in TL. rewrite T in TL. cbn [andb] in TL. apply Qltb_false in TL. unfold time_needed in TL.
    assert (Z : (0 <= inject_Z (Z.of_nat (same_band_pairs (x :: rows))) * f_bct F)%Q).
    { apply Qmult_le_0_compat; [|exact B]. change 0%Q with (inject_Z 0). rewrite <- Zle_Qle. lia. }
    set (m := (inject_Z (Z.of_nat (same_band_pairs (x :: rows))) * f_bct F)%Q) in *. set (q := Qsum _) in *. clearbody m q.
    assert (E : (q / 86400 == q / 3600 / 24)%Q) by field. rewrite E. lra.
Qed.
Print Assumptions C51_exposures_before_twilight_partial.
Example C51_example : exists st, srun (demo 5 true 1 [] true) pint (script_init 1) [SSet two true true] = Some st /\
  option_map (@List.length obs) (match snd (generate (demo 5 true 1 [] true) st (cnd 10 (101 # 10))) with Ok l => Some l | _ => None end) = Some 2.
Proof. eexists. split; [vm_compute; reflexivity|]. now vm_compute. Qed.

(** As stated the property fails both ways: the code counts the neighbours with
    equal bands, so rows needing a band change are offered too late, and rows of
    one band are withheld though they fit. *)
Theorem C51_refuted :
  exists F py id ops st c rows, srun F py (script_init id) ops = Some st /\ f_twi F = true /\
  snd (generate F st c) = Ok (map to_obs rows) /\ rows <> [] /\ (forall s, In s rows -> In s (st_wanted st)) /\
  (c_n18 c - c_mjd c < takes F rows)%Q.
Proof.
  exists (demo 5 true 1 [] true), pint, 1%Z, [SSet two true true]. eexists. exists (cnd 10 (101 # 10)).
  exists [row "a, 1" 10 11 "r"; row "b, 2" 10 11 "g"]. split; [reflexivity|]. split; [reflexivity|]. split; [reflexivity|].
  split; [discriminate|]. split; [intros s [<-|[<-|[]]]; cbn; auto|reflexivity].
Qed.
Print Assumptions C51_refuted.
Theorem C51_withheld_refuted :
  exists F py id ops st c, srun F py (script_init id) ops = Some st /\ f_twi F = true /\
  snd (generate F st c) = Ok [] /\ st_wanted st <> [] /\ (forall s, In s (st_wanted st) -> eligible F c s) /\
  List.length (st_wanted st) <= f_limit F /\ (takes F (st_wanted st) < c_n18 c - c_mjd c)%Q.
Proof.
  exists (demo 5 true 1 [] true), pint, 1%Z, [SSet [row "a" 10 11 "r"; row "b" 10 11 "r"] true true]. eexists. exists (cnd 10 (101 # 10)).
  split; [reflexivity|]. split; [reflexivity|]. split; [reflexivity|]. split; [discriminate|]. split; [|split; [cbn; lia|reflexivity]].
  intros s H. destruct H as [<-|[<-|[]]]; (apply eligible_iff; [reflexivity| |split; reflexivity]); repeat split; cbn; lra.
Qed.
Print Assumptions C51_withheld_refuted.

(** ** C52 *)
(** The feasibility of the basis functions does not matter: an infeasible
    survey still offers its rows. *)
Theorem C52_refuted :
  exists F py id ops st c, srun F py (script_init id) ops = Some st /\ f_feasible F c = false /\
  snd (has_reward F st c) = Ok true /\ exists x l, snd (generate F st c) = Ok (x :: l).
Proof.
  exists (demo 5 true 0 [] false), pint, 1%Z, [SSet two true true]. eexists. exists (cnd 10 100). repeat split. eexists; eexists; reflexivity.
Qed.
Print Assumptions C52_refuted.

(** ** C53 *)
(** The reward is above -inf exactly when the survey, asked right afterwards,
    hands out something. *)
Theorem C53_reward_iff_something_offered :
  forall F st c st' b, has_reward F st c = (st', Ok b) ->
  exists l, snd (generate F st' c) = Ok l /\ (b = true <-> l <> []) /\ fst (generate F st' c) = st'.
Proof.
  intros F st c st' b H. unfold has_reward in H. destruct (generate F st c) as [st1 r] eqn:G. injection H as <- H.
  assert (K : forall l, r = Ok l -> (st_last st1 == c_mjd c)%Q /\ st_obs st1 = l).
  { intros l ->. unfold generate in G. destruct (Qeq_bool (st_last st) (c_mjd c)) eqn:E.
    - injection G as <- <-. apply Qeq_bool_iff in E. auto.
    - destruct (generate_rough F st c) as [st2 [l2|e]]; [|discriminate]. injection G as <- <-. cbn. split; reflexivity. }
  destruct r as [l|e]; [|discriminate]. destruct (K l eq_refl) as [K1 K2]. exists l. unfold generate.
  apply Qeq_bool_iff in K1. rewrite K1. cbn. split; [now rewrite K2|]. split; [|reflexivity].
  destruct l; injection H as <-; split; congruence.
Qed.
Print Assumptions C53_reward_iff_something_offered.
Example C53_example : exists st st1 st2, srun (demo 5 true 0 [] true) pint (script_init 1) [SSet two true true] = Some st /\
  has_reward (demo 5 true 0 [] true) st (cnd 10 100) = (st1, Ok true) /\
  has_reward (demo 5 true 0 [] true) st1 (cnd 12 100) = (st2, Ok false).
Proof. do 3 eexists. split; [vm_compute; reflexivity|]. split; vm_compute; reflexivity. Qed.
