(** C41: the database schema round trip. *)
From Coq Require Import List Bool String Reals Lra.
From Verif Require Import Base Schema Schema_proofs.
Import ListNotations.
Local Open Scope string_scope.
Open Scope list_scope.

(** [consistent] (Schema_proofs.v): names, keys and values of the map without
    repetition, no angle listed twice, every angle a column of the array under its
    schema name, no unmapped column name that is a key, no old name in use.
    [numeric_angles]: no text in an angle column.  The columns are those of an
    observation array.  Everything but [note] comes back. *)
Theorem C41_round_trip_partial : forall conv back rad hrs names d,
  consistent conv back rad hrs names -> map fst d = names -> numeric_angles conv rad hrs d ->
  exists f, obs2opsim conv rad hrs d = Ok f /\
    opsim2obs conv back rad hrs names f = map (fun p => (fst p, if String.eqb (fst p) "note" then None else Some (snd p))) d.
Proof.
  intros conv back rad hrs names d K Dn Da. exists (in_schema conv rad hrs d). split.
  - eapply fwd_ok; eauto.
  - apply bwd_ok; auto.
Qed.
Print Assumptions C41_round_trip_partial.

(** Each column goes to its schema name, angles in degrees, sidereal time in degrees. *)
Definition cell (deg hr : bool) (v : val) : val :=
  match v with
  | VNum x => VNum (if deg then x * 180 / PI else if hr then x * 15 else x)%R
  | w => w
  end.
Theorem C41_columns : forall conv back rad hrs names d,
  consistent conv back rad hrs names -> map fst d = names -> numeric_angles conv rad hrs d ->
  exists f, obs2opsim conv rad hrs d = Ok f /\
    (forall n c, In (n, c) d -> n <> "note" ->
       exists a, (In (a, n) conv \/ (~ In n (map snd conv) /\ a = n)) /\
         In (a, map (cell (if in_dec string_dec a rad then true else false) (if in_dec string_dec a hrs then true else false)) c) f) /\
    List.length f = List.length (filter (fun n => negb (String.eqb n "note")) names) /\ NoDup (map fst f).
Proof.
  intros conv back rad hrs names d K Dn Da. exists (in_schema conv rad hrs d). split; [eapply fwd_ok; eauto|]. split; [|split].
  - intros n c H Nn. exists (nm conv n). split; [exact (schema_nm conv back rad hrs names K n)|].
    unfold in_schema, on. rewrite !map_map. apply in_map_iff. exists (n, c). cbn [fst snd]. split.
    + f_equal. destruct (in_dec string_dec (nm conv n) rad) as [R|R]; destruct (in_dec string_dec (nm conv n) hrs) as [H2|H2].
      * exfalso. exact (rad_hrs conv back rad hrs names K _ R H2).
      * rewrite (proj2 (mem_in _ _) R), (proj2 (mem_false _ _) H2). apply map_ext. intros [x| |s]; cbn; try reflexivity.
        unfold degrees. f_equal. lra.
      * rewrite (proj2 (mem_false _ _) R), (proj2 (mem_in _ _) H2). apply map_ext. intros [x| |s]; cbn; try reflexivity.
        unfold to_deg. f_equal. lra.
      * rewrite (proj2 (mem_false _ _) R), (proj2 (mem_false _ _) H2). rewrite <- (map_id c) at 1. apply map_ext. intros [x| |s]; reflexivity.
    + apply filter_In. split; [exact H|]. cbn. apply negb_true_iff. now apply String.eqb_neq.
  - unfold in_schema, on. rewrite !map_length. rewrite <- Dn. clear. unfold kept. induction d as [|[n c] d IH]; [reflexivity|]. cbn [filter map fst].
    destruct (negb (n =? "note")); cbn [List.length]; now rewrite IH.
  - unfold in_schema. rewrite !on_names. apply (d0_nodup conv back rad hrs names K d Dn).
Qed.
Print Assumptions C41_columns.

(** The tables written in the code are consistent. *)
Fixpoint nodupb (l : list string) : bool := match l with [] => true | x :: r => negb (mem x r) && nodupb r end.
Lemma nodupb_ok : forall l, nodupb l = true -> NoDup l.
Proof.
  induction l as [|x l IH]; cbn; intros H; [constructor|]. apply andb_true_iff in H. destruct H as [H1 H2].
  constructor; [apply mem_false; now apply negb_true_iff|auto].
Qed.
Lemma code_consistent : consistent convert_dict back_dict rad2deg hours2deg obs_names.
Proof.
  constructor.
  - apply nodupb_ok. vm_compute. reflexivity.
  - apply nodupb_ok. vm_compute. reflexivity.
  - apply nodupb_ok. vm_compute. reflexivity.
  - apply nodupb_ok. vm_compute. reflexivity.
  - intros n H1 H2 H3.
    assert (C : forallb (fun n => mem n (map snd convert_dict) || negb (mem n (map fst convert_dict))) obs_names = true) by (vm_compute; reflexivity).
    rewrite forallb_forall in C. specialize (C n H1). apply mem_false in H2. apply mem_in in H3. rewrite H2, H3 in C. discriminate.
  - intros n a H1 _ S H2. cbn in H2. destruct H2 as [<-|[]]. destruct S as [S|[_ S]].
    + apply (in_map fst) in S. apply mem_in in S. vm_compute in S. discriminate.
    + subst n. apply mem_in in H1. vm_compute in H1. discriminate.
  - intros a Ha.
    assert (C : forallb (fun a => existsb (fun n => negb (String.eqb n "note") &&
        (existsb (fun p => String.eqb (fst p) a && String.eqb (snd p) n) convert_dict || (negb (mem n (map snd convert_dict)) && String.eqb a n)))
        obs_names) (rad2deg ++ hours2deg) = true) by (vm_compute; reflexivity).
    rewrite forallb_forall in C. specialize (C a Ha). apply existsb_exists in C. destruct C as (n & Hn & C).
    apply andb_true_iff in C. destruct C as [C1 C2]. exists n. split; [exact Hn|]. split.
    + apply negb_true_iff in C1. now apply String.eqb_neq.
    + apply orb_true_iff in C2. destruct C2 as [C2|C2].
      * left. apply existsb_exists in C2. destruct C2 as ([k v] & Hp & E). apply andb_true_iff in E. destruct E as [E1 E2].
        apply String.eqb_eq in E1, E2. cbn in *. now subst.
      * right. apply andb_true_iff in C2. destruct C2 as [E1 E2]. apply String.eqb_eq in E2. apply negb_true_iff in E1.
        split; [now apply mem_false|exact E2].
  - apply mem_in. vm_compute. reflexivity.
Qed.

(** Hence for the converter as shipped and every observation array: all columns but
    [note] come back unchanged. *)
Definition shipped_angles : list string :=
  ["RA"; "dec"; "alt"; "az"; "slewdist"; "pa"; "pseudo_pa"; "rotTelPos"; "rotSkyPos"; "rotSkyPos_desired"; "rotTelPos_backup";
   "moonRA"; "moonDec"; "moonAlt"; "moonAz"; "moonDist"; "sunAlt"; "sunAz"; "sunRA"; "sunDec"; "solarElong"; "cummTelAz"; "lmst"].
Theorem C41_shipped_partial : forall d, map fst d = obs_names ->
  (forall n c s, In n shipped_angles -> In (n, c) d -> ~ In (VStr s) c) ->
  exists f, obs2opsim convert_dict rad2deg hours2deg d = Ok f /\
    forall n c, In (n, c) d -> n <> "note" ->
      In (n, Some c) (opsim2obs convert_dict back_dict rad2deg hours2deg obs_names f).
Proof.
  intros d Dn Dt.
  assert (Da : numeric_angles convert_dict rad2deg hours2deg d).
  { intros n c a H S Ha s. apply (Dt n c s); [|exact H].
    assert (C : forallb (fun n => mem n shipped_angles || negb (mem (nm convert_dict n) (rad2deg ++ hours2deg))) obs_names = true) by (vm_compute; reflexivity).
    rewrite forallb_forall in C. assert (Hn : In n obs_names) by (rewrite <- Dn; now apply (in_map fst) in H).
    specialize (C n Hn). rewrite (nm_schema convert_dict back_dict rad2deg hours2deg obs_names code_consistent n a S) in C.
    rewrite (proj2 (mem_in _ _) Ha) in C. rewrite orb_false_r in C. now apply mem_in. }
  destruct (C41_round_trip_partial _ _ _ _ _ d code_consistent Dn Da) as (f & E & R).
  exists f. split; [exact E|]. intros n c H Nn. rewrite R. apply in_map_iff. exists (n, c). cbn [fst snd].
  apply String.eqb_neq in Nn. rewrite Nn. auto.
Qed.
Print Assumptions C41_shipped_partial.
Definition text_names : list string := ["band"; "filter"; "scheduler_note"; "target_name"; "observation_reason"; "science_program"; "note"].
Definition demo : list (string * list val) :=
  map (fun n => (n, if mem n text_names then [VStr "a"; VStr "b"] else [VNum PI; VNaN])) obs_names.
Lemma demo_ok : map fst demo = obs_names /\ forall n c s, In n shipped_angles -> In (n, c) demo -> ~ In (VStr s) c.
Proof.
  split; [reflexivity|]. intros n c s Hn H. unfold demo in H. apply in_map_iff in H. destruct H as (m & E & _). apply pair_equal_spec in E. destruct E as [-> <-].
  assert (C : forallb (fun n => negb (mem n text_names)) shipped_angles = true) by (vm_compute; reflexivity).
  rewrite forallb_forall in C. specialize (C n Hn). apply negb_true_iff in C. rewrite C. cbn. intros [X|[X|[]]]; discriminate.
Qed.
Lemma demo_numeric : numeric_angles convert_dict rad2deg hours2deg demo.
Proof.
  destruct demo_ok as [D1 D2]. intros n c a H S Ha s. apply (D2 n c s); [|exact H].
  assert (C : forallb (fun n => mem n shipped_angles || negb (mem (nm convert_dict n) (rad2deg ++ hours2deg))) obs_names = true) by (vm_compute; reflexivity).
  rewrite forallb_forall in C. assert (Hn : In n obs_names) by (rewrite <- D1; now apply (in_map fst) in H).
  specialize (C n Hn). rewrite (nm_schema convert_dict back_dict rad2deg hours2deg obs_names code_consistent n a S) in C.
  rewrite (proj2 (mem_in _ _) Ha) in C. rewrite orb_false_r in C. now apply mem_in.
Qed.
Lemma demo_in : forall n c, mem n obs_names = true -> c = (if mem n text_names then [VStr "a"; VStr "b"] else [VNum PI; VNaN]) -> In (n, c) demo.
Proof. intros n c H ->. unfold demo. apply in_map_iff. exists n. split; [reflexivity|now apply mem_in]. Qed.
Example C41_ex : exists f, obs2opsim convert_dict rad2deg hours2deg demo = Ok f /\
  In ("fieldRA", [VNum 180; VNaN]) f /\ In ("observationStartMJD", [VNum PI; VNaN]) f /\ In ("band", [VStr "a"; VStr "b"]) f.
Proof.
  destruct (C41_columns _ _ _ _ _ demo code_consistent (proj1 demo_ok) demo_numeric) as (f & E & F & _).
  exists f. split; [exact E|]. split; [|split].
  - destruct (F "RA" [VNum PI; VNaN]) as (a & Sa & I); [apply demo_in; reflexivity|discriminate|].
    pose proof (nm_schema convert_dict back_dict rad2deg hours2deg obs_names code_consistent _ a Sa) as X. vm_compute in X. subst a.
    destruct (in_dec string_dec "fieldRA" rad2deg) as [_|N]; [|exfalso; apply N; left; reflexivity].
    cbn [map cell] in I. replace (PI * 180 / PI)%R with 180%R in I by (field; apply PI_neq0). exact I.
  - destruct (F "mjd" [VNum PI; VNaN]) as (a & Sa & I); [apply demo_in; reflexivity|discriminate|].
    pose proof (nm_schema convert_dict back_dict rad2deg hours2deg obs_names code_consistent _ a Sa) as X. vm_compute in X. subst a.
    destruct (in_dec string_dec "observationStartMJD" rad2deg) as [N|_]; [apply mem_in in N; vm_compute in N; discriminate|].
    destruct (in_dec string_dec "observationStartMJD" hours2deg) as [N|_]; [apply mem_in in N; vm_compute in N; discriminate|].
    exact I.
  - destruct (F "band" [VStr "a"; VStr "b"]) as (a & Sa & I); [apply demo_in; reflexivity|discriminate|].
    pose proof (nm_schema convert_dict back_dict rad2deg hours2deg obs_names code_consistent _ a Sa) as X. vm_compute in X. subst a.
    exact I.
Qed.

(** [note] is a mapped column and is lost: [obs2opsim] drops it, and the array
    converted back holds uninitialised memory there. *)
Theorem C41_note_refuted : exists d f, map fst d = obs_names /\
  (forall n c s, In n shipped_angles -> In (n, c) d -> ~ In (VStr s) c) /\
  In ("note", "note") convert_dict /\ In ("note", [VStr "a"; VStr "b"]) d /\
  obs2opsim convert_dict rad2deg hours2deg d = Ok f /\
  In ("note", None) (opsim2obs convert_dict back_dict rad2deg hours2deg obs_names f).
Proof.
  destruct demo_ok as [D1 D2]. pose proof demo_numeric as Da.
  destruct (C41_round_trip_partial _ _ _ _ _ demo code_consistent D1 Da) as (f & E & R).
  exists demo, f. split; [exact D1|]. split; [exact D2|].
  assert (N : In ("note", [VStr "a"; VStr "b"]) demo) by (apply demo_in; reflexivity).
  repeat split; auto.
  - repeat (first [left; reflexivity|right]).
  - rewrite R. apply in_map_iff. eexists. split; [|exact N]. reflexivity.
Qed.
Print Assumptions C41_note_refuted.
