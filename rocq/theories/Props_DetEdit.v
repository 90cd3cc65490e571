(** C69, C70: detailers that fill in or replace columns, and the notes they write. *)
From Coq Require Import List ZArith QArith Bool String Ascii.
From Verif Require Import Base DetEdit DetEdit_proofs.
Import ListNotations.
Local Open Scope string_scope.
Open Scope list_scope.
Open Scope nat_scope.

(** BandSubstitute changes only the band, only of observations in the unmounted original. *)
Theorem C69_substitute : forall orig repl mounted l,
  Forall2 (fun r s => same_except [CBand] r s /\
     (w_band r = orig /\ ~ In orig mounted -> w_band s = substring 0 10 repl) /\
     (w_band r <> orig \/ In orig mounted -> w_band s = w_band r)) l (substitute orig repl mounted l).
Proof. exact substitute_spec. Qed.
Print Assumptions C69_substitute.

(** The replacement itself need not be mounted. *)
Theorem C69_substitute_refuted : exists orig repl mounted l r,
  In r (substitute orig repl mounted l) /\ ~ In (w_band r) mounted /\ In (w_band r) [repl].
Proof.
  exists "z", "y", ["g"; "r"], [mkRow 1 "z" "" "" "" "" "" 30 1 0], (mkRow 1 "y" "" "" "" "" "" 30 1 0).
  split; [left; reflexivity|]. split; [|left; reflexivity]. cbn. intuition discriminate.
Qed.
Print Assumptions C69_substitute_refuted.

(** BandPickToO swaps exactly when the event has a distance under the limit, the Moon allows
    it and, if asked to check, the new band is mounted. *)
Theorem C69_pick_too : forall start stop limit check dark moon dist mounted l,
  let swap := (exists d, dist = Some d /\ (d < limit)%Q) /\ (dark = true -> (moon <= 50)%Q) /\ (check = true -> In stop mounted) in
  Forall2 (fun r s => same_except [CBand] r s /\
     (swap -> w_band r = start -> w_band s = substring 0 10 stop) /\
     (~ swap \/ w_band r <> start -> w_band s = w_band r)) l (pick_too start stop limit check dark moon dist mounted l).
Proof. exact pick_spec. Qed.
Print Assumptions C69_pick_too.

(** TrackingInfo fills fields that are empty or "None" and keeps all others; a second call
    changes nothing. *)
Theorem C69_tracking : forall target prog reason l,
  Forall2 (fun r s => same_except [CTarget; CProg; CReason] r s /\
     filled (w_target r) (match target with Some v => v | None => "None" end) (w_target s) /\
     filled (w_prog r) (match prog with Some v => v | None => "None" end) (w_prog s) /\
     filled (w_reason r) (match reason with Some v => underscores v | None => "None" end) (w_reason s))
   l (tracking target prog reason l) /\
  tracking target prog reason (tracking target prog reason l) = tracking target prog reason l.
Proof. intros. split; [apply tracking_spec|apply tracking_idem]. Qed.
Print Assumptions C69_tracking.

Theorem C69_flush_by : forall minutes mjd l,
  Forall2 (fun r s => same_except [CFlush] r s /\ (w_flush s == mjd + minutes / 1440)%Q) l (flush_by minutes mjd l).
Proof. exact flush_by_spec. Qed.
Print Assumptions C69_flush_by.

(** FlushForSched leaves an observation flushing a day after a scheduled one begins. *)
Theorem C69_flush_for_sched_refuted : exists tol sched l r,
  (0 < tol)%Q /\ In r (flush_for_sched tol sched l) /\ exists t, In t sched /\ (t < w_flush r)%Q.
Proof.
  exists (1 # 1000), [10%Q], [mkRow 1 "r" "" "" "" "" "" 30 1 11], (mkRow 1 "r" "" "" "" "" "" 30 1 11).
  split; [reflexivity|]. split; [left; reflexivity|]. exists 10%Q. split; [left; reflexivity|reflexivity].
Qed.
Print Assumptions C69_flush_for_sched_refuted.

(** BandToFilter: the filter is the one the dictionary gives for the band, else the band. *)
Theorem C69_band_to_filter : forall d l,
  Forall2 (fun r s => same_except [CFilter] r s /\
    match d with
    | None => String.length (w_band r) <= 10 -> w_filter s = w_band r
    | Some d => forall f, String.length f <= 10 -> (In (w_band r, f) d -> NoDup (map fst d) -> w_filter s = f)
    end /\
    (match d with Some d => ~ In (w_band r) (map fst d) | None => True end ->
      String.length (w_band r) <= 10 -> w_filter s = w_band r))
   l (band_to_filter d l).
Proof. exact b2f_spec. Qed.
Print Assumptions C69_band_to_filter.

(** RandomBand gives all observations one mounted band; it succeeds on every night of its
    table when a fallback band is mounted. *)
Theorem C69_random_band : forall bands table fallback night mounted l,
  (forall out, random_band bands table fallback night mounted l = Ok out ->
    exists b, In b mounted /\ (In b bands \/ In b fallback) /\
      Forall2 (fun r s => same_except [CBand] r s /\ w_band s = substring 0 10 b) l out) /\
  ((- Z.of_nat (List.length table) <= night < Z.of_nat (List.length table))%Z ->
   (forall i, In i table -> i < List.length bands) -> (exists b, In b fallback /\ In b mounted) ->
   exists out, random_band bands table fallback night mounted l = Ok out).
Proof. intros. split; [intro; apply random_mounted|apply random_ok]. Qed.
Print Assumptions C69_random_band.

(** With no fallback band mounted the call fails, though another band is; the deprecated
    RandomFilterDetailer cannot be constructed. *)
Theorem C69_random_band_refuted :
  (exists bands table fallback night mounted l, mounted <> [] /\
     random_band bands table fallback night mounted l = Raise ValueError) /\
  random_filter_init = Raise TypeError.
Proof.
  split; [|reflexivity]. exists ["r"; "i"], [0; 1], ["r"; "i"; "z"], 1%Z, ["g"], [mkRow 1 "g" "" "" "" "" "" 30 1 0].
  split; [discriminate|reflexivity].
Qed.
Print Assumptions C69_random_band_refuted.

Theorem C69_band_nexp : forall b n e l,
  Forall2 (fun r s => same_except [CNexp; CExpt] r s /\
    (w_band r = b -> w_nexp s = n /\ w_expt s = match e with Some x => x | None => w_expt r end) /\
    (w_band r <> b -> s = r)) l (band_nexp b n e l).
Proof. exact nexp_spec. Qed.
Print Assumptions C69_band_nexp.

(** StartFieldSequence puts its sequence first exactly when no completed visit with its program
    and note within 3.5 degrees is more recent than time_match_hours. *)
Theorem C69_start_sequence_partial : forall ang hours prog note hist mjd sequence l,
  chronological hist -> (forall v, In v hist -> (0 <= v_mjd v)%Q) -> (hours / 24 <= mjd)%Q ->
  ((forall v, In v hist -> starts prog note v -> (hours / 24 <= mjd - v_mjd v)%Q) ->
     start_sequence ang hours prog note hist mjd sequence l = sequence ++ l) /\
  ((exists v, In v hist /\ starts prog note v /\ (mjd - v_mjd v < hours / 24)%Q) ->
     start_sequence ang hours prog note hist mjd sequence l = l).
Proof. exact start_spec. Qed.
Print Assumptions C69_start_sequence_partial.

(** The match radius asked for is not used: a visit three degrees away suppresses the sequence
    though one degree was asked for. *)
Theorem C69_start_sequence_refuted : exists ang hours prog note hist mjd sequence l,
  (forall v, In v hist -> (ang < v_dist v)%Q) /\ sequence <> [] /\ (hours / 24 <= mjd)%Q /\
  start_sequence ang hours prog note hist mjd sequence l = l.
Proof.
  exists 1%Q, 5%Q, None, (Some "start"), [mkVisit (99 # 10) 3 "start" ""], 10%Q, [mkRow 7 "g" "" "" "" "" "" 30 1 0], [].
  split; [intros v [<-|[]]; reflexivity|]. split; [discriminate|]. split; [vm_compute; discriminate|reflexivity].
Qed.
Print Assumptions C69_start_sequence_refuted.

(** TakeAsPairs: every observation twice, once as given and once in the second band, the loaded
    band's half first; the first half is tagged "a", the second "b" (cut to 60 characters). *)
Theorem C69_take_as_pairs : forall b e nexp cur l,
  exists p o,
    Forall2 (fun r s => same_except [CBand; CExpt; CNexp; CNote] r s /\ w_band s = substring 0 10 b /\
       w_expt s = match e with Some x => x | None => w_expt r end /\
       w_nexp s = match nexp with Some n => n | None => w_nexp r end) l p /\
    Forall2 (fun r s => same_except [CNote] r s) l o /\
    ((cur = b /\ take_as_pairs b e nexp cur l = p ++ o /\
      Forall2 (fun r s => w_note s = substring 0 60 (w_note r ++ ", a")) l p /\
      Forall2 (fun r s => w_note s = substring 0 60 (w_note r ++ ", b")) l o) \/
     (cur <> b /\ take_as_pairs b e nexp cur l = o ++ p /\
      Forall2 (fun r s => w_note s = substring 0 60 (w_note r ++ ", a")) l o /\
      Forall2 (fun r s => w_note s = substring 0 60 (w_note r ++ ", b")) l p)).
Proof. exact pairs_spec. Qed.
Print Assumptions C69_take_as_pairs.

Definition row0 (n : nat) (band note : string) : row := mkRow n band "" note "" "" "" 30 1 0.
Example C69_substitute_example :
  map w_band (substitute "z" "y" ["g"; "y"] [row0 1 "z" ""; row0 2 "g" ""]) = ["y"; "g"].
Proof. reflexivity. Qed.
Example C69_pick_example : map w_band (pick_too "i" "z" 10 true false 60 (Some 5%Q) ["z"] [row0 1 "i" ""; row0 2 "g" ""]) = ["z"; "g"].
Proof. reflexivity. Qed.
Example C69_tracking_example :
  map (fun r => (w_target r, w_prog r, w_reason r))
    (tracking (Some "COSMOS") None (Some "deep drill") [row0 1 "g" ""; mkRow 2 "g" "" "" "mine" "BLOCK" "x y" 30 1 0])
  = [("COSMOS", "None", "deep_drill"); ("mine", "BLOCK", "x y")].
Proof. reflexivity. Qed.
Example C69_filter_example :
  map w_filter (band_to_filter (Some [("g", "g_6"); ("r", "r_57")]) [row0 1 "r" ""; row0 2 "y" ""]) = ["r_57"; "y"].
Proof. reflexivity. Qed.
Example C69_random_example :
  match random_band ["r"; "i"; "z"] [2; 0; 1] ["r"; "g"] 0 ["g"; "i"] [row0 1 "u" ""; row0 2 "y" ""] with
  | Ok l => map w_band l = ["g"; "g"] | _ => False end.
Proof. reflexivity. Qed.
Example C69_nexp_example : map w_nexp (band_nexp "u" 2 (Some 38%Q) [row0 1 "u" ""; row0 2 "g" ""]) = [2%Z; 1%Z].
Proof. reflexivity. Qed.
Definition seq7 : list row := [row0 7 "g" ""].
Example C69_start_example :
  map w_id (start_sequence 3 5 None (Some "s") [mkVisit 1 0 "s" ""; mkVisit (99 # 10) 9 "s" ""] 10 seq7 [row0 1 "r" ""]) = [7; 1].
Proof. reflexivity. Qed.
Example C69_start_recent_example :
  map w_id (start_sequence 3 5 None (Some "s") [mkVisit 1 0 "s" ""; mkVisit (99 # 10) 1 "s" ""] 10 seq7 [row0 1 "r" ""]) = [1].
Proof. reflexivity. Qed.
Example C69_pairs_example :
  map (fun r => (w_band r, w_note r)) (take_as_pairs "r" None None "r" [row0 1 "g" "blob"]) = [("r", "blob, a"); ("g", "blob, b")].
Proof. reflexivity. Qed.

(** IndexNote makes the notes of a list pairwise distinct, when the separator does not end in a
    digit and the new notes have at most 60 characters.
    Missing from the full statement: longer notes, other separators. *)
Theorem C70_index_partial : forall sep c l, last_char sep = Some c -> ~ (48 <= nat_of_ascii c <= 57) ->
  (forall i r, nth_error l i = Some r -> String.length (w_note r ++ sep ++ dec i) <= 60) ->
  NoDup (map w_note (index_note sep l)).
Proof.
  intros sep c l L D S. apply (index_nodup sep c); auto. unfold digit.
  destruct (48 <=? nat_of_ascii c) eqn:E1; [|reflexivity]. destruct (nat_of_ascii c <=? 57) eqn:E2; [|reflexivity].
  exfalso. apply D. split; apply Nat.leb_le; assumption.
Qed.
Print Assumptions C70_index_partial.

Definition long_note : string := "123456789 123456789 123456789 123456789 123456789 123456789 ".
(** A note of 60 characters loses its number; with an empty separator two notes can collide. *)
Theorem C70_index_refuted :
  (exists l, (forall r, In r l -> String.length (w_note r) <= 60) /\ ~ NoDup (map w_note (index_note ", " l))) /\
  (exists l, List.length l = 12 /\ ~ NoDup (map w_note (index_note "" l))).
Proof.
  split.
  - exists [row0 1 "g" long_note; row0 2 "r" long_note]. split.
    + intros r [<-|[<-|[]]]; cbn; apply le_n.
    + intro N. cbn in N. inversion N as [|? ? X _]; subst. apply X. left. reflexivity.
  - exists (map (fun i => row0 i "g" (if Nat.eqb i 1 then "x1" else "x")) (seq 0 12)). split; [reflexivity|].
    intro N. cbn in N. inversion N as [|? ? _ N1]; subst. inversion N1 as [|? ? X _]; subst. apply X. cbn. tauto.
Qed.
Print Assumptions C70_index_refuted.

(** TakeAsPairs' tags are lost the same way: both halves of a pair carry one note. *)
Theorem C70_pairs_refuted : exists b cur l, (forall r, In r l -> String.length (w_note r) <= 60) /\
  ~ NoDup (map w_note (take_as_pairs b None None cur l)) /\ NoDup (map w_note l).
Proof.
  exists "r", "g", [row0 1 "g" long_note]. split; [intros r [<-|[]]; cbn; apply le_n|]. split.
  - intro N. cbn in N. inversion N as [|? ? X _]; subst. apply X. left. reflexivity.
  - repeat constructor. intros [].
Qed.
Print Assumptions C70_pairs_refuted.

(** IndexNote and TagRadial change only what they say. *)
Theorem C70_index_frame : forall sep l,
  Forall2 (fun p s => same_except [CNote] (snd p) s /\ w_note s = substring 0 60 (w_note (snd p) ++ sep ++ dec (fst p)))
    (combine (seq 0 (List.length l)) l) (index_note sep l).
Proof. intros. apply index_spec. Qed.
Print Assumptions C70_index_frame.
Theorem C70_tag_radial : forall near suffix target l,
  Forall2 (fun r s => same_except [CNote; CTarget] r s /\
    (near r = true -> w_note s = substring 0 60 (w_note r ++ suffix) /\ w_target s = substring 0 60 target) /\
    (near r = false -> s = r)) l (tag_radial near suffix target l).
Proof. exact tag_spec. Qed.
Print Assumptions C70_tag_radial.

Example C70_index_example : map w_note (index_note ", " [row0 1 "g" "a"; row0 2 "g" "a"; row0 3 "r" "b"]) = ["a, 0"; "a, 1"; "b, 2"].
Proof. reflexivity. Qed.
Example C70_tag_example : map w_note (tag_radial (fun r => Nat.eqb (w_id r) 1) ", deep area" "deep" [row0 1 "g" "a"; row0 2 "g" "b"]) = ["a, deep area"; "b"].
Proof. reflexivity. Qed.
