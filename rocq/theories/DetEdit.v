(** Model of the detailers that fill in or replace columns of the observations.
    /repo/rubin_scheduler/scheduler/detailers/detailer.py: BandSubstituteDetailer (173-192),
    IndexNoteDetailer (317-339), TrackingInfoDetailer (342-389), FlushByDetailer (406-422),
    BandToFilterDetailer (425-454), RandomFilterDetailer (526-533), RandomBandDetailer (536-574),
    StartFieldSequenceDetailer (729-812), FlushForSchedDetailer (873-891), BandNexp (894-909),
    TakeAsPairsDetailer (920-954), TagRadialDetailer (1001-1045); event_detailers.py:
    BandPickToODetailer (10-57).
    Columns other than those named below are not represented.  String columns hold 10 (band,
    filter) or 60 characters (scheduler/utils/observation_array.py, lines 126-165); numpy cuts
    longer strings on assignment.  Exact numbers. *)
From Coq Require Import List ZArith QArith Bool String Ascii DecimalString.
From Verif Require Import Base.
Import ListNotations.
Local Open Scope string_scope.
Open Scope list_scope.
Open Scope nat_scope.

Record row := mkRow {
  w_id : nat; w_band : string; w_filter : string; w_note : string; w_target : string;
  w_prog : string; w_reason : string; w_expt : Q; w_nexp : Z; w_flush : Q }.

(** Assignment to a "U<n>" column. *)
Definition cut (n : nat) (s : string) : string := substring 0 n s.
Definition set_band b r := mkRow (w_id r) (cut 10 b) (w_filter r) (w_note r) (w_target r) (w_prog r) (w_reason r) (w_expt r) (w_nexp r) (w_flush r).
Definition set_filter f r := mkRow (w_id r) (w_band r) (cut 10 f) (w_note r) (w_target r) (w_prog r) (w_reason r) (w_expt r) (w_nexp r) (w_flush r).
Definition set_note n r := mkRow (w_id r) (w_band r) (w_filter r) (cut 60 n) (w_target r) (w_prog r) (w_reason r) (w_expt r) (w_nexp r) (w_flush r).
Definition set_target t r := mkRow (w_id r) (w_band r) (w_filter r) (w_note r) (cut 60 t) (w_prog r) (w_reason r) (w_expt r) (w_nexp r) (w_flush r).
Definition set_prog p r := mkRow (w_id r) (w_band r) (w_filter r) (w_note r) (w_target r) (cut 60 p) (w_reason r) (w_expt r) (w_nexp r) (w_flush r).
Definition set_reason x r := mkRow (w_id r) (w_band r) (w_filter r) (w_note r) (w_target r) (w_prog r) (cut 60 x) (w_expt r) (w_nexp r) (w_flush r).
Definition set_expt e r := mkRow (w_id r) (w_band r) (w_filter r) (w_note r) (w_target r) (w_prog r) (w_reason r) e (w_nexp r) (w_flush r).
Definition set_nexp n r := mkRow (w_id r) (w_band r) (w_filter r) (w_note r) (w_target r) (w_prog r) (w_reason r) (w_expt r) n (w_flush r).
Definition set_flush f r := mkRow (w_id r) (w_band r) (w_filter r) (w_note r) (w_target r) (w_prog r) (w_reason r) (w_expt r) (w_nexp r) f.
Definition has (l : list string) (b : string) : bool := existsb (String.eqb b) l.

(** BandSubstituteDetailer.__call__, lines 188-192. *)
Definition substitute (orig repl : string) (mounted : list string) (l : list row) : list row :=
  if has mounted orig then l
  else map (fun r => if String.eqb (w_band r) orig then set_band repl r else r) l.

(** BandPickToODetailer.__call__, event_detailers.py lines 39-57.  [dist]: the event's
    posterior_distance, None when the event has none or is not passed. *)
Definition pick_too (start stop : string) (limit : Q) (check dark : bool) (moon : Q) (dist : option Q)
    (mounted : list string) (l : list row) : list row :=
  match dist with
  | None => l
  | Some d =>
      if dark && Qltb 50 moon then l
      else if Qltb d limit && (negb check || has mounted stop)
      then map (fun r => if String.eqb (w_band r) start then set_band stop r else r) l
      else l
  end.

(** TrackingInfoDetailer, lines 371-389.  A value None is stored as the string "None". *)
Fixpoint underscores (s : string) : string :=
  match s with
  | EmptyString => EmptyString
  | String c r => String (if Ascii.eqb c " " then "_" else c)%char (underscores r)
  end.
Definition stored (v : option string) : string := match v with Some s => s | None => "None" end.
Definition unset (s : string) : bool := String.eqb s "" || String.eqb s "None".
Definition tracking (target prog reason : option string) (l : list row) : list row :=
  let reason := option_map underscores reason in
  let l1 := map (fun r => if unset (w_prog r) then set_prog (stored prog) r else r) l in
  let l2 := map (fun r => if unset (w_target r) then set_target (stored target) r else r) l1 in
  map (fun r => if unset (w_reason r) then set_reason (stored reason) r else r) l2.

(** FlushByDetailer, lines 416-422; [flush_time] in minutes. *)
Definition flush_by (flush_time mjd : Q) (l : list row) : list row :=
  map (set_flush (mjd + flush_time / 60 / 24)%Q) l.

(** FlushForSchedDetailer.__call__, lines 886-891.  [observation_array[indx]] with an index
    array is a copy, so the assignment goes to the copy. *)
Definition qmin_list (x : Q) (l : list Q) : Q := fold_left (fun m y => if Qltb y m then y else m) l x.
Definition flush_for_sched (tol : Q) (sched : list Q) (l : list row) : list row :=
  match sched with
  | [] => l
  | x :: xs =>
      let new := (qmin_list x xs - tol)%Q in
      let _copy := map (set_flush new) (filter (fun r => Qltb new (w_flush r)) l) in
      l
  end.

(** BandToFilterDetailer, lines 437-454. *)
Fixpoint get (d : list (string * string)) (k : string) : option string :=
  match d with [] => None | (a, v) :: r => if String.eqb a k then Some v else get r k end.
Definition default_dict : list (string * string) := map (fun b => (b, b)) ["u"; "g"; "r"; "i"; "z"; "y"].
Definition band_to_filter (d : option (list (string * string))) (l : list row) : list row :=
  let d := match d with Some d => d | None => default_dict end in
  map (fun r => set_filter (match get d (w_band r) with Some f => f | None => w_band r end) r) l.

(** RandomBandDetailer, lines 554-574.  [table] is night2band_int; negative nights index from
    the end. *)
Definition py_nth {X} (t : list X) (i : Z) : res X :=
  let j := if (i <? 0)%Z then (i + Z.of_nat (List.length t))%Z else i in
  if (j <? 0)%Z then Raise IndexError
  else match nth_error t (Z.to_nat j) with Some x => Ok x | None => Raise IndexError end.
Definition random_band (bands : list string) (table : list nat) (fallback : list string) (night : Z)
    (mounted : list string) (l : list row) : res (list row) :=
  bind (py_nth table night) (fun i =>
  match nth_error bands i with
  | None => Raise KeyError
  | Some b =>
      if has mounted b then Ok (map (set_band b) l)
      else match filter (has mounted) fallback with
           | [] => Raise ValueError
           | f :: _ => Ok (map (set_band f) l)
           end
  end).
(** RandomFilterDetailer.__init__, lines 526-533: passes bands, nights_to_prep, seed and
    fallback_order to BaseDetailer.__init__, which takes only nside. *)
Definition random_filter_init : res unit :=
  let accepted := ["nside"] in
  if forallb (has accepted) ["bands"; "nights_to_prep"; "seed"; "fallback_order"] then Ok tt else Raise TypeError.

(** StartFieldSequenceDetailer, lines 756-812.  Completed visits reach its LastObservedMatching
    feature (features/features.py, lines 697-712) one at a time; the feature's mjd column starts
    at 0 (line 669 sets an attribute, not the column).  [v_dist]: distance from the field in
    degrees.  The radius handed to the feature is the constant 3.5 (line 768), whatever
    ang_distance_match is.  The notes of the sequence are set on construction (783-784). *)
Record visit := mkVisit { v_mjd : Q; v_dist : Q; v_note : string; v_prog : string }.
Definition start_match (prog note : option string) (v : visit) : bool :=
  match prog with Some p => String.eqb p (v_prog v) | None => true end &&
  match note with Some n => String.eqb n (v_note v) | None => true end &&
  negb (Qle_bool (35 # 10) (v_dist v)).
Definition start_last (prog note : option string) (hist : list visit) : Q :=
  fold_left (fun m v => if start_match prog note v then v_mjd v else m) hist 0%Q.
Definition start_sequence (ang_distance_match hours : Q) (prog note : option string) (hist : list visit) (mjd : Q)
    (sequence l : list row) : list row :=
  if Qle_bool (hours / 24) (mjd - start_last prog note hist) then sequence ++ l else l.

(** BandNexp.__call__, lines 903-909. *)
Definition band_nexp (b : string) (n : Z) (e : option Q) (l : list row) : list row :=
  map (fun r => if String.eqb (w_band r) b
                then let r1 := set_nexp n r in match e with Some x => set_expt x r1 | None => r1 end
                else r) l.

(** TakeAsPairsDetailer.__call__, lines 930-954. *)
Definition take_as_pairs (b : string) (e : option Q) (nexp : option Z) (cur : string) (l : list row) : list row :=
  let mk r :=
    let r1 := match e with Some x => set_expt x r | None => r end in
    let r2 := set_band b r1 in
    match nexp with Some n => set_nexp n r2 | None => r2 end in
  let loaded := String.eqb cur b in
  let tag t r := set_note (w_note r ++ ", " ++ t) r in
  let paired := map (fun r => tag (if loaded then "a" else "b") (mk r)) l in
  let orig := map (tag (if loaded then "b" else "a")) l in
  if loaded then paired ++ orig else orig ++ paired.

(** IndexNoteDetailer.__call__, lines 335-339, on scheduler_note. *)
Definition dec (n : nat) : string := NilZero.string_of_uint (Nat.to_uint n).
Definition index_note (sep : string) (l : list row) : list row :=
  map (fun p => set_note (w_note (snd p) ++ sep ++ dec (fst p)) (snd p)) (combine (seq 0 (List.length l)) l).

(** TagRadialDetailer.__call__, lines 1036-1045; [near]: within the radius. *)
Definition tag_radial (near : row -> bool) (suffix target : string) (l : list row) : list row :=
  map (fun r => if near r then set_note (w_note r ++ suffix) (set_target target r) else r) l.
