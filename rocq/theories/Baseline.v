(** The baseline scheduler and its run:
    /repo/rubin_scheduler/scheduler/example/example_scheduler.py.
    A survey is what its generator gives it (LsstSurveys.v, Roman.v, GenEvents.v); the deep drilling survey is its name, start and
    resolution (DdfSeq.v has its schedule). Footprints, the rotation and dither settings of lines 178-262 and the text of extra_info
    are not modelled. SURVEY_START_MJD is utils/constants.py line 8, 2025-11-01T12:00:00. *)
From Coq Require Import List Bool QArith ZArith String Ascii.
From Verif Require Import Base IntRounded SeasonBf Obs Core LsstSurveys Roman.
From Verif Require GenEvents.
Import ListNotations.
Open Scope string_scope.
Open Scope list_scope.

Definition SURVEY_START_MJD : Q := 60980 + (1 # 2).

(** str.replace: every occurrence from the left, none overlapping. *)
Fixpoint drop (n : nat) (s : string) : string := match n, s with S n, String _ s => drop n s | _, _ => s end.
Fixpoint replace_in (fuel : nat) (old new s : string) : string :=
  match fuel with
  | O => s
  | S fuel =>
      match s with
      | "" => ""
      | String c r => if prefix old s then (new ++ replace_in fuel old new (drop (String.length old) s))%string else String c (replace_in fuel old new r)
      end
  end.
Definition replace_all (old new s : string) : string := replace_in (String.length s) old new s.
(** os.path.join of two. *)
Fixpoint ends_slash (s : string) : bool := match s with "" => false | String c r => if String.eqb r "" then Ascii.eqb c "/" else ends_slash r end.
Definition path_join (a b : string) : string :=
  if prefix "/" b then b else if String.eqb a "" || ends_slash a then (a ++ b)%string else (a ++ "/" ++ b)%string.

(** The namespace of sched_argparser, lines 405-441, and the two attributes of lines 90 and 92 that no one reads. *)
Record namespace := Namespace {
  survey_length : Q; out_dir : string; dbroot : option string; setup_only : bool; n_nside : Z; mjd_plus : Q; no_too : bool;
  outDir : option string; start_attr : option Q }.
Definition parsed : namespace := Namespace (36525 # 10) "" None false DEFAULT_NSIDE 0 false None None.

(** %i of 33 and 15, :.1f of the same. *)
Definition fi (x : Q) : string := if Qeq_bool x 33 then "33" else if Qeq_bool x 15 then "15" else "".
Definition f1 (x : Q) : string := (fi x ++ ".0")%string.

(** What the scheduler holds. *)
Inductive member :=
| Blob (s : survey) | LongGap (s : survey) (masks : list bfn) | RomanField (r : roman) | Too (name : string)
| Scripted (name : string) (nside : Z) (start : Q).
Definition ARGS (nside : Z) (exptime pair_time : Q) (w : weights) (repeat respect : Q) (ignore : list string) (pattern : option (list bool)) : args :=
  Args nside (- (80), 80)%Q exptime 1 38 1 pair_time 5 76 w repeat ignore "BLOCK-407" pattern respect None None.
Definition usual : weights := Weights 6 (3 # 2) 3 3.
Definition IGNORED : list string := ["DD"; "twilight_near_sun"; "ToO"].
Definition ei_night_pattern : list bool := [true; false; false; false].                 (* lines 208-219, entry 4 *)
Definition reverse_ei_night_pattern : list bool := map negb ei_night_pattern.
Definition gaps_night_pattern : list bool := true :: repeat false 3.                     (* nights_off = 3 *)
(** The calls of lines 250-331, with the defaults of lsst_surveys.py. *)
Definition templates (nside : Z) : res (list survey) :=
  gen_template_surveys f1 (ARGS nside 30 33 usual 0 30 ["DD"; "twilight_near_sun"] None) (13 # 10) ["u"; "g"; "r"; "i"; "z"; "y"] ["u"; "g"]
    (Some [("u", 4%Z); ("g", 4%Z); ("r", 4%Z); ("i", 4%Z); ("z", 4%Z); ("y", 4%Z)]) 50 (5 # 2) (43 # 2).
Definition long_gaps (nside : Z) : res (list (survey * list bfn)) :=
  gen_long_gaps_survey f1 (ARGS nside 30 33 usual 0 30 IGNORED (Some gaps_night_pattern)) 12 (41 # 2) 120.
Definition greedies (nside : Z) : list survey := gen_greedy_surveys (ARGS nside 30 33 (Weights 3 (3 # 4) 3 100) (-1) 0 IGNORED None) ["r"; "i"; "z"; "y"] 15.
Definition blobs (nside : Z) (start : Q) : list survey :=
  generate_blobs fi f1 (ARGS nside 30 33 usual (-20) 45 IGNORED None) ["u"; "u"; "g"; "r"; "i"; "z"; "y"] (map Some ["g"; "r"; "r"; "i"; "z"; "y"; "y"])
    (GoodSeeing [("g", 3%Z); ("r", 3%Z); ("i", 3%Z)] 3 start (8 # 10) (1 # 2)).
Definition twi_blobs (nside : Z) : list survey :=
  generate_short_blobs fi f1 (ARGS nside 30 15 usual 0 15 IGNORED (Some reverse_ei_night_pattern)) ["r"; "i"; "z"; "y"] (map Some ["i"; "z"; "y"; "y"]).
Definition neo (nside : Z) : list survey :=
  generate_twilight_near_sun (ARGS nside 15 5 (Weights 0 (1 # 10) 3 3) 0 0 ["DD"; "pair"; "long"; "blob"; "greedy"; "template"; "ToO"] (Some ei_night_pattern))
    (NearSun (5 # 2) 10 (3 # 10) (Some 0) 4 (- 148 # 10) 25 (9 # 2) 45) ["r"; "i"; "z"].
(** Lines 310-313: without nside; lines 279-282: without survey_start. *)
Definition romans : list roman := [gen_roman_on_season DEFAULT_NSIDE 30 1 None; gen_roman_off_season DEFAULT_NSIDE 30 1 None].
Definition ddfs (nside : Z) : list member := [Scripted "deep drilling" nside SURVEY_START_MJD].

Record scheduler := Scheduler { groups : list (list member); sched_nside : Z; sched_start : Q }.
(** What is handed to run_sched: the scheduler, the file, the length and start, whether there are events (those of gen_all_events
    with its own dates, line 334). *)
Record run := Run { r_sched : scheduler; r_file : string; r_length : Q; r_start : Q; r_events : bool }.
Inductive outcome := Scheduled (s : scheduler) | Ran (r : run).

Section Main.
Variable script : string.       (* os.path.basename(sys.argv[0]) *)
Variable fmt : Z -> string.     (* %i *)
(** set_run_info, lines 97-123. *)
Definition set_run_info (dbroot : option string) (file_end out_dir : string) : string :=
  let fileroot := (match dbroot with None => replace_all ".py" "" script | Some d => d end ++ "_")%string in
  path_join out_dir (fileroot ++ file_end).
(** gen_scheduler, lines 168-402. *)
Definition gen_scheduler (a : namespace) : res outcome :=
  let start := (SURVEY_START_MJD + mjd_plus a)%Q in
  let fileroot := set_run_info (dbroot a) "v5.1.0_" (out_dir a) in
  let nside := n_nside a in
  bind (templates nside) (fun tem =>
  bind (long_gaps nside) (fun lg =>
  let rest := [map RomanField romans; ddfs nside; map Blob tem; map (fun p => LongGap (fst p) (snd p)) lg; map Blob (blobs nside start);
               map Blob (twi_blobs nside); map Blob (neo nside); map Blob (greedies nside)] in
  let too := negb (no_too a) in
  let surveys := if too then map Too (map GenEvents.f_name GenEvents.gen_too_surveys) :: rest else rest in
  let fileroot := if too then fileroot else replace_all "baseline" "no_too" fileroot in
  let s := Scheduler surveys nside start in
  Ok (if setup_only a then Scheduled s
      else Ran (Run s (fileroot ++ fmt (Qround_even (survey_length a / (36525 # 100))) ++ "yrs.db")%string (survey_length a) start too)))).
(** generate_baseline_coresched, lines 64-94, and example_scheduler, lines 55-61. *)
Definition generate_baseline_coresched (nside : Z) (start : Q) (without : bool) : res outcome :=
  gen_scheduler (Namespace (survey_length parsed) (out_dir parsed) (Some "example_") true nside (mjd_plus parsed) without (Some ".") (Some start)).
Definition example_scheduler (mjd_start : Q) (nside : Z) (kw_start : option Q) (without : bool) : res outcome :=
  generate_baseline_coresched nside (match kw_start with Some s => s | None => mjd_start end) without.
End Main.
