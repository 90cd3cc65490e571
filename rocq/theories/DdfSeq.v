(** The plan of the deep drilling fields and its stored schedule:
    /repo/rubin_scheduler/scheduler/example/lsst_ddf_gen.py.
    The rows are those read by [Ddf.generate]; the files are named by a path. *)
From Coq Require Import List Bool QArith ZArith String.
From Verif Require Import Base Ddf LsstSurveys.
Import ListNotations.
Open Scope Q_scope.
Open Scope string_scope.
Open Scope list_scope.

(** A sequence: visits by band, season_length, flush_length, g_depth_limit, n_sequences, even_odd if it has one. *)
Record sequence := Sequence { q_visits : list (string * nat); q_length : Q; q_flush : Q; q_depth : Q; q_n : Q; q_even_odd : option string }.
(** Lines 32-65. *)
Definition short_squences : list sequence :=
  [Sequence [("u", 3%nat)] 225 2 (47 # 2) 33 None;
   Sequence [("y", 2%nat)] 225 2 (47 # 2) 33 None;
   Sequence [("g", 2%nat); ("i", 2%nat)] 225 (1 # 2) (114 # 5) 56 (Some "even");
   Sequence [("r", 2%nat); ("z", 2%nat)] 225 (1 # 2) (114 # 5) 56 (Some "odd")].
(** Lines 67-100. *)
Definition shallow_squences : list sequence :=
  [Sequence [("u", 3%nat)] 225 2 (47 # 2) 75 None;
   Sequence [("y", 2%nat)] 225 2 (47 # 2) 75 None;
   Sequence [("g", 2%nat); ("i", 2%nat)] 225 (1 # 2) (114 # 5) 100 (Some "even");
   Sequence [("r", 2%nat); ("z", 2%nat)] 225 (1 # 2) (114 # 5) 100 (Some "odd")].
(** Lines 102-145. *)
Definition deep_sequences : list sequence :=
  [Sequence [("u", 8%nat)] 225 2 (47 # 2) 75 None;
   Sequence [("y", 20%nat)] 225 2 (47 # 2) 75 None;
   Sequence [("g", 2%nat); ("i", 2%nat)] 225 (1 # 2) (114 # 5) 200 (Some "even");
   Sequence [("r", 2%nat); ("z", 2%nat)] 225 (1 # 2) (114 # 5) 200 (Some "odd");
   Sequence [("g", 4%nat); ("r", 18%nat); ("i", 55%nat); ("z", 52%nat)] 180 2 (47 # 2) 110 None].
(** Lines 147-190. *)
Definition euclid_deep_seq : list sequence :=
  [Sequence [("u", 30%nat)] 225 2 (47 # 2) 75 None;
   Sequence [("y", 40%nat)] 225 2 (47 # 2) 75 None;
   Sequence [("g", 4%nat); ("i", 4%nat)] 225 (1 # 2) (114 # 5) 200 (Some "even");
   Sequence [("r", 4%nat); ("z", 4%nat)] 225 (1 # 2) (114 # 5) 200 (Some "odd");
   Sequence [("g", 8%nat); ("r", 36%nat); ("i", 110%nat); ("z", 104%nat)] 125 2 (47 # 2) 75 None].
(** Lines 192-213. *)
Definition short_seasons : list (string * list Z) :=
  [("XMM_LSS", [0; 10]%Z); ("ELAISS1", [0; 10]%Z); ("ECDFS", [0; 10]%Z); ("EDFS_a", [0; 10]%Z)].
Definition shallow_seasons : list (string * list Z) :=
  [("COSMOS", [0; 4; 5; 6; 7; 8; 9; 10]%Z); ("XMM_LSS", [1; 2; 3; 5; 6; 7; 8; 9]%Z); ("ELAISS1", [1; 2; 3; 4; 6; 7; 8; 9]%Z);
   ("ECDFS", [1; 2; 3; 4; 5; 7; 8; 9]%Z); ("EDFS_a", [2; 3; 4; 5; 6; 7; 8; 9]%Z)].
Definition deep_seasons : list (string * list Z) :=
  [("COSMOS", [1; 2; 3]%Z); ("XMM_LSS", [4]%Z); ("ELAISS1", [5]%Z); ("ECDFS", [6]%Z); ("EDFS_a", [1]%Z)].
Fixpoint visits_of (l : list (string * nat)) (band : string) : nat :=
  match l with [] => 0 | (b, n) :: l => if String.eqb b band then n else visits_of l band end.
(** One row, lines 219-233: zero in the bands not named, "None" without even_odd. *)
Definition row (name : string) (season : Z) (q : sequence) : cfg :=
  mkCfg name (q_length q) (q_n q) (q_flush q) (visits_of (q_visits q)) (match q_even_odd q with Some e => e | None => "None" end)
    (Some (q_depth q)) (Some season).
Definition rows_of (seasons : list (string * list Z)) (qs : string -> list sequence) : list cfg :=
  flat_map (fun fs : string * list Z => flat_map (fun s => map (row (fst fs) s) (qs (fst fs))) (snd fs)) seasons.
(** define_ddf_seq, lines 215-274. *)
Definition define_ddf_seq : list cfg :=
  rows_of short_seasons (fun _ => short_squences) ++ rows_of shallow_seasons (fun _ => shallow_squences)
  ++ rows_of deep_seasons (fun f => if String.eqb f "EDFS_a" then euclid_deep_seq else deep_sequences).

(** The stored schedule, lines 359-412 (a file name without .npz is stored under another name and never found, not modelled).  [K]: the arguments it depends on (expt, nexp, survey_start, survey_length, science_program),
    compared by [same]; [H]: the checksum of the two files of code; [A]: the array. *)
Section Cache.
Variables K H A : Type.
Variable same : K -> K -> bool.
Variable heqb : H -> H -> bool.
Record stored := Stored { st_hash : H; st_args : K; st_array : A }.
Definition files := string -> option stored.
Definition write (path : string) (x : stored) (fs : files) : files := fun p => if String.eqb p path then Some x else fs p.
Record call := Call { c_path : string; c_save : bool; c_args : K }.
(** Lines 368-412: what the survey is given, and the files after. *)
Definition schedule (make : K -> res A) (hash : H) (c : call) (fs : files) : res A * files :=
  let loaded := match fs (c_path c) with
                | Some s => if heqb (st_hash s) hash && same (c_args c) (st_args s) then Some (st_array s) else None
                | None => None
                end in
  match loaded with
  | Some a => (Ok a, fs)
  | None => match make (c_args c) with
            | Ok a => (Ok a, if c_save c then write (c_path c) (Stored hash (c_args c) a) fs else fs)
            | Raise e => (Raise e, fs)
            end
  end.
(** Calls one after the other. *)
Fixpoint schedules (make : H -> K -> res A) (calls : list (H * call)) (fs : files) : list (res A) :=
  match calls with
  | [] => []
  | (h, c) :: calls => let (r, fs) := schedule (make h) h c fs in r :: schedules make calls fs
  end.
End Cache.
Arguments Stored {K H A}. Arguments st_hash {K H A}. Arguments st_args {K H A}. Arguments st_array {K H A}. Arguments Call {K}.
Arguments c_path {K}. Arguments c_save {K}. Arguments c_args {K}. Arguments schedule {K H A}. Arguments schedules {K H A}. Arguments write {K H A}.

(** The masks of the survey, lines 331-337 and 414-415. *)
Definition ddf_masks (nside : Z) (shadow : Q) (safety : option params) : list bfn :=
  let p := base_params nside safety in
  safety_masks (match p_shadow p with Some x => if Qle_bool shadow x then p else with_shadow shadow p | None => with_shadow shadow p end).
