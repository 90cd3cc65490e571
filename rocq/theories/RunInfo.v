(** What is known of a run, written beside its visits:
    /repo/rubin_scheduler/data/data_sets.py data_versions (lines 23-45),
    /repo/rubin_scheduler/scheduler/model_observatory/model_observatory.py get_info (357-370),
    /repo/rubin_scheduler/scheduler/utils/utils.py run_info_table (825-856) and the end of
    /repo/rubin_scheduler/scheduler/sim_runner.py (277-282 and 305-310).
    Simplifications: lines of versions.txt are already stripped; a scalar value of
    extra_info is the text numpy makes of it; the visits and the names are arbitrary. *)
From Coq Require Import List ZArith Bool String Ascii.
From Verif Require Import Base.
Import ListNotations.
Open Scope string_scope.

(** line.split(",") *)
Fixpoint split_comma (s : string) : list string :=
  match s with
  | EmptyString => [EmptyString]
  | String c r =>
      if Ascii.eqb c ","%char then EmptyString :: split_comma r
      else match split_comma r with [] => [String c EmptyString] | w :: l => String c w :: l end
  end.
Definition dict := list (string * string).
(** result[key] = value: a key keeps its place. *)
Fixpoint dset (d : dict) (k v : string) : dict :=
  match d with
  | [] => [(k, v)]
  | (k', v') :: d' => if String.eqb k' k then (k', v) :: d' else (k', v') :: dset d' k v
  end.
(** Lines 40-43. *)
Definition add_line (acc : res dict) (line : string) : res dict :=
  bind acc (fun d => match split_comma line with k :: v :: _ => Ok (dset d k v) | _ => Raise IndexError end).
(** Lines 33-45: None when there is no such file. *)
Definition data_versions (file : option (list string)) : res (option dict) :=
  match file with
  | None => Ok None
  | Some lines => bind (fold_left add_line lines (Ok [])) (fun d => Ok (Some d))
  end.
(** Lines 365-370: for key in None is a TypeError. *)
Definition get_info (file : option (list string)) : res dict :=
  bind (data_versions file) (fun v => match v with None => Raise TypeError | Some d => Ok d end).

Inductive value : Type := Scalar (s : string) | Sequence (l : list string).
(** np.array of pairs, line 834: a sequence among the values makes them ragged. *)
Fixpoint as_array (l : list (string * value)) : res dict :=
  match l with
  | [] => Ok []
  | (k, Scalar s) :: r => bind (as_array r) (fun d => Ok ((k, s) :: d))
  | (_, Sequence _) :: _ => Raise ValueError
  end.
(** dtype U200. *)
Definition cut (s : string) : string := substring 0 200 s.
(** Lines 825-856; [:, 0] of an empty array is an IndexError. *)
Definition run_info (date host version : string) (file : option (list string)) (extra : option (list (string * value))) : res dict :=
  bind (get_info file) (fun vs =>
  let all := (map (fun kv => (fst kv, Scalar (snd kv))) vs ++ match extra with Some e => e | None => [] end)%list in
  bind (as_array all) (fun a =>
  match a with
  | [] => Raise IndexError
  | _ => Ok ([("Date, ymd", cut date); ("hostname", cut host); ("rubin_scheduler.__version__", cut version)]
             ++ map (fun kv => (cut (fst kv), cut (snd kv))) a)%list
  end)).

(** Lines 277-310: what a run returns and what it leaves on disk. *)
Definition finish {V} (visits : list V) (filename : option string) (info : res dict) : option (string * dict * list V) * res (list V) :=
  match visits, filename with
  | [], _ => (None, Ok visits)
  | _, None => (None, Ok visits)
  | _, Some f => match info with Ok t => (Some (f, t, visits), Ok visits) | Raise e => (None, Raise e) end
  end.

(** /repo/rubin_scheduler/data/scheduler_download_data.py lines 332-334: a line of versions.txt. *)
Definition line_of (kv : string * string) : string := fst kv ++ "," ++ snd kv.
