(** Downloads of the data directories: /repo/rubin_scheduler/data/{scheduler_download_data,data_sets}.py.
    The server is a host per download: what it says of the size, and what each request for the file gets, given the byte asked for. The disk
    has the directories, the partial files and versions.txt. An unpacked directory takes the place of the one of that name. A file renamed to
    its final name is unpacked and removed at once; one that cannot be unpacked is left, which nothing reads again. Waits, progress bars and
    printing are not modelled; the data directory exists. *)
From Coq Require Import List Bool ZArith String Ascii.
From Verif Require Import Base.
Import ListNotations.
Open Scope string_scope.
Open Scope list_scope.
Open Scope nat_scope.

Definition bytes := list nat.
(** What a request gets: an error before the body (lines 249-251 and refused ranges), or a body: from the byte asked for or (the range
    ignored) from the start, the Content-Length if stated, how many bytes come, and whether the end is clean or an exception. *)
Inductive reply := Refused | Body (from_range : bool) (stated : option nat) (sent : nat) (clean : bool).
(** The answer to HEAD (lines 211-217), none for an error or no length, and to the k-th request from byte n on. *)
Record host := Host { h_size : option nat; h_get : nat -> nat -> reply }.

Definition versions := list (string * string).
Definition get (vs : versions) (k : string) : option string :=
  match find (fun kv => String.eqb (fst kv) k) vs with Some kv => Some (snd kv) | None => None end.
(** versions[key] = value: a key keeps its place, a new one goes to the end. *)
Fixpoint set (vs : versions) (k v : string) : versions :=
  match vs with
  | [] => [(k, v)]
  | kv :: r => if String.eqb (fst kv) k then (k, v) :: r else kv :: set r k v
  end.
Definition upd {A : Type} (f : string -> option A) (k : string) (v : option A) : string -> option A := fun x => if String.eqb x k then v else f x.

Section Download.
Variable dir : Type. (* contents of a directory *)
Variable unpack : bytes -> option (list (string * dir)). (* unpack_archive: the directories, none if it raises *)
Variable archive : string -> bytes. (* the files on the server *)
Record disk := Disk { dk_dirs : string -> option dir; dk_parts : string -> option bytes; dk_versions : option versions }.

(** The retry loop, lines 238-306: [left] attempts remain, the k-th is next; the partial file and, where it succeeded, the whole one. *)
Fixpoint tries (left k : nat) (h : host) (file : bytes) (part : option bytes) (downloaded total : nat) : option bytes * option bytes :=
  match left with
  | 0 => (part, None)
  | S n =>
      match h_get h k downloaded with
      | Refused => tries n (k + 1) h file part (match part with Some b => List.length b | None => downloaded end) total
      | Body from_range stated sent clean =>
          let resume := 0 <? downloaded in
          let total := if total =? 0 then match stated with Some c => if resume then downloaded + c else c | None => total end else total in
          let old := if resume then match part with Some b => b | None => [] end else [] in
          let body := if from_range && resume then skipn downloaded file else file in
          let now := old ++ firstn sent body in
          if clean && negb ((0 <? total) && (List.length now <? total)) then (None, Some now)
          else tries n (k + 1) h file (Some now) (List.length now) total
      end
  end.
(** Lines 199-236 and 238-309: the partial file left and the file to unpack. *)
Definition fetch (h : host) (name : string) (part : option bytes) : option bytes * option bytes :=
  let total := match h_size h with Some n => n | None => 0 end in
  match part with
  | Some b => if (0 <? total) && (total <=? List.length b) then (None, Some b) else tries 10 0 h (archive name) part (List.length b) total
  | None => tries 10 0 h (archive name) None 0 total
  end.
Definition put_dirs (f : string -> option dir) (l : list (string * dir)) : string -> option dir := fold_left (fun f kd => upd f (fst kd) (Some (snd kd))) l f.
(** Lines 198-314 for a directory that is to be downloaded. *)
Definition download (h : host) (name key : string) (d : disk) (vs : versions) : disk * res versions :=
  match fetch h name (dk_parts d name) with
  | (p, None) => (Disk (dk_dirs d) (upd (dk_parts d) name p) (dk_versions d), Raise RuntimeError)
  | (p, Some b) =>
      let d := Disk (dk_dirs d) (upd (dk_parts d) name p) (dk_versions d) in
      match unpack b with
      | None => (d, Raise ValueError)
      | Some l => (Disk (put_dirs (dk_dirs d) l) (dk_parts d) (dk_versions d), Ok (set vs key name))
      end
  end.
Record options := Opts { o_update : bool; o_force : bool }.
(** Lines 176-314: the directories one after the other; host i serves the i-th. *)
Fixpoint each (o : options) (file : string -> option string) (net : nat -> host) (i : nat) (keys : list string) (d : disk) (vs : versions) : disk * res versions :=
  match keys with
  | [] => (d, Ok vs)
  | key :: rest =>
      match file key with
      | None => (d, Raise KeyError)
      | Some name =>
          let gone := Disk (upd (dk_dirs d) key None) (dk_parts d) (dk_versions d) in
          let step d' := match download (net i) name key d' vs with
                         | (d', Ok vs') => each o file net (i + 1) rest d' vs'
                         | (d', Raise e) => (d', Raise e)
                         end in
          match dk_dirs d key with
          | None => step d
          | Some _ =>
              if o_force o then step gone
              else if negb (o_update o) then each o file net (i + 1) rest d vs
              else if match get vs key with Some v => String.eqb v name | None => String.eqb "" name end then each o file net (i + 1) rest d vs
              else step gone
          end
      end
  end.
(** How the call ends; exit() has no code, which is success for the shell. *)
Inductive ending := Returned (code : option Z) | Raised (e : exn) | Exited.
(** file_dict: a dictionary of names of directories and of files. *)
Definition lookup (f : versions) (k : string) : option string := get f k.
(** download_rubin_data, lines 100-334; [wanted] is the text of dirs split at commas, [alive] whether the address of the server answers. *)
Definition download_rubin_data (file_dict : versions) (wanted : option (list string)) (only_versions : bool) (o : options) (alive : bool) (net : nat -> host) (d : disk) : disk * ending :=
  let vs := match dk_versions d with Some v => v | None => [] end in
  if only_versions then
    (d, Returned (Some (if forallb (fun kv => String.eqb (match get vs (fst kv) with Some v => v | None => "" end) (snd kv)) file_dict then 0%Z else 1%Z)))
  else if negb alive then (d, Exited)
  else match each o (lookup file_dict) net 0 (match wanted with None => map fst file_dict | Some l => l end) d vs with
       | (d', Raise e) => (d', Raised e)
       | (d', Ok vs') => (Disk (dk_dirs d') (dk_parts d') (Some vs'), Returned None)
       end.
(** data_dict, lines 18-36. *)
Definition data_dict : versions :=
  [("scheduler", "scheduler_2025_10_27.tgz"); ("site_models", "site_models_2023_10_02.tgz"); ("skybrightness_pre", "skybrightness_pre_2025_12_01.tgz"); ("utils", "utils_2023_11_02.tgz")].
(** The command scheduler_download_data, lines 39-97 (pyproject.toml line 54): whatever the call returns is dropped. The exit status. *)
Definition command (file_dict : option versions) (wanted : option (list string)) (only_versions : bool) (o : options) (alive : bool) (net : nat -> host) (d : disk) : disk * Z :=
  let _ := match file_dict with Some f => f | None => data_dict end in
  match download_rubin_data data_dict wanted only_versions o alive net d with
  | (d', Returned _) => (d', 0%Z)
  | (d', Raised _) => (d', 1%Z)
  | (d', Exited) => (d', 0%Z)
  end.
End Download.

(** The text of versions.txt: lines 316-319 and data_sets.py lines 34-45. The blanks that strip removes are those of Latin text. *)
Definition blank (c : ascii) : bool := existsb (Nat.eqb (nat_of_ascii c)) [32; 9; 10; 11; 12; 13; 28; 29; 30; 31].
Fixpoint lstrip (s : string) : string := match s with String c r => if blank c then lstrip r else s | EmptyString => EmptyString end.
Fixpoint rstrip (s : string) : string :=
  match s with EmptyString => EmptyString | String c r => match rstrip r with EmptyString => if blank c then EmptyString else String c EmptyString | r' => String c r' end end.
(** split(","): the first piece and the rest behind the comma, if there is one. *)
Fixpoint upto_comma (s : string) : string * option string :=
  match s with
  | EmptyString => (EmptyString, None)
  | String c r => if Ascii.eqb c ","%char then (EmptyString, Some r) else let (a, b) := upto_comma r in (String c a, b)
  end.
Definition parse_line (s : string) : res (string * string) :=
  let (k, r) := upto_comma (rstrip (lstrip s)) in match r with None => Raise IndexError | Some r => Ok (k, fst (upto_comma r)) end.
Fixpoint parse (lines : list string) (vs : versions) : res versions :=
  match lines with [] => Ok vs | s :: rest => bind (parse_line s) (fun kv => parse rest (set vs (fst kv) (snd kv))) end.
Definition write (vs : versions) : list string := map (fun kv => (fst kv ++ "," ++ snd kv)%string) vs.
