(** Model of the files of sky brightness: how they are downloaded and how the directory
    that holds them is read.
    /repo/rubin_scheduler/data/rs_download_sky.py and
    /repo/rubin_scheduler/skybrightness_pre/sky_model_pre.py.
    Paths are texts with "/", none ends with one and links are not resolved.  Errors of
    the disk and of [requests] are written RuntimeError.  What [HTMLParser] makes of a
    page (a list of start tags with their attributes) is an arbitrary function. *)
From Coq Require Import List ZArith QArith Bool String Ascii.
From Verif Require Import Base.
Import ListNotations.
Open Scope string_scope.
Open Scope list_scope.
Open Scope nat_scope.

(** ** Texts *)
(** [str.endswith]. *)
Fixpoint endswith (suffix s : string) : bool :=
  String.eqb s suffix || match s with EmptyString => false | String _ r => endswith suffix r end.
Fixpoint has (c : ascii) (s : string) : bool := match s with EmptyString => false | String a r => Ascii.eqb a c || has c r end.
(** [os.path.join] of two parts. *)
Definition join (d f : string) : string := match f with String "/" _ => f | _ => (d ++ "/" ++ f)%string end.
(** [os.path.split(p)[-1]], and the directory a path is in. *)
Fixpoint base (p : string) : string :=
  match p with EmptyString => EmptyString | String c r => if has "/" r then base r else if Ascii.eqb c "/" then r else p end.
Fixpoint parent (p : string) : string :=
  match p with EmptyString => EmptyString | String c r => if has "/" r then String c (parent r) else EmptyString end.
(** Order of texts, as [list.sort] has it: by the codes of the letters. *)
Fixpoint sle (a b : string) : bool :=
  match a, b with
  | EmptyString, _ => true
  | String _ _, EmptyString => false
  | String x r, String y t => if Ascii.eqb x y then sle r t else nat_of_ascii x <? nat_of_ascii y
  end.
Fixpoint insert (p : string) (l : list string) : list string :=
  match l with [] => [p] | q :: r => if sle p q then p :: l else q :: insert p r end.
Definition sorted (l : list string) : list string := fold_right insert [] l.

(** ** The page that lists the files *)
(** A start tag: its name and its attributes; an attribute may have no value. *)
Definition tag : Type := (string * list (string * option string))%type.
(** [MyHTMLParser.handle_starttag] 28-50; the attribute [filenames] is made by the first tag. *)
Definition handle (names : option (list string)) (t : tag) : res (option (list string)) :=
  let sofar := match names with Some l => l | None => [] end in
  if String.eqb (fst t) "a" then
    match snd t with
    | [] => Raise IndexError
    | (name, value) :: _ =>
        if String.eqb name "href" then
          match value with
          | None => Raise AttributeError
          | Some f => Ok (Some (if endswith ".h5" f then sofar ++ [f] else sofar))
          end
        else Ok (Some sofar)
    end
  else Ok (Some sofar).
Fixpoint feed (names : option (list string)) (ts : list tag) : res (option (list string)) :=
  match ts with [] => Ok names | t :: r => bind (handle names t) (fun n => feed n r) end.
(** [parser.filenames] after [feed] (85-89). *)
Definition page_names (ts : list tag) : res (list string) :=
  bind (feed None ts) (fun n => match n with Some l => Ok l | None => Raise AttributeError end).

(** ** The disk *)
Record disk := mkDisk { dirs : list string; stored : list (string * string) }.
Definition read (d : disk) (p : string) : option string :=
  match find (fun e => String.eqb (fst e) p) (stored d) with Some e => Some (snd e) | None => None end.
Definition isdir (d : disk) (p : string) : bool := existsb (String.eqb p) (dirs d).
Definition mkdir (d : disk) (p : string) : disk * res unit :=
  if isdir d (parent p) then (mkDisk (p :: dirs d) (stored d), Ok tt) else (d, Raise RuntimeError).
Fixpoint put (l : list (string * string)) (p c : string) : list (string * string) :=
  match l with [] => [(p, c)] | e :: r => if String.eqb (fst e) p then (p, c) :: r else e :: put r p c end.
(** [open(p, "wb")] and [write]. *)
Definition write (d : disk) (p c : string) : disk * res unit :=
  if isdir d (parent p) then (mkDisk (dirs d) (put (stored d) p c), Ok tt) else (d, Raise RuntimeError).

(** ** rs_download_sky 53-98 *)
(** What [requests.get] gives for an address: nothing (it raises) or a status and a body. *)
Definition server : Type := string -> option (Z * string).
(** The loop 91-98. *)
Fixpoint each (force : bool) (url_base dest : string) (srv : server) (fs : list string) (d : disk) : disk * res unit :=
  match fs with
  | [] => (d, Ok tt)
  | f :: r =>
      let p := join dest f in
      if negb (match read d p with Some _ => true | None => false end) || force then
        match srv (url_base ++ f)%string with
        | None => (d, Raise RuntimeError)
        | Some (_, content) =>
            match write d p content with
            | (d', Ok _) => each force url_base dest srv r d'
            | (d', Raise e) => (d', Raise e)
            end
        end
      else each force url_base dest srv r d
  end.
Definition ensure (d : disk) (p : string) : disk * res unit := if isdir d p then (d, Ok tt) else mkdir d p.
Definition destination (data_dir : string) : string := join data_dir "skybrightness_pre".
Definition download (tags : string -> list tag) (force : bool) (url_base data_dir : string) (srv : server) (d : disk) : disk * res unit :=
  match ensure d data_dir with
  | (d1, Raise e) => (d1, Raise e)
  | (d1, Ok _) =>
      match ensure d1 (destination data_dir) with
      | (d2, Raise e) => (d2, Raise e)
      | (d2, Ok _) =>
          match srv url_base with
          | None => (d2, Raise RuntimeError)
          | Some (_, body) =>
              match page_names (tags body) with
              | Raise e => (d2, Raise e)
              | Ok names => each force url_base (destination data_dir) srv names d2
              end
          end
      end
  end.

(** ** SkyModelPreWithLocalFilesOnly *)
(** [_init_files] 475-477; [glob] leaves out names that begin with a dot. *)
Definition hidden (s : string) : bool := match s with String "." _ => true | _ => false end.
Definition sky_files (dest : string) (d : disk) : list string :=
  sorted (filter (fun p => String.eqb (join dest (base p)) p && endswith ".h5" (base p) && negb (hidden (base p))) (map fst (stored d))).
(** [.replace(".h5", "")] and [.split("_")]. *)
Fixpoint without (s : string) : string :=
  match s with
  | EmptyString => EmptyString
  | String c r => match s with String "." (String "h" (String "5" t)) => without t | _ => String c (without r) end
  end.
Fixpoint split (c : ascii) (s : string) : list string :=
  match s with
  | EmptyString => [EmptyString]
  | String a r => if Ascii.eqb a c then EmptyString :: split c r else match split c r with h :: t => String a h :: t | [] => [String a EmptyString] end
  end.
(** [float] of digits with at most one point; signs, exponents, "inf" and "nan" are not
    modelled. *)
Definition digit (c : ascii) : option Z :=
  let n := Z.of_nat (nat_of_ascii c) in if (48 <=? n)%Z && (n <=? 57)%Z then Some (n - 48)%Z else None.
Fixpoint digits (acc : Z) (s : string) : option Z :=
  match s with EmptyString => Some acc | String c r => match digit c with Some k => digits (10 * acc + k)%Z r | None => None end end.
Definition to_float (s : string) : res Q :=
  match split "." s with
  | [w] => match w, digits 0 w with String _ _, Some n => Ok (inject_Z n) | _, _ => Raise ValueError end
  | [w; f] =>
      match digits 0 w, digits 0 f with
      | Some n, Some k => if String.eqb (w ++ f)%string "" then Raise ValueError else Ok (inject_Z n + inject_Z k / inject_Z (10 ^ Z.of_nat (String.length f)))%Q
      | _, _ => Raise ValueError
      end
  | _ => Raise ValueError
  end.
(** [_init_file_mjd_ranges] 482-491. *)
Definition mjd_range (p : string) : res (Q * Q) :=
  let temp := split "_" (without (base p)) in
  bind (match nth_error temp 0 with Some s => to_float s | None => Raise IndexError end) (fun l =>
  bind (match nth_error temp 1 with Some s => to_float s | None => Raise IndexError end) (fun r => Ok (l, r))).
Fixpoint ranges (ps : list string) : res (list (string * (Q * Q))) :=
  match ps with [] => Ok [] | p :: r => bind (mjd_range p) (fun lr => bind (ranges r) (fun t => Ok ((p, lr) :: t))) end.
(** [_best_matching_file] 213-227: the last one that covers the time. *)
Definition best (t : Q) (l : list (string * (Q * Q))) : res string :=
  match rev (filter (fun e => Qle_bool (fst (snd e)) t && Qle_bool t (snd (snd e))) l) with
  | [] => Raise ValueError
  | e :: _ => Ok (fst e)
  end.
(** The file a new model of this directory loads from for a time (150-170, 229). *)
Definition file_for (dest : string) (d : disk) (t : Q) : res string := bind (ranges (sky_files dest d)) (best t).
