(** Model of the map from the name of a spectrum to its path.
    /repo/rubin_scheduler/utils/file_maps.py 7-83 and the map 86-127.  [re.match] of a
    pattern given by the user is an arbitrary function; the five patterns of the class are
    written out.  A dictionary is a list of entries with distinct keys; the dictionaries the
    caller made and those of the maps are numbered. *)
From Coq Require Import List ZArith Bool String Ascii.
From Verif Require Import Base.
From Verif Require SkyFiles.
Import ListNotations.
Open Scope string_scope.
Open Scope list_scope.
Open Scope nat_scope.

Definition dict : Type := list (string * string).
Definition dget (d : dict) (k : string) : option string := match find (fun kv => String.eqb (fst kv) k) d with Some kv => Some (snd kv) | None => None end.
Fixpoint dset (d : dict) (k v : string) : dict :=
  match d with [] => [(k, v)] | kv :: r => if String.eqb (fst kv) k then (k, v) :: r else kv :: dset r k v end.

(** [str.strip]: blanks (of the first 256 codes) at both ends. *)
Definition blank (c : ascii) : bool :=
  let n := N_of_ascii c in ((9 <=? n) && (n <=? 13) || (28 <=? n) && (n <=? 32) || (n =? 133) || (n =? 160))%N.
Fixpoint lstrip (s : string) : string := match s with EmptyString => EmptyString | String c r => if blank c then lstrip r else s end.
Fixpoint rstrip (s : string) : string :=
  match s with EmptyString => EmptyString | String c r => match rstrip r with EmptyString => if blank c then EmptyString else String c EmptyString | t => String c t end end.
Definition strip (s : string) : string := rstrip (lstrip s).

(** [os.path.join] of two parts. *)
Definition pjoin (d f : string) : string :=
  match f with
  | String "/" _ => f
  | _ => if String.eqb d "" || SkyFiles.endswith "/" d then (d ++ f)%string else (d ++ "/" ++ f)%string
  end.
(** 61, 66. *)
Definition full_name (item : string) : string := if SkyFiles.endswith ".gz" item then item else (item ++ ".gz")%string.

Definition isdigit (c : ascii) : bool := let n := N_of_ascii c in ((48 <=? n) && (n <=? 57))%N.
(** The five patterns of the class (8-14), each with its directory. *)
Definition old_mlt (s : string) : bool :=
  prefix "burrows" s || match s with String c (String d _) => (Ascii.eqb c "m" || Ascii.eqb c "L" || Ascii.eqb c "l") && isdigit d | _ => false end.
Definition subdir_map : list (string * ((string -> bool) * string)) :=
  [("(^km)|(^kp)", (fun s => prefix "km" s || prefix "kp" s, "starSED/kurucz"));
   ("(^bergeron)", (fun s => prefix "bergeron" s, "starSED/wDs"));
   ("(^burrows)|(^(m|L|l)[0-9])", (old_mlt, "starSED/old_mlt"));
   ("(^lte)", (fun s => prefix "lte" s, "starSED/mlt"));
   ("^(Exp|Inst|Burst|Const)", (fun s => prefix "Exp" s || prefix "Inst" s || prefix "Burst" s || prefix "Const" s, "galaxySED"))].
(** The items in the order of their keys. *)
Fixpoint put_in {A} (kv : string * A) (l : list (string * A)) : list (string * A) :=
  match l with [] => [kv] | x :: r => if SkyFiles.sle (fst kv) (fst x) then kv :: l else x :: put_in kv r end.
Definition items {A} (l : list (string * A)) : list (string * A) := fold_right put_in [] l.

Section Lookup.
Variable rematch : string -> string -> bool.
(** [__getitem__] 54-69. *)
Definition get (files dirs : dict) (name : string) : res string :=
  let item := strip name in
  match dget files item with
  | Some p => Ok p
  | None =>
      match find (fun kv => rematch (fst kv) item) (items dirs) with
      | Some kv => Ok (pjoin (snd kv) (full_name item))
      | None =>
          match find (fun kv => fst (snd kv) item) (items subdir_map) with
          | Some kv => Ok (pjoin (snd (snd kv)) (full_name item))
          | None => Raise KeyError
          end
      end
  end.
(** [__contains__] 71-83. *)
Definition contains (files dirs : dict) (name : string) : bool := match get files dirs name with Ok _ => true | Raise _ => false end.
End Lookup.

(** The dictionaries there are, and a map: the places of its two. *)
Definition world : Type := list dict.
Definition spec_map : Type := (nat * nat)%type.
Definition at_ (w : world) (i : nat) : dict := nth i w [].
(** One half of [__init__] 41-49: a dictionary is kept itself unless it is empty. *)
Definition keep (w : world) (given : option nat) : world * nat :=
  match given with
  | Some i => match at_ w i with [] => (w ++ [[]], List.length w) | _ => (w, i) end
  | None => (w ++ [[]], List.length w)
  end.
Definition new_map (w : world) (files dirs : option nat) : world * spec_map :=
  let '(w1, i) := keep w files in let '(w2, j) := keep w1 dirs in (w2, (i, j)).
Fixpoint upd (w : world) (i : nat) (f : dict -> dict) : world :=
  match w, i with [], _ => [] | d :: r, 0 => f d :: r | d :: r, S j => d :: upd r j f end.
(** [__setitem__] 51-52. *)
Definition set_item (w : world) (m : spec_map) (k v : string) : world := upd w (fst m) (fun d => dset d k v).
Definition look rematch (w : world) (m : spec_map) (name : string) : res string := get rematch (at_ w (fst m)) (at_ w (snd m)) name.

(** [default_spec_map] 86-127. *)
Definition ssm (n : string) : string * string := (n, ("ssmSED/" ++ n ++ ".gz")%string).
Definition gizis (n : string) : string * string := ((n ++ ".dat")%string, ("starSED/gizis_SED/" ++ n ++ "_interp.dat.gz")%string).
Definition default_files : dict :=
  map ssm ["A.dat"; "Sa.dat"; "O.dat"; "harris_V.dat"; "Cg.dat"; "Sv.dat"; "X.dat"; "K.dat"; "L.dat"; "D.dat"; "Sq.dat"; "C.dat"; "T.dat"; "Xk.dat"; "R.dat"; "Ch.dat"; "kurucz_sun"; "Sr.dat"; "Cgh.dat"; "Cb.dat"; "Xc.dat"; "Xe.dat"; "Q.dat"; "S.dat"; "B.dat"; "V.dat"]
  ++ [("agn.spec", "agnSED/agn.spec.gz")]
  ++ map gizis ["BD1000"; "BD1000e"; "BD1500"; "BD1800"; "BD2000"; "BD325"; "BD555"; "PNastrom"; "RedE1astrom"; "RedE2astrom"]
  ++ [("sed_flat.txt", "flatSED/sed_flat.txt.gz"); ("sed_flat_norm.txt", "flatSED/sed_flat.txt.gz")].
