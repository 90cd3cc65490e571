(** Arrays of observations: /repo/rubin_scheduler/scheduler/utils/observation_array.py lines 12-300.
    A structured array is a list of rows, a row the values of its fields by name.  Floats are an
    abstract type [F] with its zero; storing a text keeps as many characters as the field has
    (numpy "U10"), integers are not bounded.  Views of other numpy functions (lines 184-197 for
    functions not in HANDLED_FUNCTIONS) are not modelled. *)
From Coq Require Import List Bool ZArith String Ascii Arith.
From Verif Require Import Base.
Import ListNotations.
Open Scope string_scope.

Inductive ty := TInt | TFloat | TStr (width : nat) | TBool.
Section Arrays.
Variable F : Type.
Variable f0 : F.
Inductive val := VInt (z : Z) | VFloat (x : F) | VStr (s : string) | VBool (b : bool).
(** np.zeros *)
Definition zero (t : ty) : val :=
  match t with TInt => VInt 0 | TFloat => VFloat f0 | TStr _ => VStr "" | TBool => VBool false end.
(** Storing a value of the same kind. *)
Definition cast (t : ty) (v : val) : res val :=
  match t, v with
  | TInt, VInt z => Ok (VInt z) | TFloat, VFloat x => Ok (VFloat x) | TBool, VBool b => Ok (VBool b)
  | TStr w, VStr s => Ok (VStr (substring 0 w s))
  | _, _ => Raise ValueError
  end.
Definition schema := list (string * ty).
Definition row := list (string * val).
Definition get (r : row) (key : string) : option val :=
  match find (fun kv => String.eqb (fst kv) key) r with Some kv => Some (snd kv) | None => None end.
(** Storing under a name: a field is there once, with its type from the schema. *)
Fixpoint put (s : schema) (r : row) (key : string) (v : val) : res row :=
  match s, r with
  | (k, t) :: s, kv :: r => if String.eqb k key then bind (cast t v) (fun v => Ok ((k, v) :: r)) else bind (put s r key v) (fun r => Ok (kv :: r))
  | _, _ => Raise ValueError
  end.
Definition blank (s : schema) : row := map (fun kt => (fst kt, zero (snd kt))) s.

(** ObservationArray.__new__, lines 118-172. *)
Definition observation : schema :=
  [("ID", TInt); ("RA", TFloat); ("dec", TFloat); ("mjd", TFloat); ("flush_by_mjd", TFloat); ("exptime", TFloat); ("band", TStr 10); ("filter", TStr 10);
   ("rotSkyPos", TFloat); ("rotSkyPos_desired", TFloat); ("nexp", TInt); ("airmass", TFloat); ("FWHM_500", TFloat); ("FWHMeff", TFloat); ("FWHM_geometric", TFloat);
   ("skybrightness", TFloat); ("night", TInt); ("slewtime", TFloat); ("visittime", TFloat); ("slewdist", TFloat); ("fivesigmadepth", TFloat); ("alt", TFloat); ("az", TFloat);
   ("pa", TFloat); ("pseudo_pa", TFloat); ("clouds", TFloat); ("moonAlt", TFloat); ("sunAlt", TFloat); ("scheduler_note", TStr 60); ("target_name", TStr 60); ("target_id", TInt);
   ("lmst", TFloat); ("rotTelPos", TFloat); ("rotTelPos_backup", TFloat); ("moonAz", TFloat); ("sunAz", TFloat); ("sunRA", TFloat); ("sunDec", TFloat); ("moonRA", TFloat);
   ("moonDec", TFloat); ("moonDist", TFloat); ("solarElong", TFloat); ("moonPhase", TFloat); ("cummTelAz", TFloat); ("observation_reason", TStr 60); ("science_program", TStr 60);
   ("cloud_extinction", TFloat); ("note", TStr 60)].
(** ScheduledObservationArray.__new__, lines 253-289. *)
Definition scheduled : schema :=
  [("ID", TInt); ("RA", TFloat); ("dec", TFloat); ("mjd", TFloat); ("flush_by_mjd", TFloat); ("exptime", TFloat); ("band", TStr 1); ("filter", TStr 40);
   ("rotSkyPos", TFloat); ("rotTelPos", TFloat); ("rotTelPos_backup", TFloat); ("rotSkyPos_desired", TFloat); ("nexp", TInt); ("scheduler_note", TStr 60);
   ("target_name", TStr 60); ("science_program", TStr 60); ("observation_reason", TStr 60);
   ("mjd_tol", TFloat); ("dist_tol", TFloat); ("alt_min", TFloat); ("alt_max", TFloat); ("HA_max", TFloat); ("HA_min", TFloat); ("sun_alt_max", TFloat);
   ("moon_min_distance", TFloat); ("observed", TBool)].
(** An array knows its class. *)
Record array := Array { cls : schema; rows : list row }.
Definition new (s : schema) (n : nat) : array := Array s (repeat (blank s) n).

Fixpoint collect {A B} (f : A -> res B) (l : list A) : res (list B) :=
  match l with [] => Ok [] | x :: l => bind (f x) (fun y => bind (collect f l) (fun ys => Ok (y :: ys))) end.

(** tolist, lines 174-182: arrays of one row.  The row is stored field by field. *)
Fixpoint store (s : schema) (r : row) : res row :=
  match s, r with
  | [], [] => Ok []
  | (k, t) :: s, (_, v) :: r => bind (cast t v) (fun v => bind (store s r) (fun r => Ok ((k, v) :: r)))
  | _, _ => Raise ValueError
  end.
Definition tolist (a : array) : res (list array) := collect (fun r => bind (store (cls a) r) (fun r => Ok (Array (cls a) [r]))) (rows a).
(** concatenate, lines 209-212; arrays of other fields cannot be joined. *)
Definition ty_eqb (t u : ty) : bool := match t, u with TInt, TInt | TFloat, TFloat | TBool, TBool => true | TStr w, TStr x => Nat.eqb w x | _, _ => false end.
Fixpoint schema_eqb (s u : schema) : bool :=
  match s, u with [], [] => true | (k, t) :: s, (l, v) :: u => String.eqb k l && ty_eqb t v && schema_eqb s u | _, _ => false end.
Definition concatenate (arrays : list array) : res array :=
  match arrays with
  | [] => Raise IndexError
  | a :: _ => if forallb (fun b => schema_eqb (cls a) (cls b)) arrays then Ok (Array (cls a) (List.concat (map rows arrays))) else Raise TypeError
  end.

(** np.intersect1d of the names, line 296: those of both, sorted. *)
Fixpoint insert (x : string) (l : list string) : list string :=
  match l with [] => [x] | y :: l => if String.ltb x y then x :: y :: l else if String.eqb x y then y :: l else y :: insert x l end.
Definition intersect1d (l m : list string) : list string := fold_right insert [] (filter (fun x => existsb (String.eqb x) m) l).
(** to_observation_array, lines 291-300. *)
Fixpoint copy_keys (keys : list string) (from to : row) : res row :=
  match keys with
  | [] => Ok to
  | key :: keys => match get from key with None => Raise ValueError | Some v => bind (put observation to key v) (copy_keys keys from) end
  end.
Definition to_observation_array (a : array) : res array :=
  let in_common := intersect1d (map fst (cls a)) (map fst observation) in
  bind (collect (fun r => copy_keys in_common r (blank observation)) (rows a)) (fun rs => Ok (Array observation rs)).

(** np.char.rstrip(., chars="_0123456789") *)
Definition stripped (c : ascii) : bool := existsb (Ascii.eqb c) (list_ascii_of_string "_0123456789").
Fixpoint rstrip (s : string) : string :=
  match s with
  | "" => ""
  | String c s => match rstrip s with "" => if stripped c then "" else String c "" | t => String c t end
  end.
(** backfill_filter_from_band, lines 12-40. *)
Definition backfill_row (s : schema) (r : row) : res row :=
  match get r "band", get r "filter" with
  | Some (VStr band), Some (VStr fil) => if String.eqb band "" then put s r "band" (VStr (rstrip fil)) else Ok r
  | _, _ => Raise ValueError
  end.
Definition backfill_filter_from_band (a : array) : res array :=
  bind (collect (backfill_row (cls a)) (rows a)) (fun rs => Ok (Array (cls a) rs)).
End Arrays.
