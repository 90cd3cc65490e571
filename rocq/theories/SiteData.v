(** Model of the site records looked up by time.
    /repo/rubin_scheduler/site_models/{seeing_data,cloud_data,cloud_maps}.py.
    Times are exact seconds (days for cloud maps); the conversion of dates to
    seconds since 1 January by astropy is outside the model. *)
From Coq Require Import List ZArith QArith Qround Qabs Bool Lia Lqa.
From Verif Require Import Base IntRounded Bisect Script.
Import ListNotations.
Open Scope nat_scope.

(** A row of a record: date (s) and value. *)
Notation row := (Q * Q)%type (only parsing).

(** [array[i]] for an integer [i]: negative indices count from the end. *)
Definition py_get {A} (l : list A) (i : Z) : res A :=
  match nth_error l (Z.to_nat (if (i <? 0)%Z then i + Z.of_nat (length l) else i)%Z) with
  | Some x => if (i <? - Z.of_nat (length l))%Z then Raise IndexError else Ok x
  | None => Raise IndexError
  end.

(** [argsort] of the dates and taking dates and values in that order
    (seeing_data.py 116-118, cloud_data.py 124-125, 135). *)
Fixpoint r_insert (x : row) (l : list row) : list row :=
  match l with [] => [x] | y :: r => if Qle_bool (fst x) (fst y) then x :: l else y :: r_insert x r end.
Fixpoint r_sort (l : list row) : list row :=
  match l with [] => [] | x :: r => r_insert x (r_sort r) end.

(** Lines seeing_data 73-86 and cloud_data 79-95 for one time: the position by
    bisection, one to the left when that date is closer. *)
Definition closer_of (dates vals : list Q) (db : Q) : res Q :=
  let idx := Z.of_nat (searchsorted (fun d => Qltb d db) 0%Q dates) in
  bind (py_get dates (idx - 1)) (fun left =>
  bind (py_get dates idx) (fun right =>
  py_get vals (if Qltb (db - left) (right - db) then idx - 1 else idx))).

(** First and last date (seeing_data 119-120, cloud_data 127-128). *)
Definition first_date (l : list row) : Q := match l with [] => 0%Q | x :: _ => fst x end.
Definition last_date (l : list row) : Q := fst (last l (0, 0)%Q).

(** [SeeingData.__call__] (seeing_data.py 53-86) on the table read from the
    file, [delta] seconds after the start of the record.  With one date the
    time range is zero, the remainder nan, which bisection puts past the end. *)
Definition seeing_at (table : list row) (delta : Q) : res Q :=
  let l := r_sort table in
  match l with
  | [] => Raise IndexError
  | _ :: _ =>
      let range := (last_date l - first_date l)%Q in
      if Qeq_bool range 0 then Raise IndexError
      else closer_of (map fst l) (map snd l) (Qmod delta range + first_date l)
  end.

(** Seconds in a year of 365.25 days (cloud_data.py 131). *)
Definition year_s : Q := 31557600.

(** [CloudData.time_range] (cloud_data.py 132): whole years in the record. *)
Definition cloud_range (l : list row) : Q :=
  (inject_Z (Qfloor ((last_date l - first_date l) / year_s)) * year_s)%Q.

(** Scaling and rounding to whole numbers (cloud_data.py 77-78, 133-134). *)
Definition scaled (scale : option Q) (x : Q) : Q :=
  match scale with None => x | Some s => inject_Z (Qround_even (x * s)) end.

(** [CloudData.__call__] (cloud_data.py 58-95).  A record shorter than a year
    has range zero: the remainder is nan and what its cast to a whole number
    gives depends on the machine; that case is not modelled (RuntimeError). *)
Definition cloud_at (scale : option Q) (table : list row) (delta : Q) : res Q :=
  let l := r_sort table in
  match l with
  | [] => Raise IndexError
  | _ :: _ =>
      if Qeq_bool (cloud_range l) 0 then Raise RuntimeError
      else closer_of (map (fun r => scaled scale (fst r)) l) (map snd l) (scaled scale (Qmod delta (cloud_range l)))
  end.

(** ** CloudMap *)
Section Maps.
Context {M : Type}.
(** Frames kept: time (days) and map; the maps for uncertainty are kept and
    dropped together with them. *)
Notation frame := (Q * M)%type (only parsing).

(** Python's [<=] on two lists of numbers: the first place where they differ
    decides, then the lengths. *)
Fixpoint list_leb (a b : list Q) : bool :=
  match a, b with
  | [], _ => true
  | _ :: _, [] => false
  | x :: a', y :: b' => if Qeq_bool x y then list_leb a' b' else Qle_bool x y
  end.

(** [while len(self.mjds) > self.max_frames: del ...[0]] (cloud_maps.py 73-76). *)
Fixpoint trim (max : nat) (l : list frame) : list frame :=
  match l with
  | [] => []
  | _ :: r => if max <? length l then trim max r else l
  end.

(** [add_frame] (cloud_maps.py 30-76): what is kept afterwards and whether it
    raises.  Line 66 compares two lists, not arrays; when it finds them out of
    order, line 68 indexes a list by an array, a TypeError, with the frame
    already appended.  Reordering and resampling of the map are not modelled. *)
Definition add_frame (max : nat) (l : list frame) (f : frame) : list frame * res unit :=
  let l' := l ++ [f] in
  let mjds := map fst l' in
  if list_leb (removelast mjds) (tl mjds) then (trim max l', Ok tt) else (l', Raise TypeError).

(** Adding several frames, stopping at the first exception. *)
Fixpoint add_all (max : nat) (l : list frame) (fs : list frame) : list frame * res unit :=
  match fs with
  | [] => (l, Ok tt)
  | f :: r => match add_frame max l f with
              | (l', Ok tt) => add_all max l' r
              | (l', Raise e) => (l', Raise e)
              end
  end.

(** [np.min]. *)
Fixpoint np_min (x : Q) (l : list Q) : Q :=
  match l with [] => x | y :: r => let m := np_min y r in if Qle_bool x m then x else m end.

(** [extinction_closest] (cloud_maps.py 78-113) without pixels picked out:
    [None] is the zero returned when no frame is close enough. *)
Definition extinction_closest (limit : Q) (l : list frame) (t : Q) : res (option M) :=
  match map (fun f => Qabs (fst f - t)) l with
  | [] => Raise ValueError
  | d :: ds =>
      let m := np_min d ds in
      if Qltb limit m then Ok None
      else match np_where (fun x => Qeq_bool x m) (d :: ds) with
           | [] => Raise ValueError
           | i :: _ => match nth_error l i with Some f => Ok (Some (snd f)) | None => Raise IndexError end
           end
  end.
End Maps.
