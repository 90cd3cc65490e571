(** Model of the labelling detailers.
    /repo/rubin_scheduler/scheduler/detailers/detailer.py: LabelRegionDetailer (1049-1108),
    LabelDDFDetailer (1111-1171), LabelRegionsAndDDFs (1174-1230), CopyValueDetailer (1233-1252).
    A Python set is a list without repetitions, iterated in an order [ord] that is an input
    (string hashes differ between processes).  The labels under a pointing and the DDFs near it
    are inputs.  The label column holds 60 characters.  CopyValueDetailer and the
    constructors are not modelled. *)
From Coq Require Import List Bool String Ascii Arith.
From Verif Require Import Base.
Import ListNotations.
Local Open Scope string_scope.
Open Scope list_scope.
Open Scope nat_scope.

(** str.split(sep), for a non-empty separator: [skip] characters of the separator are still to be
    passed over, [acc] is the piece so far. *)
Fixpoint split_go (sep s : string) (skip : nat) (acc : string) : list string :=
  match s with
  | EmptyString => [acc]
  | String c r =>
      match skip with
      | S k => split_go sep r k acc
      | O => if prefix sep s then acc :: split_go sep r (String.length sep - 1) ""
             else split_go sep r 0 (acc ++ String c "")%string
      end
  end.
Definition py_split (sep s : string) : list string := split_go sep s 0 "".
Definition kept (x : string) : bool := negb (String.eqb x "" || String.eqb x "None").
Definition width : nat := 60.

(** The set of new values and the column after it, lines 1101-1107 and 1160-1167. *)
Definition new_values (sep : string) (append : bool) (old : string) (labels : list string) : list string :=
  filter kept (nodup string_dec ((if append then py_split sep old else []) ++ labels)).
Definition relabel (ord : list string -> list string) (sep : string) (append : bool) (old : string) (labels : list string) : string :=
  substring 0 width (String.concat sep (ord (new_values sep append old labels))).

(** LabelRegionDetailer.__call__, lines 1090-1108: [under] the labels of the pixels of the
    pointing, "" for pixels without one. *)
Definition region_labels (under : list string) : list string :=
  match filter (fun x => negb (String.eqb x "")) under with
  | [] => ["OOF"]
  | l => nodup string_dec l
  end.
Record lrow := mkL { l_id : nat; l_label : string; l_under : list string; l_near : list string }.
Definition label_region ord sep append (l : list lrow) : list lrow :=
  map (fun r => mkL (l_id r) (relabel ord sep append (l_label r) (region_labels (l_under r))) (l_under r) (l_near r)) l.

(** LabelDDFDetailer.__call__, lines 1149-1171: [l_near] the names (with ddf_) of the DDFs within
    the radius, in the order of the dictionary. *)
Definition label_ddf ord sep append (l : list lrow) : list lrow :=
  map (fun r => mkL (l_id r) (fold_left (fun old n => relabel ord sep append old [n]) (l_near r) (l_label r)) (l_under r) (l_near r)) l.
(** LabelRegionsAndDDFs.__call__, lines 1226-1230. *)
Definition label_both ord sep (l : list lrow) : list lrow := label_ddf ord sep true (label_region ord sep true l).
