(** Model of SharedNumpyArray.
    /repo/rubin_scheduler/utils/parallel_utils.py lines 8-42, over multiprocessing.shared_memory.
    Arrays are flat lists of integers (shape and dtype are kept by the object and not modelled).  A handle is the
    object in one process: the first in the process that made it, the others where it was sent by pickle, which opens
    the memory again by name.  A view is an array without memory of its own; it stays valid while its handle is open:
    numpy does not hold the memory, so close() succeeds, and using the view afterwards reads memory that is no longer
    mapped, [Crash].  POSIX systems only. *)
From Coq Require Import List Bool ZArith Arith.
From Verif Require Import Base.
Import ListNotations.

Inductive arr := Own (l : list Z) | View (h : nat).
Record mem := mkMem { m_cells : list Z; m_named : bool; m_open : list bool; m_arrs : list arr }.
Inductive op := Attach | Read (h : nat) | Copy (h : nat) | Put (j i : nat) (x : Z) | Unlink (h : nat).
Inductive out := Fine | NotFound | Crash | Bad.

Definition set_nth {A} (l : list A) (i : nat) (x : A) : list A := firstn i l ++ match skipn i l with [] => [] | _ :: r => x :: r end.

(** __init__, lines 21-30: memory of the size of the array (SharedMemory refuses size 0), and a copy into it.  The
    array of the caller is array 0. *)
Definition make (a : list Z) : res mem :=
  match a with [] => Raise ValueError | _ => Ok (mkMem a true [true] [Own a]) end.

Section Fresh.
(** What np.ndarray without buffer finds in the memory it is given, n cells. *)
Variable fresh : nat -> list Z.
Definition is_open (m : mem) (h : nat) : bool := nth h (m_open m) false.
(** read, lines 32-34: after close() the buffer is None, and np.ndarray takes memory of its own. *)
Definition read (m : mem) (h : nat) : arr := if is_open m h then View h else Own (fresh (List.length (m_cells m))).
(** What an array shows; None is a crash. *)
Definition show (m : mem) (a : arr) : option (list Z) :=
  match a with Own l => Some l | View h => if is_open m h then Some (m_cells m) else None end.
Definition push (m : mem) (a : arr) : mem := mkMem (m_cells m) (m_named m) (m_open m) (m_arrs m ++ [a]).
Definition step (m : mem) (o : op) : mem * out :=
  match o with
  | Attach => if m_named m then (mkMem (m_cells m) true (m_open m ++ [true]) (m_arrs m), Fine) else (m, NotFound)
  | Read h => if h <? List.length (m_open m) then (push m (read m h), Fine) else (m, Bad)
  | Copy h => (* lines 36-38 *)
      if h <? List.length (m_open m) then match show m (read m h) with Some l => (push m (Own l), Fine) | None => (m, Crash) end else (m, Bad)
  | Put j i x =>
      match nth_error (m_arrs m) j with
      | None => (m, Bad)
      | Some (Own l) => if i <? List.length l then (mkMem (m_cells m) (m_named m) (m_open m) (set_nth (m_arrs m) j (Own (set_nth l i x))), Fine) else (m, Bad)
      | Some (View h) => if i <? List.length (m_cells m) then if is_open m h then (mkMem (set_nth (m_cells m) i x) (m_named m) (m_open m) (m_arrs m), Fine) else (m, Crash) else (m, Bad)
      end
  | Unlink h => (* lines 40-43: close(), then unlink() *)
      if h <? List.length (m_open m) then
        let m' := mkMem (m_cells m) false (set_nth (m_open m) h false) (m_arrs m) in
        (m', if m_named m then Fine else NotFound)
      else (m, Bad)
  end.
Fixpoint run (m : mem) (ops : list op) : mem :=
  match ops with [] => m | o :: r => run (fst (step m o)) r end.
End Fresh.
