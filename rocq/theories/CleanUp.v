(** Model of sims_clean_up, /repo/rubin_scheduler/utils/code_utilities.py lines 9-53.
    Simplifications: an object is a name with what its close() does; close() touches no cache and leaves the object as it was, and
    no two entries of sims_clean_up.targets are the same cache.  Garbage collection is not modelled. *)
From Coq Require Import List Bool.
From Verif Require Import Base.
Import ListNotations.
Open Scope nat_scope.

(** No close attribute, a close() that returns, one that raises. *)
Inductive closing := NoClose | Closes | Fails (e : exn).
Section CleanUp.
Context {K O : Type}.
Variable close_of : O -> closing.

(** An entry of sims_clean_up.targets: a dict in its order of insertion, a list, or anything else. *)
Inductive target := TDict (d : list (K * O)) | TList (l : list O) | TOther (o : O).

Definition attr_error (e : exn) : bool := match e with AttributeError => true | _ => false end.
(** Lines 30-35 and 39-44: the objects in the order they are popped; the calls of close(), what is left, and an exception. *)
Fixpoint drain (popped : list O) : list O * list O * option exn :=
  match popped with
  | [] => ([], [], None)
  | o :: rest =>
      match close_of o with
      | NoClose => drain rest
      | Closes => let '(c, kept, e) := drain rest in (o :: c, kept, e)
      | Fails e => if attr_error e then let '(c, kept, e') := drain rest in (o :: c, kept, e') else ([o], rest, Some e)
      end
  end.
Fixpoint drain_dict (popped : list (K * O)) : list O * list (K * O) * option exn :=
  match popped with
  | [] => ([], [], None)
  | (k, o) :: rest =>
      match close_of o with
      | NoClose => drain_dict rest
      | Closes => let '(c, kept, e) := drain_dict rest in (o :: c, kept, e)
      | Fails e => if attr_error e then let '(c, kept, e') := drain_dict rest in (o :: c, kept, e') else ([o], rest, Some e)
      end
  end.
(** One target, lines 28-50; pop and popitem take the last. *)
Definition clean_one (t : target) : list O * target * option exn :=
  match t with
  | TDict d => let '(c, kept, e) := drain_dict (rev d) in (c, TDict (rev kept), e)
  | TList l => let '(c, kept, e) := drain (rev l) in (c, TList (rev kept), e)
  | TOther o => match close_of o with NoClose => ([], t, None) | Closes => ([o], t, None) | Fails e => ([o], t, Some e) end
  end.
(** The loop over the targets, line 27: the calls, the targets after, and an exception. *)
Fixpoint clean_up (ts : list target) : list O * list target * option exn :=
  match ts with
  | [] => ([], [], None)
  | t :: rest =>
      let '(c, t', e) := clean_one t in
      match e with
      | Some e => (c, t' :: rest, Some e)
      | None => let '(c2, rest', e2) := clean_up rest in (c ++ c2, t' :: rest', e2)
      end
  end.
End CleanUp.
Arguments target : clear implicits.
