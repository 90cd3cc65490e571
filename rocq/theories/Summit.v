(** Model of the look-ahead wrapper used on the summit.
    /repo/rubin_scheduler/scheduler/schedulers/summit_wrapper.py. *)
From Coq Require Import List ZArith QArith Bool String Lia.
From Verif Require Import Base IntRounded Obs Queue Core Bisect.
Import ListNotations.
Open Scope nat_scope.

(** Wrapper state, lines 22-49.  [sw_cond] is the conditions object held by the
    wrapper; after an update both schedulers hold the same object. *)
Record sw (W X : Type) : Type := mkSw {
  sw_core : core W X;
  sw_ahead : core W X;
  sw_ids : list Z;       (* requested_but_unadded_ids *)
  sw_obs : list obs;     (* requested_but_unadded_obs *)
  sw_need : bool;        (* need_replay *)
  sw_cond : option (cond X) }.
Arguments mkSw {W X}. Arguments sw_core {W X}. Arguments sw_ahead {W X}. Arguments sw_ids {W X}.
Arguments sw_obs {W X}. Arguments sw_need {W X}. Arguments sw_cond {W X}.

Section Summit.
Context {W X : Type}.
Variable B : behav W X.
Variable shape : list nat.
Variable b2f : list (string * string).
Variable too_flush : bool.
(** [_fill_obs_values], lines 97-117: values of the conditions written into the
    visit.  Arbitrary here; missing bands (KeyError) are not modelled. *)
Variable fill : cond X -> obs -> obs.

(** [clear_ahead], lines 35-49: [copy.deepcopy] of the core scheduler. *)
Definition clear_ahead (s : sw W X) : sw W X :=
  mkSw (sw_core s) (sw_core s) [] [] false (sw_cond s).
Definition sw_init (c : core W X) : sw W X := mkSw c c [] [] false None.

(** [flush_queue], lines 51-53. *)
Definition sw_flush (s : sw W X) : sw W X :=
  clear_ahead (mkSw (flush_queue (sw_core s)) (sw_ahead s) (sw_ids s) (sw_obs s) (sw_need s) (sw_cond s)).

(** [add_observation], lines 55-73, for one visit.  [indx.size] is always 1. *)
Definition sw_add (s : sw W X) (o : obs) : sw W X :=
  let indx := searchsorted (fun i => Z.leb i (o_tid o)) 0%Z (sw_ids s) in
  mkSw (add_obs B shape (sw_core s) o) (sw_ahead s) (skipn indx (sw_ids s)) (skipn indx (sw_obs s)) true (sw_cond s).

Definition set_cond (s : core W X) (c : option (cond X)) : core W X :=
  mkCore (c_w s) (c_q s) (c_ctr s) (c_seen s) (c_sidx s) c (c_issued s) (c_reported s).

(** [update_conditions], lines 91-95.  Both schedulers write their scheduled
    observations into the same object, the core scheduler last. *)
Definition sw_update (s : sw W X) (c : cond X) : sw W X :=
  let a := update_conditions B shape too_flush (sw_ahead s) c in
  let c1 := match c_cond a with Some c1 => c1 | None => c end in
  let k := update_conditions B shape too_flush (sw_core s) c1 in
  mkSw k (set_cond a (c_cond k)) (sw_ids s) (sw_obs s) (sw_need s) (c_cond k).

(** The replay, lines 129-140: the copy of the core scheduler gets the pending
    visits and then the current conditions (an AttributeError when there are none).
    The warning about visits from the future is not modelled. *)
Definition sw_replay (s : sw W X) : sw W X * bool :=
  if sw_need s then
    let a := fold_left (add_obs B shape) (sw_obs s) (sw_core s) in
    match sw_cond s with
    | None => (mkSw (sw_core s) a (sw_ids s) (sw_obs s) false None, false)
    | Some c =>
        let a1 := update_conditions B shape too_flush a c in
        (mkSw (set_cond (sw_core s) (c_cond a1)) a1 (sw_ids s) (sw_obs s) false (c_cond a1), true)
    end
  else (s, true).

(** [request_observation], lines 119-164.  A None from the ahead scheduler fails at
    [.copy()], with an empty queue (line 150) or not (line 155).  The detailers of the
    queue manager return one visit for one visit, so the result is one visit. *)
Definition sw_request (s : sw W X) (mjd : option Q) : sw W X * out :=
  match mjd, sw_cond s with
  | None, None => (s, OutRaise AttributeError)
  | _, _ =>
      let '(s1, ok) := sw_replay s in
      if negb ok then (s1, OutRaise AttributeError)
      else
        let had := q_active (c_q (sw_ahead s1)) in
        let '(a, r) := request B shape b2f (sw_ahead s1) mjd false in
        match r with
        | OutObs (o :: _) =>
            let k := match had with
                     | [] => upd_q (sw_core s1) (q_append (q_append (c_q (sw_core s1)) [o]) (q_active (c_q a)))
                     | _ => sw_core s1
                     end in
            match sw_cond s1 with
            | None => (mkSw k a (sw_ids s1) (sw_obs s1) (sw_need s1) (sw_cond s1), OutRaise AttributeError)
            | Some c =>
                let f := fill c o in
                (mkSw k (add_obs B shape a f) (sw_ids s1 ++ [o_tid f]) (sw_obs s1 ++ [f]) (sw_need s1) (sw_cond s1), OutObs [o])
            end
        | OutRaise e => (mkSw (sw_core s1) a (sw_ids s1) (sw_obs s1) (sw_need s1) (sw_cond s1), OutRaise e)
        | _ => (mkSw (sw_core s1) a (sw_ids s1) (sw_obs s1) (sw_need s1) (sw_cond s1), OutRaise AttributeError)
        end
  end.

(** [_check_queue_mjd_only], lines 75-89: [<] on the rounded times, against a
    flush time of zero meaning never. *)
Definition sw_check (s : sw W X) (mjd : Q) : res bool :=
  if Nat.eqb (q_count (c_q (sw_ahead s))) 0 then Ok false
  else
    let fb := map o_flush (q_active (c_q (sw_ahead s))) in
    bind (ir_lt [mjd] fb) (fun lt =>
    Ok (negb (Nat.eqb (List.length (np_where (fun b => b) lt)) 0) ||
        negb (Nat.eqb (List.length (np_where (fun f => Qeq_bool f 0) fb)) 0))).

Inductive wop : Type := WUpdate (c : cond X) | WRequest (mjd : option Q) | WReport (o : obs) | WFlush.
Definition wstep (s : sw W X) (o : wop) : sw W X * out :=
  match o with
  | WUpdate c => (sw_update s c, OutUnit)
  | WRequest m => sw_request s m
  | WReport o => (sw_add s o, OutUnit)
  | WFlush => (sw_flush s, OutUnit)
  end.
Fixpoint wrun (s : sw W X) (ops : list wop) : sw W X * list out :=
  match ops with
  | [] => (s, [])
  | o :: r => let '(s1, x) := wstep s o in let '(s2, xs) := wrun s1 r in (s2, x :: xs)
  end.
End Summit.
