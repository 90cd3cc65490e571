(** Model of the core scheduler.
    /repo/rubin_scheduler/scheduler/schedulers/core_scheduler.py.

    The survey objects (and the basis functions and detailers of the queue
    manager) are arbitrary: they live in one opaque world state [W] and act on it
    through the functions of the record [behav].  A survey is addressed by its
    tier and its position in the tier.  [X] stands for all columns of the
    conditions the scheduler itself never reads. *)
From Coq Require Import List ZArith QArith Bool String Lia.
From Verif Require Import Base IntRounded Obs Queue.
Import ListNotations.
Open Scope nat_scope.

(** A target of opportunity as seen by [update_conditions]: its id and the value
    of [queue_should_flush(conditions)] (too_objects.py lines 68-99) for the
    conditions it arrives with. *)
Record too : Type := mkToo { t_id : Z; t_flush : bool }.

(** Conditions: the fields the core scheduler reads or writes.
    [targets_of_opportunity] None and [] behave alike (lines 255-256). *)
Record cond (X : Type) : Type := mkCond {
  cd_mjd : Q; cd_toos : list too; cd_sched : list Q; cd_ext : X }.
Arguments mkCond {X}. Arguments cd_mjd {X}. Arguments cd_toos {X}.
Arguments cd_sched {X}. Arguments cd_ext {X}.

(** What [generate_observations] may do: return an ObservationArray, return a
    plain Python list (several surveys return [] when infeasible), or raise. *)
Inductive genres : Type := GArr (l : list obs) | GPyList | GRaise (e : exn).

Record behav (W X : Type) : Type := mkBehav {
  sv_reward : W -> nat -> nat -> cond X -> W * list er;   (* calc_reward_function *)
  sv_gen : W -> nat -> nat -> cond X -> W * genres;       (* generate_observations *)
  sv_add : W -> nat -> nat -> obs -> list Z -> W;         (* add_observation(obs, indx) *)
  sv_add_arr : W -> nat -> nat -> list obs -> list (obs * Z) -> W; (* add_observations_array *)
  sv_upd : W -> nat -> nat -> cond X -> W;                (* update_conditions *)
  sv_sched : W -> nat -> nat -> option (list Q);          (* get_scheduled_obs *)
  qm_ok : W -> cond X -> obs -> bool;                     (* queue manager mask *)
  qm_det : W -> list obs -> cond X -> W * list obs;       (* queue manager detailers *)
  qm_add : W -> obs -> W;                                 (* bfs and detailers add_observation *)
  qm_add_arr : W -> list obs -> list (obs * Z) -> W;      (* ... add_observations_array *)
  fp_rot : obs -> list Z;    (* pointing2hpindx(RA, dec, rotSkyPos=...) *)
  fp_norot : obs -> list Z   (* pointing2hpindx(RA, dec) *)
}.
Arguments sv_reward {W X}. Arguments sv_gen {W X}. Arguments sv_add {W X}.
Arguments sv_add_arr {W X}. Arguments sv_upd {W X}. Arguments sv_sched {W X}.
Arguments qm_ok {W X}. Arguments qm_det {W X}. Arguments qm_add {W X}.
Arguments qm_add_arr {W X}. Arguments fp_rot {W X}. Arguments fp_norot {W X}.

(** Scheduler state (lines 78-134).  [c_issued] and [c_reported] are history
    variables of the model only: target ids stamped by refills, and target ids
    reported as observed, in order. *)
Record core (W X : Type) : Type := mkCore {
  c_w : W;
  c_q : queue;
  c_ctr : Z;                          (* target_id_counter *)
  c_seen : list Z;                    (* too_alert_ids_set *)
  c_sidx : option nat * option nat;   (* survey_index *)
  c_cond : option (cond X);           (* conditions; unset before the first update *)
  c_issued : list Z;
  c_reported : list Z }.
Arguments mkCore {W X}. Arguments c_w {W X}. Arguments c_q {W X}. Arguments c_ctr {W X}.
Arguments c_seen {W X}. Arguments c_sidx {W X}. Arguments c_cond {W X}.
Arguments c_issued {W X}. Arguments c_reported {W X}.

(** [np.nanmax] on a nonempty array: NaN when all entries are NaN. *)
Definition nanmax2 (acc x : er) : er :=
  if er_isnan acc then x
  else if er_isnan x then acc
  else if er_ltb acc x then x else acc.
Definition nanmax (l : list er) : er := fold_left nanmax2 l ENaN.

(** Insertion sort on rationals, standing for [np.sort] (line 299). *)
Fixpoint q_insert (x : Q) (l : list Q) : list Q :=
  match l with
  | [] => [x]
  | y :: r => if Qle_bool x y then x :: l else y :: q_insert x r
  end.
Fixpoint q_sort (l : list Q) : list Q :=
  match l with [] => [] | x :: r => q_insert x (q_sort r) end.

(** [obs.sort(order="mjd")] (line 178): sort by mjd.  numpy breaks ties by the
    remaining columns; the model keeps the input order on ties. *)
Fixpoint o_insert (x : obs) (l : list obs) : list obs :=
  match l with
  | [] => [x]
  | y :: r => if Qle_bool (o_mjd x) (o_mjd y) then x :: l else y :: o_insert x r
  end.
Fixpoint o_sort (l : list obs) : list obs :=
  match l with [] => [] | x :: r => o_insert x (o_sort r) end.

(** Tagging with target ids, line 439. *)
Fixpoint stamp (ctr : Z) (l : list obs) : list obs :=
  match l with [] => [] | o :: r => set_tid ctr o :: stamp (ctr + 1)%Z r end.

Fixpoint assoc (k : string) (l : list (string * string)) : option string :=
  match l with
  | [] => None
  | (a, b) :: r => if String.eqb a k then Some b else assoc k r
  end.

(** Filling missing filter names, lines 443-446; KeyError for an unknown band. *)
Fixpoint fill_filters (d : list (string * string)) (l : list obs) : res (list obs) :=
  match l with
  | [] => Ok []
  | o :: r =>
      if String.eqb (o_filter o) "" then
        match assoc (o_band o) d with
        | None => Raise KeyError
        | Some f => bind (fill_filters d r) (fun r' => Ok (set_filter f o :: r'))
        end
      else bind (fill_filters d r) (fun r' => Ok (o :: r'))
  end.
Definition band_to_filter (d : list (string * string)) (l : list obs) : res (list obs) :=
  match d with [] => Ok l | _ => fill_filters d l end.

(** Flattening of per-visit pixel lists, lines 180-198. *)
Fixpoint flatten_hp (fp : obs -> list Z) (l : list obs) : list (obs * Z) :=
  match l with
  | [] => []
  | o :: r => map (fun h => (o, h)) (fp o) ++ flatten_hp fp r
  end.

Definition zmax_list (z : Z) (l : list Z) : Z := fold_left Z.max l z.

Section Sched.
Context {W X : Type}.
Variable B : behav W X.
Variable shape : list nat.                 (* survey_lists: number of surveys per tier *)
Variable b2f : list (string * string).     (* band_to_filter_dict *)
Variable too_flush : bool.                 (* flush_for_new_too *)

(** All surveys, tier by tier. *)
Fixpoint idx_from (t : nat) (sh : list nat) : list (nat * nat) :=
  match sh with [] => [] | n :: r => map (fun i => (t, i)) (seq 0 n) ++ idx_from (S t) r end.
Definition all_idx : list (nat * nat) := idx_from 0 shape.

Definition upd_w (s : core W X) (w : W) : core W X :=
  mkCore w (c_q s) (c_ctr s) (c_seen s) (c_sidx s) (c_cond s) (c_issued s) (c_reported s).
Definition upd_q (s : core W X) (q : queue) : core W X :=
  mkCore (c_w s) q (c_ctr s) (c_seen s) (c_sidx s) (c_cond s) (c_issued s) (c_reported s).
Definition upd_sidx (s : core W X) (i : option nat * option nat) : core W X :=
  mkCore (c_w s) (c_q s) (c_ctr s) (c_seen s) i (c_cond s) (c_issued s) (c_reported s).

(** [flush_queue] lines 157-160. *)
Definition flush_queue (s : core W X) : core W X := upd_sidx (upd_q s q_flush) (None, None).

(** Reward of each survey of one tier, lines 413-421: the NaN-ignoring maximum. *)
Fixpoint tier_rewards (w : W) (t : nat) (is : list nat) (c : cond X) : W * list er :=
  match is with
  | [] => (w, [])
  | i :: r =>
      let '(w1, a) := sv_reward B w t i c in
      let '(w2, rs) := tier_rewards w1 t r c in
      (w2, nanmax a :: rs)
  end.

(** The loop over tiers, lines 411-425.  Returns the world, the tier at which
    the loop broke, and the rewards last computed.  [np.nanmax] of an empty tier
    raises ValueError. *)
Fixpoint tier_loop (w : W) (t : nat) (sh : list nat) (c : cond X) (last : option (list er))
  : W * res (option nat * list er) :=
  match sh with
  | [] => match last with
          | None => (w, Raise TypeError)
          | Some rs => (w, Ok (None, rs))
          end
  | n :: r =>
      let '(w1, rs) := tier_rewards w t (seq 0 n) c in
      match rs with
      | [] => (w1, Raise ValueError)
      | _ => if er_ltb ENInf (nanmax rs) then (w1, Ok (Some t, rs))
             else tier_loop w1 (S t) r c (Some rs)
      end
  end.

(** Index of the first survey attaining the maximum, lines 429-433. *)
Definition nan_to_ninf (x : er) : er := if er_isnan x then ENInf else x.
Definition first_argmax (rs : list er) : option nat :=
  let rs' := map nan_to_ninf rs in
  hd_error (np_where (fun x => er_eqb x (nanmax rs')) rs').

Definition upd_fill (s : core W X) (w : W) (ctr : Z) (i : option nat * option nat)
  (iss : list Z) : core W X :=
  mkCore w (c_q s) ctr (c_seen s) i (c_cond s) (c_issued s ++ iss) (c_reported s).

(** [_fill_queue] lines 387-453 (keep_rewards bookkeeping not modelled). *)
Definition fill_queue (s : core W X) (c : cond X) : core W X * res unit :=
  match tier_loop (c_w s) 0 shape c None with
  | (w, Raise e) => (upd_w s w, Raise e)
  | (w, Ok (t, rs)) =>
      let i0 := match t with Some t => Some t | None => fst (c_sidx s) end in
      let s1 := upd_sidx (upd_w s w) (i0, snd (c_sidx s)) in
      let m := nanmax rs in
      if er_eqb m ENInf || er_isnan m then (flush_queue s1, Ok tt)
      else
        match i0, first_argmax rs with
        | Some t', Some i =>
            let '(w1, g) := sv_gen B w t' i c in
            match g with
            | GRaise e => (upd_fill s w1 (c_ctr s) (Some t', Some i) [], Raise e)
            | GPyList => (upd_fill s w1 (c_ctr s) (Some t', Some i) [], Raise TypeError)
            | GArr l =>
                let l1 := stamp (c_ctr s) l in
                let s2 := upd_fill s w1 (c_ctr s + Z.of_nat (List.length l))%Z (Some t', Some i)
                            (map o_tid l1) in
                match band_to_filter b2f l1 with
                | Raise e => (s2, Raise e)
                | Ok l2 => (upd_q s2 (q_set l2), Ok tt)
                end
            end
        | _, _ => (s1, Raise IndexError)
        end
  end.

(** Queue manager request with detailers, queue_manager.py lines 154-178. *)
Definition qm_request (s : core W X) (c : cond X) (whole : bool) : core W X * list obs :=
  let r := q_request (cd_mjd c) (qm_ok B (c_w s) c) whole (c_q s) in
  match r with
  | [] => (s, [])
  | _ => let '(w, r') := qm_det B (c_w s) r c in (upd_w s w, r')
  end.

Inductive out : Type :=
| OutUnit | OutNone | OutObs (l : list obs) | OutRaise (e : exn).

(** [request_observation] lines 332-385.  The argument [mjd] is only used when it
    is None, and then not at all: the queue manager reads the conditions. *)
Definition request (s : core W X) (mjd : option Q) (whole : bool) : core W X * out :=
  match c_cond s with
  | None => (s, OutRaise AttributeError)
  | Some c =>
      let '(s1, r1) := if Nat.eqb (q_count (c_q s)) 0 then fill_queue s c else (s, Ok tt) in
      match r1 with
      | Raise e => (s1, OutRaise e)
      | Ok _ =>
          if Nat.eqb (q_count (c_q s1)) 0 then (s1, OutNone)
          else
            let '(s2, l) := qm_request s1 c whole in
            match l with
            | _ :: _ => (s2, OutObs l)
            | [] =>
                let '(s3, r3) := fill_queue (upd_q s2 q_flush) c in
                match r3 with
                | Raise e => (s3, OutRaise e)
                | Ok _ =>
                    let '(s4, l') := qm_request s3 c whole in
                    match l' with
                    | _ :: _ => (s4, OutObs l')
                    | [] => (s4, OutNone)
                    end
                end
            end
      end
  end.

(** Counter bump, lines 204-205 and 240-241. *)
Definition bump (ctr m : Z) : Z := if (ctr <=? m)%Z then (m + 1)%Z else ctr.

(** [add_observation] lines 209-243 and queue_manager.add_observation lines 71-78. *)
Definition add_obs (s : core W X) (o_in : obs) : core W X :=
  let o := backfill_band o_in in
  let w1 := fold_left (fun w p => sv_add B w (fst p) (snd p) o (fp_rot B o)) all_idx (c_w s) in
  let q := match c_q s with [] => [] | _ => q_mark (o_tid o) (c_q s) end in
  mkCore (qm_add B w1 o) q (bump (c_ctr s) (o_tid o)) (c_seen s) (c_sidx s) (c_cond s)
         (c_issued s) (c_reported s ++ [o_tid o]).

(** [add_observations_array] lines 162-207 and queue_manager lines 80-91.  The
    basis functions and detailers of the queue manager are updated only when
    the queue is not empty (line 81).  An empty array fails in [np.max]. *)
Definition add_arr (s : core W X) (l_in : list obs) : core W X * res unit :=
  match l_in with
  | [o] => (add_obs s o, Ok tt)
  | _ =>
      let l := o_sort (map backfill_band l_in) in
      let hp := flatten_hp (fp_norot B) l in
      let w1 := fold_left (fun w p => sv_add_arr B w (fst p) (snd p) l hp) all_idx (c_w s) in
      match map o_tid l with
      | [] => (upd_w s w1, Raise ValueError)
      | t :: ts =>
          let ctr := bump (c_ctr s) (zmax_list t ts) in
          let '(q, w2) := match c_q s with
                          | [] => ([], w1)
                          | _ => (q_mark_many (map o_tid l) (c_q s), qm_add_arr B w1 l hp)
                          end in
          (mkCore w2 q ctr (c_seen s) (c_sidx s) (c_cond s) (c_issued s)
                  (c_reported s ++ map o_tid l), Ok tt)
      end
  end.

(** ToO part of [update_conditions], lines 254-265: every id not seen before is
    added to the set; the queue is flushed when an alert carrying a new id asks
    for it.  Python iterates over a set of new ids in an unspecified order; the
    result does not depend on that order, the model uses arrival order. *)
Definition too_new (seen : list Z) (ts : list too) : list too :=
  filter (fun t => negb (existsb (Z.eqb (t_id t)) seen)) ts.
Definition too_part (s : core W X) (ts : list too) : core W X :=
  if too_flush then
    let nw := too_new (c_seen s) ts in
    let s1 := if existsb t_flush nw then flush_queue s else s in
    mkCore (c_w s1) (c_q s1) (c_ctr s1) (c_seen s1 ++ nodup Z.eq_dec (map t_id nw)) (c_sidx s1)
           (c_cond s1) (c_issued s1) (c_reported s1)
  else s.

(** [update_conditions] lines 245-302 (survey_start_mjd not modelled). *)
Definition sched_list (w : W) (now : Q) : list Q :=
  let all := flat_map (fun p => match sv_sched B w (fst p) (snd p) with
                                | None => [] | Some l => l end) all_idx in
  filter (fun t => Qle_bool now t) (q_sort all).
Definition update_conditions (s : core W X) (c : cond X) : core W X :=
  let s1 := too_part s (cd_toos c) in
  let w1 := fold_left (fun w p => sv_upd B w (fst p) (snd p) c) all_idx (c_w s1) in
  let c1 := mkCond (cd_mjd c) (cd_toos c) (sched_list w1 (cd_mjd c)) (cd_ext c) in
  mkCore w1 (c_q s1) (c_ctr s1) (c_seen s1) (c_sidx s1) (Some c1) (c_issued s1) (c_reported s1).

(** Public operations. *)
Inductive op : Type :=
| OpUpdate (c : cond X)
| OpRequest (mjd : option Q) (whole : bool)
| OpAdd (o : obs)
| OpAddArr (l : list obs)
| OpFlush
| OpAppend (l : list obs)     (* append_to_queue, lines 320-324 *)
| OpMark (t : Z)              (* mark_observation_completed, lines 326-330 *)
| OpSetCtr (z : Z).           (* set_target_id_counter, lines 136-144 *)

Definition step (s : core W X) (o : op) : core W X * out :=
  match o with
  | OpUpdate c => (update_conditions s c, OutUnit)
  | OpRequest m w => request s m w
  | OpAdd o => (add_obs s o, OutUnit)
  | OpAddArr l => let '(s', r) := add_arr s l in
                  (s', match r with Ok _ => OutUnit | Raise e => OutRaise e end)
  | OpFlush => (flush_queue s, OutUnit)
  | OpAppend l => (upd_q s (q_append (c_q s) l), OutUnit)
  | OpMark t => (upd_q s (q_mark t (c_q s)), OutUnit)
  | OpSetCtr z => (mkCore (c_w s) (c_q s) z (c_seen s) (c_sidx s) (c_cond s) (c_issued s) (c_reported s), OutUnit)
  end.

Fixpoint run (s : core W X) (ops : list op) : core W X * list out :=
  match ops with
  | [] => (s, [])
  | o :: r => let '(s1, x) := step s o in let '(s2, xs) := run s1 r in (s2, x :: xs)
  end.

(** State after construction, lines 64-134. *)
Definition init (w : W) (ctr : Z) : core W X :=
  mkCore w [] ctr [] (None, None) None [] [].

End Sched.
