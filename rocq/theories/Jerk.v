(** Model of the slew duration functions.
    /repo/rubin_scheduler/scheduler/model_observatory/jerk.py lines 6-192.
    Real numbers instead of floats; distances are not NaN. *)
From Coq Require Import List Reals Lra Lia Psatz Bool.
Import ListNotations.
Open Scope R_scope.

(** x ** (1/3) for non-negative x. *)
Definition cbrt (x : R) : R := if Rle_dec x 0 then 0 else Rpower x (1 / 3).

Definition Rltb (x y : R) : bool := if Rlt_dec x y then true else false.
Definition Rleb (x y : R) : bool := if Rle_dec x y then true else false.

(** acc_time, lines 71-96 (one element). *)
Definition acc_time (d v a : R) : R :=
  let dm := v ^ 2 / a in
  if Rlt_dec d dm then 2 * sqrt (d / a) else 2 * v / a + (d - dm) / v.

(** _get_trajectory_instance_case, lines 139-192 (one element): later assignments
    win, 0 when none applies. *)
Definition traj_case (d v a j : R) : nat :=
  let v_a := a * a / j in
  let s_a := 2 * a * a * a / (j * j) in
  let s_v := if Rlt_dec (v * j) (a * a) then v * 2 * sqrt (v / j) else v * (v / a + a / j) in
  let r := 0%nat in
  let r := if Rltb v v_a && Rleb s_a d then 1%nat else r in
  let r := if Rleb v_a v && Rltb d s_a then 2%nat else r in
  let r := if Rltb v v_a && Rltb d s_a && Rleb s_v d then 3%nat else r in
  let r := if Rltb v v_a && Rltb d s_a && Rltb d s_v then 4%nat else r in
  let r := if Rleb v_a v && Rleb s_a d && Rleb s_v d then 5%nat else r in
  let r := if Rleb v_a v && Rleb s_a d && Rltb d s_v then 6%nat else r in
  r.

(** _calculate_times, lines 99-136: (tj, ta, tv); None stands for the exception. *)
Definition calc_times (d v a j : R) (c : nat) : option (R * R * R) :=
  match c with
  | 1%nat | 3%nat => let tj := sqrt (v / j) in Some (tj, tj, d / v)
  | 2%nat | 4%nat => let tj := cbrt (d / (2 * j)) in Some (tj, tj, 2 * tj)
  | 5%nat => Some (a / j, v / a, d / v)
  | 6%nat => let ta := 0.5 * (sqrt ((4 * d * j * j + a * a * a) / (a * j * j)) - a / j) in
             Some (a / j, ta, ta + a / j)
  | _ => None
  end.

(** Duration of one element, lines 44-52. *)
Definition total (t : R * R * R) : R := let '(tj, ta, tv) := t in tv + tj + ta.
Definition jerk1 (d v a j : R) : option R := option_map total (calc_times d v a j (traj_case d v a j)).

(** jerk_time on an array, lines 35-68.  [uniq] is np.unique of the cases; one
    profile: whole array at once, otherwise profile by profile into zeros. *)
Definition uniq (l : list nat) : list nat := filter (fun c => existsb (Nat.eqb c) l) (seq 0 7).
Definition seqo {A} (l : list (option A)) : option (list A) :=
  fold_right (fun x r => match x, r with Some a, Some b => Some (a :: b) | _, _ => None end) (Some []) l.
Definition jerk_time (ds : list R) (v a : R) (jm : option R) : option (list R) :=
  match jm with
  | None => Some (map (fun d => acc_time d v a) ds)
  | Some j =>
      let cs := map (fun d => traj_case d v a j) ds in
      match uniq cs with
      | [c] => seqo (map (fun d => option_map total (calc_times d v a j c)) ds)
      | us =>
          fold_left
            (fun res c =>
               match res with
               | None => None
               | Some r =>
                   seqo (map (fun p : R * (R * nat) =>
                           let '(old, (d, cd)) := p in
                           if Nat.eqb cd c then option_map total (calc_times d v a j c) else Some old)
                         (combine r (combine ds cs)))
               end) us (Some (map (fun _ => 0) ds))
      end
  end.
