(** Model of how unscheduled downtimes are made and looked up.
    /repo/rubin_scheduler/site_models/{unscheduled_downtime_data,downtime_model}.py.
    Times are exact days; the random generators are sequences of draws, any
    sequence of numbers. *)
From Coq Require Import List ZArith QArith Bool Lia Lqa.
From Verif Require Import Base Bisect.
Import ListNotations.
Open Scope nat_scope.

Inductive kind : Type := Minor | Intermediate | Major | Catastrophic | Year1.

(** A row of [self.downtime]: start, end, activity. *)
Record down := mkDown { d_start : Q; d_end : Q; d_act : kind }.

(** Lines 32-35: chance per night and nights lost. *)
Definition chance (k : kind) : Q :=
  match k with
  | Minor => 137 # 10000 | Intermediate => 548 # 100000
  | Major => 137 # 100000 | Catastrophic => 274 # 1000000 | Year1 => 0
  end.
Definition nights_lost (k : kind) : nat :=
  match k with Minor => 1 | Intermediate => 3 | Major => 7 | Catastrophic => 14 | Year1 => 0 end.

(** Lines 107-147: nights passed over one by one, [u k] the k-th draw.  The
    minor event has no [continue], so one more night passes after it. *)
Fixpoint events (fuel : nat) (u : nat -> Q) (k night len : nat) : res (list (nat * kind)) :=
  match fuel with
  | 0 => Raise OutOfFuel
  | S f =>
      if night <? len then
        if Qltb (u k) (chance Catastrophic) then
          bind (events f u (k + 1) (night + (nights_lost Catastrophic + 1)) len) (fun r => Ok ((night, Catastrophic) :: r))
        else if Qltb (u (k + 1)) (chance Major) then
          bind (events f u (k + 2) (night + (nights_lost Major + 1)) len) (fun r => Ok ((night, Major) :: r))
        else if Qltb (u (k + 2)) (chance Intermediate) then
          bind (events f u (k + 3) (night + (nights_lost Intermediate + 1)) len) (fun r => Ok ((night, Intermediate) :: r))
        else if Qltb (u (k + 3)) (chance Minor) then
          bind (events f u (k + 4) (night + (nights_lost Minor + 1) + 1) len) (fun r => Ok ((night, Minor) :: r))
        else events f u (k + 4) (night + 1) len
      else Ok []
  end.

(** [make_data] (lines 86-151): [night0] is 1 January plus the offset. *)
Definition row_of (night0 : Q) (e : nat * kind) : down :=
  let start := (night0 + inject_Z (Z.of_nat (fst e)))%Q in
  mkDown start (start + inject_Z (Z.of_nat (nights_lost (snd e)))) (snd e).
Definition make_data (night0 : Q) (len : nat) (u : nat -> Q) : res (list down) :=
  bind (events (S len) u 0 0 len) (fun l => Ok (map (row_of night0) l)).

(** [total_downtime] (lines 153-164). *)
Definition total_downtime (l : list down) : Q :=
  fold_left (fun t d => (t + (d_end d - d_start d))%Q) l 0%Q.

(** [_downtime_status] (lines 75-84). *)
Definition status (l : list down) (t : Q) : res (option down * list down) :=
  let next_start := searchsorted (fun s => Qle_bool s t) 0%Q (map d_start l) in
  let next_end := searchsorted (fun e => Qle_bool e t) 0%Q (map d_end l) in
  let future := skipn next_start l in
  if next_end <? next_start then
    match nth_error l next_end with Some d => Ok (Some d, future) | None => Raise IndexError end
  else Ok (None, future).

(** ** Extra downtime in the first year: [UnscheduledDowntimeMoreY1Data] *)

(** The draws for one night: whether, how long (hours), when (0 to 1). *)
Record draws := mkDraws { r_prob : Q; r_hours : Q; r_when : Q }.

(** Lines 204-235 for one night between [sunset] and [sunrise]. The array
    night_counted is never 1 on entry, each night being passed once. *)
Definition y1_night (end_of_start n : nat) (sunset sunrise : Q) (r : draws) : option down :=
  let hours := ((sunrise - sunset) * 24)%Q in
  if n <? end_of_start then
    let thr := ((1 # 2) * (1 - inject_Z (Z.of_nat n) / inject_Z (Z.of_nat (end_of_start + 45))))%Q in
    if Qle_bool (r_prob r) thr then
      let p1 := if Qle_bool hours (r_hours r) then hours else r_hours r in
      let p := if Qle_bool p1 1 then 1%Q else p1 in
      let tmax := (hours - p)%Q in
      if Qle_bool tmax 0 then Some (mkDown sunset sunrise Year1)
      else let offset := (sunset + r_when r * (tmax / 24))%Q in
           Some (mkDown offset (offset + p / 24) Year1)
    else None
  else None.
Fixpoint y1_from (end_of_start n : nat) (nights : list (Q * Q)) (r : nat -> draws) : list down :=
  match nights with
  | [] => []
  | (sunset, sunrise) :: rest =>
      match y1_night end_of_start n sunset sunrise (r n) with
      | Some d => d :: y1_from end_of_start (S n) rest r
      | None => y1_from end_of_start (S n) rest r
      end
  end.

(** Lines 241-251: the regular downtimes joined on and all sorted by start. *)
Fixpoint s_insert (x : down) (l : list down) : list down :=
  match l with [] => [x] | y :: r => if Qle_bool (d_start x) (d_start y) then x :: l else y :: s_insert x r end.
Fixpoint s_sort (l : list down) : list down :=
  match l with [] => [] | x :: r => s_insert x (s_sort r) end.
Definition make_data_y1 (night0 : Q) (len : nat) (u : nat -> Q) (nights : list (Q * Q)) (r : nat -> draws) : res (list down) :=
  bind (make_data night0 len u) (fun reg => Ok (s_sort (y1_from 380 0 nights r ++ reg))).

(** ** [DowntimeModel.__call__] (downtime_model.py 43-103) *)
Record report := mkReport { is_down : bool; end_down : option Q; next_down : Q }.
Definition current (l : list down) (t : Q) : res (option down) := bind (status l t) (fun s => Ok (fst s)).
Definition Qmaxb (a b : Q) : Q := if Qltb a b then b else a.
Definition downtime_model (sched unsched : list down) (t : Q) : res report :=
  bind (current sched t) (fun cs =>
  let next_start := searchsorted (fun s => Qle_bool s t) 0%Q (map d_start sched) in
  match nth_error sched next_start with
  | None => Raise IndexError
  | Some next =>
      bind (current unsched t) (fun cu =>
      match cs, cu with
      | None, None => Ok (mkReport false None (d_start next))
      | Some s, None => Ok (mkReport true (Some (d_end s)) (d_start next))
      | None, Some n => Ok (mkReport true (Some (d_end n)) (d_start next))
      | Some s, Some n => Ok (mkReport true (Some (Qmaxb (d_end s) (d_end n))) (d_start next))
      end)
  end).
