(** Binning by integer id and into pixels:
    /repo/rubin_scheduler/utils/binned_stats.py lines 6-37 and scheduler/utils/utils.py lines 349-367
    (int_binned_stat), utils/healpy_utils.py lines 147-197 (_healbin), 240-309 (moc2array),
    24-53 (ra_dec_nearest_interp) and 453-473 (match_hp_resolution).
    Values are exact rationals, or None for a nan.  healpy's geometry is a parameter. *)
From Coq Require Import List Bool ZArith QArith.
From Verif Require Import Base.
Import ListNotations.
Open Scope Z_scope.

Section Bins.
(** np.argsort: positions that put a list of ids in order; its order among equal ids is left open. *)
Variable argsort : list Z -> list nat.
(** values[order]: an index past the end raises. *)
Fixpoint gather {A} (l : list A) (order : list nat) : res (list A) :=
  match order with
  | [] => Ok []
  | i :: order => match nth_error l i with None => Raise IndexError | Some x => bind (gather l order) (fun r => Ok (x :: r)) end
  end.
(** np.unique. *)
Fixpoint uinsert (x : Z) (l : list Z) : list Z :=
  match l with [] => [x] | y :: l' => if x <? y then x :: l else if x =? y then l else y :: uinsert x l' end.
Definition unique (l : list Z) : list Z := fold_right uinsert [] l.
(** np.searchsorted in a sorted array. *)
Definition left_of (l : list Z) (u : Z) : nat := List.length (filter (fun x => x <? u) l).
Definition right_of (l : list Z) (u : Z) : nat := List.length (filter (fun x => x <=? u) l).
Definition slice {A} (l : list A) (le ri : nat) : list A := firstn (ri - le) (skipn le l).
Definition int_binned_stat {A B} (statistic : list A -> B) (ids : list Z) (values : list A) : res (list Z * list B) :=
  let uids := unique ids in
  let order := argsort ids in
  bind (gather ids order) (fun ordered_ids =>
  bind (gather values order) (fun ordered_values =>
  Ok (uids, map (fun u => statistic (slice ordered_values (left_of ordered_ids u) (right_of ordered_ids u))) uids))).

(** _healbin; hpids are those of _ra_dec2_hpid, all below [npix]. *)
Fixpoint set_nth {A} (n : nat) (x : A) (l : list A) : list A :=
  match l, n with [], _ => [] | _ :: l, O => x :: l | y :: l, S n => y :: set_nth n x l end.
Definition healbin (reduce : list (option Q) -> option Q) (npix : nat) (fill : option Q) (hpids : list Z) (values : list (option Q)) : res (list (option Q)) :=
  let order := argsort hpids in
  bind (gather hpids order) (fun hpids =>
  bind (gather values order) (fun values =>
  let pixids := unique hpids in
  let map_vals := repeat fill npix in
  let map_vals := fold_left (fun m idx => set_nth (Z.to_nat idx) (reduce (slice values (left_of hpids idx) (right_of hpids idx))) m) pixids map_vals in
  Ok (map (fun v => match v with None => fill | Some _ => v end) map_vals))).

(** np.sum. *)
Definition nan_add (a b : option Q) : option Q := match a, b with Some x, Some y => Some (x + y)%Q | _, _ => None end.
Definition np_sum (l : list (option Q)) : option Q := fold_right nan_add (Some 0%Q) l.

(** moc2array.  floor(log2(uniq / 4) / 2) on integers.  [lands order pix] is the output pixel that
    holds the centre of a cell, [sky] the area of the sphere; nside is 2 ^ out_order.  data and uniq
    are of one length. *)
Variables (lands : Z -> Z -> Z) (sky : Q).
Definition order_of (uniq : Z) : Z := (Z.log2 uniq - 2) / 2.
Definition pix_of (uniq : Z) : Z := uniq - 4 * 4 ^ order_of uniq.
Definition pix_area (order : Z) : Q := (sky / inject_Z (12 * 4 ^ order))%Q.
Definition scale_by (x : Q) (v : option Q) : option Q := match v with Some y => Some (y * x)%Q | None => None end.
(** result != fill_val *)
Definition differs (a b : option Q) : bool := match a, b with Some x, Some y => negb (Qeq_bool x y) | _, _ => true end.
Definition moc2array (reduce : list (option Q) -> option Q) (density : bool) (out_order : Z) (fill : option Q) (data : list (option Q)) (uniq : list Z) : res (list (option Q)) :=
  let tobin := if density then map (fun '(d, u) => scale_by (pix_area (order_of u)) d) (combine data uniq) else data in
  bind (healbin reduce (Z.to_nat (12 * 4 ^ out_order)) fill (map (fun u => lands (order_of u) (pix_of u)) uniq) tobin) (fun result =>
  Ok (if density then map (fun v => if differs v fill then scale_by (/ pix_area out_order)%Q v else v) result else result)).
End Bins.

(** ra_dec_nearest_interp for one position: healpy's four pixels with their weights. *)
Definition qmax (a b : Q) : Q := if Qle_bool a b then b else a.
Definition nearest_interp (in_array : Z -> Q) (near : list (Z * Q)) : Q :=
  let m_weight := match near with [] => 0%Q | p :: l => fold_left (fun m q => qmax m (snd q)) l (snd p) end in
  let final := map (fun p : Z * Q => if Qle_bool m_weight (snd p) then 1%Q else 0%Q) near in
  let total := fold_right Qplus 0%Q final in
  fold_right Qplus 0%Q (map (fun '(p, w) => (in_array (fst p) * (w / total))%Q) (combine near final)).

(** match_hp_resolution: the map returned and the input map afterwards, which is the same array
    where the resolutions agree.  UNSEEN is healpy's mark for no value. *)
Definition unseen : Q := (-1637500000000000000000000000000)%Q.
Definition match_hp_resolution (nside_of : list (option Q) -> Z) (ud_grade : list (option Q) -> Z -> list (option Q)) (in_map : list (option Q)) (nside_out : Z) (unseen2nan : bool) : list (option Q) * list (option Q) :=
  let blank := map (fun v : option Q => match v with Some x => if Qeq_bool x unseen then None else v | None => None end) in
  if nside_of in_map =? nside_out
  then (if unseen2nan then (blank in_map, blank in_map) else (in_map, in_map))
  else (if unseen2nan then (blank (ud_grade in_map nside_out), in_map) else (ud_grade in_map nside_out, in_map)).
