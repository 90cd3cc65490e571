(** The hierarchical triangular mesh, /repo/rubin_scheduler/utils/htm_module.py lines 38-857, on
    real numbers (float rounding is not modelled).  Ids are Python integers, so [Z].  Lazily
    cached attributes (cross01, w_arr, t0, ...) are computed where used.  Not modelled: __eq__,
    get_center and the printing of messages. *)
From Coq Require Import List Bool ZArith Reals.
From Verif Require Import Base Sphere.
Import ListNotations.
Open Scope Z_scope.

Definition geb0 (x : R) : bool := if Rle_dec 0 x then true else false.
(** Sums and multiples of arrays of three. *)
Definition vplus (a b : vec) : vec := V (vx a + vx b) (vy a + vy b) (vz a + vz b).
Definition vtimes (k : R) (a : vec) : vec := V (k * vx a) (k * vy a) (k * vz a).
(** v / np.sqrt(np.power(v, 2).sum()); a zero vector would give nans, and is not met below. *)
Definition vnorm (v : vec) : vec := vtimes (/ sqrt (dot v v)) v.

(** Trixel, lines 38-76: htmid and corners. *)
Record trixel := T { tid : Z; tc0 : vec; tc1 : vec; tc2 : vec }.
(** Twice the level of lines 70 and 336-354: the number of binary digits of the htmid, less two. *)
Definition bits (h : Z) : Z := Z.log2 h + 1.
Definition level2 (t : trixel) : Z := bits (tid t) - 2.
(** _contains_one_pt, 138-158; _contains_many_pts, 160-182, does the same for rows. *)
Definition contains_pt (t : trixel) (pt : vec) : bool :=
  geb0 (dot (cross (tc0 t) (tc1 t)) pt) && (geb0 (dot (cross (tc1 t) (tc2 t)) pt) && geb0 (dot (cross (tc2 t) (tc0 t)) pt)).
(** _create_w and w_arr, 200-224. *)
Definition w0 (t : trixel) : vec := vnorm (vplus (tc1 t) (tc2 t)).
Definition w1 (t : trixel) : vec := vnorm (vplus (tc0 t) (tc2 t)).
Definition w2 (t : trixel) : vec := vnorm (vplus (tc0 t) (tc1 t)).
(** t0 to t3, 226-284; get_children, get_child, 286-319. *)
Definition t0 (t : trixel) : trixel := T (Z.shiftl (tid t) 2) (tc0 t) (w2 t) (w1 t).
Definition t1 (t : trixel) : trixel := T (Z.shiftl (tid t) 2 + 1) (tc1 t) (w0 t) (w2 t).
Definition t2 (t : trixel) : trixel := T (Z.shiftl (tid t) 2 + 2) (tc2 t) (w1 t) (w0 t).
Definition t3 (t : trixel) : trixel := T (Z.shiftl (tid t) 2 + 3) (w0 t) (w1 t) (w2 t).
Definition get_children (t : trixel) : list trixel := [t0 t; t1 t; t2 t; t3 t].
Definition get_child (t : trixel) (dex : Z) : res trixel :=
  if dex =? 0 then Ok (t0 t) else if dex =? 1 then Ok (t1 t) else if dex =? 2 then Ok (t2 t)
  else if dex =? 3 then Ok (t3 t) else Raise RuntimeError.

(** The initial trixels, 420-462. *)
Definition n0_trixel : trixel := T 12 (V 1 0 0) (V 0 0 1) (V 0 (-1) 0).
Definition n1_trixel : trixel := T 13 (V 0 (-1) 0) (V 0 0 1) (V (-1) 0 0).
Definition n2_trixel : trixel := T 14 (V (-1) 0 0) (V 0 0 1) (V 0 1 0).
Definition n3_trixel : trixel := T 15 (V 0 1 0) (V 0 0 1) (V 1 0 0).
Definition s0_trixel : trixel := T 8 (V 1 0 0) (V 0 0 (-1)) (V 0 1 0).
Definition s1_trixel : trixel := T 9 (V 0 1 0) (V 0 0 (-1)) (V (-1) 0 0).
Definition s2_trixel : trixel := T 10 (V (-1) 0 0) (V 0 0 (-1)) (V 0 (-1) 0).
Definition s3_trixel : trixel := T 11 (V 0 (-1) 0) (V 0 0 (-1)) (V 1 0 0).

(** level_from_htmid, 476-503; fuel for the while loop, proved enough. *)
Fixpoint level_loop (fuel : nat) (copy i_level : Z) : res (Z * Z) :=
  if copy >? 15 then
    match fuel with O => Raise OutOfFuel | S f => level_loop f (Z.shiftr copy 2) (i_level + 1) end
  else Ok (copy, i_level).
Definition level_from_htmid (htmid : Z) : res Z :=
  bind (level_loop (Z.to_nat (Z.log2 htmid)) htmid 1) (fun '(copy, i_level) =>
  if copy <? 8 then Raise RuntimeError else Ok i_level).

(** trixel_from_htmid, 506-573. *)
Definition base_trixel (b : Z) : option trixel :=
  if b =? 8 then Some s0_trixel else if b =? 9 then Some s1_trixel else if b =? 10 then Some s2_trixel
  else if b =? 11 then Some s3_trixel else if b =? 12 then Some n0_trixel else if b =? 13 then Some n1_trixel
  else if b =? 14 then Some n2_trixel else if b =? 15 then Some n3_trixel else None.
Fixpoint descend (htmid level : Z) (n : nat) (ix : Z) (ans : trixel) (complement : Z) : res trixel :=
  match n with
  | O => Ok ans
  | S n =>
      let target := Z.land htmid complement in
      let target := Z.shiftr target (2 * (level - ix - 2)) in
      if target >=? 4 then Raise RuntimeError
      else bind (get_child ans target) (fun ans => descend htmid level n (ix + 1) ans (Z.shiftr complement 2))
  end.
Definition trixel_from_htmid (htmid : Z) : res trixel :=
  bind (level_from_htmid htmid) (fun level =>
  let base_htmid := Z.shiftr htmid (2 * (level - 1)) in
  match base_trixel base_htmid with
  | None => Raise RuntimeError
  | Some ans =>
      if level =? 1 then Ok ans
      else descend htmid level (Z.to_nat (level - 1)) 0 ans (Z.shiftl 3 (2 * (level - 2)))
  end).

(** get_all_trixels, 576-637.  A dict as a function from keys. *)
Definition dict := Z -> option trixel.
Definition dset (d : dict) (k : Z) (t : trixel) : dict := fun i => if i =? k then Some t else d i.
Definition dhas (d : dict) (k : Z) : bool := match d k with Some _ => true | None => false end.
(** The inner for loop: n_right at the break, or the last one. *)
Fixpoint scan (d : dict) (htmid : Z) (l : list Z) (cur : option Z) : option Z :=
  match l with
  | [] => cur
  | n :: l => if dhas d (Z.shiftr htmid n) then Some n else scan d htmid l (Some n)
  end.
(** range(start, stop, 2) for start even. *)
Definition range2 (n_bits : Z) : list Z := map (fun k => 2 + 2 * Z.of_nat k) (seq 0 (Z.to_nat ((n_bits - 2 + 1) / 2))).
(** Lines 624-627 and 632-635. *)
Definition add_children (d : dict) (id : Z) (t : trixel) : res dict :=
  bind (get_child t 0) (fun c0 => bind (get_child t 1) (fun c1 => bind (get_child t 2) (fun c2 => bind (get_child t 3) (fun c3 =>
  let d := dset d (Z.shiftl id 2) c0 in
  let d := dset d (Z.shiftl id 2 + 1) c1 in
  let d := dset d (Z.shiftl id 2 + 2) c2 in
  Ok (dset d (Z.shiftl id 2 + 3) c3))))).
Fixpoint while_parent (fuel : nat) (n_bits htmid parent_id : Z) (d : dict) : res dict :=
  if dhas d parent_id then Ok d else
  match fuel with
  | O => Raise OutOfFuel
  | S f =>
      match scan d htmid (range2 n_bits) None with
      | None => Raise UnboundLocalError
      | Some n_right =>
          let to_gen := Z.shiftr htmid n_right in
          bind (match d to_gen with
                | Some t => Ok (t, d)
                | None => bind (trixel_from_htmid to_gen) (fun t => Ok (t, dset d to_gen t))
                end) (fun '(t, d) =>
          bind (add_children d to_gen t) (fun d =>
          while_parent f n_bits htmid parent_id d))
      end
  end.
Definition gen_one (n_bits : Z) (d : dict) (htmid : Z) : res dict :=
  if dhas d htmid then Ok d else
  let parent_id := Z.shiftr htmid 2 in
  bind (while_parent (Z.to_nat n_bits) n_bits htmid parent_id d) (fun d =>
  match d parent_id with None => Raise KeyError | Some t => add_children d parent_id t end).
Fixpoint fold_res {A B} (f : A -> B -> res A) (a : A) (l : list B) : res A :=
  match l with [] => Ok a | x :: l => bind (f a x) (fun a => fold_res f a l) end.
Definition start_trixels : list Z := [8; 9; 10; 11; 12; 13; 14; 15].
Definition get_all_trixels (level : Z) : res dict :=
  let n_bits := 2 * (level - 1) in
  bind (fold_res (fun d k => bind (trixel_from_htmid k) (fun t => Ok (dset d k t))) (fun _ => None) start_trixels) (fun d =>
  if n_bits <? 0 then Raise ValueError else
  fold_res (fun d k =>
    let k := Z.shiftl k n_bits in
    fold_res (fun d dt => gen_one n_bits d (k + Z.of_nat dt)) d (seq 0 (Z.to_nat (2 ^ n_bits)))) d start_trixels).

(** _iterate_trixel_finder, 640-666.  [Ok None] is falling off the end of the for loop;
    [OutOfFuel] is recursion that has not ended. *)
Fixpoint iterate_trixel_finder (fuel : nat) (pt : vec) (parent : trixel) (max_level : Z) : res (option Z) :=
  match fuel with
  | O => Raise OutOfFuel
  | S f =>
      match find (fun c => contains_pt c pt) (get_children parent) with
      | None => Ok None
      | Some child => if level2 child =? 2 * max_level then Ok (Some (tid child)) else iterate_trixel_finder f pt child max_level
      end
  end.
(** The order in which the initial trixels are tried. *)
Definition base_trixels : list trixel := [s0_trixel; s1_trixel; s2_trixel; s3_trixel; n0_trixel; n1_trixel; n2_trixel; n3_trixel].
(** A position given in degrees. *)
Definition point (p : R * R) : vec := xyz_from_ra_dec (radians (fst p)) (radians (snd p)).
(** _find_htmid_slow, 669-715. *)
Definition find_htmid_slow (fuel : nat) (p : R * R) (max_level : Z) : res (option Z) :=
  let pt := point p in
  match find (fun t => contains_pt t pt) base_trixels with
  | None => Raise RuntimeError
  | Some parent => iterate_trixel_finder fuel pt parent max_level
  end.

(** _find_htmid_fast, 718-810.  htmid_arr as a function of the index.  is_found and un_found are
    kept as the list of the indices still to be found. *)
Definition assign (arr : nat -> Z) (dexes : list nat) (v : Z) : nat -> Z :=
  fun i => if existsb (Nat.eqb i) dexes then v else arr i.
Definition in_trixel (pts : list vec) (t : trixel) (i : nat) : bool :=
  match nth_error pts i with Some pt => contains_pt t pt | None => false end.
(** Lines 770-777. *)
Fixpoint base_pass (pts : list vec) (bases : list trixel) (arr : nat -> Z) (parents : list (Z * list nat)) : (nat -> Z) * list (Z * list nat) :=
  match bases with
  | [] => (arr, parents)
  | parent :: l =>
      let valid := filter (in_trixel pts parent) (seq 0 (List.length pts)) in
      match valid with
      | [] => base_pass pts l arr parents
      | _ => base_pass pts l (assign arr valid (tid parent)) (parents ++ [(tid parent, valid)])
      end
  end.
(** Lines 792-807. *)
Fixpoint child_pass (d : dict) (pts : list vec) (children : list Z) (considered : list nat)
    (arr : nat -> Z) (new : list (Z * list nat)) : res ((nat -> Z) * list (Z * list nat)) :=
  match children with
  | [] => Ok (arr, new)
  | child :: l =>
      match considered with
      | [] => Ok (arr, new)
      | _ =>
          match d child with
          | None => Raise KeyError
          | Some t =>
              let valid := filter (in_trixel pts t) considered in
              let rest := filter (fun i => negb (in_trixel pts t i)) considered in
              match valid with
              | [] => child_pass d pts l rest arr new
              | _ => child_pass d pts l rest (assign arr valid child) (new ++ [(child, valid)])
              end
          end
      end
  end.
Definition children_htmid (h : Z) : list Z :=
  let next := Z.shiftl h 2 in [next; next + 1; next + 2; next + 3].
(** Lines 779-810. *)
Fixpoint levels (d : dict) (pts : list vec) (n : nat) (arr : nat -> Z) (parents : list (Z * list nat)) : res (nat -> Z) :=
  match n with
  | O => Ok arr
  | S n =>
      bind (fold_res (fun '(arr, new) '(h, considered) => child_pass d pts (children_htmid h) considered arr new) (arr, []) parents)
        (fun '(arr, new) => levels d pts n arr new)
  end.
(** The cache kept on the function: level and dict. *)
Definition cache := option (Z * dict).
Definition find_htmid_fast (c : cache) (ps : list (R * R)) (max_level : Z) : res (list Z * cache) :=
  if max_level >? 10 then Raise RuntimeError else
  bind (match c with
        | Some (l, d) => if l <? max_level then bind (get_all_trixels max_level) (fun d => Ok (max_level, d)) else Ok (l, d)
        | None => bind (get_all_trixels max_level) (fun d => Ok (max_level, d))
        end) (fun '(l, d) =>
  let pts := map point ps in
  let '(arr, parents) := base_pass pts base_trixels (fun _ => 0) [] in
  bind (levels d pts (Z.to_nat (max_level - 1)) arr parents) (fun arr =>
  Ok (map arr (seq 0 (List.length pts)), Some (l, d)))).

(** find_htmid, 813-857, for a number and for arrays of equal length (lists of numbers become
    arrays). *)
Definition find_htmid (fuel : nat) (p : R * R) (max_level : Z) : res (option Z) := find_htmid_slow fuel p max_level.
Definition int_of (r : res (option Z)) : res Z :=
  bind r (fun o => match o with Some h => Ok h | None => Raise TypeError end).
Definition find_htmid_array (fuel : nat) (c : cache) (ps : list (R * R)) (max_level : Z) : res (list Z * cache) :=
  if (max_level <=? 10) && Nat.ltb 100 (List.length ps) then find_htmid_fast c ps max_level
  else bind (fold_res (fun acc p => bind (int_of (find_htmid_slow fuel p max_level)) (fun h => Ok (acc ++ [h]))) [] ps)
         (fun l => Ok (l, c)).
