(** Model of [Conditions.alt_az_shadow_mask].
    /repo/rubin_scheduler/scheduler/features/conditions.py lines 585-730.
    Angles are exact rationals, [tp] is the number used for two pi.  [lt] is the strict
    comparison of IntRounded altitudes, element by element (its tolerance, which depends on
    the whole vector, is the subject of IntRounded.v).  [fut t] lists (altitude, azimuth)
    of every pixel [t] days from now, [grow] is _hp_grow_mask. *)
From Coq Require Import List ZArith QArith Qround Qabs Bool.
From Verif Require Import Base.
Import ListNotations.
Open Scope Q_scope.

(** Lines 633-642. *)
Definition shadow_times (shadow step : Q) : list Q :=
  let n := Qfloor (shadow / step) in
  if (0 <? n)%Z then
    let ts := map (fun k => inject_Z (Z.of_nat k) * step) (seq 0 (Z.to_nat n)) in
    if existsb (Qeq_bool shadow) ts then ts else ts ++ [shadow]
  else [shadow].

(** Python's [%] for a positive divisor. *)
Definition fmod (x m : Q) : Q := x - m * inject_Z (Qfloor (x / m)).

Record limits : Type := mkLim {
  sky_alt : list (Q * Q); tel_alt : option (Q * Q);
  sky_az : list (Q * Q); tel_az : option (Q * Q) }.

Section Shadow.
Variable lt : Q -> Q -> bool.
Variable tp : Q.
Variable grow : list nat -> list nat.
Variable now : list (Q * Q).
Variable fut : Q -> list (Q * Q).

Definition alt_bad (lo hi a b : Q) : bool := lt a lo || lt hi a || lt b lo || lt hi b.  (* lines 656-659 *)
(** One azimuth range, now and future; a range of a full turn excludes nothing. *)
Definition az_bad (lo hi a b : Q) : bool :=     (* lines 697-702, 708-713, 718-723 *)
  Qltb (Qabs (hi - lo)) tp &&
  (Qltb (fmod (hi - lo) tp) (fmod (a - lo) tp) || Qltb (fmod (hi - lo) tp) (fmod (b - lo) tp)).

(** One pass of the loop, lines 644-723: mask so far, and [min_az], [max_az], which the
    loop over [sky_az_limits] (lines 706-708) overwrites. *)
Definition pix_bad (L : limits) (alim zlim : Q * Q) (p : (Q * Q) * (Q * Q)) : bool :=
  let '((a, z), (b, y)) := p in
  alt_bad (fst alim) (snd alim) a b
  || match sky_alt L with [] => false | l => forallb (fun r => alt_bad (fst r) (snd r) a b) l end
  || match tel_alt L with Some r => alt_bad (fst r) (snd r) a b | None => false end
  || az_bad (fst zlim) (snd zlim) z y
  || match sky_az L with [] => false | l => forallb (fun r => az_bad (fst r) (snd r) z y) l end
  || match tel_az L with Some r => az_bad (fst r) (snd r) z y | None => false end.
Definition mask_step (L : limits) (alim : Q * Q) (st : list bool * (Q * Q)) (t : Q) : list bool * (Q * Q) :=
  let '(mask, zlim) := st in
  (map (fun p => fst p || pix_bad L alim zlim (snd p)) (combine mask (combine now (fut t))),
   last (sky_az L) zlim).
Definition mask_loop (L : limits) (alim zlim : Q * Q) (ts : list Q) : list bool :=
  fst (fold_left (mask_step L alim) ts (map (fun _ => false) now, zlim)).
(** Lines 725-730. *)
Definition set_mask (mask : list bool) (ix : list nat) : list bool :=
  map (fun p => snd p || existsb (Nat.eqb (fst p)) ix) (combine (seq 0 (length mask)) mask).
Definition shadow_mask (L : limits) (alim zlim : Q * Q) (shadow step pad : Q) : list bool :=
  let m := mask_loop L alim zlim (shadow_times shadow step) in
  if Qltb 0 pad then set_mask m (grow (np_where (fun b => b) m)) else m.
End Shadow.

(** [functools.lru_cache(maxsize=5)], line 586: keyed on the arguments (and the object),
    the most recent first; the limits are not part of the key. *)
Section Cache.
Variables K V E : Type.
Variable keq : K -> K -> bool.
Variable compute : K -> E -> V.
Fixpoint cfind (c : list (K * V)) (k : K) : option V :=
  match c with [] => None | (a, v) :: r => if keq a k then Some v else cfind r k end.
Definition cdel (c : list (K * V)) (k : K) : list (K * V) := filter (fun p => negb (keq (fst p) k)) c.
Definition call (size : nat) (c : list (K * V)) (k : K) (e : E) : list (K * V) * V :=
  match cfind c k with
  | Some v => ((k, v) :: cdel c k, v)
  | None => let v := compute k e in (firstn size ((k, v) :: c), v)
  end.
Fixpoint calls (size : nat) (c : list (K * V)) (h : list (K * E)) : list V :=
  match h with
  | [] => []
  | (k, e) :: r => let '(c1, v) := call size c k e in v :: calls size c1 r
  end.
End Cache.
