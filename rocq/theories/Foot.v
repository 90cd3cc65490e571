(** Model of footprints, the wanted share of visits over the sky as it changes with time.
    /repo/rubin_scheduler/scheduler/utils/footprints.py: make_rolling_footprints (68-253),
    _is_in_ra_range (256-262), slice_quad_galactic_cut (265-308), slice_wfd_area_quad (311-341),
    StepLine (374-383), StepSlopes (386-402), Footprint (405-530), ConstantFootprint (533-557),
    Footprints (560-593), PerFilterStep (650-701); basis_functions/rolling_funcs.py:
    FootprintBasisFunction (23-99).
    Angles are in turns (one for 2 pi).  The right ascension of each pixel and whether it is north
    of the galactic plane are inputs.  A map has one number per pixel; maps with NaN are not
    modelled. *)
From Coq Require Import List ZArith QArith Qround Bool.
From Verif Require Import Base VaryExpt.
Import ListNotations.
Open Scope nat_scope.

Definition qsum (l : list Q) : Q := fold_right Qplus 0%Q l.
(** numpy's % for a positive period *)
Definition qrem (x per : Q) : Q := (x - per * inject_Z (Qfloor (x / per)))%Q.

(** ** How the coverage of a pixel grows *)
(** StepLine.__call__ for one pixel *)
Definition line_at (per rise t0 t ph : Q) : Q :=
  let x := (t + ph - t0)%Q in
  let flat := (inject_Z (Qfloor (x / per)) * rise)%Q in
  let r := qrem x per in
  if Qltb x 0 then 0%Q
  else if Qltb (per / 2) r then (flat + (r - per / 2) * rise / ((1 # 2) * per))%Q else flat.
(** indexing of an array; negative numbers count from the end *)
Definition py_nth (l : list Q) (i : Z) : res Q :=
  let n := Z.of_nat (List.length l) in
  let j := if (i <? 0)%Z then (i + n)%Z else i in
  if (j <? 0)%Z then Raise IndexError
  else match nth_error l (Z.to_nat j) with Some x => Ok x | None => Raise IndexError end.
Fixpoint cumsum_from (s : Q) (l : list Q) : list Q :=
  match l with [] => [] | x :: r => (s + x)%Q :: cumsum_from (s + x)%Q r end.
Definition plateaus (steps : list Q) : list Q := map (fun x => (x - hd 0 steps)%Q) (cumsum_from 0 steps).
(** StepSlopes.__call__ for one pixel; both arrays are indexed for every pixel *)
Definition slopes_at (per : Q) (steps : list Q) (t0 t ph : Q) : res Q :=
  let x := (t + ph - t0)%Q in
  let season := Qfloor (x / per) in
  bind (py_nth (plateaus steps) season) (fun flat =>
  bind (py_nth steps (season + 1)) (fun up =>
  let r := qrem x per in
  Ok (if Qltb x 0 then 0%Q
      else if Qltb (per / 2) r then (flat + (r - per / 2) * up / ((1 # 2) * per))%Q else flat))).
(** PerFilterStep.__call__ for one band: the nights it is loaded, if listed *)
Definition loaded_at (survey_length : Q) (nights : option (list Q)) (t : Q) : Q :=
  match nights with
  | None => (t / survey_length)%Q
  | Some ns => (inject_Z (Z.of_nat (List.length (filter (fun n => Qle_bool n t) ns))) * (1 / inject_Z (Z.of_nat (List.length ns))))%Q
  end.

Inductive stepf : Type :=
| Line (per rise t0 : Q)
| Slopes (per : Q) (steps : list Q) (t0 : Q)
| PerFilter (survey_length : Q) (bands : list (option (list Q))).

(** one row per band, one column per pixel *)
Definition grid := list (list Q).
Definition cover (sf : stepf) (nb : nat) (t : Q) (phase : list Q) : res grid :=
  match sf with
  | Line per rise t0 => Ok (repeat (map (line_at per rise t0 t) phase) nb)
  | Slopes per steps t0 => bind (mapM (slopes_at per steps t0 t) phase) (fun r => Ok (repeat r nb))
  | PerFilter len bands => Ok (map (fun b => map (fun _ => loaded_at len b t) phase) bands)
  end.

(** ** Footprint *)
Definition map2 {A B C} (f : A -> B -> C) (a : list A) (b : list B) : list C := map (fun p => f (fst p) (snd p)) (combine a b).
Definition gmul (a b : grid) : grid := map2 (map2 Qmult) a b.
Definition gsub (a b : grid) : grid := map2 (map2 Qminus) a b.
Definition gadd (a b : grid) : grid := map2 (map2 Qplus) a b.
Definition gsum (g : grid) : Q := qsum (map qsum g).
Definition gdiv (g : grid) (c : Q) : grid := map (map (fun x => (x / c)%Q)) g.
Definition gzero (nb npix : nat) : grid := repeat (repeat 0%Q npix) nb.
Definition pix_phase (per sun ra : Q) : Q := (qrem (0 - ra + sun + (1 # 4)) 1 * per)%Q.

Record fp := mkFp { f_maps : grid; f_cur : grid; f_mjd : option Q; f_zero : grid; f_start : Q; f_phase : list Q; f_step : stepf }.
Definition new_fp (nb : nat) (start sun per : Q) (ras : list Q) (sf : stepf) : res fp :=
  let phase := map (pix_phase per sun) ras in
  bind (cover sf nb 0 phase) (fun z =>
  Ok (mkFp (gzero nb (List.length ras)) (gzero nb (List.length ras)) None z start phase sf)).
Definition set_row {A} (i : nat) (x : A) (l : list A) : list A := firstn i l ++ match skipn i l with [] => [] | _ :: r => x :: r end.
Definition set_fp (b : nat) (m : list Q) (f : fp) : fp :=
  mkFp (set_row b m (f_maps f)) (f_cur f) (f_mjd f) (f_zero f) (f_start f) (f_phase f) (f_step f).
Definition get_fp (b : nat) (f : fp) : list Q := nth b (f_maps f) [].
Definition same_mjd (o : option Q) (mjd : Q) : bool := match o with Some m => Qeq_bool m mjd | None => false end.
Definition normed (norm : bool) (g : grid) : grid := if norm then if Qeq_bool (gsum g) 0 then g else gdiv g (gsum g) else g.
(** _update_mjd: the date is kept before the step function is called *)
Definition update_fp (mjd : Q) (norm : bool) (f : fp) : fp * option exn :=
  if same_mjd (f_mjd f) mjd then (f, None)
  else match cover (f_step f) (List.length (f_maps f)) (mjd - f_start f) (f_phase f) with
       | Raise e => (mkFp (f_maps f) (f_cur f) (Some mjd) (f_zero f) (f_start f) (f_phase f) (f_step f), Some e)
       | Ok c => (mkFp (f_maps f) (normed norm (gmul (f_maps f) (gsub c (f_zero f)))) (Some mjd) (f_zero f) (f_start f) (f_phase f) (f_step f), None)
       end.
Definition ask_fp (mjd : Q) (norm : bool) (f : fp) : fp * res grid :=
  let r := update_fp mjd norm f in (fst r, match snd r with Some e => Raise e | None => Ok (f_cur (fst r)) end).
Definition estimate_fp (mjd nvisits pix_per_visit : Q) (f : fp) : fp * res grid :=
  let r := ask_fp mjd true f in
  (fst r, bind (snd r) (fun g => Ok (map (map (fun x => (x * pix_per_visit * nvisits)%Q)) g))).

(** ** Footprints, a sum of them *)
Record fps := mkFps { p_parts : list fp; p_maps : grid; p_cur : grid; p_mjd : option Q }.
Definition new_fps (parts : list fp) : res fps :=
  match parts with
  | [] => Raise IndexError
  | f :: _ => let z := map (map (fun _ => 0%Q)) (f_maps f) in Ok (mkFps parts (fold_left gadd (map f_maps parts) z) z None)
  end.
Fixpoint update_parts (mjd : Q) (cur : grid) (parts : list fp) : list fp * grid * option exn :=
  match parts with
  | [] => ([], cur, None)
  | f :: r => let u := update_fp mjd false f in
              match snd u with
              | Some e => (fst u :: r, cur, Some e)
              | None => let k := update_parts mjd (gadd cur (f_cur (fst u))) r in (fst u :: fst (fst k), snd (fst k), snd k)
              end
  end.
Definition ask_fps (mjd : Q) (norm : bool) (f : fps) : fps * res grid :=
  if same_mjd (p_mjd f) mjd then (f, Ok (p_cur f))
  else match update_parts mjd (map (map (fun _ => 0%Q)) (p_maps f)) (p_parts f) with
       | (parts, cur, Some e) => (mkFps parts (p_maps f) cur (Some mjd), Raise e)
       | (parts, cur, None) => let g := normed norm cur in (mkFps parts (p_maps f) g (Some mjd), Ok g)
       end.

(** ** Rolling *)
(** np.roll of a list *)
Definition np_roll {A} (l : list A) (k : Z) : list A :=
  let n := List.length l in
  let j := n - Z.to_nat (k mod Z.of_nat n) in skipn j l ++ firstn j l.
Definition swap_ends (l : list Q) : list Q :=
  match l with
  | [] => [] | [x] => [x; x]
  | _ => last l 0%Q :: removelast (tl l) ++ [hd 0%Q l]
  end.
Definition cycles (n : nat) (l : list Q) : list Q := List.concat (repeat l n).
(** the steps of the slices in the first half of the sky, then those of the delayed half *)
Definition roll_of (nslice : nat) (scale : Q) (order : Z) : list Q :=
  let D := (1 - scale)%Q in
  let U := (inject_Z (Z.of_nat nslice) - D * (inject_Z (Z.of_nat nslice) - 1))%Q in
  np_roll (U :: repeat D (nslice - 1)) order.
Definition one_slopes (n_start n_end n_cycles : nat) (cycle : list Q) : list Q := repeat 1%Q n_start ++ cycles n_cycles cycle ++ repeat 1%Q n_end.
Definition slice_cycle (nslice : nat) (scale : Q) (order : Z) (uniform : bool) (i : nat) : list Q :=
  np_roll (roll_of nslice scale order) (Z.of_nat i) ++ (if uniform then [1%Q] else []).
Definition all_slopes (nslice : nat) (scale : Q) (order : Z) (n_start n_end n_cycles : nat) (uniform : bool) : list (list Q) :=
  map (fun i => one_slopes n_start n_end n_cycles (slice_cycle nslice scale order uniform i)) (seq 0 nslice) ++
  map (fun i => one_slopes n_start n_end n_cycles (swap_ends (slice_cycle nslice scale order uniform i))) (seq 0 nslice).

(** ** Slices of the sky *)
Definition in_ra_range (ra low high : Q) : bool :=
  let l := qrem low 1 in let h := qrem high 1 in
  if Qle_bool l h then Qle_bool l ra && Qle_bool ra h else Qle_bool l ra || Qle_bool ra h.
(** slice_wfd_area_quad for [m] pixels *)
Definition splits (nslice m : nat) : list nat := 0 :: map (fun k => m * (k + 1) / (nslice * 2)) (seq 0 (nslice * 2)).
Definition py_slice {A} (l : list A) (a b : nat) : list A := firstn (b - a) (skipn a l).
Definition piece (nslice : nat) (indx : list nat) (i : nat) : list nat :=
  let s := splits nslice (List.length indx) in py_slice indx (nth (i - 1) s 0) (nth i s 0).
(** [wfd] sorted and without repeats, as np.intersect1d returns it *)
Definition slice_indx (nslice : nat) (north : nat -> bool) (wfd : list nat) (j : nat) : list nat :=
  let n := filter north wfd in let s := filter (fun p => negb (north p)) wfd in
  flat_map (fun i => piece nslice n i ++ piece nslice s i) [j + 1; j + 1 + nslice].
Definition mem (p : nat) (l : list nat) : bool := existsb (Nat.eqb p) l.
(** the maps of the rolling footprints: outside the wide area, then the slices *)
Definition keep_at (sel : nat -> bool) (m : list Q) : list Q := map (fun px => if sel (fst px) then snd px else 0%Q) (combine (seq 0 (List.length m)) m).
Definition roll_maps (nslice : nat) (north : nat -> bool) (wfd : list nat) (ra : nat -> Q) (sun : Q) (uniform : bool) (m : list Q) : list (list Q) :=
  let first p := in_ra_range (ra p) (sun + (3 # 4)) (sun + (1 # 4)) in
  let second p := in_ra_range (ra p) (sun + (1 # 4)) (sun + (3 # 4)) in
  keep_at (fun p => negb (mem p wfd)) m ::
  map (fun j => keep_at (fun p => mem p wfd && mem p (slice_indx nslice north wfd j) && (if uniform then first p else true)) m) (seq 0 nslice) ++
  map (fun j => keep_at (fun p => uniform && mem p wfd && mem p (slice_indx nslice north wfd j) && second p) m) (seq 0 nslice).

(** make_rolling_footprints; [maps] has one map per band *)
Definition year : Q := 36525 # 100.
Definition set_all (maps : grid) (f : fp) : fp := mkFp maps (f_cur f) (f_mjd f) (f_zero f) (f_start f) (f_phase f) (f_step f).
Definition make_rolling (maps : grid) (start sun : Q) (ras : list Q) (north : nat -> bool) (wfd : list nat)
    (nslice : nat) (scale : Q) (order : Z) (n_start n_end n_cycles : nat) (uniform : bool) : res fps :=
  let nb := List.length maps in
  let steps := Line year 1 0 :: map (fun s => Slopes year s 0) (all_slopes nslice scale order n_start n_end n_cycles uniform) in
  bind (mapM (fun ks => bind (new_fp nb start sun year ras (snd ks)) (fun f =>
    Ok (set_all (map (fun m => nth (fst ks) (roll_maps nslice north wfd (fun p => nth p ras 0%Q) sun uniform m) []) maps) f)))
    (combine (seq 0 (List.length steps)) steps)) new_fps.

(** ** FootprintBasisFunction *)
(** [counts]: NObservations of each band, [all] that of every band; [oob] as kept by the constructor *)
Definition oob_of (m : list Q) : list bool := map (fun x => Qle_bool x 0) m.
Definition foot_value (wanted : list Q) (all counts : list Z) (oob : list bool) (out : er) : list er :=
  let n := inject_Z (fold_right Z.add 0%Z all) in
  map (fun p : bool * (Q * Z) => if fst p then out else EFin (fst (snd p) * n - inject_Z (snd (snd p)))%Q) (combine oob (combine wanted counts)).
(** NObservations without limits on seeing or notes (features.py 275-374): a visit is given as one
    pair of band and pixel for every pixel it covers *)
Definition nobs (bn : option nat) (npix : nat) (vis : list (nat * nat)) : list Z :=
  map (fun p => Z.of_nat (List.length (filter (fun v => match bn with None => true | Some b => Nat.eqb (fst v) b end && Nat.eqb (snd v) p) vis))) (seq 0 npix).
(** the basis function of band [b] *)
Definition foot_reward (w maps : grid) (npix b : nat) (out : er) (vis : list (nat * nat)) : list er :=
  foot_value (nth b w []) (nobs None npix vis) (nobs (Some b) npix vis) (oob_of (nth b maps [])) out.
