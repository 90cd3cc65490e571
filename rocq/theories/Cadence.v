(** Model of the rewards that drive a cadence.
    /repo/rubin_scheduler/scheduler/basis_functions/basis_functions.py:
    VisitRepeatBasisFunction (715-773), CadenceEnhanceBasisFunction (987-1055), trapezoid
    (1058-1080) and CadenceEnhanceTrapezoidBasisFunction.suppress_enhance (1132-1144).
    The features PairInNight and LastObserved are those of Feat.v, told of visits one at a
    time; rewards are asked for the whole sky (indx None).
    Not modelled: CadenceEnhanceTrapezoid as a class (its constructor divides None by 12 unless
    season_limit is given, and then every call reads conditions.sunRA, which does not exist),
    CadenceInSeason (which reads it too), rounding of floats. *)
From Coq Require Import List ZArith QArith Bool String.
From Verif Require Import Base IntRounded Feat BfCall MaskLoop.
Import ListNotations.
Open Scope nat_scope.

(** ** VisitRepeat *)
(** gap_min / 60.0 / 24.0; PairInNight divides by 24.0 * 60 *)
Definition days_of (gap : Q) : Q := (gap / 60 / 24)%Q.
Record vrst : Type := mkVr { vr_pairs : pnst; vr_last : nat -> option Q }.
Definition vr0 : vrst := mkVr pn0 (fun _ => None).
(** add_observation on both features.  An error in PairInNight reaches the caller before
    LastObserved is told. *)
Definition vr_add (bn : option string) (gmin gmax : Q) (s : vrst) (v : fvis) : vrst :=
  match pn_single bn (days_of gmin) (days_of gmax) (vr_pairs s) v with
  | Ok p => mkVr p (ld_one bn (vr_last s) v)
  | Raise _ => s
  end.
(** diff, with the NaN of pixels never observed replaced by 0 (lines 758-762) *)
Definition vr_diff (s : vrst) (t : Q) (h : nat) : Q := match vr_last s h with Some q => (t - q)%Q | None => 0%Q end.
Definition vr_map (npix : nat) (gmin gmax : Q) (npairs : Z) (s : vrst) (t : Q) : rmap :=
  let diff := map (vr_diff s t) (seq 0 npix) in
  let ge := keep [] (ir_ge diff [days_of gmin]) in
  let le := keep [] (ir_le diff [days_of gmax]) in
  fun h => if nth h ge false && nth h le false && (pn_map (vr_pairs s) h <? npairs)%Z &&
              match vr_last s h with Some _ => true | None => false end
           then EFin 1 else EFin 0.
Definition vr_cls (npix : nat) (gmin gmax : Q) (npairs : Z) (bn : option string) : cls vrst mcond fvis :=
  mkCls (vr_add bn gmin gmax) (fun _ _ => true) (fun s c => (s, vr_map npix gmin gmax npairs s (mc_mjd c))) false true true.

(** ** CadenceEnhance *)
(** np.sort of the two ends *)
Definition qsort2 (w : Q * Q) : Q * Q := if Qle_bool (fst w) (snd w) then w else (snd w, fst w).
Record cecfg : Type := mkCe {
  ce_npix : nat;                     (* pixels at the function's nside *)
  ce_nfeat : nat;                    (* pixels at the default nside, which LastObserved has *)
  ce_band : option string;
  ce_swin : Q * Q; ce_sval : er; ce_ewin : Q * Q; ce_eval : er;
  ce_area : option (nat -> Q)        (* apply_area *)
}.
(** apply_indx *)
Definition ce_ind (F : cecfg) : list nat :=
  match ce_area F with
  | None => seq 0 (ce_npix F)
  | Some a => filter (fun h => negb (Qeq_bool (a h) 0)) (seq 0 (ce_npix F))
  end.
(** conditions.mjd - feature[ind]: IndexError past the end of the feature; NaN, that is an error
    from IntRounded, where there was no visit. *)
Definition ce_diffs (nfeat : nat) (f : nat -> option Q) (t : Q) (ind : list nat) : res (list Q) :=
  if existsb (fun h => Nat.leb nfeat h) ind then Raise IndexError
  else fold_right (fun h acc => bind acc (fun l => match f h with Some q => Ok ((t - q)%Q :: l) | None => Raise ValueError end)) (Ok []) ind.
(** result[ind[np.where(flags)]] = v *)
Definition put (ind : list nat) (flags : list bool) (v : er) (r : rmap) : rmap :=
  fun h => if existsb (fun p => Nat.eqb (fst p) h && snd p) (combine ind flags) then v else r h.
Definition inside (d : list Q) (w : Q * Q) : res (list bool) :=
  bind (ir_gt d [fst w]) (fun a => bind (ir_lt d [snd w]) (fun b => Ok (map (fun p => fst p && snd p) (combine a b)))).
Definition ce_calc (F : cecfg) (f : nat -> option Q) (t : Q) : res rmap :=
  match ce_ind F with
  | [] => Ok (fun _ => EFin 0)       (* the number 0 *)
  | ind =>
      bind (ce_diffs (ce_nfeat F) f t ind) (fun d =>
      bind (inside d (qsort2 (ce_swin F))) (fun s =>
      bind (inside d (qsort2 (ce_ewin F))) (fun e =>
      Ok (put ind e (ce_eval F) (put ind s (ce_sval F) (fun _ => EFin 0))))))
  end.
(** A call after the visits [h]; every call calculates anew. *)
Definition ce_reward (F : cecfg) (h : list fvis) (t : Q) : res rmap :=
  ce_calc F (fold_left (ld_one (ce_band F)) h (fun _ => None)) t.

(** ** trapezoid, on one number *)
Definition trapezoid (x amp x0 width slope : Q) : Q :=
  let x2 := (x0 - width / 2)%Q in let x3 := (x0 + width / 2)%Q in
  let x1 := (x2 - amp / slope)%Q in let x4 := (x3 + amp / slope)%Q in
  let r := if Qle_bool x1 x && Qltb x x2 then (slope * (x - x1))%Q else 0%Q in
  let r := if Qle_bool x2 x && Qltb x x3 then amp else r in
  if Qle_bool x3 x && Qltb x x4 then (slope * (x4 - x))%Q else r.
Record tzcfg : Type := mkTz { d_width : Q; d_slope : Q; d_peak : Q; d_amp : Q; e_width : Q; e_slope : Q; e_peak : Q; e_amp : Q }.
Definition suppress_enhance (F : tzcfg) (x : Q) : Q :=
  (0 - trapezoid x (d_amp F) (d_peak F) (d_width F) (d_slope F) + trapezoid x (e_amp F) (e_peak F) (e_width F) (e_slope F))%Q.
