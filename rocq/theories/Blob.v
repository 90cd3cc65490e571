(** Model of the Markov decision surveys.
    /repo/rubin_scheduler/scheduler/surveys/base_survey.py lines 621-765
    (BaseMarkovSurvey), /repo/rubin_scheduler/scheduler/surveys/surveys.py
    (GreedySurvey 81-107, BlobSurvey 300-544, BlobPairsSurvey 593-657),
    /repo/rubin_scheduler/utils/healpy_utils.py lines 312-387 (hp_grow_argsort) and
    /repo/rubin_scheduler/scheduler/utils/utils.py lines 349-367 (int_binned_stat).

    Pixels are numbered 0..npix-1.  Not modelled: smoothing of the reward map
    (smoothing_kernel is None), the sphere geometry (distances and the map from
    pixels to fields are arbitrary functions), the random numbers behind the
    rotations of the tessellation. *)
From Coq Require Import List ZArith QArith Qround Bool String Lia.
From Verif Require Import Base IntRounded Obs Queue Core Surveys.
Import ListNotations.
Open Scope nat_scope.

Definition er_isfin (x : er) : bool := match x with EFin _ => true | _ => false end.
Definition get_pix (m : list er) (i : nat) : er := nth i m ENaN.

(** [np.min(np.where(m == np.nanmax(m)))]: the first pixel attaining the maximum,
    None (np.min of an empty array) when all pixels are NaN. *)
Definition peak (m : list er) : option nat := hd_error (np_where (fun x => er_eqb x (nanmax m)) m).

(** ** Feasibility and reward *)
Section Area.
Context {W : Type}.
Variable near : nat -> nat -> bool.   (* distance from the peak below max_radius_peak *)
Variable pixdeg : Q.                  (* nside2pixarea(nside, degrees=True) *)
Variable conv : Q.                    (* (pi / 180) ** 2 *)

(** [calc_reward_basic], base_survey.py lines 722-728. *)
Definition basic_reward (l : list (bfun W * Q)) (c : scond W) : res val := wsum (VS (EFin 0)) l c.

(** [all(bf.check_feasibility)] as the loop leaves [result]: None when the list is
    empty and [result] is never assigned. *)
Definition bf_loop (bs : list (bfun W)) (c : scond W) : option bool :=
  match bs with [] => None | _ => Some (feasible bs c) end.

(** [_check_area], surveys.py lines 593-609 and base_survey.py lines 634-643: the
    number of pixels that are not NaN near the peak, times the pixel area in
    square degrees, against a requirement stored in steradians. *)
Definition check_area (m : list er) (area_sr : Q) : bool :=
  if existsb er_isfin m then
    match peak m with
    | None => false
    | Some p =>
        let valid := filter (fun i => negb (er_isnan (get_pix m i)) && near p i) (seq 0 (List.length m)) in
        negb (Qltb (inject_Z (Z.of_nat (List.length valid)) * pixdeg) area_sr)
    end
  else false.

(** [BaseMarkovSurvey._check_feasibility], base_survey.py lines 621-644.
    [geometry] says whether the object has the attributes ra, dec,
    max_radius_peak and pixarea, which only BlobSurvey sets (surveys.py lines
    289, 317, 321).  [area] is the area_required argument in square degrees.
    A scalar reward together with an area requirement is outside the model. *)
Definition markov_feasible (geometry : bool) (area : option Q) (l : list (bfun W * Q)) (c : scond W) : res bool :=
  match bf_loop (map fst l) c with
  | Some false => Ok false
  | r =>
      let fin := fun (ok : bool) => match r with
                   | Some true => Ok ok
                   | _ => if ok then Raise UnboundLocalError else Ok false end in
      match area with
      | None => fin true
      | Some a =>
          bind (basic_reward l c) (fun v =>
          match v with
          | VS _ => Raise RuntimeError
          | VM m => if existsb er_isfin m then
                      if geometry then fin (check_area m (a * conv)) else Raise AttributeError
                    else fin false
          end)
      end
  end.

(** The number of pixels that are numbers or infinite (abs(reward) >= 0). *)
Definition good_pix (m : list er) : list nat := filter (fun i => negb (er_isnan (get_pix m i))) (seq 0 (List.length m)).

(** [BaseMarkovSurvey.calc_reward_function], lines 730-747, used by GreedySurvey. *)
Definition markov_reward (area : option Q) (l : list (bfun W * Q)) (c : scond W) : res val :=
  bind (markov_feasible false area l c) (fun ok =>
  if ok then
    bind (basic_reward l c) (fun v =>
    match area, v with
    | None, _ => Ok v
    | Some a, VM m =>
        if Qltb (inject_Z (Z.of_nat (List.length (good_pix m))) * (pixdeg * conv)) (a * conv) then Ok (VS ENInf) else Ok v
    | Some _, VS _ => Raise RuntimeError
    end)
  else Ok (VS ENInf)).

(** [BlobSurvey.calc_reward_function], surveys.py lines 407-443. *)
Definition blob_reward (area : option Q) (l : list (bfun W * Q)) (c : scond W) : res val :=
  bind (markov_feasible true area l c) (fun ok =>
  if ok then
    bind (basic_reward l c) (fun v =>
    match area, v with
    | None, _ => Ok v
    | Some a, VM m =>
        match peak m with
        | None => Ok (VS ENInf)
        | Some p =>
            let good := filter (near p) (good_pix m) in
            if Qltb (inject_Z (Z.of_nat (List.length good)) * (pixdeg * conv)) (a * conv) then Ok (VS ENInf) else Ok v
        end
    | Some _, VS _ => Raise RuntimeError
    end)
  else Ok (VS ENInf)).

(** [BlobPairsSurvey._check_feasibility], surveys.py lines 629-657.  [extra] pairs
    the additional area limits (square degrees) with the additional masks. *)
Definition mask_mul (x y : er) : er :=   (* reward * mask, masks hold 0, 1, NaN or -inf *)
  match y with
  | EFin q => er_scale x q
  | ENaN => ENaN
  | ENInf => match x with
             | ENaN => ENaN
             | EFin q => er_scale ENInf q
             | ENInf => EPInf
             | EPInf => ENInf
             end
  | EPInf => match x with
             | ENaN => ENaN
             | EFin q => er_scale EPInf q
             | ENInf => ENInf
             | EPInf => EPInf
             end
  end.
Definition apply_mask (m : list er) (v : val) : list er :=
  match v with
  | VS x => map (fun y => mask_mul y x) m
  | VM k => map (fun p => mask_mul (fst p) (snd p)) (combine m k)
  end.
Definition pairs_feasible (area : option Q) (extra : option (list (Q * bfun W))) (l : list (bfun W * Q)) (c : scond W) : res bool :=
  match bf_loop (map fst l) c with
  | Some false => Ok false
  | r =>
      bind (match area with
            | None => match r with Some b => Ok b | None => Raise UnboundLocalError end
            | Some a =>
                bind (basic_reward l c) (fun v =>
                match v with VS _ => Raise RuntimeError | VM m => Ok (check_area m (a * conv)) end)
            end) (fun ok =>
      if ok then Ok true
      else match extra with
           | None => Ok false
           | Some ex =>
               bind (basic_reward l c) (fun v =>
               match v with
               | VS _ => Raise RuntimeError
               | VM m => Ok (existsb (fun p => check_area (apply_mask m (bf_val (snd p) c)) (fst p * conv)) ex)
               end)
           end)
  end.

(** [BlobPairsSurvey.calc_reward_function], lines 611-627. *)
Definition pairs_reward (area : option Q) (extra : option (list (Q * bfun W))) (l : list (bfun W * Q)) (c : scond W) : res val :=
  bind (pairs_feasible area extra l c) (fun ok => if ok then basic_reward l c else Ok (VS ENInf)).

End Area.

(** ** Block size *)
(** np.round: nearest integer, halves to even. *)
Definition round_even (q : Q) : Z :=
  let f := Qfloor q in
  let d := (q - inject_Z f)%Q in
  if Qltb d (1 # 2) then f
  else if Qltb (1 # 2) d then (f + 1)%Z
  else if Z.even f then f else (f + 1)%Z.

(** The settings of a blob survey, surveys.py lines 277-312. *)
Record bset : Type := mkBset {
  b_paired : bool;        (* bandname2 is not None *)
  b_same : bool;          (* bandname1 == bandname2 *)
  b_ideal : Q;            (* ideal_pair_time, minutes *)
  b_max : option Q;       (* max_pair_time, minutes *)
  b_change : Q;           (* band_change_approx, seconds *)
  b_slew : Q; b_exp : Q; b_read : Q; b_nexp : Z;
  b_twilight_scale : bool; b_in_twilight : bool; b_check_sched : bool }.

(** Lines 299-313, days. *)
Definition time_for (s : bset) (pair_minutes : Q) : Q :=
  let change := if b_same s then 0%Q else b_change s in
  if b_paired s then ((pair_minutes * 2 + change / 60) / 60 / 24)%Q else (pair_minutes / 24 / 60)%Q.
Definition time_needed (s : bset) : Q := time_for s (b_ideal s).
Definition max_time_needed (s : bset) : Q := time_for s (match b_max s with Some m => m | None => b_ideal s end).

(** Seconds per visit. *)
Definition visit_time (s : bset) : Q := (b_slew s + b_exp s + b_read s * inject_Z (b_nexp s - 1))%Q.

(** What the conditions say about the breaks ahead. *)
Record breaks : Type := mkBreaks {
  k_mjd : Q; k_n18_rise : Q; k_n12_rise : Q; k_n18_set : Q; k_sched : list Q }.

Definition Qmin_list (d : Q) (l : list Q) : Q := fold_left (fun a x => if Qltb x a then x else a) l d.

(** [_set_block_size], lines 337-374: n_ideal_blocks and available_time, None
    while that is unbound. *)
Definition block_state (s : bset) (k : breaks) : Z * option Q :=
  let T := time_needed s in
  let st0 := if b_twilight_scale s
             then (round_even ((k_n18_rise k - k_mjd k) / T), Some (k_n18_rise k - k_mjd k)%Q)
             else (4%Z, None) in
  let st1 := if b_check_sched s then
               match k_sched k with
               | [] => st0
               | x :: r =>
                   let a := (Qmin_list x r - k_mjd k)%Q in
                   let n := round_even (a / T) in
                   if (n <? fst st0)%Z then (n, Some a) else st0
               end
             else st0 in
  if b_in_twilight s then
               let times := filter (fun t => Qltb 0 t) [(k_n12_rise k - k_mjd k)%Q; (k_n18_set k - k_mjd k)%Q] in
               let a := match times with [] => 0%Q | x :: r => Qmin_list x r end in
               let n := round_even (a / T) in
               ((if (n <? fst st1)%Z then n else fst st1), Some a)
  else st1.

(** Lines 376-405: nvisit_block. *)
Definition block_size (s : bset) (k : breaks) : res Z :=
  let st2 := block_state s k in
  bind (if (2 <=? fst st2)%Z then Ok (Qfloor (b_ideal s * 60 / visit_time s))
        else match snd st2 with
             | None => Raise UnboundLocalError
             | Some a =>
                 let best := if Qle_bool a (max_time_needed s) then a else (a / 2)%Q in
                 let n := Qfloor (best * 3600 * 24 / visit_time s) in
                 Ok (if b_paired s then Qfloor (inject_Z n / 2) else n)
             end) (fun n => Ok (if (n <=? 0)%Z then 1%Z else n)).

(** ** Sorting pixels and fields *)
(** Order of np.sort on floats: NaN last. *)
Definition er_sort_le (x y : er) : bool :=
  match x, y with
  | _, ENaN => true
  | ENaN, _ => false
  | ENInf, _ => true
  | _, ENInf => false
  | _, EPInf => true
  | EPInf, _ => false
  | EFin a, EFin b => Qle_bool a b
  end.
(** Stable insertion: [kind="mergesort"]. *)
Fixpoint key_ins {A} (key : A -> er) (x : A) (l : list A) : list A :=
  match l with
  | [] => [x]
  | y :: r => if er_sort_le (key x) (key y) then x :: l else y :: key_ins key x r
  end.
Definition key_sort {A} (key : A -> er) (l : list A) : list A := fold_right (key_ins key) [] l.

(** [np.unique] on field ids. *)
Fixpoint zins (z : Z) (l : list Z) : list Z :=
  match l with
  | [] => [z]
  | y :: r => if (z <? y)%Z then z :: l else if (z =? y)%Z then l else y :: zins z r
  end.
Definition unique_sorted (l : list Z) : list Z := fold_right zins [] l.

(** [GreedySurvey.generate_observations_rough], surveys.py lines 87-93: the fields
    pointed at.  [hp2f] is hp2fields. *)
Definition greedy_pix (m : list er) (block : nat) : list nat :=
  let order := rev (key_sort (get_pix m) (seq 0 (List.length m))) in
  firstn block (filter (fun i => er_isfin (get_pix m i)) order).
Definition greedy_fields (hp2f : nat -> Z) (m : list er) (block : nat) : list Z :=
  unique_sorted (map hp2f (greedy_pix m block)).

(** [int_binned_stat(ids, values, statistic=np.nanmax)] as (id, statistic) pairs. *)
Definition binned_max (hp2f : nat -> Z) (m : list er) (pix : list nat) : list (Z * er) :=
  map (fun u => (u, nanmax (map (get_pix m) (filter (fun i => (hp2f i =? u)%Z) pix)))) (unique_sorted (map hp2f pix)).

(** [simple_order_sort], lines 445-468. *)
Definition simple_sort (hp2f : nat -> Z) (m : list er) (nvisit : nat) : list Z :=
  let pix := filter (fun i => er_isfin (get_pix m i)) (seq 0 (List.length m)) in
  let ur := filter (fun p => er_isfin (snd p)) (binned_max hp2f m pix) in
  firstn nvisit (map fst (rev (key_sort snd ur))).

(** ** Growing a blob *)
(** hp_grow_argsort.  [nb] lists the neighbours of a pixel slot by slot, -1 where
    there is none.  [off] lists the (pixel, slot) pairs that are masked. *)
Section Grow.
Variable nb : nat -> list Z.
Variable m : list er.

(** Python indexing of the neighbour table: -1 is the last pixel. *)
Definition py_pix (z : Z) : nat := if (z <? 0)%Z then List.length m - 1 else Z.to_nat z.

Definition is_off (off : list (nat * nat)) (p s : nat) : bool :=
  existsb (fun e => Nat.eqb (fst e) p && Nat.eqb (snd e) s) off.

(** Valid neighbours of one pixel in slot order. *)
Definition slots (p : nat) : list (nat * Z) := combine (seq 0 (List.length (nb p))) (nb p).
Definition valid_nb (off : list (nat * nat)) (p : nat) : list Z :=
  map snd (filter (fun e => negb (is_off off p (fst e))) (slots p)).

(** Lines 353-356: no neighbour in that direction. *)
Definition off0 : list (nat * nat) :=
  flat_map (fun p => map (fun e => (p, fst e)) (filter (fun e => (snd e =? -1)%Z) (slots p))) (seq 0 (List.length m)).

(** Lines 367-369 and 382-384: mask the entries pointing back at [cur] in the
    rows of the pixels [qs]. *)
Definition mask_back (cur : nat) (qs : list Z) : list (nat * nat) :=
  flat_map (fun z => map (fun e => (py_pix z, fst e))
                         (filter (fun e => (snd e =? Z.of_nat cur)%Z) (slots (py_pix z)))) qs.

(** The loop, lines 371-386, for the next [n] positions. *)
Fixpoint grow (n : nat) (ord : list nat) (off : list (nat * nat)) : res (list nat) :=
  match n with
  | O => Ok ord
  | S n' =>
      let cand := flat_map (valid_nb off) ord in
      match cand with
      | [] => Raise ValueError            (* np.nanmax of an empty array *)
      | _ =>
          let vals := map (fun z => get_pix m (py_pix z)) cand in
          match hd_error (np_where (fun x => er_eqb x (nanmax vals)) vals) with
          | None => Ok ord
          | Some k =>
              let cur := py_pix (nth k cand 0%Z) in
              grow n' (ord ++ [cur]) (mask_back cur (nb cur) ++ off)
          end
      end
  end.

Definition grow_argsort : res (list nat) :=
  match peak m with
  | None => Raise ValueError              (* min() of an empty array *)
  | Some p =>
      let off1 := mask_back p (valid_nb off0 p) ++ off0 in
      grow (List.length (filter (fun x => negb (er_isnan x)) m) - 1) [p] off1
  end.

End Grow.

(** Keep first occurrences: np.unique(return_index) and sorting back, lines
    508-512. *)
Fixpoint keep_first (seen l : list Z) : list Z :=
  match l with
  | [] => []
  | x :: r => if existsb (Z.eqb x) seen then keep_first seen r else x :: keep_first (x :: seen) r
  end.

(** [BlobSurvey.generate_observations_rough], lines 470-544: the fields of one
    pass over the blob. *)
Definition pass_fields (nb : nat -> list Z) (hp2f : nat -> Z) (grow_blob : bool) (nvisit : nat) (m : list er) : res (list Z) :=
  if grow_blob then
    bind (grow_argsort nb m) (fun o =>
    let fs := keep_first [] (map hp2f o) in
    Ok (if Nat.ltb (List.length fs) nvisit then simple_sort hp2f m nvisit else firstn nvisit fs))
  else Ok (simple_sort hp2f m nvisit).

(** Lines 474-479: pixels far from the peak are set to NaN. *)
Definition mask_far (far : nat -> nat -> bool) (m : list er) : res (list er) :=
  match peak m with
  | None => Raise ValueError
  | Some p => Ok (map (fun i => if far p i then ENaN else get_pix m i) (seq 0 (List.length m)))
  end.

(** The passes, lines 480-536.  The first works on the masked reward, every later
    one on the reward as recomputed by [super().generate_observations_rough],
    which is not masked again.  [hp2f k] is the tessellation of pass [k] and
    [order k] the order found by order_observations.  A pass without fields
    returns an empty list for the whole call. *)
Fixpoint later_passes (nb : nat -> list Z) (hp2f : nat -> nat -> Z) (grow_blob : bool) (nvisit : nat) (m : list er)
    (order : nat -> list Z -> list Z) (k n : nat) : res (option (list (list Z))) :=
  match n with
  | O => Ok (Some [])
  | S n' =>
      bind (pass_fields nb (hp2f k) grow_blob nvisit m) (fun fs =>
      match fs with
      | [] => Ok None
      | _ => bind (later_passes nb hp2f grow_blob nvisit m order (S k) n') (fun r =>
             Ok (option_map (cons (order k fs)) r))
      end)
  end.
Definition blob_passes (nb : nat -> list Z) (hp2f : nat -> nat -> Z) (far : nat -> nat -> bool) (grow_blob : bool)
    (nvisit : nat) (m : list er) (order : nat -> list Z -> list Z) (n_visits : nat) : res (option (list (list Z))) :=
  bind (mask_far far m) (fun mm =>
  match n_visits with
  | O => Raise ValueError                 (* np.concatenate of an empty list *)
  | S n' =>
      bind (pass_fields nb (hp2f 0) grow_blob nvisit mm) (fun fs =>
      match fs with
      | [] => Ok None
      | _ => bind (later_passes nb hp2f grow_blob nvisit m order 1 n') (fun r =>
             Ok (option_map (cons (order 0 fs)) r))
      end)
  end).

(** ** Rotations of the tessellation *)
Inductive dither : Type := DNight | DCall | DNone.
(** Rotation indices: a night, or a night and a call number. *)
Inductive spin : Type := SInit | SNight (n : Z) | SCall (n : Z) (k : nat).
Record dst : Type := mkDst { d_night : Z; d_cur : Z; d_call : nat; d_spin : spin }.
Definition dst0 : dst := mkDst (-1) 0 0 SInit.

(** [BaseMarkovSurvey.generate_observations_rough], base_survey.py lines 752-763. *)
Definition dither_step (d : dither) (s : dst) (night : Z) : dst :=
  match d with
  | DNight => if (night =? d_night s)%Z then s else mkDst night (d_cur s) (d_call s) (SNight night)
  | DCall =>
      let s1 := if (night =? d_cur s)%Z then s else mkDst (d_night s) night 0 (d_spin s) in
      mkDst (d_night s1) (d_cur s1) (S (d_call s1)) (SCall night (d_call s1))
  | DNone => s
  end.

(** The band of each pass, surveys.py lines 482-487 and 529.  Assigning None to a
    string column stores the text "None". *)
Definition pass_band (band1 : string) (band2 : option string) (k : nat) : string :=
  match k with
  | O => band1
  | _ => match band2 with Some b => b | None => "None"%string end
  end.
Definition blob_rows (band1 : string) (band2 : option string) (passes : list (list Z)) : list (string * Z) :=
  flat_map (fun p => map (fun f => (pass_band band1 band2 (fst p), f)) (snd p))
           (combine (seq 0 (List.length passes)) passes).
