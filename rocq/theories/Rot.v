(** Model of the camera rotator conversions and of the code that chooses rotator angles.
    /repo/rubin_scheduler/utils/rotskypos.py (lines 87-184);
    scheduler/model_observatory/model_observatory.py: _update_rot_sky_pos (648-712);
    scheduler/detailers/detailer.py: RotspUpdateDetailer (115-170), ParallacticRotationDetailer
    (628-663), Comcam90rotDetailer (696-726); scheduler/detailers/dither_detailer.py:
    CameraRotDetailer (434-546), CameraSmallRotPerObservationListDetailer (549-633).
    Angles are exact numbers and [pi] is any positive one; the parallactic angle of an
    observation is an input; random numbers are inputs.  An angle that is NaN is [None]. *)
From Coq Require Import List ZArith QArith Qround Qabs Bool String.
From Verif Require Import Base Shadow.
Import ListNotations.
Open Scope Q_scope.

(** _wrap_180, lines 100-123. *)
Definition wrap_180 (pi x : Q) : Q :=
  let a := fmod x (2 * pi) in if Qltb pi a then a - 2 * pi else a.

(** RotationConverter, RotationConverterComCam, RotationConverterAuxtel, lines 126-184. *)
Inductive tel := Rubin | ComCam | Auxtel.
Definition rt2rs (pi : Q) (t : tel) (rottel pa : Q) : Q :=
  match t with
  | Rubin => fmod (pa - rottel - pi / 2) (2 * pi)
  | ComCam => fmod (pa - rottel) (2 * pi)
  | Auxtel => fmod (rottel - pa) (2 * pi)
  end.
Definition rs2rt (pi : Q) (t : tel) (rotsky pa : Q) : Q :=
  match t with
  | Rubin => wrap_180 pi (fmod (pa - rotsky - pi / 2) (2 * pi))
  | ComCam => wrap_180 pi (fmod (pa - rotsky) (2 * pi))
  | Auxtel => wrap_180 pi (fmod (rotsky + pa) (2 * pi))
  end.

(** smallest_signed_angle, scheduler/utils/utils.py lines 50-63. *)
Definition ssa (pi a1 a2 : Q) : Q :=
  let x := fmod a1 (2 * pi) in let y := fmod a2 (2 * pi) in
  let a := fmod (x - y) (2 * pi) in let b := fmod (y - x) (2 * pi) in
  if Qltb a b then - a else b.

(** ModelObservatory._update_rot_sky_pos, model_observatory.py lines 648-712.  [rs], [rt]: the
    observation's rotSkyPos and rotTelPos; [cur]: the camera's rotSkyPos.  The minimum of no
    candidates raises, and so does assigning two candidates to the one observation. *)
Definition qminl (x : Q) (l : list Q) : Q := fold_left (fun m y => if Qltb y m then y else m) l x.
Definition update_rot (pi : Q) (t : tel) (lo hi : Q) (cur : option Q) (resolve : bool)
    (rs rt : option Q) (pa : Q) : res (option Q * option Q) :=
  let finish s := Ok (s, match s with Some x => Some (rs2rt pi t x pa) | None => None end) in
  if resolve then
    match rs with
    | None => finish None
    | Some s =>
        let r := rs2rt pi t s pa in
        if Qltb r lo || Qltb hi r then
          let cands := map (fun d => r + d) [- (pi / 2); pi / 2; - pi; pi] in
          let valid := filter (fun c => Qltb lo c && Qltb c hi) cands in
          let now := match cur with None => 0 | Some c => rs2rt pi t c pa end in
          let diff c := Qabs (ssa pi now c) in
          match valid with
          | [] => Raise ValueError
          | v :: vs =>
              let best := qminl (diff v) (map diff vs) in
              match filter (fun c => Qeq_bool (diff c) best) valid with
              | [c] => finish (Some (rt2rs pi t c pa))
              | _ => Raise ValueError
              end
          end
        else finish (Some (rt2rs pi t r pa))
    end
  else
    match rt with
    | Some x => finish (Some (rt2rs pi t x pa))
    | None => Raise ValueError
    end.

(** RotspUpdateDetailer.__call__, detailer.py lines 142-170; a row is rotSkyPos, rotTelPos and
    parallactic angle. *)
Record rrow := mkRr { q_sky : option Q; q_tel : Q; q_pa : Q }.
Definition rotsp_update (pi : Q) (t : tel) (lo hi : Q) (l : list rrow) : list rrow :=
  let bad r := match q_sky r with
               | None => true
               | Some s => let x := rs2rt pi t s (q_pa r) in Qltb hi x || Qltb x lo
               end in
  map (fun r => if bad r then mkRr (Some (rt2rs pi t (q_tel r) (q_pa r))) (q_tel r) (q_pa r) else r) l.

(** ParallacticRotationDetailer.__call__, detailer.py lines 635-663, default limits. *)
Definition parallactic (pi : Q) (t : tel) (lo hi : Q) (l : list rrow) : list rrow :=
  map (fun r =>
    let x0 := rs2rt pi t (q_pa r) (q_pa r) in
    let x1 := if Qltb hi x0 then x0 - 2 * pi else x0 in
    let x2 := if Qltb x1 lo then x1 + 2 * pi else x1 in
    let x3 := if Qltb hi x2 then x2 - pi else x2 in
    mkRr (Some (q_pa r)) x3 (q_pa r)) l.

(** Comcam90rotDetailer.__call__, detailer.py lines 706-726.  [pas_deg]: the parallactic angles in
    degrees; they are converted to radians twice (lines 709 and 721).  The angles form a table
    with a row for each favoured rotSkyPos, and _wrap_180 (rotskypos.py lines 120-122) takes a
    turn off the whole row when any of its entries is past half a turn. *)
Definition radians (pi x : Q) : Q := x * pi / 180.
Definition unwrapped (pi : Q) (t : tel) (rotsky pa : Q) : Q :=
  fmod (fmod (match t with Rubin => pa - rotsky - pi / 2 | ComCam => pa - rotsky | Auxtel => rotsky + pa end) (2 * pi)) (2 * pi).
Definition wrap_row (pi : Q) (row : list Q) : list Q :=
  if existsb (Qltb pi) row then map (fun a => a - 2 * pi) row else row.
Definition argmin_rot (diffs : list (Q * Q)) : Q :=
  match diffs with
  | [] => 0
  | d :: ds => fst (fold_left (fun b c => if Qltb (Qabs (snd c)) (Qabs (snd b)) then c else b) ds d)
  end.
Definition favored (pi : Q) : list Q := map (radians pi) [0; 90; 180; 270; 360].
Definition comcam90 (pi : Q) (t : tel) (pas_deg : list Q) : list Q :=
  let pas := map (fun x => radians pi (radians pi x)) pas_deg in
  let table := map (fun c => (c, wrap_row pi (map (unwrapped pi t c) pas))) (favored pi) in
  map (fun i => argmin_rot (map (fun cr => (fst cr, nth i (snd cr) 0)) table)) (seq 0 (List.length pas)).

(** CameraRotDetailer._generate_offsets, dither_detailer.py lines 508-529.  [table]: the numbers
    drawn on construction; [seeded n]: those drawn from default_rng(n) (None when it raises:
    negative seeds); [fresh]: those of an unseeded generator. *)
Inductive dmode := PerNight | PerCall | PerVisit | OtherMode.
Record crst := mkCr { cr_night : option Z; cr_offset : option Q; cr_offsets : option (list Q); cr_call : nat }.
Definition py_get (l : list Q) (i : Z) : res Q :=
  let j := if (i <? 0)%Z then (i + Z.of_nat (List.length l))%Z else i in
  if (j <? 0)%Z then Raise IndexError
  else match nth_error l (Z.to_nat j) with Some x => Ok x | None => Raise IndexError end.
Definition cr_init (m : dmode) (table : list Q) : crst :=
  mkCr None None (match m with PerCall => None | _ => Some table end) 0.
Definition same_night (o : option Z) (n : Z) : bool := match o with Some k => Z.eqb k n | None => false end.
Definition opt_get (l : option (list Q)) (i : Z) : res Q :=
  match l with Some t => py_get t i | None => Raise TypeError end.
Definition cr_generate (m : dmode) (lo hi : Q) (seeded : Z -> option (list Q)) (fresh : list Q) (s : crst) (n : nat) (night : Z)
    : crst * res (list Q) :=
  let scale u := u * (hi - lo) + lo in
  match m with
  | PerNight =>
      let '(s1, r) :=
        if same_night (cr_night s) night then (s, Ok tt)
        else match opt_get (cr_offsets s) night with
             | Raise e => (mkCr (Some night) (cr_offset s) (cr_offsets s) (cr_call s), Raise e)
             | Ok u => (mkCr (Some night) (Some (scale u)) (cr_offsets s) (cr_call s), Ok tt)
             end in
      (s1, bind r (fun _ => match cr_offset s1 with Some o => Ok (repeat o n) | None => Raise TypeError end))
  | PerCall =>
      let '(s1, r) :=
        if same_night (cr_night s) night then (s, Ok tt)
        else match seeded night with
             | Some t => (mkCr (Some night) (cr_offset s) (Some t) 0, Ok tt)
             | None => (mkCr (Some night) (cr_offset s) (cr_offsets s) 0, Raise ValueError)
             end in
      match bind r (fun _ => opt_get (cr_offsets s1) (Z.of_nat (cr_call s1))) with
      | Raise e => (s1, Raise e)
      | Ok u => (mkCr (cr_night s1) (cr_offset s1) (cr_offsets s1) (S (cr_call s1)), Ok (repeat (scale u) n))
      end
  | PerVisit => (s, Ok (map scale (firstn n fresh)))
  | OtherMode => (s, Raise ValueError)
  end.
Definition cr_call_det (m : dmode) (pi : Q) (t : tel) (lo hi : Q) (seeded : Z -> option (list Q)) (fresh : list Q) (s : crst)
    (night : Z) (l : list rrow) : crst * res (list rrow) :=
  let '(s1, r) := cr_generate m lo hi seeded fresh s (List.length l) night in
  (s1, bind r (fun os => Ok (map (fun p => mkRr (Some (rt2rs pi t (snd p) (q_pa (fst p)))) (snd p) (q_pa (fst p))) (combine l os)))).

(** CameraSmallRot..._generate_offsets_band_change, dither_detailer.py lines 585-614.  A block is
    a run of equal bands; [rnd i] is the random number of block i.  The last block is counted
    one visit short (lines 600-602). *)
Fixpoint runs (l : list string) : list nat :=
  match l with
  | [] => []
  | b :: r =>
      let ks := runs r in
      match r with
      | [] => [1%nat]
      | b' :: _ => if String.eqb b b' then match ks with k :: ks' => S k :: ks' | [] => [1%nat] end else 1%nat :: ks
      end
  end.
Definition qn (n : nat) : Q := inject_Z (Z.of_nat n).
Fixpoint small_blocks (lo hi per : Q) (rnd : nat -> Q) (i : nat) (ks : list nat) : list Q :=
  match ks with
  | [] => []
  | k :: r =>
      let nvis := match r with [] => (k - 1)%nat | _ => k end in
      let base := rnd i * ((hi - lo) - per * qn nvis) + lo in
      map (fun j => base + per * qn j) (seq 0 k) ++ small_blocks lo hi per rnd (S i) r
  end.
Definition small_offsets (lo hi per : Q) (rnd : nat -> Q) (bands : list string) : list Q :=
  map (fun o => if Qltb hi o then hi else o) (small_blocks lo hi per rnd 0 (runs bands)).

(** A run of calls of the detailer: the answers, in order, and the state left. *)
Fixpoint cr_run (m : dmode) (lo hi : Q) (seeded : Z -> option (list Q)) (s : crst) (calls : list (nat * Z)) : crst * list (res (list Q)) :=
  match calls with
  | [] => (s, [])
  | (n, night) :: r =>
      let '(s1, a) := cr_generate m lo hi seeded [] s n night in
      let '(s2, l) := cr_run m lo hi seeded s1 r in (s2, a :: l)
  end.
Definition small_rot (pi : Q) (t : tel) (lo hi per : Q) (rnd : nat -> Q) (l : list (string * rrow)) : list rrow :=
  map (fun p => mkRr (Some (rt2rs pi t (snd p) (q_pa (fst p)))) (snd p) (q_pa (fst p)))
      (combine (map snd l) (small_offsets lo hi per rnd (map fst l))).
