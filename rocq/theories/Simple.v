(** The simple surveys and the move to sunset:
    /repo/rubin_scheduler/scheduler/example/simple_examples.py.
    Surveys and basis functions are the records of LsstSurveys.v. Footprints, dithers and get_ideal_model_observatory (32-120) are not
    modelled; science_program and observation_reason are given as text. A list given by the caller is returned as the call leaves it. *)
From Coq Require Import List Bool QArith ZArith Qround String.
From Verif Require Import Base IntRounded Bisect Obs Core Surveys LsstSurveys.
Import ListNotations.
Open Scope Q_scope.
Open Scope string_scope.
Open Scope list_scope.

(** standard_masks, lines 171-236. *)
Definition standard_masks (nside : Z) (moon wind min_alt max_alt min_az max_az shadow : Q) : list bfn :=
  [MoonAvoidance nside moon; PlanetMask nside; AvoidDirectWind nside wind; AltAzShadowMask nside min_alt max_alt min_az max_az shadow].
Definition default_masks (nside : Z) : list bfn := standard_masks nside 30 20 20 (173 # 2) 0 360 30.
(** simple_rewards, lines 239-328; 3 * 60 minutes. *)
Definition simple_rewards (band : string) (nside : Z) (m5 footprint slew stay repeat_w : Q) : list (bfn * Q) :=
  [(M5Diff band nside, m5); (Footprint band nside None, footprint); (Slewtime band nside, slew); (BandChange band, stay);
   (BandLoaded [band], 0); (VisitRepeat nside 180, repeat_w)].

Record simple := SimpleArgs {
  a_nside : Z; a_band : string; a_band2 : option string; a_masks : option (list bfn); a_rewards : option (list bfn); a_weights : option (list Q);
  a_rot : Q * Q; a_pair : Q; a_exptime : Q; a_nexp : Z; a_program : string; a_reason : string; a_require : bool }.
Definition positive (l : list (bfn * Q)) : list (bfn * Q) := filter (fun r => Qltb 0 (snd r)) l.
(** Lines 431-475. *)
Definition pair_rewards (nside : Z) (band : string) (band2 : option string) : list (bfn * Q) :=
  match band2 with
  | None => simple_rewards band nside 6 (3 # 2) 3 3 (- (20))
  | Some b =>
      positive (simple_rewards band nside (6 / 2) ((3 # 2) / 2) 3 3 (- (20))) ++ positive (simple_rewards b nside (6 / 2) ((3 # 2) / 2) 0 0 0)
      ++ [(BandLoaded [band; b], 0)]
  end.
Definition rot_of (r : Q * Q) : detailer := let (x, y) := r in CameraRot (if Qle_bool x y then x else y) (if Qle_bool x y then y else x).
(** The lists given to the survey: rewards then masks, weights of the rewards then zeros; TypeError without weights, ValueError if the
    lengths differ (base_survey.py lines 562-563). *)
Definition weigh (rewards : list bfn) (weights : option (list Q)) (masks : list bfn) : res (list (bfn * Q)) :=
  match weights with
  | None => Raise TypeError
  | Some w => let bs := rewards ++ masks in let ws := w ++ map (fun _ => 0) masks in
              if Nat.eqb (List.length bs) (List.length ws) then Ok (combine bs ws) else Raise ValueError
  end.
Section Pairs.
Variable fi : Q -> string. (* %i *)
(** simple_pairs_survey, lines 331-548. *)
Definition simple_pairs_survey (a : simple) : res survey * option (list bfn) :=
  let masks := match a_masks a with Some m => m | None => default_masks (a_nside a) end in
  let needed := match a_band2 a with Some _ => a_pair a * 2 | None => a_pair a end in
  let masks := if a_require a then masks ++ [TimeToTwilight needed 18] else masks in
  let rw := match a_rewards a with
            | Some r => (r, a_weights a)
            | None => let l := pair_rewards (a_nside a) (a_band a) (a_band2 a) in (map fst l, Some (map snd l))
            end in
  let name := ("simple pair " ++ fi (a_pair a) ++ ", " ++ a_band a ++ (match a_band2 a with Some b => b | None => "" end))%string in
  (bind (weigh (fst rw) (snd rw) masks) (fun bfs =>
     Ok (Survey bfs (a_band a) (a_band2 a) (a_exptime a) (a_nexp a) (a_pair a) name (a_reason a) ["DD"]
           ([rot_of (a_rot a); CloseAlt; FlushForSched] ++ (match a_band2 a with Some b => [TakeAsPairs b] | None => [] end))
           (a_nside a) None 140 (a_program a))),
   match a_masks a with Some _ => Some masks | None => None end).
(** Several surveys that share one list of masks. *)
Fixpoint shared (calls : list (list bfn -> simple)) (masks : list bfn) : list (res survey) :=
  match calls with
  | [] => []
  | c :: calls => let (s, m) := simple_pairs_survey (c masks) in s :: shared calls (match m with Some m => m | None => masks end)
  end.
End Pairs.
(** simple_greedy_survey, lines 551-700. *)
Definition simple_greedy_survey (a : simple) : res survey :=
  let masks := match a_masks a with Some m => m | None => default_masks (a_nside a) end in
  let rw := match a_rewards a with
            | Some r => (r, a_weights a)
            | None => let l := simple_rewards (a_band a) (a_nside a) 6 (3 # 2) 3 3 (- (5)) in (map fst l, Some (map snd l))
            end in
  bind (weigh (fst rw) (snd rw) masks) (fun bfs =>
    Ok (Survey bfs (a_band a) None (a_exptime a) (a_nexp a) 0 ("simple greedy " ++ a_band a)%string (a_reason a) ["DD"]
          [rot_of (a_rot a); CloseAlt; FlushForSched] (a_nside a) None 0 (a_program a))).

(** simple_field_survey, lines 740-845: the visits of the FieldSurvey; masks and rewards (in that order) by number only, the weight of
    each is field_survey.py line 128. *)
Definition dict {A} (u other : A) : list (string * A) := [("u", u); ("g", other); ("r", other); ("i", other); ("z", other); ("y", other)].
Definition simple_field_sequence (ra dec : Q) (name : string) (sequence : list string) (nvisits : option (list (string * Z))) (exptimes : option (list (string * Q)))
    (nexps : option (list (string * Z))) : res (list obs) :=
  fd_expand ra dec name (PDict (match nvisits with Some d => d | None => dict 20 20 end)%Z)
    (PDict (match exptimes with Some d => d | None => dict 38 30 end)) (PDict (match nexps with Some d => d | None => dict 1 2 end)%Z) sequence.
Definition field_weights {B} (masks rewards : list B) : list (B * Q) :=
  let l := masks ++ rewards in map (fun b => (b, 1 / inject_Z (Z.of_nat (List.length l)))) l.

(** update_model_observatory_sunset, lines 123-168. The observatory: its time, night, mounted bands and current band
    (mjd.setter, model_observatory.py 507-511; mount_bands, kinem_model.py 154-167). *)
Inductive twilight := TInt (z : Z) | TFloat (q : Q).
Definition twi_is (t : twilight) (z : Z) : bool := match t with TInt n => Z.eqb n z | TFloat q => Qeq_bool q (inject_Z z) end.
Record place := Place { o_mjd : Q; o_start : Q; o_night : Z; o_mounted : list string; o_current : string; o_first : string }.
Definition move (o : place) (t : Q) : place := Place t (o_start o) (Qfloor (t - o_start o)) (o_mounted o) (o_current o) (o_first o).
Definition mount (o : place) (l : list string) : res place :=
  let pick b := if existsb (String.eqb b) l then Ok b else match rev l with x :: _ => Ok x | [] => Raise IndexError end in
  bind (pick (o_current o)) (fun c => bind (pick (o_first o)) (fun f => Ok (Place (o_mjd o) (o_start o) (o_night o) l c f))).
(** Python's index: minus one is the last. *)
Definition at_index (l : list Q) (i : Z) : res Q :=
  let j := if (i <? 0)%Z then (i + Z.of_nat (List.length l))%Z else i in
  if (j <? 0)%Z then Raise IndexError else match nth_error l (Z.to_nat j) with Some x => Ok x | None => Raise IndexError end.
Definition next_sunset (sunsets : list Q) (mjd : Q) : res Q :=
  let indx := (Z.of_nat (searchsorted (fun s => Qle_bool s mjd) 0%Q sunsets) - 1)%Z in
  bind (at_index sunsets indx) (fun t => if Qltb t mjd then at_index sunsets (indx + 1) else Ok t).
Definition update_sunset (n12 n18 : list Q) (bands : place -> list string) (o : place) (t : twilight) : res place :=
  bind (if twi_is t (-12) || twi_is t (-18)
        then match t with
             | TFloat _ => Raise ValueError (* :0d of a float *)
             | TInt z => next_sunset (if Z.eqb z (-12) then n12 else n18) (o_mjd o)
             end
        else Ok (match t with TInt z => inject_Z z | TFloat q => q end)) (fun new =>
  let o := move o new in mount o (bands o)).
