(** Simulated events and the surveys that follow them:
    /repo/rubin_scheduler/scheduler/targetofo/gen_events.py, scheduler/utils/too_objects.py lines 102-120 and
    scheduler/example/too_surveys.py.  Numbers are reals.  The random generator is an argument: [r k] is the
    k-th number of rng.random, [idx] the indices drawn by rng.choice without replacement, [pos] the points of
    the sky drawn near or away from the sun (lines 290-303 and 314-330, astropy).  Events of the same time keep
    their order when sorted (numpy compares the other fields). *)
From Coq Require Import List Bool Reals ZArith String Arith.
From Verif Require Import Base.
Import ListNotations.
Open Scope R_scope.
Open Scope string_scope.
Open Scope list_scope.

Record event := Event { mjd_start : R; ra : R; dec : R; expires : R; radius : R; label : string }.

(** int(), towards zero; np.round, halves to even. *)
Definition trunc (x : R) : Z := if Rle_dec 0 x then Int_part x else (- Int_part (- x))%Z.
Definition np_round (x : R) : Z :=
  let f := Int_part x in
  if Rlt_dec (x - IZR f) (1 / 2) then f
  else if Rlt_dec (1 / 2) (x - IZR f) then (f + 1)%Z
  else if Z.even f then f else (f + 1)%Z.
(** np.zeros(n) *)
Definition zeros {A} (n : Z) (x : A) : res (list A) := if (n <? 0)%Z then Raise ValueError else Ok (repeat x (Z.to_nat n)).
Fixpoint collect {A B} (f : A -> res B) (l : list A) : res (list B) :=
  match l with [] => Ok [] | x :: l => bind (f x) (fun y => bind (collect f l) (fun ys => Ok (y :: ys))) end.
Fixpoint numbered {A} (i : nat) (l : list A) : list (nat * A) := match l with [] => [] | x :: l => (i, x) :: numbered (S i) l end.

(** Lines 69-72 and the like: points spread over the sphere, times over the run. *)
Definition scatter (r : nat -> R) (start stop : R) (kinds : list (string * R)) : list event :=
  let n := List.length kinds in
  map (fun ik : nat * (string * R) =>
         let i := fst ik in
         let t := r (n + n + i)%nat * (stop - start) + start in
         Event t (r i * PI * 2) (acos (2 * r (n + i)%nat - 1) - PI / 2) (t + 3) (snd (snd ik)) (fst (snd ik))) (numbered 0 kinds).
(** A case: its label, area and number of triggers. *)
Definition case_events (cases : list (string * R * Z)) (start stop scale : R) (r : nat -> R) : res (list event) :=
  bind (collect (fun c : string * R * Z => let '(name, area, nt) := c in
                   zeros (trunc (IZR nt * scale)) (name, sqrt (area / PI) * PI / 180)) cases)
       (fun tables => Ok (scatter r start stop (List.concat tables))).
Definition O5_START_MJD : R := 61557.
Definition O5_END_MJD : R := 62502.
(** gen_gw_events, lines 19-74. *)
Definition gw_cases : list (string * R * Z) :=
  [("GW_case_A", 30, 9%Z); ("GW_case_B", 50, 15%Z); ("GW_case_C", 100, 24%Z); ("GW_case_D", 250, 6%Z); ("GW_case_E", 500, 12%Z)].
Definition gen_gw_events := case_events gw_cases.
(** gen_bbh_events, lines 77-129. *)
Definition bbh_cases : list (string * R * Z) := [("BBH_case_A", 10, 9%Z); ("BBH_case_B", 20, 6%Z); ("BBH_case_C", 30, 6%Z)].
Definition gen_bbh_events := case_events bbh_cases.
(** gen_lensed_BNS, lines 174-223. *)
Definition bns_cases : list (string * R * Z) := [("lensed_BNS_case_A", 900, 1%Z); ("lensed_BNS_case_B", 15, 1%Z)].
Definition gen_lensed_BNS := case_events bns_cases.
(** gen_neutrino_events, lines 132-171. *)
Definition gen_neutrino_events (scale : R) (n_trigger : Z) (start stop deg : R) (r : nat -> R) : res (list event) :=
  bind (zeros (trunc (IZR n_trigger * scale)) ("neutrino", deg * PI / 180)) (fun kinds => Ok (scatter r start stop kinds)).

(** rng.choice(population, size, replace=False): lines 288 and 313. *)
Definition choice (population : list R) (size : Z) (idx : list nat) : res (list R) :=
  if (Z.of_nat (List.length population) <? size)%Z then Raise ValueError
  else Ok (map (fun i => nth i population 0) idx).
(** gen_sso_events, lines 226-341. *)
Definition nights (n : Z) : list nat := seq 0 (Z.to_nat n).
Definition sso (t : R) (p : R * R) (deg : R) (name : string) : event := Event t (fst p) (snd p) (t + 3) (deg * PI / 180) name.
Definition gen_sso_events (n_events : Z) (fraction deg start stop : R) (idx1 idx2 : list nat) (pos1 pos2 : nat -> R * R) : res (list event) :=
  let n_nights := trunc (stop - start) in
  let n_inner := trunc (IZR n_events * fraction) in
  let inner_mjds := map (fun k => INR (4 * k) + start + 1) (nights (- ((- n_nights) / 4))) in
  let reg_mjds := map (fun k => INR k + start) (nights n_nights) in
  bind (zeros n_inner tt) (fun _ =>
  bind (choice inner_mjds n_inner idx1) (fun inner =>
  bind (zeros (n_events - n_inner) tt) (fun _ =>
  bind (choice reg_mjds (n_events - n_inner) idx2) (fun reg =>
  Ok (map (fun it => sso (snd it) (pos1 (fst it)) deg "SSO_twilight") (numbered 0 inner)
      ++ map (fun it => sso (snd it) (pos2 (fst it)) deg "SSO_night") (numbered 0 reg)))))).

(** event_table.sort(order="mjd_start"), line 390. *)
Fixpoint insert (e : event) (l : list event) : list event :=
  match l with [] => [e] | f :: l' => if Rle_dec (mjd_start e) (mjd_start f) then e :: l else f :: insert e l' end.
Definition sort (l : list event) : list event := fold_right insert [] l.
(** A TargetoO: its number, footprint (the pixels of 1), start, duration, centre and type. *)
Record too := Too { too_id : nat; footprint : list bool; too_start : R; duration : R; centre : R * R; too_type : string }.
Record draws := Draws { r_gw : nat -> R; r_bbh : nat -> R; r_bns : nat -> R; r_nu : nat -> R; i_twi : list nat; i_night : list nat; p_twi : nat -> R * R; p_night : nat -> R * R }.
Section Sky.
(** _angular_separation and the centres of the pixels. *)
Variable sep : R * R -> R * R -> R.
Variable pixels : list (R * R).
Definition to_too (ie : nat * event) : too :=
  let e := snd ie in
  Too (fst ie) (map (fun p => if Rle_dec (sep p (ra e, dec e)) (radius e) then true else false) pixels)
      (mjd_start e) (expires e - mjd_start e) (ra e, dec e) (label e).
(** gen_all_events, lines 344-411. *)
Definition gen_all_events (scale : R) (gw neutrino ss : bool) (start stop : R) (d : draws) : res (option (list too * list event)) :=
  if Req_EM_T scale 0 then Ok None
  else
  bind (if gw then bind (gen_gw_events O5_START_MJD O5_END_MJD (3 * scale) (r_gw d)) (fun a =>
                   bind (gen_bbh_events O5_START_MJD O5_END_MJD (3 * scale) (r_bbh d)) (fun b =>
                   bind (gen_lensed_BNS O5_START_MJD O5_END_MJD (3 * scale) (r_bns d)) (fun c => Ok [a; b; c]))) else Ok []) (fun a =>
  bind (if neutrino then bind (gen_neutrino_events 1 160 start stop 0 (r_nu d)) (fun b => Ok [b]) else Ok []) (fun b =>
  bind (if ss then bind (gen_sso_events (np_round (900 / (7305 / 2) * (stop - start))) (3 / 4) 2 start stop (i_twi d) (i_night d) (p_twi d) (p_night d)) (fun c => Ok [c]) else Ok []) (fun c =>
  match a ++ b ++ c with
  | [] => Raise ValueError
  | tables => let table := sort (List.concat tables) in Ok (Some (map to_too (numbered 0 table), table))
  end))).
End Sky.
(** SimTargetooServer, too_objects.py lines 102-120. *)
Definition serve (events : list too) (mjd : R) : option (list too) :=
  match filter (fun e => (if Rlt_dec (too_start e) mjd then true else false) && (if Rlt_dec mjd (too_start e + duration e) then true else false)) events with
  | [] => None
  | l => Some l
  end.

(** gen_too_surveys, example/too_surveys.py lines 17-390: what is followed, when (hours), in which bands, visits, exposure times,
    and how long visits are kept (hours). *)
Record follow := Follow { f_types : list string; f_name : string; f_times : list R; f_bands : list string; f_nvis : list nat; f_exptimes : list R; f_flush : R }.
Definition times_n {A} (n : nat) (l : list A) : list A := List.concat (repeat l n).
Definition gen_too_surveys : list follow :=
  [Follow ["GW_case_A"] "ToO, GW_case_A" [0; 24; 48] ["ugrizy"; "ugrizy"; "ugrizy"] [3; 1; 1]%nat [120; 120; 120] 48;
   Follow ["GW_case_B"; "GW_case_C"] "ToO, GW_case_B_C" [0; 2; 4; 24; 48; 72] ["gri"; "gri"; "gri"; "ri"; "ri"; "ri"] [4; 4; 4; 6; 6; 6]%nat [30; 30; 30; 30; 30; 30] 48;
   Follow ["GW_case_D"; "GW_case_E"] "ToO, GW_case_D_E" [0; 24; 48; 72] ["gi"; "gi"; "gi"; "gi"] [1; 4; 4; 4]%nat [30; 30; 30; 30] 48;
   Follow ["BBH_case_A"; "BBH_case_B"; "BBH_case_C"] "ToO, BBH" [0 * 24; 2 * 24; 7 * 24; 9 * 24; 39 * 24] (repeat "rzi" 5) (repeat 1%nat 5) (repeat 30 5) 48;
   Follow ["lensed_BNS_case_A"] "ToO, LensedBNS_A" [1; 1; 25; 25; 49; 49] (times_n 3 ["g"; "r"]) (times_n 3 [1; 3]%nat) (times_n 3 [30; 30]) 48;
   Follow ["lensed_BNS_case_B"] "ToO, LensedBNS_B" [1; 1; 25; 25; 49; 49] (times_n 3 ["g"; "r"]) (times_n 3 [180; 120]%nat) (repeat 30 6) 48;
   Follow ["neutrino"] "ToO, neutrino" [0; 0; 15 / 60; 0; 24; 24; 144; 144] ["u"; "g"; "r"; "z"; "g"; "r"; "g"; "rz"] [1; 4; 1; 1; 4; 1; 4; 1]%nat (repeat 30 8) (20 * 24);
   Follow ["SSO_night"] "ToO, SSO_night" [0; 33 / 60; 66 / 60] (repeat "r" 3) (repeat 1%nat 3) (repeat 30 3) 3;
   Follow ["SSO_twilight"] "ToO, SSO_twi" [0; 10 / 60; 20 / 60] (repeat "z" 3) (repeat 2%nat 3) (repeat 15 3) 3;
   Follow ["SN_Galactic"] "ToO, galactic SN" (times_n 4 [0; 0; 0; 0]) (times_n 4 ["i"; "i"; "i"; "i"]) (times_n 4 [1; 1; 1; 1]%nat) (times_n 4 [1; 15; 1; 15]) 48].
(** `type_to_follow in too_type`, too_scripted_surveys.py lines 347-349. *)
Fixpoint contains (needle hay : string) : bool :=
  prefix needle hay || match hay with "" => false | String _ hay => contains needle hay end.
Definition follows (f : follow) (too_type : string) : bool := existsb (fun t => contains t too_type) (f_types f).
