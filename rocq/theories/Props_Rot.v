(** C71: rotator angle conversions; C72: the model observatory's choice of rotator angle;
    C73: detailers that set the rotator. *)
From Coq Require Import List ZArith QArith Qround Qabs Bool String Lia Lqa.
From Verif Require Import Base Shadow Rot Rot_proofs.
Import ListNotations.
Open Scope Q_scope.

(** Both conversions satisfy the telescope's relation, within their own range of angles. *)
Theorem C71_convert : forall pi t x pa, 0 < pi ->
  (relation pi t (rt2rs pi t x pa) x pa /\ 0 <= rt2rs pi t x pa /\ rt2rs pi t x pa < 2 * pi) /\
  (relation pi t x (rs2rt pi t x pa) pa /\ - pi < rs2rt pi t x pa /\ rs2rt pi t x pa <= pi).
Proof.
  intros pi t x pa Hp. split; (split; [apply rt2rs_rel || (apply rs2rt_rel; exact Hp)|]).
  - apply rt2rs_range. exact Hp.
  - apply rs2rt_range. exact Hp.
Qed.
Print Assumptions C71_convert.
(** From rotTelPos to rotSkyPos and back: the same direction, and the same number when it was
    within half a turn of zero. *)
Theorem C71_round_trip_tel : forall pi t x pa, 0 < pi ->
  same_dir pi (rs2rt pi t (rt2rs pi t x pa) pa) x /\
  (- pi < x -> x <= pi -> rs2rt pi t (rt2rs pi t x pa) pa == x).
Proof. exact round_tel. Qed.
Print Assumptions C71_round_trip_tel.
Theorem C71_round_trip_sky : forall pi t s pa, 0 < pi ->
  same_dir pi (rt2rs pi t (rs2rt pi t s pa) pa) s /\
  (0 <= s -> s < 2 * pi -> rt2rs pi t (rs2rt pi t s pa) pa == s).
Proof. exact round_sky. Qed.
Print Assumptions C71_round_trip_sky.
(** In degrees: rotTelPos 30 at parallactic angle 100. *)
Example C71_ex1 : map (fun t => Qred (rt2rs 180 t 30 100)) [Rubin; ComCam; Auxtel] = [340; 70; 290].
Proof. vm_compute. reflexivity. Qed.
Example C71_ex2 : map (fun t => Qred (rs2rt 180 t (rt2rs 180 t (-170) 100) 100)) [Rubin; ComCam; Auxtel] = [-170; -170; -170].
Proof. vm_compute. reflexivity. Qed.

(** ** C72 *)
(** Whatever rotSkyPos is asked for, an angle that comes back is within the limits, agrees with
    rotTelPos, is the one asked for when that was within limits, and otherwise is turned by a
    quarter or a half to the allowed angle nearest to where the rotator is. *)
Theorem C72_update_sound : forall pi t lo hi cur s rt pa s' r',
  0 < pi -> - pi <= lo -> hi <= pi ->
  update_rot pi t lo hi cur true (Some s) rt pa = Ok (s', r') ->
  exists s1 r1, s' = Some s1 /\ r' = Some r1 /\ relation pi t s1 r1 pa /\ lo <= r1 /\ r1 <= hi /\
    let r := rs2rt pi t s pa in
    (lo <= r /\ r <= hi /\ same_dir pi s1 s) \/
    ((r < lo \/ hi < r) /\ candidate pi lo hi r r1 /\
     forall c (k : Z), candidate pi lo hi r c ->
       Qabs (ssa pi (now_of pi t cur pa) r1) <= Qabs (c - now_of pi t cur pa + inject_Z k * (2 * pi))).
Proof. exact update_sound. Qed.
Print Assumptions C72_update_sound.
(** It fails only when no quarter or half turn helps, or when two are equally near. *)
Theorem C72_update_partial : forall pi t lo hi cur s rt pa e,
  0 < pi -> - pi <= lo -> hi <= pi -> lo < 0 -> 0 < hi -> pi / 2 < hi - lo ->
  update_rot pi t lo hi cur true (Some s) rt pa = Raise e ->
  let r := rs2rt pi t s pa in
  (r < lo \/ hi < r) /\
  exists a b, ~ a == b /\ candidate pi lo hi r a /\ candidate pi lo hi r b /\
    Qabs (ssa pi (now_of pi t cur pa) a) == Qabs (ssa pi (now_of pi t cur pa) b).
Proof.
  intros pi t lo hi cur s rt pa e Hp Hlo Hhi L H W R. cbn zeta.
  destruct (update_raises _ _ _ _ _ _ _ _ _ Hp Hlo Hhi R) as [O [N|T]]; [|split; assumption].
  exfalso. destruct (rs2rt_range pi t s pa Hp) as [A B].
  destruct (update_possible pi lo hi (rs2rt pi t s pa) Hp L H W A B O) as [c C]. exact (N c C).
Qed.
Print Assumptions C72_update_partial.
(** With the default limits of a quarter turn either way, a rotator at zero and an angle of 135
    degrees asked for, both -45 and 45 are as near and the call raises. *)
Theorem C72_update_tie_refuted : exists s pa,
  update_rot 180 Rubin (-90) 90 None true (Some s) None pa = Raise ValueError /\ rs2rt 180 Rubin s pa == 135.
Proof. exists 135, 0. vm_compute. split; reflexivity. Qed.
Print Assumptions C72_update_tie_refuted.
(** With limits narrower than a quarter turn in all, there may be no angle to take. *)
Theorem C72_update_narrow_refuted : exists s pa,
  update_rot 180 Rubin (-20) 20 None true (Some s) None pa = Raise ValueError /\ rs2rt 180 Rubin s pa == 45.
Proof. exists 225, 0. vm_compute. split; reflexivity. Qed.
Print Assumptions C72_update_narrow_refuted.
(** An unset rotSkyPos stays unset although rotTelPos is given. *)
Theorem C72_update_unset_refuted : exists rt, - 90 <= rt /\ rt <= 90 /\
  update_rot 180 Rubin (-90) 90 None true None (Some rt) 0 = Ok (None, None).
Proof. exists 30. split; [|split]; [lra|lra|reflexivity]. Qed.
Print Assumptions C72_update_unset_refuted.
(** Without resolving, rotTelPos is used, whatever the limits. *)
Theorem C72_update_from_tel : forall pi t lo hi cur x rs pa, 0 < pi ->
  exists s1 r1, update_rot pi t lo hi cur false rs (Some x) pa = Ok (Some s1, Some r1) /\
    relation pi t s1 x pa /\ same_dir pi r1 x /\ - pi < r1 /\ r1 <= pi.
Proof. exact update_tel. Qed.
Print Assumptions C72_update_from_tel.
(** Neither angle set is an error, not an observation without an angle. *)
Theorem C72_update_no_angle : forall pi t lo hi cur rs rt pa,
  (exists out, update_rot pi t lo hi cur false rs rt pa = Ok out) <-> (exists x, rt = Some x).
Proof.
  intros pi t lo hi cur rs [x|] pa; cbn; split; try (intros [y E]; discriminate).
  - intros _. exists x. reflexivity.
  - intros _. eexists. reflexivity.
Qed.
Print Assumptions C72_update_no_angle.
Example C72_ex1 : match update_rot 180 Rubin (-90) 90 (Some 260) true (Some 150) None 0 with
                  | Ok (Some a, Some b) => Qred a = 240 /\ Qred b = 30 | _ => False end.
Proof. vm_compute. split; reflexivity. Qed.
Example C72_ex2 : rs2rt 180 Rubin 150 0 == 120 /\ candidate 180 (-90) 90 120 30 /\ candidate 180 (-90) 90 120 (-60).
Proof. split; [reflexivity|]. unfold candidate. split; (split; [|split; reflexivity]); [right; left; reflexivity|right; right; right; reflexivity]. Qed.

(** ** C73 *)
(** RotspUpdate leaves usable observations alone and moves the rest to their rotTelPos, so that
    all are usable when the rotTelPos were. *)
Theorem C73_rotsp_update : forall pi t lo hi l, 0 < pi ->
  Forall2 (fun a b =>
    q_tel b = q_tel a /\ q_pa b = q_pa a /\
    (usable pi t lo hi a -> b = a) /\
    (~ usable pi t lo hi a -> exists s, q_sky b = Some s /\ relation pi t s (q_tel a) (q_pa a)) /\
    (- pi < q_tel a -> q_tel a <= pi -> lo <= q_tel a -> q_tel a <= hi -> usable pi t lo hi b))
  l (rotsp_update pi t lo hi l).
Proof. exact rotsp_spec. Qed.
Print Assumptions C73_rotsp_update.
(** The rotTelPos is not itself checked. *)
Theorem C73_rotsp_update_refuted : exists r, rotsp_update 180 Rubin (-90) 90 [mkRr None 120 0] = [r] /\ ~ usable 180 Rubin (-90) 90 r.
Proof.
  eexists. split; [reflexivity|]. intros [s [x [E [R [A [B [C D]]]]]]]. cbn in E. injection E as <-.
  assert (X : relation 180 Rubin (rt2rs 180 Rubin 120 0) 120 0) by apply rt2rs_rel.
  assert (Y : x == 120).
  { apply (same_unique 180); [reflexivity|eapply rel_tel; [exact R|exact X]|exact A|exact B|reflexivity|discriminate]. }
  rewrite Y in D. apply D. reflexivity.
Qed.
Print Assumptions C73_rotsp_update_refuted.
Example C73_ex_rotsp : map (fun r => match q_sky r with Some s => Some (Qred s) | None => None end)
   (rotsp_update 180 Rubin (-90) 90 [mkRr (Some 240) 5 0; mkRr (Some 150) 5 0; mkRr None 10 100])
   = [Some 240; Some 265; Some 0].
Proof. vm_compute. reflexivity. Qed.

(** ParallacticRotation: rotSkyPos is the parallactic angle and the rotTelPos goes with it;
    for Rubin that is always minus a quarter turn. *)
Theorem C73_parallactic : forall pi t lo hi l, 0 < pi -> lo <= - pi -> pi <= hi ->
  Forall2 (fun a b => q_sky b = Some (q_pa a) /\ q_pa b = q_pa a /\
    relation pi t (q_pa a) (q_tel b) (q_pa a) /\ - pi < q_tel b /\ q_tel b <= pi /\
    match t with
    | Rubin => q_tel b == - (pi / 2)
    | ComCam => q_tel b == 0
    | Auxtel => same_dir pi (q_tel b) (2 * q_pa a)
    end) l (parallactic pi t lo hi l).
Proof. exact parallactic_spec. Qed.
Print Assumptions C73_parallactic.
(** With narrower limits the rotTelPos left can be outside them and disagree with rotSkyPos. *)
Theorem C73_parallactic_refuted : exists r, parallactic 180 Rubin (-60) 60 [mkRr None 0 20] = [r] /\
  60 < q_tel r /\ q_tel r == 90 /\ q_sky r = Some 20 /\ rs2rt 180 Rubin 20 20 == - (90).
Proof. eexists. split; [reflexivity|]. vm_compute. repeat split. Qed.
Print Assumptions C73_parallactic_refuted.

(** Comcam90 answers one of the four right angles for every observation... *)
Theorem C73_comcam90_partial : forall pi t pas,
  List.length (comcam90 pi t pas) = List.length pas /\
  Forall (fun s => exists d, In d [0; 90; 180; 270; 360] /\ s == d * pi / 180) (comcam90 pi t pas).
Proof. exact comcam90_favored. Qed.
Print Assumptions C73_comcam90_partial.
(** ... but not the one with rotTelPos nearest zero: the parallactic angle is turned into radians
    twice (at 180 degrees the answer is 270, half a turn from the best). *)
Theorem C73_comcam90_refuted : let pi := 355 # 113 in exists pa best, In best (favored pi) /\
  exists got, comcam90 pi Rubin [pa] = [got] /\
    Qabs (rs2rt pi Rubin best (radians pi pa)) < Qabs (rs2rt pi Rubin got (radians pi pa)).
Proof.
  cbn zeta. exists 180, (radians (355 # 113) 90). split; [right; left; reflexivity|].
  eexists. split; [reflexivity|]. vm_compute. reflexivity.
Qed.
Print Assumptions C73_comcam90_refuted.
(** And the answer for an observation depends on the others in the list. *)
Theorem C73_comcam90_list_refuted : let pi := 355 # 113 in exists pa other a b,
  comcam90 pi Rubin [pa] = [a] /\ hd 0 (comcam90 pi Rubin [pa; other]) = b /\ ~ a == b.
Proof. cbn zeta. exists 10, (-10). eexists. eexists. split; [reflexivity|]. split; [reflexivity|]. vm_compute. discriminate. Qed.
Print Assumptions C73_comcam90_list_refuted.

(** CameraRot, one position a night: a function of the night alone, while the table lasts. *)
Theorem C73_camera_rot_night_partial : forall lo hi seeded table calls,
  Forall (fun c => (- Z.of_nat (List.length table) <= snd c < Z.of_nat (List.length table))%Z) calls ->
  snd (cr_run PerNight lo hi seeded (cr_init PerNight table) calls) =
  map (fun c => Ok (repeat (night_pos table (snd c) * (hi - lo) + lo) (fst c))) calls.
Proof. exact per_night_spec. Qed.
Print Assumptions C73_camera_rot_night_partial.
(** Past the table the first call raises and the next returns the previous night's position. *)
Theorem C73_camera_rot_night_refuted : exists table old,
  snd (cr_run PerNight (-90) 90 (fun _ => None) (cr_init PerNight table) [(1%nat, 0%Z); (1%nat, 1%Z); (1%nat, 1%Z)])
  = [Ok [old]; Raise IndexError; Ok [old]].
Proof. exists [1 # 2]. eexists. reflexivity. Qed.
Print Assumptions C73_camera_rot_night_refuted.
(** One position a call: whatever was done on earlier nights, the k-th call of a night gets the
    k-th number of the night's own seed. *)
Theorem C73_camera_rot_call_partial : forall lo hi seeded table night t pre ns,
  seeded night = Some t -> (List.length ns <= List.length t)%nat ->
  (pre = [] \/ snd (last pre (0%nat, 0%Z)) <> night) ->
  skipn (List.length pre) (snd (cr_run PerCall lo hi seeded (cr_init PerCall table) (pre ++ map (fun n => (n, night)) ns))) =
  map (fun p => Ok (repeat (nth (fst p) t 0 * (hi - lo) + lo) (snd p))) (combine (seq 0 (List.length ns)) ns).
Proof. exact per_call_spec. Qed.
Print Assumptions C73_camera_rot_call_partial.
(** On a night before the survey start the first call raises, and the next takes a number of an
    earlier night; after the table every call raises. *)
Theorem C73_camera_rot_call_refuted :
  (exists seeded x, seeded 5%Z = Some [x] /\ seeded (-1)%Z = None /\
     snd (cr_run PerCall 0 1 seeded (cr_init PerCall []) [(1%nat, 5%Z); (1%nat, (-1)%Z); (1%nat, (-1)%Z)])
     = [Ok [x * (1 - 0) + 0]; Raise ValueError; Ok [x * (1 - 0) + 0]]) /\
  (exists seeded x, seeded 5%Z = Some [x] /\
     snd (cr_run PerCall 0 1 seeded (cr_init PerCall []) [(1%nat, 5%Z); (1%nat, 5%Z); (1%nat, 5%Z)])
     = [Ok [x * (1 - 0) + 0]; Raise IndexError; Raise IndexError]).
Proof.
  split; exists (fun n => if (n <? 0)%Z then None else Some [1 # 2]), (1 # 2); [split; [reflexivity|split; reflexivity]|split; reflexivity].
Qed.
Print Assumptions C73_camera_rot_call_refuted.
(** In every mode and at every call the offsets lie in [min_rot, max_rot), one an observation. *)
Theorem C73_camera_rot_range : forall m lo hi seeded fresh s n night,
  lo < hi -> (forall k t, seeded k = Some t -> Forall (fun u => 0 <= u /\ u < 1) t) ->
  Forall (fun u => 0 <= u /\ u < 1) fresh -> (n <= List.length fresh)%nat -> cr_inv s lo hi ->
  cr_inv (fst (cr_generate m lo hi seeded fresh s n night)) lo hi /\
  forall os, snd (cr_generate m lo hi seeded fresh s n night) = Ok os ->
    List.length os = n /\ Forall (fun o => lo <= o /\ o < hi) os.
Proof. exact generate_range. Qed.
Print Assumptions C73_camera_rot_range.
Theorem C73_camera_rot_start : forall m table lo hi, Forall (fun u => 0 <= u /\ u < 1) table -> cr_inv (cr_init m table) lo hi.
Proof. intros m table lo hi F. split; [|discriminate]. destruct m; cbn; intros t E; injection E as <- || discriminate; exact F. Qed.
Print Assumptions C73_camera_rot_start.
(** Called on observations, it sets rotTelPos to the offsets and rotSkyPos to match. *)
Theorem C73_camera_rot_rows : forall m pi t lo hi seeded fresh s night l s' out,
  0 < pi -> lo < hi -> (forall k t, seeded k = Some t -> Forall (fun u => 0 <= u /\ u < 1) t) ->
  Forall (fun u => 0 <= u /\ u < 1) fresh -> (List.length l <= List.length fresh)%nat -> cr_inv s lo hi ->
  cr_call_det m pi t lo hi seeded fresh s night l = (s', Ok out) ->
  Forall2 (fun a b => q_pa b = q_pa a /\ lo <= q_tel b /\ q_tel b < hi /\
     exists s, q_sky b = Some s /\ relation pi t s (q_tel b) (q_pa a)) l out.
Proof.
  intros m pi t lo hi seeded fresh s night l s' out Hp L HS HF HN I H. unfold cr_call_det in H.
  destruct (generate_range m lo hi seeded fresh s (List.length l) night L HS HF HN I) as [_ G].
  destruct (cr_generate m lo hi seeded fresh s (List.length l) night) as [s1 [os|e]]; [|discriminate].
  cbn [bind snd] in *. injection H as _ <-. destruct (G os eq_refl) as [G1 G2].
  destruct (combine_rows pi t l os Hp G1) as [A B]. rewrite <- B in G2. clear B G G1.
  induction A as [|a b l out X A IH]; [constructor|]. cbn [map] in G2. inversion G2 as [|? ? [Y1 Y2] Z]; subst.
  constructor; [|apply IH; [cbn in HN; lia|exact Z]]. destruct X as [X1 X2]. repeat split; assumption.
Qed.
Print Assumptions C73_camera_rot_rows.
Example C73_ex_rot : snd (cr_run PerCall 0 10 (fun n => if (n <? 0)%Z then None else Some [1#10; 2#10; 3#10]) (cr_init PerCall [])
   [(1%nat, 4%Z); (2%nat, 4%Z); (1%nat, 5%Z)]) = [Ok [(1#10) * (10 - 0) + 0]; Ok [(2#10) * (10 - 0) + 0; (2#10) * (10 - 0) + 0]; Ok [(1#10) * (10 - 0) + 0]].
Proof. reflexivity. Qed.

(** CameraSmallRot: one offset an observation, never above the maximum; when the steps of the
    whole list fit in the range, never below the minimum and growing by exactly per_visit_rot
    between neighbours in the same band. *)
Theorem C73_small_rot_partial : forall lo hi per rnd bands,
  List.length (small_offsets lo hi per rnd bands) = List.length bands /\
  Forall (fun o => o <= hi) (small_offsets lo hi per rnd bands) /\
  (0 <= per -> (forall j, 0 <= rnd j /\ rnd j < 1) -> per * inject_Z (Z.of_nat (List.length bands)) <= hi - lo ->
   Forall (fun o => lo <= o /\ o <= hi) (small_offsets lo hi per rnd bands) /\
   forall j b, nth_error bands j = Some b -> nth_error bands (S j) = Some b ->
     nth (S j) (small_offsets lo hi per rnd bands) 0 == nth j (small_offsets lo hi per rnd bands) 0 + per).
Proof. exact small_spec. Qed.
Print Assumptions C73_small_rot_partial.
Theorem C73_small_rot_rows : forall pi t lo hi per rnd l, 0 < pi ->
  Forall2 (fun a b => q_pa b = q_pa (snd a) /\ q_tel b <= hi /\
     exists s, q_sky b = Some s /\ relation pi t s (q_tel b) (q_pa (snd a))) l (small_rot pi t lo hi per rnd l) /\
  map q_tel (small_rot pi t lo hi per rnd l) = small_offsets lo hi per rnd (map fst l).
Proof.
  intros pi t lo hi per rnd l Hp. unfold small_rot.
  destruct (small_spec lo hi per rnd (map fst l)) as [L [M _]].
  destruct (combine_rows pi t (map snd l) (small_offsets lo hi per rnd (map fst l)) Hp) as [A B].
  { rewrite L, !map_length. reflexivity. }
  split; [|exact B]. rewrite <- B in M. revert A M.
  generalize (map (fun p => mkRr (Some (rt2rs pi t (snd p) (q_pa (fst p)))) (snd p) (q_pa (fst p))) (combine (map snd l) (small_offsets lo hi per rnd (map fst l)))).
  clear. induction l as [|a l IH]; intros out A M; inversion A as [|? ? ? ? [X1 X2] X3]; subst; [constructor|].
  cbn [map] in M. inversion M; subst. constructor; [|apply IH; assumption]. split; [exact X1|]. split; assumption.
Qed.
Print Assumptions C73_small_rot_rows.
(** Too many visits for the range, or a negative step, and the minimum is passed. *)
Theorem C73_small_rot_refuted :
  (exists rnd bands, (0 <= rnd /\ rnd < 1) /\ exists o, In o (small_offsets (-85) 85 100 (fun _ => rnd) bands) /\ o < -85) /\
  (exists rnd bands, (0 <= rnd /\ rnd < 1) /\ exists o, In o (small_offsets (-85) 85 (-1) (fun _ => rnd) bands) /\ o < -85).
Proof.
  split.
  - exists (1 # 2), ["g"; "g"; "g"]%string. split; [split; [discriminate|reflexivity]|].
    eexists. split; [left; reflexivity|]. reflexivity.
  - exists 0, ["g"; "g"]%string. split; [split; [discriminate|reflexivity]|].
    eexists. split; [right; left; reflexivity|]. reflexivity.
Qed.
Print Assumptions C73_small_rot_refuted.
Example C73_ex_small : map Qred (small_offsets (-85) 85 2 (fun j => if Nat.eqb j 0 then 1 # 2 else 0) ["g"; "g"; "g"; "r"; "r"]%string)
  = [-3; -1; 1; -85; -83].
Proof. vm_compute. reflexivity. Qed.
