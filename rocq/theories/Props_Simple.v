(** C122: the simple surveys and the move to sunset. *)
From Coq Require Import List Bool QArith ZArith Qround String Lia Lqa Sorted.
From Verif Require Import Base IntRounded Bisect Obs Core Surveys LsstSurveys Simple.
Import ListNotations.
Open Scope Q_scope.
Open Scope string_scope.
Open Scope list_scope.

(** A survey made by either of the two, from its arguments. *)
Definition wanted_masks (a : simple) : list bfn :=
  match a_masks a with
  | Some l => l
  | None => [MoonAvoidance (a_nside a) 30; PlanetMask (a_nside a); AvoidDirectWind (a_nside a) 20; AltAzShadowMask (a_nside a) 20 (173 # 2) 0 360 30]
  end.
Definition made (fi : Q -> string) (a : simple) (s : survey) : Prop := fst (simple_pairs_survey fi a) = Ok s \/ simple_greedy_survey a = Ok s.
Definition weight_of (k : bfn -> bool) (s : survey) : Q := fold_right Qplus 0 (map snd (filter (fun bw => k (fst bw)) (s_bfs s))).

Lemma combine_app : forall (A B : Type) (a : list A) (c : list B) (b : list A) (d : list B), List.length a = List.length c -> combine (a ++ b) (c ++ d) = combine a c ++ combine b d.
Proof. induction a as [|x a IH]; intros [|y c] b d H; try discriminate H; [reflexivity|]. cbn. rewrite IH by (injection H as H; exact H). reflexivity. Qed.
Lemma combine_zero : forall (l : list bfn), combine l (map (fun _ => 0) l) = map (fun m => (m, 0)) l.
Proof. induction l as [|x l IH]; [reflexivity|]. cbn. rewrite IH. reflexivity. Qed.
Lemma combine_fst_snd : forall (A B : Type) (l : list (A * B)), combine (map fst l) (map snd l) = l.
Proof. induction l as [|[x y] l IH]; [reflexivity|]. cbn. rewrite IH. reflexivity. Qed.
Lemma ok_inj : forall (A : Type) (x y : A), Ok x = Ok y -> x = y.
Proof. intros A x y E. injection E as E. exact E. Qed.
(** What the weighing does. *)
Lemma weigh_ok : forall r w m, List.length r = List.length w -> weigh r (Some w) m = Ok (combine r w ++ map (fun m => (m, 0)) m).
Proof.
  intros r w m H. unfold weigh. rewrite !app_length, map_length, H, Nat.eqb_refl, combine_app, combine_zero by exact H. reflexivity.
Qed.
Lemma weigh_inv : forall r w m l, weigh r w m = Ok l -> exists v, w = Some v /\ List.length r = List.length v /\ l = combine r v ++ map (fun m => (m, 0)) m.
Proof.
  intros r [v|] m l H; [|discriminate H]. exists v. split; [reflexivity|]. assert (L : List.length r = List.length v).
  { unfold weigh in H. destruct (Nat.eqb _ _) eqn:E; [|discriminate H]. apply Nat.eqb_eq in E. rewrite !app_length, map_length in E. lia. }
  split; [exact L|]. rewrite weigh_ok in H by exact L. injection H as <-. reflexivity.
Qed.
Definition gates (a : simple) : list bfn := if a_require a then [TimeToTwilight (match a_band2 a with Some _ => a_pair a * 2 | None => a_pair a end) 18] else [].
Lemma pairs_inv : forall fi a s, fst (simple_pairs_survey fi a) = Ok s -> exists rw,
  s_bfs s = rw ++ map (fun m => (m, 0)) (wanted_masks a ++ gates a) /\
  (a_rewards a = None -> rw = pair_rewards (a_nside a) (a_band a) (a_band2 a)) /\
  (forall r, a_rewards a = Some r -> exists w, a_weights a = Some w /\ List.length r = List.length w /\ rw = combine r w) /\
  s = Survey (s_bfs s) (a_band a) (a_band2 a) (a_exptime a) (a_nexp a) (a_pair a) ("simple pair " ++ fi (a_pair a) ++ ", " ++ a_band a ++ (match a_band2 a with Some b => b | None => "" end))%string
        (a_reason a) ["DD"] ([rot_of (a_rot a); CloseAlt; FlushForSched] ++ (match a_band2 a with Some b => [TakeAsPairs b] | None => [] end)) (a_nside a) None 140 (a_program a).
Proof.
  intros fi a s H. unfold simple_pairs_survey in H. cbn [fst] in H.
  assert (M : (if a_require a then (match a_masks a with Some m => m | None => default_masks (a_nside a) end) ++ [TimeToTwilight (match a_band2 a with Some _ => a_pair a * 2 | None => a_pair a end) 18] else match a_masks a with Some m => m | None => default_masks (a_nside a) end) = wanted_masks a ++ gates a).
  { unfold wanted_masks, gates. destruct (a_masks a), (a_require a); try reflexivity. rewrite app_nil_r. reflexivity. }
  rewrite M in H. clear M. destruct (a_rewards a) as [r|] eqn:R.
  - cbn [fst snd] in H. destruct (weigh r (a_weights a) _) as [l|] eqn:W; [|discriminate H]. cbn [bind] in H. injection H as <-. apply weigh_inv in W. destruct W as (v & V & L & ->).
    exists (combine r v). split; [reflexivity|]. split; [discriminate|]. split; [|reflexivity]. intros r' E. injection E as <-. exists v. tauto.
  - cbn [fst snd] in H. rewrite weigh_ok in H by (rewrite !map_length; reflexivity). cbn [bind] in H. apply ok_inj in H. subst s. rewrite combine_fst_snd.
    eexists. split; [reflexivity|]. split; [reflexivity|]. split; [discriminate|reflexivity].
Qed.
Lemma greedy_inv : forall a s, simple_greedy_survey a = Ok s -> exists rw,
  s_bfs s = rw ++ map (fun m => (m, 0)) (wanted_masks a) /\
  (a_rewards a = None -> rw = simple_rewards (a_band a) (a_nside a) 6 (3 # 2) 3 3 (- (5))) /\
  (forall r, a_rewards a = Some r -> exists w, a_weights a = Some w /\ List.length r = List.length w /\ rw = combine r w) /\
  s = Survey (s_bfs s) (a_band a) None (a_exptime a) (a_nexp a) 0 ("simple greedy " ++ a_band a)%string (a_reason a) ["DD"] [rot_of (a_rot a); CloseAlt; FlushForSched] (a_nside a) None 0 (a_program a).
Proof.
  intros a s H. unfold simple_greedy_survey in H. cbn [fst] in H. change (match a_masks a with Some m => m | None => default_masks (a_nside a) end) with (wanted_masks a) in H.
  destruct (a_rewards a) as [r|] eqn:R.
  - cbn [fst snd] in H. destruct (weigh r (a_weights a) _) as [l|] eqn:W; [|discriminate H]. cbn [bind] in H. injection H as <-. apply weigh_inv in W. destruct W as (v & V & L & ->).
    exists (combine r v). split; [reflexivity|]. split; [discriminate|]. split; [|reflexivity]. intros r' E. injection E as <-. exists v. tauto.
  - cbn [fst snd] in H. rewrite weigh_ok in H by (rewrite !map_length; reflexivity). cbn [bind] in H. apply ok_inj in H. subst s. rewrite combine_fst_snd.
    eexists. split; [reflexivity|]. split; [reflexivity|]. split; [discriminate|reflexivity].
Qed.

(** The masks, given or standard, are all there, weigh nothing and come last. *)
Theorem C122_masks : forall fi a s, made fi a s -> exists rw rest, s_bfs s = rw ++ map (fun m => (m, 0)) (wanted_masks a) ++ rest /\ (forall b w, In (b, w) rest -> w = 0).
Proof.
  intros fi a s [H|H].
  - destruct (pairs_inv fi a s H) as (rw & E & _). exists rw, (map (fun m => (m, 0)) (gates a)). split; [rewrite E, map_app; reflexivity|]. intros b w I. apply in_map_iff in I. destruct I as (? & J & _). injection J as _ <-. reflexivity.
  - destruct (greedy_inv a s H) as (rw & E & _). exists rw, []. split; [rewrite E, app_nil_r; reflexivity|]. intros b w [].
Qed.
(** What is asked is set. *)
Theorem C122_asked : forall fi a s, made fi a s -> s_band1 s = a_band a /\ s_exptime s = a_exptime a /\ s_nexp s = a_nexp a /\ s_nside s = a_nside a /\ s_program s = a_program a /\ s_reason s = a_reason a /\ s_ignore s = ["DD"] /\
  exists lo hi, In (CameraRot lo hi) (s_detailers s) /\ lo <= hi /\ (lo = fst (a_rot a) /\ hi = snd (a_rot a) \/ lo = snd (a_rot a) /\ hi = fst (a_rot a)).
Proof.
  intros fi a s H. assert (X : exists lo hi, rot_of (a_rot a) = CameraRot lo hi /\ lo <= hi /\ (lo = fst (a_rot a) /\ hi = snd (a_rot a) \/ lo = snd (a_rot a) /\ hi = fst (a_rot a))).
  { destruct (a_rot a) as [x y]. cbn [rot_of fst snd]. destruct (Qle_bool x y) eqn:E; eexists _, _; (split; [reflexivity|]).
    - apply Qle_bool_imp_le in E. split; [exact E|left; split; reflexivity].
    - assert (~ x <= y) by (intros L; apply Qle_bool_iff in L; congruence). split; [lra|right; split; reflexivity]. }
  destruct X as (lo & hi & X & L & D). destruct H as [H|H].
  - destruct (pairs_inv fi a s H) as (rw & _ & _ & _ & E). rewrite E. cbn [s_band1 s_exptime s_nexp s_nside s_program s_reason s_ignore s_detailers]. repeat (split; [reflexivity|]). exists lo, hi. split; [left; exact X|tauto].
  - destruct (greedy_inv a s H) as (rw & _ & _ & _ & E). rewrite E. cbn [s_band1 s_exptime s_nexp s_nside s_program s_reason s_ignore s_detailers]. repeat (split; [reflexivity|]). exists lo, hi. split; [left; exact X|tauto].
Qed.
Theorem C122_pair : forall fi a s, fst (simple_pairs_survey fi a) = Ok s -> s_band2 s = a_band2 a /\ s_pair_time s = a_pair a /\ forall b, a_band2 a = Some b <-> In (TakeAsPairs b) (s_detailers s).
Proof.
  intros fi a s H. destruct (pairs_inv fi a s H) as (rw & _ & _ & _ & E). rewrite E. cbn [s_band2 s_pair_time s_detailers]. split; [reflexivity|]. split; [reflexivity|]. intros b. split.
  - intros ->. cbn. tauto.
  - intros I. destruct (a_rot a). destruct (a_band2 a) as [c|]; cbn in I; repeat (destruct I as [I|I]; [try discriminate I; injection I as ->; reflexivity|]); destruct I.
Qed.

(** Rewards given are used with their weights, in order; without weights or with too few it is refused. *)
Theorem C122_given : forall fi a r, a_rewards a = Some r ->
  match a_weights a with
  | None => fst (simple_pairs_survey fi a) = Raise TypeError /\ simple_greedy_survey a = Raise TypeError
  | Some w => (List.length w <> List.length r -> fst (simple_pairs_survey fi a) = Raise ValueError /\ simple_greedy_survey a = Raise ValueError) /\
              (List.length w = List.length r -> (exists s, fst (simple_pairs_survey fi a) = Ok s) /\ (exists s, simple_greedy_survey a = Ok s) /\
                 forall s, made fi a s -> exists rest, map fst (s_bfs s) = r ++ map fst rest /\ map snd (s_bfs s) = w ++ map snd rest)
  end.
Proof.
  intros fi a r R. unfold simple_pairs_survey, simple_greedy_survey. rewrite R. cbn [fst snd]. destruct (a_weights a) as [w|] eqn:W; [|split; reflexivity]. split.
  - intros N. assert (X : forall m, weigh r (Some w) m = Raise ValueError).
    { intros m. unfold weigh. destruct (Nat.eqb _ _) eqn:E; [|reflexivity]. apply Nat.eqb_eq in E. rewrite !app_length, map_length in E. lia. }
    rewrite !X. split; reflexivity.
  - intros N. rewrite !weigh_ok by congruence. cbn [bind]. split; [eexists; reflexivity|]. split; [eexists; reflexivity|]. intros s M.
    assert (Y : exists rw m, s_bfs s = rw ++ m /\ rw = combine r w).
    { destruct M as [M|M]; [destruct (pairs_inv fi a s M) as (rw & E & _ & G & _)|destruct (greedy_inv a s M) as (rw & E & _ & G & _)]; destruct (G r R) as (w' & W' & _ & E2); rewrite W in W'; injection W' as <-; exists rw; eexists; split; [exact E|exact E2|exact E|exact E2]. }
    destruct Y as (rw & m & -> & ->). exists m. rewrite !map_app. split; f_equal; clear -N; revert w N; induction r as [|x r IH]; intros [|y w] N; try discriminate N; cbn; try reflexivity; rewrite IH by (injection N as N; exact N); reflexivity.
Qed.

(** The rewards of the survey without a second band weigh what the manual says. *)
Definition is_m5 (b : bfn) : bool := match b with M5Diff _ _ => true | _ => false end.
Definition is_footprint (b : bfn) : bool := match b with Footprint _ _ _ => true | _ => false end.
Definition is_slew (b : bfn) : bool := match b with Slewtime _ _ => true | _ => false end.
Definition is_stay (b : bfn) : bool := match b with BandChange _ => true | _ => false end.
Definition is_repeat (b : bfn) : bool := match b with VisitRepeat _ _ => true | _ => false end.
Lemma weight_zero : forall k l, fold_right Qplus 0 (map snd (filter (fun bw : bfn * Q => k (fst bw)) (map (fun m => (m, 0)) l))) == 0.
Proof. intros k l. induction l as [|x l IH]; [reflexivity|]. cbn. destruct (k x); cbn; [rewrite IH; reflexivity|exact IH]. Qed.
Lemma sum_app : forall a b, fold_right Qplus 0 (a ++ b) == fold_right Qplus 0 a + fold_right Qplus 0 b.
Proof. intros a b. induction a as [|x a IH]; cbn; [ring|]. rewrite IH. ring. Qed.
Lemma weight_split : forall k s rw m, s_bfs s = rw ++ map (fun m => (m, 0)) m -> weight_of k s == fold_right Qplus 0 (map snd (filter (fun bw : bfn * Q => k (fst bw)) rw)).
Proof. intros k s rw m E. unfold weight_of. rewrite E, filter_app, map_app, sum_app, weight_zero. ring. Qed.
Theorem C122_weights : forall fi a s, a_rewards a = None -> made fi a s ->
  weight_of is_m5 s == 6 /\ weight_of is_footprint s == 3 # 2 /\ weight_of is_slew s == 3 /\ weight_of is_stay s == 3 /\
  (forall b, a_band2 a = Some b -> b <> a_band a -> fst (simple_pairs_survey fi a) = Ok s ->
     weight_of (fun f => match f with M5Diff x _ => String.eqb x (a_band a) | _ => false end) s == 3 /\ weight_of (fun f => match f with M5Diff x _ => String.eqb x b | _ => false end) s == 3).
Proof.
  intros fi a s R [H|H].
  - destruct (pairs_inv fi a s H) as (rw & E & G & _). specialize (G R). rewrite !(weight_split _ s rw _ E). rewrite G. unfold pair_rewards. destruct (a_band2 a) as [b|]; (repeat (split; [reflexivity|])); [|discriminate].
    intros c Ec Nc _. injection Ec as <-. rewrite !(weight_split _ s rw _ E), G. cbn. rewrite !String.eqb_refl. assert (N1 : String.eqb (a_band a) b = false) by (apply String.eqb_neq; congruence). assert (N2 : String.eqb b (a_band a) = false) by (apply String.eqb_neq; congruence). rewrite N1, N2. split; reflexivity.
  - destruct (greedy_inv a s H) as (rw & E & G & _). specialize (G R). rewrite !(weight_split _ s rw _ E). rewrite G. repeat (split; [reflexivity|]).
    intros b B _ P. destruct (pairs_inv fi a s P) as (_ & _ & _ & _ & P1). destruct (greedy_inv a s H) as (_ & _ & _ & _ & P2). rewrite P1 in P2. apply (f_equal s_band2) in P2. cbn in P2. congruence.
Qed.
Theorem C122_repeat : forall fi a s, a_rewards a = None -> (simple_greedy_survey a = Ok s -> weight_of is_repeat s == - (5)) /\ (fst (simple_pairs_survey fi a) = Ok s -> a_band2 a = None -> weight_of is_repeat s == - (20)).
Proof.
  intros fi a s R. split; intros H.
  - destruct (greedy_inv a s H) as (rw & E & G & _). specialize (G R). rewrite (weight_split _ s rw _ E), G. reflexivity.
  - intros N. destruct (pairs_inv fi a s H) as (rw & E & G & _). specialize (G R). rewrite (weight_split _ s rw _ E), G, N. reflexivity.
Qed.
(** With a second band nothing keeps the survey from repeats: the filter for positive weights drops the negative one. *)
Theorem C122_repeat_refuted : forall fi a b s n g w, a_rewards a = None -> a_band2 a = Some b -> fst (simple_pairs_survey fi a) = Ok s -> In (VisitRepeat n g, w) (s_bfs s) -> w = 0 /\ In (VisitRepeat n g) (wanted_masks a).
Proof.
  intros fi a b s n g w R B H I. destruct (pairs_inv fi a s H) as (rw & E & G & _). specialize (G R). rewrite E, G, B in I. apply in_app_or in I. destruct I as [I|I].
  - cbn in I. repeat (destruct I as [I|I]; [discriminate I|]). destruct I.
  - apply in_map_iff in I. destruct I as (m & J & K). injection J as -> <-. split; [reflexivity|]. apply in_app_or in K. destruct K as [K|K]; [exact K|]. unfold gates in K. destruct (a_require a); [destruct K as [K|[]]; discriminate K|destruct K].
Qed.
(** All bands needed must be mounted. *)
Theorem C122_loaded : forall fi a s, a_rewards a = None -> fst (simple_pairs_survey fi a) = Ok s -> exists bands, In (BandLoaded bands, 0) (s_bfs s) /\ In (a_band a) bands /\ forall b, a_band2 a = Some b -> In b bands.
Proof.
  intros fi a s R H. destruct (pairs_inv fi a s H) as (rw & E & G & _). specialize (G R). rewrite E, G. destruct (a_band2 a) as [b|].
  - exists [a_band a; b]. split; [apply in_or_app; left; cbn; tauto|]. split; [left; reflexivity|]. intros c Q. injection Q as <-. right. left. reflexivity.
  - exists [a_band a]. split; [apply in_or_app; left; cbn; tauto|]. split; [left; reflexivity|discriminate].
Qed.

(** The time before twilight asked for is the time the survey takes; with a change of band it is 140 s short. *)
Theorem C122_time : forall fi a s, a_require a = true -> fst (simple_pairs_survey fi a) = Ok s -> exists m, In (TimeToTwilight m 18, 0) (s_bfs s) /\
  ((a_band2 a = None \/ a_band2 a = Some (a_band a)) -> m == minutes s) /\ (forall b, a_band2 a = Some b -> b <> a_band a -> m + 140 / 60 == minutes s).
Proof.
  intros fi a s R H. destruct (pairs_inv fi a s H) as (rw & E & _ & _ & S1). exists (match a_band2 a with Some _ => a_pair a * 2 | None => a_pair a end). split.
  - rewrite E. apply in_or_app. right. apply in_map_iff. eexists. split; [reflexivity|]. apply in_or_app. right. unfold gates. rewrite R. left. reflexivity.
  - rewrite S1. unfold minutes. cbn [s_band2 s_band1 s_pair_time s_change]. split.
    + intros [-> | ->]; [reflexivity|]. rewrite String.eqb_refl. field.
    + intros b -> N. assert (X : String.eqb (a_band a) b = false) by (apply String.eqb_neq; congruence). rewrite X. reflexivity.
Qed.
Theorem C122_time_refuted : forall fi a s b, a_masks a = None -> a_rewards a = None -> a_require a = true -> a_band2 a = Some b -> b <> a_band a -> fst (simple_pairs_survey fi a) = Ok s -> forall m lim w, In (TimeToTwilight m lim, w) (s_bfs s) -> m < minutes s.
Proof.
  intros fi a s b M R Q B N H m lim w I. destruct (pairs_inv fi a s H) as (rw & E & G & _ & S1). specialize (G R). rewrite E, G, B in I. apply in_app_or in I. destruct I as [I|I].
  - cbn in I. repeat (destruct I as [I|I]; [discriminate I|]). destruct I.
  - apply in_map_iff in I. destruct I as (x & J & K). injection J as -> <- . unfold wanted_masks, gates in K. rewrite M, Q, B in K. cbn in K. repeat (destruct K as [K|K]; [discriminate K|]). destruct K as [K|[]]. injection K as <- <-.
    rewrite S1. unfold minutes. cbn [s_band2 s_band1 s_pair_time s_change]. rewrite B. assert (X : String.eqb (a_band a) b = false) by (apply String.eqb_neq; congruence). rewrite X. assert (E1 : 140 / 60 == 7 # 3) by reflexivity. rewrite E1. lra.
Qed.
(** Without a second band there is no second visit. *)
Theorem C122_second_visit_refuted : forall fi a s, a_band2 a = None -> fst (simple_pairs_survey fi a) = Ok s -> s_band2 s = None /\ minutes s = a_pair a /\ forall b, ~ In (TakeAsPairs b) (s_detailers s).
Proof.
  intros fi a s B H. destruct (pairs_inv fi a s H) as (rw & _ & _ & _ & E). rewrite E, B. split; [reflexivity|]. split; [reflexivity|]. intros b I. destruct (a_rot a). cbn in I. repeat (destruct I as [I|I]; [discriminate I|]). destruct I.
Qed.
(** The standard masks look 30 minutes ahead, whatever the survey takes. *)
Theorem C122_shadow_refuted : forall fi a s, a_masks a = None -> a_rewards a = None -> fst (simple_pairs_survey fi a) = Ok s ->
  (forall n lo hi z1 z2 m w, In (AltAzShadowMask n lo hi z1 z2 m, w) (s_bfs s) -> (minutes s <= m <-> minutes s <= 30)) /\ (forall b, a_band2 a = Some b -> 15 < a_pair a -> ~ minutes s <= 30).
Proof.
  intros fi a s M R H. destruct (pairs_inv fi a s H) as (rw & E & G & _ & S1). specialize (G R). split.
  - intros n lo hi z1 z2 m w I. rewrite E in I. apply in_app_or in I. destruct I as [I|I].
    + exfalso. rewrite G in I. unfold pair_rewards in I. destruct (a_band2 a); cbn in I; repeat (destruct I as [I|I]; [discriminate I|]); destruct I.
    + apply in_map_iff in I. destruct I as (x & J & K). injection J as -> <-. unfold wanted_masks, gates in K. rewrite M in K. destruct (a_require a); cbn in K; repeat (destruct K as [K|K]; [try discriminate K; injection K as <- <- <- <- <- <-; reflexivity|]); destruct K.
  - intros b B P. rewrite S1. unfold minutes. cbn [s_band2 s_band1 s_pair_time s_change]. rewrite B. intros L. assert (E0 : 0 / 60 == 0) by reflexivity. assert (E1 : 140 / 60 == 7 # 3) by reflexivity. destruct (String.eqb (a_band a) b); [rewrite E0 in L|rewrite E1 in L]; lra.
Qed.
(** Calls leave the list of masks given alone unless time is required; then each adds its gate to it, for all later ones. *)
Theorem C122_apart : forall fi a m, a_masks a = Some m -> a_require a = false -> snd (simple_pairs_survey fi a) = Some m.
Proof. intros fi a m M R. unfold simple_pairs_survey. rewrite M, R. reflexivity. Qed.
Theorem C122_shared_refuted : forall fi masks (c d : list bfn -> simple) s t, (forall l, a_masks (c l) = Some l /\ a_require (c l) = true) -> (forall l, a_masks (d l) = Some l) ->
  shared fi [c; d] masks = [Ok s; Ok t] ->
  exists m, m = match a_band2 (c masks) with Some _ => a_pair (c masks) * 2 | None => a_pair (c masks) end /\ In (TimeToTwilight m 18, 0) (s_bfs t).
Proof.
  intros fi masks c d s t C D H. eexists. split; [reflexivity|]. cbn [shared] in H. destruct (simple_pairs_survey fi (c masks)) as [r m] eqn:E1. destruct (C masks) as [C1 C2].
  assert (M : m = Some (masks ++ [TimeToTwilight (match a_band2 (c masks) with Some _ => a_pair (c masks) * 2 | None => a_pair (c masks) end) 18])).
  { apply (f_equal snd) in E1. cbn [snd] in E1. rewrite <- E1. unfold simple_pairs_survey. rewrite C1, C2. reflexivity. }
  subst m. destruct (simple_pairs_survey fi (d _)) as [r2 m2] eqn:E2. injection H as _ ->. assert (F : fst (simple_pairs_survey fi (d (masks ++ [TimeToTwilight (match a_band2 (c masks) with Some _ => a_pair (c masks) * 2 | None => a_pair (c masks) end) 18]))) = Ok t) by (rewrite E2; reflexivity).
  destruct (pairs_inv _ _ _ F) as (rw & E & _). rewrite E. apply in_or_app. right. apply in_map_iff. eexists. split; [reflexivity|]. apply in_or_app. left. unfold wanted_masks. rewrite D. apply in_or_app. right. left. reflexivity.
Qed.
Print Assumptions C122_masks.
Print Assumptions C122_asked.
Print Assumptions C122_pair.
Print Assumptions C122_given.
Print Assumptions C122_weights.
Print Assumptions C122_repeat.
Print Assumptions C122_repeat_refuted.
Print Assumptions C122_loaded.
Print Assumptions C122_time.
Print Assumptions C122_time_refuted.
Print Assumptions C122_second_visit_refuted.
Print Assumptions C122_shadow_refuted.
Print Assumptions C122_apart.
Print Assumptions C122_shared_refuted.

(** The next sunset. *)
Lemma sorted_parted : forall l t, StronglySorted Qle l -> parted (fun s => Qle_bool s t) l.
Proof.
  intros l t H i j x y L X Y P. apply Qle_bool_iff in P. apply Qle_bool_iff. destruct (Nat.eq_dec i j) as [->|N]; [congruence|].
  assert (G : x <= y). { clear P t. revert i j L X Y N. induction H as [|a l H IH F]; intros [|i] [|j] L X Y N; try discriminate; try lia.
    - injection X as <-. cbn in Y. apply nth_error_In in Y. rewrite Forall_forall in F. exact (F _ Y).
    - cbn in X, Y. apply (IH i j); auto; lia. }
  lra.
Qed.
Lemma nth_sorted : forall l i j x y, StronglySorted Qle l -> (i <= j)%nat -> nth_error l i = Some x -> nth_error l j = Some y -> x <= y.
Proof.
  intros l i j x y H. revert i j. induction H as [|a l H IH F]; intros [|i] [|j] L X Y; try discriminate; try lia; cbn in *.
  - injection X as <-. injection Y as <-. lra.
  - injection X as <-. apply nth_error_In in Y. rewrite Forall_forall in F. exact (F _ Y).
  - apply (IH i j); auto. lia.
Qed.
Lemma at_nat : forall l n, at_index l (Z.of_nat n) = match nth_error l n with Some x => Ok x | None => Raise IndexError end.
Proof. intros l n. unfold at_index. assert (A : (Z.of_nat n <? 0)%Z = false) by (apply Z.ltb_ge; lia). rewrite A. cbv zeta. rewrite A, Nat2Z.id. reflexivity. Qed.
(** From a time after the first sunset known: the first that is not past, refused if all are past. *)
Theorem C122_sunset : forall l mjd, StronglySorted Qle l -> (exists s, In s l /\ s <= mjd) ->
  (forall t, next_sunset l mjd = Ok t -> In t l /\ mjd <= t /\ forall s, In s l -> mjd <= s -> t <= s) /\
  (next_sunset l mjd = Raise IndexError <-> forall s, In s l -> s < mjd) /\ (forall e, next_sunset l mjd = Raise e -> e = IndexError).
Proof.
  intros l mjd S1 (s0 & I0 & L0). destruct (searchsorted_ok _ 0 l (sorted_parted l mjd S1)) as (K & K1 & K2). unfold next_sunset.
  set (k := searchsorted _ 0 l) in *. clearbody k. apply In_nth_error in I0. destruct I0 as (i0 & N0).
  assert (P : (0 < k)%nat). { destruct k; [|lia]. specialize (K2 i0 s0 (Nat.le_0_l _) N0). cbv beta in K2. apply Qle_bool_iff in L0. congruence. }
  destruct k as [|k]; [lia|]. clear P. replace (Z.of_nat (S k) - 1)%Z with (Z.of_nat k) by lia. replace (Z.of_nat k + 1)%Z with (Z.of_nat (S k)) by lia. rewrite !at_nat.
  destruct (nth_error l k) as [x|] eqn:X; [|apply nth_error_None in X; lia]. cbn [bind]. pose proof (K1 k x (Nat.lt_succ_diag_r _) X) as Px. cbv beta in Px. apply Qle_bool_iff in Px.
  assert (Below : forall s, In s l -> s < mjd \/ x <= s). { intros s I. apply In_nth_error in I. destruct I as (i & N). destruct (Nat.le_gt_cases k i) as [G|G]; [right; exact (nth_sorted _ _ _ _ _ S1 G X N)|]. pose proof (nth_sorted _ _ _ _ _ S1 (Nat.lt_le_incl _ _ G) N X). destruct (Qlt_le_dec s mjd) as [C|C]; [left; exact C|right; lra]. }
  assert (Above : forall i s, (S k <= i)%nat -> nth_error l i = Some s -> mjd < s). { intros i s G N. specialize (K2 i s G N). cbv beta in K2. apply Qnot_le_lt. intros C. apply Qle_bool_iff in C. congruence. }
  destruct (Qltb x mjd) eqn:Q.
  - apply Qltb_lt in Q. destruct (nth_error l (S k)) as [y|] eqn:Y.
    + pose proof (Above _ _ (le_n _) Y) as Py. split; [|split].
      * intros t E. injection E as <-. split; [exact (nth_error_In _ _ Y)|]. split; [lra|]. intros s I Ls. apply In_nth_error in I. destruct I as (i & N). destruct (Nat.le_gt_cases (S k) i) as [G|G]; [exact (nth_sorted _ _ _ _ _ S1 G Y N)|]. assert (i <= k)%nat as G2 by lia. pose proof (nth_sorted _ _ _ _ _ S1 G2 N X). lra.
      * split; [discriminate|]. intros F. specialize (F y (nth_error_In _ _ Y)). lra.
      * discriminate.
    + split; [discriminate|]. split; [|intros e E; injection E as <-; reflexivity]. split; [|reflexivity]. intros _ s I. apply In_nth_error in I. destruct I as (i & N). assert (i <= k)%nat as G. { apply nth_error_None in Y. assert (i < List.length l)%nat by (apply nth_error_Some; congruence). lia. } pose proof (nth_sorted _ _ _ _ _ S1 G N X). lra.
  - assert (Q2 : mjd <= x). { apply Qnot_lt_le. intros C. apply Qltb_lt in C. congruence. } split; [|split; [split; [discriminate|intros F; specialize (F x (nth_error_In _ _ X)); lra]|discriminate]].
    intros t E. injection E as <-. split; [exact (nth_error_In _ _ X)|]. split; [exact Q2|]. intros s I Ls. destruct (Below s I) as [C|C]; lra.
Qed.
(** Before the first sunset known, it is the last one. *)
Theorem C122_sunset_before_refuted : forall l mjd, StronglySorted Qle l -> l <> [] -> (forall s, In s l -> mjd < s) -> exists t, next_sunset l mjd = Ok t /\ forall s, In s l -> s <= t.
Proof.
  intros l mjd S1 N F. destruct (searchsorted_ok _ 0 l (sorted_parted l mjd S1)) as (K & K1 & K2). unfold next_sunset. set (k := searchsorted _ 0 l) in *. clearbody k.
  assert (k = 0%nat) as ->. { destruct k as [|k]; [reflexivity|]. destruct (nth_error l 0) as [x|] eqn:E; [|destruct l; [contradiction|discriminate E]]. specialize (K1 0%nat x (Nat.lt_0_succ _) E). cbv beta in K1. apply Qle_bool_iff in K1. specialize (F x (nth_error_In _ _ E)). lra. }
  change (Z.of_nat 0 - 1)%Z with (-1)%Z. assert (L : (0 < List.length l)%nat) by (destruct l; [contradiction|simpl; lia]).
  assert (A : at_index l (-1) = match nth_error l (List.length l - 1) with Some x => Ok x | None => Raise IndexError end).
  { unfold at_index. cbv beta iota zeta. change (-1 <? 0)%Z with true. cbv iota. assert (B : (-1 + Z.of_nat (List.length l) <? 0)%Z = false) by (apply Z.ltb_ge; lia). rewrite B. replace (Z.to_nat (-1 + Z.of_nat (List.length l))) with (List.length l - 1)%nat by lia. reflexivity. }
  rewrite A. destruct (nth_error l (List.length l - 1)) as [x|] eqn:X; [|apply nth_error_None in X; lia]. cbn [bind]. pose proof (F x (nth_error_In _ _ X)) as Fx.
  assert (Q : Qltb x mjd = false). { destruct (Qltb x mjd) eqn:Q; [|reflexivity]. apply Qltb_lt in Q. lra. } rewrite Q. exists x. split; [reflexivity|]. intros s I. apply In_nth_error in I. destruct I as (i & Ni).
  apply (nth_sorted l i (List.length l - 1) s x S1); [|exact Ni|exact X]. assert (i < List.length l)%nat by (apply nth_error_Some; congruence). lia.
Qed.
(** The observatory is then at that time, in that night, with the bands chosen for it and one of them in use. *)
Theorem C122_update : forall n12 n18 bands o t p, update_sunset n12 n18 bands o t = Ok p ->
  (t = TInt (-12) -> next_sunset n12 (o_mjd o) = Ok (o_mjd p)) /\ (t = TInt (-18) -> next_sunset n18 (o_mjd o) = Ok (o_mjd p)) /\
  (forall q, t = TFloat q -> o_mjd p = q) /\ (forall z, t = TInt z -> z <> (-12)%Z -> z <> (-18)%Z -> o_mjd p = inject_Z z) /\ o_start p = o_start o /\
  inject_Z (o_night p) <= o_mjd p - o_start p < inject_Z (o_night p) + 1 /\
  (exists c, o_mjd c = o_mjd p /\ o_night c = o_night p /\ o_mounted c = o_mounted o /\ o_mounted p = bands c) /\ In (o_current p) (o_mounted p) /\ In (o_first p) (o_mounted p).
Proof.
  intros n12 n18 bands o t p H. unfold update_sunset in H. destruct (if twi_is t (-12) || twi_is t (-18) then _ else _) as [new|] eqn:N; [|discriminate H]. cbn [bind] in H. unfold mount in H.
  assert (Pk : forall b l c, (if existsb (String.eqb b) l then Ok b else match rev l with x :: _ => Ok x | [] => Raise IndexError end) = Ok c -> In c l).
  { intros b l c E. destruct (existsb (String.eqb b) l) eqn:X.
    - injection E as <-. apply existsb_exists in X. destruct X as (y & I & Y). apply String.eqb_eq in Y. subst. exact I.
    - destruct (rev l) as [|x r] eqn:R; [discriminate E|]. injection E as <-. apply in_rev. rewrite R. left. reflexivity. }
  destruct (if existsb (String.eqb (o_current (move o new))) _ then _ else _) as [c|] eqn:C; [|discriminate H]. cbn [bind] in H. destruct (if existsb (String.eqb (o_first (move o new))) _ then _ else _) as [f|] eqn:Fi; [|discriminate H]. cbn [bind] in H. apply ok_inj in H. subst p.
  cbn [o_mjd o_start o_night o_mounted o_current o_first move].
  split; [intros ->; exact N|]. split; [intros ->; exact N|]. split.
  { intros q ->. destruct (twi_is (TFloat q) (-12) || twi_is (TFloat q) (-18)); [discriminate N|]. injection N as <-. reflexivity. }
  split. { intros z -> Z1 Z2. unfold twi_is in N. apply Z.eqb_neq in Z1, Z2. rewrite Z1, Z2 in N. cbn [orb] in N. injection N as <-. reflexivity. }
  split; [reflexivity|]. split.
  { split; [apply Qfloor_le|]. pose proof (Qlt_floor (new - o_start o)) as L. rewrite inject_Z_plus in L. exact L. }
  split; [exists (move o new); repeat split|]. split; [exact (Pk _ _ _ C)|exact (Pk _ _ _ Fi)].
Qed.
(** -12.0 and -18.0 are refused although the manual allows them. *)
Theorem C122_float_refuted : forall n12 n18 bands o q, q == -12 \/ q == -18 -> update_sunset n12 n18 bands o (TFloat q) = Raise ValueError.
Proof.
  intros n12 n18 bands o q H. unfold update_sunset, twi_is. assert (X : Qeq_bool q (inject_Z (-12)) || Qeq_bool q (inject_Z (-18)) = true). { apply orb_true_iff. destruct H as [H|H]; [left|right]; apply Qeq_bool_iff; exact H. } rewrite X. reflexivity.
Qed.
(** Each reward has the weight given for its kind and the band asked for; repeats are avoided for three hours. *)
Theorem C122_kinds : forall band nside m5 footprint slew stay repeat_w b w, In (b, w) (simple_rewards band nside m5 footprint slew stay repeat_w) ->
  match b with
  | M5Diff x n => w = m5 /\ x = band /\ n = nside
  | Footprint x n _ => w = footprint /\ x = band /\ n = nside
  | Slewtime x n => w = slew /\ x = band /\ n = nside
  | BandChange x => w = stay /\ x = band
  | BandLoaded l => w = 0 /\ l = [band]
  | VisitRepeat n gap => w = repeat_w /\ n = nside /\ gap == 3 * 60
  | _ => False
  end.
Proof.
  intros band nside m5 footprint slew stay repeat_w b w H. unfold simple_rewards in H. cbn [In] in H.
  repeat (destruct H as [H|H]; [injection H as <- <-; repeat split|]); destruct H.
Qed.
Print Assumptions C122_kinds.
Print Assumptions C122_sunset.
Print Assumptions C122_sunset_before_refuted.
Print Assumptions C122_update.
Print Assumptions C122_float_refuted.

(** The visits of the field. *)
Theorem C122_field : forall ra dec name sequence, 
  ((forall b, In b sequence -> In b ["u"; "g"; "r"; "i"; "z"; "y"]) -> exists l, simple_field_sequence ra dec name sequence None None None = Ok l /\ List.length l = (20 * List.length sequence)%nat /\
     (forall o, In o l -> o_ra o = ra /\ o_dec o = dec /\ o_note o = name /\ In (o_band o) sequence /\ (o_exptime o == if String.eqb (o_band o) "u" then 38 else 30) /\ o_nexp o = (if String.eqb (o_band o) "u" then 1 else 2)%Z) /\
     forall b, List.length (filter (fun o => String.eqb (o_band o) b) l) = (20 * List.length (filter (String.eqb b) sequence))%nat) /\
  (~ (forall b, In b sequence -> In b ["u"; "g"; "r"; "i"; "z"; "y"]) -> simple_field_sequence ra dec name sequence None None None = Raise KeyError).
Proof.
  intros ra dec name sequence. unfold simple_field_sequence.
  assert (D : forall b, In b ["u"; "g"; "r"; "i"; "z"; "y"] \/ ~ In b ["u"; "g"; "r"; "i"; "z"; "y"]) by (intros b; destruct (in_dec string_dec b ["u"; "g"; "r"; "i"; "z"; "y"]); tauto).
  induction sequence as [|b r [IH1 IH2]].
  - split; [intros _; exists []; split; [reflexivity|]; split; [reflexivity|]; split; [intros o []|reflexivity]|]. intros H. exfalso. apply H. intros b [].
  - cbn [fd_expand]. split.
    + intros H. destruct IH1 as (l & E & L & P & C); [intros c I; apply H; right; exact I|]. rewrite E.
      assert (One : exists e n, (bind (per (PDict (dict 20 20)%Z) b) (fun n => bind (if (n <=? 0)%Z then Ok [] else bind (per (PDict (dict 38 30)) b) (fun t => bind (per (PDict (dict 1 2)%Z) b) (fun x => Ok (repeat (entry b ra dec t x name) (Z.to_nat n))))) (fun l0 => bind (Ok l) (fun l' => Ok (l0 ++ l'))))) = Ok (repeat (entry b ra dec e n name) 20 ++ l) /\ (e == if String.eqb b "u" then 38 else 30) /\ n = (if String.eqb b "u" then 1 else 2)%Z).
      { destruct (H b (or_introl eq_refl)) as [<-|[<-|[<-|[<-|[<-|[<-|[]]]]]]]; eexists _, _; (split; [reflexivity|split; reflexivity]). }
      destruct One as (e & n & -> & Ee & En). eexists. split; [reflexivity|]. split; [rewrite app_length, repeat_length, L; cbn [List.length]; lia|]. split.
      * intros o I. apply in_app_or in I. destruct I as [I|I].
        -- apply repeat_spec in I. subst o. cbn [entry o_ra o_dec o_note o_band o_exptime o_nexp]. repeat (split; [reflexivity|]). split; [left; reflexivity|]. split; [exact Ee|exact En].
        -- destruct (P o I) as (A1 & A2 & A3 & A4 & A5). repeat (split; [assumption|]). split; [right; exact A4|exact A5].
      * intros c. rewrite filter_app, app_length, C. cbn [filter]. assert (R : forall k, List.length (filter (fun o => String.eqb (o_band o) c) (repeat (entry b ra dec e n name) k)) = if String.eqb b c then k else 0%nat).
        { induction k as [|k IHk]; [destruct (String.eqb b c); reflexivity|]. cbn [repeat filter]. change (o_band (entry b ra dec e n name)) with b. destruct (String.eqb b c) eqn:Q; cbn [List.length]; rewrite IHk; reflexivity. }
        rewrite R, (String.eqb_sym c b). destruct (String.eqb b c); cbn [List.length]; lia.
    + intros H. destruct (D b) as [Db|Db].
      * assert (H' : ~ (forall c, In c r -> In c ["u"; "g"; "r"; "i"; "z"; "y"])). { intros G. apply H. intros c [<-|I]; [exact Db|exact (G c I)]. } rewrite (IH2 H').
        destruct Db as [<-|[<-|[<-|[<-|[<-|[<-|[]]]]]]]; reflexivity.
      * cbn [per dict Surveys.lookup]. assert (Q : forall c, In c ["u"; "g"; "r"; "i"; "z"; "y"] -> String.eqb b c = false) by (intros c I; apply String.eqb_neq; intros ->; exact (Db I)).
        rewrite !Q by (cbn; tauto). reflexivity.
Qed.
(** The masks are not of weight zero: all the functions share the weight alike. *)
Theorem C122_field_weights_refuted : forall (B : Type) (masks rewards : list B) b w, In (b, w) (field_weights masks rewards) -> 0 < w /\ w * inject_Z (Z.of_nat (List.length masks + List.length rewards)) == 1.
Proof.
  intros B masks rewards b w I. unfold field_weights in I. apply in_map_iff in I. destruct I as (x & E & J). injection E as <- <-. rewrite app_length.
  assert (P : (0 < List.length masks + List.length rewards)%nat). { rewrite <- app_length. destruct (masks ++ rewards); [destruct J|simpl; lia]. }
  assert (Q : 0 < inject_Z (Z.of_nat (List.length masks + List.length rewards))) by (change 0 with (inject_Z 0); rewrite <- Zlt_Qlt; lia). split; [apply Qlt_shift_div_l; lra|]. field. lra.
Qed.
Print Assumptions C122_field.
Print Assumptions C122_field_weights_refuted.

(** Examples. *)
Definition t (_ : Q) : string := "30".
Definition plain (band2 : option string) (require : bool) : simple := SimpleArgs 32 "g" band2 None None None (-80, 80) 30 30 1 "BLOCK" "why" require.
Example ex_pairs : exists s, made t (plain (Some "r") true) s /\ s_name s = "simple pair 30, gr" /\ List.length (s_bfs s) = 12%nat.
Proof. eexists. split; [left; reflexivity|]. split; reflexivity. Qed.
Example ex_single : exists s, fst (simple_pairs_survey t (plain None false)) = Ok s /\ weight_of is_repeat s == -20.
Proof. eexists. split; [reflexivity|]. reflexivity. Qed.
Example ex_greedy : exists s, simple_greedy_survey (plain None false) = Ok s /\ s_name s = "simple greedy g".
Proof. eexists. split; reflexivity. Qed.
Definition with_list (band2 : option string) (pair : Q) (l : list bfn) : simple := SimpleArgs 32 "g" band2 (Some l) None None (-80, 80) pair 30 1 "BLOCK" "why" true.
Example ex_shared : exists s u, shared t [with_list (Some "r") 40; with_list None 10] [PlanetMask 32] = [Ok s; Ok u] /\ In (TimeToTwilight 10 18, 0) (s_bfs u) /\ exists m, m == 80 /\ In (TimeToTwilight m 18, 0) (s_bfs u).
Proof. do 2 eexists. split; [reflexivity|]. split; [cbn; tauto|]. eexists. split; [|cbn; do 7 right; left; reflexivity]. reflexivity. Qed.
Example ex_sunset : next_sunset [100; 101; 102] (1005 # 10) = Ok 101 /\ next_sunset [100; 101; 102] 101 = Ok 101 /\ next_sunset [100; 101; 102] 103 = Raise IndexError /\ next_sunset [100; 101; 102] 99 = Ok 102.
Proof. repeat split. Qed.
Example ex_update : update_sunset [100; 101] [] (fun _ => ["g"; "r"]) (Place (1005 # 10) 100 0 ["u"] "u" "r") (TInt (-12)) = Ok (Place 101 100 1 ["g"; "r"] "r" "r").
Proof. reflexivity. Qed.
Example ex_field : exists l, simple_field_sequence 0 0 "f" ["u"; "g"] None None None = Ok l /\ List.length l = 40%nat.
Proof. eexists. split; reflexivity. Qed.
