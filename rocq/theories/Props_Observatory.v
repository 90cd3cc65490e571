(** Properties of the model observatory clock (C18-C21, C45). *)
From Coq Require Import List ZArith QArith Bool String Sorted.
From Verif Require Import Base Obs Downtime Observatory Observatory_proofs.
Import ListNotations.
Open Scope nat_scope.

(** ** Fixtures: three nights, two downtimes, clouds between 10.40 and 10.45,
    every visit takes 864 s of slew and 8640 s of exposure. *)
Definition exNights : list (Q * Q) := [(10, 21 # 2); (11, 23 # 2); (12, 25 # 2)]%Q.
Definition exDowns : list (Q * Q) := [(112 # 10, 113 # 10); (118 # 10, 121 # 10)]%Q.
Definition exCloudy (t : Q) : bool := Qle_bool (104 # 10) t && Qltb t (1045 # 100).
Definition exK : kinB unit :=
  mkKinB unit (fun k _ _ => (k, Some (864, 8640)%Q)) (fun k => k) (fun _ => 0%Q) (fun _ o => o).
Definition exO (m : Q) : osy unit := mkOsy tt m 7.
Definition exOrun := orun exK exCloudy exNights exDowns 10 100 50.

Lemma exNights_ok : nights_ok exNights.
Proof. split; repeat constructor; discriminate. Qed.
Lemma exDowns_ok : disjoint exDowns.
Proof. repeat constructor; discriminate. Qed.

(** ** C18 *)
(** [well_timed id t vs]: ids count up from [id]; the first visit starts no earlier
    than [t], every other no earlier than the end of the one before; the night
    recorded is the night of the start of the exposure. *)
Theorem C18_visits_in_order :
  forall K (B : kinB K) cloudy nights downs mjd_start park_after fuel,
  nights_ok nights -> disjoint downs ->
  (forall k d m k' s v, k_observe B k d m = (k', Some (s, v)) -> (0 <= s)%Q /\ (0 <= v)%Q) ->
  forall l y y' vs, Forall forward_op l ->
  orun B cloudy nights downs mjd_start park_after fuel y l = (y', vs) ->
  well_timed mjd_start (y_ctr y) (y_mjd y) vs /\ (y_mjd y <= y_mjd y')%Q /\
  y_ctr y' = (y_ctr y + Z.of_nat (List.length vs))%Z.
Proof. exact @orun_well_timed. Qed.
Print Assumptions C18_visits_in_order.

Example C18_example :
  let ops := [YObserve obs0; YAdvance (1 # 100); YObserve obs0; YObserve obs0; YObserve obs0; YObserve obs0; YObserve obs0] in
  Forall forward_op ops /\
  map (fun v => (o_id (v_obs v), Qred (o_mjd (v_obs v)), o_night (v_obs v))) (snd (exOrun (exO 10) ops))
  = [(7%Z, 1001 # 100, 0%Z); (8%Z, 1013 # 100, 0%Z); (9%Z, 256 # 25, 0%Z);
     (10%Z, 207 # 20, 0%Z); (11%Z, 1101 # 100, 1%Z)]%Q.
Proof. cbn zeta. split; [repeat constructor; discriminate|]. vm_compute. reflexivity. Qed.

(** ** C19 *)
Theorem C19_skip_lands_on_good_time :
  forall cloudy nights downs, nights_ok nights -> disjoint downs -> forall fuel m p t,
  check_mjd cloudy nights downs fuel m = Ok (p, t) ->
  good_time cloudy nights downs t /\ (p = true -> t = m) /\ (p = false -> (m < t)%Q).
Proof. exact check_mjd_spec. Qed.
Print Assumptions C19_skip_lands_on_good_time.

(** No good time is ever skipped from: acceptable times are accepted. *)
Theorem C19_good_time_accepted :
  forall cloudy nights downs, nights_ok nights -> disjoint downs -> forall f m,
  good_time cloudy nights downs m -> check_mjd cloudy nights downs (S f) m = Ok (true, m).
Proof. exact check_mjd_accepts. Qed.
Print Assumptions C19_good_time_accepted.

Example C19_example :
  (* cloudy, then still cloudy for a while *)
  (exists t, check_mjd exCloudy exNights exDowns 50 (104 # 10) = Ok (false, t) /\ (t < 1047 # 100)%Q) /\
  (* end of night leads to the next, from before the first night to the first *)
  check_mjd exCloudy exNights exDowns 50 (107 # 10) = Ok (false, 11%Q) /\
  check_mjd exCloudy exNights exDowns 50 9 = Ok (false, 10%Q) /\
  (* a downtime reaching into the next night *)
  check_mjd exCloudy exNights exDowns 50 (119 # 10) = Ok (false, 121 # 10)%Q /\
  check_mjd exCloudy exNights exDowns 50 (111 # 10) = Ok (true, 111 # 10)%Q.
Proof. split; [eexists; split; vm_compute; reflexivity|]. vm_compute. auto. Qed.

(** ** C20 *)
Theorem C20_lookup_exact : forall l m, disjoint l ->
  (forall e, check_up l m = (false, e) <-> exists s, In (s, e) l /\ (s <= m)%Q /\ (m < e)%Q) /\
  (check_up l m = (true, m) <-> ~ covered l m).
Proof. exact check_up_iff. Qed.
Print Assumptions C20_lookup_exact.

Example C20_example :
  disjoint exDowns /\ check_up exDowns (112 # 10) = (false, 113 # 10)%Q /\
  check_up exDowns (113 # 10) = (true, 113 # 10)%Q /\ check_up exDowns 1 = (true, 1%Q).
Proof. split; [exact exDowns_ok|]. vm_compute. auto. Qed.

(** ** C21 *)
(** For downtimes that start before they end: the merge either gives sorted
    disjoint downtimes covering exactly the same times, or raises ValueError, and
    the latter only when the covered times form one single interval. *)
Theorem C21_merge_preserves_coverage_partial : forall ds, real_downs ds ->
  (exists l, setup_downtimes ds = Ok l /\ disjoint l /\ real_downs l /\ (forall m, covered l m <-> covered ds m)) \/
  (setup_downtimes ds = Raise ValueError /\
   exists a b, forall m, covered ds m <-> ((a <= m)%Q /\ (m < b)%Q)).
Proof. exact setup_spec. Qed.
Print Assumptions C21_merge_preserves_coverage_partial.

(** Together with the lookup: after the merge, "down" is reported exactly for the
    times inside an original downtime. *)
Theorem C21_lookup_after_merge : forall ds l m, real_downs ds -> setup_downtimes ds = Ok l ->
  (fst (check_up l m) = false <-> covered ds m).
Proof. exact (fun ds l m R H => proj1 (setup_check_up ds l m R H)). Qed.
Print Assumptions C21_lookup_after_merge.

Example C21_example :
  let ds := [(5, 8); (1, 3); (2, 4); (20, 21); (7, 9); (1, 2)]%Q in
  real_downs ds /\ setup_downtimes ds = Ok [(1, 4); (5, 9); (20, 21)]%Q.
Proof. cbn zeta. split; [repeat constructor|]. vm_compute. reflexivity. Qed.

(** Refuted in general: two overlapping downtimes, or a single one, make start-up
    fail. *)
Theorem C21_merge_preserves_coverage_refuted :
  exists ds, real_downs ds /\ List.length ds = 2 /\ (forall l, setup_downtimes ds <> Ok l).
Proof.
  exists [(1, 3); (2, 4)]%Q. split; [repeat constructor|]. split; [reflexivity|].
  intros l. vm_compute. discriminate.
Qed.
Print Assumptions C21_merge_preserves_coverage_refuted.
Theorem C21_single_downtime_refuted :
  forall s e, setup_downtimes [(s, e)] = Raise ValueError.
Proof. reflexivity. Qed.
Print Assumptions C21_single_downtime_refuted.

(** ** C45 *)
(** Refuted: only the end of the visit is checked, so a visit can run across a
    downtime shorter than itself. *)
Theorem C45_visit_outside_downtime_refuted :
  exists (B : kinB unit) nights downs y d y' v nn m,
  nights_ok nights /\ disjoint downs /\ ~ covered downs (y_mjd y) /\
  observe B (fun _ => false) nights downs 10 100 50 y d = (y', Ok (Some v, nn)) /\
  covered downs m /\ (o_mjd (v_obs v) <= m)%Q /\ (m <= y_mjd y')%Q.
Proof.
  exists exK, exNights, [(1112 # 100, 1115 # 100)]%Q, (exO (111 # 10)), obs0.
  eexists. eexists. eexists. exists (1113 # 100)%Q.
  split; [exact exNights_ok|]. split; [repeat constructor; discriminate|].
  split; [intros (s & e & [E|[]] & L & _); injection E as <- <-; apply L; reflexivity|].
  split; [vm_compute; reflexivity|].
  split; [exists (1112 # 100)%Q, (1115 # 100)%Q; split; [now left|split; [discriminate|reflexivity]]|].
  split; discriminate.
Qed.
Print Assumptions C45_visit_outside_downtime_refuted.

(** It holds when every downtime is at least as long as the slew and the visit
    together and the clock is outside downtime when the visit is requested. *)
Theorem C45_visit_outside_downtime_partial :
  forall K (B : kinB K) cloudy nights downs mjd_start park_after fuel,
  nights_ok nights -> disjoint downs ->
  (forall k d m k' s v, k_observe B k d m = (k', Some (s, v)) -> (0 <= s)%Q /\ (0 <= v)%Q) ->
  forall y d y' v nn,
  observe B cloudy nights downs mjd_start park_after fuel y d = (y', Ok (Some v, nn)) ->
  ~ covered downs (y_mjd y) ->
  (forall s e, In (s, e) downs -> ((v_slew v + v_time v) / 86400 <= e - s)%Q) ->
  forall m, (y_mjd y <= m)%Q -> (m <= y_mjd y')%Q -> ~ covered downs m.
Proof. exact @visit_outside_downtime. Qed.
Print Assumptions C45_visit_outside_downtime_partial.

Example C45_example :
  (* 864 + 8640 s is 0.11 days; the downtimes last 0.2 and 0.3 days *)
  let downs := [(112 # 10, 114 # 10); (118 # 10, 121 # 10)]%Q in
  disjoint downs /\ (forall s e, In (s, e) downs -> ((864 + 8640) / 86400 <= e - s)%Q) /\
  exists y' v, observe exK exCloudy exNights downs 10 100 50 (exO 11) obs0 = (y', Ok (Some v, false)).
Proof.
  cbn zeta. split; [repeat constructor; discriminate|]. split.
  - intros s e [E|[E|[]]]; injection E as <- <-; discriminate.
  - eexists. eexists. vm_compute. reflexivity.
Qed.
