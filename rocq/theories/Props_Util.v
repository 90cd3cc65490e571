(** C40, C42, C64: season numbering, the alert server, the queue interrupt. *)
From Coq Require Import List ZArith QArith Qround Qabs Bool Lia Lqa.
From Verif Require Import Base IntRounded IntRounded_proofs Feat_proofs2 Util Util_proofs.
Import ListNotations.
Open Scope nat_scope.

(** Which night meets which offset: entry by entry, or one of the two a single number. *)
Definition paired (nights offset : list Q) (ps : list (Q * Q)) : Prop :=
  (nights = map fst ps /\ offset = map snd ps /\ length ps <> 1) \/
  (exists o, offset = [o] /\ ps = map (fun n => (n, o)) nights) \/
  (exists n, nights = [n] /\ ps = map (fun o => (n, o)) offset).
Lemma paired_bcast : forall nights offset ps, paired nights offset ps -> bcast nights offset = Ok ps.
Proof.
  intros nights offset ps [(-> & -> & H)|[(o & -> & ->)|(n & -> & ->)]].
  - assert (C : combine (map fst ps) (map snd ps) = ps).
    { clear H. induction ps as [|[a b] r IH]; cbn; [reflexivity|]. now rewrite IH. }
    destruct ps as [|p [|q r]]; [reflexivity|cbn in H; lia|].
    cbn [map bcast length]. rewrite !map_length, Nat.eqb_refl. cbn [combine]. cbn in C. now rewrite C.
  - apply bcast_scalar.
  - reflexivity.
Qed.

(** Season [s] of a time, and the number reported for it. *)
Definition in_season (t len : Q) (s : Z) : Prop := (inject_Z s * len <= t)%Q /\ (t < (inject_Z s + 1) * len)%Q.
Definition reported (modulo mx : option Z) (s r : Z) : Prop :=
  let over := match mx with Some m => (m <= s)%Z | None => False end in
  (over -> r = (-1)%Z) /\
  (~ over -> match modulo with
             | None => r = s
             | Some m => ((s < 0)%Z -> r = (-1)%Z) /\ ((0 <= s)%Z -> (0 <= r < m)%Z /\ exists k, s = (k * m + r)%Z)
             end).

(** With floor: every entry of the result is the number of its season, -1 from
    max_season on, and with a modulo the season modulo that number, -1 for negative
    seasons. *)
Theorem C40_season : forall nights offset ps modulo mx len,
  paired nights offset ps -> (0 < len)%Q -> (forall m, modulo = Some m -> (0 < m)%Z) ->
  exists rs, season_calc nights offset modulo (option_map inject_Z mx) len true = Ok (map inject_Z rs) /\
    Forall2 (fun p r => exists s, in_season (fst p + snd p) len s /\ reported modulo mx s r) ps rs.
Proof.
  intros nights offset ps modulo mx len P L M. apply paired_bcast in P.
  exists (map (fun p => season_out modulo mx (season_of (fst p + snd p) len)) ps). split.
  - rewrite (season_floor _ _ _ _ _ _ P M). now rewrite map_map.
  - clear P. induction ps as [|p ps IH]; cbn [map]; constructor; [|exact IH].
    exists (season_of (fst p + snd p) len). set (s := season_of _ _). split; [now apply season_of_spec|].
    unfold reported, season_out. split.
    + intros O. destruct mx as [m|]; [|destruct O]. apply Z.leb_le in O. now rewrite O.
    + intros O. assert (E : match mx with Some m => (m <=? s)%Z | None => false end = false).
      { destruct mx as [m|]; [|reflexivity]. apply Z.leb_gt. lia. }
      rewrite E. destruct modulo as [m|]; [|reflexivity]. specialize (M m eq_refl). split; intros Hs.
      * apply Z.ltb_lt in Hs. now rewrite Hs.
      * assert (X : (s <? 0)%Z = false) by (apply Z.ltb_ge; lia). rewrite X. split; [apply Z.mod_pos_bound; lia|].
        exists (s / m)%Z. pose proof (Z.div_mod s m). lia.
Qed.
Print Assumptions C40_season.
Example C40_season_ex : paired [-1; 0; 400; 800; 1200]%Q [10%Q] [(-1, 10); (0, 10); (400, 10); (800, 10); (1200, 10)]%Q /\
  season_calc [-1; -11; 400; 800; 1200]%Q [10%Q] (Some 2%Z) (Some 3%Q) (1461 # 4) true = Ok [0; -1; 1; 0; -1]%Q /\
  season_calc [-1; -400; 400; 800; 1200]%Q [10%Q] None None (1461 # 4) true = Ok [0; -2; 1; 2; 3]%Q.
Proof. split; [right; left; now exists 10%Q|]. split; reflexivity. Qed.

(** One season length later the number is one higher, and it does not change
    between two times of the same season. *)
Theorem C40_step : forall nights o len, (0 < len)%Q ->
  exists rs, season_calc nights [o] None None len true = Ok (map inject_Z rs) /\
    season_calc (map (fun n => n + len) nights)%Q [o] None None len true = Ok (map (fun r => inject_Z (r + 1)) rs) /\
    forall i j a b x y k, nth_error nights i = Some a -> nth_error nights j = Some b ->
      nth_error rs i = Some x -> nth_error rs j = Some y ->
      (inject_Z k * len <= a + o)%Q -> (a + o <= b + o)%Q -> (b + o < (inject_Z k + 1) * len)%Q -> x = k /\ y = k.
Proof.
  intros nights o len L.
  assert (P1 : paired nights [o] (map (fun n => (n, o)) nights)) by (right; left; now exists o).
  assert (P2 : paired (map (fun n => n + len) nights)%Q [o] (map (fun n => (n, o)) (map (fun n => n + len)%Q nights))) by (right; left; now exists o).
  apply paired_bcast in P1, P2.
  exists (map (fun n => season_of (n + o) len) nights). split; [|split].
  - pose proof (season_floor _ _ None None len _ P1 ltac:(discriminate)) as E. cbn [option_map] in E. rewrite E. now rewrite !map_map.
  - pose proof (season_floor _ _ None None len _ P2 ltac:(discriminate)) as E. cbn [option_map] in E. rewrite E. rewrite !map_map. f_equal. apply map_ext. intros n.
    cbn [fst snd]. unfold season_out. f_equal. apply season_of_spec; [exact L|].
    destruct (proj1 (season_of_spec (n + o) len _ L) eq_refl) as [A B]. rewrite inject_Z_plus. change (inject_Z 1) with 1%Q. split; lra.
  - intros i j a b x y k Ha Hb Hx Hy H1 H2 H3. rewrite nth_error_map in Hx, Hy. rewrite Ha in Hx. rewrite Hb in Hy.
    cbn [option_map] in Hx, Hy. injection Hx as <-. injection Hy as <-. split; apply season_of_spec; auto; split; lra.
Qed.
Print Assumptions C40_step.
Example C40_step_ex : season_calc [3; 300]%Q [0%Q] None None (1461 # 4) true = Ok [0; 0]%Q /\
  season_calc [3 + (1461 # 4); 300 + (1461 # 4)]%Q [0%Q] None None (1461 # 4) true = Ok [1; 1]%Q.
Proof. split; reflexivity. Qed.

(** Without floor the fractional season is kept; times at least one part in 1e9 off
    max_season. *)
Theorem C40_fraction : forall nights offset ps modulo mx len,
  paired nights offset ps -> (0 < len)%Q -> (forall m, modulo = Some m -> (0 < m)%Z) ->
  (forall m p, mx = Some m -> In p ps -> (m == 0)%Q \/ ((1 # 1000000000) * Qabs m < Qabs ((fst p + snd p) / len - m))%Q) ->
  exists rs, season_calc nights offset modulo mx len false = Ok rs /\
    Forall2 (fun p r => exists f, (f * len == fst p + snd p)%Q /\
       let over := match mx with Some m => (m <= f)%Q | None => False end in
       (over -> (r == -1)%Q) /\
       (~ over -> match modulo with
                  | None => (r == f)%Q
                  | Some m => ((f < 0)%Q -> (r == -1)%Q) /\
                              ((0 <= f)%Q -> (0 <= r)%Q /\ (r < inject_Z m)%Q /\ exists k, (f == inject_Z k * inject_Z m + r)%Q)
                  end)) ps rs.
Proof.
  intros nights offset ps modulo mx len P L M F. apply paired_bcast in P. unfold season_calc. rewrite P. cbn [bind]. cbv zeta.
  set (f := fun p : Q * Q => ((fst p + snd p) / len)%Q).
  assert (E1 : match mx with None => Ok [] | Some m => ir_ge (map f ps) [m] end =
    Ok (match mx with None => [] | Some m => map (fun p => Qle_bool m (f p)) ps end)).
  { destruct mx as [m|]; [|reflexivity]. unfold ir_ge. rewrite cmp_scalar; [now rewrite map_map|].
    intros a Ha. apply in_map_iff in Ha. destruct Ha as (p & <- & Hp). exact (F m p eq_refl Hp). }
  rewrite E1. cbn [bind].
  assert (E2 : match modulo with
    | None => Ok (map f ps)
    | Some m => bind (ir_lt (map f ps) [0%Q]) (fun neg => Ok (put neg (-1)%Q (map (fun x => qmod x (inject_Z m)) (map f ps))))
    end = Ok (map (fun p => match modulo with None => f p | Some m => if Qltb (f p) 0 then (-1)%Q else qmod (f p) (inject_Z m) end) ps)).
  { destruct modulo as [m|]; [|reflexivity]. unfold ir_lt. rewrite cmp_scalar.
    - cbn [bind]. now rewrite !map_map, put_map.
    - intros a _. left. reflexivity. }
  rewrite E2. cbn [bind]. eexists. split; [reflexivity|].
  set (g := fun p => match modulo with None => f p | Some m => if Qltb (f p) 0 then (-1)%Q else qmod (f p) (inject_Z m) end).
  assert (R : match mx with
     | Some _ => put (match mx with None => [] | Some m => map (fun p => Qle_bool m (f p)) ps end) (-1)%Q (map g ps)
     | None => map g ps end = map (fun p => if match mx with Some m => Qle_bool m (f p) | None => false end then (-1)%Q else g p) ps).
  { destruct mx as [m|]; [|reflexivity]. apply put_map. }
  rewrite R. clear - L M. induction ps as [|p ps IH]; cbn [map]; constructor; [|exact IH].
  exists (f p). split; [unfold f; field; lra|]. split.
  - intros O. destruct mx as [m|]; [|destruct O]. apply Qle_bool_iff in O. rewrite O. reflexivity.
  - intros O. assert (E : match mx with Some m => Qle_bool m (f p) | None => false end = false).
    { destruct mx as [m|]; [|reflexivity]. apply Qle_bool_false. destruct (Qlt_le_dec (f p) m); [assumption|contradiction]. }
    rewrite E. unfold g. destruct modulo as [m|]; [|reflexivity]. specialize (M m eq_refl).
    assert (Mp : (0 < inject_Z m)%Q) by (change 0%Q with (inject_Z 0); now apply inject_Z_lt_iff). split; intros H.
    + apply Qltb_lt in H. rewrite H. reflexivity.
    + apply Qltb_false in H. rewrite H. unfold qmod. destruct (Qfloor_bounds (f p / inject_Z m)) as [A B].
      set (k := Qfloor _) in *. assert (D : (f p / inject_Z m * inject_Z m == f p)%Q) by (field; lra).
      apply (Qmult_le_compat_r _ _ (inject_Z m)) in A; [|lra]. apply (Qmult_lt_compat_r _ _ (inject_Z m)) in B; [|lra].
      rewrite D in A, B. split; [lra|]. split; [lra|]. exists k. lra.
Qed.
Print Assumptions C40_fraction.
Example C40_fraction_ex : exists a b c, season_calc [100; 1000; -5]%Q [0%Q] (Some 2%Z) (Some 4%Q) 400 false = Ok [a; b; c] /\
  (a == 1 # 4)%Q /\ (b == 1 # 2)%Q /\ (c == -1)%Q.
Proof. do 3 eexists. split; [vm_compute; reflexivity|]. repeat split; reflexivity. Qed.

(** ** The alert server *)
Definition alert_open (mjd : Q) (a : alert) : bool :=
  negb (Qle_bool mjd (al_start a)) &&
  match al_dur a with
  | None | Some ENaN => negb (Qle_bool (al_start a + 3) mjd)
  | Some (EFin d) => negb (Qle_bool (al_start a + d) mjd)
  | Some EPInf => true
  | Some ENInf => false
  end.

(** Alerts are returned in the order given, each time exactly those whose open
    interval from start to start plus duration (three days when not given) holds the
    time; None when there is none.  Times within 2^1000 days of each other. *)
Theorem C42_server : forall l mjd,
  (forall a, In a l -> (- inject_Z (2 ^ 1000) < mjd - al_start a)%Q /\ (mjd - al_start a < inject_Z (2 ^ 1000))%Q) ->
  serve l mjd = match filter (alert_open mjd) l with [] => None | r => Some r end.
Proof.
  intros l mjd H. rewrite serve_filter.
  assert (E : filter (fun a => Qltb (al_start a) mjd && Qltb mjd (al_end a)) l = filter (alert_open mjd) l).
  { apply filter_ext_in_iff. intros a Ha. destruct (H a Ha) as [H1 H2]. unfold alert_open, al_end.
    assert (B1 : (inject_Z (2 ^ 1000) <= big)%Q) by (vm_compute; discriminate).
    fold (Qltb (al_start a) mjd). f_equal.
    destruct (al_dur a) as [[| |d|]|]; cbn [nan_to_num]; try reflexivity.
    - apply Qltb_false. lra.
    - apply Qltb_lt. lra. }
  now rewrite E.
Qed.
Print Assumptions C42_server.
Definition al (i : Z) (s : Q) (d : option er) : alert := mkAl i s d [] false 20 true.
Example C42_server_ex : let l := [al 1 10 (Some (EFin 2)); al 2 11 None; al 3 5 (Some ENaN); al 4 9 (Some EPInf)] in
  option_map (map al_id) (serve l 12) = Some [2%Z; 4%Z] /\
  option_map (map al_id) (serve l (23 # 2)) = Some [1%Z; 2%Z; 4%Z] /\
  option_map (map al_id) (serve l 6) = Some [3%Z] /\ serve l 5 = None.
Proof. repeat split; vm_compute; reflexivity. Qed.

(** ** The queue interrupt *)
Definition above (lim : Q) (x : er) : Prop := match x with EFin q => (lim <= q)%Q | EPInf => True | _ => False end.
Definition wanted (x : er) : Prop := match x with EFin q => (0 < q)%Q | EPInf => True | _ => False end.
Definition footprint_value (x : er) : Prop := match x with EFin q => (0 <= q)%Q | ENInf => False | _ => True end.

(** With at least one pixel of the altitude map at or above the limit, and a
    footprint of the same size without negative values. *)
Theorem C64_flush_partial : forall a calt alt,
  length (al_fp a) = length alt -> (forall x, In x (al_fp a) -> footprint_value x) ->
  (exists x, In x alt /\ above (al_limit a) x) ->
  exists b, should_flush a calt alt = Ok b /\
    (b = true <-> al_interrupt a = true /\
       ((al_center a = true /\ (al_limit a <= calt)%Q) \/
        (al_center a = false /\ exists i x f, nth_error alt i = Some x /\ above (al_limit a) x /\
                                             nth_error (al_fp a) i = Some f /\ wanted f))).
Proof.
  intros a calt alt Ln Fp [x0 [Hx0 Ab0]]. unfold should_flush. destruct (al_interrupt a); cbn [negb].
  2:{ exists false. split; [reflexivity|]. split; [discriminate|]. intros [H _]. discriminate. }
  destruct (al_center a).
  { exists (negb (Qltb calt (al_limit a))). split; [reflexivity|]. rewrite negb_true_iff, Qltb_false. split.
    - intros H. split; [reflexivity|]. left. auto.
    - intros [_ [[_ H]|[H _]]]; [exact H|discriminate]. }
  cbv zeta. set (P := fun x => er_ltb (EFin (al_limit a)) x || er_eqb (EFin (al_limit a)) x).
  assert (PA : forall x, P x = true <-> above (al_limit a) x).
  { intros x. unfold P, above. destruct x as [| |q|]; cbn; try (split; [discriminate|contradiction]); [|tauto].
    rewrite orb_true_iff, negb_true_iff, Qle_bool_false, Qeq_bool_iff. split; [intros [?|?]; lra|].
    intros H. destruct (Qlt_le_dec (al_limit a) q); [left; assumption|right; lra]. }
  set (ix := np_where P alt).
  assert (IX : forall i, In i ix <-> exists x, nth_error alt i = Some x /\ above (al_limit a) x).
  { intros i. unfold ix. rewrite np_where_spec. split; intros (x & H1 & H2); exists x; split; auto; now apply PA. }
  destruct (take_ix_ok (al_fp a) ix) as (fp & E & Hfp).
  { intros i Hi. apply IX in Hi. destruct Hi as (x & Hx & _). rewrite Ln. apply nth_error_Some. congruence. }
  rewrite E. cbn [bind].
  destruct (In_nth_error _ _ Hx0) as [i0 Hi0].
  assert (I0 : In i0 ix) by (apply IX; eauto).
  assert (exists f0, nth_error (al_fp a) i0 = Some f0) as [f0 Hf0].
  { destruct (nth_error (al_fp a) i0) eqn:N; [eauto|]. apply nth_error_None in N. rewrite Ln in N.
    assert (i0 < length alt) by (apply nth_error_Some; congruence). lia. }
  assert (Hin : In f0 fp) by (apply Hfp; eauto).
  destruct (map (nan_to_num 0) fp) as [|q qs] eqn:Mq; [destruct fp; [destruct Hin|discriminate]|].
  cbn [np_max bind]. destruct (fold_max_ge qs q) as (A & B & C). cbv zeta in *.
  set (m := fold_left _ qs q) in *. eexists. split; [reflexivity|].
  assert (Vm : exists f, In f fp /\ m = nan_to_num 0 f).
  { assert (X : In m (map (nan_to_num 0) fp)) by (rewrite Mq; destruct C as [C|C]; [left; congruence|now right]).
    apply in_map_iff in X. destruct X as (f & <- & X). eauto. }
  assert (Ge : forall f, In f fp -> (nan_to_num 0 f <= m)%Q).
  { intros f Hf. apply (in_map (nan_to_num 0)) in Hf. rewrite Mq in Hf. destruct Hf as [<-|Hf]; auto. }
  assert (FV : forall f, In f fp -> footprint_value f).
  { intros f Hf. apply Hfp in Hf. destruct Hf as (i & _ & Hf). apply Fp. eapply nth_error_In; eauto. }
  assert (bp : (0 < big)%Q) by (vm_compute; reflexivity).
  assert (W : forall f, In f fp -> (wanted f <-> (0 < nan_to_num 0 f)%Q)).
  { intros f Hf. specialize (FV f Hf). destruct f; cbn in *; try tauto; split; intros; try lra; try contradiction. }
  rewrite negb_true_iff. split.
  - intros Hm. assert (Hm' : ~ (m == 0)%Q) by (intros X; apply Qeq_bool_iff in X; congruence).
    split; [reflexivity|]. right. split; [reflexivity|]. destruct Vm as (f & Hf & Em).
    assert (Wf : wanted f).
    { apply W; [exact Hf|]. rewrite <- Em. specialize (FV f Hf). rewrite Em in *. destruct f; cbn in *; try tauto; try lra. }
    apply Hfp in Hf. destruct Hf as (i & Hi & Hf). apply IX in Hi. destruct Hi as (x & Hx & Hab). exists i, x, f. auto.
  - intros [_ [[H _]|[_ (i & x & f & Hx & Hab & Hf & Wf)]]]; [discriminate|].
    assert (Hi : In f fp) by (apply Hfp; exists i; split; [apply IX; eauto|exact Hf]).
    apply W in Wf; [|exact Hi]. specialize (Ge f Hi). destruct (Qeq_bool m 0) eqn:Z; [|reflexivity].
    apply Qeq_bool_iff in Z. lra.
Qed.
Print Assumptions C64_flush_partial.
Example C64_flush_ex : let a := mkAl 1 0 None [ENaN; EFin 1; EFin 0] false 20 true in
  let b := mkAl 1 0 None [ENaN; EFin 1; EFin 0] true 20 true in
  should_flush a 0 [EFin 30; EFin 20; EFin 10] = Ok true /\ should_flush a 0 [EFin 30; EFin 19; EFin 40] = Ok false /\
  should_flush b 20 [] = Ok true /\ should_flush b 19 [] = Ok false.
Proof. repeat split; reflexivity. Qed.

(** When the altitude map has no pixel at or above the limit the call raises
    instead of answering that the queue should be left alone. *)
Theorem C64_flush_refuted : exists a calt alt,
  length (al_fp a) = length alt /\ (forall x, In x (al_fp a) -> footprint_value x) /\
  (forall x, In x alt -> ~ above (al_limit a) x) /\ should_flush a calt alt = Raise ValueError.
Proof.
  exists (mkAl 1 0 None [EFin 1; EFin 1] false 20 true), 0%Q, [EFin 10; ENaN]. repeat split.
  - intros x [<-|[<-|[]]]; cbn; discriminate.
  - intros x [<-|[<-|[]]]; cbn; try tauto. intros H. vm_compute in H. now apply H.
Qed.
Print Assumptions C64_flush_refuted.
