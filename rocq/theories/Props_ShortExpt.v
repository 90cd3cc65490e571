(** C124: short exposures added behind visits. *)
From Coq Require Import List Bool QArith ZArith Qround String Lia Lqa.
From Verif Require Import Base ShortExpt.
Import ListNotations.
Open Scope Q_scope.
Open Scope string_scope.
Open Scope list_scope.

(** A visit that is to be followed by short ones: in the band, with a pixel of the footprint that has fewer than g. *)
Definition lacking (hpids : Q -> Q -> list nat) (counts : nat -> Q) (a : short) (f : nat -> Q) (g : Q) (v : visit) : Prop :=
  v_band v = p_band a /\ exists p, In p (hpids (v_ra v) (v_dec v)) /\ 0 < f p /\ counts p < g.
(** What stands in the result for a visit of the list: the visit, its flush time later by dt, and the short ones behind it. *)
Definition group (hpids : Q -> Q -> list nat) (counts : nat -> Q) (a : short) (f : nat -> Q) (g dt : Q) (v : visit) (vs : visit * list visit) : Prop :=
  (v_ra (fst vs) = v_ra v /\ v_dec (fst vs) = v_dec v /\ v_band (fst vs) = v_band v /\ v_exptime (fst vs) = v_exptime v /\ v_nexp (fst vs) = v_nexp v /\
   v_note (fst vs) = v_note v /\ v_flush (fst vs) == v_flush v + dt) /\
  (lacking hpids counts a f g v -> List.length (snd vs) = p_repeat a) /\ (~ lacking hpids counts a f g v -> snd vs = []) /\
  Forall (fun s => v_ra s = v_ra v /\ v_dec s = v_dec v /\ v_band s = v_band v /\ v_exptime s = p_exptime a /\ v_nexp s = 1%Z /\ v_note s = p_name a /\ v_flush s = v_flush v) (snd vs).
Definition flat (gs : list (visit * list visit)) : list visit := flat_map (fun g => fst g :: snd g) gs.
Definition added (gs : list (visit * list visit)) : nat := List.length (flat_map snd gs).

Lemma Qltb_lt : forall x y, Qltb x y = true <-> x < y.
Proof. intros x y. unfold Qltb. rewrite negb_true_iff. split; intro H; [apply Qnot_le_lt; intro E; apply Qle_bool_iff in E; congruence|]. destruct (Qle_bool y x) eqn:E; [|reflexivity]. apply Qle_bool_iff in E. lra. Qed.
Lemma due_spec : forall hpids counts a f g v, p_foot a = Some f -> exists d, due hpids counts a g v = Ok d /\ (d = true <-> lacking hpids counts a f g v).
Proof.
  intros hpids counts a f g v F. unfold due, lacking. rewrite F. destruct (String.eqb (v_band v) (p_band a)) eqn:B.
  - apply String.eqb_eq in B. eexists. split; [reflexivity|]. rewrite negb_true_iff, Nat.eqb_neq. split.
    + intro H. split; [exact B|]. destruct (filter _ (filter _ _)) as [|p l] eqn:E; [destruct (H eq_refl)|]. exists p.
      assert (I : In p (p :: l)) by (left; reflexivity). rewrite <- E in I. rewrite !filter_In, !Qltb_lt in I. tauto.
    + intros (_ & p & I & P & C) L. apply length_zero_iff_nil in L.
      assert (K : In p (filter (fun p => Qltb (counts p) g) (filter (fun p => Qltb 0 (f p)) (hpids (v_ra v) (v_dec v))))) by (rewrite !filter_In, !Qltb_lt; tauto).
      rewrite L in K. exact K.
  - exists false. split; [reflexivity|]. apply String.eqb_neq in B. split; [discriminate|]. intros (E & _). destruct (B E).
Qed.
(** The groups before the flush times are changed. *)
Fixpoint raw (hpids : Q -> Q -> list nat) (counts : nat -> Q) (a : short) (g : Q) (l : list visit) : res (list (visit * list visit)) :=
  match l with
  | [] => Ok []
  | v :: l' => bind (due hpids counts a g v) (fun d => bind (raw hpids counts a g l') (fun r => Ok ((v, if d then repeat (shortened a v) (p_repeat a) else []) :: r)))
  end.
Definition marked (gs : list (visit * list visit)) : list (bool * visit) := flat_map (fun g => (true, fst g) :: map (fun s => (false, s)) (snd g)) gs.
Lemma map_rep : forall (A B : Type) (f : A -> B) x n, map f (repeat x n) = repeat (f x) n.
Proof. induction n as [|n IH]; [reflexivity|]. cbn. rewrite IH. reflexivity. Qed.
Lemma add_raw : forall hpids counts a g l out t gs, raw hpids counts a g l = Ok gs ->
  exists t', add hpids counts a g l out t = Ok (out ++ marked gs, t') /\ t' == t + inject_Z (Z.of_nat (added gs)) * (p_exptime a + p_read a).
Proof.
  induction l as [|v l IH]; intros out t gs H.
  - injection H as <-. exists t. cbn. rewrite app_nil_r. split; [reflexivity|]. ring.
  - cbn [raw add] in *. destruct (due hpids counts a g v) as [d|]; [|discriminate H]. cbn [bind] in *. destruct (raw hpids counts a g l) as [r|] eqn:R; [|discriminate H].
    cbn [bind] in H. injection H as <-. destruct d.
    + destruct (IH (out ++ [(true, v)] ++ repeat (false, shortened a v) (p_repeat a)) (t + inject_Z (Z.of_nat (p_repeat a)) * (p_exptime a + p_read a)) r eq_refl) as (t' & A & T).
      exists t'. rewrite A. split.
      * f_equal. f_equal. cbn. rewrite map_rep, <- !app_assoc. reflexivity.
      * rewrite T. unfold added. cbn [flat_map snd]. rewrite app_length, repeat_length, Nat2Z.inj_add, inject_Z_plus. ring.
    + destruct (IH (out ++ [(true, v)]) t r eq_refl) as (t' & A & T). exists t'. rewrite A. split; [f_equal; f_equal; cbn; rewrite <- app_assoc; reflexivity|]. rewrite T. unfold added. reflexivity.
Qed.
Lemma raw_ok : forall hpids counts a f g l, p_foot a = Some f -> exists gs, raw hpids counts a g l = Ok gs /\
  Forall2 (fun v vs => fst vs = v /\ (lacking hpids counts a f g v -> snd vs = repeat (shortened a v) (p_repeat a)) /\ (~ lacking hpids counts a f g v -> snd vs = [])) l gs /\
  Forall2 (fun v vs => snd vs = [] \/ snd vs = repeat (shortened a v) (p_repeat a)) l gs.
Proof.
  intros hpids counts a f g l F. induction l as [|v l (gs & R & H & K)]; [exists []; repeat split; constructor|].
  destruct (due_spec hpids counts a f g v F) as (d & D & S'). exists ((v, if d then repeat (shortened a v) (p_repeat a) else []) :: gs).
  cbn [raw]. rewrite D. cbn [bind]. rewrite R. cbn [bind]. split; [reflexivity|]. split; constructor; try assumption; cbn [fst snd].
  - split; [reflexivity|]. split; intro L; destruct d; try reflexivity; exfalso; [apply S' in L; discriminate L|apply L, S'; reflexivity].
  - destruct d; tauto.
Qed.
Lemma marked_map : forall F gs, map (fun bv : bool * visit => if fst bv then F (snd bv) else snd bv) (marked gs) = flat (map (fun vs => (F (fst vs), snd vs)) gs).
Proof. induction gs as [|[v s] gs IH]; [reflexivity|]. cbn [marked flat flat_map map fst snd app]. unfold marked, flat in IH. rewrite map_app, IH, map_map. cbn [fst snd]. rewrite map_id. reflexivity. Qed.
Lemma forall2_map : forall (A B C : Type) (P : A -> C -> Prop) (F : B -> C) (l : list A) (m : list B), Forall2 (fun x y => P x (F y)) l m -> Forall2 P l (map F m).
Proof. intros A B C P F l m H. induction H; constructor; assumption. Qed.
Lemma forall2_both : forall (A B : Type) (P Q R : A -> B -> Prop) l m, (forall x y, P x y -> Q x y -> R x y) -> Forall2 P l m -> Forall2 Q l m -> Forall2 R l m.
Proof. intros A B P Q' R' l m I H. induction H; intro K; inversion K; subst; constructor; auto. Qed.
Lemma added_map : forall F gs, added (map (fun vs : visit * list visit => (F (fst vs) : visit, snd vs)) gs) = added gs.
Proof. intros F gs. unfold added. induction gs as [|g gs IH]; [reflexivity|]. cbn [map flat_map snd]. rewrite !app_length, IH. reflexivity. Qed.

(** ** What is added. *)
(** With a footprint, on a night that is not past night_max: every visit stays in its place, the visits that lack short ones are followed by
    n_repeat of them, the others by none, and each visit that was there has the time of all the added ones to spare. g is the number aimed at. *)
Theorem C124_added : forall hpids counts a f night l g,
  p_foot a = Some f -> (forall m, p_night_max a = Some m -> (night <= m)%Z) ->
  (p_scale a = false -> g = p_nobs a) ->
  (p_scale a = true -> exists m, p_night_max a = Some m /\ m <> 0%Z /\ g = p_nobs a * inject_Z (Qceiling (inject_Z night / inject_Z m))) ->
  exists gs dt, call_short hpids counts a night l = Ok (flat gs) /\ Forall2 (group hpids counts a f g dt) l gs /\
    dt == inject_Z (Z.of_nat (added gs)) * (p_exptime a + p_read a) / 86400.
Proof.
  intros hpids counts a f night l g F N G0 G1. unfold call_short.
  replace (match p_night_max a with Some m => Z.ltb m night | None => false end) with false
    by (destruct (p_night_max a) as [m|]; [specialize (N m eq_refl); symmetry; apply Z.ltb_ge; exact N|reflexivity]).
  assert (G : goal a night = Ok g).
  { unfold goal. destruct (p_scale a); [|rewrite G0 by reflexivity; reflexivity]. destruct (G1 eq_refl) as (m & -> & Z' & ->). apply Z.eqb_neq in Z'. rewrite Z'. reflexivity. }
  rewrite G. cbn [bind]. destruct (raw_ok hpids counts a f g l F) as (gs & R & H & K). destruct (add_raw hpids counts a g l [] 0 gs R) as (t & A & T).
  rewrite A. cbn [bind fst snd app]. rewrite marked_map. exists (map (fun vs => (pumped t (fst vs), snd vs)) gs), (t / 3600 / 24).
  split; [reflexivity|]. split.
  - apply forall2_map. refine (forall2_both _ _ _ _ _ _ _ _ H K). intros v [w s] (E & Y & O) C. cbn [fst snd] in *. subst w. unfold group. cbn [fst snd pumped v_ra v_dec v_band v_exptime v_nexp v_note v_flush].
    split; [repeat split; reflexivity|]. split; [intro L; rewrite (Y L), repeat_length; reflexivity|]. split; [exact O|].
    destruct C as [-> | ->]; [constructor|]. apply Forall_forall. intros x I. apply repeat_spec in I. subst x. repeat split; reflexivity.
  - rewrite added_map, T. field.
Qed.
Print Assumptions C124_added.

(** Past night_max nothing is changed, whatever else. *)
Theorem C124_late : forall hpids counts a night l m, p_night_max a = Some m -> (m < night)%Z -> call_short hpids counts a night l = Ok l.
Proof. intros hpids counts a night l m M H. unfold call_short. rewrite M. apply Z.ltb_lt in H. rewrite H. reflexivity. Qed.
Print Assumptions C124_late.

(** Where every pixel of the footprint seen has its visits, nothing is added and no time given. *)
Theorem C124_enough : forall hpids counts a f night l out,
  p_foot a = Some f -> p_scale a = false -> (forall v p, In v l -> In p (hpids (v_ra v) (v_dec v)) -> 0 < f p -> p_nobs a <= counts p) ->
  call_short hpids counts a night l = Ok out -> Forall2 (fun v w => v_ra w = v_ra v /\ v_dec w = v_dec v /\ v_band w = v_band v /\ v_exptime w = v_exptime v /\ v_note w = v_note v /\ v_flush w == v_flush v) l out.
Proof.
  intros hpids counts a f night l out F S0 C H. destruct (match p_night_max a with Some m => Z.ltb m night | None => false end) eqn:B.
  - unfold call_short in H. rewrite B in H. injection H as <-. induction l as [|v l IH]; constructor; [repeat split; reflexivity|]. apply IH. intros w p I. apply C. right. exact I.
  - destruct (C124_added hpids counts a f night l (p_nobs a) F) as (gs & dt & E & G & T).
    + intros m M. rewrite M in B. apply Z.ltb_ge in B. exact B.
    + reflexivity.
    + rewrite S0. discriminate.
    + rewrite H in E. injection E as ->. assert (Z' : Forall (fun vs => snd vs = []) gs).
      { clear H T B. induction G as [|v vs l gs P G IH]; constructor; [|apply IH; intros w p I; apply C; right; exact I]. destruct P as (_ & _ & P & _). apply P. intros (_ & p & I & Q1 & Q2).
        specialize (C v p (or_introl eq_refl) I Q1). lra. }
      assert (A : added gs = 0%nat). { clear - Z'. unfold added. induction Z' as [|vs gs E Z' IH]; [reflexivity|]. cbn. rewrite E. exact IH. }
      rewrite A in T. assert (D : dt == 0) by (rewrite T; field). clear H T A B C. induction G as [|v vs l gs P G IH]; [constructor|]. inversion Z' as [|? ? E1 E2]; subst. cbn [flat flat_map]. rewrite E1. cbn [app].
      constructor; [|exact (IH E2)]. destruct P as ((P1 & P2 & P3 & P4 & P5 & P6 & P7) & _). repeat split; try assumption. rewrite P7, D. ring.
Qed.
Print Assumptions C124_enough.

(** ** Where the property fails. *)
(** No detailer can be made. *)
Theorem C124_not_made_refuted : forall a, new_short a = Raise AttributeError.
Proof. intro a. reflexivity. Qed.
Print Assumptions C124_not_made_refuted.

(** The default has no footprint: a visit in the band is an error. *)
Theorem C124_no_footprint_refuted : forall hpids counts a night l, p_foot a = None -> p_scale a = false -> p_night_max a = None ->
  (exists v, In v l /\ v_band v = p_band a) -> call_short hpids counts a night l = Raise TypeError.
Proof.
  intros hpids counts a night l F S0 M (v & I & B). unfold call_short, goal. rewrite M, S0. cbn [bind].
  enough (H : forall out t, add hpids counts a (p_nobs a) l out t = Raise TypeError) by (rewrite H; reflexivity).
  induction l as [|w l IH]; [destruct I|]. intros out t. cbn [add]. unfold due at 1. destruct (String.eqb (v_band w) (p_band a)) eqn:E.
  - rewrite F. reflexivity.
  - cbn [bind]. destruct I as [->|I]; [apply String.eqb_neq in E; destruct (E B)|]. apply IH. exact I.
Qed.
Print Assumptions C124_no_footprint_refuted.

(** Scaling asks for night_max, which is None by default: an error even for no visits. *)
Theorem C124_scale_needs_max_refuted : forall hpids counts a night l, p_scale a = true -> p_night_max a = None -> call_short hpids counts a night l = Raise TypeError.
Proof. intros hpids counts a night l S0 M. unfold call_short, goal. rewrite M, S0. reflexivity. Qed.
Print Assumptions C124_scale_needs_max_refuted.

(** Nothing is scaled: from the first night after the start to night_max the call is the one without scaling, all of the visits are asked for at once. *)
Theorem C124_scale_refuted : forall hpids counts a b night m l,
  p_scale a = true -> b = Short (p_exptime a) (p_band a) (p_foot a) (p_nobs a * 1) (p_name a) (p_read a) (p_night_max a) (p_repeat a) false ->
  p_night_max a = Some m -> (0 < night <= m)%Z -> call_short hpids counts a night l = call_short hpids counts b night l.
Proof.
  intros hpids counts a b night m l S0 -> M N. unfold call_short. cbn [p_night_max]. rewrite M. destruct (Z.ltb m night) eqn:E; [reflexivity|].
  replace (goal a night) with (Ok (p_nobs a * 1)).
  - unfold goal. cbn [p_scale p_nobs bind]. f_equal.
    assert (H : forall l out t g, add hpids counts a g l out t = add hpids counts (Short (p_exptime a) (p_band a) (p_foot a) (p_nobs a * 1) (p_name a) (p_read a) (Some m) (p_repeat a) false) g l out t).
    { induction l0 as [|v l0 IH]; intros out t g; [reflexivity|]. cbn [add]. change (due hpids counts (Short (p_exptime a) (p_band a) (p_foot a) (p_nobs a * 1) (p_name a) (p_read a) (Some m) (p_repeat a) false) g v) with (due hpids counts a g v).
      destruct (due hpids counts a g v) as [[|]|]; [| |reflexivity]; cbn [bind]; rewrite IH; reflexivity. }
    rewrite H. reflexivity.
  - unfold goal. rewrite S0, M. replace (Z.eqb m 0) with false by (symmetry; apply Z.eqb_neq; lia). f_equal. f_equal.
    replace (Qceiling (inject_Z night / inject_Z m)) with 1%Z; [reflexivity|].
    assert (P : 0 < inject_Z m) by (change 0 with (inject_Z 0); rewrite <- Zlt_Qlt; lia).
    assert (U : inject_Z night / inject_Z m <= inject_Z 1) by (apply Qle_shift_div_r; [exact P|]; rewrite Qmult_1_l, <- Zle_Qle; lia).
    assert (L : inject_Z 0 < inject_Z night / inject_Z m) by (apply Qlt_shift_div_l; [exact P|]; change (inject_Z 0) with 0; rewrite Qmult_0_l; change 0 with (inject_Z 0); rewrite <- Zlt_Qlt; lia).
    apply Qceiling_resp_le in U. rewrite Qceiling_Z in U. pose proof (Qle_ceiling (inject_Z night / inject_Z m)) as C. assert (D : inject_Z 0 < inject_Z (Qceiling (inject_Z night / inject_Z m))) by (eapply Qlt_le_trans; [exact L|exact C]).
    rewrite <- Zlt_Qlt in D. lia.
Qed.
Print Assumptions C124_scale_refuted.

(** Not per year: without night_max the call looks at no date, so that a field with its visits gets none in any later year. *)
Theorem C124_per_year_refuted : forall hpids counts a night night' l, p_night_max a = None -> call_short hpids counts a night l = call_short hpids counts a night' l.
Proof. intros hpids counts a night night' l M. unfold call_short, goal. rewrite M. reflexivity. Qed.
Print Assumptions C124_per_year_refuted.

(** The short visits do not get the time they take: each keeps the flush time of its visit from before, while the visits themselves get later. *)
Theorem C124_flush_refuted : forall hpids counts a f night l,
  p_foot a = Some f -> p_scale a = false -> p_night_max a = None -> 0 < p_exptime a + p_read a ->
  exists gs, call_short hpids counts a night l = Ok (flat gs) /\ Forall2 (fun v vs => Forall (fun s => v_flush s = v_flush v /\ v_flush s < v_flush (fst vs)) (snd vs)) l gs.
Proof.
  intros hpids counts a f night l F S0 M P. destruct (C124_added hpids counts a f night l (p_nobs a) F) as (gs & dt & E & G & T).
  - intros m K. congruence.
  - reflexivity.
  - rewrite S0. discriminate.
  - exists gs. split; [exact E|]. assert (D : forall vs, In vs gs -> snd vs <> [] -> 0 < dt).
    { intros vs I N. assert (A : (0 < added gs)%nat). { clear - I N. unfold added. induction gs as [|x gs IH]; [destruct I|]. cbn. rewrite app_length. destruct I as [->|I]; [destruct (snd vs); [destruct (N eq_refl)|cbn; lia]|specialize (IH I); lia]. }
      rewrite T. apply Qlt_shift_div_l; [reflexivity|]. rewrite Qmult_0_l. apply Qmult_lt_0_compat; [|exact P]. change 0 with (inject_Z 0). rewrite <- Zlt_Qlt. lia. }
    clear E T. induction G as [|v vs l gs H G IH]; constructor; [|apply IH; intros w I; apply D; right; exact I].
    destruct H as ((_ & _ & _ & _ & _ & _ & B) & _ & _ & H). apply Forall_forall. intros s I. rewrite Forall_forall in H. destruct (H s I) as (_ & _ & _ & _ & _ & _ & K). split; [exact K|]. rewrite B, K.
    assert (0 < dt) by (apply (D vs (or_introl eq_refl)); intro Z'; rewrite Z' in I; destruct I). lra.
Qed.
Print Assumptions C124_flush_refuted.

(** ** Examples. *)
Definition pix (ra dec : Q) : list nat := if Qle_bool ra 10 then [1; 2]%nat else [3]%nat.
Definition foot (p : nat) : Q := match p with 1%nat => 0 | _ => 1 end.
Definition seen (p : nat) : Q := match p with 3%nat => 2 | _ => 1 end.
Definition a0 : short := Short 1 "r" (Some foot) 2 "short" 2 None 2 false.
Definition v1 : visit := Vis 5 0 "r" 30 2 "blob" 60000.
Definition v2 : visit := Vis 20 0 "r" 30 2 "blob" 60000.
Definition v3 : visit := Vis 5 0 "g" 30 2 "blob" 60000.
(** One of three visits lacks short ones: 6 seconds more. *)
Example C124_ex : call_short pix seen a0 7 [v1; v2; v3] =
  Ok [pumped 6 v1; Vis 5 0 "r" 1 1 "short" 60000; Vis 5 0 "r" 1 1 "short" 60000; pumped 6 v2; pumped 6 v3].
Proof. reflexivity. Qed.
(** Three visits of one field get three short ones though two were asked for: a second flaw of counting only what was taken before. *)
Theorem C124_too_many_refuted : exists hpids counts a f night l out,
  p_foot a = Some f /\ p_nobs a == 2 /\ (forall p, counts p == 0) /\ call_short hpids counts a night l = Ok out /\
  List.length (filter (fun v => String.eqb (v_note v) (p_name a)) out) = 3%nat /\ Forall (fun v => hpids (v_ra v) (v_dec v) = [3%nat]) out.
Proof.
  exists pix, (fun _ => 0), (Short 1 "r" (Some foot) 2 "short" 2 None 1 false), foot, 7%Z, [v2; v2; v2]. eexists. split; [reflexivity|]. split; [reflexivity|]. split; [reflexivity|].
  split; [reflexivity|]. split; [reflexivity|]. repeat constructor.
Qed.
Print Assumptions C124_too_many_refuted.
(** The start of the survey: on night 0 scaling asks for nothing. *)
Example C124_ex_night0 : call_short pix (fun _ => 0) (Short 1 "r" (Some foot) 2 "short" 2 (Some 365%Z) 1 true) 0 [v1] = Ok [pumped 0 v1].
Proof. reflexivity. Qed.
Example C124_ex_scale : exists s1 s2, call_short pix (fun _ => 0) (Short 1 "r" (Some foot) 2 "short" 2 (Some 365%Z) 1 true) 1 [v1] = Ok [s1; s2].
Proof. eexists. eexists. reflexivity. Qed.
Example C124_ex_late : call_short pix (fun _ => 0) (Short 1 "r" None 2 "short" 2 (Some 365%Z) 1 true) 366 [v1] = Ok [v1].
Proof. reflexivity. Qed.
