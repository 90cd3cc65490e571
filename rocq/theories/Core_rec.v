(** What the surveys get to see over a whole history: recording wrapper around
    arbitrary survey behaviour. *)
From Coq Require Import List ZArith QArith Bool String Lia.
From Verif Require Import Base IntRounded Obs Queue Core Core_proofs Core_proofs2.
Import ListNotations.
Open Scope nat_scope.

(** A call into a survey: update_conditions, or reported visits. *)
Inductive sveen (X : Type) : Type := LU (c : cond X) | LA (l : list obs).
Arguments LU {X}. Arguments LA {X}.
Definition slog (X : Type) : Type := list (nat * nat * sveen X).

Section Rec.
Context {W X : Type}.
Variable B : behav W X.

Definition recW : behav (W * slog X) X :=
  mkBehav (W * slog X) X
    (fun w t i c => let '(w', r) := sv_reward B (fst w) t i c in ((w', snd w), r))
    (fun w t i c => let '(w', r) := sv_gen B (fst w) t i c in ((w', snd w), r))
    (fun w t i o hp => (sv_add B (fst w) t i o hp, snd w ++ [(t, i, LA [o])]))
    (fun w t i l rows => (sv_add_arr B (fst w) t i l rows, snd w ++ [(t, i, LA l)]))
    (fun w t i c => (sv_upd B (fst w) t i c, snd w ++ [(t, i, LU c)]))
    (fun w t i => sv_sched B (fst w) t i)
    (fun w c o => qm_ok B (fst w) c o)
    (fun w l c => let '(w', r) := qm_det B (fst w) l c in ((w', snd w), r))
    (fun w o => (qm_add B (fst w) o, snd w))
    (fun w l rows => (qm_add_arr B (fst w) l rows, snd w))
    (fp_rot B) (fp_norot B).

Variable shape : list nat.
Variable b2f : list (string * string).
Variable tf : bool.

Definition lg (s : core (W * slog X) X) : slog X := snd (c_w s).

Lemma tier_rewards_lg : forall is w t c, snd (fst (tier_rewards recW w t is c)) = snd w.
Proof.
  induction is as [|i r IH]; intros w t c; cbn; [reflexivity|].
  destruct (sv_reward B (fst w) t i c) as [w1 a]. cbn.
  specialize (IH (w1, snd w) t c). destruct (tier_rewards recW (w1, snd w) t r c). cbn in *. exact IH.
Qed.
Lemma tier_loop_lg : forall sh w t c last, snd (fst (tier_loop recW w t sh c last)) = snd w.
Proof.
  induction sh as [|n r IH]; intros w t c last; cbn [tier_loop]; [destruct last; reflexivity|].
  pose proof (tier_rewards_lg (seq 0 n) w t c) as K.
  destruct (tier_rewards recW w t (seq 0 n) c) as [w1 rs]. cbn in K.
  destruct rs as [|a rs]; [exact K|]. destruct (er_ltb _ _); [exact K|]. rewrite IH. exact K.
Qed.
Lemma fill_lg : forall s c, lg (fst (fill_queue recW shape b2f s c)) = lg s.
Proof.
  intros s c. unfold fill_queue, lg. pose proof (tier_loop_lg shape (c_w s) 0 c None) as K.
  destruct (tier_loop recW (c_w s) 0 shape c None) as [w [[t rs]|e]]; cbn in K; [|exact K].
  destruct (er_eqb _ _ || er_isnan _); [exact K|].
  destruct (match t with Some t0 => Some t0 | None => fst (c_sidx s) end) as [t'|]; [|exact K].
  destruct (first_argmax rs) as [i|]; [|exact K].
  cbn [recW sv_gen]. destruct (sv_gen B (fst w) t' i c) as [w1 [l| |e]]; cbn; try exact K.
  destruct (band_to_filter b2f _); exact K.
Qed.
Lemma qm_request_lg : forall s c wh, lg (fst (qm_request recW s c wh)) = lg s.
Proof.
  intros s c wh. unfold qm_request, lg. cbn [recW qm_ok qm_det].
  destruct (q_request _ _ _ _) as [|o l]; [reflexivity|].
  destruct (qm_det B (fst (c_w s)) (o :: l) c). reflexivity.
Qed.
Lemma request_lg : forall s m wh, lg (fst (request recW shape b2f s m wh)) = lg s.
Proof.
  intros s m wh. unfold request. destruct (c_cond s) as [c|]; [|reflexivity].
  assert (K1 : lg (fst (if Nat.eqb (q_count (c_q s)) 0 then fill_queue recW shape b2f s c else (s, Ok tt))) = lg s).
  { destruct (Nat.eqb _ _); [apply fill_lg|reflexivity]. }
  destruct (if Nat.eqb (q_count (c_q s)) 0 then fill_queue recW shape b2f s c else (s, Ok tt)) as [s1 r1]. cbn [fst] in K1.
  destruct r1; [|exact K1]. destruct (Nat.eqb _ _); [exact K1|].
  pose proof (qm_request_lg s1 c wh) as K2. destruct (qm_request recW s1 c wh) as [s2 l]. cbn [fst] in K2.
  destruct l as [|o l]; [|cbn [fst]; congruence].
  pose proof (fill_lg (upd_q s2 q_flush) c) as K3. destruct (fill_queue recW shape b2f (upd_q s2 q_flush) c) as [s3 r3].
  cbn [fst] in K3. change (lg (upd_q s2 q_flush)) with (lg s2) in K3.
  destruct r3; [|cbn [fst]; congruence].
  pose proof (qm_request_lg s3 c wh) as K4. destruct (qm_request recW s3 c wh) as [s4 l4]. cbn [fst] in K4.
  destruct l4; cbn [fst]; congruence.
Qed.

Lemma fold_lg : forall (f : W * slog X -> nat * nat -> W * slog X) (g : sveen X) ps w,
  (forall w p, snd (f w p) = snd w ++ [(fst p, snd p, g)]) ->
  snd (fold_left f ps w) = snd w ++ map (fun p => (fst p, snd p, g)) ps.
Proof.
  intros f g. induction ps as [|p r IH]; intros w H; cbn; [now rewrite app_nil_r|].
  rewrite IH by exact H. rewrite H, <- app_assoc. reflexivity.
Qed.

(** What one operation shows to every survey. *)
Definition shown (o : op (X := X)) : list (sveen X) :=
  match o with
  | OpUpdate c => [LU c]
  | OpAdd o => [LA [backfill_band o]]
  | OpAddArr l => [LA (o_sort (map backfill_band l))]
  | _ => []
  end.

Lemma step_lg : forall s o, lg (fst (step recW shape b2f tf s o)) =
  lg s ++ flat_map (fun e => map (fun p => (fst p, snd p, e)) (all_idx shape)) (shown o).
Proof.
  intros s o. destruct o as [c|m wh|o|l| |l|t|z]; cbn [step shown flat_map]; rewrite ?app_nil_r.
  - unfold update_conditions, lg. cbn [fst c_w].
    rewrite (fold_lg _ (LU c)) by reflexivity.
    unfold too_part. destruct tf; [|reflexivity]. cbn [c_w].
    destruct (existsb t_flush _); reflexivity.
  - apply request_lg.
  - unfold add_obs, lg. cbn [fst c_w recW qm_add snd].
    rewrite (fold_lg _ (LA [backfill_band o])) by reflexivity. reflexivity.
  - unfold add_arr.
    destruct l as [|o1 [|o2 l]].
    + unfold lg. cbn -[fold_left]. rewrite (fold_lg _ (LA [])) by reflexivity. reflexivity.
    + unfold add_obs, lg. cbn [fst c_w recW qm_add snd].
      rewrite (fold_lg _ (LA [backfill_band o1])) by reflexivity. reflexivity.
    + set (l0 := o_sort (map backfill_band (o1 :: o2 :: l))).
      set (w1 := fold_left _ (all_idx shape) (c_w s)).
      assert (K : snd w1 = lg s ++ map (fun p => (fst p, snd p, LA l0)) (all_idx shape)).
      { unfold w1. rewrite (fold_lg _ (LA l0)) by reflexivity. reflexivity. }
      destruct (map o_tid l0) as [|t ts]; [exact K|]. destruct (c_q s); exact K.
  - reflexivity.
  - reflexivity.
  - reflexivity.
  - reflexivity.
Qed.

Definition seen_by (t i : nat) (l : slog X) : list (sveen X) :=
  flat_map (fun e => if Nat.eqb t (fst (fst e)) && Nat.eqb i (snd (fst e)) then [snd e] else []) l.

Lemma seen_by_app : forall t i a b, seen_by t i (a ++ b) = seen_by t i a ++ seen_by t i b.
Proof. intros. apply flat_map_app. Qed.

Lemma seen_by_idx_out : forall t i (e : sveen X) ps, ~ In (t, i) ps ->
  seen_by t i (map (fun p => (fst p, snd p, e)) ps) = [].
Proof.
  induction ps as [|[a b] r IH]; intros H; cbn; [reflexivity|].
  destruct (Nat.eqb_spec t a), (Nat.eqb_spec i b); cbn; try (apply IH; intros K; apply H; now right).
  subst. exfalso. apply H. now left.
Qed.
Lemma seen_by_idx_in : forall t i (e : sveen X) ps, NoDup ps -> In (t, i) ps ->
  seen_by t i (map (fun p => (fst p, snd p, e)) ps) = [e].
Proof.
  induction ps as [|[a b] r IH]; intros N H; [contradiction|]. inversion N; subst. cbn.
  destruct H as [H|H].
  - injection H as -> ->. rewrite !Nat.eqb_refl. cbn. f_equal. now apply seen_by_idx_out.
  - destruct (Nat.eqb_spec t a), (Nat.eqb_spec i b); cbn; try now apply IH. subst. contradiction.
Qed.
Lemma seen_by_shown : forall t i n es, nth_error shape t = Some n -> i < n ->
  seen_by t i (flat_map (fun e => map (fun p => (fst p, snd p, e)) (all_idx shape)) es) = es.
Proof.
  intros t i n es Hn Hi. induction es as [|e r IH]; cbn [flat_map]; [reflexivity|].
  rewrite seen_by_app, IH, seen_by_idx_in; [reflexivity|apply idx_from_nodup|].
  apply all_idx_in. eauto.
Qed.

Lemma run_shown : forall h s t i n, nth_error shape t = Some n -> i < n ->
  seen_by t i (lg (fst (run recW shape b2f tf s h))) = seen_by t i (lg s) ++ flat_map shown h.
Proof.
  induction h as [|o h IH]; intros s t i n Hn Hi; cbn [run flat_map]; [now rewrite app_nil_r|].
  pose proof (step_lg s o) as K. destruct (step recW shape b2f tf s o) as [s1 x] eqn:ES. cbn [fst] in K.
  specialize (IH s1 t i n Hn Hi). destruct (run recW shape b2f tf s1 h) as [s2 xs]. cbn [fst] in *.
  rewrite IH, K, seen_by_app, (seen_by_shown t i n) by assumption. now rewrite <- app_assoc.
Qed.

End Rec.
