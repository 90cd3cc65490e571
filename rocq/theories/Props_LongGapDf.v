(** C132: the table of rewards of the survey that revisits pairs. *)
From Coq Require Import List ZArith QArith Bool String Lia Lqa.
From Verif Require Import Base Obs Core Core_proofs Script Script_proofs SiteData LongGap LongGap_proofs LongGapDf.
From Verif Require Props_LongGap.
Import ListNotations.
Open Scope nat_scope.

Section S.
Variable F : scfg.
Variable reward_val : Q.
Variable B : Type.
Variable blob_calc : B -> scond -> B * list er.
Variable blob_gen : B -> scond -> B * option (list obs).
Variable blob_feasible : B -> scond -> bool.
Variable G : lcfg.
Variable fmin : Q.
Let calc := l_calc F reward_val B blob_calc G.
Let df := l_df F reward_val B blob_calc blob_feasible G fmin.
Let gen := l_gen F B blob_gen.

(** The table shows the reward that calc_reward_function gives, also as the accumulated
    one, and raises exactly when that does. *)
Theorem C132_reward : forall s n c accum,
  (forall t, df s n c accum = Ok t -> snd (calc s n c) = Ok (w_reward t) /\ (accum = true -> exists a, w_accum t = Some (w_reward t, a)) /\ (accum = false -> w_accum t = None)) /\
  (forall e, df s n c accum = Raise e <-> snd (calc s n c) = Raise e).
Proof.
  intros s n c accum. unfold df, l_df, calc. destruct (l_calc F reward_val B blob_calc G s n c) as [s1 [r|e]]; cbn [snd].
  - split; [|intros e; split; discriminate]. intros t H. injection H as <-. cbn. repeat split; [|intros ->; reflexivity]. intros ->. eauto.
  - split; [discriminate|]. intros e'. split; intros H; injection H as ->; reflexivity.
Qed.

(** When feasible is shown the reward is above the least float and one of the two surveys
    allows it; when both surveys give a reward only when they are feasible, feasible is
    shown exactly when the reward is above the least float. *)
Theorem C132_feasible : forall s n c accum s1 r t, calc s n c = (s1, Ok r) -> df s n c accum = Ok t ->
  (w_feasible t = true -> er_ltb (EFin fmin) r = true /\ (blob_feasible (l_blob B s1) c = true \/ f_feasible F c = true)) /\
  ((blob_feasible (l_blob B s1) c = false -> forall x, In x (snd (blob_calc (l_blob B s) c)) -> x = ENInf \/ x = ENaN) ->
   (f_feasible F c = false -> snd (generate F (if (n =? l_night B s)%Z then l_scr B s else clear_script (l_scr B s)) c) = Ok []) ->
   (w_feasible t = true <-> er_ltb (EFin fmin) r = true)).
Proof.
  intros s n c accum s1 r t Hc H. unfold df, l_df in H. unfold calc in Hc. rewrite Hc in H. injection H as <-. cbn [w_feasible]. unfold l_feasible.
  rewrite andb_true_iff, orb_true_iff. split; [tauto|]. intros Hb Hf. split; [tauto|]. intros Hr. split; [|exact Hr].
  destruct (blob_feasible (l_blob B s1) c); [auto|]. destruct (f_feasible F c); [auto|]. exfalso. specialize (Hb eq_refl). specialize (Hf eq_refl).
  destruct (calc_facts F reward_val B blob_calc G s n c s1 r Hc) as (_ & _ & l & Ge & _ & _ & ->). cbv zeta in Ge. rewrite Ge in Hf. cbn [snd] in Hf. injection Hf as ->.
  set (r1 := snd (blob_calc (l_blob B s) c)) in *.
  assert (N : nanmax r1 = ENInf \/ nanmax r1 = ENaN).
  { clear -Hb. destruct (er_isnan (nanmax r1)) eqn:E; [right; destruct (nanmax r1); try discriminate; reflexivity|].
    destruct (nanmax_nonnan r1 E) as [X _]. destruct (Hb _ X) as [-> | ->]; auto. }
  destruct N as [N|N]; rewrite N in Hr; cbn in Hr; discriminate.
Qed.

(** Asked after the reward has been computed for the same conditions, the table shows what
    it showed before, for a pair survey that keeps its reward. *)
Theorem C132_again : forall s n c accum s1 r, (forall b, blob_calc (fst (blob_calc b c)) c = blob_calc b c) ->
  calc s n c = (s1, Ok r) -> df s1 n c accum = df s n c accum.
Proof.
  intros s n c accum s1 r Hb Hc. unfold df, l_df. unfold calc in Hc. rewrite Hc.
  destruct (calc_facts F reward_val B blob_calc G s n c s1 r Hc) as (N & _ & l & Ge & Er & Eb & ->). cbv zeta in Ge.
  unfold l_calc. rewrite N, Z.eqb_refl. rewrite Eb, Hb. destruct (blob_calc (l_blob B s) c) as [b r1] eqn:E. cbn [fst] in *.
  unfold has_reward. rewrite (generate_again F _ c _ _ Ge).
  destruct l as [|o l]; cbn [snd]; unfold l_feasible; cbn [l_blob]; rewrite Eb; reflexivity.
Qed.
End S.

(** A night with a visit waiting and pairs that are not possible. *)
Definition ex_F (ok : bool) : scfg := mkScfg [] 5 true 0 true false None (fun _ => ok) (fun _ => None) (fun _ l => l) (fun _ _ _ => 1%Q) (fun _ ra _ => ra) (fun _ _ _ => 1%Q) (fun ra => ra) 6.
Definition ex_bc (ok : bool) (b : unit) (c : scond) : unit * list er := (b, if ok then [EFin 1; ENaN] else [ENInf; ENInf]).
Definition ex_state : option (lst unit) := Props_LongGap.ex_run false Props_LongGap.ex_night.
Definition ex_t : scond := Props_LongGap.ex_c (10006 # 100) 101.
Definition ex_df (script pairs accum : bool) : option (res lrow) :=
  option_map (fun s => l_df (ex_F script) 9 unit (ex_bc pairs) (fun _ _ => pairs) (Props_LongGap.ex_G false) (-1000) s 1 ex_t accum) ex_state.
Example C132_ex : ex_df true false true = Some (Ok (mkLrow true (EFin 9) 0 1 (Some (EFin 9, 0)))) /\ ex_df true true false = Some (Ok (mkLrow true (EFin 9) 0 1 None)).
Proof. split; vm_compute; reflexivity. Qed.

(** Refuted: a survey that is not feasible in the table is not observed.  The scripted
    survey gives its reward without asking its basis functions: the table says not feasible
    and the visit is returned with its reward. *)
Theorem C132_ready_refuted : exists F G c (s s1 : lst unit) l t,
  l_df F 9 unit (ex_bc false) (fun _ _ => false) G (-1000) s 1 c true = Ok t /\ w_feasible t = false /\
  l_calc F 9 unit (ex_bc false) G s 1 c = (s1, Ok (EFin 9)) /\ snd (l_gen F unit (fun b _ => (b, None)) s1 c) = Ok (Some l) /\ l <> [].
Proof.
  exists (ex_F false), (Props_LongGap.ex_G false), ex_t.
  destruct ex_state as [s|] eqn:E; [|vm_compute in E; discriminate].
  exists s. vm_compute in E. injection E as <-. do 3 eexists. split; [vm_compute; reflexivity|]. split; [reflexivity|]. split; [vm_compute; reflexivity|]. split; [vm_compute; reflexivity|discriminate].
Qed.
Print Assumptions C132_ready_refuted.
Print Assumptions C132_reward.
Print Assumptions C132_feasible.
Print Assumptions C132_again.
