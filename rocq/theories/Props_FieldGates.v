(** C149: when a simple field survey may start a sequence, and how far apart its sequences are. *)
From Coq Require Import List ZArith QArith Bool String Lia Lqa Sorted.
From Verif Require Import Base Feat TimeGate TimeGate_proofs Props_TimeGate GateLoop GateLoop_proofs Props_GateLoop FieldGates.
Import ListNotations.
Local Open Scope string_scope.
Open Scope list_scope.
Open Scope nat_scope.

(** Open exactly between the twilights and with every visit that has the name of the field in its note more than half an hour back. *)
Theorem C149_open : forall name alt h c s r, sets alt c s -> rises alt c r -> StronglySorted (fun a b => (fv_mjd a <= fv_mjd b)%Q) h ->
  (field_check name alt h c = Ok true <->
   (s <= tc_mjd c <= r)%Q /\ forall w, In w h -> within name (fv_note w) -> (fv_mjd w + (1 # 48) < tc_mjd c)%Q).
Proof.
  intros name alt h c s r S1 R1 So. unfold field_check. destruct (C80_not_twilight alt c s r S1 R1) as (b & E & B). rewrite E. cbn [bind].
  assert (G : (minutes 30 == 1 # 48)%Q) by reflexivity. pose proof (C78_gap_open (minutes 30) name None h (tc_mjd c) So) as Og. cbn [vg_keys] in Og. fold (field_told name h) in Og.
  split.
  - destruct b; [|discriminate]. intros H. split; [now apply B|]. assert (V : vg_check (minutes 30) (field_told name h) (tc_mjd c) = true) by congruence.
    apply Og in V. intros w Iw Cw. destruct V as [(k & [<-|[]] & N)|V]; [exfalso; apply (N w Iw Cw); exact I|]. pose proof (V None w (or_introl eq_refl) Iw Cw I). lra.
  - intros [T W]. rewrite (proj2 B T). f_equal. apply Og. right. intros k w [<-|[]] Iw Cw _. pose proof (W w Iw Cw). lra.
Qed.
Print Assumptions C149_open.
(** So in any run its sequences, which carry the name, are more than half an hour apart. *)
Theorem C149_spaced : forall name alt l pre t vs post w v, timely l ->
  (forall pre t vs post, l = pre ++ Own t vs :: post -> exists c s r, tc_mjd c = t /\ sets alt c s /\ rises alt c r /\ field_check name alt (history pre) c = Ok true) ->
  l = pre ++ Own t vs :: post -> In w (history pre) -> within name (fv_note w) -> In v vs -> (fv_mjd w + (1 # 48) < fv_mjd v)%Q.
Proof.
  intros name alt l pre t vs post w v [Ts Tb] Ob El Iw Cw Iv. destruct (Ob pre t vs post El) as (c & s & r & Ec & S1 & R1 & H). subst l.
  assert (So : StronglySorted (fun u v => (fv_mjd u <= fv_mjd v)%Q) (history pre)) by (rewrite history_app in Ts; apply sorted_app_l in Ts; exact Ts).
  apply (C149_open name alt _ c s r S1 R1 So) in H. destruct H as [_ W]. specialize (W w Iw Cw). pose proof (Tb t vs v ltac:(apply in_or_app; right; left; reflexivity) Iv). rewrite Ec in W. lra.
Qed.
Print Assumptions C149_spaced.
(** Refuted: visits of other fields make no difference.  A field is held back by any field whose name contains its own. *)
Theorem C149_names_refuted : forall name more u c s r, sets 12 c s -> rises 12 c r -> (s <= tc_mjd c <= r)%Q -> fv_note u = String.append name more ->
  (tc_mjd c <= fv_mjd u + (1 # 48))%Q -> field_check name 12 [u] c = Ok false.
Proof.
  intros name more u c s r S1 R1 T E L. unfold field_check. destruct (C80_not_twilight 12 c s r S1 R1) as (b & Eb & B). rewrite Eb. cbn [bind]. rewrite (proj2 B T). f_equal.
  destruct (vg_check (minutes 30) (field_told name [u]) (tc_mjd c)) eqn:V; [exfalso|reflexivity].
  assert (So : StronglySorted (fun a b => (fv_mjd a <= fv_mjd b)%Q) [u]) by (constructor; constructor).
  assert (H : field_check name 12 [u] c = Ok true) by (unfold field_check; rewrite Eb; cbn [bind]; rewrite (proj2 B T), V; reflexivity).
  apply (C149_open name 12 [u] c s r S1 R1 So) in H. destruct H as [_ W]. specialize (W u (or_introl eq_refl)). assert (Wi : within name (fv_note u)) by (rewrite E; exists ""%string, more; reflexivity).
  specialize (W Wi). lra.
Qed.
Print Assumptions C149_names_refuted.
(** Refuted: a sequence asked for ends before twilight.  The last moment of the night is as good as any. *)
Theorem C149_end_refuted : forall name c, (tc_n12_set c <= tc_n12_rise c)%Q -> tc_mjd c = tc_n12_rise c -> field_check name 12 [] c = Ok true.
Proof.
  intros name c L E. apply (C149_open name 12 [] c (tc_n12_set c) (tc_n12_rise c)); [left; split; reflexivity|left; split; reflexivity|constructor|].
  split; [rewrite E; split; [exact L|apply Qle_refl]|intros w []].
Qed.
Print Assumptions C149_end_refuted.

Definition ex_fv (t : Q) (n : string) : fvis := mkFv 0 0 t "g" n "p" ENaN ENaN 0%Q [].
Definition ex_fc (t : Q) : tcond := mkTc t 1 (-20) (-20) 1 (60000 - (1#4)) (60000 - (1#5)) (60000 + (1#5)) (60000 + (1#4)) 0 0 [] [].
Example C149_ex : field_check "M49" 12 [ex_fv 60000 "M49"] (ex_fc (60000 + (1#47))) = Ok true /\ field_check "M49" 12 [ex_fv 60000 "M49"] (ex_fc (60000 + (1#48))) = Ok false /\
  field_check "M4" 12 [ex_fv 60000 "M49"] (ex_fc (60000 + (1#48))) = Ok false /\ field_check "M4" 12 [ex_fv 60000 "M87"] (ex_fc (60000 + (1#48))) = Ok true.
Proof. repeat split; vm_compute; reflexivity. Qed.
Example C149_ex_night : sets 12 (ex_fc 60000) (60000 - (1#4)) /\ rises 12 (ex_fc 60000) (60000 + (1#4)) /\ field_check "M49" 12 [] (ex_fc 60001) = Ok false.
Proof. split; [left; split; reflexivity|]. split; [left; split; reflexivity|vm_compute; reflexivity]. Qed.
(** A night with two sequences of one field, another field between them. *)
Definition ex_seq (t : Q) : event := Own t [ex_fv t "M49"; ex_fv (t + (1#2000)) "M49"].
Definition ex_night : list event := [ex_seq 60000; Other (ex_fv (60000 + (1#100)) "M87"); ex_seq (60000 + (1#40))].
Example C149_ex_run : timely ex_night /\
  forall pre t vs post, ex_night = pre ++ Own t vs :: post ->
    exists c s r, tc_mjd c = t /\ sets 12 c s /\ rises 12 c r /\ field_check "M49" 12 (history pre) c = Ok true.
Proof.
  split.
  - split; [|intros t vs v [I|[I|[I|[]]]] Iv; try discriminate; injection I as <- <-; destruct Iv as [<-|[<-|[]]]; vm_compute; discriminate].
    change (history ex_night) with [ex_fv 60000 "M49"; ex_fv (60000 + (1#2000)) "M49"; ex_fv (60000 + (1#100)) "M87"; ex_fv (60000 + (1#40)) "M49"; ex_fv (60000 + (1#40) + (1#2000)) "M49"].
    repeat apply SSorted_cons; try apply SSorted_nil; repeat (apply Forall_cons; [vm_compute; discriminate|]); apply Forall_nil.
  - intros pre t vs post E. assert (P : forall x, tc_mjd (ex_fc x) = x /\ sets 12 (ex_fc x) (60000 - (1#4)) /\ rises 12 (ex_fc x) (60000 + (1#4))).
    { intros x. split; [reflexivity|]. split; left; split; reflexivity. }
    destruct pre as [|e1 pre]; [injection E as <- _ _; exists (ex_fc 60000); do 2 eexists; repeat split; try apply P; vm_compute; reflexivity|].
    destruct pre as [|e2 pre]; [injection E as _ X _; discriminate|].
    destruct pre as [|e3 pre]; [|injection E as _ _ _ X; destruct pre; discriminate].
    injection E as <- <- <- _ _. exists (ex_fc (60000 + (1#40))). do 2 eexists. repeat split; apply P.
Qed.
