(** Proofs about the rotator conversions and detailers. *)
From Coq Require Import List ZArith QArith Qround Qabs Qfield Bool String Lia Lqa.
From Verif Require Import Base Shadow Shadow_proofs Rot.
Import ListNotations.
Open Scope Q_scope.

(** [a] and [b] are the same direction: they differ by a whole number of turns. *)
Definition same_dir (pi a b : Q) : Prop := exists k : Z, a == b + inject_Z k * (2 * pi).

Lemma same_refl : forall pi a b, a == b -> same_dir pi a b.
Proof. intros pi a b E. exists 0%Z. change (inject_Z 0) with 0. rewrite E. ring. Qed.
Lemma same_sym : forall pi a b, same_dir pi a b -> same_dir pi b a.
Proof. intros pi a b [k E]. exists (- k)%Z. rewrite inject_Z_opp, E. ring. Qed.
Lemma same_trans : forall pi a b c, same_dir pi a b -> same_dir pi b c -> same_dir pi a c.
Proof. intros pi a b c [k E] [j F]. exists (k + j)%Z. rewrite inject_Z_plus, E, F. ring. Qed.
Lemma same_add : forall pi a b c d, same_dir pi a b -> same_dir pi c d -> same_dir pi (a + c) (b + d).
Proof. intros pi a b c d [k E] [j F]. exists (k + j)%Z. rewrite inject_Z_plus, E, F. ring. Qed.
Lemma same_opp : forall pi a b, same_dir pi a b -> same_dir pi (- a) (- b).
Proof. intros pi a b [k E]. exists (- k)%Z. rewrite inject_Z_opp, E. ring. Qed.
Lemma same_eq : forall pi a b c d, a == c -> b == d -> same_dir pi a b -> same_dir pi c d.
Proof. intros pi a b c d E F [k G]. exists k. rewrite <- E, <- F. exact G. Qed.
Lemma same_unique : forall pi a b, 0 < pi -> same_dir pi a b -> - pi < a -> a <= pi -> - pi < b -> b <= pi -> a == b.
Proof.
  intros pi a b Hp [k E] A1 A2 B1 B2.
  destruct (Z.lt_trichotomy k 0) as [L|[Z0|L]]; [exfalso| |exfalso].
  - assert (inject_Z k <= inject_Z (-1)) by (rewrite <- Zle_Qle; lia). change (inject_Z (-1)) with (- (1)) in H.
    assert (inject_Z k * (2 * pi) <= - (1) * (2 * pi)) by (apply Qmult_le_compat_r; lra). lra.
  - subst k. change (inject_Z 0) with 0 in E. rewrite E. ring.
  - assert (inject_Z 1 <= inject_Z k) by (rewrite <- Zle_Qle; lia). change (inject_Z 1) with 1 in H.
    assert (1 * (2 * pi) <= inject_Z k * (2 * pi)) by (apply Qmult_le_compat_r; lra). lra.
Qed.
Lemma same_unique0 : forall pi a b, 0 < pi -> same_dir pi a b -> 0 <= a -> a < 2 * pi -> 0 <= b -> b < 2 * pi -> a == b.
Proof.
  intros pi a b Hp [k E] A1 A2 B1 B2.
  destruct (Z.lt_trichotomy k 0) as [L|[Z0|L]]; [exfalso| |exfalso].
  - assert (inject_Z k <= inject_Z (-1)) by (rewrite <- Zle_Qle; lia). change (inject_Z (-1)) with (- (1)) in H.
    assert (inject_Z k * (2 * pi) <= - (1) * (2 * pi)) by (apply Qmult_le_compat_r; lra). lra.
  - subst k. change (inject_Z 0) with 0 in E. rewrite E. ring.
  - assert (inject_Z 1 <= inject_Z k) by (rewrite <- Zle_Qle; lia). change (inject_Z 1) with 1 in H.
    assert (1 * (2 * pi) <= inject_Z k * (2 * pi)) by (apply Qmult_le_compat_r; lra). lra.
Qed.

Lemma fmod_same : forall pi x, same_dir pi (fmod x (2 * pi)) x.
Proof. intros pi x. exists (- Qfloor (x / (2 * pi)))%Z. unfold fmod. rewrite inject_Z_opp. ring. Qed.
Lemma wrap_spec : forall pi x, 0 < pi -> same_dir pi (wrap_180 pi x) x /\ - pi < wrap_180 pi x /\ wrap_180 pi x <= pi.
Proof.
  intros pi x Hp. assert (H2 : 0 < 2 * pi) by lra. destruct (fmod_range x (2 * pi) H2) as [A B].
  unfold wrap_180. destruct (Qltb pi (fmod x (2 * pi))) eqn:E.
  - apply Qltb_lt in E. split; [|lra].
    apply same_trans with (fmod x (2 * pi)); [|apply fmod_same].
    exists (-1)%Z. change (inject_Z (-1)) with (- (1)). ring.
  - apply Qltb_false in E. split; [apply fmod_same|lra].
Qed.
Lemma rt2rs_range : forall pi t x pa, 0 < pi -> 0 <= rt2rs pi t x pa /\ rt2rs pi t x pa < 2 * pi.
Proof. intros pi t x pa Hp. assert (H2 : 0 < 2 * pi) by lra. destruct t; apply fmod_range; exact H2. Qed.
Lemma rs2rt_range : forall pi t s pa, 0 < pi -> - pi < rs2rt pi t s pa /\ rs2rt pi t s pa <= pi.
Proof. intros pi t s pa Hp. destruct t; apply wrap_spec; exact Hp. Qed.
(** What each telescope's relation between rotSkyPos and rotTelPos is. *)
Definition relation (pi : Q) (t : tel) (rotsky rottel pa : Q) : Prop :=
  match t with
  | Rubin => same_dir pi (rotsky + rottel) (pa - pi / 2)
  | ComCam => same_dir pi (rotsky + rottel) pa
  | Auxtel => same_dir pi (rotsky + pa) rottel
  end.
Lemma rt2rs_rel : forall pi t x pa, relation pi t (rt2rs pi t x pa) x pa.
Proof.
  intros pi t x pa. destruct t; cbn [relation rt2rs].
  - apply same_eq with (fmod (pa - x - pi / 2) (2 * pi) + x) ((pa - x - pi / 2) + x); [reflexivity|ring|].
    apply same_add; [apply fmod_same|apply same_refl; reflexivity].
  - apply same_eq with (fmod (pa - x) (2 * pi) + x) ((pa - x) + x); [reflexivity|ring|].
    apply same_add; [apply fmod_same|apply same_refl; reflexivity].
  - apply same_eq with (fmod (x - pa) (2 * pi) + pa) ((x - pa) + pa); [reflexivity|ring|].
    apply same_add; [apply fmod_same|apply same_refl; reflexivity].
Qed.
Lemma rs2rt_rel : forall pi t s pa, 0 < pi -> relation pi t s (rs2rt pi t s pa) pa.
Proof.
  intros pi t s pa Hp. destruct t; cbn [relation rs2rt].
  - apply same_eq with (s + wrap_180 pi (fmod (pa - s - pi / 2) (2 * pi))) (s + (pa - s - pi / 2)); [reflexivity|ring|].
    apply same_add; [apply same_refl; reflexivity|].
    eapply same_trans; [apply (wrap_spec pi _ Hp)|apply fmod_same].
  - apply same_eq with (s + wrap_180 pi (fmod (pa - s) (2 * pi))) (s + (pa - s)); [reflexivity|ring|].
    apply same_add; [apply same_refl; reflexivity|].
    eapply same_trans; [apply (wrap_spec pi _ Hp)|apply fmod_same].
  - apply same_sym. eapply same_trans; [apply (wrap_spec pi _ Hp)|apply fmod_same].
Qed.
Lemma rel_tel : forall pi t s x y pa, relation pi t s x pa -> relation pi t s y pa -> same_dir pi x y.
Proof.
  intros pi t s x y pa H1 H2. destruct t; cbn [relation] in *.
  1,2: (apply same_eq with ((s + x) + - s) ((s + y) + - s); [ring|ring|];
        apply same_add; [eapply same_trans; [exact H1|apply same_sym; exact H2]|apply same_refl; reflexivity]).
  eapply same_trans; [apply same_sym; exact H1|exact H2].
Qed.
Lemma rel_sky : forall pi t s u x pa, relation pi t s x pa -> relation pi t u x pa -> same_dir pi s u.
Proof.
  intros pi t s u x pa H1 H2. destruct t; cbn [relation] in *.
  1,2: (apply same_eq with ((s + x) + - x) ((u + x) + - x); [ring|ring|];
        apply same_add; [eapply same_trans; [exact H1|apply same_sym; exact H2]|apply same_refl; reflexivity]).
  apply same_eq with ((s + pa) + - pa) ((u + pa) + - pa); [ring|ring|].
  apply same_add; [eapply same_trans; [exact H1|apply same_sym; exact H2]|apply same_refl; reflexivity].
Qed.
Lemma rel_move : forall pi t s x y pa, same_dir pi x y -> relation pi t s x pa -> relation pi t s y pa.
Proof.
  intros pi t s x y pa H H1. destruct t; cbn [relation] in *.
  1,2: (eapply same_trans; [apply same_add; [apply same_refl; reflexivity|apply same_sym; exact H]|exact H1]).
  eapply same_trans; [exact H1|exact H].
Qed.

Theorem round_tel : forall pi t x pa, 0 < pi ->
  same_dir pi (rs2rt pi t (rt2rs pi t x pa) pa) x /\
  (- pi < x -> x <= pi -> rs2rt pi t (rt2rs pi t x pa) pa == x).
Proof.
  intros pi t x pa Hp.
  assert (S : same_dir pi (rs2rt pi t (rt2rs pi t x pa) pa) x).
  { eapply rel_tel; [apply rs2rt_rel; exact Hp|apply rt2rs_rel]. }
  split; [exact S|]. intros A B. destruct (rs2rt_range pi t (rt2rs pi t x pa) pa Hp) as [C D].
  apply (same_unique pi); auto.
Qed.
Theorem round_sky : forall pi t s pa, 0 < pi ->
  same_dir pi (rt2rs pi t (rs2rt pi t s pa) pa) s /\
  (0 <= s -> s < 2 * pi -> rt2rs pi t (rs2rt pi t s pa) pa == s).
Proof.
  intros pi t s pa Hp.
  assert (S : same_dir pi (rt2rs pi t (rs2rt pi t s pa) pa) s).
  { eapply rel_sky; [apply rt2rs_rel|apply rs2rt_rel; exact Hp]. }
  split; [exact S|]. intros A B. destruct (rt2rs_range pi t (rs2rt pi t s pa) pa Hp) as [C D].
  apply (same_unique0 pi); auto.
Qed.

(** smallest_signed_angle: the shortest way between the two directions. *)
Lemma ssa_short : forall pi a b, 0 < pi ->
  same_dir pi (ssa pi a b) (b - a) /\ Qabs (ssa pi a b) <= pi.
Proof.
  intros pi a b Hp. assert (H2 : 0 < 2 * pi) by lra. unfold ssa.
  set (x := fmod a (2 * pi)). set (y := fmod b (2 * pi)).
  assert (Sx : same_dir pi x a) by apply fmod_same. assert (Sy : same_dir pi y b) by apply fmod_same.
  assert (Syx : same_dir pi (y - x) (b - a)) by (apply same_add; [exact Sy|apply same_opp; exact Sx]).
  destruct (fmod_range (x - y) (2 * pi) H2) as [A1 A2]. destruct (fmod_range (y - x) (2 * pi) H2) as [B1 B2].
  pose proof (fmod_same pi (x - y)) as SA. pose proof (fmod_same pi (y - x)) as SB.
  set (p := fmod (x - y) (2 * pi)) in *. set (q := fmod (y - x) (2 * pi)) in *.
  (* p + q is a whole number of turns below two turns *)
  assert (S : same_dir pi (p + q) 0).
  { apply same_eq with (p + q) ((x - y) + (y - x)); [reflexivity|ring|]. apply same_add; assumption. }
  assert (L : p <= pi \/ q <= pi).
  { destruct (Qlt_le_dec pi p) as [P|P]; [|left; exact P]. destruct (Qlt_le_dec pi q) as [R|R]; [|right; exact R]. exfalso.
    destruct S as [k E].
    assert (K : (1 < k)%Z).
    { destruct (Z_lt_le_dec 1 k) as [|K]; [assumption|]. exfalso.
      assert (inject_Z k <= inject_Z 1) by (rewrite <- Zle_Qle; exact K). change (inject_Z 1) with 1 in H.
      assert (inject_Z k * (2 * pi) <= 1 * (2 * pi)) by (apply Qmult_le_compat_r; lra). lra. }
    assert (inject_Z 2 <= inject_Z k) by (rewrite <- Zle_Qle; lia). change (inject_Z 2) with 2 in H.
    assert (2 * (2 * pi) <= inject_Z k * (2 * pi)) by (apply Qmult_le_compat_r; lra). lra. }
  destruct (Qltb p q) eqn:E.
  - apply Qltb_lt in E. split.
    + apply same_trans with (y - x); [|exact Syx].
      apply same_eq with (- p) (- (x - y)); [reflexivity|ring|]. apply same_opp. exact SA.
    + rewrite Qabs_opp, Qabs_pos by lra. destruct L; lra.
  - apply Qltb_false in E. split.
    + apply same_trans with (y - x); [exact SB|exact Syx].
    + rewrite Qabs_pos by lra. destruct L; lra.
Qed.
Lemma short_min : forall pi d e, 0 < pi -> same_dir pi d e -> Qabs d <= pi -> Qabs d <= Qabs e.
Proof.
  intros pi d e Hp [k E] H. apply Qabs_Qle_condition in H. destruct H as [H1 H2].
  apply Qabs_Qle_condition.
  destruct (Z.lt_trichotomy k 0) as [L|[Z0|L]].
  - assert (inject_Z k <= inject_Z (-1)) by (rewrite <- Zle_Qle; lia). change (inject_Z (-1)) with (- (1)) in H.
    assert (inject_Z k * (2 * pi) <= - (1) * (2 * pi)) by (apply Qmult_le_compat_r; lra).
    rewrite (Qabs_pos e) by lra. lra.
  - subst k. change (inject_Z 0) with 0 in E.
    pose proof (Qle_Qabs e). pose proof (Qle_Qabs (- e)). rewrite Qabs_opp in H0. lra.
  - assert (inject_Z 1 <= inject_Z k) by (rewrite <- Zle_Qle; lia). change (inject_Z 1) with 1 in H.
    assert (1 * (2 * pi) <= inject_Z k * (2 * pi)) by (apply Qmult_le_compat_r; lra).
    rewrite (Qabs_neg e) by lra. lra.
Qed.

(** ** _update_rot_sky_pos *)
Lemma qminl_spec : forall l x, qminl x l <= x /\ (forall y, In y l -> qminl x l <= y) /\ (qminl x l = x \/ In (qminl x l) l).
Proof.
  induction l as [|y l IH]; intro x; unfold qminl; cbn [fold_left]; [split; [lra|split; [intros ? []|left; reflexivity]]|].
  fold (qminl (if Qltb y x then y else x) l). destruct (IH (if Qltb y x then y else x)) as [A [B C]].
  destruct (Qltb y x) eqn:E; [apply Qltb_lt in E|apply Qltb_false in E].
  - split; [lra|]. split; [intros z [->|I]; [exact A|apply B; exact I]|].
    destruct C as [C|C]; [right; left; symmetry; exact C|right; right; exact C].
  - split; [lra|]. split; [intros z [->|I]; [lra|apply B; exact I]|].
    destruct C as [C|C]; [left; exact C|right; right; exact C].
Qed.
Definition candidate (pi lo hi r c : Q) : Prop :=
  (c == r + pi / 2 \/ c == r - pi / 2 \/ c == r + pi \/ c == r - pi) /\ lo < c /\ c < hi.

Lemma cand_in : forall pi lo hi r c,
  In c (filter (fun c => Qltb lo c && Qltb c hi) (map (fun d => r + d) [- (pi / 2); pi / 2; - pi; pi])) -> candidate pi lo hi r c.
Proof.
  intros pi lo hi r c H. apply filter_In in H. destruct H as [I E]. apply andb_prop in E. destruct E as [E F].
  apply Qltb_lt in E. apply Qltb_lt in F. split; [|split; assumption].
  cbn [map In] in I. destruct I as [<-|[<-|[<-|[<-|[]]]]].
  - right; left; ring.
  - left; ring.
  - right; right; right; ring.
  - right; right; left; ring.
Qed.
Lemma in_cand : forall pi lo hi r c, candidate pi lo hi r c ->
  exists c', c' == c /\ In c' (filter (fun c => Qltb lo c && Qltb c hi) (map (fun d => r + d) [- (pi / 2); pi / 2; - pi; pi])).
Proof.
  intros pi lo hi r c [D [L H]].
  assert (G : exists c', c' == c /\ In c' (map (fun d => r + d) [- (pi / 2); pi / 2; - pi; pi])).
  { cbn [map In]. destruct D as [D|[D|[D|D]]].
    - exists (r + pi / 2). split; [rewrite D; reflexivity|tauto].
    - exists (r + - (pi / 2)). split; [rewrite D; ring|tauto].
    - exists (r + pi). split; [rewrite D; reflexivity|tauto].
    - exists (r + - pi). split; [rewrite D; ring|tauto]. }
  destruct G as [c' [E I]]. exists c'. split; [exact E|]. apply filter_In. split; [exact I|].
  apply andb_true_intro. split; apply Qltb_lt; rewrite E; assumption.
Qed.
Lemma ssa_comp : forall pi a b c, 0 < pi -> b == c -> Qabs (ssa pi a b) == Qabs (ssa pi a c).
Proof.
  intros pi a b c Hp E. destruct (ssa_short pi a b Hp) as [S1 L1]. destruct (ssa_short pi a c Hp) as [S2 L2].
  assert (S : same_dir pi (ssa pi a b) (ssa pi a c)).
  { eapply same_trans; [exact S1|]. apply same_sym. eapply same_eq; [reflexivity| |exact S2]. rewrite E. reflexivity. }
  assert (A1 := short_min pi _ _ Hp S L1). assert (A2 := short_min pi _ _ Hp (same_sym _ _ _ S) L2).
  apply Qle_antisym; assumption.
Qed.

(** The rotator angle now, as the model observatory sees it. *)
Definition now_of (pi : Q) (t : tel) (cur : option Q) (pa : Q) : Q := match cur with None => 0 | Some c => rs2rt pi t c pa end.

Theorem update_sound : forall pi t lo hi cur s rt pa s' r',
  0 < pi -> - pi <= lo -> hi <= pi ->
  update_rot pi t lo hi cur true (Some s) rt pa = Ok (s', r') ->
  exists s1 r1, s' = Some s1 /\ r' = Some r1 /\ relation pi t s1 r1 pa /\ lo <= r1 /\ r1 <= hi /\
    let r := rs2rt pi t s pa in
    (lo <= r /\ r <= hi /\ same_dir pi s1 s) \/
    ((r < lo \/ hi < r) /\ candidate pi lo hi r r1 /\
     forall c (k : Z), candidate pi lo hi r c ->
       Qabs (ssa pi (now_of pi t cur pa) r1) <= Qabs (c - now_of pi t cur pa + inject_Z k * (2 * pi))).
Proof.
  intros pi t lo hi cur s rt pa s' r' Hp Hlo Hhi H.
  unfold update_rot in H. fold (now_of pi t cur pa) in H.
  remember (rs2rt pi t s pa) as r eqn:Er. cbn zeta in H.
  assert (Rr := rs2rt_range pi t s pa Hp). rewrite <- Er in Rr.
  destruct (Qltb r lo || Qltb hi r) eqn:E.
  - remember (filter (fun c => Qltb lo c && Qltb c hi) (map (fun d => r + d) [- (pi / 2); pi / 2; - pi; pi])) as valid eqn:Ev.
    destruct valid as [|v vs]; [discriminate|].
    remember (filter (fun c => Qeq_bool (Qabs (ssa pi (now_of pi t cur pa) c))
        (qminl (Qabs (ssa pi (now_of pi t cur pa) v)) (map (fun c => Qabs (ssa pi (now_of pi t cur pa) c)) vs))) (v :: vs)) as best eqn:Eb.
    destruct best as [|c [|c2 cs]]; [discriminate| |discriminate].
    injection H as <- <-.
    assert (I : In c (filter (fun c => Qeq_bool (Qabs (ssa pi (now_of pi t cur pa) c))
        (qminl (Qabs (ssa pi (now_of pi t cur pa) v)) (map (fun c => Qabs (ssa pi (now_of pi t cur pa) c)) vs))) (v :: vs))).
    { rewrite <- Eb. left. reflexivity. }
    apply filter_In in I. destruct I as [I D]. apply Qeq_bool_iff in D.
    assert (C := cand_in pi lo hi r c). rewrite <- Ev in C. specialize (C I).
    destruct C as [C0 [C1 C2]].
    destruct (round_tel pi t c pa Hp) as [_ RT]. specialize (RT ltac:(lra) ltac:(lra)).
    eexists. eexists. split; [reflexivity|]. split; [reflexivity|].
    split; [apply rs2rt_rel; exact Hp|]. split; [rewrite RT; lra|]. split; [rewrite RT; lra|].
    right. split.
    { apply orb_prop in E. destruct E as [E|E]; apply Qltb_lt in E; [left|right]; exact E. }
    split.
    { split; [rewrite RT; exact C0|rewrite RT; split; assumption]. }
    intros c2 k C3. destruct (in_cand _ _ _ _ _ C3) as [c3 [E3 I3]]. rewrite <- Ev in I3.
    assert (M : Qabs (ssa pi (now_of pi t cur pa) c) <= Qabs (ssa pi (now_of pi t cur pa) c3)).
    { rewrite D. destruct (qminl_spec (map (fun c => Qabs (ssa pi (now_of pi t cur pa) c)) vs) (Qabs (ssa pi (now_of pi t cur pa) v))) as [M1 [M2 _]].
      destruct I3 as [<-|I3]; [exact M1|]. apply M2. apply in_map_iff. exists c3. split; [reflexivity|exact I3]. }
    rewrite (ssa_comp pi (now_of pi t cur pa) _ c Hp RT).
    eapply Qle_trans; [exact M|]. destruct (ssa_short pi (now_of pi t cur pa) c3 Hp) as [S L].
    apply (short_min pi); auto. eapply same_trans; [exact S|].
    exists (- k)%Z. rewrite inject_Z_opp, E3. ring.
  - injection H as <- <-.
    apply orb_false_elim in E. destruct E as [E F]. apply Qltb_false in E. apply Qltb_false in F.
    destruct (round_tel pi t r pa Hp) as [_ RT]. specialize (RT ltac:(lra) ltac:(lra)).
    eexists. eexists. split; [reflexivity|]. split; [reflexivity|].
    split; [apply rs2rt_rel; exact Hp|]. split; [rewrite RT; lra|]. split; [rewrite RT; lra|].
    left. split; [lra|]. split; [lra|].
    rewrite Er. apply round_sky. exact Hp.
Qed.
Lemma cands_nodup : forall pi r, 0 < pi -> forall i j, (i < 4)%nat -> (j < 4)%nat -> i <> j ->
  ~ nth i (map (fun d => r + d) [- (pi / 2); pi / 2; - pi; pi]) 0 == nth j (map (fun d => r + d) [- (pi / 2); pi / 2; - pi; pi]) 0.
Proof.
  intros pi r Hp i j Hi Hj N E. set (h := pi / 2) in *. assert (H : pi == 2 * h) by (unfold h; field).
  assert (0 < h) by lra.
  destruct i as [|[|[|[|i]]]]; destruct j as [|[|[|[|j]]]]; cbn [nth map] in E; try lia; lra.
Qed.
(** Distinct members of a filtered list with at least two entries. *)
Lemma filter_two : forall (P : Q -> bool) l a b r, filter P l = a :: b :: r ->
  exists i j, (i < j)%nat /\ (j < List.length l)%nat /\ nth i l 0 = a /\ nth j l 0 = b /\ P a = true /\ P b = true.
Proof.
  intros P. induction l as [|x l IH]; intros a b r H; [discriminate|]. cbn in H.
  destruct (P x) eqn:E.
  - injection H as <- H.
    assert (I : In b (filter P l)) by (rewrite H; left; reflexivity). apply filter_In in I. destruct I as [I F].
    apply (In_nth _ _ 0) in I. destruct I as [j [Lj Ej]].
    exists 0%nat, (S j). cbn. repeat split; auto; lia.
  - destruct (IH _ _ _ H) as [i [j [A [B [C [D F]]]]]]. exists (S i), (S j). cbn. repeat split; auto; lia || tauto.
Qed.
Theorem update_raises : forall pi t lo hi cur s rt pa e,
  0 < pi -> - pi <= lo -> hi <= pi ->
  update_rot pi t lo hi cur true (Some s) rt pa = Raise e ->
  let r := rs2rt pi t s pa in
  (r < lo \/ hi < r) /\
  ((forall c, ~ candidate pi lo hi r c) \/
   exists a b, ~ a == b /\ candidate pi lo hi r a /\ candidate pi lo hi r b /\
     Qabs (ssa pi (now_of pi t cur pa) a) == Qabs (ssa pi (now_of pi t cur pa) b)).
Proof.
  intros pi t lo hi cur s rt pa e Hp Hlo Hhi H.
  unfold update_rot in H. fold (now_of pi t cur pa) in H. cbn zeta.
  remember (rs2rt pi t s pa) as r eqn:Er. cbn zeta in H.
  destruct (Qltb r lo || Qltb hi r) eqn:E; [|discriminate].
  split. { apply orb_prop in E. destruct E as [E|E]; apply Qltb_lt in E; [left|right]; exact E. }
  remember (filter (fun c => Qltb lo c && Qltb c hi) (map (fun d => r + d) [- (pi / 2); pi / 2; - pi; pi])) as valid eqn:Ev.
  destruct valid as [|v vs].
  - left. intros c C. destruct (in_cand _ _ _ _ _ C) as [c' [_ I]]. rewrite <- Ev in I. exact I.
  - right.
    remember (fun c => Qeq_bool (Qabs (ssa pi (now_of pi t cur pa) c))
        (qminl (Qabs (ssa pi (now_of pi t cur pa) v)) (map (fun c => Qabs (ssa pi (now_of pi t cur pa) c)) vs))) as P eqn:EP.
    destruct (filter P (v :: vs)) as [|a [|b rest]] eqn:Eb.
    + exfalso. destruct (qminl_spec (map (fun c => Qabs (ssa pi (now_of pi t cur pa) c)) vs) (Qabs (ssa pi (now_of pi t cur pa) v))) as [_ [_ M]].
      assert (X : exists c, In c (v :: vs) /\ P c = true).
      { destruct M as [M|M].
        - exists v. split; [left; reflexivity|]. rewrite EP. rewrite M. apply Qeq_bool_refl.
        - apply in_map_iff in M. destruct M as [c [M I]]. exists c. split; [right; exact I|]. rewrite EP. rewrite <- M. apply Qeq_bool_refl. }
      destruct X as [c X]. apply filter_In in X. rewrite Eb in X. exact X.
    + discriminate.
    + assert (Ef : filter (fun c => P c && (Qltb lo c && Qltb c hi)) (map (fun d => r + d) [- (pi / 2); pi / 2; - pi; pi]) = a :: b :: rest).
      { rewrite <- Eb, Ev. clear. induction (map (fun d => r + d) [- (pi / 2); pi / 2; - pi; pi]) as [|x l IH]; [reflexivity|].
        cbn [filter]. destruct (Qltb lo x && Qltb x hi); cbn [filter].
        - destruct (P x); cbn [andb]; rewrite IH; reflexivity.
        - rewrite andb_false_r. exact IH. }
      destruct (filter_two _ _ _ _ _ Ef) as [i [j [Lij [Lj [Ea [Eb' [Pa Pb]]]]]]].
      assert (Ia : In a (v :: vs) /\ P a = true) by (apply filter_In; rewrite Eb; left; reflexivity).
      assert (Ib : In b (v :: vs) /\ P b = true) by (apply filter_In; rewrite Eb; right; left; reflexivity).
      exists a, b. cbn in Lj. split; [|split; [|split]].
      * rewrite <- Ea, <- Eb'. apply cands_nodup; auto; lia.
      * apply cand_in. rewrite <- Ev. apply Ia.
      * apply cand_in. rewrite <- Ev. apply Ib.
      * destruct Ia as [_ Ia]. destruct Ib as [_ Ib]. rewrite EP in Ia, Ib. apply Qeq_bool_iff in Ia. apply Qeq_bool_iff in Ib.
        rewrite Ia, Ib. reflexivity.
Qed.
Theorem update_possible : forall pi lo hi r, 0 < pi -> lo < 0 -> 0 < hi -> pi / 2 < hi - lo ->
  - pi < r -> r <= pi -> (r < lo \/ hi < r) -> exists c, candidate pi lo hi r c.
Proof.
  intros pi lo hi r Hp L H W A B O. unfold candidate. set (h := pi / 2) in *.
  assert (E : pi == 2 * h) by (unfold h; field).
  destruct O as [O|O].
  - destruct (Qlt_le_dec lo (r + h)) as [G|G].
    + exists (r + h). split; [left; reflexivity|lra].
    + exists (r + pi). split; [right; right; left; reflexivity|lra].
  - destruct (Qlt_le_dec (r - h) hi) as [G|G].
    + exists (r - h). split; [right; left; reflexivity|lra].
    + exists (r - pi). split; [right; right; right; reflexivity|lra].
Qed.
Theorem update_tel : forall pi t lo hi cur x rs pa, 0 < pi ->
  exists s1 r1, update_rot pi t lo hi cur false rs (Some x) pa = Ok (Some s1, Some r1) /\
    relation pi t s1 x pa /\ same_dir pi r1 x /\ - pi < r1 /\ r1 <= pi.
Proof.
  intros pi t lo hi cur x rs pa Hp. cbn. eexists. eexists. split; [reflexivity|].
  split; [apply rt2rs_rel|]. split; [apply round_tel; exact Hp|]. apply rs2rt_range. exact Hp.
Qed.

(** ** RotspUpdateDetailer *)
(** [r] can be taken: its rotSkyPos is set and the rotator angle it implies is within limits. *)
Definition usable (pi : Q) (t : tel) (lo hi : Q) (r : rrow) : Prop :=
  exists s x, q_sky r = Some s /\ relation pi t s x (q_pa r) /\ - pi < x /\ x <= pi /\ lo <= x /\ x <= hi.
Lemma usable_dec : forall pi t lo hi r, 0 < pi ->
  (match q_sky r with None => true | Some s => let x := rs2rt pi t s (q_pa r) in Qltb hi x || Qltb x lo end = false <-> usable pi t lo hi r).
Proof.
  intros pi t lo hi r Hp. unfold usable. destruct (q_sky r) as [s|].
  - cbn zeta. destruct (rs2rt_range pi t s (q_pa r) Hp) as [A B]. split.
    + intro H. apply orb_false_elim in H. destruct H as [H1 H2]. apply Qltb_false in H1. apply Qltb_false in H2.
      exists s, (rs2rt pi t s (q_pa r)). split; [reflexivity|]. split; [apply rs2rt_rel; exact Hp|lra].
    + intros [s' [x [E [R [C [D [L H]]]]]]]. injection E as <-.
      assert (X : rs2rt pi t s (q_pa r) == x).
      { apply (same_unique pi); auto. eapply rel_tel; [apply rs2rt_rel; exact Hp|exact R]. }
      apply orb_false_intro; unfold Qltb; apply negb_false_iff; apply Qle_bool_iff; rewrite X; assumption.
  - split; [discriminate|]. intros [s [x [E _]]]. discriminate.
Qed.
Theorem rotsp_spec : forall pi t lo hi l, 0 < pi ->
  Forall2 (fun a b =>
    q_tel b = q_tel a /\ q_pa b = q_pa a /\
    (usable pi t lo hi a -> b = a) /\
    (~ usable pi t lo hi a -> exists s, q_sky b = Some s /\ relation pi t s (q_tel a) (q_pa a)) /\
    (- pi < q_tel a -> q_tel a <= pi -> lo <= q_tel a -> q_tel a <= hi -> usable pi t lo hi b))
  l (rotsp_update pi t lo hi l).
Proof.
  intros pi t lo hi l Hp. unfold rotsp_update. induction l as [|a l IH]; cbn [map]; [constructor|].
  constructor; [|exact IH]. pose proof (usable_dec pi t lo hi a Hp) as D. cbn zeta in D.
  destruct (match q_sky a with None => true | Some s => Qltb hi (rs2rt pi t s (q_pa a)) || Qltb (rs2rt pi t s (q_pa a)) lo end) eqn:E.
  - assert (N : ~ usable pi t lo hi a) by (rewrite <- D; discriminate). cbn [q_tel q_pa q_sky].
    split; [reflexivity|]. split; [reflexivity|]. split; [intro; contradiction|].
    split; [intros _; eexists; split; [reflexivity|apply rt2rs_rel]|].
    intros A B C F. exists (rt2rs pi t (q_tel a) (q_pa a)), (q_tel a). cbn [q_sky q_pa].
    split; [reflexivity|]. split; [apply rt2rs_rel|]. repeat split; assumption.
  - assert (U : usable pi t lo hi a) by (rewrite <- D; reflexivity).
    split; [reflexivity|]. split; [reflexivity|]. split; [reflexivity|].
    split; [intro; contradiction|]. intros; exact U.
Qed.

(** ** ParallacticRotationDetailer *)
Theorem parallactic_spec : forall pi t lo hi l, 0 < pi -> lo <= - pi -> pi <= hi ->
  Forall2 (fun a b => q_sky b = Some (q_pa a) /\ q_pa b = q_pa a /\
    relation pi t (q_pa a) (q_tel b) (q_pa a) /\ - pi < q_tel b /\ q_tel b <= pi /\
    match t with
    | Rubin => q_tel b == - (pi / 2)
    | ComCam => q_tel b == 0
    | Auxtel => same_dir pi (q_tel b) (2 * q_pa a)
    end) l (parallactic pi t lo hi l).
Proof.
  intros pi t lo hi l Hp Hlo Hhi. unfold parallactic. induction l as [|a l IH]; cbn [map]; [constructor|].
  constructor; [|exact IH]. destruct (rs2rt_range pi t (q_pa a) (q_pa a) Hp) as [A B].
  assert (X : Qltb hi (rs2rt pi t (q_pa a) (q_pa a)) = false).
  { unfold Qltb. apply negb_false_iff. apply Qle_bool_iff. lra. }
  assert (Y : Qltb (rs2rt pi t (q_pa a) (q_pa a)) lo = false).
  { unfold Qltb. apply negb_false_iff. apply Qle_bool_iff. lra. }
  cbn zeta. rewrite X, Y, X. cbn [q_sky q_tel q_pa].
  assert (R := rs2rt_rel pi t (q_pa a) (q_pa a) Hp).
  split; [reflexivity|]. split; [reflexivity|]. split; [exact R|]. split; [exact A|]. split; [exact B|].
  set (h := pi / 2) in *. assert (E : pi == 2 * h) by (unfold h; field).
  destruct t; cbn [relation] in R.
  - fold h in R. apply (same_unique pi); try lra.
    apply same_eq with ((q_pa a + rs2rt pi Rubin (q_pa a) (q_pa a)) + - q_pa a) ((q_pa a - h) + - q_pa a); [ring|ring|].
    apply same_add; [exact R|apply same_refl; reflexivity].
  - apply (same_unique pi); try lra.
    apply same_eq with ((q_pa a + rs2rt pi ComCam (q_pa a) (q_pa a)) + - q_pa a) (q_pa a + - q_pa a); [ring|ring|].
    apply same_add; [exact R|apply same_refl; reflexivity].
  - apply same_sym. apply same_eq with (q_pa a + q_pa a) (rs2rt pi Auxtel (q_pa a) (q_pa a)); [ring|reflexivity|exact R].
Qed.

(** ** Comcam90rotDetailer *)
Lemma argmin_in : forall l : list (Q * Q), l <> [] -> In (argmin_rot l) (map fst l).
Proof.
  intros [|d ds] N; [contradiction|]. unfold argmin_rot. clear N. revert d.
  induction ds as [|c ds IH]; intro d; cbn [fold_left]; [left; reflexivity|].
  specialize (IH (if Qltb (Qabs (snd c)) (Qabs (snd d)) then c else d)).
  destruct (Qltb (Qabs (snd c)) (Qabs (snd d))); cbn [map In] in *; tauto.
Qed.
Theorem comcam90_favored : forall pi t pas,
  List.length (comcam90 pi t pas) = List.length pas /\
  Forall (fun s => exists d, In d [0; 90; 180; 270; 360] /\ s == d * pi / 180) (comcam90 pi t pas).
Proof.
  intros pi t pas. unfold comcam90. split; [rewrite map_length, seq_length, map_length; reflexivity|].
  apply Forall_forall. intros s H. apply in_map_iff in H. destruct H as [i [<- _]].
  set (f := fun c => wrap_row pi (map (unwrapped pi t c) (map (fun x => radians pi (radians pi x)) pas))).
  assert (I := argmin_in (map (fun cr => (fst cr, nth i (snd cr) 0)) (map (fun c => (c, f c)) (favored pi)))).
  specialize (I ltac:(discriminate)). rewrite !map_map in I. rewrite map_map. cbn [fst snd] in I.
  rewrite map_id in I. cbn [fst snd].
  set (z := argmin_rot _) in *.
  unfold favored in I. apply in_map_iff in I. destruct I as [d [E I]]. exists d. split; [exact I|].
  rewrite <- E. reflexivity.
Qed.

(** ** CameraRotDetailer *)
(** One position a night: the answer depends on the night alone. *)
Definition night_ok (table : list Q) (night : Z) : Prop := (- Z.of_nat (List.length table) <= night < Z.of_nat (List.length table))%Z.
Definition night_pos (table : list Q) (night : Z) : Q :=
  nth (Z.to_nat (if (night <? 0)%Z then night + Z.of_nat (List.length table) else night)%Z) table 0.
Lemma py_get_ok : forall table night, night_ok table night -> py_get table night = Ok (night_pos table night).
Proof.
  intros table night [A B]. unfold py_get, night_pos.
  set (j := if (night <? 0)%Z then (night + Z.of_nat (List.length table))%Z else night).
  assert (J : (0 <= j < Z.of_nat (List.length table))%Z) by (unfold j; destruct (Z.ltb_spec night 0); lia).
  destruct (Z.ltb_spec j 0); [lia|].
  rewrite (nth_error_nth' table 0) by lia. reflexivity.
Qed.
Definition night_inv (table : list Q) (lo hi : Q) (s : crst) : Prop :=
  cr_offsets s = Some table /\ forall n, cr_night s = Some n -> night_ok table n /\ cr_offset s = Some (night_pos table n * (hi - lo) + lo).
Theorem per_night_spec : forall lo hi seeded table calls,
  Forall (fun c => night_ok table (snd c)) calls ->
  snd (cr_run PerNight lo hi seeded (cr_init PerNight table) calls) =
  map (fun c => Ok (repeat (night_pos table (snd c) * (hi - lo) + lo) (fst c))) calls.
Proof.
  intros lo hi seeded table calls.
  assert (G : forall calls s, night_inv table lo hi s -> Forall (fun c => night_ok table (snd c)) calls ->
    snd (cr_run PerNight lo hi seeded s calls) = map (fun c => Ok (repeat (night_pos table (snd c) * (hi - lo) + lo) (fst c))) calls).
  { clear calls. induction calls as [|[n night] calls IH]; intros s [I1 I2] F; [reflexivity|].
    inversion F as [|? ? F1 F2]; subst. cbn [snd] in F1.
    cbn [cr_run cr_generate map fst snd]. rewrite I1. unfold opt_get. rewrite (py_get_ok _ _ F1).
    destruct (same_night (cr_night s) night) eqn:E.
    - assert (N : cr_night s = Some night).
      { unfold same_night in E. destruct (cr_night s) as [k|]; [|discriminate]. apply Z.eqb_eq in E. subst. reflexivity. }
      destruct (I2 _ N) as [_ O]. cbn [bind]. rewrite O.
      specialize (IH s (conj I1 I2) F2).
      destruct (cr_run PerNight lo hi seeded s calls) as [s2 l]. cbn [snd] in *. rewrite IH. reflexivity.
    - cbn [bind cr_offset].
      specialize (IH (mkCr (Some night) (Some (night_pos table night * (hi - lo) + lo)) (Some table) (cr_call s))).
      destruct (cr_run PerNight lo hi seeded _ calls) as [s2 l]. cbn [snd] in *. rewrite IH; [reflexivity| |exact F2].
      split; [reflexivity|]. cbn. intros m Em. injection Em as <-. split; [exact F1|reflexivity]. }
  intro F. apply G; [|exact F]. split; [reflexivity|]. cbn. discriminate.
Qed.
(** One position a call: the k-th call of a night gets the k-th number of that night's seed. *)
Lemma cr_run_app : forall m lo hi seeded a b s,
  snd (cr_run m lo hi seeded s (a ++ b)) =
  snd (cr_run m lo hi seeded s a) ++ snd (cr_run m lo hi seeded (fst (cr_run m lo hi seeded s a)) b).
Proof.
  induction a as [|[n night] a IH]; intros b s; [reflexivity|]. cbn [app cr_run].
  destruct (cr_generate m lo hi seeded [] s n night) as [s1 r]. specialize (IH b s1).
  destruct (cr_run m lo hi seeded s1 (a ++ b)) as [s2 l]. destruct (cr_run m lo hi seeded s1 a) as [s3 l3].
  cbn [fst snd] in *. rewrite IH. reflexivity.
Qed.
Lemma cr_run_length : forall m lo hi seeded a s, List.length (snd (cr_run m lo hi seeded s a)) = List.length a.
Proof.
  induction a as [|[n night] a IH]; intro s; [reflexivity|]. cbn [cr_run].
  destruct (cr_generate m lo hi seeded [] s n night) as [s1 r]. specialize (IH s1).
  destruct (cr_run m lo hi seeded s1 a) as [s2 l]. cbn [snd List.length] in *. rewrite IH. reflexivity.
Qed.
Lemma cr_night_last : forall lo hi seeded calls s, calls <> [] ->
  cr_night (fst (cr_run PerCall lo hi seeded s calls)) = Some (snd (last calls (0%nat, 0%Z))).
Proof.
  induction calls as [|[n night] calls IH]; intros s N; [contradiction|]. cbn [cr_run].
  assert (X : cr_night (fst (cr_generate PerCall lo hi seeded [] s n night)) = Some night).
  { cbn [cr_generate]. destruct (same_night (cr_night s) night) eqn:E.
    - assert (N1 : cr_night s = Some night).
      { unfold same_night in E. destruct (cr_night s) as [k|]; [|discriminate]. apply Z.eqb_eq in E. subst. reflexivity. }
      cbn [bind]. destruct (opt_get (cr_offsets s) (Z.of_nat (cr_call s))); cbn; exact N1.
    - destruct (seeded night) as [t|]; cbn [bind]; [|reflexivity].
      destruct (opt_get _ _); reflexivity. }
  destruct (cr_generate PerCall lo hi seeded [] s n night) as [s1 r]. cbn [fst] in X.
  destruct calls as [|c calls].
  - cbn. exact X.
  - specialize (IH s1 ltac:(discriminate)). destruct (cr_run PerCall lo hi seeded s1 (c :: calls)) as [s2 l].
    cbn [fst] in *. rewrite IH. reflexivity.
Qed.
Lemma same_night_iter : forall lo hi seeded night t ns s k,
  cr_night s = Some night -> cr_offsets s = Some t -> cr_call s = k -> (k + List.length ns <= List.length t)%nat ->
  snd (cr_run PerCall lo hi seeded s (map (fun n => (n, night)) ns)) =
  map (fun p => Ok (repeat (nth (fst p) t 0 * (hi - lo) + lo) (snd p))) (combine (seq k (List.length ns)) ns).
Proof.
  intros lo hi seeded night t. induction ns as [|n ns IH]; intros s k A B C D; [reflexivity|].
  cbn [List.length] in D. cbn [map cr_run cr_generate seq List.length combine fst snd].
  rewrite A. cbn [same_night]. rewrite Z.eqb_refl. cbn [bind]. rewrite B. cbn [opt_get]. rewrite C.
  rewrite py_get_ok by (split; lia). unfold night_pos.
  destruct (Z.ltb_spec (Z.of_nat k) 0); [lia|]. rewrite Nat2Z.id, ?A.
  specialize (IH (mkCr (Some night) (cr_offset s) (Some t) (S k)) (S k) eq_refl eq_refl eq_refl ltac:(lia)).
  destruct (cr_run PerCall lo hi seeded _ _) as [s2 l]. cbn [snd] in *. rewrite IH. reflexivity.
Qed.
Theorem per_call_spec : forall lo hi seeded table night t pre ns,
  seeded night = Some t -> (List.length ns <= List.length t)%nat ->
  (pre = [] \/ snd (last pre (0%nat, 0%Z)) <> night) ->
  skipn (List.length pre) (snd (cr_run PerCall lo hi seeded (cr_init PerCall table) (pre ++ map (fun n => (n, night)) ns))) =
  map (fun p => Ok (repeat (nth (fst p) t 0 * (hi - lo) + lo) (snd p))) (combine (seq 0 (List.length ns)) ns).
Proof.
  intros lo hi seeded table night t pre ns Hs Hl Hp. rewrite cr_run_app, skipn_app, cr_run_length, Nat.sub_diag, skipn_O.
  rewrite skipn_all2 by (rewrite cr_run_length; lia). rewrite app_nil_l.
  set (s := fst (cr_run PerCall lo hi seeded (cr_init PerCall table) pre)).
  assert (N : same_night (cr_night s) night = false).
  { unfold s. destruct pre as [|c pre]; [reflexivity|].
    rewrite cr_night_last by discriminate. destruct Hp as [Hp|Hp]; [discriminate|]. unfold same_night. apply Z.eqb_neq. exact Hp. }
  destruct ns as [|n ns]; [reflexivity|]. cbn [List.length] in Hl.
  cbn [map cr_run cr_generate seq List.length combine fst snd]. rewrite N, Hs. cbn [bind cr_offset cr_offsets cr_call opt_get cr_night].
  rewrite py_get_ok by (split; lia). unfold night_pos.
  destruct (Z.ltb_spec (Z.of_nat 0) 0); [lia|]. rewrite Nat2Z.id.
  pose proof (same_night_iter lo hi seeded night t ns (mkCr (Some night) (cr_offset s) (Some t) 1) 1 eq_refl eq_refl eq_refl ltac:(lia)) as G.
  change (1%nat) with (S 0) in G.
  match goal with |- snd (let '(_, _) := ?X in _) = _ => destruct X as [s2 l] end.
  cbn [snd] in *. rewrite G. reflexivity.
Qed.
(** Every row gets one of the offsets as rotTelPos, with the rotSkyPos that goes with it. *)
Lemma scale_range : forall lo hi u, lo < hi -> 0 <= u -> u < 1 -> lo <= u * (hi - lo) + lo /\ u * (hi - lo) + lo < hi.
Proof.
  intros lo hi u H A B. assert (0 <= u * (hi - lo)) by (apply Qmult_le_0_compat; lra).
  assert (u * (hi - lo) < 1 * (hi - lo)) by (apply Qmult_lt_r; lra). split; lra.
Qed.
Lemma combine_rows : forall pi t (l : list rrow) os, 0 < pi -> List.length os = List.length l ->
  Forall2 (fun a b => q_pa b = q_pa a /\ exists s, q_sky b = Some s /\ relation pi t s (q_tel b) (q_pa a))
    l (map (fun p => mkRr (Some (rt2rs pi t (snd p) (q_pa (fst p)))) (snd p) (q_pa (fst p))) (combine l os)) /\
  map q_tel (map (fun p => mkRr (Some (rt2rs pi t (snd p) (q_pa (fst p)))) (snd p) (q_pa (fst p))) (combine l os)) = os.
Proof.
  intros pi t l. induction l as [|a l IH]; intros [|o os] Hp H; try discriminate; [split; [constructor|reflexivity]|].
  cbn [combine map]. injection H as H. destruct (IH os Hp H) as [A B]. split.
  - constructor; [|exact A]. cbn. split; [reflexivity|]. eexists. split; [reflexivity|]. apply rt2rs_rel.
  - cbn [q_tel snd]. rewrite B. reflexivity.
Qed.
Definition unit_iv (l : list Q) : Prop := Forall (fun u => 0 <= u /\ u < 1) l.
Definition cr_inv (s : crst) (lo hi : Q) : Prop :=
  (forall t, cr_offsets s = Some t -> unit_iv t) /\ (forall o, cr_offset s = Some o -> lo <= o /\ o < hi).
Lemma py_get_in : forall t i u, py_get t i = Ok u -> In u t.
Proof.
  intros t i u H. unfold py_get in H. cbv zeta in H.
  set (j := if (i <? 0)%Z then (i + Z.of_nat (List.length t))%Z else i) in H.
  destruct (j <? 0)%Z; [discriminate|]. destruct (nth_error t (Z.to_nat j)) eqn:E; [|discriminate].
  injection H as <-. eapply nth_error_In. exact E.
Qed.
Lemma opt_get_unit : forall o i u, (forall t, o = Some t -> unit_iv t) -> opt_get o i = Ok u -> 0 <= u /\ u < 1.
Proof.
  intros [t|] i u H E; [|discriminate]. cbn in E. apply py_get_in in E.
  pose proof (H t eq_refl) as F. unfold unit_iv in F. rewrite Forall_forall in F. apply F. exact E.
Qed.
Theorem generate_range : forall m lo hi seeded fresh s n night,
  lo < hi -> (forall k t, seeded k = Some t -> unit_iv t) -> unit_iv fresh -> (n <= List.length fresh)%nat -> cr_inv s lo hi ->
  cr_inv (fst (cr_generate m lo hi seeded fresh s n night)) lo hi /\
  forall os, snd (cr_generate m lo hi seeded fresh s n night) = Ok os ->
    List.length os = n /\ Forall (fun o => lo <= o /\ o < hi) os.
Proof.
  intros m lo hi seeded fresh s n night L HS HF HN [I1 I2].
  assert (RR : forall o n, (lo <= o /\ o < hi) -> List.length (repeat o n) = n /\ Forall (fun o => lo <= o /\ o < hi) (repeat o n)).
  { intros o k H. split; [apply repeat_length|]. apply Forall_forall. intros x X. apply repeat_spec in X. subst. exact H. }
  destruct m; cbn [cr_generate].
  - destruct (same_night (cr_night s) night).
    + cbn [bind fst snd]. split; [split; assumption|]. intros os. destruct (cr_offset s) as [o|]; [|discriminate].
      intro E. injection E as <-. apply RR. apply I2. reflexivity.
    + destruct (opt_get (cr_offsets s) night) as [u|e] eqn:E; cbn [bind fst snd cr_offset].
      * pose proof (opt_get_unit _ _ _ I1 E) as [U1 U2]. pose proof (scale_range lo hi u L U1 U2) as SC.
        split; [split; [exact I1|cbn; intros o X; injection X as <-; exact SC]|].
        intros os X. injection X as <-. apply RR. exact SC.
      * split; [split; assumption|discriminate].
  - destruct (same_night (cr_night s) night); [|destruct (seeded night) as [t|] eqn:ES].
    + cbn [bind]. destruct (opt_get (cr_offsets s) (Z.of_nat (cr_call s))) as [u|e] eqn:E; cbn [fst snd].
      * pose proof (opt_get_unit _ _ _ I1 E) as [U1 U2]. split; [split; assumption|]. intros os X. injection X as <-. apply RR. apply scale_range; auto.
      * split; [split; assumption|discriminate].
    + cbn [bind cr_offsets cr_call]. assert (I1' : forall t', Some t = Some t' -> unit_iv t') by (intros t' X; injection X as <-; eapply HS; exact ES).
      destruct (opt_get (Some t) (Z.of_nat 0)) as [u|e] eqn:E; cbn [fst snd].
      * pose proof (opt_get_unit _ _ _ I1' E) as [U1 U2]. split; [split; assumption|]. intros os X. injection X as <-. apply RR. apply scale_range; auto.
      * split; [split; assumption|discriminate].
    + cbn. split; [split; assumption|discriminate].
  - cbn [fst snd]. split; [split; assumption|]. intros os X. injection X as <-. split.
    + rewrite map_length, firstn_length. lia.
    + apply Forall_forall. intros o X. apply in_map_iff in X. destruct X as [u [<- X]].
      unfold unit_iv in HF. rewrite Forall_forall in HF. destruct (HF u) as [U1 U2].
      { rewrite <- (firstn_skipn n fresh). apply in_or_app. left. exact X. }
      apply scale_range; auto.
  - cbn. split; [split; assumption|discriminate].
Qed.

(** ** CameraSmallRotPerObservationListDetailer *)
Lemma runs_nil : forall b l, runs (b :: l) <> [].
Proof. intros b l. cbn. destruct l; [discriminate|]. destruct (String.eqb b s); [|discriminate]. destruct (runs (s :: l)); discriminate. Qed.
Definition total (ks : list nat) : nat := fold_right Nat.add 0%nat ks.
Lemma runs_total : forall l, total (runs l) = List.length l /\ Forall (fun k => (1 <= k)%nat) (runs l).
Proof.
  induction l as [|b l [IH1 IH2]]; [split; [reflexivity|constructor]|].
  destruct l as [|b' l]; [split; [reflexivity|repeat constructor]|].
  change (runs (b :: b' :: l)) with (if String.eqb b b' then match runs (b' :: l) with k :: ks' => S k :: ks' | [] => [1%nat] end else 1%nat :: runs (b' :: l)).
  destruct (String.eqb b b').
  - destruct (runs (b' :: l)) as [|k ks] eqn:E; [exfalso; eapply runs_nil; exact E|].
    inversion IH2 as [|? ? F1 F2]; subst. split; [cbn [total fold_right] in *; cbn [List.length] in *; unfold total in *; lia|constructor; [lia|exact F2]].
  - split; [cbn [total fold_right] in *; cbn [List.length] in *; unfold total in *; lia|constructor; [lia|exact IH2]].
Qed.
Lemma blocks_length : forall lo hi per rnd ks i, List.length (small_blocks lo hi per rnd i ks) = total ks.
Proof.
  intros lo hi per rnd. induction ks as [|k ks IH]; intro i; [reflexivity|]. cbn [small_blocks].
  rewrite app_length, map_length, seq_length, IH. reflexivity.
Qed.
Lemma qn_S : forall n, qn (S n) == qn n + 1.
Proof. intro n. unfold qn. rewrite Nat2Z.inj_succ, <- Z.add_1_r, inject_Z_plus. reflexivity. Qed.
Lemma qn_le : forall a b, (a <= b)%nat -> qn a <= qn b.
Proof. intros a b H. unfold qn. rewrite <- Zle_Qle. lia. Qed.
Lemma qn_pos : forall a, 0 <= qn a.
Proof. intro a. change 0 with (inject_Z 0). unfold qn. rewrite <- Zle_Qle. lia. Qed.
(** No offset needs clipping and none is too low, when the rotations of a block fit the range. *)
Lemma blocks_range : forall lo hi per rnd ks i,
  0 <= per -> (forall j, 0 <= rnd j /\ rnd j < 1) -> Forall (fun k => (1 <= k)%nat /\ per * qn k <= hi - lo) ks ->
  Forall (fun o => lo <= o /\ o <= hi) (small_blocks lo hi per rnd i ks).
Proof.
  intros lo hi per rnd ks. induction ks as [|k ks IH]; intros i Hper Hr F; cbn [small_blocks]; [constructor|].
  inversion F as [|? ? [F0 F1] F2]; subst. apply Forall_app. split; [|apply IH; assumption].
  apply Forall_forall. intros o H. apply in_map_iff in H. destruct H as [j [<- J]]. apply in_seq in J.
  destruct (Hr i) as [R1 R2].
  set (nvis := match ks with [] => (k - 1)%nat | _ => k end).
  assert (N : (j <= nvis)%nat /\ (nvis <= k)%nat) by (unfold nvis; destruct ks; lia).
  destruct N as [N1 N2]. apply qn_le in N1. apply qn_le in N2.
  pose proof (qn_pos j) as J0.
  assert (P1 : per * qn j <= per * qn nvis) by (rewrite !(Qmult_comm per); apply Qmult_le_compat_r; assumption).
  assert (P2 : per * qn nvis <= per * qn k) by (rewrite !(Qmult_comm per); apply Qmult_le_compat_r; assumption).
  assert (P3 : 0 <= per * qn j) by (apply Qmult_le_0_compat; assumption).
  set (w := (hi - lo) - per * qn nvis) in *. assert (W : 0 <= w) by (unfold w; lra).
  assert (Q1 : 0 <= rnd i * w) by (apply Qmult_le_0_compat; assumption).
  assert (Q2 : rnd i * w <= 1 * w) by (apply Qmult_le_compat_r; lra).
  unfold w in *. split; lra.
Qed.
Lemma runs_bound : forall l k, In k (runs l) -> (k <= List.length l)%nat.
Proof.
  intros l k H. destruct (runs_total l) as [T _]. rewrite <- T. clear T. induction (runs l) as [|x r IH]; [contradiction|].
  cbn [total fold_right]. destruct H as [->|H]; [lia|]. specialize (IH H). unfold total in IH. lia.
Qed.
Lemma blocks_step : forall lo hi per rnd l i j b,
  nth_error l j = Some b -> nth_error l (S j) = Some b ->
  nth (S j) (small_blocks lo hi per rnd i (runs l)) 0 == nth j (small_blocks lo hi per rnd i (runs l)) 0 + per.
Proof.
  intros lo hi per rnd.
  assert (G : forall l j b, nth_error l j = Some b -> nth_error l (S j) = Some b ->
     match runs l with
     | [] => True
     | k :: ks => (S j < k)%nat \/ ((k <= j)%nat /\ exists l', runs l' = ks /\ (List.length l' < List.length l)%nat /\
                    nth_error l' (j - k) = Some b /\ nth_error l' (S (j - k)) = Some b)
     end).
  { intros l j b. revert j. induction l as [|a l IH]; intros j A B; [destruct j; discriminate|].
    destruct l as [|a' l]; [destruct j; discriminate|].
    change (runs (a :: a' :: l)) with (if String.eqb a a' then match runs (a' :: l) with k :: ks' => S k :: ks' | [] => [1%nat] end else 1%nat :: runs (a' :: l)).
    destruct (String.eqb a a') eqn:E.
    - destruct (runs (a' :: l)) as [|k ks] eqn:R; [exfalso; eapply runs_nil; exact R|].
      destruct j as [|j].
      + left. destruct (runs_total (a' :: l)) as [_ P]. rewrite R in P. inversion P; subst. lia.
      + destruct (IH j A B) as [L|[L [l' [X1 [X2 [X3 X4]]]]]]; [left; lia|].
        right. split; [lia|]. exists l'. split; [exact X1|]. split; [cbn [List.length] in *; lia|]. split; assumption.
    - destruct j as [|j].
      + cbn in A, B. injection A as <-. injection B as <-. rewrite String.eqb_refl in E. discriminate.
      + right. split; [lia|]. exists (a' :: l). split; [reflexivity|]. split; [cbn; lia|].
        replace (S j - 1)%nat with j by lia. split; assumption. }
  intro l. remember (List.length l) as n eqn:En. revert l En.
  induction n as [n IH] using lt_wf_ind. intros l -> i j b A B.
  specialize (G l j b A B).
  destruct (runs l) as [|k ks] eqn:R.
  { destruct l; [destruct j; discriminate|]. exfalso. eapply runs_nil. exact R. }
  cbn [small_blocks].
  set (base := rnd i * ((hi - lo) - per * qn match ks with [] => (k - 1)%nat | _ => k end) + lo).
  destruct G as [L|[L [l' [X1 [X2 [X3 X4]]]]]].
  - rewrite !app_nth1 by (rewrite map_length, seq_length; lia).
    assert (F : forall m, (m < k)%nat -> nth m (map (fun q => base + per * qn q) (seq 0 k)) 0 = base + per * qn m).
    { intros m Hm. set (f := fun q => base + per * qn q). rewrite (nth_indep _ 0 (f 0%nat)) by (rewrite map_length, seq_length; exact Hm).
      rewrite map_nth, seq_nth by exact Hm. reflexivity. }
    rewrite !F by lia. rewrite qn_S. ring.
  - rewrite !app_nth2 by (rewrite map_length, seq_length; lia). rewrite map_length, seq_length.
    replace (S j - k)%nat with (S (j - k)) by lia. rewrite <- X1. eapply IH; eauto.
Qed.
Lemma clip_id : forall hi l, Forall (fun o => o <= hi) l -> map (fun o => if Qltb hi o then hi else o) l = l.
Proof.
  intros hi l F. induction F as [|o l H F IH]; [reflexivity|]. cbn [map]. rewrite IH.
  assert (E : Qltb hi o = false) by (unfold Qltb; apply negb_false_iff; apply Qle_bool_iff; exact H). rewrite E. reflexivity.
Qed.
Theorem small_spec : forall lo hi per rnd bands,
  List.length (small_offsets lo hi per rnd bands) = List.length bands /\
  Forall (fun o => o <= hi) (small_offsets lo hi per rnd bands) /\
  (0 <= per -> (forall j, 0 <= rnd j /\ rnd j < 1) -> per * qn (List.length bands) <= hi - lo ->
   Forall (fun o => lo <= o /\ o <= hi) (small_offsets lo hi per rnd bands) /\
   forall j b, nth_error bands j = Some b -> nth_error bands (S j) = Some b ->
     nth (S j) (small_offsets lo hi per rnd bands) 0 == nth j (small_offsets lo hi per rnd bands) 0 + per).
Proof.
  intros lo hi per rnd bands. unfold small_offsets. split; [|split].
  - rewrite map_length, blocks_length. apply runs_total.
  - apply Forall_forall. intros o H. apply in_map_iff in H. destruct H as [x [<- _]].
    destruct (Qltb hi x) eqn:E; [lra|]. apply Qltb_false in E. exact E.
  - intros Hper Hr Hw.
    assert (R : Forall (fun o => lo <= o /\ o <= hi) (small_blocks lo hi per rnd 0 (runs bands))).
    { apply blocks_range; auto. apply Forall_forall. intros k K. split.
      - destruct (runs_total bands) as [_ P]. rewrite Forall_forall in P. apply P. exact K.
      - apply runs_bound in K. apply qn_le in K.
        assert (per * qn k <= per * qn (List.length bands)) by (rewrite !(Qmult_comm per); apply Qmult_le_compat_r; assumption). lra. }
    rewrite clip_id by (eapply Forall_impl; [|exact R]; cbn; intros o [_ X]; exact X).
    split; [exact R|]. intros j b A B. eapply blocks_step; eassumption.
Qed.
