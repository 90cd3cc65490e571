(** Proofs about half spaces and single trixels. *)
From Coq Require Import List Bool ZArith Reals Lra Psatz.
From Verif Require Import Base Sphere Sphere_proofs Htm Htm_proofs Props_Sphere Props_Htm HtmHalf.
Import ListNotations.
Open Scope R_scope.

Definition norm (p : vec) : R := sqrt (dot p p).
Definition within (h : half) (p : vec) : Prop := hd h * norm p < dot p (hv h).
Definition okh (h : half) : Prop := exists vector length, 0 < dot vector vector /\ h = half_space vector length.
Lemma okh_unit : forall h, okh h -> unit (hv h).
Proof. intros h (v & l & P & ->). cbn. now apply vnorm_unit. Qed.
Lemma norm_nonneg : forall p, 0 <= norm p.
Proof. intros. apply sqrt_pos. Qed.
Lemma norm_sq : forall p, norm p * norm p = dot p p.
Proof. intros. apply sqrt_sqrt, dot_self. Qed.
Lemma unit_norm : forall p, unit p -> norm p = 1.
Proof. intros p U. unfold norm. rewrite U. apply sqrt_1. Qed.

(** ** Shape of trixels *)
Definition acuteR (S T U : R) : Prop := 0 <= S <= 1 /\ 0 <= T <= 1 /\ 0 <= U <= 1 /\ S * T <= U /\ S * U <= T /\ T * U <= S.
Definition acute (t : trixel) : Prop := acuteR (dot (tc0 t) (tc1 t)) (dot (tc0 t) (tc2 t)) (dot (tc1 t) (tc2 t)).
Definition close (t : trixel) : Prop := 1 / 2 <= dot (tc0 t) (tc1 t) /\ 1 / 2 <= dot (tc0 t) (tc2 t) /\ 1 / 2 <= dot (tc1 t) (tc2 t).

Lemma acuteR_perm : forall S T U, acuteR S T U -> acuteR T S U /\ acuteR S U T /\ acuteR U T S.
Proof. unfold acuteR. intros. repeat split; try lra; try (rewrite Rmult_comm; lra). Qed.
Lemma acuteR_sum : forall S T U, acuteR S T U -> S + T <= 1 + U /\ S + U <= 1 + T /\ T + U <= 1 + S.
Proof. unfold acuteR. intros S T U (A & B & C & D & E & F). repeat split; nra. Qed.
Definition half_cos (x : R) : R := sqrt ((1 + x) / 2).
Lemma half_cos_sq : forall x, 0 <= x <= 1 -> half_cos x * half_cos x = (1 + x) / 2 /\ 0 < half_cos x <= 1.
Proof.
  intros x H. assert (E : half_cos x * half_cos x = (1 + x) / 2) by (apply sqrt_sqrt; lra). split; [exact E|].
  assert (0 < half_cos x) by (apply sqrt_lt_R0; lra). split; [assumption|nra].
Qed.
Definition mid_cos (S T U : R) : R := (1 + S + T + U) / (4 * half_cos S * half_cos T).
Lemma mid_cos_range : forall S T U, acuteR S T U -> 1 / 2 <= mid_cos S T U.
Proof.
  intros S T U A. assert (B := A). destruct B as (B & C & D & _).
  destruct (half_cos_sq S B) as (E & F), (half_cos_sq T C) as (G & H). unfold mid_cos. set (s := half_cos S) in *. set (t := half_cos T) in *.
  apply (Rmult_le_reg_r (4 * s * t)); [nra|]. replace ((1 + S + T + U) / (4 * s * t) * (4 * s * t)) with (1 + S + T + U) by (field; lra). nra.
Qed.
Lemma mid_cos_eq : forall S T U, acuteR S T U -> mid_cos S T U * (half_cos S * half_cos T) = (1 + S + T + U) / 4.
Proof.
  intros S T U A. assert (B := A). destruct B as (B & C & D & _).
  destruct (half_cos_sq S B) as (_ & F), (half_cos_sq T C) as (_ & H). unfold mid_cos. field. lra.
Qed.
Lemma corner_acute : forall S T U, acuteR S T U -> mid_cos S T U <= 1 -> acuteR (half_cos S) (half_cos T) (mid_cos S T U).
Proof.
  intros S T U A L. assert (M := mid_cos_range _ _ _ A). assert (Q := mid_cos_eq _ _ _ A). assert (Z := acuteR_sum _ _ _ A).
  destruct A as (B & C & D & I & J & K). destruct (half_cos_sq S B) as (E & F), (half_cos_sq T C) as (G & H).
  set (s := half_cos S) in *. set (t := half_cos T) in *. set (m := mid_cos S T U) in *. clearbody s t m.
  assert (P : 0 < s * t) by nra. assert (W : (s * t) * (s * t) = (1 + S) / 2 * ((1 + T) / 2)) by (rewrite <- E, <- G; ring).
  repeat split; try lra.
  - apply (Rmult_le_reg_r (s * t)); [exact P|]. rewrite Q, W. lra.
  - apply (Rmult_le_reg_r t); [lra|]. replace (s * m * t) with (m * (s * t)) by ring. rewrite Q, G. lra.
  - apply (Rmult_le_reg_r s); [lra|]. replace (t * m * s) with (m * (s * t)) by ring. rewrite Q, E. lra.
Qed.
Lemma middle_acute : forall S T U, acuteR S T U -> mid_cos T U S <= 1 -> mid_cos S U T <= 1 -> mid_cos S T U <= 1 ->
  acuteR (mid_cos T U S) (mid_cos S U T) (mid_cos S T U).
Proof.
  intros S T U A L1 L2 L3. destruct (acuteR_perm _ _ _ A) as (A1 & A2 & A3). destruct (acuteR_perm _ _ _ A2) as (A4 & _). destruct (acuteR_perm _ _ _ A4) as (_ & _ & A5). destruct (acuteR_perm _ _ _ A3) as (A6 & _).
  assert (M1 := mid_cos_range _ _ _ A6). assert (M2 := mid_cos_range _ _ _ A2). assert (M3 := mid_cos_range _ _ _ A).
  assert (Q1 := mid_cos_eq _ _ _ A6). assert (Q2 := mid_cos_eq _ _ _ A2). assert (Q3 := mid_cos_eq _ _ _ A).
  assert (Z := acuteR_sum _ _ _ A). clear A1 A2 A3 A4 A5 A6.
  destruct A as (B & C & D & I & J & K). destruct (half_cos_sq S B) as (E & F), (half_cos_sq T C) as (G & H), (half_cos_sq U D) as (N & O).
  set (s := half_cos S) in *. set (t := half_cos T) in *. set (u := half_cos U) in *.
  set (m1 := mid_cos T U S) in *. set (m2 := mid_cos S U T) in *. set (m3 := mid_cos S T U) in *. clearbody s t u m1 m2 m3.
  set (k := (1 + S + T + U) / 4) in *. replace ((1 + T + U + S) / 4) with k in Q1 by (unfold k; lra). replace ((1 + S + U + T) / 4) with k in Q2 by (unfold k; lra).
  assert (KP : 0 < k) by (unfold k; lra).
  assert (PP : 0 < s * t * u) by (repeat apply Rmult_lt_0_compat; lra).
  repeat split; try lra.
  - (* m1 m2 <= m3 : k^2 / (t u s u) <= k/(s t) *)
    apply (Rmult_le_reg_r (s * t * u * u)); [apply Rmult_lt_0_compat; lra|].
    replace (m1 * m2 * (s * t * u * u)) with ((m1 * (t * u)) * (m2 * (s * u))) by ring. replace (m3 * (s * t * u * u)) with ((m3 * (s * t)) * (u * u)) by ring.
    rewrite Q1, Q2, Q3, N. apply Rmult_le_compat_l; [lra|unfold k; lra].
  - apply (Rmult_le_reg_r (s * t * t * u)); [replace (s * t * t * u) with (s * t * u * t) by ring; apply Rmult_lt_0_compat; lra|].
    replace (m1 * m3 * (s * t * t * u)) with ((m1 * (t * u)) * (m3 * (s * t))) by ring. replace (m2 * (s * t * t * u)) with ((m2 * (s * u)) * (t * t)) by ring.
    rewrite Q1, Q2, Q3, G. apply Rmult_le_compat_l; [lra|unfold k; lra].
  - apply (Rmult_le_reg_r (s * s * t * u)); [replace (s * s * t * u) with (s * t * u * s) by ring; apply Rmult_lt_0_compat; lra|].
    replace (m2 * m3 * (s * s * t * u)) with ((m2 * (s * u)) * (m3 * (s * t))) by ring. replace (m1 * (s * s * t * u)) with ((m1 * (t * u)) * (s * s)) by ring.
    rewrite Q1, Q2, Q3, E. apply Rmult_le_compat_l; [lra|unfold k; lra].
Qed.

Lemma norm_sum : forall a b, unit a -> unit b -> 0 <= dot a b <= 1 -> sqrt (dot (vplus a b) (vplus a b)) = 2 * half_cos (dot a b).
Proof.
  intros a b A B H. destruct (half_cos_sq _ H) as (E & F). rewrite <- (sqrt_Rsqr (2 * half_cos (dot a b))) by lra. f_equal.
  unfold Rsqr. replace (2 * half_cos (dot a b) * (2 * half_cos (dot a b))) with (4 * (half_cos (dot a b) * half_cos (dot a b))) by ring. rewrite E.
  unfold unit in A, B. replace (dot (vplus a b) (vplus a b)) with (dot a a + dot b b + 2 * dot a b) by (dd; ring). rewrite A, B. field.
Qed.
Lemma dot_mid : forall a b, unit a -> unit b -> 0 <= dot a b <= 1 -> dot a (vnorm (vplus a b)) = half_cos (dot a b) /\ dot b (vnorm (vplus a b)) = half_cos (dot a b).
Proof.
  intros a b A B H. unfold vnorm. rewrite norm_sum by assumption. destruct (half_cos_sq _ H) as (E & F). set (k := half_cos (dot a b)) in *.
  assert (X : forall c, dot c (vtimes (/ (2 * k)) (vplus a b)) = (dot c a + dot c b) / (2 * k)) by (intros c; dd; field; lra).
  unfold unit in A, B. rewrite !X, A, B, (dot_comm b a). split; apply (Rmult_eq_reg_r (2 * k)); try lra; match goal with |- ?x / _ * _ = _ => replace (x / (2 * k) * (2 * k)) with x by (field; lra) end; lra.
Qed.
Lemma dot_mids : forall a b c, unit a -> unit b -> unit c -> 0 <= dot a b <= 1 -> 0 <= dot a c <= 1 ->
  dot (vnorm (vplus a b)) (vnorm (vplus a c)) = mid_cos (dot a b) (dot a c) (dot b c).
Proof.
  intros a b c A B C H K. unfold vnorm, mid_cos. rewrite !norm_sum by assumption. destruct (half_cos_sq _ H) as (_ & F), (half_cos_sq _ K) as (_ & G).
  set (k := half_cos (dot a b)) in *. set (j := half_cos (dot a c)) in *. unfold unit in A.
  replace (dot (vtimes (/ (2 * k)) (vplus a b)) (vtimes (/ (2 * j)) (vplus a c))) with (/ (2 * k) * / (2 * j) * (dot a a + dot a c + dot a b + dot b c)) by (dd; ring).
  rewrite A. field. lra.
Qed.
Lemma vplus_comm : forall a b, vplus a b = vplus b a.
Proof. intros. apply vec_eq; dd; ring. Qed.
Lemma child_shape : forall t u, good t -> acute t -> In u (get_children t) -> acute u /\ close u.
Proof.
  intros t u G A I. assert (GU := good_children t G u I). assert (W := w_unit t G). destruct G as (UA & UB & UC & _). unfold acute in A. unfold w0, w1, w2 in W.
  unfold acute, close. unfold get_children in I. revert I UA UB UC A W GU.
  unfold t0, t1, t2, t3, w0, w1, w2. generalize (tc0 t) (tc1 t) (tc2 t) (tid t). intros a b c i I UA UB UC A (W0 & W1 & W2) GU.
  set (S := dot a b) in *. set (T := dot a c) in *. set (U := dot b c) in *.
  assert (RS : 0 <= S <= 1) by apply A. assert (RT : 0 <= T <= 1) by apply A. assert (RU : 0 <= U <= 1) by apply A.
  destruct (dot_mid a b UA UB RS) as (SA & SB), (dot_mid a c UA UC RT) as (TA & TC), (dot_mid b c UB UC RU) as (UB' & UC'). fold S in SA, SB. fold T in TA, TC. fold U in UB', UC'.
  assert (M0 : dot (vnorm (vplus a b)) (vnorm (vplus a c)) = mid_cos S T U) by (apply dot_mids; assumption).
  assert (M1 : dot (vnorm (vplus b c)) (vnorm (vplus a b)) = mid_cos S U T).
  { rewrite dot_comm, (vplus_comm a b). unfold S, T. rewrite (dot_comm a b). rewrite (dot_mids b a c); [reflexivity|assumption..| |assumption]. now rewrite dot_comm. }
  assert (M2 : dot (vnorm (vplus b c)) (vnorm (vplus a c)) = mid_cos T U S).
  { rewrite dot_comm, (vplus_comm a c), (vplus_comm b c). unfold S, T, U. rewrite (dot_comm a c), (dot_comm b c). rewrite (dot_mids c a b); [reflexivity|assumption..| |]; now rewrite dot_comm. }
  destruct (acuteR_perm _ _ _ A) as (A1 & A2 & A3). destruct (acuteR_perm _ _ _ A3) as (A6 & _). destruct (acuteR_perm _ _ _ A2) as (A5 & _).
  assert (B0 := unit_dot_bound _ _ W2 W1). rewrite M0 in B0. assert (B1 := unit_dot_bound _ _ W0 W2). rewrite M1 in B1. assert (B2 := unit_dot_bound _ _ W0 W1). rewrite M2 in B2.
  assert (Hh : forall x, 0 <= x <= 1 -> 1 / 2 <= half_cos x) by (intros x X; destruct (half_cos_sq x X); nra).
  assert (R0 := mid_cos_range _ _ _ A). assert (R1 := mid_cos_range _ _ _ A2). assert (R2 := mid_cos_range _ _ _ A6).
  assert (MC : forall x y z, mid_cos x y z = mid_cos y x z) by (intros; unfold mid_cos; f_equal; ring).
  assert (HS := Hh S RS). assert (HT := Hh T RT). assert (HU := Hh U RU).
  cbn [In] in I. destruct I as [<-|[<-|[<-|[<-|[]]]]]; cbn [tc0 tc1 tc2].
  - rewrite SA, TA, M0. split; [apply corner_acute; [exact A|lra]|lra].
  - rewrite UB', SB, M1. split; [|lra]. rewrite MC. apply corner_acute; [exact A5|rewrite MC; lra].
  - rewrite TC, UC', (dot_comm _ (vnorm (vplus b c))), M2. split; [|lra]. apply corner_acute; [exact A6|lra].
  - rewrite M2, M1, (dot_comm _ (vnorm (vplus a b))), M0. split; [|lra]. apply middle_acute; [exact A|lra..].
Qed.
Lemma node_shape : forall l h t, node l h t -> acute t /\ ((2 <= l)%Z -> close t).
Proof.
  intros l h t N. induction N as [t I|l h t u N IH I].
  - split; [|lia]. cbn in I. unfold acute, acuteR. destruct I as [<-|[<-|[<-|[<-|[<-|[<-|[<-|[<-|[]]]]]]]]];
      cbn [tc0 tc1 tc2 s0_trixel s1_trixel s2_trixel s3_trixel n0_trixel n1_trixel n2_trixel n3_trixel]; unfold dot; cbn [vx vy vz]; lra.
  - destruct (child_shape t u) as (A & B); [now apply (node_good l h)|apply IH|exact I|]. split; [exact A|intros _; exact B].
Qed.

(** ** Edges *)
Section Edge.
Variables (h : half) (a b : vec).
Hypotheses (UA : unit a) (UB : unit b) (CB : -1 < dot a b <= 1).
Let usq := (1 - dot a b) / (1 + dot a b).
Let al := - usq * (dot (hv h) a + hd h).
Let be := dot (hv h) a * (usq - 1) + dot (hv h) b * (usq + 1).
Let ga := dot (hv h) a - hd h.
Definition edge_pt (s : R) : vec := vplus (vtimes ((1 - s) * (1 + (1 - dot a b) / (1 + dot a b) * s)) a) (vtimes ((1 + (1 - dot a b) / (1 + dot a b)) * s) b).
Let F (s : R) := al * s * s + be * s + ga.
Lemma usq_nonneg : 0 <= usq.
Proof. unfold usq. apply Rmult_le_pos; [lra|]. left. apply Rinv_0_lt_compat. lra. Qed.
Lemma edge_norm : forall s, norm (edge_pt s) = 1 + usq * s * s.
Proof.
  intros s. unfold norm. pose proof usq_nonneg as Q. assert (0 <= 1 + usq * s * s) by nra. rewrite <- (sqrt_Rsqr (1 + usq * s * s)) by lra. f_equal. unfold Rsqr, edge_pt. fold usq.
  set (x := (1 - s) * (1 + usq * s)). set (y := (1 + usq) * s). unfold unit in UA, UB.
  replace (dot (vplus (vtimes x a) (vtimes y b)) (vplus (vtimes x a) (vtimes y b))) with (x * x * dot a a + y * y * dot b b + 2 * (x * y) * dot a b) by (dd; ring).
  rewrite UA, UB. unfold x, y, usq. field. lra.
Qed.
Lemma edge_F : forall s, dot (edge_pt s) (hv h) = hd h * norm (edge_pt s) + F s.
Proof. intros s. rewrite edge_norm. unfold F, al, be, ga, edge_pt. fold usq. generalize usq. intros u. dd. ring. Qed.
Lemma edge_reached : forall x y, 0 <= x -> 0 <= y -> 0 < x + y -> exists s k, 0 <= s <= 1 /\ 0 < k /\
  vplus (vtimes x a) (vtimes y b) = vtimes k (edge_pt s).
Proof.
  intros x y X Y P. pose proof usq_nonneg as Q.
  assert (exists s, 0 <= s <= 1 /\ y * ((1 - s) * (1 + usq * s)) - x * ((1 + usq) * s) = 0) as (s & S & E).
  { destruct (IVT_cor (fun s => y * ((1 - s) * (1 + usq * s)) - x * ((1 + usq) * s)) 0 1) as (s & S & E).
    - clearbody usq. reg.
    - lra.
    - assert (0 <= x * (1 + usq)) by (apply Rmult_le_pos; lra). nra.
    - now exists s. }
  set (A := (1 - s) * (1 + usq * s)) in *. set (B := (1 + usq) * s) in *.
  assert (HA : 0 <= A) by (apply Rmult_le_pos; nra). assert (HB : 0 <= B) by (apply Rmult_le_pos; lra).
  assert (HAB : 0 < A + B).
  { destruct (Rle_lt_dec 1 s); [|assert (0 < A) by (apply Rmult_lt_0_compat; nra); lra].
    assert (s = 1) as -> by lra. assert (B = 1 + usq) by (unfold B; ring). lra. }
  exists s, ((x + y) / (A + B)). split; [exact S|]. split; [apply Rdiv_lt_0_compat; lra|].
  assert (EX : x = (x + y) / (A + B) * A) by (apply (Rmult_eq_reg_r (A + B)); [field_simplify; lra|lra]).
  assert (EY : y = (x + y) / (A + B) * B) by (apply (Rmult_eq_reg_r (A + B)); [field_simplify; lra|lra]).
  unfold edge_pt. fold usq. fold A B. set (k := (x + y) / (A + B)) in *. clearbody k. rewrite EX, EY. apply vec_eq; dd; ring.
Qed.
Lemma edge_true : forall r, al <> 0 -> 0 <= r <= 1 -> F r = 0 -> intersects_edge h a b = true.
Proof.
  intros r N R E. unfold intersects_edge. fold usq. fold be. fold al. fold ga. cbv zeta.
  assert (D : be * be - 4 * al * ga = (2 * al * r + be) * (2 * al * r + be)).
  { unfold F in E. replace ga with (- (al * r * r + be * r)) by lra. ring. }
  destruct (Rlt_dec (be * be - 4 * al * ga) 0) as [L|_]; [exfalso; rewrite D in L; pose proof (Rle_0_sqr (2 * al * r + be)) as SQ; unfold Rsqr in SQ; lra|].
  unfold np_div. destruct (Req_EM_T (2 * al) 0) as [Z|_]; [lra|].
  apply orb_true_iff. destruct (Rle_lt_dec 0 (2 * al * r + be)) as [P|P]; [left|right].
  - rewrite D, sqrt_square by exact P. replace ((- be + (2 * al * r + be)) / (2 * al)) with r by (field; exact N).
    unfold unit_range. destruct (Rle_dec 0 r); [|lra]. destruct (Rle_dec r 1); [reflexivity|lra].
  - rewrite D. replace ((2 * al * r + be) * (2 * al * r + be)) with (- (2 * al * r + be) * - (2 * al * r + be)) by ring. rewrite sqrt_square by lra.
    replace ((- be - - (2 * al * r + be)) / (2 * al)) with r by (field; exact N).
    unfold unit_range. destruct (Rle_dec 0 r); [|lra]. destruct (Rle_dec r 1); [reflexivity|lra].
Qed.
Lemma edge_inv : intersects_edge h a b = true -> exists r, 0 <= r <= 1 /\ dot (edge_pt r) (hv h) = hd h * norm (edge_pt r).
Proof.
  unfold intersects_edge. fold usq. fold be. fold al. fold ga. cbv zeta. destruct (Rlt_dec (be * be - 4 * al * ga) 0) as [|D]; [discriminate|].
  unfold np_div. destruct (Req_EM_T (2 * al) 0) as [|N]; [discriminate|]. assert (NA : al <> 0) by lra.
  assert (Q := sqrt_sqrt (be * be - 4 * al * ga) ltac:(lra)). set (q := sqrt (be * be - 4 * al * ga)) in *.
  assert (UR : forall x, unit_range (Some x) = true -> 0 <= x <= 1).
  { intros x. unfold unit_range. destruct (Rle_dec 0 x), (Rle_dec x 1); intros; try discriminate; lra. }
  assert (G : ga = (be * be - q * q) / (4 * al)) by (rewrite Q; field; exact NA).
  intros E. apply orb_true_iff in E as [E|E]; apply UR in E; eexists; (split; [exact E|]); rewrite edge_F; unfold F; rewrite G; field; exact NA.
Qed.
(** An edge point inside with both ends outside makes the edge cross the circle. *)
Lemma edge_cross : forall s, 0 <= s <= 1 -> within h (edge_pt s) -> dot (hv h) a <= hd h -> dot (hv h) b <= hd h -> intersects_edge h a b = true.
Proof.
  intros s S W A B. unfold within in W. rewrite edge_F in W. assert (P : 0 < F s) by lra.
  assert (F0 : F 0 <= 0) by (unfold F, ga; lra).
  destruct (Req_dec al 0) as [Z|N].
  { exfalso. pose proof usq_nonneg as Q. assert (F1 : F 1 <= 0).
    { replace (F 1) with ((dot (hv h) b - hd h) * (1 + usq)) by (unfold F, al, be, ga; ring). nra. }
    unfold F in *. rewrite Z in *. nra. }
  assert (IVT : exists r, 0 <= r <= s /\ F r = 0).
  { destruct (IVT_cor F 0 s) as (r & R & E); [unfold F; clearbody al be ga; reg|lra|nra|now exists r]. }
  destruct IVT as (r & R & E). apply (edge_true r N); [lra|exact E].
Qed.
End Edge.

(** ** Bounding circles *)
Lemma in_cone : forall t p, good t -> contains_pt t p = true -> exists x y z, 0 <= x /\ 0 <= y /\ 0 <= z /\
  p = vplus (vplus (vtimes x (tc0 t)) (vtimes y (tc1 t))) (vtimes z (tc2 t)).
Proof.
  intros t p G C. apply (good_spanned t G) in C as (x & y & z & (X & Y & Z) & P1 & P2 & P3). exists x, y, z. repeat (split; [assumption|]).
  apply vec_eq; dd; assumption.
Qed.
Lemma cone_in : forall t x y z, good t -> 0 <= x -> 0 <= y -> 0 <= z ->
  contains_pt t (vplus (vplus (vtimes x (tc0 t)) (vtimes y (tc1 t))) (vtimes z (tc2 t))) = true.
Proof. intros t x y z G X Y Z. apply (good_spanned t G). exists x, y, z. split; [tauto|]. dd. tauto. Qed.
Lemma norm_cone : forall a b c x y z, unit a -> unit b -> unit c -> 0 <= x -> 0 <= y -> 0 <= z ->
  norm (vplus (vplus (vtimes x a) (vtimes y b)) (vtimes z c)) <= x + y + z.
Proof.
  intros a b c x y z A B C X Y Z. unfold norm. rewrite <- (sqrt_Rsqr (x + y + z)) by lra. apply sqrt_le_1_alt. unfold Rsqr.
  assert (S := unit_dot_bound a b A B). assert (T := unit_dot_bound a c A C). assert (U := unit_dot_bound b c B C). unfold unit in A, B, C.
  replace (dot (vplus (vplus (vtimes x a) (vtimes y b)) (vtimes z c)) (vplus (vplus (vtimes x a) (vtimes y b)) (vtimes z c)))
    with (x * x * dot a a + y * y * dot b b + z * z * dot c c + 2 * (x * y) * dot a b + 2 * (x * z) * dot a c + 2 * (y * z) * dot b c) by (dd; ring).
  rewrite A, B, C. assert (0 <= x * y) by nra. assert (0 <= x * z) by nra. assert (0 <= y * z) by nra. nra.
Qed.
Lemma dot_cone : forall a b c x y z v, dot (vplus (vplus (vtimes x a) (vtimes y b)) (vtimes z c)) v = x * dot a v + y * dot b v + z * dot c v.
Proof. intros. dd. ring. Qed.
Lemma norm0 : forall p, p <> V 0 0 0 -> 0 < norm p.
Proof.
  intros p N. apply sqrt_lt_R0. destruct (dot_self p) as [L|E]; [exact L|]. exfalso. apply N. symmetry in E. unfold dot in E. apply sumsq0 in E as (X & Y & Z). apply vec_eq; assumption.
Qed.

Lemma circle_shape : forall t, good t -> acute t -> close t -> exists vb dd, bounding_circle t = Ok (vb, dd, acos dd) /\ unit vb /\
  dot (tc0 t) vb = dd /\ dot (tc1 t) vb = dd /\ dot (tc2 t) vb = dd /\ 0 < dd <= 1 /\ acos dd <= dd.
Proof.
  intros t (UA & UB & UC & D) A CL. unfold bounding_circle. unfold acute in A. unfold close in CL. revert UA UB UC D A CL. generalize (tc0 t) (tc1 t) (tc2 t). intros a b c UA UB UC D A CL.
  set (n := cross (vminus b a) (vminus c b)).
  assert (NA : dot n a = det a b c) by (unfold n, vminus; dd; ring).
  assert (NB : dot n b = det a b c) by (unfold n, vminus; dd; ring).
  assert (NC : dot n c = det a b c) by (unfold n, vminus; dd; ring).
  set (S := dot a b) in *. set (T := dot a c) in *. set (U := dot b c) in *. set (p := 1 - U). set (q := 1 - T). set (r := 1 - S).
  assert (NN : dot n n = 2 * (p * q + q * r + r * p) - (p * p + q * q + r * r)).
  { unfold n. rewrite <- lagrange. unfold p, q, r, S, T, U. unfold unit in UA, UB, UC.
    replace (dot (vminus b a) (vminus b a)) with (dot b b + dot a a - 2 * dot a b) by (unfold vminus; dd; ring).
    replace (dot (vminus c b) (vminus c b)) with (dot c c + dot b b - 2 * dot b c) by (unfold vminus; dd; ring).
    replace (dot (vminus b a) (vminus c b)) with (dot b c - dot b b - dot a c + dot a b) by (unfold vminus; dd; ring).
    rewrite UA, UB, UC. ring. }
  assert (DD : det a b c * det a b c = dot n n - 2 * p * q * r).
  { rewrite NN. unfold p, q, r. unfold unit in UA, UB, UC.
    transitivity (dot a a * dot b b * dot c c + 2 * S * T * U - dot a a * U * U - dot b b * T * T - dot c c * S * S).
    - unfold S, T, U. dd. ring.
    - rewrite UA, UB, UC. ring. }
  assert (Z := acuteR_sum _ _ _ A). destruct A as (RS & RT & RU & _).
  assert (NP : 0 < dot n n).
  { assert (0 < det a b c * det a b c) by (apply Rmult_lt_0_compat; exact D). assert (0 <= p * q * r) by (repeat apply Rmult_le_pos; unfold p, q, r; lra). lra. }
  assert (K : 2 * p * q * r <= 3 / 8 * dot n n).
  { rewrite NN. set (x := q + r - p). set (y := p + r - q). set (z := p + q - r).
    assert (HX : 0 <= x) by (unfold x, p, q, r; lra). assert (HY : 0 <= y) by (unfold y, p, q, r; lra). assert (HZ : 0 <= z) by (unfold z, p, q, r; lra).
    replace (2 * (p * q + q * r + r * p) - (p * p + q * q + r * r)) with (x * y + y * z + z * x) by (unfold x, y, z; ring).
    replace (2 * p * q * r) with (((x + y + z) * (x * y + y * z + z * x) - x * y * z) / 4) by (unfold x, y, z; field).
    assert (HS : x + y + z <= 3 / 2) by (unfold x, y, z, p, q, r; lra).
    assert (0 <= x * y) by nra. assert (0 <= y * z) by nra. assert (0 <= z * x) by nra. assert (0 <= x * y * z) by nra. nra. }
  assert (VU : unit (vnorm n)) by (apply vnorm_unit; exact NP).
  assert (IP := inv_norm n NP). assert (SQ : / sqrt (dot n n) * / sqrt (dot n n) * dot n n = 1).
  { rewrite <- (sqrt_sqrt (dot n n)) at 3 by lra. field. apply Rgt_not_eq, sqrt_lt_R0. exact NP. }
  set (k := / sqrt (dot n n)) in *.
  assert (E : forall w, dot w (vnorm n) = k * dot n w) by (intros w; unfold vnorm; fold k; dd; ring).
  rewrite !E, NA, NB, NC. set (e := k * det a b c). rewrite (Rmax_left e e) by lra. rewrite (Rmax_left e e) by lra.
  assert (E0 : 0 < e) by (apply Rmult_lt_0_compat; assumption).
  assert (E2 : 5 / 8 <= e * e <= 1).
  { replace (e * e) with (k * k * (det a b c * det a b c)) by (unfold e; ring). rewrite DD. assert (KK : 0 < k * k) by (apply Rmult_lt_0_compat; exact IP).
    assert (0 <= p * q * r) by (repeat apply Rmult_le_pos; unfold p, q, r; lra).
    replace (k * k * (dot n n - 2 * p * q * r)) with (k * k * dot n n - k * k * (2 * p * q * r)) by ring. rewrite SQ.
    assert (G1 : k * k * (2 * p * q * r) <= k * k * (3 / 8 * dot n n)) by (apply Rmult_le_compat_l; lra).
    replace (k * k * (3 / 8 * dot n n)) with (3 / 8 * (k * k * dot n n)) in G1 by ring. rewrite SQ in G1.
    assert (G2 : 0 <= k * k * (2 * p * q * r)) by (apply Rmult_le_pos; lra). lra. }
  assert (E1 : e <= 1) by nra.
  destruct (Rlt_dec 1 (Rabs e)) as [L|_]; [rewrite Rabs_pos_eq in L; lra|].
  exists (vnorm n), e. split; [reflexivity|]. split; [exact VU|]. rewrite !E, NA, NB, NC. fold e. repeat (split; [reflexivity || lra|]).
  assert (CE : cos e <= e).
  { assert (PI2 := PI2_3_2). destruct (cos_bound e 0) as (_ & B); [lra|lra|]. eapply Rle_trans; [exact B|]. unfold cos_approx. cbn [Nat.mul Nat.add sum_f_R0].
    unfold cos_term. cbn [Nat.mul Nat.add pow fact INR]. assert (63 / 80 < e) by nra. assert (e * e * e * e <= 1) by (replace (e * e * e * e) with ((e * e) * (e * e)) by ring; nra).
    field_simplify. nra. }
  assert (B := acos_bound e). destruct (Rle_lt_dec (acos e) e) as [L|L]; [exact L|exfalso].
  assert (PI2 := PI2_3_2). assert (cos (acos e) < cos e) by (apply cos_decreasing_1; lra). rewrite cos_acos in H; lra.
Qed.

(** ** One trixel *)
Lemma norm_times : forall k p, 0 <= k -> norm (vtimes k p) = k * norm p.
Proof.
  intros k p K. unfold norm. replace (dot (vtimes k p) (vtimes k p)) with (k * k * dot p p) by (dd; ring).
  rewrite sqrt_mult by (try apply dot_self; nra). now rewrite sqrt_square.
Qed.
Lemma dot_times : forall k p v, dot (vtimes k p) v = k * dot p v.
Proof. intros. dd. ring. Qed.
Lemma dot_plus : forall p q v, dot (vplus p q) v = dot p v + dot q v.
Proof. intros. dd. ring. Qed.
Lemma within_scale : forall h k p, 0 < k -> (within h (vtimes k p) <-> within h p).
Proof. intros h k p K. unfold within. rewrite norm_times, dot_times by lra. split; intros; nra. Qed.
Lemma dot_norm : forall p q, dot p q <= norm p * norm q.
Proof.
  intros p q. destruct (Rle_lt_dec (dot p q) 0) as [L|L]; [pose proof (norm_nonneg p); pose proof (norm_nonneg q); nra|].
  pose proof (cauchy p q) as C. rewrite <- !norm_sq in C. pose proof (norm_nonneg p). pose proof (norm_nonneg q).
  assert (0 <= norm p * norm q) by nra. nra.
Qed.
Lemma norm_triangle : forall p q, norm (vplus p q) <= norm p + norm q.
Proof.
  intros p q. pose proof (norm_nonneg p). pose proof (norm_nonneg q). pose proof (norm_nonneg (vplus p q)).
  pose proof (norm_sq (vplus p q)) as N. replace (dot (vplus p q) (vplus p q)) with (dot p p + dot q q + 2 * dot p q) in N by (dd; ring).
  pose proof (dot_norm p q). rewrite <- !norm_sq in N. nra.
Qed.
Lemma within_nonzero : forall h p, within h p -> p <> V 0 0 0.
Proof. intros h p W ->. unfold within, norm, dot in W. cbn [vx vy vz] in W. replace (0 * 0 + 0 * 0 + 0 * 0) with 0 in W by ring. rewrite sqrt_0 in W. lra. Qed.

Lemma phi_bound : forall h p, okh h -> unit p -> hd h < dot p (hv h) -> ang p (hv h) <= hphi h.
Proof.
  intros h p K U L. pose proof (okh_unit h K) as UV. destruct K as (v & l & P & ->). cbn [half_space hd hphi hv] in *.
  pose proof (unit_dot_bound _ _ U UV) as B. pose proof (ang_range p (vnorm v)) as R. destruct (Rlt_dec (Rabs l) 1) as [A|A].
  - assert (-1 < l < 1) by (apply Rabs_def2 in A; lra). destruct (Rle_lt_dec (ang p (vnorm v)) (acos l)) as [Q|Q]; [exact Q|exfalso].
    pose proof (acos_bound l). assert (X : cos (ang p (vnorm v)) < cos (acos l)) by (apply cos_decreasing_1; lra).
    rewrite cos_acos, (cos_ang p (vnorm v)) in X by (try assumption; lra). lra.
  - destruct (Rlt_dec l 0); [lra|]. exfalso. apply A. apply Rabs_def1; lra.
Qed.
Lemma circle_theta : forall h c r, okh h -> unit c -> intersects_circle h c r = Ok (if Rlt_dec (hphi h + r) (ang c (hv h)) then false else true).
Proof.
  intros h c r K U. pose proof (unit_dot_bound _ _ U (okh_unit h K)) as B. unfold intersects_circle, ang. cbv zeta. unfold gtb.
  destruct (Rlt_dec (Rabs (dot c (hv h))) 1) as [A|A]; [reflexivity|].
  assert (dot c (hv h) = 1 \/ dot c (hv h) = -1) as [E|E].
  { destruct (Rle_lt_dec 0 (dot c (hv h))); [left; rewrite Rabs_pos_eq in A by lra; lra|right; rewrite Rabs_left in A by lra; lra]. }
  - rewrite E, acos_1. destruct (Rlt_dec 1 (1000000001 / 1000000000)); [|lra]. destruct (Rlt_dec 0 1); [reflexivity|lra].
  - rewrite E. assert (AM : acos (-1) = PI) by (replace (-1) with (Ropp 1) by ring; rewrite acos_opp, acos_1; ring). rewrite AM.
    destruct (Rlt_dec (-1) (1000000001 / 1000000000)); [|lra]. destruct (Rlt_dec 0 (-1)); [lra|]. cbn [andb].
    destruct (Rlt_dec (- (1000000001 / 1000000000)) (-1)); [|lra]. destruct (Rlt_dec (-1) 0); [reflexivity|lra].
Qed.

Lemma exit_one : forall x0 x1, 0 <= x0 -> (0 <= x1 /\ forall s, 0 <= s <= 1 -> 0 <= (1 - s) * x0 + s * x1) \/
  (x1 < 0 /\ exists e, 0 <= e <= 1 /\ (1 - e) * x0 + e * x1 = 0 /\ forall s, 0 <= s <= e -> 0 <= (1 - s) * x0 + s * x1).
Proof.
  intros x0 x1 H. destruct (Rle_lt_dec 0 x1) as [P|P].
  - left. split; [exact P|]. intros s S. nra.
  - right. split; [exact P|]. set (e := x0 / (x0 - x1)).
    assert (E : e * (x0 - x1) = x0) by (unfold e; field; lra). assert (0 <= e) by (apply Rmult_le_pos; [exact H|left; apply Rinv_0_lt_compat; lra]).
    assert (e <= 1) by nra. exists e. split; [lra|]. split; [lra|]. intros s S. nra.
Qed.
Lemma exit_three : forall x0 y0 z0 x1 y1 z1, 0 <= x0 -> 0 <= y0 -> 0 <= z0 -> ~ (0 <= x1 /\ 0 <= y1 /\ 0 <= z1) ->
  exists s, 0 <= s <= 1 /\ let x := (1 - s) * x0 + s * x1 in let y := (1 - s) * y0 + s * y1 in let z := (1 - s) * z0 + s * z1 in
  0 <= x /\ 0 <= y /\ 0 <= z /\ (x = 0 \/ y = 0 \/ z = 0).
Proof.
  intros x0 y0 z0 x1 y1 z1 X Y Z N.
  destruct (exit_one x0 x1 X) as [(PX & AX)|(_ & ex & RX & EX & AX)], (exit_one y0 y1 Y) as [(PY & AY)|(_ & ey & RY & EY & AY)], (exit_one z0 z1 Z) as [(PZ & AZ)|(_ & ez & RZ & EZ & AZ)]; try tauto.
  all: assert (SOLVE : forall s, 0 <= s <= 1 -> (0 <= (1 - s) * x0 + s * x1 -> 0 <= (1 - s) * y0 + s * y1 -> 0 <= (1 - s) * z0 + s * z1 ->
      (1 - s) * x0 + s * x1 = 0 \/ (1 - s) * y0 + s * y1 = 0 \/ (1 - s) * z0 + s * z1 = 0) ->
      0 <= (1 - s) * x0 + s * x1 -> 0 <= (1 - s) * y0 + s * y1 -> 0 <= (1 - s) * z0 + s * z1 ->
      exists s, 0 <= s <= 1 /\ let x := (1 - s) * x0 + s * x1 in let y := (1 - s) * y0 + s * y1 in let z := (1 - s) * z0 + s * z1 in
      0 <= x /\ 0 <= y /\ 0 <= z /\ (x = 0 \/ y = 0 \/ z = 0)) by (intros s S O A B C; exists s; cbv zeta; repeat split; try assumption; try lra; auto).
  - apply (SOLVE ez); [lra|intros; tauto|apply AX; lra|apply AY; lra|apply AZ; lra].
  - apply (SOLVE ey); [lra|intros; tauto|apply AX; lra|apply AY; lra|apply AZ; lra].
  - destruct (Rle_lt_dec ey ez); [apply (SOLVE ey)|apply (SOLVE ez)]; [lra|intros; tauto|apply AX; lra|apply AY; lra|apply AZ; lra|lra|intros; tauto|apply AX; lra|apply AY; lra|apply AZ; lra].
  - apply (SOLVE ex); [lra|intros; tauto|apply AX; lra|apply AY; lra|apply AZ; lra].
  - destruct (Rle_lt_dec ex ez); [apply (SOLVE ex)|apply (SOLVE ez)]; [lra|intros; tauto|apply AX; lra|apply AY; lra|apply AZ; lra|lra|intros; tauto|apply AX; lra|apply AY; lra|apply AZ; lra].
  - destruct (Rle_lt_dec ex ey); [apply (SOLVE ex)|apply (SOLVE ey)]; [lra|intros; tauto|apply AX; lra|apply AY; lra|apply AZ; lra|lra|intros; tauto|apply AX; lra|apply AY; lra|apply AZ; lra].
  - destruct (Rle_lt_dec ex ey); destruct (Rle_lt_dec ey ez); destruct (Rle_lt_dec ex ez); try lra;
      first [apply (SOLVE ex); [lra|intros; tauto|apply AX; lra|apply AY; lra|apply AZ; lra]
            |apply (SOLVE ey); [lra|intros; tauto|apply AX; lra|apply AY; lra|apply AZ; lra]
            |apply (SOLVE ez); [lra|intros; tauto|apply AX; lra|apply AY; lra|apply AZ; lra]].
Qed.
Lemma edge_hit : forall h a b x y, unit a -> unit b -> -1 < dot a b -> 0 <= x -> 0 <= y -> dot a (hv h) <= hd h -> dot b (hv h) <= hd h ->
  within h (vplus (vtimes x a) (vtimes y b)) -> intersects_edge h a b = true.
Proof.
  intros h a b x y UA UB C X Y A B W. pose proof (unit_dot_bound a b UA UB) as CB. assert (CB' : -1 < dot a b <= 1) by lra.
  assert (P : 0 < x + y).
  { destruct (Rlt_dec 0 (x + y)) as [P|P]; [exact P|exfalso]. apply (within_nonzero _ _ W). assert (x = 0) as -> by lra. assert (y = 0) as -> by lra. apply vec_eq; dd; ring. }
  destruct (edge_reached a b CB' x y X Y P) as (s & k & S & K & E). rewrite E in W. apply (proj1 (within_scale h k _ K)) in W.
  apply (edge_cross h a b UA UB CB' s S W); rewrite dot_comm; assumption.
Qed.
Lemma gtb_true : forall x y, gtb x y = true <-> y < x.
Proof. intros. unfold gtb. destruct (Rlt_dec y x); split; intros; try assumption; try reflexivity; [discriminate|contradiction]. Qed.
Lemma gtb_false : forall x y, gtb x y = false <-> x <= y.
Proof. intros. unfold gtb. destruct (Rlt_dec y x); split; intros; try reflexivity; try discriminate; lra. Qed.
Definition meets (h : half) (t : trixel) : Prop := exists p, contains_pt t p = true /\ p <> V 0 0 0 /\ hd h * norm p <= dot p (hv h).
Lemma corner_in : forall t, good t -> contains_pt t (tc0 t) = true /\ contains_pt t (tc1 t) = true /\ contains_pt t (tc2 t) = true.
Proof.
  intros t G. split; [|split].
  - replace (tc0 t) with (vplus (vplus (vtimes 1 (tc0 t)) (vtimes 0 (tc1 t))) (vtimes 0 (tc2 t))) by (apply vec_eq; dd; ring). apply cone_in; [exact G|lra..].
  - replace (tc1 t) with (vplus (vplus (vtimes 0 (tc0 t)) (vtimes 1 (tc1 t))) (vtimes 0 (tc2 t))) by (apply vec_eq; dd; ring). apply cone_in; [exact G|lra..].
  - replace (tc2 t) with (vplus (vplus (vtimes 0 (tc0 t)) (vtimes 0 (tc1 t))) (vtimes 1 (tc2 t))) by (apply vec_eq; dd; ring). apply cone_in; [exact G|lra..].
Qed.
Lemma unit_nonzero : forall p, unit p -> p <> V 0 0 0.
Proof. intros p U ->. unfold unit, dot in U. cbn in U. lra. Qed.
Lemma unit_meets : forall h t p, unit p -> contains_pt t p = true -> hd h <= dot p (hv h) -> meets h t.
Proof. intros h t p U C D. exists p. split; [exact C|]. split; [now apply unit_nonzero|]. rewrite unit_norm by exact U. lra. Qed.
Lemma edge_meets : forall h t a b, okh h -> good t -> unit a -> unit b -> -1 < dot a b -> 
  (forall x y, 0 <= x -> 0 <= y -> contains_pt t (vplus (vtimes x a) (vtimes y b)) = true) -> intersects_edge h a b = true -> meets h t.
Proof.
  intros h t a b K G UA UB C In E. pose proof (unit_dot_bound a b UA UB) as CB. assert (CB' : -1 < dot a b <= 1) by lra.
  destruct (edge_inv h a b UA UB CB' E) as (r & R & D). exists (edge_pt a b r). pose proof (usq_nonneg a b CB') as Q.
  split; [|split].
  - unfold edge_pt. apply In; apply Rmult_le_pos; try lra. nra.
  - intros Z. pose proof (edge_norm a b UA UB CB' r) as N. rewrite Z in N. unfold norm, dot in N. cbn [vx vy vz] in N. replace (0 * 0 + 0 * 0 + 0 * 0) with 0 in N by ring. rewrite sqrt_0 in N. fold (dot a b) in N. nra.
  - lra.
Qed.

Lemma contains_trixel_ok : forall h t, okh h -> good t -> acute t -> close t -> exists c, contains_trixel h t = Ok c /\
  (c = Outside -> forall p, contains_pt t p = true -> ~ within h p) /\
  (c = Full -> 0 <= hd h -> forall p, contains_pt t p = true -> p <> V 0 0 0 -> within h p) /\
  (c <> Outside -> hd h <= 1 -> meets h t).
Proof.
  intros h t K G A CL. pose proof (okh_unit h K) as UV. assert (GG := G). destruct GG as (UA & UB & UC & D). destruct (corner_in t G) as (I0 & I1 & I2).
  unfold contains_trixel. cbv zeta. unfold hs_contains.
  destruct (gtb (dot (tc0 t) (hv h)) (hd h)) eqn:K0, (gtb (dot (tc1 t) (hv h)) (hd h)) eqn:K1, (gtb (dot (tc2 t) (hv h)) (hd h)) eqn:K2; cbn [andb orb];
    repeat match goal with H : gtb _ _ = true |- _ => apply gtb_true in H | H : gtb _ _ = false |- _ => apply gtb_false in H end;
    try (exists Partial; split; [reflexivity|]; split; [discriminate|]; split; [discriminate|]; intros _ _;
         first [apply (unit_meets h t (tc0 t)); [assumption|assumption|lra]|apply (unit_meets h t (tc1 t)); [assumption|assumption|lra]|apply (unit_meets h t (tc2 t)); [assumption|assumption|lra]]).
  { exists Full. split; [reflexivity|]. split; [discriminate|]. split.
    - intros _ H0 p C NZ. destruct (in_cone t p G C) as (x & y & z & X & Y & Z & ->). unfold within. rewrite dot_cone.
      pose proof (norm_cone _ _ _ x y z UA UB UC X Y Z) as NC. set (n := norm _) in *.
      assert (P : 0 < x + y + z) by (pose proof (norm0 _ NZ) as Q; fold n in Q; lra).
      apply Rle_lt_trans with (hd h * (x + y + z)); [apply Rmult_le_compat_l; lra|].
      assert (0 <= x * (dot (tc0 t) (hv h) - hd h)) by (apply Rmult_le_pos; lra). assert (0 <= y * (dot (tc1 t) (hv h) - hd h)) by (apply Rmult_le_pos; lra). assert (0 <= z * (dot (tc2 t) (hv h) - hd h)) by (apply Rmult_le_pos; lra).
      destruct (Rlt_dec 0 x); [assert (0 < x * (dot (tc0 t) (hv h) - hd h)) by (apply Rmult_lt_0_compat; lra); lra|].
      destruct (Rlt_dec 0 y); [assert (0 < y * (dot (tc1 t) (hv h) - hd h)) by (apply Rmult_lt_0_compat; lra); lra|].
      assert (0 < z * (dot (tc2 t) (hv h) - hd h)) by (apply Rmult_lt_0_compat; lra). lra.
    - intros _ _. apply (unit_meets h t (tc0 t)); [assumption|assumption|lra]. }
  destruct (contains_pt t (hv h)) eqn:CV.
  { exists Partial. split; [reflexivity|]. split; [discriminate|]. split; [discriminate|]. intros _ L. apply (unit_meets h t (hv h)); [exact UV|exact CV|]. unfold unit in UV. rewrite UV. exact L. }
  destruct (circle_shape t G A CL) as (vb & e & BC & UVB & E0 & E1 & E2 & ER & EA). unfold intersects_bounding_circle. rewrite BC. cbn [bind]. rewrite (circle_theta h vb e K UVB). cbn [bind].
  assert (S1 : -1 < dot (tc0 t) (tc1 t) /\ -1 < dot (tc1 t) (tc2 t) /\ -1 < dot (tc2 t) (tc0 t)) by (rewrite (dot_comm (tc2 t)); unfold close in CL; lra).
  destruct S1 as (S0 & S1 & S2).
  destruct (Rlt_dec (hphi h + e) (ang vb (hv h))) as [FAR|NEAR]; cbn [negb].
  { exists Outside. split; [reflexivity|]. split; [|split; [discriminate|congruence]]. intros _ p C W.
    pose proof (within_nonzero _ _ W) as NZ. pose proof (norm0 p NZ) as NP. set (u := vtimes (/ norm p) p). assert (IP : 0 < / norm p) by (apply Rinv_0_lt_compat; exact NP).
    assert (UU : unit u) by (unfold unit, u; replace (dot (vtimes (/ norm p) p) (vtimes (/ norm p) p)) with (/ norm p * / norm p * dot p p) by (dd; ring); rewrite <- norm_sq; field; lra).
    assert (WU : within h u) by (apply within_scale; assumption). unfold within in WU. rewrite (unit_norm u UU) in WU.
    pose proof (phi_bound h u K UU ltac:(lra)) as PB.
    assert (UB2 : ang vb u <= acos e).
    { destruct (in_cone t p G C) as (x & y & z & X & Y & Z & EP). pose proof (norm_cone _ _ _ x y z UA UB UC X Y Z) as NC. rewrite <- EP in NC.
      assert (DV : e <= dot vb u).
      { rewrite dot_comm. unfold u. rewrite dot_times. rewrite EP at 2. rewrite dot_cone, E0, E1, E2. replace (x * e + y * e + z * e) with ((x + y + z) * e) by ring.
        apply Rle_trans with (/ norm p * (norm p * e)); [right; field; lra|]. apply Rmult_le_compat_l; [lra|]. apply Rmult_le_compat_r; lra. }
      unfold ang. pose proof (unit_dot_bound vb u UVB UU). pose proof (acos_bound e). pose proof (acos_bound (dot vb u)).
      destruct (Rle_lt_dec (acos (dot vb u)) (acos e)) as [Q|Q]; [exact Q|exfalso].
      assert (QQ : cos (acos (dot vb u)) < cos (acos e)) by (apply cos_decreasing_1; lra). rewrite !cos_acos in QQ by lra. lra. }
    pose proof (ang_triangle vb u (hv h) UVB UU UV). lra. }
  destruct (intersects_edge h (tc0 t) (tc1 t)) eqn:J0; cbn [orb].
  { exists Partial. split; [reflexivity|]. split; [discriminate|]. split; [discriminate|]. intros _ _. apply (edge_meets h t _ _ K G UA UB S0); [|exact J0].
    intros x y X Y. replace (vplus (vtimes x (tc0 t)) (vtimes y (tc1 t))) with (vplus (vplus (vtimes x (tc0 t)) (vtimes y (tc1 t))) (vtimes 0 (tc2 t))) by (apply vec_eq; dd; ring). apply cone_in; [exact G|lra..]. }
  destruct (intersects_edge h (tc1 t) (tc2 t)) eqn:J1; cbn [orb].
  { exists Partial. split; [reflexivity|]. split; [discriminate|]. split; [discriminate|]. intros _ _. apply (edge_meets h t _ _ K G UB UC S1); [|exact J1].
    intros x y X Y. replace (vplus (vtimes x (tc1 t)) (vtimes y (tc2 t))) with (vplus (vplus (vtimes 0 (tc0 t)) (vtimes x (tc1 t))) (vtimes y (tc2 t))) by (apply vec_eq; dd; ring). apply cone_in; [exact G|lra..]. }
  destruct (intersects_edge h (tc2 t) (tc0 t)) eqn:J2.
  { exists Partial. split; [reflexivity|]. split; [discriminate|]. split; [discriminate|]. intros _ _. apply (edge_meets h t _ _ K G UC UA S2); [|exact J2].
    intros x y X Y. replace (vplus (vtimes x (tc2 t)) (vtimes y (tc0 t))) with (vplus (vplus (vtimes y (tc0 t)) (vtimes 0 (tc1 t))) (vtimes x (tc2 t))) by (apply vec_eq; dd; ring). apply cone_in; [exact G|lra..]. }
  exists Outside. split; [reflexivity|]. split; [|split; [discriminate|congruence]]. intros _ p C W.
  destruct (Rlt_dec (hd h) 0) as [DN|DN].
  { destruct (in_cone t p G C) as (x & y & z & X & Y & Z & ->). unfold within in W. rewrite dot_cone in W.
    pose proof (norm_cone _ _ _ x y z UA UB UC X Y Z) as NC. set (n := norm _) in *. 
    assert (hd h * (x + y + z) <= hd h * n) by nra. nra. }
  assert (D1 : hd h < 1).
  { pose proof (norm0 p (within_nonzero _ _ W)) as NP. unfold within in W. pose proof (dot_norm p (hv h)) as DN'. rewrite (unit_norm _ UV) in DN'. nra. }
  assert (CN : ~ (0 <= det (tc0 t) (tc1 t) (hv h) /\ 0 <= det (tc1 t) (tc2 t) (hv h) /\ 0 <= det (tc2 t) (tc0 t) (hv h))).
  { intros Q. apply contains_spec in Q. congruence. }
  assert (CP := C). apply contains_spec in CP as (P1 & P2 & P3).
  destruct (exit_three _ _ _ _ _ _ P1 P2 P3 CN) as (s & SR & X1 & X2 & X3 & XE).
  set (q := vplus (vtimes (1 - s) p) (vtimes s (hv h))).
  assert (LQ : forall a b, det a b q = (1 - s) * det a b p + s * det a b (hv h)) by (intros a b; unfold q; dd; ring).
  rewrite <- LQ in X1. rewrite <- LQ in X2. rewrite <- LQ in X3. rewrite <- (LQ (tc0 t) (tc1 t)), <- (LQ (tc1 t) (tc2 t)), <- (LQ (tc2 t) (tc0 t)) in XE.
  assert (WQ : within h q).
  { unfold within in *. unfold q. rewrite dot_plus, !dot_times. pose proof (norm_triangle (vtimes (1 - s) p) (vtimes s (hv h))) as NT. rewrite !norm_times, (unit_norm _ UV) in NT by lra.
    unfold unit in UV. rewrite UV.
    apply Rle_lt_trans with (hd h * ((1 - s) * norm p + s * 1)); [apply Rmult_le_compat_l; lra|].
    destruct (Rlt_dec 0 s); [assert (0 < s * (1 - hd h)) by (apply Rmult_lt_0_compat; lra); assert (0 <= (1 - s) * (dot p (hv h) - hd h * norm p)) by (apply Rmult_le_pos; lra); lra|].
    assert (s = 0) as -> by lra. lra. }
  assert (CQ : contains_pt t q = true) by (apply contains_spec; tauto).
  apply (good_spanned t G) in CQ as (x & y & z & (X & Y & Z) & Q1 & Q2 & Q3).
  destruct (weights _ _ _ _ _ _ _ Q1 Q2 Q3) as (R1 & R2 & R3). rewrite R1, R2, R3 in XE. assert (ND : det (tc0 t) (tc1 t) (tc2 t) <> 0) by lra.
  destruct XE as [XE|[XE|XE]]; apply Rmult_integral in XE; destruct XE as [->|XE]; try contradiction.
  - assert (EQ : q = vplus (vtimes x (tc0 t)) (vtimes y (tc1 t))) by (apply vec_eq; dd; rewrite ?Q1, ?Q2, ?Q3; ring). rewrite EQ in WQ.
    rewrite (edge_hit h (tc0 t) (tc1 t) x y) in J0; [discriminate|assumption..].
  - assert (EQ : q = vplus (vtimes y (tc1 t)) (vtimes z (tc2 t))) by (apply vec_eq; dd; rewrite ?Q1, ?Q2, ?Q3; ring). rewrite EQ in WQ.
    rewrite (edge_hit h (tc1 t) (tc2 t) y z) in J1; [discriminate|assumption..].
  - assert (EQ : q = vplus (vtimes z (tc2 t)) (vtimes x (tc0 t))) by (apply vec_eq; dd; rewrite ?Q1, ?Q2, ?Q3; ring). rewrite EQ in WQ.
    rewrite (edge_hit h (tc2 t) (tc0 t) z x) in J2; [discriminate|assumption..].
Qed.
