(** Proofs about the model of the footprint maps. *)
From Coq Require Import List ZArith QArith Qround Qabs Bool String Lqa Lia.
From Verif Require Import Base Script Script_proofs TimeGate_proofs SiteData_proofs IntRounded SkyArea.
Import ListNotations.
Open Scope nat_scope.

Lemma bind_inv : forall A B (x : res A) (f : A -> res B) y, bind x f = Ok y -> exists a, x = Ok a /\ f a = Ok y.
Proof. intros A B [a|e] f y H; [now exists a|discriminate]. Qed.

(** ** One step of painting *)
Definition known (rs : ratios) : Prop := forall b q, In (b, q) rs -> In b bands.

Lemma field_some : forall b l, In b l <-> exists k, field b l = Some k.
Proof.
  intros b l. induction l as [|x r IH]; cbn.
  - split; [contradiction|intros [k K]; discriminate].
  - destruct (String.eqb_spec b x) as [->|N].
    + split; [intros _; now exists 0|now left].
    + split.
      * intros [E|I]; [congruence|]. destruct (proj1 IH I) as [k K]. exists (S k). now rewrite K.
      * intros [k K]. right. apply IH. destruct (field b r) as [j|]; [now exists j|discriminate].
Qed.

Lemma fill_ok : forall rs w, known rs -> exists w', fill rs w = Ok w'.
Proof.
  induction rs as [|[b q] r IH]; intros w K; cbn [fill]; [now exists w|].
  destruct (proj1 (field_some b bands) (K b q (or_introl eq_refl))) as [k E]. rewrite E.
  apply IH. intros b' q' I. apply (K b' q'). now right.
Qed.
Lemma fill_bad : forall rs w, ~ known rs -> fill rs w = Raise ValueError.
Proof.
  induction rs as [|[b q] r IH]; intros w K; cbn [fill].
  - exfalso. apply K. intros b q [].
  - destruct (field b bands) as [k|] eqn:E; [|reflexivity]. apply IH. intros K'. apply K.
    intros b' q' [E'|I]; [|exact (K' b' q' I)]. injection E' as <- <-. apply field_some. now exists k.
Qed.
Lemma fill_known : forall rs w w', fill rs w = Ok w' -> known rs.
Proof.
  induction rs as [|[b q] r IH]; intros w w' H; cbn [fill] in H; [intros b q []|].
  destruct (field b bands) as [k|] eqn:E; [|discriminate]. intros b' q' [E'|I].
  - injection E' as <- <-. apply field_some. now exists k.
  - exact (IH _ _ H b' q' I).
Qed.

Lemma put_nth : forall k q w j d, k < List.length w -> nth j (put k q w) d = if Nat.eqb j k then q else nth j w d.
Proof.
  induction k as [|k IH]; intros q [|x w] j d H; cbn in *; try lia.
  - destruct j; reflexivity.
  - destruct j as [|j]; [reflexivity|]. cbn. apply IH. lia.
Qed.
Lemma put_length : forall k q w, List.length (put k q w) = List.length w.
Proof. induction k as [|k IH]; intros q [|x w]; cbn; [reflexivity..|]. now rewrite IH. Qed.
Lemma fill_length : forall rs w w', fill rs w = Ok w' -> List.length w' = List.length w.
Proof.
  induction rs as [|[b q] r IH]; intros w w' H; cbn [fill] in H; [congruence|].
  destruct (field b bands); [|discriminate]. rewrite (IH _ _ H). apply put_length.
Qed.
Lemma field_bound : forall b l k, field b l = Some k -> k < List.length l /\ nth k l ""%string = b.
Proof.
  induction l as [|x r IH]; intros k H; cbn in *; [discriminate|].
  destruct (String.eqb_spec b x) as [->|N].
  - injection H as <-. split; [lia|reflexivity].
  - destruct (field b r) as [j|]; [|discriminate]. injection H as <-. destruct (IH j eq_refl). split; [lia|exact H0].
Qed.
Lemma bands_nodup : NoDup bands.
Proof. unfold bands. repeat constructor; cbn; intuition discriminate. Qed.

Lemma fill_untouched : forall rs w w' k, fill rs w = Ok w' -> List.length w = 6 -> ~ In (nth k bands ""%string) (map fst rs) ->
  nth k w' 0%Q = nth k w 0%Q.
Proof.
  induction rs as [|[b q] r IH]; intros w w' k H L N; cbn [fill] in H; [congruence|].
  destruct (field b bands) as [j|] eqn:E; [|discriminate]. destruct (field_bound _ _ _ E) as [J JB].
  rewrite (IH _ _ k H); [|now rewrite put_length|intros I; apply N; now right].
  rewrite put_nth by (rewrite L; exact J). destruct (Nat.eqb_spec k j) as [->|]; [|reflexivity].
  exfalso. apply N. left. symmetry. exact JB.
Qed.
Lemma fill_value : forall rs w w' k, fill rs w = Ok w' -> List.length w = 6 -> NoDup (map fst rs) -> k < 6 ->
  forall q, In (nth k bands ""%string, q) rs -> nth k w' 0%Q = q.
Proof.
  induction rs as [|[b q] r IH]; intros w w' k H L N K q0 I; cbn [fill] in H; [contradiction|].
  destruct (field b bands) as [j|] eqn:E; [|discriminate]. destruct (field_bound _ _ _ E) as [J JB].
  cbn [map fst] in N. apply NoDup_cons_iff in N as [N1 N2]. destruct I as [I|I].
  - assert (I1 : b = nth k bands ""%string) by congruence. assert (I2 : q = q0) by congruence. clear I.
    rewrite (fill_untouched _ _ _ k H); [|now rewrite put_length|now rewrite <- I1].
    rewrite put_nth by (rewrite L; exact J). assert (k = j) as ->.
    { apply (proj1 (NoDup_nth bands ""%string) bands_nodup); [exact K|exact J|congruence]. }
    now rewrite Nat.eqb_refl.
  - exact (IH _ _ k H ltac:(now rewrite put_length) N2 K q0 I).
Qed.

(** What a row holds for a dictionary of ratios. *)
Definition wanted (rs : ratios) (b : string) (q : Q) : Prop := In (b, q) rs \/ (~ In b (map fst rs) /\ q = 0%Q).

Lemma fill_zero : forall rs w, fill rs [0; 0; 0; 0; 0; 0]%Q = Ok w -> NoDup (map fst rs) -> Forall2 (wanted rs) bands w.
Proof.
  intros rs w H N. pose proof (fill_length _ _ _ H) as L. cbn in L.
  assert (A : forall k, k < 6 -> wanted rs (nth k bands ""%string) (nth k w 0%Q)).
  { intros k K. destruct (in_dec string_dec (nth k bands ""%string) (map fst rs)) as [I|I].
    - apply in_map_iff in I as ((b & q) & E & I). cbn in E. subst b. left. now rewrite (fill_value _ _ _ k H eq_refl N K q I).
    - right. split; [exact I|]. rewrite (fill_untouched _ _ _ k H eq_refl I). do 6 (destruct k as [|k]; [reflexivity|]). lia. }
  destruct w as [|w0 [|w1 [|w2 [|w3 [|w4 [|w5 [|? ?]]]]]]]; try discriminate L.
  unfold bands. apply Forall2_cons; [exact (A 0 ltac:(lia))|]. apply Forall2_cons; [exact (A 1 ltac:(lia))|]. apply Forall2_cons; [exact (A 2 ltac:(lia))|].
  apply Forall2_cons; [exact (A 3 ltac:(lia))|]. apply Forall2_cons; [exact (A 4 ltac:(lia))|]. apply Forall2_cons; [exact (A 5 ltac:(lia))|]. apply Forall2_nil.
Qed.

Lemma paint_in_ok : forall lab rs ins s, known rs -> exists s', paint_in lab rs ins s = Ok s'.
Proof.
  intros lab rs ins. induction ins as [|b bs IH]; intros [|[l w] r] K; cbn [paint_in]; try (now exists []).
  destruct (IH r K) as [s' E]. rewrite E. destruct (b && String.eqb l "").
  - destruct (fill_ok rs w K) as [w' F]. rewrite F. cbn. eauto.
  - cbn. eauto.
Qed.
Lemma paint_ok : forall lab rs ins s, known rs -> exists s', paint lab rs ins s = Ok s'.
Proof.
  intros lab rs ins s K. unfold paint. destruct (fill_ok rs [0; 0; 0; 0; 0; 0]%Q K) as [w ->]. cbn [bind]. now apply paint_in_ok.
Qed.
Lemma paint_bad : forall lab rs ins s, ~ known rs -> paint lab rs ins s = Raise ValueError.
Proof. intros lab rs ins s K. unfold paint. now rewrite (fill_bad rs _ K). Qed.

Lemma paint_in_spec : forall lab rs ins s s', paint_in lab rs ins s = Ok s' -> List.length ins = List.length s ->
  List.length s' = List.length s /\
  forall i l w, nth_error s i = Some (l, w) ->
    exists l' w', nth_error s' i = Some (l', w') /\
      (if nth i ins false && String.eqb l "" then l' = trunc 20 lab /\ fill rs w = Ok w' else l' = l /\ w' = w).
Proof.
  intros lab rs ins. induction ins as [|b bs IH]; intros [|[l0 w0] r] s' H L; cbn in L; try lia; cbn [paint_in] in H.
  - injection H as <-. split; [reflexivity|]. intros [|i] l w E; discriminate.
  - apply bind_inv in H as (x & X & H). apply bind_inv in H as (xs & XS & H). injection H as <-.
    destruct (IH r xs XS ltac:(lia)) as [L' A]. split; [cbn; now rewrite L'|].
    intros [|i] l w E; cbn in E.
    + injection E as <- <-. cbn [nth]. destruct (b && String.eqb l0 "").
      * apply bind_inv in X as (w' & F & X). injection X as <-. exists (trunc 20 lab), w'. now repeat split.
      * injection X as <-. exists l0, w0. now repeat split.
    + destruct (A i l w E) as (l' & w' & N & S'). exists l', w'. split; [exact N|exact S'].
Qed.

(** ** All steps *)
Definition pstep := (string * ratios * list bool)%type.
Fixpoint paint_all (ps : list pstep) (s : sky) : res sky :=
  match ps with [] => Ok s | (lab, rs, ins) :: r => bind (paint lab rs ins s) (paint_all r) end.

Lemma paint_all_app : forall a b s, paint_all (a ++ b) s = bind (paint_all a s) (paint_all b).
Proof.
  induction a as [|[[lab rs] ins] a IH]; intros b s; cbn; [reflexivity|].
  destruct (paint lab rs ins s); cbn; [apply IH|reflexivity].
Qed.
Lemma paint_all_total : forall ps s, (forall lab rs ins, In (lab, rs, ins) ps -> known rs) -> exists s', paint_all ps s = Ok s'.
Proof.
  induction ps as [|[[lab rs] ins] r IH]; intros s K; cbn; [eauto|].
  destruct (paint_ok lab rs ins s) as [s1 ->]; [apply (K lab rs ins); now left|]. cbn. apply IH. intros. apply (K lab0 rs0 ins0). now right.
Qed.
Lemma paint_all_bad : forall ps s lab rs ins, In (lab, rs, ins) ps -> ~ known rs -> paint_all ps s = Raise ValueError.
Proof.
  induction ps as [|[[lab rs] ins] r IH]; intros s lab0 rs0 ins0 I N; cbn; [contradiction|].
  destruct I as [I|I].
  - injection I as -> -> ->. now rewrite paint_bad.
  - destruct (paint lab rs ins s) as [s1|e] eqn:E; cbn; [exact (IH s1 _ _ _ I N)|].
    unfold paint in E. destruct (fill rs [0; 0; 0; 0; 0; 0]%Q) as [w|e'] eqn:F; cbn [bind] in E.
    + destruct (paint_in_ok lab rs ins s (fill_known _ _ _ F)) as [s1 E1]. congruence.
    + assert (B : ~ known rs). { intros B. destruct (fill_ok rs [0; 0; 0; 0; 0; 0]%Q B). congruence. }
      rewrite (fill_bad rs _ B) in F. congruence.
Qed.

Lemma paint_all_spec : forall ps s s', paint_all ps s = Ok s' ->
  (forall lab rs ins, In (lab, rs, ins) ps -> List.length ins = List.length s /\ trunc 20 lab <> ""%string) ->
  List.length s' = List.length s /\
  forall i l w, nth_error s i = Some (l, w) ->
    exists l' w', nth_error s' i = Some (l', w') /\
      if String.eqb l "" then
        match find (fun p : pstep => nth i (snd p) false) ps with
        | Some (lab, rs, _) => l' = trunc 20 lab /\ fill rs w = Ok w'
        | None => l' = l /\ w' = w
        end
      else l' = l /\ w' = w.
Proof.
  induction ps as [|[[lab rs] ins] r IH]; intros s s' H C; cbn [paint_all] in H.
  - injection H as <-. split; [reflexivity|]. intros i l w E. exists l, w. split; [exact E|]. cbn. now destruct (String.eqb l "").
  - apply bind_inv in H as (s1 & P & H). unfold paint in P. apply bind_inv in P as (w0 & _ & P).
    destruct (C lab rs ins (or_introl eq_refl)) as [L NE].
    destruct (paint_in_spec _ _ _ _ _ P L) as [L1 A].
    destruct (IH s1 s' H) as [L2 B].
    { intros lab' rs' ins' I. destruct (C lab' rs' ins' (or_intror I)). split; [congruence|assumption]. }
    split; [congruence|]. intros i l w E. destruct (A i l w E) as (l1 & w1 & N1 & S1).
    destruct (B i l1 w1 N1) as (l' & w' & N2 & S2). exists l', w'. split; [exact N2|].
    cbn [find snd]. destruct (nth i ins false) eqn:I; cbn [andb] in S1.
    + destruct (String.eqb_spec l "") as [->|NL].
      * destruct S1 as [-> F]. destruct (String.eqb_spec (trunc 20 lab) "") as [E0|_]; [contradiction|].
        destruct S2 as [-> ->]. now split.
      * destruct S1 as [-> ->]. destruct (String.eqb_spec l "") as [E0|_]; [contradiction|exact S2].
    + destruct S1 as [-> ->]. exact S2.
Qed.

Section Area.
Variable sep : Q -> Q -> Q -> Q -> Q.
Variable inpoly : Q -> Q -> bool.
Variable P : area.
Variable k : kind.
Variable px : list spix.
Variable R : rset.

Definition bulge_points : list point := match k with KThree => points_three | _ => points_gal end.
Definition later : list pstep :=
  [("lowdust", r_ld R, map (lowdust P) px); ("virgo", r_vir R, map (circle sep (a_vir P) (a_virr P)) px)]%string ++
  (match k with
   | KBase => [("bulge", r_bul R, map (bulge P) px)]%string
   | _ => map (fun p => ("bulgy"%string, r_bul R, map (in_point sep p) px)) bulge_points
   end) ++
  [("nes", r_nes R, map (nes P) px); ("dusty_plane", r_dp R, map (dusty P) px)]%string ++
  (match k with KEuclid | KThree => [("euclid_overlap", r_euc R, map (euclid inpoly) px)]%string | _ => [] end) ++
  [("scp", r_scp R, map (scp P) px)]%string.
Definition first_step (lo hi : Q) : pstep :=
  ("LMC_SMC"%string, r_mc R, map (fun g => clouds sep P g || bridge P lo hi g) px).

Lemma bulgy_all : forall pts s, add_bulgy sep px (r_bul R) pts s =
  paint_all (map (fun p => ("bulgy"%string, r_bul R, map (in_point sep p) px)) pts) s.
Proof.
  induction pts as [|p r IH]; intros s; cbn; [reflexivity|]. destruct (paint "bulgy" (r_bul R) (map (in_point sep p) px) s); cbn; [apply IH|reflexivity].
Qed.
Lemma bind_ret : forall A (x : res A), bind x (fun a => Ok a) = x.
Proof. now intros A [a|e]. Qed.

Lemma maps_all : return_maps sep inpoly P k px R =
  bind (qmin_of (map g_dec (filter (clouds sep P) px))) (fun lo =>
  bind (qmax_of (map g_dec (filter (clouds sep P) px))) (fun hi =>
  paint_all (first_step lo hi :: later) (zero_sky (List.length px)))).
Proof.
  unfold return_maps, add_clouds. set (decs := map g_dec _). destruct (qmin_of decs) as [lo|e]; [|reflexivity]. cbn [bind].
  destruct (qmax_of decs) as [hi|e]; [|reflexivity]. cbn [bind]. cbn [paint_all first_step]. unfold first_step.
  destruct (paint "LMC_SMC" _ _ _) as [s|e]; [|reflexivity]. cbn [bind].
  unfold later. cbn [app paint_all]. unfold add_lowdust. destruct (paint "lowdust" _ _ _) as [s1|e]; [|reflexivity]. cbn [bind].
  unfold add_virgo. destruct (paint "virgo" _ _ _) as [s2|e]; [|reflexivity]. cbn [bind].
  rewrite paint_all_app.
  assert (E : forall s, (match k with KBase => add_bulge P px (r_bul R) s | KThree => add_bulgy sep px (r_bul R) points_three s
              | _ => add_bulgy sep px (r_bul R) points_gal s end) =
            paint_all (match k with KBase => [("bulge"%string, r_bul R, map (bulge P) px)]
              | _ => map (fun p => ("bulgy"%string, r_bul R, map (in_point sep p) px)) bulge_points end) s).
  { intros s0. unfold bulge_points. destruct k; [|apply bulgy_all..]. unfold add_bulge. cbn. now rewrite bind_ret. }
  rewrite E. destruct (paint_all _ s2) as [s3|e]; [|reflexivity]. cbn [bind app paint_all].
  unfold add_nes. destruct (paint "nes" _ _ _) as [s4|e]; [|reflexivity]. cbn [bind].
  unfold add_dusty. destruct (paint "dusty_plane" _ _ _) as [s5|e]; [|reflexivity]. cbn [bind].
  rewrite paint_all_app. unfold add_euclid, add_scp.
  destruct k; cbn [paint_all bind]; rewrite ?bind_ret; try reflexivity;
    (destruct (paint "euclid_overlap" _ _ _); cbn [bind]; rewrite ?bind_ret; reflexivity).
Qed.

Lemma later_len : forall lo hi lab rs ins, In (lab, rs, ins) (first_step lo hi :: later) ->
  List.length ins = List.length px /\ trunc 20 lab <> ""%string.
Proof.
  intros lo hi lab rs ins I.
  assert (A : forall f : spix -> bool, List.length (map f px) = List.length px) by (intros; apply map_length).
  unfold later, first_step in I.
  destruct I as [I|I]; [injection I as <- <- <-; split; [apply A|discriminate]|].
  repeat (apply in_app_or in I; destruct I as [I|I]).
  - destruct I as [I|[I|[]]]; injection I as <- <- <-; (split; [apply A|discriminate]).
  - destruct k.
    + destruct I as [I|[]]; injection I as <- <- <-; split; [apply A|discriminate].
    + apply in_map_iff in I as (p & E & _); injection E as <- <- <-; split; [apply A|discriminate].
    + apply in_map_iff in I as (p & E & _); injection E as <- <- <-; split; [apply A|discriminate].
    + apply in_map_iff in I as (p & E & _); injection E as <- <- <-; split; [apply A|discriminate].
  - destruct I as [I|[I|[]]]; injection I as <- <- <-; (split; [apply A|discriminate]).
  - destruct k; try contradiction; (destruct I as [I|[]]; injection I as <- <- <-; split; [apply A|discriminate]).
  - destruct I as [I|[]]; injection I as <- <- <-; split; [apply A|discriminate].
Qed.
End Area.

(** ** Smallest and largest *)
Lemma fold_min : forall l x, let m := fold_left (fun a y => if Qltb y a then y else a) l x in
  (m = x \/ In m l) /\ (m <= x)%Q /\ forall y, In y l -> (m <= y)%Q.
Proof.
  induction l as [|y r IH]; intros x; cbn; [repeat split; [now left|apply Qle_refl|contradiction]|].
  destruct (Qltb y x) eqn:E.
  - apply Qltb_lt in E. destruct (IH y) as (A & B & C). repeat split.
    + destruct A as [->|A]; right; [now left|now right].
    + lra.
    + intros z [<-|I]; [exact B|exact (C z I)].
  - apply Qltb_false in E. destruct (IH x) as (A & B & C). repeat split.
    + destruct A as [A|A]; [now left|right; now right].
    + exact B.
    + intros z [<-|I]; [lra|exact (C z I)].
Qed.
Lemma fold_max : forall l x, let m := fold_left (fun a y => if Qltb a y then y else a) l x in
  (m = x \/ In m l) /\ (x <= m)%Q /\ forall y, In y l -> (y <= m)%Q.
Proof.
  induction l as [|y r IH]; intros x; cbn; [repeat split; [now left|apply Qle_refl|contradiction]|].
  destruct (Qltb x y) eqn:E.
  - apply Qltb_lt in E. destruct (IH y) as (A & B & C). repeat split.
    + destruct A as [->|A]; right; [now left|now right].
    + lra.
    + intros z [<-|I]; [exact B|exact (C z I)].
  - apply Qltb_false in E. destruct (IH x) as (A & B & C). repeat split.
    + destruct A as [A|A]; [now left|right; now right].
    + exact B.
    + intros z [<-|I]; [lra|exact (C z I)].
Qed.
Lemma qmin_of_spec : forall l m, qmin_of l = Ok m -> In m l /\ forall y, In y l -> (m <= y)%Q.
Proof.
  intros [|x r] m H; [discriminate|]. cbn in H. injection H as <-. destruct (fold_min r x) as (A & B & C).
  split; [destruct A as [->|A]; [now left|now right]|]. intros y [<-|I]; [exact B|exact (C y I)].
Qed.
Lemma qmax_of_spec : forall l m, qmax_of l = Ok m -> In m l /\ forall y, In y l -> (y <= m)%Q.
Proof.
  intros [|x r] m H; [discriminate|]. cbn in H. injection H as <-. destruct (fold_max r x) as (A & B & C).
  split; [destruct A as [->|A]; [now left|now right]|]. intros y [<-|I]; [exact B|exact (C y I)].
Qed.
