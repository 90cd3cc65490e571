(** C93: the survey that revisits pairs schedules one later visit for every second
    visit of a pair of the night, nothing else, and offers it near its time. *)
From Coq Require Import List ZArith QArith Qround Bool String Lia Lqa.
From Verif Require Import Base Obs Core Core_proofs Script Script_proofs SiteData SiteData_proofs LongGap LongGap_proofs.
Import ListNotations.
Open Scope nat_scope.

(** Altitudes are a function of the time, not of how it is written. *)
Definition of_time (alt : Q -> Q -> Q -> Q) : Prop := forall ra dec t t', (t == t')%Q -> (alt ra dec t == alt ra dec t')%Q.

(** The visits of a report that are revisited. *)
Lemma top_spec : forall l, (forall o, In o l -> (o_night o <= top_night l)%Z) /\ (l <> [] -> exists o, In o l /\ o_night o = top_night l).
Proof.
  intros [|x r]; [split; [intros o []|congruence]|]. cbn [top_night].
  assert (H : forall r a, (a <= fold_left (fun a x => Z.max a (o_night x)) r a)%Z /\ (forall o, In o r -> (o_night o <= fold_left (fun a x => Z.max a (o_night x)) r a)%Z) /\
    (fold_left (fun a x => Z.max a (o_night x)) r a = a \/ exists o, In o r /\ o_night o = fold_left (fun a x => Z.max a (o_night x)) r a)).
  { clear. induction r as [|y r IH]; intros a; cbn [fold_left]; [split; [lia|split; [intros o []|left; reflexivity]]|]. destruct (IH (Z.max a (o_night y))) as (A & C & D). split; [lia|]. split.
    - intros o [<-|I]; [lia|apply C; exact I].
    - destruct D as [D|(o & I & D)]; [|right; exists o; split; [right; exact I|exact D]]. rewrite D. destruct (Z.max_spec a (o_night y)) as [[_ M]|[_ M]]; rewrite M; [right; exists y; split; [left; reflexivity|reflexivity]|left; reflexivity]. }
  destruct (H r (o_night x)) as (A & C & D). split; [intros o [<-|I]; [exact A|apply C; exact I]|]. intros _. destruct D as [D|(o & I & D)]; [exists x; split; [left; reflexivity|congruence]|exists o; split; [right; exact I|exact D]].
Qed.
Theorem C93_pairs : forall G l o, In o (pairs G l) <-> In o l /\ o_note o = (g_bnote G ++ ", b")%string /\ forall x, In x l -> (o_night x <= o_night o)%Z.
Proof.
  intros G l o. unfold pairs. rewrite filter_In. unfold second_of_pair. rewrite andb_true_iff, String.eqb_eq, Z.eqb_eq. destruct (top_spec l) as [A C]. split.
  - intros (I & N & T). split; [exact I|]. split; [exact N|]. intros x Ix. rewrite T. apply A. exact Ix.
  - intros (I & N & T). split; [exact I|]. split; [exact N|]. destruct C as (x & Ix & Ex); [intros ->; contradiction|]. pose proof (A o I). pose proof (T x Ix). lia.
Qed.
Print Assumptions C93_pairs.

Section S.
Variable F : scfg.
Variable py_int : string -> option Z.
Variable reward_val : Q.
Variable alt_at : Q -> Q -> Q -> Q.
Variable B : Type.
Variable blob_calc : B -> scond -> B * list er.
Variable blob_gen : B -> scond -> B * option (list obs).
Variable blob_add : B -> list obs -> B.
Variable G : lcfg.
Variable fuel : nat.
Let run := l_run F py_int reward_val alt_at B blob_calc blob_gen blob_add G fuel.
Let calc := l_calc F reward_val B blob_calc G.
Let gen := l_gen F B blob_gen.
Let report := l_report F py_int alt_at B blob_add G fuel.
Let init := l_init B.

(** ** The script *)
(** After any calls the script holds, for every report since the survey last saw a new
    night, in order, one row for each second visit of a pair: same position, band and
    exposure, the gap of the night later, moved on by whole steps, the fewest that keep
    every looked-at altitude within the limit. *)
Theorem C93_script : forall id b ops s, of_time alt_at -> Forall well_formed ops -> run (init id b) ops = Some s ->
  explained alt_at G (live (-1) [] ops) (st_wanted (l_scr B s)).
Proof.
  intros id b ops s A W R. apply (run_facts F py_int reward_val alt_at B blob_calc blob_gen blob_add G fuel A ops (init id b) s [] [] id W R); [constructor|reflexivity].
Qed.
(** A new night empties it. *)
Theorem C93_new_night : forall s n c s' r, calc s n c = (s', Ok r) -> l_night B s <> n -> st_wanted (l_scr B s') = [].
Proof.
  intros s n c s' r H N. destruct (calc_facts F reward_val B blob_calc G s n c s' r H) as (_ & W & _). rewrite W. destruct (Z.eqb_spec n (l_night B s)); [congruence|reflexivity].
Qed.
(** Other visits change nothing in it but marks of completion. *)
Theorem C93_others : forall single s l s', report single s l = (s', Ok tt) -> (forall o, In o l -> o_note o <> (g_bnote G ++ ", b")%string) ->
  map s_note (st_wanted (l_scr B s')) = map s_note (st_wanted (l_scr B s)).
Proof.
  intros single s l s' H N. unfold report, l_report in H. destruct (schedule py_int alt_at B G fuel s l) as [s1 [u|e]] eqn:E; [|discriminate]. injection H as <-.
  assert (P : pairs G l = []) by (destruct (pairs G l) as [|o r] eqn:P; [reflexivity|]; exfalso; assert (I : In o (pairs G l)) by (rewrite P; left; reflexivity); apply C93_pairs in I; apply (N o); tauto).
  assert (S1 : l_scr B s1 = l_scr B s).
  { unfold schedule in E. destruct l as [|o l]; [discriminate|]. destruct (py_get (g_gaps G) (top_night (o :: l))); [|discriminate]. fold (pairs G (o :: l)) in E. rewrite P in E. injection E as <-. reflexivity. }
  cbn [l_scr]. rewrite <- S1. assert (M : forall w w', Forall2 same w w' -> map s_note w' = map s_note w) by (intros w w' H; induction H as [|x y w w' [->| ->] H IH]; cbn; congruence).
  apply M. destruct single; [destruct l; [apply same_refl|apply same_add]|apply same_array].
Qed.

(** ** Times *)
(** What is offered at a time not asked before comes from a visit reported this night,
    whose follow-up time is near. *)
Theorem C93_window_partial : forall id b ops s n c s' r l, of_time alt_at -> Forall well_formed ops -> run (init id b) ops = Some s ->
  (f_sort F = None \/ f_sort F = Some "HA"%string) -> ~ (c_mjd c == -1)%Q -> (forall c', (exists n', In (Calc n' c') ops) \/ In (Gen c') ops -> ~ (c_mjd c' == c_mjd c)%Q) ->
  calc s n c = (s', Ok r) -> l_r2 B s' = Some (EFin reward_val) -> snd (gen s' c) = Ok l ->
  exists rows, rows <> [] /\ l = Some (f_det F c (map to_obs rows)) /\
    forall row, In row rows -> s_done row = false /\ exists batch o gap k, In batch (live (-1) [] (ops ++ [Calc n c])) /\ In o (pairs G batch) /\ py_get (g_gaps G) (top_night batch) = Ok gap /\
      follows G gap k o row /\ (g_zen G = false -> k = 0) /\
      (o_mjd o + gap + inject_Z (Z.of_nat k) * g_step G - g_tol G < c_mjd c)%Q /\ (c_mjd c < o_mjd o + gap + inject_Z (Z.of_nat k) * g_step G + g_flush G)%Q.
Proof.
  intros id b ops s n c s' r l A W R FS N1 NG C R2 Gn.
  destruct (run_facts F py_int reward_val alt_at B blob_calc blob_gen blob_add G fuel A ops (init id b) s [] [] id W R) as [Ex (sops & S1 & S2)]; [constructor|reflexivity|]. cbn [List.app] in S1.
  destruct (calc_facts F reward_val B blob_calc G s n c s' r C) as (_ & Wn & rows & Ge & Er & _). cbv zeta in Ge.
  set (s0 := if (n =? l_night B s)%Z then l_scr B s else clear_script (l_scr B s)) in *.
  assert (Cs : consistent (l_scr B s)) by (eapply run_consistent; [apply init_consistent|exact S1]).
  assert (C0 : consistent s0) by (unfold s0; destruct (n =? l_night B s)%Z; [exact Cs|]; split; [constructor|left; reflexivity]).
  assert (Fr : fresh (l_scr B s) c) by (eapply run_fresh; [exact S1|exact N1|]; intros c' I; apply NG; apply S2; exact I).
  assert (F0 : fresh s0 c) by (unfold s0; destruct (n =? l_night B s)%Z; exact Fr).
  assert (Ne : rows <> []) by (intros ->; rewrite Er in R2; discriminate).
  unfold gen, l_gen in Gn. rewrite R2 in Gn. cbn [er_ltb] in Gn. rewrite (generate_again F s0 c _ _ Ge) in Gn. cbn [snd] in Gn. injection Gn as <-.
  destruct (generate_window F s0 c rows C0 FS F0) as (sel & Ns & Es & Hs); [rewrite Ge; reflexivity|exact Ne|]. exists sel. split; [exact Ns|]. split; [congruence|].
  intros row I. destruct (Hs row I) as (Iw & T1 & T2 & D). split; [exact D|].
  assert (Ln : explained alt_at G (live (-1) [] (ops ++ [Calc n c])) (st_wanted (l_scr B s'))).
  { apply (run_facts F py_int reward_val alt_at B blob_calc blob_gen blob_add G fuel A (ops ++ [Calc n c]) (init id b) s' [] [] id); [apply Forall_app; split; [exact W|repeat constructor]| |constructor|reflexivity].
    clear -R C. unfold run in *. assert (App : forall a x q, l_run F py_int reward_val alt_at B blob_calc blob_gen blob_add G fuel x a = Some q -> l_run F py_int reward_val alt_at B blob_calc blob_gen blob_add G fuel x (a ++ [Calc n c]) = l_run F py_int reward_val alt_at B blob_calc blob_gen blob_add G fuel q [Calc n c]).
    { induction a as [|o a IH]; intros x q H; cbn [l_run List.app] in *; [injection H as <-; reflexivity|]. destruct (l_step _ _ _ _ _ _ _ _ _ _ x o) as [x1|]; [|discriminate]. apply IH. exact H. }
    rewrite (App _ _ _ R). cbn. fold calc. rewrite C. reflexivity. }
  assert (Iw' : In row (st_wanted (l_scr B s'))) by (rewrite Wn; unfold s0 in Iw; destruct (n =? l_night B s)%Z; exact Iw).
  destruct (explained_in alt_at G _ _ row Ln Iw') as (batch & o & gap & k & I1 & I2 & I3 & Fo & Z). exists batch, o, gap, k. split; [exact I1|]. split; [exact I2|]. split; [exact I3|]. split; [exact Fo|]. split; [exact Z|].
  destruct Fo as ((M & Fl & Tl & _) & _). rewrite Tl in T1. rewrite M in T1. rewrite Fl, M in T2. split; assumption.
Qed.

(** A follow-up whose visit is reported is done, so not offered again (C93_window_partial). *)
Theorem C93_done : forall id b ops s single l s' o row, of_time alt_at -> Forall well_formed ops -> run (init id b) ops = Some s -> (single = true -> List.length l = 1) ->
  report single s l = (s', Ok tt) -> In o l -> (forall ig, In ig (f_ignore F) -> contains ig (o_note o) = false) ->
  In row (st_wanted (l_scr B s')) -> s_note row = o_note o -> s_done row = true.
Proof.
  intros id b ops s single l s' o row A W R L1 H I Ig Ir En.
  destruct (run_facts F py_int reward_val alt_at B blob_calc blob_gen blob_add G fuel A ops (init id b) s [] [] id W R) as [_ (sops & S1 & _)]; [constructor|reflexivity|]. cbn [List.app] in S1.
  assert (Cs : consistent (l_scr B s)) by (eapply run_consistent; [apply init_consistent|exact S1]).
  unfold report, l_report in H. destruct (schedule py_int alt_at B G fuel s l) as [s1 [u|e]] eqn:E; [|discriminate]. injection H as <-. cbn [l_scr] in Ir.
  assert (C1 : NoDup (map s_note (st_wanted (l_scr B s1)))).
  { destruct (schedule_part py_int alt_at B G fuel A s l s1 u E) as (_ & _ & _ & rows & _ & _ & [Q|(new & Q)]); [rewrite Q; apply Cs|].
    destruct (set_script_ok _ _ _ _ _ _ _ Q) as (n0 & _ & N & _). exact N. }
  destruct single.
  - destruct l as [|o' [|o'' l]]; [contradiction| |specialize (L1 eq_refl); discriminate]. destruct I as [<-|[]]. unfold add_observation in Ir.
    assert (Gd : good_note F o' = true).
    { unfold good_note. apply negb_true_iff. destruct (existsb _ _) eqn:X; [|reflexivity]. apply existsb_exists in X. destruct X as (ig & I1 & I2). rewrite (Ig ig I1) in I2. discriminate. }
    rewrite Gd in Ir. destruct (st_wanted (l_scr B s1)) as [|w ws] eqn:Ew; [rewrite Ew in Ir; contradiction|]. cbn [with_wanted st_wanted] in Ir. apply (mark_closed (o_note o') (w :: ws) row C1 Ir En).
  - unfold add_array in Ir. destruct (st_wanted (l_scr B s1)) as [|w ws] eqn:Ew; [cbn in Ir; rewrite Ew in Ir; contradiction|]. cbn [st_wanted] in Ir. apply in_map_iff in Ir. destruct Ir as (x & Ex & Ix).
    destruct (smem (s_note x) (map o_note l)) eqn:M; [rewrite <- Ex; reflexivity|]. exfalso. rewrite Ex in M. rewrite En in M.
    assert (X : smem (o_note o) (map o_note l) = true) by (unfold smem; apply existsb_exists; exists (o_note o); split; [apply in_map; exact I|apply String.eqb_refl]). congruence.
Qed.

(** The follow-up time is within the range of gaps of the visit, but for the steps. *)
Theorem C93_gap : forall gmin gmax gap k batch o row, Forall (fun g => gmin <= g /\ g <= gmax)%Q (g_gaps G) -> (0 <= g_step G)%Q ->
  py_get (g_gaps G) (top_night batch) = Ok gap -> follows G gap k o row -> (gmin <= s_mjd row - o_mjd o)%Q /\ (s_mjd row - o_mjd o <= gmax + inject_Z (Z.of_nat k) * g_step G)%Q.
Proof.
  intros gmin gmax gap k batch o row A P Eg ((M & _) & _). assert (I : In gap (g_gaps G)).
  { revert Eg. unfold py_get. destruct (nth_error _ _) as [x|] eqn:E; [|discriminate]. destruct (_ <? - _)%Z; intros X; [discriminate X|]. injection X as <-. eapply nth_error_In. exact E. }
  rewrite Forall_forall in A. destruct (A gap I). assert (0 <= inject_Z (Z.of_nat k))%Q by (change 0%Q with (inject_Z 0); rewrite <- Zle_Qle; lia). rewrite M.
  assert (0 <= inject_Z (Z.of_nat k) * g_step G)%Q by (apply Qmult_le_0_compat; assumption). set (x := (inject_Z (Z.of_nat k) * g_step G)%Q) in *. clearbody x. split; lra.
Qed.

(** ** The offer *)
(** Asked just after the reward, the scripted visits come first, else the pairs; the
    reward is the better of the two, undefined values aside. *)
Theorem C93_offer : forall s n c s' r, calc s n c = (s', Ok r) ->
  let pairs_reward := nanmax (snd (blob_calc (l_blob B s) c)) in
  (exists l, l <> [] /\ snd (gen s' c) = Ok (Some l) /\ snd (generate F (if (n =? l_night B s)%Z then l_scr B s else clear_script (l_scr B s)) c) = Ok l /\
     er_le (EFin reward_val) r /\ (pairs_reward <> ENaN -> er_le pairs_reward r) /\ (r = EFin reward_val \/ r = pairs_reward)) \/
  (snd (gen s' c) = Ok (snd (blob_gen (l_blob B s') c)) /\ snd (generate F (if (n =? l_night B s)%Z then l_scr B s else clear_script (l_scr B s)) c) = Ok [] /\
     l_blob B s' = fst (blob_calc (l_blob B s) c) /\ (pairs_reward <> ENaN -> r = pairs_reward) /\ (pairs_reward = ENaN -> r = ENInf)).
Proof.
  intros s n c s' r H pr. destruct (calc_facts F reward_val B blob_calc G s n c s' r H) as (_ & _ & l & Ge & Er & Eb & ->). cbv zeta in Ge. fold pr. clearbody pr.
  set (s0 := if (n =? l_night B s)%Z then l_scr B s else clear_script (l_scr B s)) in *. destruct l as [|o l].
  - right. split; [unfold gen, l_gen; rewrite Er; cbn [er_ltb]; destruct (blob_gen (l_blob B s') c); reflexivity|]. split; [rewrite Ge; reflexivity|]. split; [exact Eb|].
    split; intros E; [destruct pr; try reflexivity; try congruence|rewrite E; reflexivity].
  - left. exists (o :: l). split; [discriminate|]. split; [unfold gen, l_gen; rewrite Er; cbn [er_ltb]; rewrite (generate_again F s0 c _ _ Ge); reflexivity|]. split; [rewrite Ge; reflexivity|].
    destruct pr as [| |q|].
    + cbn. split; [apply Qle_refl|]. split; [congruence|left; reflexivity].
    + cbn. split; [apply Qle_refl|]. split; [intros _; exact Logic.I|left; reflexivity].
    + replace (nanmax [EFin q; EFin reward_val]) with (if Qltb q reward_val then EFin reward_val else EFin q) by reflexivity.
      destruct (Qltb q reward_val) eqn:E; [apply Qltb_lt in E; split; [apply Qle_refl|split; [intros _; cbn; lra|left; reflexivity]]|apply Qltb_false in E; split; [exact E|split; [intros _; apply Qle_refl|right; reflexivity]]].
    + cbn. split; [exact Logic.I|]. split; [intros _; exact Logic.I|right; reflexivity].
Qed.

(** ** Calls that cannot succeed *)
Theorem C93_unasked : forall id b ops s c, Forall (fun o => match o with Calc _ _ => False | _ => True end) ops -> run (init id b) ops = Some s -> snd (gen s c) = Raise AttributeError.
Proof.
  intros id b ops s c H R. assert (X : l_r2 B s = None).
  { assert (Y : l_r2 B (init id b) = None) by reflexivity. revert R Y. generalize (init id b). unfold run. induction H as [|o ops Ho H IH]; intros s0 R Y; cbn in R; [injection R as <-; exact Y|].
    destruct o as [x l|n d|d]; [|contradiction|]; cbn in R.
    - destruct (l_report F py_int alt_at B blob_add G fuel x s0 l) as [s1 [u|e]] eqn:E; [|discriminate]. apply (IH s1); [exact R|]. unfold l_report in E. destruct (schedule py_int alt_at B G fuel s0 l) as [s2 [v|e]] eqn:E2; [|discriminate]. injection E as <-. cbn.
      unfold schedule in E2. destruct l; [discriminate|]. destruct (py_get _ _); [|discriminate]. destruct (filter _ _); [injection E2 as <-; exact Y|]. destruct (if g_zen G then _ else _); [|discriminate]. destruct (set_script _ _ _ _ _) as [q z]. injection E2 as <- _. exact Y.
    - unfold l_gen in R. rewrite Y in R. discriminate. }
  unfold gen, l_gen. rewrite X. reflexivity.
Qed.
Theorem C93_site : forall single s l gap, g_site G = true -> g_zen G = true -> (0 < g_step G)%Q -> (0 <= g_tol G)%Q -> py_get (g_gaps G) (top_night l) = Ok gap -> pairs G l <> [] ->
  snd (report single s l) = Raise AttributeError.
Proof.
  intros single s l gap Hs Hz P T Eg Np. unfold report, l_report, schedule. destruct l as [|o l]; [exfalso; apply Np; reflexivity|]. rewrite Eg. fold (pairs G (o :: l)). rewrite Hz. set (need := pairs G (o :: l)) in *. clearbody need.
  destruct need as [|x need]; [congruence|]. assert (Tm : times G (map (row_of G gap) (x :: need)) <> []).
  { unfold times. set (rows := map (row_of G gap) (x :: need)). destruct (qmin_spec (map (fun s => (s_mjd s - s_tol s)%Q) rows)) as [A1 A2]; [discriminate|]. destruct (qmax_spec (map s_mjd rows)) as [C1 C2]; [discriminate|].
    assert (I : In (row_of G gap x) rows) by (left; reflexivity). pose proof (A2 _ (in_map _ _ _ I)) as L. pose proof (C2 _ (in_map _ _ _ I)) as U. cbn [row_of s_tol s_mjd] in L. cbn [row_of s_mjd] in U.
    set (lo := qmin _) in *. set (hi := qmax _) in *. clearbody lo hi. intros X. assert (In (lo + inject_Z (Z.of_nat 0) * g_step G)%Q (arange lo (hi + g_step G) (g_step G))).
    { apply arange_in. split; [exact P|]. exists 0. split; [reflexivity|]. change (inject_Z (Z.of_nat 0)) with 0%Q. lra. }
    rewrite X in H. exact H. }
  assert (E : too_high alt_at G (map (row_of G gap) (x :: need)) = Raise AttributeError) by (unfold too_high; destruct (times G _); [congruence|]; rewrite Hs; reflexivity).
  destruct fuel; unfold clear_zenith; fold clear_zenith; rewrite E; reflexivity.
Qed.
(** A report of a night past the gaps is refused, whatever its visits. *)
Theorem C93_index : forall single s l, l <> [] -> (Z.of_nat (List.length (g_gaps G)) <= top_night l)%Z -> snd (report single s l) = Raise IndexError.
Proof.
  intros single s l Ne L. unfold report, l_report, schedule. destruct l as [|o l]; [congruence|]. assert (E : py_get (g_gaps G) (top_night (o :: l)) = Raise IndexError).
  { unfold py_get. replace (top_night (o :: l) <? 0)%Z with false by (symmetry; apply Z.ltb_ge; lia). rewrite (proj2 (nth_error_None _ _)) by lia. reflexivity. }
  rewrite E. reflexivity.
Qed.

(** ** Waiting for the zenith *)
Lemma times_some : forall gap k need rows, need <> [] -> (0 < g_step G)%Q -> (0 <= g_tol G)%Q -> Forall2 (base_row G gap k) need rows -> times G rows <> [].
Proof.
  intros gap k need rows Ne P T H. destruct H as [|o r need rows Hb H]; [congruence|]. unfold times. set (all := r :: rows).
  destruct (qmin_spec (map (fun s => (s_mjd s - s_tol s)%Q) all)) as [A1 A2]; [discriminate|]. destruct (qmax_spec (map s_mjd all)) as [C1 C2]; [discriminate|].
  assert (I : In r all) by (left; reflexivity). pose proof (A2 _ (in_map (fun s => (s_mjd s - s_tol s)%Q) _ _ I)) as L. pose proof (C2 _ (in_map _ _ _ I)) as U. destruct Hb as (_ & _ & Et & _). cbv beta in L. rewrite Et in L.
  set (lo := qmin _) in *. set (hi := qmax _) in *. clearbody lo hi. intros X. assert (Y : In (lo + inject_Z (Z.of_nat 0) * g_step G)%Q (arange lo (hi + g_step G) (g_step G))).
  { apply arange_in. split; [exact P|]. exists 0. split; [reflexivity|]. change (inject_Z (Z.of_nat 0)) with 0%Q. lra. }
  rewrite X in Y. exact Y.
Qed.
Lemma clear_ends : forall gap need d k rows, of_time alt_at -> need <> [] -> (0 < g_step G)%Q -> (0 <= g_tol G)%Q -> g_site G = false -> Forall2 (base_row G gap k) need rows ->
  ~ high alt_at G need gap (k + d) -> exists rows', clear_zenith alt_at G d rows = Ok rows'.
Proof.
  intros gap need. induction d as [|d IH]; intros k rows A Ne P T S H N; pose proof (times_some gap k need rows Ne P T H) as Tm; cbn [clear_zenith];
    (destruct (too_high alt_at G rows) as [h|e] eqn:E; [|exfalso; unfold too_high in E; destruct (times G rows); [congruence|]; rewrite S in E; discriminate]); cbn [bind];
    pose proof (high_iff alt_at G A need gap k rows h Ne H E) as Hi; destruct h; try (eexists; reflexivity).
  - exfalso. apply N. rewrite Nat.add_0_r. apply Hi. reflexivity.
  - apply (IH (Datatypes.S k)); try assumption; [|replace (Datatypes.S k + d) with (k + Datatypes.S d) by lia; exact N].
    clear -H. induction H; cbn; [constructor|]. constructor; [apply base_later; assumption|exact IHForall2].
Qed.
Lemma clear_stuck : forall gap need d k rows, of_time alt_at -> need <> [] -> (0 < g_step G)%Q -> (0 <= g_tol G)%Q -> g_site G = false -> Forall2 (base_row G gap k) need rows ->
  (forall j, high alt_at G need gap j) -> clear_zenith alt_at G d rows = Raise OutOfFuel.
Proof.
  intros gap need. induction d as [|d IH]; intros k rows A Ne P T S H N; pose proof (times_some gap k need rows Ne P T H) as Tm; cbn [clear_zenith];
    (destruct (too_high alt_at G rows) as [h|e] eqn:E; [|exfalso; unfold too_high in E; destruct (times G rows); [congruence|]; rewrite S in E; discriminate]); cbn [bind];
    pose proof (high_iff alt_at G A need gap k rows h Ne H E) as Hi; rewrite (proj2 Hi (N k)); [reflexivity|].
  apply (IH (Datatypes.S k)); try assumption. clear -H. induction H; cbn; [constructor|]. constructor; [apply base_later; assumption|exact IHForall2].
Qed.
End S.

(** The wait for the zenith ends just when some delay clears it. *)
Theorem C93_zenith : forall F py_int alt_at B blob_add G single s l gap, of_time alt_at -> g_zen G = true -> g_site G = false -> (0 < g_step G)%Q -> (0 <= g_tol G)%Q ->
  py_get (g_gaps G) (top_night l) = Ok gap -> pairs G l <> [] ->
  ((exists fuel, snd (l_report F py_int alt_at B blob_add G fuel single s l) <> Raise OutOfFuel) <-> exists k, ~ high alt_at G (pairs G l) gap k).
Proof.
  intros F py_int alt_at B blob_add G single s l gap A Z S P T Eg Ne.
  assert (B0 : Forall2 (base_row G gap 0) (pairs G l) (map (row_of G gap) (pairs G l))) by (generalize (pairs G l); clear; induction l; cbn; constructor; [apply row_base|assumption]).
  assert (Shape : forall fuel, snd (l_report F py_int alt_at B blob_add G fuel single s l) =
    match clear_zenith alt_at G fuel (map (row_of G gap) (pairs G l)) with Raise e => Raise e | Ok rows => match snd (set_script py_int (l_scr B s) rows true true) with Ok _ => Ok tt | Raise e => Raise e end end).
  { intros fuel. unfold l_report, schedule. destruct l as [|o l]; [exfalso; apply Ne; reflexivity|]. rewrite Eg. fold (pairs G (o :: l)). rewrite Z. destruct (pairs G (o :: l)) as [|x need]; [congruence|].
    destruct (clear_zenith alt_at G fuel (map (row_of G gap) (x :: need))) as [rows|e]; [|reflexivity]. cbn [l_scr]. destruct (set_script py_int (l_scr B s) rows true true) as [st [u|e]]; reflexivity. }
  split.
  - intros (fuel & H). rewrite Shape in H. destruct (clear_zenith alt_at G fuel (map (row_of G gap) (pairs G l))) as [rows|e] eqn:E.
    + destruct (clear_spec alt_at G A (pairs G l) gap fuel 0 _ rows Ne B0 E) as (j & _ & _ & _ & N & _). exists j. exact N.
    + exfalso. apply H. f_equal. revert B0 E. generalize 0 at 1. generalize (map (row_of G gap) (pairs G l)). clear H Shape. induction fuel as [|fuel IH]; intros rows k B0 E; cbn [clear_zenith] in E; pose proof (times_some G gap k _ rows Ne P T B0) as Tm;
        (destruct (too_high alt_at G rows) as [h|e'] eqn:Eh; [|exfalso; unfold too_high in Eh; destruct (times G rows); [congruence|]; rewrite S in Eh; discriminate]); cbn [bind] in E; destruct h; try discriminate; [congruence|].
      apply (IH (map (later (g_step G)) rows) (Datatypes.S k)); [|exact E]. clear -B0. induction B0; cbn; [constructor|]. constructor; [apply base_later; assumption|exact IHB0].
  - intros (k & N). destruct (clear_ends alt_at G gap (pairs G l) k 0 _ A Ne P T S B0 N) as (rows & E). exists k. rewrite Shape, E. 
    destruct (set_script py_int (l_scr B s) rows true true) as [st [u|e]] eqn:Es; cbn [snd]; [discriminate|]. unfold set_script in Es. destruct (nodupb _); [discriminate|]. injection Es as _ <-. discriminate.
Qed.
Print Assumptions C93_zenith.
Print Assumptions C93_script.
Print Assumptions C93_new_night.
Print Assumptions C93_others.
Print Assumptions C93_window_partial.
Print Assumptions C93_done.
Print Assumptions C93_gap.
Print Assumptions C93_offer.
Print Assumptions C93_unasked.
Print Assumptions C93_site.
Print Assumptions C93_index.

(** ** A worked night *)
Open Scope string_scope.
Definition ex_F : scfg := mkScfg [] 5 true 0 true false None (fun _ => true) (fun _ => None) (fun _ l => l) (fun _ _ _ => 1%Q) (fun _ ra _ => ra) (fun _ _ _ => 1%Q) (fun ra => ra) 6.
Definition ex_c (t n18 : Q) : scond := mkScond t ["r"] "r" 3 (-1) n18 None (0%Q, 2%Q) None (0%Q, 6%Q).
Definition ex_pi (s : string) : option Z := None.
(** Too high until a tenth of a day after 100. *)
Definition ex_alt (ra dec t : Q) : Q := if Qle_bool t (1001 # 10) then 2%Q else 1%Q.
Definition ex_G (zen : bool) : lcfg := mkL "pair" "long" [1 # 8; 1 # 8; 1 # 6] (1 # 12) (1 # 12) (1 # 48) 0 (3 # 2) 24 0 (-(1 # 4)) zen false (1 # 48).
Definition ex_v (note : string) (t : Q) (night : Z) : obs := mkObs 0 0 t night 0 1 1 0 30 1 "r" "" note.
Definition ex_blob : list obs := [ex_v "pair, a" 0 0].
Definition ex_run (zen : bool) (ops : list lop) : option (lst unit) :=
  l_run ex_F ex_pi 9 ex_alt unit (fun b _ => (b, [EFin 1])) (fun b _ => (b, Some ex_blob)) (fun b _ => b) (ex_G zen) 20 (l_init unit 1 tt) ops.
Definition ex_script (zen : bool) (ops : list lop) : option (list (string * Q)) := option_map (fun s => map (fun r => (s_note r, Qred (s_mjd r))) (st_wanted (l_scr unit s))) (ex_run zen ops).
Definition ex_offer (zen : bool) (ops : list lop) (c : scond) : option (res (option (list string))) :=
  option_map (fun s => match snd (l_gen ex_F unit (fun b _ => (b, Some ex_blob)) s c) with Ok l => Ok (option_map (map o_note) l) | Raise e => Raise e end) (ex_run zen ops).
Definition ex_night : list lop := [Calc 1 (ex_c 100 101); Report false [ex_v "pair, a" (9999 # 100) 1; ex_v "pair, b" 100 1; ex_v "other, b" 100 1; ex_v "pair, b" 98 0]; Report true [ex_v "pair, b" (10001 # 100) 1]].
Example C93_ex_of_time : of_time ex_alt.
Proof. intros ra dec t t' E. unfold ex_alt. rewrite E. reflexivity. Qed.
Example C93_ex_script : Forall well_formed ex_night /\ ex_script true ex_night = Some [("long, 1", 1603 # 16); ("long, 2", 40079 # 400)]%Q /\
  ex_script false ex_night = Some [("long, 1", 801 # 8); ("long, 2", 20027 # 200)]%Q /\ live (-1) [] ex_night = [[ex_v "pair, a" (9999 # 100) 1; ex_v "pair, b" 100 1; ex_v "other, b" 100 1; ex_v "pair, b" 98 0]; [ex_v "pair, b" (10001 # 100) 1]].
Proof. split; [repeat constructor; discriminate|]. split; [vm_compute; reflexivity|]. split; [vm_compute; reflexivity|reflexivity]. Qed.
Example C93_ex_offer : ex_offer false (ex_night ++ [Calc 1 (ex_c (10006 # 100) 101)]) (ex_c (10006 # 100) 101) = Some (Ok (Some ["long, 1"; "long, 2"])) /\
  ex_offer false (ex_night ++ [Calc 1 (ex_c (10001 # 100) 101)]) (ex_c (10001 # 100) 101) = Some (Ok (Some ["pair, a"])) /\
  ex_offer false (ex_night ++ [Calc 2 (ex_c (10006 # 100) 101)]) (ex_c (10006 # 100) 101) = Some (Ok (Some ["pair, a"])) /\
  ex_offer false [] (ex_c 100 101) = Some (Raise AttributeError).
Proof. repeat split; vm_compute; reflexivity. Qed.

(** ** What does not hold *)
(** After a restart in the night the visits reported back leave no follow-ups. *)
Theorem C93_restart_refuted : exists v n c c', ex_script true [Calc n c; Report true [v]; Calc n c'] = Some [("long, 1", 1603 # 16)%Q] /\
  ex_script true [Report false [v]; Calc n c'] = Some [] /\ o_night v = n /\ (o_mjd v < c_mjd c')%Q.
Proof. exists (ex_v "pair, b" 100 1), 1%Z, (ex_c 100 101), (ex_c (1002 # 10) 101). repeat split; vm_compute; reflexivity. Qed.
Print Assumptions C93_restart_refuted.
(** Follow-ups are scheduled past the end of the night, shortening the gap notwithstanding. *)
Theorem C93_night_end_refuted : exists v n c s, ex_run true [Calc n c; Report true [v]] = Some s /\ (o_mjd v < c_n18 c)%Q /\
  forall row, In row (st_wanted (l_scr unit s)) -> (c_n18 c < s_mjd row - s_tol row)%Q.
Proof.
  exists (ex_v "pair, b" 100 1), 1%Z, (ex_c 100 (10002 # 100)). eexists. split; [vm_compute; reflexivity|]. split; [vm_compute; reflexivity|]. intros row [<-|[]]. vm_compute. reflexivity.
Qed.
Print Assumptions C93_night_end_refuted.
(** Nights before the start are given the gaps of the last nights. *)
Theorem C93_negative_refuted : exists v s, o_night v = (-1)%Z /\ ex_run false [Report true [v]] = Some s /\ map (fun r => Qred (s_mjd r)) (st_wanted (l_scr unit s)) = [Qred (o_mjd v + last (g_gaps (ex_G false)) 0%Q)%Q].
Proof. exists (ex_v "pair, b" 100 (-1)). eexists. split; [reflexivity|]. split; vm_compute; reflexivity. Qed.
Print Assumptions C93_negative_refuted.
(** A position always above the limit: the report never returns. *)
Example C93_ex_stuck : forall fuel, snd (l_report ex_F ex_pi (fun _ _ _ => 2%Q) unit (fun b _ => b) (ex_G true) fuel true (l_init unit 1 tt) [ex_v "pair, b" 100 1]) = Raise OutOfFuel.
Proof.
  intros fuel. destruct (C93_zenith ex_F ex_pi (fun _ _ _ => 2%Q) unit (fun b _ => b) (ex_G true) true (l_init unit 1 tt) [ex_v "pair, b" 100 1] (1 # 8)) as [H _]; try reflexivity; [intros ra dec t t' _; reflexivity|vm_compute; congruence|vm_compute; congruence|].
  set (r := snd (l_report _ _ _ _ _ _ fuel _ _ _)) in *. assert (D : r = Raise OutOfFuel \/ r <> Raise OutOfFuel).
  { destruct r as [u|e]; [right; discriminate|]. destruct e; try (right; discriminate). left. reflexivity. }
  destruct D as [D|D]; [exact D|]. destruct H as (k & N); [exists fuel; exact D|]. exfalso. apply N. change (pairs (ex_G true) [ex_v "pair, b" 100 1]) with [ex_v "pair, b" 100 1].
  exists (ex_v "pair, b" 100 1), (100 + (1 # 8) + inject_Z (Z.of_nat k) * (1 # 48) - (1 # 12))%Q. split; [left; reflexivity|]. split; [|reflexivity].
  exists (ex_v "pair, b" 100 1), (ex_v "pair, b" 100 1), 0. split; [left; reflexivity|]. split; [left; reflexivity|]. split; [intros o [<-|[]]; split; apply Qle_refl|].
  cbn [ex_v ex_G o_mjd g_step g_tol]. change (inject_Z (Z.of_nat 0)) with 0%Q. split; lra.
Qed.
