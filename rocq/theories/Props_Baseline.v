(** C121: the baseline scheduler. *)
From Coq Require Import List Bool QArith ZArith String Ascii Lia Lqa.
From Verif Require Import Base IntRounded SeasonBf Obs Core TimeGate LsstSurveys Roman Baseline.
From Verif Require GenEvents.
Import ListNotations.
Open Scope string_scope.
Open Scope list_scope.

Definition within (needle hay : string) : Prop := exists a b, hay = (a ++ needle ++ b)%string.
Lemma prefix_within : forall a b, prefix a b = true -> exists c, b = (a ++ c)%string.
Proof.
  induction a as [|x a IH]; intros b H; [exists b; reflexivity|]. destruct b as [|y b]; [discriminate|]. cbn [prefix] in H. destruct (ascii_dec x y) as [->|]; [|discriminate].
  destruct (IH b H) as [c ->]. exists c. reflexivity.
Qed.
Lemma contains_within : forall n h, GenEvents.contains n h = true -> within n h.
Proof.
  intros n h. induction h as [|c h IH]; cbn [GenEvents.contains]; intros H; apply orb_true_iff in H; destruct H as [H|H].
  - destruct (prefix_within n "" H) as [b E]. exists "", b. exact E.
  - discriminate.
  - destruct (prefix_within n _ H) as [b E]. exists "", b. exact E.
  - destruct (IH H) as [a [b ->]]. exists (String c a), b. reflexivity.
Qed.

Lemma sapp_assoc : forall a b c : string, ((a ++ b) ++ c)%string = (a ++ b ++ c)%string.
Proof. induction a as [|x a IH]; intros b c; [reflexivity|]. cbn [append]. rewrite IH. reflexivity. Qed.
Lemma within_contains : forall n h, within n h -> GenEvents.contains n h = true.
Proof.
  intros n h [a [b ->]]. induction a as [|c a IH]; cbn [append].
  - assert (P : prefix n (n ++ b)%string = true). { induction n as [|c n IH]; [destruct b; reflexivity|]. cbn [append prefix]. destruct (ascii_dec c c) as [_|E]; [apply IH|contradiction E; reflexivity]. }
    destruct (n ++ b)%string; cbn [GenEvents.contains]; rewrite P; reflexivity.
  - cbn [GenEvents.contains]. rewrite IH. apply orb_true_r.
Qed.
Lemma length_drop : forall k s, (k <= String.length s)%nat -> (String.length (drop k s) + k = String.length s)%nat.
Proof. induction k as [|k IH]; intros s H; [destruct s; simpl; lia|]. destruct s as [|c s]; cbn [String.length drop] in *; [lia|]. specialize (IH s). lia. Qed.
Lemma length_sapp : forall a b, String.length (a ++ b)%string = (String.length a + String.length b)%nat.
Proof. induction a as [|c a IH]; intros b; [reflexivity|]. cbn [append String.length]. rewrite IH. reflexivity. Qed.
Lemma prefix_length : forall a b, prefix a b = true -> (String.length a <= String.length b)%nat.
Proof. intros a b H. destruct (prefix_within a b H) as [c ->]. rewrite length_sapp. lia. Qed.
(** Replacing what is not there changes nothing; replacing what is by something shorter shortens. *)
Lemma replace_absent : forall old new f s, GenEvents.contains old s = false -> replace_in f old new s = s.
Proof.
  intros old new f. induction f as [|f IH]; intros s H; [reflexivity|]. destruct s as [|c s]; [reflexivity|]. cbn [replace_in].
  cbn [GenEvents.contains] in H. apply orb_false_iff in H. destruct H as [H1 H2]. rewrite H1, (IH _ H2). reflexivity.
Qed.
Lemma replace_shorter : forall old new, (String.length new < String.length old)%nat -> forall f s, (String.length s <= f)%nat ->
  (String.length (replace_in f old new s) <= String.length s)%nat /\ (GenEvents.contains old s = true -> (String.length (replace_in f old new s) < String.length s)%nat).
Proof.
  intros old new L f. induction f as [|f IH]; intros s F.
  - destruct s as [|c s]; [|simpl in F; lia]. split; [simpl; lia|]. intros H. cbn in H. destruct old; [simpl in L; lia|discriminate H].
  - destruct s as [|c s]; [split; [simpl; lia|]; intros H; cbn in H; destruct old; [simpl in L; lia|discriminate H]|]. cbn [replace_in].
    destruct (prefix old (String c s)) eqn:P.
    + pose proof (prefix_length _ _ P) as K. pose proof (length_drop _ _ K) as D. rewrite length_sapp. assert (G : (String.length (drop (String.length old) (String c s)) <= f)%nat) by (cbn [String.length] in *; lia). destruct (IH _ G) as [X _]. split; [lia|]. intros _. lia.
    + cbn [String.length] in *. destruct (IH s ltac:(lia)) as [X Y]. split; [lia|]. intros H. cbn [GenEvents.contains] in H. rewrite P in H. cbn [orb] in H. specialize (Y H). lia.
Qed.

Section Scheduler.
Variable script : string.
Variable fmt : Z -> string.
(** The scheduler of a call, whether it then runs or not. *)
Definition sched_of (o : outcome) : scheduler := match o with Scheduled s => s | Ran r => r_sched r end.
Definition makes (a : namespace) (s : scheduler) : Prop := exists o, gen_scheduler script fmt a = Ok o /\ sched_of o = s.
Definition has (a : namespace) (m : member) : Prop := exists s g, makes a s /\ In g (groups s) /\ In m g.
Definition blob_of (a : namespace) (s : survey) : Prop := has a (Blob s) \/ exists masks, has a (LongGap s masks).
Definition all_blobs (nside : Z) (start : Q) : list survey :=
  match templates nside, long_gaps nside with
  | Ok t, Ok l => t ++ map fst l ++ blobs nside start ++ twi_blobs nside ++ neo nside ++ greedies nside
  | _, _ => []
  end.
Definition the_rest (nside : Z) (start : Q) : list (list member) :=
  match templates nside, long_gaps nside with
  | Ok tem, Ok lg => [map RomanField romans; ddfs nside; map Blob tem; map (fun p => LongGap (fst p) (snd p)) lg; map Blob (blobs nside start); map Blob (twi_blobs nside); map Blob (neo nside); map Blob (greedies nside)]
  | _, _ => []
  end.
Definition the_toos : list member := map Too (map GenEvents.f_name GenEvents.gen_too_surveys).
Lemma made : forall a s, makes a s <-> s = Scheduler ((if no_too a then [] else [the_toos]) ++ the_rest (n_nside a) (SURVEY_START_MJD + mjd_plus a)) (n_nside a) (SURVEY_START_MJD + mjd_plus a).
Proof.
  intros a s. unfold makes, gen_scheduler, the_rest.
  destruct (templates (n_nside a)) as [t|e] eqn:T; [|discriminate T]. destruct (long_gaps (n_nside a)) as [l|e] eqn:L; [|discriminate L]. cbn [bind].
  destruct (no_too a), (setup_only a); cbn [negb app]; (split; [intros [o [E <-]]; injection E as <-; reflexivity|intros ->; eexists; split; reflexivity]).
Qed.
Lemma members : forall a m, has a m <-> (no_too a = false /\ In m the_toos) \/ In m (List.concat (the_rest (n_nside a) (SURVEY_START_MJD + mjd_plus a))).
Proof.
  intros a m. unfold has. split.
  - intros [s [g [M [G I]]]]. apply made in M. subst s. cbn [groups] in G. apply in_app_or in G. destruct G as [G|G].
    + destruct (no_too a); [destruct G|]. destruct G as [<-|[]]. left. tauto.
    + right. apply in_concat. exists g. tauto.
  - intros [[N I]|I].
    + eexists _, the_toos. split; [apply made; reflexivity|]. cbn [groups]. rewrite N. split; [left; reflexivity|exact I].
    + apply in_concat in I. destruct I as [g [G I]]. eexists _, g. split; [apply made; reflexivity|]. split; [|exact I]. cbn [groups]. apply in_or_app. right. exact G.
Qed.
Lemma blob_members : forall a s, blob_of a s <-> In s (all_blobs (n_nside a) (SURVEY_START_MJD + mjd_plus a)).
Proof.
  intros a s. unfold blob_of, all_blobs. 
  assert (X : (has a (Blob s) \/ exists masks, has a (LongGap s masks)) <-> (In (Blob s) (List.concat (the_rest (n_nside a) (SURVEY_START_MJD + mjd_plus a))) \/ exists masks, In (LongGap s masks) (List.concat (the_rest (n_nside a) (SURVEY_START_MJD + mjd_plus a))))).
  { split; intros [H|[k H]]; rewrite ?members in *; [left|right; exists k|left|right; exists k; apply members]; tauto || (destruct H as [[_ H]|H]; [exfalso; apply in_map_iff in H; destruct H as [? [E _]]; discriminate E|exact H]). }
  rewrite X. clear X. unfold the_rest. destruct (templates (n_nside a)) as [t|e]; [|simpl; split; [intros [[]|[? []]]|intros []]]. destruct (long_gaps (n_nside a)) as [l|e]; [|simpl; split; [intros [[]|[? []]]|intros []]].
  cbn [List.concat]. rewrite !in_app_iff.
  assert (B : forall q, In (Blob s) (map Blob q) <-> In s q). { intros q. rewrite in_map_iff. split; [intros [x [E I]]; injection E as <-; exact I|intros I; exists s; tauto]. }
  assert (NR : ~ In (Blob s) (map RomanField romans)) by (intros [E|[E|[]]]; discriminate E). assert (ND : ~ In (Blob s) (ddfs (n_nside a))) by (intros [E|[]]; discriminate E).
  assert (NL : ~ In (Blob s) (map (fun p => LongGap (fst p) (snd p)) l)) by (rewrite in_map_iff; intros [? [E _]]; discriminate E).
  assert (NN : ~ In (Blob s) []) by (intros []).
  rewrite !B. split.
  - intros [H|[k H]]; [tauto|]. rewrite !in_app_iff in H.
    assert (NB : forall q, ~ In (LongGap s k) (map Blob q)) by (intros q; rewrite in_map_iff; intros [? [E _]]; discriminate E).
    destruct H as [H|[H|[H|[H|[H|[H|[H|[H|[]]]]]]]]]; try (exfalso; exact (NB _ H)).
    + destruct H as [E|[E|[]]]; discriminate E.
    + destruct H as [E|[]]; discriminate E.
    + apply in_map_iff in H. destruct H as [p [E I]]. injection E as <- _. right. left. apply in_map. exact I.
  - intros [H|[H|H]]; [tauto| |tauto]. right. apply in_map_iff in H. destruct H as [p [<- I]]. exists (snd p). rewrite !in_app_iff. do 3 right. left. apply in_map_iff. exists p. tauto.
Qed.

(** Always made; the same surveys with and without events, save for those that follow events, which come first. *)
Theorem C121_made : forall a, exists s, makes a s /\ sched_nside s = n_nside a /\ (sched_start s == SURVEY_START_MJD + mjd_plus a)%Q /\ List.length (groups s) = (if no_too a then 8 else 9)%nat.
Proof. intros a. eexists. split; [apply made; reflexivity|]. split; [reflexivity|]. split; [reflexivity|]. unfold the_rest. destruct (no_too a); reflexivity. Qed.
Theorem C121_events_first : forall a b s t, no_too a = false -> no_too b = true -> n_nside a = n_nside b -> mjd_plus a = mjd_plus b -> makes a s -> makes b t ->
  exists toos, groups s = toos :: groups t /\ toos <> [] /\ (forall m, In m toos -> exists n, m = Too n) /\ forall g n, In g (groups t) -> ~ In (Too n) g.
Proof.
  intros a b s t A B N M S' T. apply made in S', T. subst s t. cbn [groups]. rewrite A, B, N, M. exists the_toos. split; [reflexivity|]. split; [discriminate|]. split.
  - intros m I. apply in_map_iff in I. destruct I as [n [<- _]]. exists n. reflexivity.
  - intros g n G I. cbn [app] in G. assert (J : has b (Too n)) by (eexists _, g; split; [apply made; reflexivity|]; cbn [groups]; rewrite B; tauto). apply members in J. rewrite B in J. destruct J as [[J _]|J]; [discriminate J|].
    unfold the_rest in J. destruct (templates _); [|destruct J]. destruct (long_gaps _); [|destruct J]. cbn [List.concat] in J. rewrite !in_app_iff, !in_map_iff in J.
    repeat (destruct J as [J|J]; [try (destruct J as [? [E _]]; discriminate E); destruct J as [E|[]]; discriminate E|]). destruct J.
Qed.

(** Nights: near the sun or short pairs in twilight, never both and always one; triplets only on nights near the sun. *)
Definition modulo (s : survey) (night : Z) : Prop := exists p w c, In (NightModulo (Some p), w) (s_bfs s) /\ tc_night c = night /\ night_modulo p c = Ok true.
Definition at_night (n : Z) : tcond := mkTc 0 n 0 0 0 0 0 0 0 0 0 [] [].
Definition kept (bfs : list (bfn * Q)) : list (list bool) := flat_map (fun bw => match fst bw with NightModulo (Some p) => [p] | _ => [] end) bfs.
Lemma kept_in : forall s n, modulo s n <-> exists p, In p (kept (s_bfs s)) /\ night_modulo p (at_night n) = Ok true.
Proof.
  intros s n. unfold modulo, kept. split.
  - intros [p [w [c [I [N M]]]]]. exists p. split; [apply in_flat_map; exists (NightModulo (Some p), w); split; [exact I|left; reflexivity]|]. unfold night_modulo in *. rewrite N in M. exact M.
  - intros [p [I M]]. apply in_flat_map in I. destruct I as [[b w] [I J]]. destruct b as [| | | | | | | | | | | | | | | | | | | | | | | |[q|]| | | | |]; try destruct J as [<-|[]]; try destruct J. exists q, w, (at_night n). split; [exact I|]. split; [reflexivity|exact M].
Qed.
Lemma four : forall p n, List.length p = 4%nat -> night_modulo p (at_night n) = Ok (nth (Z.to_nat (n mod 4)) p false).
Proof.
  intros p n L. unfold night_modulo. destruct p as [|x q] eqn:E; [discriminate L|]. rewrite <- E in *. rewrite L. cbn [at_night tc_night]. change (Z.of_nat 4) with 4%Z.
  assert (B : (Z.to_nat (n mod 4) < List.length p)%nat) by (rewrite L; pose proof (Z.mod_pos_bound n 4); lia). rewrite (nth_error_nth' p false B). reflexivity.
Qed.
Lemma mod4 : forall n, (n mod 4 = 0 \/ n mod 4 = 1 \/ n mod 4 = 2 \/ n mod 4 = 3)%Z.
Proof. intros n. pose proof (Z.mod_pos_bound n 4). lia. Qed.
(** A boolean test of every survey, whatever the resolution and start. *)
Lemma every : forall (T : survey -> bool), (forall n q, forallb T (all_blobs n q) = true) -> forall a s, blob_of a s -> T s = true.
Proof. intros T H a s B. apply blob_members in B. exact (proj1 (forallb_forall _ _) (H _ _) _ B). Qed.
Definition eqbl (a b : list bool) : bool := if list_eq_dec bool_dec a b then true else false.
Definition expected (name : string) : list (list bool) :=
  if prefix "twilight_near_sun" name then [[true; false; false; false]] else if prefix "blob_long" name then [[true; false; false; false]]
  else if prefix "pair_15" name then [[false; true; true; true]] else [].
Definition lists_eq (a b : list (list bool)) : bool := if list_eq_dec (list_eq_dec bool_dec) a b then true else false.
Lemma patterns : forall a s, blob_of a s -> kept (s_bfs s) = expected (s_name s).
Proof.
  intros a s B. assert (T : lists_eq (kept (s_bfs s)) (expected (s_name s)) = true) by (revert a s B; apply (every (fun s => lists_eq (kept (s_bfs s)) (expected (s_name s)))); intros n q; reflexivity).
  unfold lists_eq in T. destruct (list_eq_dec _ _ _) as [E|]; [exact E|discriminate].
Qed.
Lemma prefix_app : forall a b, prefix a (a ++ b)%string = true.
Proof. induction a as [|c a IH]; intros b; [destruct b; reflexivity|]. cbn [append prefix]. destruct (ascii_dec c c) as [_|E]; [apply IH|contradiction E; reflexivity]. Qed.
Theorem C121_nights : forall a n s, blob_of a s ->
  ((exists r, s_name s = ("twilight_near_sun" ++ r)%string) -> (modulo s n <-> (n mod 4 = 0)%Z)) /\
  ((exists r, s_name s = ("blob_long" ++ r)%string) -> (modulo s n <-> (n mod 4 = 0)%Z)) /\
  ((exists r, s_name s = ("pair_15" ++ r)%string) -> (modulo s n <-> (n mod 4 <> 0)%Z)) /\
  (prefix "twilight_near_sun" (s_name s) = false -> prefix "blob_long" (s_name s) = false -> prefix "pair_15" (s_name s) = false -> forall p w, ~ In (NightModulo (Some p), w) (s_bfs s)).
Proof.
  intros a n s B. pose proof (patterns a s B) as K. unfold expected in K.
  assert (One : forall p, kept (s_bfs s) = [p] -> List.length p = 4%nat -> (modulo s n <-> nth (Z.to_nat (n mod 4)) p false = true)).
  { intros p E L. rewrite kept_in, E. split; [intros [q [[<-|[]] M]]|intros M; exists p; split; [left; reflexivity|]]; rewrite four in * by exact L; congruence. }
  repeat split.
  - destruct H as [r E]. rewrite E, prefix_app in K. specialize (One _ K eq_refl). intros M. apply One in M. destruct (mod4 n) as [F|[F|[F|F]]]; rewrite F in M; [exact F|discriminate M..].
  - destruct H as [r E]. rewrite E, prefix_app in K. specialize (One _ K eq_refl). intros F. apply One. rewrite F. reflexivity.
  - destruct H as [r E]. rewrite E, prefix_app in K. cbn [append prefix ascii_dec] in K. specialize (One _ K eq_refl). intros M. apply One in M. destruct (mod4 n) as [F|[F|[F|F]]]; rewrite F in M; [exact F|discriminate M..].
  - destruct H as [r E]. rewrite E, prefix_app in K. specialize (One _ K eq_refl). intros F. apply One. rewrite F. reflexivity.
  - destruct H as [r E]. rewrite E, prefix_app in K. specialize (One _ K eq_refl). intros M. apply One in M. intros F. rewrite F in M. discriminate M.
  - destruct H as [r E]. rewrite E, prefix_app in K. specialize (One _ K eq_refl). intros F. apply One. destruct (mod4 n) as [G|[G|[G|G]]]; rewrite G; [contradiction|reflexivity..].
  - intros H H0 H1 p w I. rewrite H, H0, H1 in K. assert (J : In p (kept (s_bfs s))) by (apply in_flat_map; exists (NightModulo (Some p), w); split; [exact I|left; reflexivity]). rewrite K in J. exact J.
Qed.
(** So in the twilight of every night exactly one of the two kinds may look. *)
Theorem C121_one_kind : forall a n, (exists s, blob_of a s /\ s_name s = "twilight_near_sun" /\ modulo s n) <-> ~ exists s r, blob_of a s /\ s_name s = ("pair_15" ++ r)%string /\ modulo s n.
Proof.
  intros a n.
  assert (N : exists s, blob_of a s /\ s_name s = "twilight_near_sun"). { exists (nth 20 (all_blobs (n_nside a) (SURVEY_START_MJD + mjd_plus a)) (nth 0 (greedies 0) (nth 0 (neo 0) (nth 0 (blobs 0 0) (Survey [] "" None 0 0 0 "" "" [] [] 0 None 0 ""))))). split; [apply blob_members, nth_In; vm_compute; lia|reflexivity]. }
  assert (P : exists s, blob_of a s /\ s_name s = ("pair_15" ++ ", ri")%string). { exists (nth 16 (all_blobs (n_nside a) (SURVEY_START_MJD + mjd_plus a)) (nth 0 (greedies 0) (nth 0 (neo 0) (nth 0 (blobs 0 0) (Survey [] "" None 0 0 0 "" "" [] [] 0 None 0 ""))))). split; [apply blob_members, nth_In; vm_compute; lia|reflexivity]. }
  split.
  - intros [s [B [E M]]] [t [r [B' [E' M']]]]. pose proof (proj1 (C121_nights a n s B) (ex_intro _ "" E)) as Q1. pose proof (proj1 (proj2 (proj2 (C121_nights a n t B'))) (ex_intro _ r E')) as Q2. tauto.
  - intros H. destruct N as [s [B E]]. exists s. split; [exact B|]. split; [exact E|]. apply (proj1 (C121_nights a n s B) (ex_intro _ "" E)). destruct (Z.eq_dec (n mod 4) 0) as [Z1|Z1]; [exact Z1|].
    exfalso. apply H. destruct P as [t [B' E']]. exists t, ", ri"%string. split; [exact B'|]. split; [exact E'|]. apply (proj1 (proj2 (proj2 (C121_nights a n t B'))) (ex_intro _ _ E')). exact Z1.
Qed.

(** Names: no two of the surveys but the three near the sun share one. *)
Definition the_name (m : member) : string := match m with Blob s => s_name s | LongGap s _ => s_name s | RomanField r => r_name r | Too n => n | Scripted n _ _ => n end.
Definition names_of (s : scheduler) : list string := map the_name (List.concat (groups s)).
Theorem C121_names : forall a s, makes a s -> exists before after, names_of s = before ++ ["twilight_near_sun"; "twilight_near_sun"; "twilight_near_sun"] ++ after /\ NoDup (before ++ "twilight_near_sun" :: after).
Proof.
  intros a s M. apply made in M. subst s. unfold names_of. cbn [groups].
  assert (D : forall l : list string, (if (fix nd l := match l with [] => true | x :: r => negb (existsb (String.eqb x) r) && nd r end) l then true else false) = true -> NoDup l).
  { induction l as [|x l IH]; intros H; [constructor|]. destruct (negb (existsb (String.eqb x) l)) eqn:E; [|discriminate H]. cbn [andb] in H. constructor; [|exact (IH H)].
    intros I. apply negb_true_iff in E. assert (J : existsb (String.eqb x) l = true) by (apply existsb_exists; exists x; split; [exact I|apply String.eqb_refl]). congruence. }
  exists (map the_name (List.concat ((if no_too a then [] else [the_toos]) ++ firstn 6 (the_rest (n_nside a) (SURVEY_START_MJD + mjd_plus a))))), ["greedy r"; "greedy i"; "greedy z"; "greedy y"].
  split; [destruct (no_too a); reflexivity|]. apply D. destruct (no_too a); reflexivity.
Qed.
(** So a survey may be found by its name, and the three near the sun may not. *)
Theorem C121_names_refuted : forall a s, makes a s -> ~ NoDup (names_of s).
Proof. intros a s M. destruct (C121_names a s M) as [b [c [E _]]]. rewrite E. intros N. apply NoDup_remove_2 in N. apply N. apply in_or_app. right. left. reflexivity. Qed.

(** Bands: templates in each of the six, and each of the six in a pair. *)
Theorem C121_bands : forall a b, In b ["u"; "g"; "r"; "i"; "z"; "y"] ->
  (exists s, has a (Blob s) /\ s_name s = ("templates, " ++ b)%string /\ s_band1 s = b /\ s_band2 s = None) /\
  (exists s, has a (Blob s) /\ within "pair_33" (s_name s) /\ (s_band1 s = b \/ s_band2 s = Some b) /\ s_band2 s <> None).
Proof.
  intros a b I.
  assert (F : forall k j, match nth_error (the_rest (n_nside a) (SURVEY_START_MJD + mjd_plus a)) k with Some g => match nth_error g j with Some (Blob s) => has a (Blob s) | _ => True end | None => True end).
  { intros k j. destruct (nth_error _ k) as [g|] eqn:E; [|exact Logic.I]. destruct (nth_error g j) as [[s| | | |]|] eqn:E2; try exact Logic.I. apply members. right. apply in_concat. exists g. split; [exact (nth_error_In _ _ E)|exact (nth_error_In _ _ E2)]. }
  destruct I as [<-|[<-|[<-|[<-|[<-|[<-|[]]]]]]]; split.
  - eexists. split; [exact (F 2 0)%nat|]. repeat split.
  - eexists. split; [exact (F 4 0)%nat|]. split; [exists "", ", ug"; reflexivity|]. split; [left; reflexivity|discriminate].
  - eexists. split; [exact (F 2 1)%nat|]. repeat split.
  - eexists. split; [exact (F 4 0)%nat|]. split; [exists "", ", ug"; reflexivity|]. split; [right; reflexivity|discriminate].
  - eexists. split; [exact (F 2 2)%nat|]. repeat split.
  - eexists. split; [exact (F 4 2)%nat|]. split; [exists "", ", gr"; reflexivity|]. split; [right; reflexivity|discriminate].
  - eexists. split; [exact (F 2 3)%nat|]. repeat split.
  - eexists. split; [exact (F 4 3)%nat|]. split; [exists "", ", ri"; reflexivity|]. split; [right; reflexivity|discriminate].
  - eexists. split; [exact (F 2 4)%nat|]. repeat split.
  - eexists. split; [exact (F 4 4)%nat|]. split; [exists "", ", iz"; reflexivity|]. split; [right; reflexivity|discriminate].
  - eexists. split; [exact (F 2 5)%nat|]. repeat split.
  - eexists. split; [exact (F 4 5)%nat|]. split; [exists "", ", zy"; reflexivity|]. split; [right; reflexivity|discriminate].
Qed.

(** Exposures: one snap; 30 s, 15 s near the sun; 38 s in u. *)
Definition is_nexp (d : detailer) : bool := match d with BandNexp b n e => String.eqb b "u" && Z.eqb n 1 && Qeq_bool e 38 | _ => false end.
Definition exposure_ok (s : survey) : bool :=
  Z.eqb (s_nexp s) 1 && Qeq_bool (s_exptime s) (if String.eqb (s_name s) "twilight_near_sun" then 15 else 30)
  && (negb (String.eqb (s_band1 s) "u" || match s_band2 s with Some b => String.eqb b "u" | None => false end) || existsb is_nexp (s_detailers s)).
Theorem C121_exposures : forall a s, blob_of a s -> s_nexp s = 1%Z /\ (s_exptime s == if String.eqb (s_name s) "twilight_near_sun" then 15 else 30)%Q /\
  (s_band1 s = "u" \/ s_band2 s = Some "u" -> exists e, In (BandNexp "u" 1 e) (s_detailers s) /\ (e == 38)%Q).
Proof.
  intros a s B. assert (T : exposure_ok s = true) by (revert a s B; apply every; reflexivity). unfold exposure_ok in T. apply andb_true_iff in T. destruct T as [T U]. apply andb_true_iff in T. destruct T as [N E].
  split; [apply Z.eqb_eq, N|]. split; [apply Qeq_bool_eq, E|]. intros H. apply orb_true_iff in U. destruct U as [U|U].
  - apply negb_true_iff, orb_false_iff in U. destruct U as [U1 U2], H as [H|H]; rewrite H in *; discriminate.
  - apply existsb_exists in U. destruct U as [d [I D]]. destruct d; try discriminate D. cbn [is_nexp] in D. apply andb_true_iff in D. destruct D as [D D3]. apply andb_true_iff in D. destruct D as [D1 D2]. apply String.eqb_eq in D1. apply Z.eqb_eq in D2. subst. exists exptime. split; [exact I|apply Qeq_bool_eq, D3].
Qed.

(** Shadows: the sky is looked at for as long as the survey takes; near the sun, for all four passes. *)
Definition shadow_of (b : bfn) : list Q := match b with AltAzShadowMask _ _ _ _ _ m => [m] | _ => [] end.
Definition shadow_good (s : survey) : bool :=
  let need := if String.eqb (s_name s) "twilight_near_sun" then (minutes s * 4)%Q else minutes s in
  let l := flat_map (fun bw => shadow_of (fst bw)) (s_bfs s) in negb (Nat.eqb (List.length l) 0) && forallb (Qle_bool need) l.
Theorem C121_shadows : forall a s, blob_of a s -> (exists n lo hi z1 z2 m w, In (AltAzShadowMask n lo hi z1 z2 m, w) (s_bfs s)) /\
  (forall n lo hi z1 z2 m w, In (AltAzShadowMask n lo hi z1 z2 m, w) (s_bfs s) -> (minutes s <= m)%Q /\ (s_name s = "twilight_near_sun" -> (minutes s * 4 <= m)%Q)).
Proof.
  intros a s B. assert (T : shadow_good s = true) by (revert a s B; apply every; reflexivity). assert (P : (0 <= minutes s)%Q) by (apply Qle_bool_imp_le; revert a s B T; intros a s B _; revert a s B; apply (every (fun s => Qle_bool 0 (minutes s))); reflexivity).
  unfold shadow_good in T. apply andb_true_iff in T. destruct T as [T U]. split.
  - destruct (flat_map _ (s_bfs s)) as [|m l] eqn:E; [discriminate T|]. assert (I : In m (flat_map (fun bw => shadow_of (fst bw)) (s_bfs s))) by (rewrite E; left; reflexivity). apply in_flat_map in I. destruct I as [[b w] [I J]]. destruct b; try (destruct J; fail). destruct J as [<-|[]]. do 7 eexists. exact I.
  - intros n lo hi z1 z2 m w I. assert (J : In m (flat_map (fun bw => shadow_of (fst bw)) (s_bfs s))) by (apply in_flat_map; exists (AltAzShadowMask n lo hi z1 z2 m, w); split; [exact I|left; reflexivity]).
    pose proof (proj1 (forallb_forall _ _) U _ J) as W. apply Qle_bool_imp_le in W. split.
    + destruct (String.eqb (s_name s) "twilight_near_sun"); [lra|exact W].
    + intros E. rewrite E in W. exact W.
Qed.

(** What each ignores: near the sun, the notes of all the others; the rest, those of the deep fields and near the sun. *)
Definition ignores (s : survey) (note : string) : Prop := exists w, In w (s_ignore s) /\ within w note.
Definition ign (s : survey) (note : string) : bool := existsb (fun w => GenEvents.contains w note) (s_ignore s).
Lemma ign_true : forall s note, ign s note = true -> ignores s note.
Proof. intros s note H. apply existsb_exists in H. destruct H as [w [I C]]. exists w. split; [exact I|apply contains_within, C]. Qed.
Lemma in_neo : forall a s, blob_of a s -> s_name s = "twilight_near_sun" -> s_ignore s = ["DD"; "pair"; "long"; "blob"; "greedy"; "template"; "ToO"].
Proof.
  intros a s B E. assert (T : (negb (String.eqb (s_name s) "twilight_near_sun") || (if list_eq_dec string_dec (s_ignore s) ["DD"; "pair"; "long"; "blob"; "greedy"; "template"; "ToO"] then true else false)) = true) by (revert a s B E; intros a s B _; revert a s B; apply (every (fun s => negb (String.eqb (s_name s) "twilight_near_sun") || (if list_eq_dec string_dec (s_ignore s) ["DD"; "pair"; "long"; "blob"; "greedy"; "template"; "ToO"] then true else false))); reflexivity).
  rewrite E in T. cbn in T. destruct (list_eq_dec _ _ _) as [X|]; [exact X|discriminate T].
Qed.
Theorem C121_ignore : forall a s m, blob_of a s -> has a m ->
  (s_name s = "twilight_near_sun" -> the_name m <> "twilight_near_sun" -> the_name m <> "deep drilling" -> ignores s (the_name m)) /\
  (s_name s <> "twilight_near_sun" -> (exists r, the_name m = ("DD" ++ r)%string) \/ the_name m = "twilight_near_sun" -> ignores s (the_name m)).
Proof.
  intros a s m B H. split.
  - intros E N D. apply ign_true. unfold ign. rewrite (in_neo a s B E). apply members in H.
    assert (T : forallb (fun m => String.eqb (the_name m) "twilight_near_sun" || String.eqb (the_name m) "deep drilling" || existsb (fun w => GenEvents.contains w (the_name m)) ["DD"; "pair"; "long"; "blob"; "greedy"; "template"; "ToO"]) (the_toos ++ List.concat (the_rest (n_nside a) (SURVEY_START_MJD + mjd_plus a))) = true) by reflexivity.
    assert (J : In m (the_toos ++ List.concat (the_rest (n_nside a) (SURVEY_START_MJD + mjd_plus a)))) by (apply in_or_app; tauto). pose proof (proj1 (forallb_forall _ _) T _ J) as W. cbv beta in W. apply orb_true_iff in W. destruct W as [W|W]; [|exact W].
    apply orb_true_iff in W. destruct W as [W|W]; apply String.eqb_eq in W; contradiction.
  - intros E D. assert (T : (String.eqb (s_name s) "twilight_near_sun" || (existsb (String.eqb "DD") (s_ignore s) && existsb (String.eqb "twilight_near_sun") (s_ignore s))) = true) by (clear E D H m; revert a s B; apply (every (fun s => String.eqb (s_name s) "twilight_near_sun" || (existsb (String.eqb "DD") (s_ignore s) && existsb (String.eqb "twilight_near_sun") (s_ignore s)))); reflexivity).
    apply orb_true_iff in T. destruct T as [T|T]; [apply String.eqb_eq in T; contradiction|]. apply andb_true_iff in T. destruct T as [T1 T2]. apply existsb_exists in T1, T2. destruct T1 as [x [I1 E1]], T2 as [y [I2 E2]]. apply String.eqb_eq in E1, E2. subst.
    destruct D as [[r D]|D]; rewrite D; [exists "DD"; split; [exact I1|exists "", r; reflexivity]|exists "twilight_near_sun"; split; [exact I2|exists "", ""; reflexivity]].
Qed.
(** Visits that follow events are ignored by all but the templates. *)
Definition ig_too (s : survey) : bool := Bool.eqb (existsb (String.eqb "ToO") (s_ignore s)) (negb (prefix "templates" (s_name s))).
Theorem C121_ignore_events_refuted : forall a s, blob_of a s -> (In "ToO" (s_ignore s) <-> prefix "templates" (s_name s) = false).
Proof.
  intros a s B. assert (T : ig_too s = true) by (revert a s B; apply every; reflexivity). unfold ig_too in T. apply eqb_prop in T.
  assert (X : In "ToO" (s_ignore s) <-> existsb (String.eqb "ToO") (s_ignore s) = true). { rewrite existsb_exists. split; [intros I; exists "ToO"; split; [exact I|reflexivity]|intros [y [I E]]; apply String.eqb_eq in E; subst; exact I]. }
  rewrite X, T, negb_true_iff. reflexivity.
Qed.

(** The start: the scheduler, the good-seeing images and the run move together. *)
Definition seeing_start (b : bfn) : list Q := match b with NGoodSeeing _ _ q _ _ _ => [q] | _ => [] end.
Theorem C121_start : forall a s, makes a s -> (sched_start s == SURVEY_START_MJD + mjd_plus a)%Q /\
  (forall t b n q k se pe w, blob_of a t -> In (NGoodSeeing b n q k se pe, w) (s_bfs t) -> (q == sched_start s)%Q) /\
  (exists t b n q k se pe w, blob_of a t /\ In (NGoodSeeing b n q k se pe, w) (s_bfs t)) /\
  (forall r, gen_scheduler script fmt a = Ok (Ran r) -> r_start r = sched_start s /\ r_sched r = s).
Proof.
  intros a s M. pose proof M as M2. apply made in M. subst s. cbn [sched_start]. split; [reflexivity|]. split.
  - intros t b n q k se pe w B I. apply blob_members in B.
    assert (J : In q (flat_map (fun t => flat_map (fun bw => seeing_start (fst bw)) (s_bfs t)) (all_blobs (n_nside a) (SURVEY_START_MJD + mjd_plus a)))).
    { apply in_flat_map. exists t. split; [exact B|]. apply in_flat_map. exists (NGoodSeeing b n q k se pe, w). split; [exact I|left; reflexivity]. }
    generalize dependent (SURVEY_START_MJD + mjd_plus a)%Q. intros st _ _ J. cbn in J. repeat (destruct J as [<-|J]; [reflexivity|]). destruct J.
  - split.
    + assert (X : exists t, blob_of a t /\ s_name t = "pair_33, ug" /\ exists w, In (NGoodSeeing "g" (n_nside a) (SURVEY_START_MJD + mjd_plus a)%Q 3 (8 # 10) (1 # 2), w) (s_bfs t)).
      { exists (nth 9 (all_blobs (n_nside a) (SURVEY_START_MJD + mjd_plus a)) (Survey [] "" None 0 0 0 "" "" [] [] 0 None 0 "")). split; [apply blob_members, nth_In; vm_compute; lia|]. split; [reflexivity|]. eexists. cbn. tauto. }
      destruct X as [t [B [_ [w I]]]]. exists t. do 7 eexists. split; [exact B|exact I].
    + intros r E. destruct M2 as [o [E2 S2]]. rewrite E in E2. injection E2 as <-. cbn [sched_of] in S2. split; [|exact S2].
      unfold gen_scheduler in E. destruct (templates (n_nside a)) as [t|]; [|discriminate E]. cbn [bind] in E. destruct (long_gaps (n_nside a)) as [l|]; [|discriminate E]. cbn [bind] in E. destruct (setup_only a); [discriminate E|]. injection E as <-. reflexivity.
Qed.
(** The deep drilling fields do not: their schedule starts where it would without. *)
Theorem C121_ddf_start_refuted : forall a name n q, has a (Scripted name n q) -> q = SURVEY_START_MJD.
Proof.
  intros a name n q H. apply members in H. destruct H as [[_ H]|H]; [apply in_map_iff in H; destruct H as [? [E _]]; discriminate E|].
  unfold the_rest in H. destruct (templates _); [|destruct H]. destruct (long_gaps _); [|destruct H]. cbn [List.concat] in H. rewrite !in_app_iff, !in_map_iff in H.
  destruct H as [[? [E _]]|[H|H]]; [discriminate E| |].
  - destruct H as [E|[]]. injection E as _ _ <-. reflexivity.
  - repeat (destruct H as [[? [E _]]|H]; [discriminate E|]). destruct H.
Qed.
(** Asking for a start: nothing changes. *)
Theorem C121_start_refuted : forall nside start start' without kw kw',
  generate_baseline_coresched script fmt nside start without = generate_baseline_coresched script fmt nside start' without /\
  example_scheduler script fmt start nside kw without = example_scheduler script fmt start' nside kw' without /\
  exists s, generate_baseline_coresched script fmt nside start without = Ok (Scheduled s) /\ (sched_start s == SURVEY_START_MJD)%Q.
Proof. intros. split; [reflexivity|]. split; [reflexivity|]. destruct without; eexists; (split; [reflexivity|reflexivity]). Qed.

(** The resolution and the flag are heeded, and nothing is run. *)
Theorem C121_asked : forall nside start without, exists s, generate_baseline_coresched script fmt nside start without = Ok (Scheduled s) /\ sched_nside s = nside /\
  (without = false <-> exists g n, In g (groups s) /\ In (Too n) g).
Proof.
  intros nside start without. destruct without; (eexists; split; [reflexivity|]; split; [reflexivity|]).
  - split; [discriminate|]. intros [g [n [G I]]]. exfalso. cbn in G. repeat (destruct G as [<-|G]; [cbn in I; repeat (destruct I as [I|I]; [discriminate I|]); destruct I|]). destruct G.
  - split; [|reflexivity]. intros _. exists the_toos. eexists. split; [left; reflexivity|left; reflexivity].
Qed.

(** The resolution: at the usual 32 all the maps are of one size. *)
Definition maps_of (b : bfn) : list Z :=
  match b with
  | MoonAvoidance n _ | PlanetMask n | AvoidDirectWind n _ | AltAzShadowMask n _ _ _ _ _ | AltAzShadowTimeLimited n _ _ _ _ _ _ | M5Diff _ n | Footprint _ n _ | Slewtime _ n | VisitRepeat n _
  | NGoodSeeing _ n _ _ _ _ | RevHaMask _ _ n | HaMask _ _ n | NInNight _ n | MaskPoorSeeing _ n _ | MaskAfterNObs _ _ n _ | NearSunHighAirmass n _ | SolarElongationMask n _ => [n]
  | _ => []
  end.
Definition sizes (m : member) : list Z :=
  match m with
  | Blob s => s_nside s :: flat_map (fun bw => maps_of (fst bw)) (s_bfs s)
  | LongGap s masks => s_nside s :: flat_map (fun bw => maps_of (fst bw)) (s_bfs s) ++ flat_map maps_of masks
  | RomanField r => flat_map maps_of (r_masks r)
  | Scripted _ n _ => [n]
  | Too _ => []
  end.
Theorem C121_resolution : forall a s m n, n_nside a = 32%Z -> makes a s -> has a m -> In n (sizes m) -> n = sched_nside s.
Proof.
  intros a s m n E M H I. apply made in M. subst s. cbn [sched_nside]. rewrite E. apply members in H.
  assert (T : forall q, forallb (fun m => forallb (Z.eqb 32) (sizes m)) (the_toos ++ List.concat (the_rest 32 q)) = true) by reflexivity.
  rewrite E in H. assert (J : In m (the_toos ++ List.concat (the_rest 32 (SURVEY_START_MJD + mjd_plus a)))) by (apply in_or_app; tauto).
  pose proof (proj1 (forallb_forall _ _) (T _) _ J) as W. cbv beta in W. pose proof (proj1 (forallb_forall _ _) W _ I) as X. apply Z.eqb_eq in X. congruence.
Qed.
(** At any resolution the maps of the functions of the blobs and greedy surveys are at the one asked, and so are the
    surveys themselves near the sun and for single visits. *)
Theorem C121_maps : forall a s t, makes a s -> blob_of a t -> (forall b w n, In (b, w) (s_bfs t) -> In n (maps_of b) -> n = sched_nside s) /\
  (s_name t = "twilight_near_sun" \/ prefix "greedy" (s_name t) = true -> s_nside t = sched_nside s).
Proof.
  intros a s t M B. apply made in M. subst s. cbn [sched_nside]. apply blob_members in B. set (q := (SURVEY_START_MJD + mjd_plus a)%Q) in *. clearbody q. set (k := n_nside a) in *. clearbody k.
  assert (F : Forall (fun t => Forall (eq k) (flat_map (fun bw => maps_of (fst bw)) (s_bfs t)) /\ (String.eqb (s_name t) "twilight_near_sun" || prefix "greedy" (s_name t) = true -> s_nside t = k)) (all_blobs k q)).
  { let l := eval vm_compute in (all_blobs k q) in change (all_blobs k q) with l.
    repeat (apply Forall_cons; [split; [cbn [s_bfs flat_map maps_of fst app]; repeat (apply Forall_cons; [reflexivity|]); apply Forall_nil|cbn [s_name s_nside]; (intros _; reflexivity) || (intros X; discriminate X)]|]). apply Forall_nil. }
  rewrite Forall_forall in F. destruct (F t B) as [F1 F2]. rewrite Forall_forall in F1. split.
  - intros b w n I J. symmetry. apply F1. apply in_flat_map. exists (b, w). tauto.
  - intros H. apply F2. apply orb_true_iff. destruct H as [H|H]; [left; apply String.eqb_eq|right]; exact H.
Qed.
(** At any other the maps of the same survey differ in size, and those of the Roman fields are not of the scheduler's. *)
Theorem C121_resolution_refuted : forall a s, makes a s -> n_nside a <> 32%Z ->
  (exists t, has a (Blob t) /\ In 32%Z (sizes (Blob t)) /\ In (sched_nside s) (sizes (Blob t))) /\
  (exists r, has a (RomanField r) /\ sizes (RomanField r) <> [] /\ ~ In (sched_nside s) (sizes (RomanField r))).
Proof.
  intros a s M N. apply made in M. subst s. cbn [sched_nside]. split.
  - exists (nth 0 (blobs (n_nside a) (SURVEY_START_MJD + mjd_plus a)) (Survey [] "" None 0 0 0 "" "" [] [] 0 None 0 "")). split.
    + apply members. right. apply in_concat. exists (map Blob (blobs (n_nside a) (SURVEY_START_MJD + mjd_plus a))). split; [|apply in_map, nth_In; vm_compute; lia]. unfold the_rest. destruct (templates _) eqn:T; [|discriminate T]. destruct (long_gaps _) eqn:L; [|discriminate L]. cbn [In]. tauto.
    + cbn. tauto.
  - exists (gen_roman_on_season DEFAULT_NSIDE 30 1 None). split; [|split; [discriminate|]].
    + apply members. right. apply in_concat. exists (map RomanField romans). split; [|left; reflexivity]. unfold the_rest. destruct (templates _) eqn:T; [|discriminate T]. destruct (long_gaps _) eqn:L; [|discriminate L]. left. reflexivity.
    + intros I. assert (F : forallb (Z.eqb 32) (sizes (RomanField (gen_roman_on_season DEFAULT_NSIDE 30 1 None))) = true) by reflexivity. pose proof (proj1 (forallb_forall _ _) F _ I) as X. apply Z.eqb_eq in X. congruence.
Qed.

(** The run and its file. *)
Theorem C121_setup : forall a, setup_only a = true <-> exists s, gen_scheduler script fmt a = Ok (Scheduled s).
Proof.
  intros a. unfold gen_scheduler. destruct (templates (n_nside a)) as [t|] eqn:T; [|discriminate T]. destruct (long_gaps (n_nside a)) as [l|] eqn:L; [|discriminate L]. cbn [bind].
  destruct (setup_only a); split; intros H; try reflexivity; try (eexists; reflexivity); try discriminate H. destruct H as [s E]. discriminate E.
Qed.
(** The file lies in the folder asked, with one slash between; a name from the root is kept. *)
Definition lies (folder name path : string) : Prop :=
  ((exists r, name = ("/" ++ r)%string) -> path = name) /\
  (~ (exists r, name = ("/" ++ r)%string) ->
    (folder = "" -> path = name) /\ ((exists f, folder = (f ++ "/")%string) -> path = (folder ++ name)%string) /\
    (folder <> "" -> ~ (exists f, folder = (f ++ "/")%string) -> path = (folder ++ "/" ++ name)%string)).
Lemma ends_slash_spec : forall s, ends_slash s = true <-> exists f, s = (f ++ "/")%string.
Proof.
  induction s as [|c s IH].
  - split; [discriminate|]. intros [[|d f] E]; discriminate E.
  - cbn [ends_slash]. destruct (String.eqb_spec s "") as [->|N].
    + rewrite Ascii.eqb_eq. split; [intros ->; exists ""; reflexivity|]. intros [[|d f] E]; [injection E as ->; reflexivity|]. exfalso. injection E as _ E. destruct f; discriminate E.
    + rewrite IH. split; [intros [f ->]; exists (String c f); reflexivity|]. intros [[|d f] E]; [injection E as _ E; contradiction|]. injection E as _ E. exists f. exact E.
Qed.
Lemma join_lies : forall a b, lies a b (path_join a b).
Proof.
  intros a b. unfold path_join.
  assert (P : prefix "/" b = true <-> exists r, b = ("/" ++ r)%string). { split; [apply prefix_within|intros [r ->]; apply prefix_app]. }
  split; intros R; [rewrite (proj2 P R); reflexivity|]. destruct (prefix "/" b); [exfalso; apply R, P; reflexivity|].
  destruct (String.eqb_spec a "") as [->|N]; [split; [reflexivity|split; [intros [[|d f] E]; discriminate E|congruence]]|]. cbn [orb].
  split; [contradiction|]. split; [intros F; rewrite (proj2 (ends_slash_spec a) F); reflexivity|]. intros _ F. destruct (ends_slash a) eqn:E; [exfalso; apply F, ends_slash_spec, E|reflexivity].
Qed.
Theorem C121_run : forall a r, gen_scheduler script fmt a = Ok (Ran r) -> r_length r = survey_length a /\ (r_events r = true <-> no_too a = false) /\
  exists pre, r_file r = (pre ++ fmt (Qround_even (survey_length a / (36525 # 100))) ++ "yrs.db")%string /\ (no_too a = false -> lies (out_dir a) (match dbroot a with Some d => d | None => replace_all ".py" "" script end ++ "_" ++ "v5.1.0_") pre).
Proof.
  intros a r E. unfold gen_scheduler in E. destruct (templates (n_nside a)) as [t|] eqn:T; [|discriminate T]. destruct (long_gaps (n_nside a)) as [l|] eqn:L; [|discriminate L]. cbn [bind] in E. destruct (setup_only a); [discriminate E|]. injection E as <-. cbn [r_length r_events r_file].
  split; [reflexivity|]. split; [destruct (no_too a); cbn; intuition congruence|]. eexists. split; [reflexivity|]. intros ->. cbn [negb]. unfold set_run_info. rewrite sapp_assoc. apply join_lies.
Qed.
(** With and without events the two runs write different files exactly if the path has "baseline" in it. *)
Lemma file_of : forall a r, gen_scheduler script fmt a = Ok (Ran r) ->
  r_file r = ((if no_too a then replace_all "baseline" "no_too" (set_run_info script (dbroot a) "v5.1.0_" (out_dir a)) else set_run_info script (dbroot a) "v5.1.0_" (out_dir a)) ++ fmt (Qround_even (survey_length a / (36525 # 100))) ++ "yrs.db")%string.
Proof.
  intros a r E. unfold gen_scheduler in E. destruct (templates (n_nside a)) as [t|] eqn:T; [|discriminate T]. destruct (long_gaps (n_nside a)) as [l|] eqn:L; [|discriminate L]. cbn [bind] in E. destruct (setup_only a); [discriminate E|]. injection E as <-. cbn [r_file]. destruct (no_too a); reflexivity.
Qed.
Theorem C121_files_refuted : forall a b r r', no_too a = false -> no_too b = true -> dbroot a = dbroot b -> out_dir a = out_dir b -> survey_length a = survey_length b ->
  gen_scheduler script fmt a = Ok (Ran r) -> gen_scheduler script fmt b = Ok (Ran r') ->
  (r_file r <> r_file r' <-> within "baseline" (path_join (out_dir a) (match dbroot a with Some d => d | None => replace_all ".py" "" script end ++ "_v5.1.0_"))).
Proof.
  intros a b r r' A B D O Y R1 R2. rewrite (file_of _ _ R1), (file_of _ _ R2), A, B, D, O, Y. unfold set_run_info. rewrite sapp_assoc. cbn [append].
  set (p := path_join _ _). unfold replace_all. split.
  - intros N. apply contains_within. destruct (GenEvents.contains "baseline" p) eqn:C; [reflexivity|]. exfalso. apply N. rewrite replace_absent by exact C. reflexivity.
  - intros W E. apply within_contains in W. assert (L : (String.length "no_too" < String.length "baseline")%nat) by (simpl; lia).
    destruct (replace_shorter "baseline" "no_too" L (String.length p) p (le_n _)) as [_ S1]. specialize (S1 W). apply (f_equal String.length) in E. rewrite !length_sapp in E. lia.
Qed.
End Scheduler.
Print Assumptions C121_made.
Print Assumptions C121_events_first.
Print Assumptions C121_nights.
Print Assumptions C121_one_kind.
Print Assumptions C121_names.
Print Assumptions C121_names_refuted.
Print Assumptions C121_bands.
Print Assumptions C121_exposures.
Print Assumptions C121_shadows.
Print Assumptions C121_ignore.
Print Assumptions C121_ignore_events_refuted.
Print Assumptions C121_start.
Print Assumptions C121_ddf_start_refuted.
Print Assumptions C121_start_refuted.
Print Assumptions C121_asked.
Print Assumptions C121_resolution.
Print Assumptions C121_maps.
Print Assumptions C121_resolution_refuted.
Print Assumptions C121_setup.
Print Assumptions C121_run.
Print Assumptions C121_files_refuted.

(** The folder is renamed with the file: a run without events is written into a folder that may not be there. *)
Theorem C121_folder_refuted : exists script fmt a r, no_too a = true /\ out_dir a = "/data/baseline_runs" /\ gen_scheduler script fmt a = Ok (Ran r) /\ prefix "/data/no_too_runs/" (r_file r) = true.
Proof.
  exists "baseline.py", (fun _ => "10"), (Namespace (36525 # 10) "/data/baseline_runs" None false 32 0 true None None). eexists. repeat split.
Qed.
Print Assumptions C121_folder_refuted.

(** Examples. *)
Definition ten (_ : Z) : string := "10".
Example ex_run : exists r, gen_scheduler "baseline.py" ten parsed = Ok (Ran r) /\ r_file r = "baseline_v5.1.0_10yrs.db" /\ r_events r = true /\ List.length (groups (r_sched r)) = 9%nat.
Proof. eexists. repeat split. Qed.
Example ex_no_too : exists r, gen_scheduler "baseline.py" ten (Namespace (36525 # 10) "" None false 32 10 true None None) = Ok (Ran r) /\ r_file r = "no_too_v5.1.0_10yrs.db" /\ r_events r = false /\ (r_start r == 60990 + (1 # 2))%Q.
Proof. eexists. repeat split. Qed.
Example ex_modulo : exists s, blob_of "x" ten parsed s /\ s_name s = "twilight_near_sun" /\ modulo s 8 /\ ~ modulo s 9.
Proof.
  assert (X : exists s, blob_of "x" ten parsed s /\ s_name s = "twilight_near_sun").
  { exists (nth 20 (all_blobs 32 (SURVEY_START_MJD + 0)) (Survey [] "" None 0 0 0 "" "" [] [] 0 None 0 "")). split; [apply blob_members, nth_In; vm_compute; lia|reflexivity]. }
  destruct X as [s [B E]]. exists s. split; [exact B|]. split; [exact E|]. destruct (C121_nights "x" ten parsed 8 s B) as [H _], (C121_nights "x" ten parsed 9 s B) as [H' _]. split.
  - apply H; [exists ""; exact E|reflexivity].
  - intros M. apply H' in M; [discriminate M|exists ""; exact E].
Qed.
Example ex_same_file : exists r r', gen_scheduler "example.py" ten parsed = Ok (Ran r) /\ gen_scheduler "example.py" ten (Namespace (36525 # 10) "" None false 32 0 true None None) = Ok (Ran r') /\ r_file r = r_file r'.
Proof. do 2 eexists. repeat split. Qed.
