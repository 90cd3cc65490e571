(** C161: what is known of a run is written beside its visits. *)
From Coq Require Import List ZArith Bool String Ascii Lia.
From Verif Require Import Base RunInfo.
Import ListNotations.
Open Scope string_scope.

(** ** What data_versions reads is what was written *)
Fixpoint no_comma (s : string) : Prop := match s with EmptyString => True | String c r => c <> ","%char /\ no_comma r end.

Lemma split_plain : forall s, no_comma s -> split_comma s = [s].
Proof.
  induction s as [|c r IH]; intros H; [reflexivity|]. destruct H as [N H]. cbn. destruct (Ascii.eqb_spec c ","%char); [contradiction|].
  now rewrite (IH H).
Qed.
Lemma split_line : forall k v, no_comma k -> split_comma (k ++ "," ++ v) = k :: split_comma v.
Proof.
  induction k as [|c r IH]; intros v H; [reflexivity|]. destruct H as [N H]. cbn. destruct (Ascii.eqb_spec c ","%char); [contradiction|].
  cbn in IH. now rewrite (IH v H).
Qed.
Lemma dset_new : forall d k v, ~ In k (map fst d) -> dset d k v = (d ++ [(k, v)])%list.
Proof.
  induction d as [|[k' v'] d IH]; intros k v H; [reflexivity|]. cbn in *. destruct (String.eqb_spec k' k) as [->|]; [exfalso; now apply H; left|].
  f_equal. apply IH. intros X. apply H. now right.
Qed.

(** Names without commas and none twice: the dictionary comes back as it was written. *)
Theorem C161_versions : forall vs, NoDup (map fst vs) -> (forall k v, In (k, v) vs -> no_comma k /\ no_comma v) ->
  data_versions (Some (map line_of vs)) = Ok (Some vs).
Proof.
  intros vs N C.
  assert (G : forall vs d, NoDup (map fst (d ++ vs)) -> (forall k v, In (k, v) vs -> no_comma k /\ no_comma v) ->
              fold_left add_line (map line_of vs) (Ok d) = Ok (d ++ vs)%list).
  { clear vs N C. induction vs as [|[k v] vs IH]; intros d N C; [cbn; now rewrite app_nil_r|].
    destruct (C k v (or_introl eq_refl)) as [CK CV]. cbn [map fold_left].
    assert (L : add_line (Ok d) (line_of (k, v)) = Ok (dset d k v)).
    { unfold add_line, line_of. cbn [bind fst snd]. rewrite (split_line k v CK), (split_plain v CV). reflexivity. }
    rewrite L. rewrite dset_new.
    - rewrite IH; [now rewrite <- app_assoc| |].
      + rewrite <- app_assoc. exact N.
      + intros k' v' H. apply C. now right.
    - rewrite map_app in N. cbn in N. apply NoDup_remove_2 in N. intros H. apply N. apply in_or_app. now left. }
  unfold data_versions. rewrite (G vs []); [reflexivity|exact N|exact C].
Qed.
Print Assumptions C161_versions.
Example C161_versions_example : data_versions (Some ["maf,maf_2021.tgz"; "site_models,site_2023.tgz"]) = Ok (Some [("maf", "maf_2021.tgz"); ("site_models", "site_2023.tgz")]).
Proof. reflexivity. Qed.

(** ** The table *)
Definition short (s : string) : Prop := String.length s <= 200.
Lemma cut_short : forall s, short s -> cut s = s.
Proof.
  unfold cut, short. intros s. generalize 200. induction s as [|c r IH]; intros n H; [destruct n; reflexivity|]. cbn in H.
  destruct n as [|n]; [lia|]. cbn. f_equal. apply IH. lia.
Qed.
Lemma as_array_spec : forall l d, as_array l = Ok d <-> l = map (fun kv => (fst kv, Scalar (snd kv))) d.
Proof.
  induction l as [|[k [s|q]] l IH]; intros d; cbn.
  - split; [intros H; now injection H as <-|]. destruct d; [reflexivity|discriminate].
  - destruct (as_array l) as [d'|e] eqn:E; cbn [bind].
    + split; [intros H; injection H as <-; cbn; f_equal; now apply IH|].
      destruct d as [|[k1 s1] d1]; [discriminate|]. cbn. intros H. injection H as -> -> H. apply (proj2 (IH d1)) in H. injection H as ->. reflexivity.
    + split; [discriminate|]. destruct d as [|[k1 s1] d1]; [discriminate|]. cbn. intros H. injection H as -> -> H. apply (proj2 (IH d1)) in H. discriminate.
  - split; [discriminate|]. destruct d as [|[k1 s1] d1]; discriminate.
Qed.

(** With versions written for the data and extra information of scalars, the run has a
    table: date, host and version, then the data versions and the extra information in
    order, each cut to 200 characters; nothing else. *)
Theorem C161_table : forall date host version vs extra, vs <> [] -> NoDup (map fst vs) -> (forall k v, In (k, v) vs -> no_comma k /\ no_comma v) ->
  exists t, run_info date host version (Some (map line_of vs)) (Some (map (fun kv => (fst kv, Scalar (snd kv))) extra)) = Ok t /\
  List.length t = (3 + List.length vs + List.length extra)%nat /\
  map fst (firstn 3 t) = ["Date, ymd"; "hostname"; "rubin_scheduler.__version__"] /\
  (forall i k v, nth_error (vs ++ extra) i = Some (k, v) ->
     exists k' v', nth_error t (3 + i) = Some (k', v') /\ k' = substring 0 200 k /\ v' = substring 0 200 v /\ (short k -> k' = k) /\ (short v -> v' = v)).
Proof.
  intros date host version vs extra NE N C. unfold run_info, get_info. rewrite (C161_versions vs N C). cbn [bind].
  rewrite <- map_app. rewrite (proj2 (as_array_spec _ (vs ++ extra)%list) eq_refl). cbn [bind].
  destruct (vs ++ extra)%list as [|x r] eqn:E; [destruct vs; [contradiction|discriminate]|]. rewrite <- E.
  eexists. split; [reflexivity|]. split; [cbn; rewrite map_length, app_length; lia|]. split; [reflexivity|].
  intros i k v H. cbn [app nth_error Nat.add]. rewrite nth_error_map, H. cbn. eexists. eexists. split; [reflexivity|].
  split; [reflexivity|]. split; [reflexivity|]. split; apply cut_short.
Qed.
Print Assumptions C161_table.

(** Short entries can be told from the table: two runs with the same table had the same
    versions and extra information. *)
Theorem C161_same : forall date host version date' host' version' f f' e e' l l' t,
  run_info date host version f e = Ok t -> run_info date' host' version' f' e' = Ok t ->
  get_info f = Ok l -> get_info f' = Ok l' ->
  let all (l : dict) (e : option (list (string * value))) := (map (fun kv => (fst kv, Scalar (snd kv))) l ++ match e with Some x => x | None => [] end)%list in
  (forall k v, In (k, Scalar v) (all l e ++ all l' e') -> short k /\ short v) -> all l e = all l' e'.
Proof.
  intros date host version date' host' version' f f' e e' l l' t H H' G G' all S. unfold run_info in *. rewrite G in H. rewrite G' in H'. cbn [bind] in *. cbv zeta in *.
  fold (all l e) in H. fold (all l' e') in H'.
  destruct (as_array (all l e)) as [a|] eqn:A; [|discriminate]. destruct (as_array (all l' e')) as [a'|] eqn:A'; [|discriminate].
  apply as_array_spec in A. apply as_array_spec in A'. cbn [bind] in *.
  assert (M : map (fun kv => (cut (fst kv), cut (snd kv))) a = map (fun kv => (cut (fst kv), cut (snd kv))) a').
  { destruct a as [|x a]; [discriminate|]. destruct a' as [|y a']; [discriminate|]. rewrite <- H in H'. injection H' as _ _ _ B1 B2 B3. cbn [map]. now rewrite B1, B2, B3. }
  assert (Z : forall b, (forall k v, In (k, v) b -> short k /\ short v) -> map (fun kv : string * string => (cut (fst kv), cut (snd kv))) b = b).
  { induction b as [|[k v] b IH]; intros Hb; [reflexivity|]. cbn [map fst snd]. destruct (Hb k v (or_introl eq_refl)) as [K V].
    rewrite (cut_short k K), (cut_short v V). f_equal. apply IH. intros k' v' X. apply Hb. now right. }
  assert (I : forall k v (b : dict), In (k, v) b -> In (k, Scalar v) (map (fun kv => (fst kv, Scalar (snd kv))) b)).
  { intros k v b X. apply (in_map (fun kv : string * string => (fst kv, Scalar (snd kv)))) in X. exact X. }
  rewrite (Z a), (Z a') in M; [rewrite A, A'; now rewrite M| |].
  - intros k v X. apply S. apply in_or_app. right. rewrite A'. now apply I.
  - intros k v X. apply S. apply in_or_app. left. rewrite A. now apply I.
Qed.
Print Assumptions C161_same.

(** Longer ones cannot: of extra information that differs past 200 characters nothing of
    the difference is kept. *)
Fixpoint rep (n : nat) (s : string) : string := match n with O => s | S n => String "x"%char (rep n s) end.
Lemma cut_rep : forall n s, substring 0 n (rep n s) = rep n "".
Proof. induction n as [|n IH]; intros s; cbn; [destruct s; reflexivity|now rewrite IH]. Qed.
Theorem C161_long_refuted : forall date host version vs k a b, vs <> [] -> NoDup (map fst vs) -> (forall k v, In (k, v) vs -> no_comma k /\ no_comma v) ->
  run_info date host version (Some (map line_of vs)) (Some [(k, Scalar (rep 200 a))]) =
  run_info date host version (Some (map line_of vs)) (Some [(k, Scalar (rep 200 b))]).
Proof.
  intros date host version vs k a b NE N C. unfold run_info, get_info. rewrite (C161_versions vs N C). cbn [bind].
  assert (X : forall s, (map (fun kv : string * string => (fst kv, Scalar (snd kv))) vs ++ [(k, Scalar s)])%list = map (fun kv => (fst kv, Scalar (snd kv))) (vs ++ [(k, s)]))
    by (intros s; now rewrite map_app).
  rewrite !X, !(proj2 (as_array_spec _ _) eq_refl). cbn [bind].
  assert (Y : forall s, exists x r, (vs ++ [(k, s)])%list = x :: r) by (intros s; destruct vs as [|x r]; [contradiction|exists x; eexists; reflexivity]).
  destruct (Y (rep 200 a)) as (x & r & E). destruct (Y (rep 200 b)) as (x' & r' & E'). rewrite E, E', <- E, <- E'. rewrite !map_app. cbn [map fst snd].
  assert (Z : forall s, cut (rep 200 s) = rep 200 "") by (intros s; unfold cut; apply cut_rep). rewrite !Z. reflexivity.
Qed.
Print Assumptions C161_long_refuted.

(** A list among the extra information raises, whatever the rest is. *)
Theorem C161_list_refuted : forall date host version f l a k q b, get_info f = Ok l ->
  run_info date host version f (Some (a ++ (k, Sequence q) :: b)%list) = Raise ValueError.
Proof.
  intros date host version f l a k q b G. unfold run_info. rewrite G. cbn [bind].
  assert (R : forall c, as_array (c ++ (k, Sequence q) :: b)%list = Raise ValueError).
  { induction c as [|[k' [s|q']] c IH]; cbn; [reflexivity|now rewrite IH|reflexivity]. }
  rewrite app_assoc, R. reflexivity.
Qed.
Print Assumptions C161_list_refuted.

(** ** The end of a run *)
(** With versions written for the data, and a list of scalars for extra information, a run
    with visits is written and returned, the visits as they were taken. *)
Theorem C161_written : forall V (visits : list V) f date host version vs extra, visits <> [] -> vs <> [] -> NoDup (map fst vs) ->
  (forall k v, In (k, v) vs -> no_comma k /\ no_comma v) ->
  exists t, finish visits (Some f) (run_info date host version (Some (map line_of vs)) (Some (map (fun kv => (fst kv, Scalar (snd kv))) extra))) =
    (Some (f, t, visits), Ok visits) /\ List.length t = (3 + List.length vs + List.length extra)%nat.
Proof.
  intros V visits f date host version vs extra NV NE N C. destruct (C161_table date host version vs extra NE N C) as (t & E & L & _).
  exists t. rewrite E. destruct visits as [|v l]; [contradiction|]. split; [reflexivity|exact L].
Qed.
Print Assumptions C161_written.

(** Without versions.txt beside the data a run that should be written is lost: it raises
    after the last visit, and nothing was written. *)
Theorem C161_lost_refuted : forall V (visits : list V) f date host version extra, visits <> [] ->
  finish visits (Some f) (run_info date host version None extra) = (None, Raise TypeError).
Proof. intros V [|v l] f date host version extra H; [contradiction|reflexivity]. Qed.
Print Assumptions C161_lost_refuted.

(** So does one with a line without a comma, an empty one for instance, in that file. *)
Theorem C161_line_refuted : forall V (visits : list V) f date host version extra a line b, visits <> [] -> no_comma line ->
  exists e, finish visits (Some f) (run_info date host version (Some (a ++ line :: b)%list) extra) = (None, Raise e).
Proof.
  intros V visits f date host version extra a line b H N.
  assert (S : forall l e, fold_left add_line l (Raise e) = Raise e) by (induction l as [|x l IH]; intros e; [reflexivity|cbn; apply IH]).
  assert (X : exists e, fold_left add_line (a ++ line :: b)%list (Ok []) = Raise e).
  { rewrite fold_left_app. cbn [fold_left]. destruct (fold_left add_line a (Ok [])) as [d|e].
    - unfold add_line at 2. cbn [bind]. rewrite (split_plain line N). rewrite S. eauto.
    - cbn [add_line bind]. rewrite S. eauto. }
  destruct X as [e E]. exists e. unfold run_info, get_info, data_versions. rewrite E. cbn [bind]. destruct visits; [contradiction|reflexivity].
Qed.
Print Assumptions C161_line_refuted.

Example C161_example : run_info "2025, 1, 2" "host" "3.9" (Some ["maf,m1.tgz"]) (Some [("file", Scalar "a.py")]) =
  Ok [("Date, ymd", "2025, 1, 2"); ("hostname", "host"); ("rubin_scheduler.__version__", "3.9"); ("maf", "m1.tgz"); ("file", "a.py")].
Proof. reflexivity. Qed.
