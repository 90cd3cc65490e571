(** C148: what sims_clean_up closes, and what it leaves when a close() fails. *)
From Coq Require Import List Bool Lia Permutation.
From Verif Require Import Base CleanUp.
Import ListNotations.
Open Scope nat_scope.

Section P.
Context {K O : Type}.
Variable close_of : O -> closing.
Notation target := (target K O).

Definition held (t : target) : list O := match t with TDict d => map snd d | TList l => l | TOther o => [o] end.
Definition emptied (t : target) : target := match t with TDict _ => TDict [] | TList _ => TList [] | TOther o => TOther o end.
(** Objects with a close to call. *)
Definition closable (o : O) : bool := match close_of o with NoClose => false | _ => true end.
(** A close() that ends the clean up: any exception but AttributeError, and for a target of its own any at all. *)
Definition bad (o : O) : Prop := exists e, close_of o = Fails e /\ e <> AttributeError.
Definition quiet (t : target) : Prop :=
  match t with TOther o => forall e, close_of o <> Fails e | _ => forall o, In o (held t) -> ~ bad o end.

Lemma drain_quiet : forall l, (forall o, In o l -> ~ bad o) -> drain close_of l = (filter closable l, [], None).
Proof.
  induction l as [|o l IH]; intros H; [reflexivity|]. cbn [drain filter]. unfold closable at 1. rewrite IH by (intros x I; apply H; now right).
  destruct (close_of o) as [| |e] eqn:E; [reflexivity|reflexivity|]. assert (Ee : e = AttributeError).
  { destruct e; try reflexivity; exfalso; apply (H o (or_introl eq_refl)); eexists; (split; [exact E|discriminate]). }
  subst e. reflexivity.
Qed.
Lemma drain_dict_quiet : forall l : list (K * O), (forall o, In o (map snd l) -> ~ bad o) -> drain_dict close_of l = (filter closable (map snd l), [], None).
Proof.
  induction l as [|[k o] l IH]; intros H; [reflexivity|]. cbn [drain_dict map snd filter]. unfold closable at 1. rewrite IH by (intros x I; apply H; now right).
  destruct (close_of o) as [| |e] eqn:E; [reflexivity|reflexivity|]. assert (Ee : e = AttributeError).
  { destruct e; try reflexivity; exfalso; apply (H o (or_introl eq_refl)); eexists; (split; [exact E|discriminate]). }
  subst e. reflexivity.
Qed.
Lemma clean_one_quiet : forall t, quiet t -> clean_one close_of t = (filter closable (rev (held t)), emptied t, None).
Proof.
  intros [d|l|o] H; cbn [quiet held] in H; cbn [clean_one held emptied].
  - rewrite drain_dict_quiet; [now rewrite map_rev|]. intros o I. apply H. rewrite map_rev in I. now apply in_rev.
  - rewrite drain_quiet; [reflexivity|]. intros o I. apply H. now apply in_rev.
  - cbn [rev app filter]. unfold closable. destruct (close_of o) as [| |e] eqn:E; [reflexivity|reflexivity|]. exfalso. now apply (H e).
Qed.

(** With no such failure every cache is empty afterwards, and close() was called once for each object held that has one, cache after cache, the
    last put in first. *)
Theorem C148_all : forall ts : list target, (forall t, In t ts -> quiet t) ->
  clean_up close_of ts = (flat_map (fun t => filter closable (rev (held t))) ts, map emptied ts, None).
Proof.
  induction ts as [|t ts IH]; intros H; [reflexivity|]. cbn [clean_up flat_map map]. rewrite clean_one_quiet by (apply H; now left).
  rewrite IH by (intros x I; apply H; now right). reflexivity.
Qed.

Lemma drain_bad : forall l pre o post e, l = pre ++ o :: post -> (forall x, In x pre -> ~ bad x) -> close_of o = Fails e -> e <> AttributeError ->
  drain close_of l = (filter closable pre ++ [o], post, Some e).
Proof.
  intros l pre. revert l. induction pre as [|x pre IH]; intros l o post e -> H Eo Ne.
  - cbn [app drain filter]. rewrite Eo. destruct e; try reflexivity. contradiction.
  - cbn [app drain filter]. rewrite (IH (pre ++ o :: post) o post e eq_refl) by (try assumption; intros y I; apply H; now right).
    assert (Gx : closable x = match close_of x with NoClose => false | _ => true end) by reflexivity. rewrite Gx.
    destruct (close_of x) as [| |e'] eqn:E; [reflexivity|reflexivity|]. assert (Ee : e' = AttributeError).
    { destruct e'; try reflexivity; exfalso; apply (H x (or_introl eq_refl)); eexists; (split; [exact E|discriminate]). }
    subst e'. reflexivity.
Qed.
(** A failure passes on at once: the caches before are empty, the object is gone from its own with those above it, and the rest is untouched. *)
Theorem C148_stops : forall (pre post : list target) below o above e, (forall t, In t pre -> quiet t) -> (forall x, In x above -> ~ bad x) ->
  close_of o = Fails e -> e <> AttributeError ->
  clean_up close_of (pre ++ TList (below ++ o :: above) :: post) =
  (flat_map (fun t => filter closable (rev (held t))) pre ++ filter closable (rev above) ++ [o], map emptied pre ++ TList below :: post, Some e).
Proof.
  intros pre post below o above e Hp Ha Eo Ne. induction pre as [|t pre IH].
  - cbn [app clean_up clean_one flat_map map]. rewrite (drain_bad (rev (below ++ o :: above)) (rev above) o (rev below) e).
    + now rewrite rev_involutive.
    + rewrite rev_app_distr. cbn [rev]. now rewrite <- app_assoc.
    + intros x I. apply Ha. now apply in_rev.
    + exact Eo.
    + exact Ne.
  - cbn [app clean_up flat_map map]. rewrite clean_one_quiet by (apply Hp; now left). rewrite IH by (intros x I; apply Hp; now right). now rewrite <- app_assoc.
Qed.
(** The same for a dict, and for a target of its own, where an AttributeError passes on as well. *)
Lemma drain_dict_bad : forall pre (l : list (K * O)) k o post e, l = pre ++ (k, o) :: post -> (forall x, In x (map snd pre) -> ~ bad x) ->
  close_of o = Fails e -> e <> AttributeError -> drain_dict close_of l = (filter closable (map snd pre) ++ [o], post, Some e).
Proof.
  induction pre as [|[kx x] pre IH]; intros l k o post e -> H Eo Ne.
  - cbn [app drain_dict filter map]. rewrite Eo. destruct e; try reflexivity. contradiction.
  - cbn [app drain_dict filter map snd]. rewrite (IH (pre ++ (k, o) :: post) k o post e eq_refl) by (try assumption; intros y I; apply H; now right).
    assert (Gx : closable x = match close_of x with NoClose => false | _ => true end) by reflexivity. rewrite Gx.
    destruct (close_of x) as [| |e'] eqn:E; [reflexivity|reflexivity|]. assert (Ee : e' = AttributeError).
    { destruct e'; try reflexivity; exfalso; apply (H x (or_introl eq_refl)); eexists; (split; [exact E|discriminate]). }
    subst e'. reflexivity.
Qed.
Lemma clean_up_pre : forall pre post : list target, (forall t, In t pre -> quiet t) ->
  clean_up close_of (pre ++ post) =
  let '(c, ts, e) := clean_up close_of post in (flat_map (fun t => filter closable (rev (held t))) pre ++ c, map emptied pre ++ ts, e).
Proof.
  induction pre as [|t pre IH]; intros post Hp; [cbn; now destruct (clean_up close_of post) as [[c ts] e]|].
  cbn [app clean_up flat_map map]. rewrite clean_one_quiet by (apply Hp; now left). rewrite IH by (intros x I; apply Hp; now right).
  destruct (clean_up close_of post) as [[c ts] e]. now rewrite <- app_assoc.
Qed.
Theorem C148_stops_dict : forall (pre post : list target) below k o above e, (forall t, In t pre -> quiet t) -> (forall x, In x (map snd above) -> ~ bad x) ->
  close_of o = Fails e -> e <> AttributeError ->
  clean_up close_of (pre ++ TDict (below ++ (k, o) :: above) :: post) =
  (flat_map (fun t => filter closable (rev (held t))) pre ++ filter closable (rev (map snd above)) ++ [o], map emptied pre ++ TDict below :: post, Some e).
Proof.
  intros pre post below k o above e Hp Ha Eo Ne. rewrite clean_up_pre by exact Hp. cbn [clean_up clean_one].
  rewrite (drain_dict_bad (rev above) (rev (below ++ (k, o) :: above)) k o (rev below) e).
  - now rewrite rev_involutive, map_rev.
  - rewrite rev_app_distr. cbn [rev]. now rewrite <- app_assoc.
  - intros x I. apply Ha. rewrite map_rev in I. now apply in_rev.
  - exact Eo.
  - exact Ne.
Qed.
Theorem C148_stops_other : forall (pre post : list target) o e, (forall t, In t pre -> quiet t) -> close_of o = Fails e ->
  clean_up close_of (pre ++ TOther o :: post) =
  (flat_map (fun t => filter closable (rev (held t))) pre ++ [o], map emptied pre ++ TOther o :: post, Some e).
Proof. intros pre post o e Hp Eo. rewrite clean_up_pre by exact Hp. cbn [clean_up clean_one]. now rewrite Eo. Qed.
(** ** Calls repeated after failures *)
Fixpoint runs (n : nat) (ts : list target) : list O * list target * option exn :=
  match n with
  | 0 => clean_up close_of ts
  | S n => let '(c, ts', e) := clean_up close_of ts in
           match e with None => (c, ts', None) | Some _ => let '(c2, ts2, e2) := runs n ts' in (c ++ c2, ts2, e2) end
  end.
Definition order (ts : list target) : list O := flat_map (fun t => filter closable (rev (held t))) ts.
Definition size (ts : list target) : nat := List.length (flat_map held ts).
Definition caches (ts : list target) : Prop := forall o, ~ In (TOther o) ts.

Lemma drain_parts : forall l c k e, drain close_of l = (c, k, e) ->
  exists gone, l = gone ++ k /\ c = filter closable gone /\ (e = None -> k = []) /\ (e <> None -> gone <> []).
Proof.
  induction l as [|o l IH]; intros c k e H; cbn [drain] in H; [injection H as <- <- <-; exists []; repeat split; congruence|].
  destruct (drain close_of l) as [[c' k'] e'] eqn:D. destruct (IH _ _ _ eq_refl) as (g & Eg & Ec & Hn & Hs).
  assert (Go : closable o = match close_of o with NoClose => false | _ => true end) by reflexivity.
  destruct (close_of o) as [| |x] eqn:E; [| |destruct (attr_error x) eqn:Ea]; injection H as <- <- <-.
  - exists (o :: g). cbn [filter app]. rewrite Go, Eg. repeat split; [exact Ec|exact Hn|discriminate].
  - exists (o :: g). cbn [filter app]. rewrite Go, Eg, Ec. repeat split; [exact Hn|discriminate].
  - exists (o :: g). cbn [filter app]. rewrite Go, Eg, Ec. repeat split; [exact Hn|discriminate].
  - exists [o]. cbn [filter app]. rewrite Go. repeat split; discriminate.
Qed.
Lemma drain_dict_parts : forall (l : list (K * O)) c k e, drain_dict close_of l = (c, k, e) ->
  exists gone, l = gone ++ k /\ c = filter closable (map snd gone) /\ (e = None -> k = []) /\ (e <> None -> gone <> []).
Proof.
  induction l as [|[y o] l IH]; intros c k e H; cbn [drain_dict] in H; [injection H as <- <- <-; exists []; repeat split; congruence|].
  destruct (drain_dict close_of l) as [[c' k'] e'] eqn:D. destruct (IH _ _ _ eq_refl) as (g & Eg & Ec & Hn & Hs).
  assert (Go : closable o = match close_of o with NoClose => false | _ => true end) by reflexivity.
  destruct (close_of o) as [| |x] eqn:E; [| |destruct (attr_error x) eqn:Ea]; injection H as <- <- <-.
  - exists ((y, o) :: g). cbn [filter app map snd]. rewrite Go, Eg. repeat split; [exact Ec|exact Hn|discriminate].
  - exists ((y, o) :: g). cbn [filter app map snd]. rewrite Go, Eg, Ec. repeat split; [exact Hn|discriminate].
  - exists ((y, o) :: g). cbn [filter app map snd]. rewrite Go, Eg, Ec. repeat split; [exact Hn|discriminate].
  - exists [(y, o)]. cbn [filter app map snd]. rewrite Go. repeat split; discriminate.
Qed.
Lemma clean_one_parts : forall t c t' e, (forall o, t <> TOther o) -> clean_one close_of t = (c, t', e) ->
  filter closable (rev (held t)) = c ++ filter closable (rev (held t')) /\ emptied t' = emptied t /\ (forall o, t' <> TOther o) /\
  (e = None -> t' = emptied t) /\ List.length (held t') <= List.length (held t) /\ (e <> None -> List.length (held t') < List.length (held t)).
Proof.
  intros [d|l|o] c t' e Nt H; cbn [clean_one] in H; [| |exfalso; now apply (Nt o)].
  - destruct (drain_dict close_of (rev d)) as [[c0 k] e0] eqn:D. injection H as <- <- <-. destruct (drain_dict_parts _ _ _ _ D) as (g & Eg & -> & Hn & Hs).
    cbn [held emptied]. assert (L : List.length d = List.length g + List.length k) by (rewrite <- rev_length, Eg, app_length; reflexivity).
    split; [|split; [|split; [|split; [|split]]]].
    + rewrite <- !map_rev, rev_involutive, Eg, map_app, filter_app. reflexivity.
    + reflexivity.
    + discriminate.
    + intros E. rewrite (Hn E). reflexivity.
    + rewrite !map_length, rev_length. lia.
    + intros E. specialize (Hs E). rewrite !map_length, rev_length. destruct g; [contradiction|cbn in L; lia].
  - destruct (drain close_of (rev l)) as [[c0 k] e0] eqn:D. injection H as <- <- <-. destruct (drain_parts _ _ _ _ D) as (g & Eg & -> & Hn & Hs).
    cbn [held emptied]. assert (L : List.length l = List.length g + List.length k) by (rewrite <- rev_length, Eg, app_length; reflexivity).
    split; [|split; [|split; [|split; [|split]]]].
    + rewrite rev_involutive, Eg, filter_app. reflexivity.
    + reflexivity.
    + discriminate.
    + intros E. rewrite (Hn E). reflexivity.
    + rewrite rev_length. lia.
    + intros E. specialize (Hs E). rewrite rev_length. destruct g; [contradiction|cbn in L; lia].
Qed.
Lemma clean_parts : forall ts c ts' e, caches ts -> clean_up close_of ts = (c, ts', e) ->
  order ts = c ++ order ts' /\ map emptied ts' = map emptied ts /\ caches ts' /\ (e = None -> ts' = map emptied ts) /\
  size ts' <= size ts /\ (e <> None -> size ts' < size ts).
Proof.
  induction ts as [|t ts IH]; intros c ts' e Ca H; cbn [clean_up] in H.
  - injection H as <- <- <-. repeat split; try congruence; try (cbn; lia); try (intros o I; destruct I).
  - destruct (clean_one close_of t) as [[c1 t1] e1] eqn:D.
    destruct (clean_one_parts t c1 t1 e1) as (P1 & P2 & P3 & P4 & P5 & P6); [intros o E; apply (Ca o); now left|exact D|].
    assert (Cs : caches ts) by (intros o I; apply (Ca o); now right). unfold order, size in *. destruct e1 as [x|].
    + injection H as <- <- <-. cbn [flat_map map]. rewrite !app_length. specialize (P6 ltac:(discriminate)). split; [|split; [|split; [|split; [|split]]]].
      * rewrite P1. now rewrite <- app_assoc.
      * now rewrite P2.
      * intros o [E|I]; [now apply (P3 o)|now apply (Cs o)].
      * discriminate.
      * lia.
      * intros _. lia.
    + destruct (clean_up close_of ts) as [[c2 ts2] e2] eqn:D2. injection H as <- <- <-. destruct (IH _ _ _ Cs eq_refl) as (Q1 & Q2 & Q3 & Q4 & Q5 & Q6).
      specialize (P4 eq_refl). cbn [flat_map map]. rewrite !app_length. split; [|split; [|split; [|split; [|split]]]].
      * rewrite P1, Q1. subst t1. destruct t as [d|l|o]; [| |exfalso; now apply (P3 o)]; cbn [emptied held map rev filter app]; rewrite ?app_nil_r, <- ?app_assoc; reflexivity.
      * now rewrite P2, Q2.
      * intros o [E|I]; [now apply (P3 o)|now apply (Q3 o)].
      * intros E. now rewrite P4, (Q4 E).
      * lia.
      * intros E. specialize (Q6 E). lia.
Qed.
(** Called again after each failure, the next call goes on with the object below: after at most one call for each object held all caches are empty,
    and every object was closed once, in the same order as without failures. *)
Theorem C148_resumes : forall ts : list target, caches ts -> exists n, n <= size ts /\ runs n ts = (order ts, map emptied ts, None).
Proof.
  intros ts. remember (size ts) as z eqn:Ez. revert ts Ez. induction z as [z IH] using (well_founded_induction Wf_nat.lt_wf). intros ts Ez Ca.
  destruct (clean_up close_of ts) as [[c ts'] e] eqn:D. destruct (clean_parts _ _ _ _ Ca D) as (P1 & P2 & P3 & P4 & P5 & P6). destruct e as [x|].
  - specialize (P6 ltac:(discriminate)). destruct (IH (size ts') ltac:(lia) ts' eq_refl P3) as (n & Ln & R). exists (S n). split; [lia|]. cbn [runs]. rewrite D, R, P1, P2. reflexivity.
  - exists 0. split; [lia|]. cbn [runs]. rewrite D, P1, (P4 eq_refl). f_equal. f_equal.
    assert (Z : order (map emptied ts) = []). { clear - Ca. induction ts as [|t ts IH]; [reflexivity|]. unfold order in *. cbn [map flat_map]. rewrite IH by (intros o I; apply (Ca o); now right).
      destruct t as [d|l|o]; [reflexivity|reflexivity|exfalso; apply (Ca o); now left]. }
    rewrite Z, app_nil_r. reflexivity.
Qed.
(** A target that is neither a dict nor a list stays in the list of targets and is closed again by every later call. *)
Theorem C148_again_refuted : forall o, close_of o = Closes -> clean_up close_of [TOther o] = ([o], [@TOther K O o], None).
Proof. intros o E. cbn [clean_up clean_one]. rewrite E. reflexivity. Qed.
End P.
Print Assumptions C148_all.
Print Assumptions C148_stops.
Print Assumptions C148_stops_dict.
Print Assumptions C148_stops_other.
Print Assumptions C148_resumes.
Print Assumptions C148_again_refuted.

(** Objects are numbers; 3 has no close, 5 raises AttributeError, 7 OSError (here RuntimeError). *)
Definition ex_close (o : nat) : closing := match o with 3 => NoClose | 5 => Fails AttributeError | 7 => Fails RuntimeError | _ => Closes end.
Definition ex_ts : list (target nat nat) := [TDict [(0, 1); (1, 3); (2, 5)]; TList [2; 7; 4]; TList [6]].
Example C148_ex : clean_up ex_close ex_ts = ([5; 1; 4; 7], [TDict []; TList [2]; TList [6]], Some RuntimeError) /\
  runs ex_close 1 ex_ts = ([5; 1; 4; 7; 2; 6], [TDict []; TList []; TList []], None) /\ caches ex_ts /\
  clean_up ex_close [TDict [(0, 1)]; TOther 2] = ([1; 2], [TDict []; TOther 2], None).
Proof. repeat split; try reflexivity. intros o [E|[E|[E|[]]]]; discriminate. Qed.
