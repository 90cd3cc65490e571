(** C126: downloads of the data directories. *)
From Coq Require Import List Bool ZArith String Ascii Lia.
From Verif Require Import Base Download.
Import ListNotations.
Open Scope string_scope.
Open Scope list_scope.
Open Scope nat_scope.

Definition prefix (a b : bytes) : Prop := exists c, b = a ++ c.
Definition prefix_part (p : option bytes) (file : bytes) : Prop := forall b, p = Some b -> prefix b file.
(** A server that says the size right if it says it, honours ranges, and whose clean end, where no size is known, is the end of the file. It may refuse, stop early or break off at any time. *)
Definition honest (file : bytes) (h : host) : Prop :=
  file <> [] /\ (forall n, h_size h = Some n -> n = List.length file) /\
  forall k off ranged stated sent clean, h_get h k off = Body ranged stated sent clean ->
    (0 < off -> ranged = true) /\ (forall c, stated = Some c -> c = List.length file - off) /\
    (clean = true -> h_size h = None -> stated = None -> List.length file - off <= sent).

Lemma prefix_next : forall b file n, prefix b file -> prefix (b ++ firstn n (skipn (List.length b) file)) file.
Proof.
  intros b file n (c & ->). rewrite skipn_app, skipn_all, Nat.sub_diag. cbn [app skipn]. exists (skipn n c). rewrite <- app_assoc, firstn_skipn. reflexivity.
Qed.
Lemma prefix_full : forall b file, prefix b file -> List.length file <= List.length b -> b = file.
Proof. intros b file (c & ->) H. rewrite app_length in H. destruct c; [rewrite app_nil_r; reflexivity|cbn in H; lia]. Qed.
Lemma next_length : forall b file n, prefix b file -> List.length file - List.length b <= n -> List.length (b ++ firstn n (skipn (List.length b) file)) = List.length file.
Proof. intros b file n (c & ->) H. rewrite app_length in H. rewrite skipn_app, skipn_all, Nat.sub_diag. cbn [app skipn]. rewrite !app_length, firstn_all2 by lia. reflexivity. Qed.

Definition stored (p : option bytes) : bytes := match p with Some b => b | None => [] end.
Definition told (h : host) (file : bytes) (total : nat) : Prop := (total = 0 /\ h_size h = None) \/ total = List.length file.
(** One attempt. *)
Lemma one_try : forall h file part total k ranged stated sent clean, honest file h -> prefix_part part file -> told h file total ->
  h_get h k (List.length (stored part)) = Body ranged stated sent clean ->
  let now := stored part ++ firstn sent (skipn (List.length (stored part)) file) in
  let total' := if total =? 0 then match stated with Some c => if 0 <? List.length (stored part) then List.length (stored part) + c else c | None => total end else total in
  let old := if 0 <? List.length (stored part) then match part with Some b => b | None => [] end else [] in
  let body := if ranged && (0 <? List.length (stored part)) then skipn (List.length (stored part)) file else file in
  old ++ firstn sent body = now /\
  prefix now file /\ told h file total' /\ (clean && negb ((0 <? total') && (List.length now <? total')) = true -> now = file).
Proof.
  intros h file part total k ranged stated sent clean (N & Hs & Hg) P T G now total' old body. specialize (Hg _ _ _ _ _ _ G). destruct Hg as (G1 & G2 & G3).
  assert (Pb : prefix (stored part) file) by (destruct part as [b|]; [apply P; reflexivity|exists file; reflexivity]).
  assert (Lb : List.length (stored part) <= List.length file) by (destruct Pb as (c & E); rewrite E, app_length; lia).
  assert (P1 : prefix now file) by (apply prefix_next; exact Pb).
  assert (T1 : told h file total').
  { unfold told, total'. destruct T as [(-> & T)| ->].
    - rewrite Nat.eqb_refl. destruct stated as [c|]; [|left; split; [reflexivity|exact T]]. right. specialize (G2 c eq_refl). destruct (Nat.ltb_spec 0 (List.length (stored part))); lia.
    - destruct (Nat.eqb_spec (List.length file) 0) as [E|E]; [apply length_zero_iff_nil in E; destruct (N E)|]. right. reflexivity. }
  split; [|split; [exact P1|split; [exact T1|]]].
  - unfold now, old, body. destruct (Nat.ltb_spec 0 (List.length (stored part))) as [L|L].
    + rewrite (G1 L). cbn [andb]. destruct part; reflexivity.
    + rewrite andb_false_r. assert (E : stored part = []) by (destruct (stored part); [reflexivity|cbn in L; lia]). rewrite E. reflexivity.
  - intro H. apply andb_true_iff in H. destruct H as (C & H). apply prefix_full; [exact P1|]. rewrite negb_true_iff, andb_false_iff, Nat.ltb_ge, Nat.ltb_ge in H.
    destruct T1 as [(E & E2)|E].
    + assert (St : stated = None).
      { destruct stated as [c|]; [|reflexivity]. exfalso. unfold total' in E. destruct T as [(-> & T)| ->].
        - rewrite Nat.eqb_refl in E. specialize (G2 c eq_refl). destruct file; [destruct (N eq_refl)|]. cbn [List.length] in *. destruct (Nat.ltb_spec 0 (List.length (stored part))); lia.
        - destruct file; [destruct (N eq_refl)|]. cbn in E. lia. }
      unfold now. rewrite next_length; [lia|exact Pb|]. apply G3; assumption.
    + destruct H as [H|H]; [|lia]. destruct file; [destruct (N eq_refl)|]. cbn [List.length] in *. lia.
Qed.
Lemma tries_ok : forall left k h file part downloaded total p r, honest file h -> prefix_part part file -> told h file total -> downloaded = List.length (stored part) ->
  tries left k h file part downloaded total = (p, r) -> prefix_part p file /\ (forall b, r = Some b -> b = file /\ p = None).
Proof.
  induction left as [|n IH]; intros k h file part downloaded total p r Hh P T D E; cbn [tries] in E.
  - injection E as <- <-. split; [exact P|discriminate].
  - subst downloaded. destruct (h_get h k (List.length (stored part))) as [|ranged stated sent clean] eqn:G.
    + eapply IH; [exact Hh|exact P|exact T| |exact E]. destruct part; reflexivity.
    + pose proof (one_try h file part total k ranged stated sent clean Hh P T G) as O. cbv zeta in O, E. destruct O as (O1 & O2 & O3 & O4). rewrite O1 in E. clear O1.
      destruct (clean && _) eqn:C.
      * injection E as <- <-. split; [intros b K; discriminate K|]. intros b K. injection K as <-. split; [apply O4; reflexivity|reflexivity].
      * eapply IH; [exact Hh| |exact O3| |exact E]; [intros b K; injection K as <-; exact O2|reflexivity].
Qed.
Lemma size_told : forall h file, honest file h -> told h file (match h_size h with Some n => n | None => 0 end).
Proof. intros h file (_ & H & _). unfold told. destruct (h_size h) as [n|]; [right; apply H; reflexivity|left; split; reflexivity]. Qed.

(** ** One file: what was left of an earlier download, and any course of this one, give the file of the server or an error and again the beginning of it. *)
Theorem C126_fetch : forall archive h name part p r, honest (archive name) h -> prefix_part part (archive name) -> fetch archive h name part = (p, r) ->
  prefix_part p (archive name) /\ (forall b, r = Some b -> b = archive name /\ p = None).
Proof.
  intros archive h name part p r H P E. unfold fetch in E. destruct part as [b|].
  - destruct ((0 <? _) && _) eqn:C.
    + injection E as <- <-. split; [intros b0 K; discriminate K|]. intros b0 K. injection K as <-. split; [|reflexivity]. apply prefix_full; [apply P; reflexivity|].
      apply andb_true_iff in C. rewrite Nat.ltb_lt, Nat.leb_le in C. destruct (size_told h _ H) as [(Z & _)|Z]; lia.
    + eapply tries_ok; [exact H|exact P|apply size_told; exact H|reflexivity|exact E].
  - eapply tries_ok; [exact H|exact P|apply size_told; exact H|reflexivity|exact E].
Qed.
Print Assumptions C126_fetch.

(** If one of the ten attempts gets all of the rest, the file is fetched, whatever went wrong in the attempts before. *)
Lemma tries_progress : forall left k h file part downloaded total j, honest file h -> prefix_part part file -> told h file total -> downloaded = List.length (stored part) ->
  j < left -> (forall off, off <= List.length file -> exists ranged stated sent, h_get h (k + j) off = Body ranged stated sent true /\ List.length file - off <= sent) ->
  exists b, snd (tries left k h file part downloaded total) = Some b.
Proof.
  induction left as [|n IH]; intros k h file part downloaded total j Hh P T D J A; [lia|]. subst downloaded. cbn [tries].
  assert (Pb : prefix (stored part) file) by (destruct part as [b|]; [apply P; reflexivity|exists file; reflexivity]).
  assert (Lb : List.length (stored part) <= List.length file) by (destruct Pb as (c & E); rewrite E, app_length; lia).
  destruct (h_get h k (List.length (stored part))) as [|ranged stated sent clean] eqn:G.
  - destruct j as [|j].
    + exfalso. destruct (A (List.length (stored part)) Lb) as (r & s & n0 & E & _). rewrite Nat.add_0_r in E. congruence.
    + eapply (IH (k + 1) h file part _ total j); [exact Hh|exact P|exact T| |lia|]; [destruct part; reflexivity|]. replace (k + 1 + j) with (k + S j) by lia. exact A.
  - pose proof (one_try h file part total k ranged stated sent clean Hh P T G) as O. cbv zeta in O |- *. destruct O as (O1 & O2 & O3 & O4). rewrite O1. clear O1.
    destruct (clean && _) eqn:C; [eexists; reflexivity|]. destruct j as [|j].
    + exfalso. destruct (A (List.length (stored part)) Lb) as (r & s & n0 & E & S0). rewrite Nat.add_0_r, G in E. injection E as <- <- <- Ec. subst clean.
      apply andb_false_iff in C. destruct C as [C|C]; [discriminate C|]. rewrite negb_false_iff, andb_true_iff, !Nat.ltb_lt in C. destruct C as (C1 & C2).
      rewrite next_length in C2 by assumption. destruct O3 as [(Z & _)|Z]; lia.
    + eapply (IH (k + 1) h file _ _ _ j); [exact Hh| |exact O3|reflexivity|lia|]; [intros b K; injection K as <-; exact O2|]. replace (k + 1 + j) with (k + S j) by lia. exact A.
Qed.
Theorem C126_progress : forall archive h name part j, honest (archive name) h -> prefix_part part (archive name) -> j < 10 ->
  (forall off, off <= List.length (archive name) -> exists ranged stated sent, h_get h j off = Body ranged stated sent true /\ List.length (archive name) - off <= sent) ->
  fetch archive h name part = (None, Some (archive name)).
Proof.
  intros archive h name part j H P J A. assert (S0 : exists b, snd (fetch archive h name part) = Some b).
  { unfold fetch. destruct part as [b|].
    - destruct (_ && _); [eexists; reflexivity|]. eapply (tries_progress 10 0 h _ _ _ _ j); [exact H|exact P|apply size_told; exact H|reflexivity|exact J|exact A].
    - eapply (tries_progress 10 0 h _ _ _ _ j); [exact H|exact P|apply size_told; exact H|reflexivity|exact J|exact A]. }
  destruct S0 as (b & E). destruct (fetch archive h name part) as [p r] eqn:F. cbn in E. subst r. destruct (C126_fetch archive h name part p (Some b) H P F) as (_ & K).
  destruct (K b eq_refl) as (-> & ->). reflexivity.
Qed.
Print Assumptions C126_progress.

(** ** The calls. *)
Lemma get_set : forall vs k v x, get (set vs k v) x = if String.eqb x k then Some v else get vs x.
Proof.
  induction vs as [|[a b] vs IH]; intros k v x; unfold get in *; cbn [set find fst snd].
  - rewrite (String.eqb_sym x k). destruct (String.eqb k x); reflexivity.
  - destruct (String.eqb a k) eqn:E; cbn [find fst snd].
    + apply String.eqb_eq in E. subst a. rewrite (String.eqb_sym x k). destruct (String.eqb k x); reflexivity.
    + destruct (String.eqb a x) eqn:F; [|apply IH]. destruct (String.eqb x k) eqn:G; [|reflexivity]. apply String.eqb_eq in F, G. subst. rewrite String.eqb_refl in E. discriminate E.
Qed.
Section Calls.
Variable dir : Type.
Variable unpack : bytes -> option (list (string * dir)).
Variable archive : string -> bytes.
Variable data : string -> dir. (* what the archive of a name holds *)
Notation disk := (disk dir).
(** file_dict names archives that unpack to the one directory. *)
Definition proper (fd : versions) : Prop := forall key name, get fd key = Some name -> name <> "" /\ unpack (archive name) = Some [(key, data name)].
(** versions.txt tells the truth of the directories said to be of the version expected; partial files are beginnings. *)
Definition sound (fd : versions) (dirs : string -> option dir) (vs : versions) : Prop :=
  forall key name c, get fd key = Some name -> get vs key = Some name -> dirs key = Some c -> c = data name.
Definition resumable (d : disk) : Prop := forall name, prefix_part (dk_parts dir d name) (archive name).
(** The i-th directory is served by an honest server. *)
Definition served (fd : versions) (net : nat -> host) (i : nat) (keys : list string) : Prop :=
  forall j key name, nth_error keys j = Some key -> get fd key = Some name -> honest (archive name) (net (i + j)).

Lemma served_next : forall fd net i key keys, served fd net i (key :: keys) -> served fd net (i + 1) keys.
Proof. intros fd net i key keys H j k name A B. replace (i + 1 + j) with (i + S j) by lia. apply (H (S j) k name A B). Qed.
Lemma download_ok : forall fd h name key d vs d' r, proper fd -> get fd key = Some name -> honest (archive name) h -> resumable d ->
  download dir unpack archive h name key d vs = (d', r) ->
  resumable d' /\ dk_versions dir d' = dk_versions dir d /\ (forall k, k <> key -> dk_dirs dir d' k = dk_dirs dir d k) /\
  match r with Ok vs' => vs' = set vs key name /\ dk_dirs dir d' key = Some (data name) | Raise _ => dk_dirs dir d' key = dk_dirs dir d key end.
Proof.
  intros fd h name key d vs d' r P G H S0 E. unfold download in E. destruct (fetch archive h name (dk_parts dir d name)) as [p [b|]] eqn:F.
  - destruct (C126_fetch archive h name _ p (Some b) H (S0 name) F) as (A & B). destruct (B b eq_refl) as (-> & ->). rewrite (proj2 (P key name G)) in E. injection E as <- <-.
    split; [|split; [reflexivity|split]].
    + intros n b K. cbn [dk_parts] in K. unfold upd in K. destruct (String.eqb n name); [discriminate K|]. exact (S0 n b K).
    + intros k N. cbn. unfold upd. apply String.eqb_neq in N. rewrite N. reflexivity.
    + split; [reflexivity|]. cbn. unfold upd. rewrite String.eqb_refl. reflexivity.
  - injection E as <- <-. destruct (C126_fetch archive h name _ p None H (S0 name) F) as (A & _). split; [|split; [reflexivity|split; [intros; reflexivity|reflexivity]]].
    intros n b K. cbn [dk_parts] in K. unfold upd in K. destruct (String.eqb n name) eqn:N; [apply String.eqb_eq in N; subst n; exact (A b K)|exact (S0 n b K)].
Qed.
Definition settled (o : options) (fd : versions) (keys : list string) (d : disk) (vs : versions) (d' : disk) (vs' : versions) : Prop :=
  (forall key, ~ In key keys -> dk_dirs dir d' key = dk_dirs dir d key /\ get vs' key = get vs key) /\
  (forall key name, In key keys -> get fd key = Some name ->
     (o_force o = true \/ o_update o = true \/ dk_dirs dir d key = None -> dk_dirs dir d' key = Some (data name) /\ get vs' key = Some name) /\
     (o_force o = false -> o_update o = false -> dk_dirs dir d key <> None -> dk_dirs dir d' key = dk_dirs dir d key /\ get vs' key = get vs key)).
Lemma each_ok : forall o fd keys net i d vs d' r, proper fd -> served fd net i keys -> resumable d -> sound fd (dk_dirs dir d) vs ->
  each dir unpack archive o (lookup fd) net i keys d vs = (d', r) ->
  resumable d' /\ dk_versions dir d' = dk_versions dir d /\ (forall key, ~ In key keys -> dk_dirs dir d' key = dk_dirs dir d key) /\
  (forall vs', r = Ok vs' -> sound fd (dk_dirs dir d') vs' /\ settled o fd keys d vs d' vs') /\
  (forall e, r = Raise e -> sound fd (dk_dirs dir d') vs).
Proof.
  intros o fd. induction keys as [|key keys IH]; intros net i d vs d' r P Sv R0 So E; cbn [each] in E.
  - injection E as <- <-. split; [exact R0|]. split; [reflexivity|]. split; [reflexivity|]. split; [|discriminate]. intros vs' K. injection K as <-. split; [exact So|]. split; [intros; split; reflexivity|intros k n []].
  - unfold lookup at 1 in E. destruct (get fd key) as [name|] eqn:G.
    2:{ injection E as <- <-. split; [exact R0|]. split; [reflexivity|]. split; [reflexivity|]. split; [discriminate|]. intros e _. exact So. }
    pose proof (Sv 0 key name eq_refl G) as Hh. rewrite Nat.add_0_r in Hh. pose proof (served_next _ _ _ _ _ Sv) as Sv'.
    (* the directory is downloaded, from a disk d0 that is d but perhaps for the directory *)
    assert (Down : forall d0, resumable d0 -> dk_versions dir d0 = dk_versions dir d -> (forall k, k <> key -> dk_dirs dir d0 k = dk_dirs dir d k) ->
       sound fd (dk_dirs dir d0) vs -> (o_force o = true \/ o_update o = true \/ dk_dirs dir d key = None) ->
       match download dir unpack archive (net i) name key d0 vs with
       | (d1, Ok vs1) => each dir unpack archive o (lookup fd) net (i + 1) keys d1 vs1
       | (d1, Raise e) => (d1, Raise e)
       end = (d', r) ->
       resumable d' /\ dk_versions dir d' = dk_versions dir d /\ (forall k, ~ In k (key :: keys) -> dk_dirs dir d' k = dk_dirs dir d k) /\
       (forall vs', r = Ok vs' -> sound fd (dk_dirs dir d') vs' /\ settled o fd (key :: keys) d vs d' vs') /\
       (forall e, r = Raise e -> sound fd (dk_dirs dir d') vs)).
    { intros d0 R1 V1 D1 So1 W K. destruct (download dir unpack archive (net i) name key d0 vs) as [d1 [vs1|e]] eqn:Dn.
      - destruct (download_ok fd _ _ _ _ _ _ _ P G Hh R1 Dn) as (R2 & V2 & D2 & -> & D3).
        assert (So2 : sound fd (dk_dirs dir d1) (set vs key name)).
        { intros k n c A B C. rewrite get_set in B. destruct (String.eqb k key) eqn:Q.
          - apply String.eqb_eq in Q. subst k. injection B as <-. rewrite D3 in C. injection C as <-. reflexivity.
          - apply String.eqb_neq in Q. rewrite D2, D1 in C by exact Q. apply (So k n c A B C). }
        destruct (IH net (i + 1) d1 (set vs key name) d' r P Sv' R2 So2 K) as (R3 & V3 & D4 & O3 & E3).
        split; [exact R3|]. split; [congruence|]. split; [|split].
        + intros k N. rewrite D4 by (intro I; apply N; right; exact I). rewrite D2, D1; [reflexivity| |]; intro; subst k; apply N; left; reflexivity.
        + intros vs' ->. destruct (O3 vs' eq_refl) as (So3 & N3 & M3). split; [exact So3|]. split.
          * intros k N. destruct (N3 k (fun I => N (or_intror I))) as (A & B). assert (Q : k <> key) by (intro; subst k; apply N; left; reflexivity).
            rewrite A, B, get_set, D2, D1 by exact Q. apply String.eqb_neq in Q. rewrite Q. split; reflexivity.
          * intros k n I Gk. destruct (in_dec String.string_dec k keys) as [Ik|Ik].
            -- destruct (M3 k n Ik Gk) as (M4 & M5). destruct (String.string_dec k key) as [->|Q].
               ++ assert (n = name) by congruence. subst n. assert (X : dk_dirs dir d' key = Some (data name) /\ get vs' key = Some name).
                  { destruct (o_force o) eqn:Fo; [apply M4; left; reflexivity|]. destruct (o_update o) eqn:Uo; [apply M4; right; left; reflexivity|].
                    destruct (M5 eq_refl eq_refl) as (A & B); [rewrite D3; discriminate|]. rewrite A, B, D3, get_set, String.eqb_refl. split; reflexivity. }
                  split; [intros _; exact X|]. intros F1 U1 N1. destruct W as [W|[W|W]]; [congruence|congruence|destruct (N1 W)].
               ++ rewrite D2, D1 in M4, M5 by exact Q. split; [exact M4|]. intros F1 U1 N1. destruct (M5 F1 U1 N1) as (A & B). split; [exact A|]. rewrite B, get_set. apply String.eqb_neq in Q. rewrite Q. reflexivity.
            -- destruct I as [<-|I]; [|destruct (Ik I)]. assert (n = name) by congruence. subst n. destruct (N3 key Ik) as (A & B). rewrite A, B, D3, get_set, String.eqb_refl.
               split; [intros _; split; reflexivity|]. intros F1 U1 N1. destruct W as [W|[W|W]]; [congruence|congruence|destruct (N1 W)].
        + intros e ->. specialize (E3 e eq_refl). intros k n c A B C. destruct (String.string_dec k key) as [->|Q].
          * assert (n = name) by congruence. subst n. apply (E3 key name c A); [rewrite get_set, String.eqb_refl; reflexivity|exact C].
          * apply (E3 k n c A); [|exact C]. rewrite get_set. apply String.eqb_neq in Q. rewrite Q. exact B.
      - injection K as <- <-. destruct (download_ok fd _ _ _ _ _ _ _ P G Hh R1 Dn) as (R2 & V2 & D2 & D3). split; [exact R2|]. split; [congruence|]. split; [|split; [discriminate|]].
        + intros k N. assert (Q : k <> key) by (intro; subst k; apply N; left; reflexivity). rewrite D2, D1 by exact Q. reflexivity.
        + intros e' _ k n c A B C. destruct (String.string_dec k key) as [->|Q]; [rewrite D3 in C; exact (So1 key n c A B C)|rewrite D2 in C by exact Q; exact (So1 k n c A B C)]. }
    assert (Gone : resumable (Disk dir (upd (dk_dirs dir d) key None) (dk_parts dir d) (dk_versions dir d)) /\ (forall k, k <> key -> upd (dk_dirs dir d) key None k = dk_dirs dir d k) /\ sound fd (upd (dk_dirs dir d) key None) vs).
    { split; [exact R0|]. split; [intros k Q; unfold upd; apply String.eqb_neq in Q; rewrite Q; reflexivity|]. intros k n c A B C. unfold upd in C. destruct (String.eqb k key); [discriminate C|exact (So k n c A B C)]. }
    destruct Gone as (R1 & D1 & S1).
    destruct (dk_dirs dir d key) as [c|] eqn:X; [|apply (Down d); [exact R0|reflexivity|reflexivity|exact So|right; right; reflexivity|exact E]].
    destruct (o_force o) eqn:Fo; [apply (Down _ R1 eq_refl D1 S1); [left; reflexivity|exact E]|].
    destruct (o_update o) eqn:Uo; cbn [negb] in E.
    2:{ destruct (IH net (i + 1) d vs d' r P Sv' R0 So E) as (R3 & V3 & D4 & O3 & E3). split; [exact R3|]. split; [exact V3|]. split; [intros k N; apply D4; intro I; apply N; right; exact I|].
        split; [|exact E3]. intros vs' ->. destruct (O3 vs' eq_refl) as (So3 & N3 & M3). split; [exact So3|]. split; [intros k N; apply N3; intro I; apply N; right; exact I|].
        intros k n I Gk. destruct (in_dec String.string_dec k keys) as [Ik|Ik]; [exact (M3 k n Ik Gk)|]. destruct I as [<-|I]; [|destruct (Ik I)]. destruct (N3 key Ik) as (A & B).
        rewrite Fo, Uo. split; [intros [W|[W|W]]; [discriminate W|discriminate W|congruence]|]. intros _ _ _. split; assumption. }
    destruct (match get vs key with Some v => String.eqb v name | None => String.eqb "" name end) eqn:M.
    2:{ apply (Down _ R1 eq_refl D1 S1); [right; left; reflexivity|exact E]. }
    assert (V : get vs key = Some name).
    { destruct (get vs key) as [v|]; [apply String.eqb_eq in M; subst v; reflexivity|]. apply String.eqb_eq in M. destruct (proj1 (P key name G) (eq_sym M)). }
    assert (C : c = data name) by (apply (So key name c G V X)).
    destruct (IH net (i + 1) d vs d' r P Sv' R0 So E) as (R3 & V3 & D4 & O3 & E3). split; [exact R3|]. split; [exact V3|]. split; [intros k N; apply D4; intro I; apply N; right; exact I|].
    split; [|exact E3]. intros vs' ->. destruct (O3 vs' eq_refl) as (So3 & N3 & M3). split; [exact So3|]. split; [intros k N; apply N3; intro I; apply N; right; exact I|].
    intros k n I Gk. destruct (in_dec String.string_dec k keys) as [Ik|Ik]; [exact (M3 k n Ik Gk)|]. destruct I as [<-|I]; [|destruct (Ik I)]. assert (n = name) by congruence. subst n. destruct (N3 key Ik) as (A & B).
    rewrite A, B, X, V, C. split; [intros _; split; reflexivity|]. intros _ U1. congruence.
Qed.

(** One call of download_rubin_data. *)
Record call := Call { c_wanted : option (list string); c_only : bool; c_opts : options; c_alive : bool; c_net : nat -> host }.
Definition run (fd : versions) (c : call) (d : disk) : disk * ending := download_rubin_data dir unpack archive fd (c_wanted c) (c_only c) (c_opts c) (c_alive c) (c_net c) d.
Definition keys_of (fd : versions) (c : call) : list string := match c_wanted c with None => map fst fd | Some l => l end.
Definition vers (d : disk) : versions := match dk_versions dir d with Some v => v | None => [] end.
Lemma run_ok : forall fd c d d' e, proper fd -> served fd (c_net c) 0 (keys_of fd c) -> resumable d -> sound fd (dk_dirs dir d) (vers d) -> run fd c d = (d', e) ->
  resumable d' /\ sound fd (dk_dirs dir d') (vers d') /\ (e = Returned None -> settled (c_opts c) fd (keys_of fd c) d (vers d) d' (vers d')) /\
  (e <> Returned None -> dk_versions dir d' = dk_versions dir d) /\ (forall key, ~ In key (keys_of fd c) -> dk_dirs dir d' key = dk_dirs dir d key).
Proof.
  intros fd c d d' e P Sv R0 So E. unfold run, download_rubin_data in E. destruct (c_only c).
  { injection E as <- <-. split; [exact R0|]. split; [exact So|]. split; [discriminate|]. split; intros; reflexivity. }
  destruct (negb (c_alive c)).
  { injection E as <- <-. split; [exact R0|]. split; [exact So|]. split; [discriminate|]. split; intros; reflexivity. }
  fold (keys_of fd c) in E. fold (vers d) in E. destruct (each dir unpack archive (c_opts c) (lookup fd) (c_net c) 0 (keys_of fd c) d (vers d)) as [d1 [vs|x]] eqn:K; injection E as <- <-.
  - destruct (each_ok _ _ _ _ _ _ _ _ _ P Sv R0 So K) as (A & B & C & D & _). destruct (D vs eq_refl) as (D1 & D2). split; [exact A|]. split; [exact D1|]. split; [intros _; exact D2|]. split; [intro N; destruct (N eq_refl)|exact C].
  - destruct (each_ok _ _ _ _ _ _ _ _ _ P Sv R0 So K) as (A & B & C & _ & D). split; [exact A|]. split; [unfold vers; rewrite B; exact (D x eq_refl)|]. split; [discriminate|]. split; [intros _; exact B|exact C].
Qed.
(** Calls one after the other, whether they end well or not. *)
Fixpoint runs (fd : versions) (cs : list call) (d : disk) : disk := match cs with [] => d | c :: rest => runs fd rest (fst (run fd c d)) end.
Lemma runs_ok : forall fd cs d, proper fd -> Forall (fun c => served fd (c_net c) 0 (keys_of fd c)) cs -> resumable d -> sound fd (dk_dirs dir d) (vers d) ->
  resumable (runs fd cs d) /\ sound fd (dk_dirs dir (runs fd cs d)) (vers (runs fd cs d)).
Proof.
  intros fd cs. induction cs as [|c cs IH]; intros d P F R0 So; [split; assumption|]. inversion F as [|? ? F1 F2]; subst. cbn [runs]. destruct (run fd c d) as [d1 e] eqn:E.
  destruct (run_ok fd c d d1 e P F1 R0 So E) as (A & B & _). apply IH; assumption.
Qed.
End Calls.

(** ** After any number of calls that ended well, were broken off or failed, a call that returns leaves the directories asked for present; with
    update or force they hold the archives expected, and the file of versions says so; without, those there before are not touched. Others
    are never touched. *)
Theorem C126_calls : forall dir unpack archive (data : string -> dir) fd cs c d d',
  proper dir unpack archive data fd -> resumable dir archive d -> sound dir data fd (dk_dirs dir d) (vers dir d) ->
  Forall (fun c => served archive fd (c_net c) 0 (keys_of fd c)) (c :: cs) ->
  run dir unpack archive fd c (runs dir unpack archive fd cs d) = (d', Returned None) ->
  forall key,
    (~ In key (keys_of fd c) -> dk_dirs dir d' key = dk_dirs dir (runs dir unpack archive fd cs d) key) /\
    (In key (keys_of fd c) -> forall name, get fd key = Some name ->
       (o_force (c_opts c) = true \/ o_update (c_opts c) = true -> dk_dirs dir d' key = Some (data name) /\ get (vers dir d') key = Some name) /\
       (o_force (c_opts c) = false -> o_update (c_opts c) = false ->
          dk_dirs dir d' key = match dk_dirs dir (runs dir unpack archive fd cs d) key with Some x => Some x | None => Some (data name) end)).
Proof.
  intros dir unpack archive data fd cs c d d' P R0 So F E key. inversion F as [|? ? F1 F2]; subst. destruct (runs_ok dir unpack archive data fd cs d P F2 R0 So) as (R1 & S1).
  destruct (run_ok dir unpack archive data fd c _ d' _ P F1 R1 S1 E) as (_ & _ & K & _ & _). destruct (K eq_refl) as (N & M). split; [intro I; apply N; exact I|].
  intros I name G. destruct (M key name I G) as (M1 & M2). split.
  - intros [W|W]; apply M1; tauto.
  - intros Fo Uo. destruct (dk_dirs dir (runs dir unpack archive fd cs d) key) as [x|] eqn:X; [apply M2; try assumption; discriminate|apply M1; right; right; reflexivity].
Qed.
Print Assumptions C126_calls.

(** A call that fails leaves versions.txt and the directories not asked for alone. *)
Theorem C126_failed : forall dir unpack archive (data : string -> dir) fd c d d' e,
  proper dir unpack archive data fd -> resumable dir archive d -> sound dir data fd (dk_dirs dir d) (vers dir d) -> served archive fd (c_net c) 0 (keys_of fd c) ->
  run dir unpack archive fd c d = (d', Raised e) ->
  dk_versions dir d' = dk_versions dir d /\ (forall key, ~ In key (keys_of fd c) -> dk_dirs dir d' key = dk_dirs dir d key) /\ resumable dir archive d'.
Proof.
  intros dir unpack archive data fd c d d' e P R0 So Sv E. destruct (run_ok dir unpack archive data fd c d d' _ P Sv R0 So E) as (A & _ & _ & B & C).
  split; [apply B; discriminate|]. split; assumption.
Qed.
Print Assumptions C126_failed.

(** Only looking at the versions: 0 exactly if the file of versions has all that are expected; nothing is changed. *)
Theorem C126_versions_only : forall dir unpack archive fd wanted o alive net d, (forall key name, In (key, name) fd -> name <> "") ->
  exists code, download_rubin_data dir unpack archive fd wanted true o alive net d = (d, Returned (Some code)) /\
    (code = 0%Z <-> forall key name, In (key, name) fd -> get (vers dir d) key = Some name).
Proof.
  intros dir unpack archive fd wanted o alive net d NE. unfold download_rubin_data. fold (vers dir d). eexists. split; [reflexivity|].
  destruct (forallb _ fd) eqn:F.
  - split; [|reflexivity]. intros _ key name I. rewrite forallb_forall in F. specialize (F _ I). cbn [fst snd] in F. destruct (get (vers dir d) key) as [v|]; apply String.eqb_eq in F; [subst v; reflexivity|]. destruct (NE key name I (eq_sym F)).
  - split; [discriminate|]. intro H. exfalso. assert (forallb (fun kv => String.eqb (match get (vers dir d) (fst kv) with Some v => v | None => "" end) (snd kv)) fd = true); [|congruence].
    apply forallb_forall. intros [key name] I. cbn [fst snd]. rewrite (H key name I). apply String.eqb_refl.
Qed.
Print Assumptions C126_versions_only.

(** ** versions.txt: what is written is read back. *)
Definition plain (s : string) : Prop := forall c, In c (list_ascii_of_string s) -> blank c = false /\ c <> ","%char.
Lemma lstrip_plain : forall s r, plain s -> s <> "" -> lstrip (s ++ r)%string = (s ++ r)%string.
Proof. intros [|c s] r P N; [destruct (N eq_refl)|]. cbn [append lstrip]. destruct (P c (or_introl eq_refl)) as (-> & _). reflexivity. Qed.
Lemma rstrip_app : forall s t, rstrip t = t -> t <> "" -> rstrip (s ++ t)%string = (s ++ t)%string.
Proof. induction s as [|c s IH]; intros t E N; [exact E|]. cbn [append rstrip]. rewrite (IH t E N). destruct (s ++ t)%string eqn:X; [destruct s; [destruct (N X)|discriminate X]|reflexivity]. Qed.
Lemma rstrip_plain : forall s, plain s -> rstrip s = s.
Proof.
  induction s as [|c s IH]; intro P; [reflexivity|]. cbn [rstrip]. rewrite IH by (intros x I; apply P; right; exact I). destruct s; [|reflexivity]. destruct (P c (or_introl eq_refl)) as (-> & _). reflexivity.
Qed.
Lemma upto_plain : forall s r, plain s -> upto_comma (s ++ String "," r)%string = (s, Some r).
Proof. induction s as [|c s IH]; intros r P; [reflexivity|]. cbn [append upto_comma]. destruct (P c (or_introl eq_refl)) as (_ & N). apply Ascii.eqb_neq in N. rewrite N, IH by (intros x I; apply P; right; exact I). reflexivity. Qed.
Lemma upto_end : forall s, plain s -> upto_comma s = (s, None).
Proof. induction s as [|c s IH]; intros P; [reflexivity|]. cbn [append upto_comma]. destruct (P c (or_introl eq_refl)) as (_ & N). apply Ascii.eqb_neq in N. rewrite N, IH by (intros x I; apply P; right; exact I). reflexivity. Qed.
Lemma parse_written : forall k v, plain k -> plain v -> k <> "" -> v <> "" -> parse_line (k ++ "," ++ v)%string = Ok (k, v).
Proof.
  intros k v Pk Pv Nk Nv. unfold parse_line. rewrite lstrip_plain by assumption. rewrite rstrip_app.
  - cbn [append]. rewrite upto_plain by exact Pk. rewrite upto_end by exact Pv. reflexivity.
  - cbn [append rstrip]. rewrite rstrip_plain by exact Pv. destruct v; [destruct (Nv eq_refl)|reflexivity].
  - discriminate.
Qed.
Lemma set_new : forall vs k v, ~ In k (map fst vs) -> set vs k v = vs ++ [(k, v)].
Proof.
  induction vs as [|[a b] vs IH]; intros k v N; [reflexivity|]. cbn. destruct (String.eqb a k) eqn:E; [apply String.eqb_eq in E; destruct (N (or_introl E))|]. rewrite IH; [reflexivity|]. intro I. apply N. right. exact I.
Qed.
Theorem C126_versions_text : forall vs, NoDup (map fst vs) -> (forall k v, In (k, v) vs -> plain k /\ plain v /\ k <> "" /\ v <> "") -> parse (write vs) [] = Ok vs.
Proof.
  intros vs. enough (H : forall l acc, NoDup (map fst (acc ++ l)) -> (forall k v, In (k, v) l -> plain k /\ plain v /\ k <> "" /\ v <> "") -> parse (write l) acc = Ok (acc ++ l)) by (intros N P; apply (H vs [] N P)).
  induction l as [|[k v] l IH]; intros acc N P; [cbn; rewrite app_nil_r; reflexivity|]. cbn [write map parse]. destruct (P k v (or_introl eq_refl)) as (A & B & C & D).
  cbn [fst snd]. rewrite parse_written by assumption. cbn [bind fst snd]. rewrite set_new.
  - change (map (fun kv => (fst kv ++ "," ++ snd kv)%string) l) with (write l). rewrite IH.
    + rewrite <- app_assoc. reflexivity.
    + rewrite <- app_assoc. exact N.
    + intros x y I. apply P. right. exact I.
  - rewrite map_app in N. cbn [map fst] in N. apply NoDup_remove_2 in N. intro I. apply N. apply in_or_app. left. exact I.
Qed.
Print Assumptions C126_versions_text.

(** ** Where the property fails. *)
Definition silent : host := Host None (fun _ _ => Refused).
Lemma tries_silent : forall n k f off t, tries n k silent f None off t = (None, None).
Proof. induction n as [|n IH]; intros k f off t; [reflexivity|]. cbn [tries]. change (h_get silent k off) with Refused. apply IH. Qed.
(** A replacement that cannot be had: the directory that was there is gone, and with versions as expected all is said to be in sync. *)
Theorem C126_lost_refuted : forall dir unpack archive key name c d wanted alive, dk_dirs dir d key = Some c -> get (vers dir d) key = Some name -> dk_parts dir d name = None ->
  exists d', run dir unpack archive [(key, name)] (Call (Some [key]) false (Opts false true) true (fun _ => silent)) d = (d', Raised RuntimeError) /\
    dk_dirs dir d' key = None /\
    download_rubin_data dir unpack archive [(key, name)] wanted true (Opts false false) alive (fun _ => silent) d' = (d', Returned (Some 0%Z)).
Proof.
  intros dir unpack archive key name c d wanted alive D V N. eexists. split.
  - unfold run, download_rubin_data. cbn [c_only c_alive negb c_wanted c_opts c_net each]. unfold lookup. unfold get at 1. cbn [find fst snd]. rewrite String.eqb_refl, D. cbn [o_force]. unfold download.
    cbn [dk_parts fst snd]. rewrite N. unfold fetch. rewrite tries_silent. reflexivity.
  - split; [cbn; unfold upd; rewrite String.eqb_refl; reflexivity|]. unfold download_rubin_data. cbn [dk_versions dk_dirs forallb fst snd]. fold (vers dir d). rewrite V, String.eqb_refl. reflexivity.
Qed.
Print Assumptions C126_lost_refuted.

(** A server that does not do ranges: a download that is resumed puts the whole file behind the beginning, and this is taken for the file. *)
Theorem C126_range_refuted : forall archive name part n, 0 < List.length part < List.length (archive name) -> List.length (archive name) <= n ->
  fetch archive (Host (Some (List.length (archive name))) (fun _ _ => Body false (Some (List.length (archive name))) n true)) name (Some part) = (None, Some (part ++ archive name)) /\
  part ++ archive name <> archive name.
Proof.
  intros archive name part n (A & B) C. split.
  - unfold fetch. cbn [h_size]. replace (List.length (archive name) <=? List.length part) with false by (symmetry; apply Nat.leb_gt; exact B). rewrite andb_false_r. generalize 9 as m. intro m. cbn [tries h_get].
    replace (List.length (archive name) =? 0) with false by (symmetry; apply Nat.eqb_neq; lia). replace (0 <? List.length part) with true by (symmetry; apply Nat.ltb_lt; exact A).
    cbn [andb]. rewrite firstn_all2 by exact C. replace (List.length (part ++ archive name) <? List.length (archive name)) with false by (symmetry; apply Nat.ltb_ge; rewrite app_length; lia).
    rewrite andb_false_r. reflexivity.
  - intro E. apply (f_equal (@List.length nat)) in E. rewrite app_length in E. lia.
Qed.
Print Assumptions C126_range_refuted.

(** A partial file that is whole, the size not told: ranges beyond the end are refused and the download can never end. *)
Theorem C126_stuck_refuted : forall archive name f, (forall k off, List.length (archive name) <= off -> f k off = Refused) ->
  fetch archive (Host None f) name (Some (archive name)) = (Some (archive name), None).
Proof.
  intros archive name f H. unfold fetch. cbn [h_size Nat.ltb Nat.leb andb]. assert (K : forall n k, tries n k (Host None f) (archive name) (Some (archive name)) (List.length (archive name)) 0 = (Some (archive name), None)).
  { induction n as [|n IH]; intro k; [reflexivity|]. cbn [tries h_get]. rewrite H by lia. apply IH. }
  apply K.
Qed.
Print Assumptions C126_stuck_refuted.

(** The command: the dictionary given to it is not used. *)
Theorem C126_ignored_refuted : forall dir unpack archive fd wanted only o alive net d,
  command dir unpack archive (Some fd) wanted only o alive net d = command dir unpack archive None wanted only o alive net d.
Proof. intros. reflexivity. Qed.
Print Assumptions C126_ignored_refuted.
(** Its exit status is success for versions that do not match and for a server that does not answer. *)
Theorem C126_status_refuted : forall dir unpack archive fd wanted only o alive net d, only = true \/ alive = false ->
  command dir unpack archive fd wanted only o alive net d = (d, 0%Z).
Proof. intros dir unpack archive fd wanted only o alive net d [-> | ->]; unfold command, download_rubin_data; [reflexivity|]. destruct only; reflexivity. Qed.
Print Assumptions C126_status_refuted.

(** ** Two releases: after an update that failed at its second directory, going back to the older one does nothing, though the first is the newer one. *)
Definition arch (name : string) : bytes := if String.eqb name "k1" then [1; 1; 1] else if String.eqb name "k2" then [2; 2; 2; 2] else [3; 3].
Definition unp (b : bytes) : option (list (string * nat)) :=
  match b with [1; 1; 1] => Some [("k", 1)] | [2; 2; 2; 2] => Some [("k", 2)] | [3; 3] => Some [("m", 3)] | _ => None end.
Definition cont (name : string) : nat := if String.eqb name "k1" then 1 else if String.eqb name "k2" then 2 else 3.
(** A server that breaks off after one byte at first and then sends the rest. *)
Definition good (name : string) : host := Host (Some (List.length (arch name))) (fun k off => if k =? 0 then Body true (Some (List.length (arch name) - off)) 1 false else Body true (Some (List.length (arch name) - off)) 9 true).
Definition old_disk : disk nat := Disk nat (fun k => if String.eqb k "k" then Some 1 else None) (fun _ => None) (Some [("k", "k1")]).
Definition upgrade : call := Call None false (Opts true false) true (fun i => if i =? 0 then good "k2" else silent).
Definition back : call := Call None false (Opts true false) true (fun _ => good "k1").
Theorem C126_back_refuted : exists d1 d2, run nat unp arch [("k", "k2"); ("m", "m2")] upgrade old_disk = (d1, Raised RuntimeError) /\
  run nat unp arch [("k", "k1")] back d1 = (d2, Returned None) /\ get (vers nat d2) "k" = Some "k1" /\ dk_dirs nat d2 "k" = Some (cont "k2") /\ cont "k1" <> cont "k2" /\
  proper nat unp arch cont [("k", "k1")] /\ proper nat unp arch cont [("k", "k2"); ("m", "m2")] /\ sound nat cont [("k", "k1")] (dk_dirs nat old_disk) (vers nat old_disk).
Proof.
  eexists. eexists. split; [reflexivity|]. split; [reflexivity|]. split; [reflexivity|]. split; [reflexivity|]. split; [discriminate|].
  assert (G : forall k n, get [("k", "k1")] k = Some n -> k = "k" /\ n = "k1").
  { intros k n H. unfold get in H. cbn [find fst snd] in H. destruct (String.eqb "k" k) eqn:E; [|discriminate H]. apply String.eqb_eq in E. injection H as <-. split; [symmetry; exact E|reflexivity]. }
  split; [|split].
  - intros k n H. destruct (G k n H) as (-> & ->). split; [discriminate|reflexivity].
  - intros k n H. unfold get in H. cbn [find fst snd] in H. destruct (String.eqb "k" k) eqn:E; [apply String.eqb_eq in E; subst k; injection H as <-; split; [discriminate|reflexivity]|].
    destruct (String.eqb "m" k) eqn:F; [|discriminate H]. apply String.eqb_eq in F. subst k. injection H as <-. split; [discriminate|reflexivity].
  - intros k n c H _ D. destruct (G k n H) as (-> & ->). injection D as <-. reflexivity.
Qed.
Print Assumptions C126_back_refuted.

(** ** Examples. *)
Example C126_ex_honest : honest (arch "k2") (good "k2").
Proof.
  split; [discriminate|]. split; [intros n E; injection E as <-; reflexivity|]. intros k off r s n c E. unfold good in E. cbn [h_get] in E.
  destruct (k =? 0); injection E as <- <- <- <-; (split; [reflexivity|split; [intros x K; injection K as <-; reflexivity|intros _ K; discriminate K]]).
Qed.
Example C126_ex_resumed : fetch arch (good "k2") "k2" None = (None, Some [2; 2; 2; 2]) /\ fetch arch (good "k2") "k2" (Some [2; 2]) = (None, Some [2; 2; 2; 2]).
Proof. split; reflexivity. Qed.
Example C126_ex_update : exists d, run nat unp arch [("k", "k2")] (Call None false (Opts true false) true (fun _ => good "k2")) old_disk = (d, Returned None) /\ dk_dirs nat d "k" = Some 2 /\ dk_versions nat d = Some [("k", "k2")].
Proof. eexists. split; [reflexivity|]. split; reflexivity. Qed.
Example C126_ex_text : write [("scheduler", "scheduler_2025_10_27.tgz")] = ["scheduler,scheduler_2025_10_27.tgz"] /\ parse [" scheduler,a.tgz "; "scheduler,b.tgz"] [] = Ok [("scheduler", "b.tgz")] /\ parse [""] [] = Raise IndexError.
Proof. repeat split; reflexivity. Qed.
