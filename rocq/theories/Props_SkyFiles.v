(** C128: the files of sky brightness that are downloaded and the ones the model reads. *)
From Coq Require Import List ZArith QArith Bool String Ascii Lia Lqa Sorted.
From Verif Require Import Base SkyFiles SkyFiles_proofs.
Import ListNotations.
Open Scope string_scope.
Open Scope list_scope.
Open Scope nat_scope.

(** A link of a page: a start tag [a] whose first attribute is [href], to a name that
    ends with ".h5"; the tags the parser cannot take: [a] without attributes or with a
    first attribute [href] without value. *)
Definition link (ts : list tag) (f : string) : Prop := (exists r, In ("a", ("href", Some f) :: r) ts) /\ exists n, f = (n ++ ".h5")%string.
Definition unreadable (t : tag) : Prop := fst t = "a" /\ (snd t = [] \/ exists r, snd t = ("href", None) :: r).
Definition plain_names (ts : list tag) : Prop := forall f, link ts f -> has "/" f = false.

(** ** The page *)
Theorem C128_page : forall ts, (exists ns, page_names ts = Ok ns) <-> ts <> [] /\ forall t, In t ts -> ~ unreadable t.
Proof.
  intros ts; split.
  - intros [ns E]. destruct (page_ok ts ns E) as [A [B _]]. split; assumption.
  - intros [A B]. exact (page_some ts A B).
Qed.
Theorem C128_names : forall ts ns, page_names ts = Ok ns -> forall f, In f ns <-> link ts f.
Proof. intros ts ns E. exact (proj2 (proj2 (page_ok ts ns E))). Qed.
Print Assumptions C128_page.
Print Assumptions C128_names.
Example C128_page_ex : page_names [("html", []); ("a", [("href", Some "60000_60100.h5")]); ("a", [("href", Some "readme.txt"); ("id", None)]); ("a", [("name", None)])] = Ok ["60000_60100.h5"].
Proof. reflexivity. Qed.

(** ** Calls *)
(** A server that gives, when it answers, one page and one content for each name. *)
Definition honest (tags : string -> list tag) (ub page : string) (content : string -> string) (srv : server) : Prop :=
  (forall a, srv ub = Some a -> snd a = page) /\ forall f a, link (tags page) f -> srv (ub ++ f)%string = Some a -> snd a = content f.

Lemma download_steps : forall tags force ub dd srv d d' r, download tags force ub dd srv d = (d', r) ->
  exists d2, stored d2 = stored d /\ (forall x, In x (dirs d2) -> In x (dirs d) \/ x = dd \/ x = destination dd) /\ (forall x, In x (dirs d) -> In x (dirs d2)) /\
    ((exists e, r = Raise e /\ d' = d2) \/
     In dd (dirs d2) /\ In (destination dd) (dirs d2) /\ exists a ns, srv ub = Some a /\ page_names (tags (snd a)) = Ok ns /\ each force ub (destination dd) srv ns d2 = (d', r)).
Proof.
  intros tags force ub dd srv d d' r E. unfold download in E.
  destruct (ensure d dd) as [d1 [[]|e1]] eqn:E1; apply ensure_ok in E1 as [A1 [B1 C1]].
  - destruct (ensure d1 (destination dd)) as [d2 [[]|e2]] eqn:E2; apply ensure_ok in E2 as [A2 [B2 C2]]; exists d2;
      (split; [congruence|]); (split; [intros x I; apply C2 in I as [I|[I _]]; [apply C1 in I as [I|[I _]]|]; tauto|]); (split; [intros x I; apply C2; left; apply C1; left; exact I|]).
    + destruct (srv ub) as [[st body]|]; [|injection E as <- <-; left; eexists; split; reflexivity].
      destruct (page_names (tags body)) as [ns|e] eqn:P; [|injection E as <- <-; left; eexists; split; reflexivity].
      right. split; [apply C2; left; apply A1; reflexivity|]. split; [apply A2; reflexivity|]. exists (st, body), ns. auto.
    + injection E as <- <-. left; eexists; split; reflexivity.
  - injection E as <- <-. exists d1. split; [exact B1|]. split; [intros x I; apply C1 in I as [I|[I _]]; tauto|]. split; [intros x I; apply C1; left; exact I|].
    left; eexists; split; reflexivity.
Qed.
Lemma read_stored : forall d d2 p, stored d2 = stored d -> read d2 p = read d p.
Proof. intros d d2 p E; unfold read; rewrite E; reflexivity. Qed.

(** A call, well or ill ended: only files named on the page are touched, each is what the
    server has or as before, and a file that is there is only replaced with force.  A call
    that returns has all of them. *)
Theorem C128_download : forall tags force ub dd page content srv d d' r, honest tags ub page content srv -> plain_names (tags page) ->
  download tags force ub dd srv d = (d', r) ->
  (forall p, (forall f, link (tags page) f -> p <> (destination dd ++ "/" ++ f)%string) -> read d' p = read d p) /\
  (forall f, link (tags page) f -> let p := (destination dd ++ "/" ++ f)%string in
     read d' p = read d p \/ read d' p = Some (content f) /\ (force = true \/ read d p = None)) /\
  (r = Ok tt -> forall f, link (tags page) f -> let p := (destination dd ++ "/" ++ f)%string in
     read d' p <> None /\ (force = true \/ read d p = None -> read d' p = Some (content f))) /\
  (forall x, In x (dirs d') -> In x (dirs d) \/ x = dd \/ x = destination dd) /\ (forall x, In x (dirs d) -> In x (dirs d')).
Proof.
  intros tags force ub dd page content srv d d' r [Hp Hc] Pl E.
  destruct (download_steps _ _ _ _ _ _ _ _ E) as [d2 [S2 [D1 [D2 K]]]].
  destruct K as [[e [-> ->]]|[_ [_ [a [ns [Sa [Pn Ea]]]]]]].
  - split; [intros p _; apply read_stored; exact S2|]. split; [intros f _ p; left; apply read_stored; exact S2|]. split; [discriminate|]. split; assumption.
  - rewrite (Hp a Sa) in Pn. pose proof (C128_names _ _ Pn) as N.
    assert (P : forall f, In f ns -> has "/" f = false) by (intros f I; apply Pl, N, I).
    assert (A : forall f b, In f ns -> srv (ub ++ f)%string = Some b -> snd b = content f) by (intros f b I; apply Hc, N, I).
    assert (J : forall f, In f ns -> join (destination dd) f = (destination dd ++ "/" ++ f)%string) by (intros f I; exact (proj2 (base_join _ f (P f I)))).
    split; [|split; [|split; [|split]]].
    + intros p H. rewrite <- (read_stored d d2 p S2). apply (each_other _ _ _ _ _ _ _ _ _ Ea).
      intros f I Q. apply (H f (proj1 (N f) I)). rewrite <- Q. exact (J f I).
    + intros f L p. subst p. apply N in L. rewrite <- (J f L), <- (read_stored d d2 _ S2).
      destruct (each_file _ _ _ _ content _ _ _ _ Ea P A f (P f L)) as [X|[_ X]]; [left|right]; exact X.
    + intros -> f L p. subst p. apply N in L. rewrite <- (J f L), <- (read_stored d d2 _ S2).
      destruct (each_all _ _ _ _ content _ _ _ Ea P A f L) as [X Y]. split; [exact Y|]. intros [F|F]; [exact (X F)|].
      destruct (each_file _ _ _ _ content _ _ _ _ Ea P A f (P f L)) as [Z0|[_ [Z0 _]]]; [congruence|exact Z0].
    + intros x. rewrite (each_dirs _ _ _ _ _ _ _ _ Ea). apply D1.
    + intros x I. rewrite (each_dirs _ _ _ _ _ _ _ _ Ea). apply D2; exact I.
Qed.
Print Assumptions C128_download.

(** When it returns: the directory above is there and every request is answered. *)
Theorem C128_returns : forall tags force ub dd page srv d, srv ub = Some (200%Z, page) -> tags page <> [] -> (forall t, In t (tags page) -> ~ unreadable t) ->
  plain_names (tags page) -> (forall f, link (tags page) f -> srv (ub ++ f)%string <> None) ->
  In dd (dirs d) \/ In (parent dd) (dirs d) -> snd (download tags force ub dd srv d) = Ok tt.
Proof.
  intros tags force ub dd page srv d Sp T U Pl A D.
  destruct (download tags force ub dd srv d) as [d' r] eqn:E. cbn.
  assert (En : forall d0 p, In p (dirs d0) \/ In (parent p) (dirs d0) -> exists d1, ensure d0 p = (d1, Ok tt) /\ In p (dirs d1)).
  { intros d0 p H. destruct (ensure d0 p) as [d1 x] eqn:Ed. pose proof (ensure_ok _ _ _ _ Ed) as [X _].
    assert (Y : x = Ok tt); [|exists d1; subst x; split; [reflexivity|apply X; reflexivity]].
    unfold ensure, mkdir in Ed. destruct (isdir d0 p) eqn:I0; [congruence|].
    assert (Q : isdir d0 (parent p) = true); [|rewrite Q in Ed; congruence].
    unfold isdir in *. apply existsb_exists. destruct H as [H|H]; [|exists (parent p); split; [exact H|apply String.eqb_refl]].
    assert (Z0 : existsb (String.eqb p) (dirs d0) = true) by (apply existsb_exists; exists p; split; [exact H|apply String.eqb_refl]). congruence. }
  destruct (En d dd D) as [d1 [E1 I1]].
  assert (I2 : In (parent (destination dd)) (dirs d1)) by (unfold destination; rewrite parent_join by reflexivity; exact I1).
  destruct (En d1 (destination dd) (or_intror I2)) as [d2 [E2 I3]].
  destruct (page_some (tags page) T U) as [ns Pn]. pose proof (C128_names _ _ Pn) as N.
  unfold download in E. rewrite E1, E2, Sp, Pn in E.
  replace r with (snd (each force ub (destination dd) srv ns d2)) by (rewrite E; reflexivity).
  apply each_returns; [intros f I; apply Pl, N, I|intros f I; apply A, N, I|exact I3].
Qed.
Print Assumptions C128_returns.

(** Calls one after the other, with or without force, the server answering or not. *)
Definition runs (tags : string -> list tag) (ub dd : string) (cs : list (bool * server)) (d : disk) : disk :=
  fold_left (fun d c => fst (download tags (fst c) ub dd (snd c) d)) cs d.
Theorem C128_calls : forall tags ub dd page content cs force srv d d', plain_names (tags page) ->
  Forall (fun c => honest tags ub page content (snd c)) cs -> honest tags ub page content srv ->
  (forall f, link (tags page) f -> read d (destination dd ++ "/" ++ f)%string = None) ->
  download tags force ub dd srv (runs tags ub dd cs d) = (d', Ok tt) ->
  (forall f, link (tags page) f -> read d' (destination dd ++ "/" ++ f)%string = Some (content f)) /\
  (forall p, (forall f, link (tags page) f -> p <> (destination dd ++ "/" ++ f)%string) -> read d' p = read d p).
Proof.
  intros tags ub dd page content cs force srv d d' Pl Hs H New E.
  assert (Inv : (forall f, link (tags page) f -> read (runs tags ub dd cs d) (destination dd ++ "/" ++ f)%string = None \/ read (runs tags ub dd cs d) (destination dd ++ "/" ++ f)%string = Some (content f)) /\
                (forall p, (forall f, link (tags page) f -> p <> (destination dd ++ "/" ++ f)%string) -> read (runs tags ub dd cs d) p = read d p)).
  { assert (New' : forall f, link (tags page) f -> read d (destination dd ++ "/" ++ f)%string = None \/ read d (destination dd ++ "/" ++ f)%string = Some (content f)) by (intros f L; left; exact (New f L)).
    clear New E H d'. revert d New'. induction Hs as [|c cs Hc Hcs IH]; intros d New'; cbn; [split; [exact New'|reflexivity]|].
    destruct (download tags (fst c) ub dd (snd c) d) as [d1 r1] eqn:E1.
    destruct (C128_download _ _ _ _ _ _ _ _ _ _ Hc Pl E1) as [A [B _]].
    destruct (IH d1) as [X Y].
    - intros f L. destruct (B f L) as [Q|[Q _]]; [rewrite Q; exact (New' f L)|right; exact Q].
    - cbn. fold (runs tags ub dd cs d1). split; [exact X|]. intros p Hn. rewrite (Y p Hn). exact (A p Hn). }
  destruct Inv as [X Y]. destruct (C128_download _ _ _ _ _ _ _ _ _ _ H Pl E) as [A [B [C _]]]. split.
  - intros f L. destruct (C eq_refl f L) as [U V]. destruct (X f L) as [Q|Q]; [exact (V (or_intror Q))|].
    destruct (B f L) as [W|[W _]]; congruence.
  - intros p Hn. rewrite (A p Hn). exact (Y p Hn).
Qed.
Print Assumptions C128_calls.
(** A call after one that returned changes no file. *)
Theorem C128_again : forall tags ub dd page content srv srv' force d d1 d2 r, plain_names (tags page) ->
  honest tags ub page content srv -> honest tags ub page content srv' ->
  download tags force ub dd srv d = (d1, Ok tt) -> download tags false ub dd srv' d1 = (d2, r) -> forall p, read d2 p = read d1 p.
Proof.
  intros tags ub dd page content srv srv' force d d1 d2 r Pl H H' E E' p.
  destruct (C128_download _ _ _ _ _ _ _ _ _ _ H Pl E) as [_ [_ [C _]]].
  destruct (download_steps _ _ _ _ _ _ _ _ E') as [d3 [S3 [_ [_ [[e [_ ->]]|[_ [_ [a [ns [Sa [Pn Ea]]]]]]]]]]]; [apply read_stored; exact S3|].
  rewrite <- (read_stored d1 d3 p S3). destruct H' as [Hp Hc]. rewrite (Hp a Sa) in Pn. pose proof (C128_names _ _ Pn) as N.
  destruct (in_dec string_dec p (map (join (destination dd)) ns)) as [I|I].
  - apply in_map_iff in I as [f [<- I]].
    assert (P : forall f, In f ns -> has "/" f = false) by (intros g J; apply Pl, N, J).
    destruct (each_file _ _ _ _ content _ _ _ _ Ea P (fun g b J => Hc g b (proj1 (N g) J)) f (P f I)) as [X|[_ [_ [X|X]]]]; [exact X|discriminate|].
    exfalso. apply N in I. destruct (C eq_refl f I) as [U _]. rewrite (read_stored d1 d3 _ S3), (proj2 (base_join _ f (Pl f I))) in X. exact (U X).
  - apply (each_other _ _ _ _ _ _ _ _ _ Ea). intros f J Q. apply I. apply in_map_iff. eauto.
Qed.
Print Assumptions C128_again.

Definition pg (s : string) : list tag := if String.eqb s "index" then [("a", [("href", Some "60000_60100.h5")]); ("a", [("href", Some "60100_60200.h5")])] else [("p", [])].
Definition up : server := fun u => if String.eqb u "u/" then Some (200%Z, "index") else Some (200%Z, u).
Definition half : server := fun u => if String.eqb u "u/60100_60200.h5" then None else up u.
Example C128_calls_ex :
  download pg false "u/" "/d" half (mkDisk [""] []) = (mkDisk ["/d/skybrightness_pre"; "/d"; ""] [("/d/skybrightness_pre/60000_60100.h5", "u/60000_60100.h5")], Raise RuntimeError) /\
  download pg false "u/" "/d" up (runs pg "u/" "/d" [(false, half); (true, half)] (mkDisk [""] [])) =
    (mkDisk ["/d/skybrightness_pre"; "/d"; ""] [("/d/skybrightness_pre/60000_60100.h5", "u/60000_60100.h5"); ("/d/skybrightness_pre/60100_60200.h5", "u/60100_60200.h5")], Ok tt).
Proof. split; reflexivity. Qed.

(** ** Refuted *)
(** The status is not looked at: an error page is stored as the file and no later call
    without force mends it, whatever the server then has. *)
Theorem C128_error_refuted : forall tags ub dd f status message cs d, tags "index" = [("a", [("href", Some f)])] -> (exists n, f = (n ++ ".h5")%string) -> has "/" f = false ->
  In (parent dd) (dirs d) -> read d (destination dd ++ "/" ++ f)%string = None ->
  forall srv, srv ub = Some (200%Z, "index") -> srv (ub ++ f)%string = Some (status, message) ->
  exists d1, download tags false ub dd srv d = (d1, Ok tt) /\ read d1 (destination dd ++ "/" ++ f)%string = Some message /\
    (Forall (fun c => fst c = false /\ snd c ub = Some (200%Z, "index")) cs -> read (runs tags ub dd cs d1) (destination dd ++ "/" ++ f)%string = Some message).
Proof.
  intros tags ub dd f status message cs d T F P D R srv S1 S2.
  assert (L : forall g, link (tags "index") g <-> g = f).
  { intros g. rewrite T. unfold link. split; [intros [[r [Q|[]]] _]; congruence|]. intros ->. split; [eexists; left; reflexivity|exact F]. }
  assert (Pl : plain_names (tags "index")) by (intros g Lg; apply L in Lg; subst g; exact P).
  assert (NoU : forall t, In t (tags "index") -> ~ unreadable t).
  { intros t I. rewrite T in I. destruct I as [<-|[]]. intros [_ [Q|[r Q]]]; cbn in Q; discriminate. }
  destruct (download tags false ub dd srv d) as [d1 r1] eqn:E. exists d1.
  assert (X : r1 = Ok tt).
  { replace r1 with (snd (download tags false ub dd srv d)) by (rewrite E; reflexivity).
    apply (C128_returns tags false ub dd "index" srv d S1); [rewrite T; discriminate|exact NoU|exact Pl| |right; exact D].
    intros g Lg. apply L in Lg. subst g. rewrite S2. discriminate. }
  subst r1. split; [reflexivity|].
  assert (H : honest tags ub "index" (fun _ => message) srv).
  { split; [intros a Ha; rewrite S1 in Ha; injection Ha as <-; reflexivity|]. intros g a Lg Ha. apply L in Lg; subst g. rewrite S2 in Ha; injection Ha as <-; reflexivity. }
  destruct (C128_download _ _ _ _ _ _ _ _ _ _ H Pl E) as [_ [_ [C _]]]. destruct (C eq_refl f (proj2 (L f) eq_refl)) as [_ V].
  assert (M : read d1 (destination dd ++ "/" ++ f)%string = Some message) by (apply V; right; exact R).
  split; [exact M|]. clear E C V. intros Hs. revert d1 M. induction Hs as [|c cs [Hf Hc] _ IH]; intros d1 M; [exact M|].
  change (read (runs tags ub dd cs (fst (download tags (fst c) ub dd (snd c) d1))) (destination dd ++ "/" ++ f)%string = Some message).
  apply IH. destruct (download tags (fst c) ub dd (snd c) d1) as [d2 r2] eqn:E2. cbn [fst].
  rewrite Hf in E2.
  destruct (download_steps _ _ _ _ _ _ _ _ E2) as [d3 [S3 [_ [_ [[e [_ ->]]|[_ [_ [a [ns [Sa [Pn Ea]]]]]]]]]]]; [rewrite (read_stored d1 d3 _ S3); exact M|].
  rewrite Hc in Sa. injection Sa as <-. cbn in Pn.
  pose proof (C128_names _ _ Pn) as N. rewrite <- (read_stored d1 d3 _ S3) in M.
  rewrite <- (proj2 (base_join (destination dd) f P)) in *.
  assert (Pns : forall g, In g ns -> has "/" g = false) by (intros g J; apply Pl, N, J).
  destruct (each_file _ _ _ _ (fun g => match snd c (ub ++ g)%string with Some a => snd a | None => "" end) _ _ _ _ Ea Pns) with (f := f) as [Q|[_ [_ [Q|Q]]]]; try congruence.
  intros g b _ Hg. rewrite Hg. reflexivity.
Qed.
Print Assumptions C128_error_refuted.
Example C128_error_ex : exists d1, download pg false "u/" "/d" (fun u => if String.eqb u "u/" then Some (200%Z, "index") else Some (404%Z, "not found")) (mkDisk [""] []) = (d1, Ok tt) /\
  read (fst (download pg false "u/" "/d" up d1)) "/d/skybrightness_pre/60000_60100.h5" = Some "not found".
Proof. eexists. split; reflexivity. Qed.

(** A page of links whose first attribute is another, or an error page, lists nothing and
    the call returns without a file; one [a] without attributes, or a page without tags,
    stops the call. *)
Theorem C128_links_refuted : forall force ub dd srv d f, In (parent dd) (dirs d) -> srv ub = Some (200%Z, "p") ->
  (exists d', download (fun _ => [("a", [("class", Some "file"); ("href", Some f)])]) force ub dd srv d = (d', Ok tt) /\ stored d' = stored d) /\
  snd (download (fun _ => [("a", [("href", Some f)]); ("a", [])]) force ub dd srv d) = Raise IndexError /\
  snd (download (fun _ => []) force ub dd srv d) = Raise AttributeError.
Proof.
  intros force ub dd srv d f D Sp.
  assert (En : exists d2, ensure d dd = (fst (ensure d dd), Ok tt) /\ ensure (fst (ensure d dd)) (destination dd) = (d2, Ok tt) /\ stored d2 = stored d).
  { assert (G : forall d0 p, In (parent p) (dirs d0) -> exists d1, ensure d0 p = (d1, Ok tt) /\ stored d1 = stored d0 /\ In p (dirs d1)).
    { intros d0 p H. destruct (ensure d0 p) as [d1 x] eqn:Ed. pose proof (ensure_ok _ _ _ _ Ed) as [X [Y _]]. exists d1.
      assert (Z0 : x = Ok tt); [|subst x; split; [reflexivity|split; [exact Y|apply X; reflexivity]]].
      unfold ensure, mkdir in Ed. destruct (isdir d0 p); [congruence|].
      assert (Q : isdir d0 (parent p) = true) by (apply existsb_exists; exists (parent p); split; [exact H|apply String.eqb_refl]). rewrite Q in Ed; congruence. }
    destruct (G d dd D) as [d1 [E1 [S1 I1]]]. rewrite E1; cbn.
    destruct (G d1 (destination dd)) as [d2 [E2 [S2 _]]]; [unfold destination; rewrite parent_join by reflexivity; exact I1|].
    exists d2. split; [reflexivity|]. split; [exact E2|congruence]. }
  destruct En as [d2 [E1 [E2 S2]]].
  unfold download. rewrite E1, E2, Sp. split; [|split].
  - exists d2. split; [reflexivity|exact S2].
  - unfold page_names. cbn. destruct (endswith ".h5" f); reflexivity.
  - reflexivity.
Qed.
Print Assumptions C128_links_refuted.
(** A name that begins with "/" is written there, outside of the directory. *)
Theorem C128_outside_refuted : forall ub dd srv d f c, In (parent dd) (dirs d) -> In (parent (String "/" f)) (dirs d) -> (exists n, f = (n ++ ".h5")%string) ->
  srv ub = Some (200%Z, "p") -> srv (ub ++ String "/" f)%string = Some c ->
  read (fst (download (fun _ => [("a", [("href", Some (String "/" f))])]) true ub dd srv d)) (String "/" f) = Some (snd c).
Proof.
  intros ub dd srv d f c D Df F Sp Sf.
  destruct (download (fun _ => [("a", [("href", Some (String "/" f))])]) true ub dd srv d) as [d' r] eqn:E. cbn [fst].
  destruct (download_steps _ _ _ _ _ _ _ _ E) as [d2 [S2 [_ [D2 K]]]].
  assert (Fe : endswith ".h5" (String "/" f) = true) by (apply endswith_spec; destruct F as [n ->]; exists (String "/" n); reflexivity).
  assert (P : page_names [("a", [("href", Some (String "/" f))])] = Ok [String "/" f]).
  { unfold page_names, feed, handle. cbn [fst snd]. change (String.eqb "a" "a") with true. change (String.eqb "href" "href") with true. cbv iota. rewrite Fe. reflexivity. }
  assert (G : forall d0, In (parent (String "/" f)) (dirs d0) -> each true ub (destination dd) srv [String "/" f] d0 = (d', r) -> read d' (String "/" f) = Some (snd c)).
  { intros d0 I Ea. unfold each in Ea. change (join (destination dd) (String "/" f)) with (String "/" f) in Ea. rewrite orb_true_r in Ea. cbv iota zeta in Ea. rewrite Sf in Ea. destruct c as [st body].
    unfold write in Ea. assert (Q : isdir d0 (parent (String "/" f)) = true) by (apply existsb_exists; exists (parent (String "/" f)); split; [exact I|apply String.eqb_refl]).
    rewrite Q in Ea. cbv iota in Ea. injection Ea as <- _. rewrite read_put, String.eqb_refl. reflexivity. }
  destruct K as [[e [-> ->]]|[_ [_ [a [ns [Sa [Pn Ea]]]]]]].
  - exfalso. revert E. unfold download.
    assert (En : forall d0 p, In (parent p) (dirs d0) -> exists d1, ensure d0 p = (d1, Ok tt) /\ In p (dirs d1) /\ forall x, In x (dirs d0) -> In x (dirs d1)).
    { intros d0 p H. destruct (ensure d0 p) as [d1 x] eqn:Ed. pose proof (ensure_ok _ _ _ _ Ed) as [X [_ Y]]. exists d1.
      assert (Z0 : x = Ok tt); [|subst x; split; [reflexivity|split; [apply X; reflexivity|intros y Iy; apply Y; left; exact Iy]]].
      unfold ensure, mkdir in Ed. destruct (isdir d0 p); [congruence|].
      assert (Q : isdir d0 (parent p) = true) by (apply existsb_exists; exists (parent p); split; [exact H|apply String.eqb_refl]). rewrite Q in Ed; congruence. }
    destruct (En d dd D) as [d3 [-> [I3 M3]]]. destruct (En d3 (destination dd)) as [d4 [-> [I4 M4]]]; [unfold destination; rewrite parent_join by reflexivity; exact I3|].
    rewrite Sp, P. intros E. 
    assert (R : snd (each true ub (destination dd) srv [String "/" f] d4) = Ok tt).
    { unfold each. change (join (destination dd) (String "/" f)) with (String "/" f). rewrite orb_true_r. cbv iota zeta. rewrite Sf. destruct c as [st body].
      unfold write. assert (Q : isdir d4 (parent (String "/" f)) = true) by (apply existsb_exists; exists (parent (String "/" f)); split; [apply M4, M3, Df|apply String.eqb_refl]).
      rewrite Q. reflexivity. }
    rewrite E in R. discriminate.
  - rewrite P in Pn. injection Pn as <-. apply (G d2); [exact (D2 _ Df)|exact Ea].
Qed.
Print Assumptions C128_outside_refuted.
(** The directory above the data directory is not made. *)
Theorem C128_nested_refuted : forall tags force ub dd srv d, ~ In dd (dirs d) -> ~ In (parent dd) (dirs d) -> download tags force ub dd srv d = (d, Raise RuntimeError).
Proof.
  intros tags force ub dd srv d A B. unfold download, ensure, mkdir.
  assert (Q : forall p, ~ In p (dirs d) -> isdir d p = false).
  { intros p N. unfold isdir. destruct (existsb _ _) eqn:E; [|reflexivity]. apply existsb_exists in E as [x [I E]]. apply String.eqb_eq in E. subst x. contradiction. }
  rewrite (Q _ A), (Q _ B). reflexivity.
Qed.
Print Assumptions C128_nested_refuted.

(** ** The directory as the model reads it *)
(** Hidden names begin with a point. *)
Definition dotted (s : string) : Prop := exists r, s = String "." r.
Lemma hidden_spec : forall s, hidden s = false <-> ~ dotted s.
Proof.
  intros s. split.
  - intros H [r ->]. discriminate H.
  - intros N. destruct (hidden s) eqn:E; [|reflexivity]. exfalso. apply N. unfold hidden in E. destruct s as [|c r]; [discriminate|]. exists r. f_equal.
    destruct c as [[] [] [] [] [] [] [] []]; try discriminate E; reflexivity.
Qed.
Lemma files_hid : forall dest d, NoDup (map fst (stored d)) ->
  (forall p, In p (sky_files dest d) <-> exists n, p = (dest ++ "/" ++ n ++ ".h5")%string /\ has "/" n = false /\ hidden (n ++ ".h5")%string = false /\ read d p <> None) /\
  NoDup (sky_files dest d) /\ StronglySorted (fun a b => sle a b = true) (sky_files dest d).
Proof.
  intros dest d N. unfold sky_files. split; [|split; [apply sorted_nodup, NoDup_filter, N|apply sorted_sorted]].
  intros p. rewrite sorted_in, filter_In, <- read_in, !andb_true_iff, negb_true_iff, String.eqb_eq, endswith_spec. split.
  - intros [R [[J [n Hn]] H]]. exists n. pose proof (base_plain p) as Bp. rewrite Hn in *. rewrite (proj2 (base_join dest _ Bp)) in J.
    split; [symmetry; exact J|]. rewrite has_app in Bp. apply orb_false_iff in Bp as [Bp _]. split; [exact Bp|]. split; [exact H|]. exact R.
  - intros [n [-> [A [H R]]]]. assert (Bp : has "/" (n ++ ".h5")%string = false) by (rewrite has_app, A; reflexivity).
    destruct (base_join dest _ Bp) as [B1 B2]. rewrite B2 in B1. rewrite B1, B2. split; [exact R|]. split; [split; [reflexivity|eexists; reflexivity]|exact H].
Qed.
Theorem C128_files : forall dest d, NoDup (map fst (stored d)) ->
  (forall p, In p (sky_files dest d) <-> exists n, p = (dest ++ "/" ++ n ++ ".h5")%string /\ has "/" n = false /\ ~ dotted (n ++ ".h5")%string /\ read d p <> None) /\
  NoDup (sky_files dest d) /\ StronglySorted (fun a b => sle a b = true) (sky_files dest d).
Proof.
  intros dest d N. destruct (files_hid dest d N) as [A B]. split; [|exact B]. intros p. rewrite A. split; intros (n & E & H & K & R); exists n; (split; [exact E|]); (split; [exact H|]); (split; [apply hidden_spec; exact K|exact R]).
Qed.
Print Assumptions C128_files.

(** Numbers as texts: digits, then perhaps a point and digits; and their values. *)
Definition number : Type := (list nat * option (list nat))%type.
Fixpoint text (ds : list nat) : string := match ds with [] => "" | k :: r => String (ascii_of_nat (48 + k)) (text r) end.
Definition number_text (n : number) : string := match snd n with None => text (fst n) | Some f => (text (fst n) ++ "." ++ text f)%string end.
Fixpoint value (ds : list nat) : Z := match ds with [] => 0%Z | k :: r => (Z.of_nat k * 10 ^ Z.of_nat (List.length r) + value r)%Z end.
Definition number_value (n : number) : Q :=
  match snd n with None => inject_Z (value (fst n)) | Some f => (inject_Z (value (fst n)) + inject_Z (value f) / inject_Z (10 ^ Z.of_nat (List.length f)))%Q end.
Definition proper (n : number) : Prop :=
  Forall (fun k => k < 10) (fst n) /\ match snd n with None => fst n <> [] | Some f => Forall (fun k => k < 10) f /\ fst n ++ f <> [] end.
Definition range_name (l r : number) : string := (number_text l ++ "_" ++ number_text r ++ ".h5")%string.

Lemma digit_text : forall k, k < 10 -> digit (ascii_of_nat (48 + k)) = Some (Z.of_nat k) /\ nat_of_ascii (ascii_of_nat (48 + k)) = 48 + k /\
  forall c, Ascii.eqb (ascii_of_nat (48 + k)) c = true -> (48 <= nat_of_ascii c < 58).
Proof.
  intros k H. assert (E : nat_of_ascii (ascii_of_nat (48 + k)) = 48 + k) by (apply nat_ascii_embedding; lia).
  split; [|split; [exact E|]].
  - unfold digit. rewrite E. destruct (48 <=? Z.of_nat (48 + k))%Z eqn:A; [|apply Z.leb_gt in A; lia].
    destruct (Z.of_nat (48 + k) <=? 57)%Z eqn:B; [|apply Z.leb_gt in B; lia]. cbn [andb]. f_equal. lia.
  - intros c Q. apply Ascii.eqb_eq in Q. subst c. rewrite E. lia.
Qed.
Lemma digits_text : forall ds acc, Forall (fun k => k < 10) ds -> digits acc (text ds) = Some (acc * 10 ^ Z.of_nat (List.length ds) + value ds)%Z.
Proof.
  induction ds as [|k r IH]; intros acc H; [cbn; f_equal; lia|]. inversion H as [|? ? A B]; subst.
  cbn [text digits value List.length]. rewrite (proj1 (digit_text k A)), (IH _ B). f_equal.
  rewrite Nat2Z.inj_succ, Z.pow_succ_r by lia. ring.
Qed.
Lemma text_length : forall ds, String.length (text ds) = List.length ds.
Proof. induction ds as [|k r IH]; cbn; congruence. Qed.
Lemma has_text : forall c ds, Forall (fun k => k < 10) ds -> ~ 48 <= nat_of_ascii c < 58 -> has c (text ds) = false.
Proof.
  intros c ds H N; induction H as [|k r A B IH]; [reflexivity|]. cbn [text has]. rewrite IH, orb_false_r.
  destruct (Ascii.eqb _ c) eqn:E; [|reflexivity]. exfalso. exact (N (proj2 (proj2 (digit_text k A)) c E)).
Qed.
Lemma has_number : forall c n, proper n -> ~ 48 <= nat_of_ascii c < 58 -> c <> "."%char -> has c (number_text n) = false.
Proof.
  intros c [w [f|]] [A B] N P; unfold number_text; cbn [fst snd] in *.
  - destruct B as [B _]. rewrite has_app, (has_text c w A N). cbn [orb append has]. rewrite (has_text c f B N), orb_false_r.
    apply Ascii.eqb_neq. intros E; apply P; symmetry; exact E.
  - exact (has_text c w A N).
Qed.
Lemma split_plain : forall c s, has c s = false -> split c s = [s].
Proof.
  intros c s; induction s as [|a r IH]; cbn; intros H; [reflexivity|]. apply orb_false_iff in H as [A B]. rewrite A, (IH B). reflexivity.
Qed.
Lemma split_at : forall c s t, has c s = false -> split c (s ++ String c t)%string = s :: split c t.
Proof.
  intros c s t; induction s as [|a r IH]; cbn; intros H; [rewrite Ascii.eqb_refl; reflexivity|].
  apply orb_false_iff in H as [A B]. rewrite A, (IH B). reflexivity.
Qed.
Lemma without_eq : forall c r, (c = "."%char -> match r with String "h" (String "5" _) => False | _ => True end) -> without (String c r) = String c (without r).
Proof.
  intros c r H. destruct (Ascii.eqb c ".") eqn:E.
  - apply Ascii.eqb_eq in E; subst c. specialize (H eq_refl).
    destruct r as [|a r]; [reflexivity|]. destruct (Ascii.eqb a "h") eqn:A.
    + apply Ascii.eqb_eq in A; subst a. destruct r as [|b r]; [reflexivity|]. destruct (Ascii.eqb b "5") eqn:B.
      * apply Ascii.eqb_eq in B; subst b. destruct H.
      * destruct b as [[] [] [] [] [] [] [] []]; try reflexivity; discriminate.
    + destruct a as [[] [] [] [] [] [] [] []]; try reflexivity; discriminate.
  - destruct c as [[] [] [] [] [] [] [] []]; try reflexivity; discriminate.
Qed.
Lemma without_name : forall s, has "h" s = false -> without (s ++ ".h5")%string = s.
Proof.
  induction s as [|c r IH]; intros H; [reflexivity|]. cbn in H. apply orb_false_iff in H as [A B].
  cbn [append]. rewrite without_eq, (IH B); [reflexivity|]. intros _.
  destruct r as [|a r]; cbn; [exact I|]. cbn in B. apply orb_false_iff in B as [B _].
  destruct a as [[] [] [] [] [] [] [] []]; try exact I; discriminate.
Qed.
Lemma to_float_number : forall n, proper n -> exists q, to_float (number_text n) = Ok q /\ (q == number_value n)%Q.
Proof.
  intros [w [f|]] [A B]; unfold number_text, number_value; cbn [fst snd] in *.
  - destruct B as [B C]. unfold to_float. cbn [append]. rewrite split_at by (apply has_text; [exact A|cbn; lia]). rewrite split_plain by (apply has_text; [exact B|cbn; lia]).
    rewrite (digits_text w 0 A), (digits_text f 0 B). destruct (String.eqb (text w ++ text f) "") eqn:E.
    + exfalso. apply String.eqb_eq in E. destruct w as [|k w]; [|discriminate]. destruct f as [|k f]; [apply C; reflexivity|discriminate].
    + eexists; split; [reflexivity|]. rewrite text_length. rewrite !Z.mul_0_l, !Z.add_0_l. reflexivity.
  - unfold to_float. rewrite split_plain by (apply has_text; [exact A|cbn; lia]). pose proof (digits_text w 0 A) as D.
    destruct w as [|k w]; [contradiction|]. set (v := value (k :: w)) in *. change (text (k :: w)) with (String (ascii_of_nat (48 + k)) (text w)) in *.
    cbv iota. rewrite D. eexists; split; [reflexivity|]. rewrite Z.mul_0_l, Z.add_0_l. reflexivity.
Qed.
(** The range of a file is that of its name. *)
Theorem C128_range : forall dest l r, proper l -> proper r -> exists a b, mjd_range (dest ++ "/" ++ range_name l r)%string = Ok (a, b) /\ (a == number_value l)%Q /\ (b == number_value r)%Q.
Proof.
  intros dest l r Pl Pr. unfold mjd_range.
  assert (S1 : has "/" (range_name l r) = false).
  { unfold range_name. rewrite !has_app, (has_number "/" l Pl), (has_number "/" r Pr); [reflexivity|cbn; lia|discriminate|cbn; lia|discriminate]. }
  destruct (base_join dest _ S1) as [B1 B2]. rewrite B2 in B1. rewrite B1.
  assert (W : without (range_name l r) = (number_text l ++ String "_" (number_text r))%string).
  { unfold range_name. replace (number_text l ++ "_" ++ number_text r ++ ".h5")%string with ((number_text l ++ String "_" (number_text r)) ++ ".h5")%string.
    - apply without_name. rewrite has_app. cbn [has]. rewrite (has_number "h" l Pl), (has_number "h" r Pr); [reflexivity|cbn; lia|discriminate|cbn; lia|discriminate].
    - clear. induction (number_text l) as [|c s IH]; [reflexivity|]. cbn [append]. f_equal. exact IH. }
  rewrite W, split_at by (apply has_number; [exact Pl|cbn; lia|discriminate]). rewrite split_plain by (apply has_number; [exact Pr|cbn; lia|discriminate]).
  cbn [nth_error]. destruct (to_float_number l Pl) as [a [-> Ha]]. destruct (to_float_number r Pr) as [b [-> Hb]].
  cbn [bind]. exists a, b. auto.
Qed.
Print Assumptions C128_range.
Example C128_range_ex : mjd_range "/d/skybrightness_pre/60796.5_60979.h5" = Ok ((60796 # 1) + (5 # 1) / (10 # 1), (60979 # 1))%Q.
Proof. reflexivity. Qed.

(** ** The file of a time *)
Definition named (dest p : string) (l r : number) : Prop := proper l /\ proper r /\ p = (dest ++ "/" ++ range_name l r)%string.
Definition covers (l r : number) (t : Q) : Prop := (number_value l <= t /\ t <= number_value r)%Q.
Lemma ranges_named : forall dest ps, (forall p, In p ps -> exists l r, named dest p l r) -> exists L, ranges ps = Ok L /\ map fst L = ps /\ forall p a b, In (p, (a, b)) L -> mjd_range p = Ok (a, b).
Proof.
  intros dest ps; induction ps as [|p ps IH]; intros H; [exists []; repeat split; intros ? ? ? []|].
  destruct (H p (or_introl eq_refl)) as [l [r [Pl [Pr E]]]]. destruct (C128_range dest l r Pl Pr) as [a [b [M _]]]. rewrite <- E in M.
  destruct IH as [L [R [F G]]]; [intros q I; apply H; right; exact I|].
  exists ((p, (a, b)) :: L). cbn [ranges map fst]. rewrite M, R. cbn [bind]. split; [reflexivity|]. split; [congruence|].
  intros q x y [I|I]; [injection I as <- <- <-; exact M|exact (G q x y I)].
Qed.
Lemma last_match : forall {A} (f : A -> bool) (Rel : A -> A -> Prop) l e k, StronglySorted Rel l -> rev (filter f l) = e :: k -> In e l /\ f e = true /\ forall x, In x l -> f x = true -> x = e \/ Rel x e.
Proof.
  intros A f Rel l e k Hs E.
  assert (Q : filter f l = rev k ++ [e]) by (rewrite <- (rev_involutive (filter f l)), E; reflexivity).
  assert (I : In e (filter f l)) by (rewrite Q; apply in_app_iff; right; left; reflexivity).
  apply filter_In in I as [I F]. split; [exact I|]. split; [exact F|]. intros x Ix Fx.
  assert (J : In x (filter f l)) by (apply filter_In; auto).
  assert (T : StronglySorted Rel (filter f l)).
  { clear - Hs. induction Hs as [|a l Hs IH Ha]; cbn; [constructor|]. destruct (f a); [|exact IH]. constructor; [exact IH|].
    rewrite Forall_forall in *. intros y Iy. apply filter_In in Iy as [Iy _]. exact (Ha y Iy). }
  rewrite Q in J, T. apply in_app_iff in J as [J|[J|[]]]; [right|left; congruence].
  clear - J T. induction (rev k) as [|y l IH]; [destruct J|]. cbn in T. apply StronglySorted_inv in T as [T1 T2].
  destruct J as [->|J]; [|exact (IH J T1)]. rewrite Forall_forall in T2. apply T2. apply in_app_iff; right; left; reflexivity.
Qed.
Theorem C128_found : forall dest d t, NoDup (map fst (stored d)) -> (forall p, In p (sky_files dest d) -> exists l r, named dest p l r) ->
  (forall p, file_for dest d t = Ok p -> In p (sky_files dest d) /\ exists l r, named dest p l r /\ covers l r t) /\
  (forall p l r, In p (sky_files dest d) -> named dest p l r -> covers l r t -> exists q, file_for dest d t = Ok q /\ sle p q = true).
Proof.
  intros dest d t N H. unfold file_for. destruct (ranges_named dest _ H) as [L [-> [F G]]]. cbn [bind].
  destruct (files_hid dest d N) as [_ [_ Hs]].
  assert (T : StronglySorted (fun x y : string * (Q * Q) => sle (fst x) (fst y) = true) L).
  { rewrite <- F in Hs. clear - Hs. induction L as [|x L IH]; [constructor|]. cbn in Hs. apply StronglySorted_inv in Hs as [A B]. constructor; [exact (IH A)|].
    rewrite Forall_forall in *. intros y I. apply B. apply in_map; exact I. }
  assert (C : forall p l r a b, named dest p l r -> In (p, (a, b)) L -> (Qle_bool a t && Qle_bool t b = true <-> covers l r t)).
  { intros p l r a b [Pl [Pr E]] I. specialize (G p a b I). destruct (C128_range dest l r Pl Pr) as [a' [b' [M [Ea Eb]]]]. rewrite <- E, G in M. injection M as <- <-.
    unfold covers. rewrite andb_true_iff, !Qle_bool_iff, Ea, Eb. tauto. }
  assert (S1 : forall x, sle x x = true) by (intros x; destruct (sle_total x x); assumption).
  unfold best. destruct (rev (filter _ L)) as [|e k] eqn:E.
  - split; [discriminate|]. intros p l r I Nm Cv. rewrite <- F in I. apply in_map_iff in I as [[q [a b]] [Eq I]]. cbn in Eq; subst q.
    assert (X : In (p, (a, b)) (filter (fun e => Qle_bool (fst (snd e)) t && Qle_bool t (snd (snd e))) L)) by (apply filter_In; split; [exact I|apply (C p l r a b Nm I); exact Cv]).
    apply in_rev in X. rewrite E in X. destruct X.
  - destruct (last_match _ _ _ _ _ T E) as [I [Fe M]]. split.
    + intros p Q. injection Q as <-. assert (Ip : In (fst e) (sky_files dest d)) by (rewrite <- F; apply in_map; exact I). split; [exact Ip|].
      destruct (H _ Ip) as [l [r Nm]]. exists l, r. split; [exact Nm|]. destruct e as [p [a b]]. apply (C p l r a b Nm I). exact Fe.
    + intros p l r Ip Nm Cv. exists (fst e). split; [reflexivity|]. rewrite <- F in Ip. apply in_map_iff in Ip as [[q [a b]] [Eq Iq]]. cbn in Eq; subst q.
      destruct (M (p, (a, b)) Iq) as [<-|X]; [cbn; apply (C p l r a b Nm Iq); exact Cv|cbn; apply S1|exact X].
Qed.
Print Assumptions C128_found.

(** With whole numbers of one width the file is, of those that cover the time, one that
    begins last. *)
Lemma sle_same : forall s a b, sle (s ++ a)%string (s ++ b)%string = sle a b.
Proof. induction s as [|c s IH]; intros a b; cbn [append sle]; [reflexivity|]. rewrite Ascii.eqb_refl. apply IH. Qed.
Lemma value_bound : forall ds, Forall (fun k => k < 10) ds -> (0 <= value ds < 10 ^ Z.of_nat (List.length ds))%Z.
Proof.
  intros ds H; induction H as [|k r A B IH]; [cbn; lia|]. cbn [value List.length]. rewrite Nat2Z.inj_succ, Z.pow_succ_r by lia. nia.
Qed.
Lemma sle_value : forall a b x y, Forall (fun k => k < 10) a -> Forall (fun k => k < 10) b -> List.length a = List.length b -> sle (text a ++ x)%string (text b ++ y)%string = true -> (value a <= value b)%Z.
Proof.
  induction a as [|k a IH]; intros [|m b] x y Ha Hb E S1; try discriminate. injection E as E.
  inversion Ha as [|? ? A1 A2]; inversion Hb as [|? ? B1 B2]; subst.
  cbn [text append sle value] in *. destruct (digit_text k A1) as [_ [Nk _]]. destruct (digit_text m B1) as [_ [Nm _]]. rewrite E.
  destruct (Ascii.eqb _ _) eqn:Q.
  - apply Ascii.eqb_eq in Q. assert (k = m) by (rewrite <- Q in Nm; lia). subst m. specialize (IH b x y A2 B2 E S1). lia.
  - rewrite Nk, Nm in S1. apply Nat.ltb_lt in S1. pose proof (value_bound a A2). pose proof (value_bound b B2). rewrite E in *. nia.
Qed.
Theorem C128_latest : forall dest d t width p, NoDup (map fst (stored d)) ->
  (forall p, In p (sky_files dest d) -> exists l r, named dest p (l, None) r /\ List.length l = width) -> file_for dest d t = Ok p ->
  exists l r, named dest p (l, None) r /\ covers (l, None) r t /\
  forall q l' r', In q (sky_files dest d) -> named dest q (l', None) r' -> List.length l' = width -> covers (l', None) r' t -> (value l' <= value l)%Z.
Proof.
  intros dest d t width p N H E.
  assert (H' : forall p, In p (sky_files dest d) -> exists l r, named dest p l r) by (intros q I; destruct (H q I) as [l [r [A _]]]; exists (l, None), r; exact A).
  destruct (C128_found dest d t N H') as [A B]. destruct (A p E) as [I [l0 [r0 [Nm Cv]]]].
  destruct (H p I) as [l [r [Nm' W]]]. exists l, r. split; [exact Nm'|]. split.
  - destruct Nm as [P1 [P2 E1]]. destruct Nm' as [P3 [P4 E2]]. destruct (C128_range dest l0 r0 P1 P2) as [a [b [M [Qa Qb]]]]. destruct (C128_range dest (l, None) r P3 P4) as [a' [b' [M' [Qa' Qb']]]].
    rewrite <- E1 in M. rewrite <- E2, M in M'. injection M' as <- <-. destruct Cv as [C1 C2]. unfold covers. rewrite <- Qa', <- Qb', Qa, Qb. split; assumption.
  - intros q l' r' Iq Nq Wq Cq. destruct (B q (l', None) r' Iq Nq Cq) as [p' [E' Le]]. rewrite E in E'. injection E' as <-.
    destruct Nm' as [[F1 _] [_ E2]]. destruct Nq as [[F2 _] [_ E3]]. rewrite E2, E3, !sle_same in Le. unfold range_name, number_text in Le. cbn [fst snd] in *.
    apply (sle_value l' l _ _ F2 F1) in Le; [exact Le|congruence].
Qed.
Print Assumptions C128_latest.

(** From the page to the file: after calls that may have failed, once one returns, the
    model finds for every time of a listed file one that covers it, with the server's
    content. *)
Lemma runs_nodup : forall tags ub dd cs d, NoDup (map fst (stored d)) -> NoDup (map fst (stored (runs tags ub dd cs d))).
Proof.
  intros tags ub dd cs; induction cs as [|c cs IH]; intros d N; [exact N|].
  change (NoDup (map fst (stored (runs tags ub dd cs (fst (download tags (fst c) ub dd (snd c) d)))))). apply IH.
  destruct (download tags (fst c) ub dd (snd c) d) as [d1 r1] eqn:E. cbn [fst].
  destruct (download_steps _ _ _ _ _ _ _ _ E) as [d2 [S2 [_ [_ [[e [_ ->]]|[_ [_ [a [ns [_ [_ Ea]]]]]]]]]]]; [rewrite S2; exact N|].
  apply (each_nodup _ _ _ _ _ _ _ _ Ea). rewrite S2; exact N.
Qed.
Theorem C128_served : forall tags ub dd page content cs force srv d d' l r t,
  Forall (fun c => honest tags ub page content (snd c)) cs -> honest tags ub page content srv ->
  (forall f, link (tags page) f -> exists l r, proper l /\ proper r /\ f = range_name l r) -> NoDup (map fst (stored d)) -> sky_files (destination dd) d = [] ->
  download tags force ub dd srv (runs tags ub dd cs d) = (d', Ok tt) ->
  link (tags page) (range_name l r) -> ~ dotted (range_name l r) -> proper l -> proper r -> covers l r t ->
  exists f l' r', file_for (destination dd) d' t = Ok (destination dd ++ "/" ++ f)%string /\ link (tags page) f /\ f = range_name l' r' /\ covers l' r' t /\
    read d' (destination dd ++ "/" ++ f)%string = Some (content f).
Proof.
  intros tags ub dd page content cs force srv d d' l r t Hs H Nms N Em E L Hid Pl Pr Cv. apply hidden_spec in Hid.
  assert (Slash : forall a b, proper a -> proper b -> has "/" (range_name a b) = false).
  { intros a b A B. unfold range_name. rewrite !has_app, (has_number "/" a A), (has_number "/" b B); [reflexivity|cbn; lia|discriminate|cbn; lia|discriminate]. }
  assert (Plain : plain_names (tags page)) by (intros f Lf; destruct (Nms f Lf) as [a [b [A [B ->]]]]; exact (Slash a b A B)).
  assert (N' : NoDup (map fst (stored d'))).
  { pose proof (runs_nodup tags ub dd (cs ++ [(force, srv)]) d N) as X. unfold runs in X. rewrite fold_left_app in X. cbn [fold_left fst snd] in X. fold (runs tags ub dd cs d) in X. rewrite E in X. exact X. }
  assert (Ends : forall a b, range_name a b = ((number_text a ++ "_" ++ number_text b) ++ ".h5")%string).
  { intros a b. unfold range_name. induction (number_text a) as [|c s IH]; [reflexivity|]. cbn [append]. f_equal. exact IH. }
  (* hidden names begin with the point of a number and are never read *)
  destruct (files_hid (destination dd) d N) as [F0 _]. destruct (files_hid (destination dd) d' N') as [F1 _].
  assert (Calls : (forall f, link (tags page) f -> hidden f = false -> read d' (destination dd ++ "/" ++ f)%string = Some (content f)) /\
    (forall p, (forall f, link (tags page) f -> p <> (destination dd ++ "/" ++ f)%string) -> read d' p = read d p)).
  { assert (New : forall f, link (tags page) f -> hidden f = false -> read d (destination dd ++ "/" ++ f)%string = None).
    { intros f Lf Hf. destruct (read d _) eqn:R; [exfalso|reflexivity]. destruct (Nms f Lf) as [a [b [A [B Ef]]]].
      assert (X : In (destination dd ++ "/" ++ f)%string (sky_files (destination dd) d)).
      { apply F0. exists (number_text a ++ "_" ++ number_text b)%string. rewrite <- Ends, <- Ef. split; [reflexivity|]. split; [|split; [exact Hf|congruence]].
        pose proof (Slash a b A B) as Q. rewrite Ends, has_app in Q. apply orb_false_iff in Q as [Q _]. exact Q. }
      rewrite Em in X. destruct X. }
    assert (Inv : (forall f, link (tags page) f -> hidden f = false -> read (runs tags ub dd cs d) (destination dd ++ "/" ++ f)%string = None \/ read (runs tags ub dd cs d) (destination dd ++ "/" ++ f)%string = Some (content f)) /\
                  (forall p, (forall f, link (tags page) f -> p <> (destination dd ++ "/" ++ f)%string) -> read (runs tags ub dd cs d) p = read d p)).
    { assert (New' : forall f, link (tags page) f -> hidden f = false -> read d (destination dd ++ "/" ++ f)%string = None \/ read d (destination dd ++ "/" ++ f)%string = Some (content f)) by (intros f Lf Hf; left; exact (New f Lf Hf)).
      clear - Hs New' Plain. revert d New'. induction Hs as [|c cs Hc Hcs IH]; intros d New'; [split; [exact New'|reflexivity]|].
      destruct (download tags (fst c) ub dd (snd c) d) as [d1 r1] eqn:E1.
      destruct (C128_download _ _ _ _ _ _ _ _ _ _ Hc Plain E1) as [A [B _]].
      assert (R1 : runs tags ub dd (c :: cs) d = runs tags ub dd cs d1) by (unfold runs; cbn [fold_left]; rewrite E1; reflexivity). rewrite R1.
      destruct (IH d1) as [X Y].
      - intros f Lf Hf. destruct (B f Lf) as [Q|[Q _]]; [rewrite Q; exact (New' f Lf Hf)|right; exact Q].
      - split; [exact X|]. intros p Hn. rewrite (Y p Hn). exact (A p Hn). }
    destruct Inv as [X Y]. destruct (C128_download _ _ _ _ _ _ _ _ _ _ H Plain E) as [A [B [C _]]]. split.
    - intros f Lf Hf. destruct (C eq_refl f Lf) as [U V]. destruct (X f Lf Hf) as [Q|Q]; [exact (V (or_intror Q))|].
      destruct (B f Lf) as [W|[W _]]; congruence.
    - intros p Hn. rewrite (A p Hn). exact (Y p Hn). }
  destruct Calls as [R1 R2].
  assert (In_link : forall p, In p (sky_files (destination dd) d') -> exists f, link (tags page) f /\ hidden f = false /\ p = (destination dd ++ "/" ++ f)%string).
  { intros p I. apply F1 in I as [n [Ep [Sn [Hn Rn]]]].
    destruct (In_dec string_dec p (sky_files (destination dd) d)) as [J|J]; [rewrite Em in J; destruct J|].
    assert (K : exists f, link (tags page) f /\ p = (destination dd ++ "/" ++ f)%string).
    { destruct (download_steps _ _ _ _ _ _ _ _ E) as [d2 [_ [_ [_ [[e [? _]]|[_ [_ [a [ns [Sa [Pn _]]]]]]]]]]]; [discriminate|].
      destruct H as [Hp _]. rewrite (Hp a Sa) in Pn. pose proof (C128_names _ _ Pn) as Nn.
      destruct (in_dec string_dec p (map (fun f => (destination dd ++ "/" ++ f)%string) ns)) as [I2|I2].
      - apply in_map_iff in I2 as [f [Ef If]]. exists f. split; [apply Nn; exact If|symmetry; exact Ef].
      - exfalso. assert (Q : read d' p = read d p) by (apply R2; intros f Lf Ef; apply I2; apply in_map_iff; exists f; split; [symmetry; exact Ef|apply Nn; exact Lf]).
        apply J. apply F0. exists n. rewrite <- Q. auto. }
    destruct K as [f [Lf Ef]]. exists f. split; [exact Lf|]. split; [|exact Ef]. rewrite Ep in Ef. apply app_inj_l in Ef. cbn [append] in Ef. injection Ef as Ef. rewrite <- Ef. exact Hn. }
  assert (All : forall p, In p (sky_files (destination dd) d') -> exists a b, named (destination dd) p a b).
  { intros p I. destruct (In_link p I) as [f [Lf [_ ->]]]. destruct (Nms f Lf) as [a [b [A [B ->]]]]. exists a, b. split; [exact A|]. split; [exact B|reflexivity]. }
  destruct (C128_found (destination dd) d' t N' All) as [G1 G2].
  assert (Ip : In (destination dd ++ "/" ++ range_name l r)%string (sky_files (destination dd) d')).
  { apply F1. exists (number_text l ++ "_" ++ number_text r)%string. rewrite <- Ends. split; [reflexivity|]. split; [|split; [exact Hid|rewrite (R1 _ L Hid); discriminate]].
    pose proof (Slash l r Pl Pr) as Q. rewrite Ends, has_app in Q. apply orb_false_iff in Q as [Q _]. exact Q. }
  destruct (G2 _ l r Ip (conj Pl (conj Pr eq_refl)) Cv) as [q [Eq _]]. destruct (G1 q Eq) as [Iq [l' [r' [[A [B Eq']] Cq]]]].
  destruct (In_link q Iq) as [f [Lf [Hf Ef]]]. exists f, l', r'. rewrite <- Ef. split; [exact Eq|]. split; [exact Lf|].
  split; [rewrite Ef in Eq'; apply app_inj_l in Eq'; cbn [append] in Eq'; injection Eq' as Eq'; exact Eq'|]. split; [exact Cq|]. rewrite Ef. exact (R1 f Lf Hf).
Qed.
Print Assumptions C128_served.
Example C128_served_ex : forall d', download pg false "u/" "/d" up (runs pg "u/" "/d" [(false, half)] (mkDisk [""] [])) = (d', Ok tt) ->
  file_for "/d/skybrightness_pre" d' (60050 # 1) = Ok "/d/skybrightness_pre/60000_60100.h5" /\ file_for "/d/skybrightness_pre" d' (60100 # 1) = Ok "/d/skybrightness_pre/60100_60200.h5" /\
  file_for "/d/skybrightness_pre" d' (60201 # 1) = Raise ValueError.
Proof. intros d' E. vm_compute in E. injection E as <-. vm_compute. repeat split. Qed.

(** One file of another name in the directory stops every model. *)
Theorem C128_name_refuted : forall dest d t p, In p (sky_files dest d) -> (exists s, split "_" (without (base p)) = [s]) -> exists e, file_for dest d t = Raise e.
Proof.
  intros dest d t p I [s Hs]. unfold file_for.
  assert (X : exists e, ranges (sky_files dest d) = Raise e); [|destruct X as [e ->]; exists e; reflexivity].
  induction (sky_files dest d) as [|q ps IH]; [destruct I|]. cbn [ranges].
  destruct (string_dec q p) as [->|Nq].
  - unfold mjd_range. rewrite Hs. cbn [nth_error]. destruct (to_float s) as [a|e]; cbn [bind]; eexists; reflexivity.
  - destruct I as [->|I]; [contradiction|]. destruct (mjd_range q) as [lr|e]; cbn [bind]; [|eexists; reflexivity].
    destruct (IH I) as [e ->]. eexists; reflexivity.
Qed.
Print Assumptions C128_name_refuted.
Example C128_name_ex : file_for "/d" (mkDisk [] [("/d/60000_60100.h5", ""); ("/d/example.h5", "")]) (60050 # 1) = Raise ValueError /\
  file_for "/d" (mkDisk [] [("/d/60000_60100.h5", ""); ("/d/60000.h5", "")]) (60050 # 1) = Raise IndexError.
Proof. split; reflexivity. Qed.
(** Names sort as texts: with other widths or a point the later file is not the one taken. *)
Theorem C128_width_refuted :
  file_for "/d" (mkDisk [] [("/d/99900_100100.h5", ""); ("/d/100000_100200.h5", "")]) (100050 # 1) = Ok "/d/99900_100100.h5" /\
  file_for "/d" (mkDisk [] [("/d/60000_60100.h5", ""); ("/d/60000.5_60100.h5", "")]) (60050 # 1) = Ok "/d/60000_60100.h5".
Proof. split; reflexivity. Qed.
Print Assumptions C128_width_refuted.
