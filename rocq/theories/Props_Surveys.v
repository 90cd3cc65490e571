(** Properties C34-C36, C55: deep drilling, field and base surveys. *)
From Coq Require Import List ZArith QArith Bool String Ascii Lia Permutation Sorted.
From Verif Require Import Base IntRounded Obs Queue Core Core_proofs Surveys Surveys_proofs.
Import ListNotations.
Open Scope nat_scope.

(** Objects used by the examples: basis functions that are feasible on demand
    and conditions that say so. *)
Definition bfok : bfun bool := mkBf (fun c => sc_ext c) (fun _ => VS (EFin 1)).
Definition bfmap (l : list er) : bfun bool := mkBf (fun _ => true) (fun _ => VM l).
Definition cnd (ok : bool) (band : string) (mnt : list string) : scond bool := mkSc 60000 mnt band ok.

(** ** C34 *)
(** For any sort by band: the generated rows are the entries of the sequence in
    mounted bands, each with the flush time set and nothing else changed, those
    in the loaded band first, the others by band name. *)
Theorem C34_mounted_loaded_first_flush :
  forall W order (bs : list (bfun W)) value rt bct pad sequence s c,
  sorts order -> dd_new order bs value rt bct pad sequence = Ok s ->
  (forall b, In b bs -> bf_feas b c = true) ->
  exists flush l1 l2,
    dd_generate s c = GArr (l1 ++ l2) /\ (flush == sc_mjd c + dd_approx s + pad / 1440)%Q /\
    Permutation (l1 ++ l2) (map (set_flush flush) (filter (fun o => existsb (String.eqb (o_band o)) (sc_mounted c)) sequence)) /\
    (forall o, In o (l1 ++ l2) -> o_flush o = flush) /\
    (forall o, In o l1 -> o_band o = sc_band c) /\ (forall o, In o l2 -> o_band o <> sc_band c) /\
    StronglySorted band_le l2.
Proof.
  intros W order bs value rt bct pad sequence s c O N F. unfold dd_new in N.
  destruct sequence as [|x0 sq] eqn:Es; [discriminate|]. rewrite <- Es in *. clear Es x0 sq.
  injection N as <-. cbn [dd_approx]. unfold dd_generate. cbn [dd_bfs dd_obs dd_approx dd_pad].
  apply feasible_iff in F. rewrite F. set (f := (sc_mjd c + _ + _)%Q).
  rewrite (filter_map_comm _ _ (set_flush f) (mounted c) (mounted c)) by reflexivity.
  destruct (O sequence) as [P S].
  exists f. eexists. eexists. split; [reflexivity|]. split; [unfold f; field|].
  split; [|split; [|split; [|split]]].
  - rewrite partition_perm. apply Permutation_map. now apply Permutation_filter.
  - intros o Ho. apply in_app_iff in Ho. rewrite !filter_In, in_map_iff in Ho.
    destruct Ho as [((y & <- & _) & _)|((y & <- & _) & _)]; reflexivity.
  - intros o Ho. apply filter_In in Ho. now apply String.eqb_eq.
  - intros o Ho. apply filter_In in Ho. destruct Ho as [_ Ho]. apply negb_true_iff in Ho. now apply String.eqb_neq.
  - apply filter_sorted. assert (S1 : StronglySorted band_le (filter (mounted c) (order sequence))) by now apply filter_sorted.
    clear -S1. induction S1 as [|x l S IH Fx]; cbn; [constructor|]. constructor; [exact IH|].
    apply Forall_forall. intros y Hy. apply in_map_iff in Hy. destruct Hy as (z & <- & Hz). rewrite Forall_forall in Fx. exact (Fx z Hz).
Qed.
Print Assumptions C34_mounted_loaded_first_flush.

(** For a sequence given as a string the result does not depend on how the sort
    breaks ties. *)
Theorem C34_string_sequence_deterministic :
  forall W order order' (bs : list (bfun W)) value rt bct pad ra dec t u nexp name nvis bands,
  sorts order -> sorts order' ->
  let sequence := dd_expand ra dec t u nexp name nvis bands in
  dd_new order bs value rt bct pad sequence = dd_new order' bs value rt bct pad sequence.
Proof.
  intros W order order' bs value rt bct pad ra dec t u nexp name nvis bands O O' sequence.
  assert (E : order sequence = order' sequence).
  { destruct (O sequence) as [P S], (O' sequence) as [P' S']. apply sorted_unique; auto.
    - intros a b Ha Hb. apply dd_expand_uniform with ra dec t u nexp name nvis bands; [exact (Permutation_in _ P Ha)|exact (Permutation_in _ P Hb)].
    - now rewrite P, P'. }
  unfold dd_new. rewrite E. reflexivity.
Qed.
Print Assumptions C34_string_sequence_deterministic.

(** How many visits a string sequence asks for: for every band the sum of the
    counts at its positions, until the shorter of the two lists ends. *)
Theorem C34_string_sequence_counts :
  forall ra dec t u nexp name nvis bands b,
  List.length (filter (fun o => String.eqb (o_band o) b) (dd_expand ra dec t u nexp name nvis bands)) =
  list_sum (map (fun p => if String.eqb (snd p) b then Z.to_nat (fst p) else 0) (combine nvis bands)) /\
  forall o, In o (dd_expand ra dec t u nexp name nvis bands) ->
    o_ra o = ra /\ o_dec o = dec /\ o_nexp o = nexp /\ o_note o = name /\ In (o_band o) bands /\
    o_exptime o = if String.eqb (o_band o) "u" then u else t.
Proof.
  intros ra dec t u nexp name nvis bands b. split.
  - unfold dd_expand. induction (combine nvis bands) as [|(n & x) l IH]; cbn [flat_map map fst snd]; [reflexivity|].
    rewrite filter_app, app_length, IH. cbn [list_sum fold_right]. f_equal.
    destruct (String.eqb x b) eqn:E.
    + induction (Z.to_nat n) as [|k IHk]; cbn; [reflexivity|]. rewrite E. cbn. now rewrite IHk.
    + induction (Z.to_nat n) as [|k IHk]; cbn; [reflexivity|]. now rewrite E.
  - intros o Ho. unfold dd_expand in Ho. apply in_flat_map in Ho. destruct Ho as ((n & x) & Hc & Ho).
    apply repeat_spec in Ho. subst o. cbn. repeat split. eapply in_combine_r; eauto.
Qed.
Print Assumptions C34_string_sequence_counts.

(** "Otherwise in sequence order" fails: the order asked for is replaced by band
    name order. *)
Theorem C34_sequence_order_refuted :
  exists (bs : list (bfun bool)) sequence c,
    (forall b, In b bs -> bf_feas b c = true) /\
    (forall o, In o sequence -> In (o_band o) (sc_mounted c) /\ o_band o <> sc_band c) /\
    forall order, sorts order -> exists s l, dd_new order bs None 2 120 30 sequence = Ok s /\ dd_generate s c = GArr l /\
      map o_band sequence = ["r"; "g"; "i"]%string /\ map o_band l = ["g"; "i"; "r"]%string.
Proof.
  exists [bfok], (dd_expand 1 (-1) 30 30 2 "DD" [1; 1; 1]%Z ["r"; "g"; "i"]%string), (cnd true "z" ["g"; "r"; "i"; "z"]%string).
  split; [intros b [<-|[]]; reflexivity|].
  split. { intros o Ho. apply C34_string_sequence_counts in Ho; [|exact ""%string]. destruct Ho as (_ & _ & _ & _ & [H|[H|[H|[]]]] & _);
    rewrite <- H; (split; [cbn; auto|discriminate]). }
  intros order O. rewrite (C34_string_sequence_deterministic _ order band_sort) by (auto using band_sort_sorts).
  eexists. eexists. split; [vm_compute; reflexivity|]. split; [vm_compute; reflexivity|]. now vm_compute.
Qed.
Print Assumptions C34_sequence_order_refuted.

Example C34_example :
  exists s l, dd_new band_sort [bfok] None 2 120 30 (dd_expand 1 (-1) 30 38 2 "DD" [2; 1; 1]%Z ["r"; "u"; "g"]%string) = Ok s /\
    dd_generate s (cnd true "r" ["g"; "r"]%string) = GArr l /\ map o_band l = ["r"; "r"; "g"]%string /\
    dd_generate s (cnd false "r" ["g"; "r"]%string) = GPyList.
Proof. eexists. eexists. split; [vm_compute; reflexivity|]. split; [vm_compute; reflexivity|]. now vm_compute. Qed.

(** ** C35 *)
(** The seconds a sequence is expected to take: [bl] lists its bands once each. *)
Definition seconds (rt bct : Q) (sequence : list obs) (bl : list string) : Q :=
  (fold_right (fun o a => o_exptime o + rt * inject_Z (o_nexp o) + a) 0 sequence + bct * inject_Z (Z.of_nat (List.length bl)))%Q.

Lemma Qsum_seconds : forall rt l, (Qsum (map (fun o => o_exptime o + rt * inject_Z (o_nexp o)) l) ==
  fold_right (fun o a => o_exptime o + rt * inject_Z (o_nexp o) + a) 0 l)%Q.
Proof. intros rt. induction l as [|o l IH]; cbn; [reflexivity|]. unfold Qsum in *. cbn. now rewrite IH. Qed.

(** Deep drilling surveys estimate their duration as the property asks. *)
Theorem C35_deep_drilling_duration :
  forall W order (bs : list (bfun W)) value rt bct pad sequence s bl,
  sorts order -> dd_new order bs value rt bct pad sequence = Ok s ->
  NoDup bl -> (forall b, In b bl <-> exists o, In o sequence /\ o_band o = b) ->
  (dd_approx s == seconds rt bct sequence bl / 86400)%Q.
Proof.
  intros W order bs value rt bct pad sequence s bl O N D B. unfold dd_new in N.
  destruct sequence as [|x0 sq] eqn:Es; [discriminate|]. rewrite <- Es in *. clear Es x0 sq.
  injection N as <-. cbn [dd_approx]. destruct (O sequence) as [P _].
  rewrite (n_bands_spec (order sequence) bl D).
  - rewrite (Qsum_perm _ _ (Permutation_map _ P)), Qsum_seconds. unfold seconds. field.
  - intros b. rewrite B. split; intros (o & Ho & E); exists o; (split; [|exact E]).
    + now apply (Permutation_in _ (Permutation_sym P)).
    + now apply (Permutation_in _ P).
Qed.
Print Assumptions C35_deep_drilling_duration.

(** Field surveys estimate 576 times that: the seconds are divided by 150. *)
Theorem C35_field_duration_576_times :
  forall W (bs : list (bfun W)) rt bct pad indx sequence s bl,
  fd_new bs rt bct pad indx sequence = Ok s ->
  (forall o, In o sequence -> o_band o <> ""%string) ->
  NoDup bl -> (forall b, In b bl <-> exists o, In o sequence /\ o_band o = b) ->
  (fd_approx s == 576 * (seconds rt bct sequence bl / 86400))%Q.
Proof.
  intros W bs rt bct pad indx sequence s bl N NE D B. unfold fd_new in N.
  destruct sequence as [|x0 sq] eqn:Es; [discriminate|]. rewrite <- Es in *. clear Es x0 sq.
  injection N as <-. cbn [fd_approx].
  assert (Em : map backfill_band sequence = sequence).
  { clear -NE. induction sequence as [|o l IH]; [reflexivity|]. cbn. rewrite IH by (intros; apply NE; now right). f_equal.
    unfold backfill_band. assert (H := NE o (or_introl eq_refl)). apply String.eqb_neq in H. now rewrite H. }
  rewrite Em, (n_bands_spec sequence bl D B), Qsum_seconds. unfold seconds. field.
Qed.
Print Assumptions C35_field_duration_576_times.

Theorem C35_field_duration_refuted :
  exists (bs : list (bfun bool)) sequence s bl,
    fd_new bs (12 # 5) 120 30 0 sequence = Ok s /\ NoDup bl /\ (forall b, In b bl <-> exists o, In o sequence /\ o_band o = b) /\
    ~ (fd_approx s == seconds (12 # 5) 120 sequence bl / 86400)%Q /\
    (* one 30 second visit keeps its observations in the queue for more than a day *)
    exists o, fd_generate s (cnd true "r" ["r"]%string) = GArr [o] /\ (60001 < o_flush o)%Q.
Proof.
  exists [bfok], [entry "r" 1 (-1) 30 1 "f"]. eexists. exists ["r"%string]. split; [reflexivity|].
  split; [repeat constructor; auto|]. split.
  { intros b. split; [intros [<-|[]]; eexists; split; [now left|reflexivity]|intros (o & [<-|[]] & <-); now left]. }
  split; [vm_compute; congruence|]. eexists. split; [vm_compute; reflexivity|]. now vm_compute.
Qed.
Print Assumptions C35_field_duration_refuted.

(** What a field survey generates: the visits of its sequence in mounted bands,
    in the order of the sequence, with the flush time set. *)
Theorem C35_field_generated :
  forall W (bs : list (bfun W)) rt bct pad indx sequence s c,
  fd_new bs rt bct pad indx sequence = Ok s -> (forall b, In b bs -> bf_feas b c = true) ->
  exists flush, (flush == sc_mjd c + fd_approx s + pad / 1440)%Q /\
    fd_generate s c = GArr (map (set_flush flush)
      (filter (fun o => existsb (String.eqb (o_band o)) (sc_mounted c)) (map backfill_band sequence))).
Proof.
  intros W bs rt bct pad indx sequence s c N F. unfold fd_new in N.
  destruct sequence as [|x0 sq] eqn:Es; [discriminate|]. rewrite <- Es in *. clear Es x0 sq.
  injection N as <-. unfold fd_generate. cbn [fd_bfs fd_approx fd_pad fd_obs].
  assert (Em : forall w : Q, map fst (map (fun b : bfun W => (b, w)) bs) = bs) by (intros w; rewrite map_map; cbn; apply map_id).
  rewrite Em. apply feasible_iff in F. rewrite F.
  eexists. split; [|f_equal; now apply filter_map_comm]. field.
Qed.
Print Assumptions C35_field_generated.

(** The visits a per band configuration asks for. *)
Theorem C35_field_sequence :
  forall ra dec note nv et ne bands l, fd_expand ra dec note nv et ne bands = Ok l ->
  exists blocks, l = List.concat blocks /\
    Forall2 (fun b block => exists n, per nv b = Ok n /\ List.length block = Z.to_nat n /\
      forall o, In o block -> o_band o = b /\ per et b = Ok (o_exptime o) /\ per ne b = Ok (o_nexp o) /\
        o_ra o = ra /\ o_dec o = dec /\ o_note o = note) bands blocks.
Proof.
  intros ra dec note nv et ne. induction bands as [|b bands IH]; intros l H; cbn in H.
  - injection H as <-. exists []. split; [reflexivity|constructor].
  - destruct (per nv b) as [n|] eqn:En; cbn in H; [|discriminate].
    destruct (n <=? 0)%Z eqn:Ez; cbn in H.
    + destruct (fd_expand ra dec note nv et ne bands) as [l'|] eqn:E; cbn in H; [|discriminate]. injection H as <-.
      destruct (IH _ eq_refl) as (bl & -> & F). exists ([] :: bl). split; [reflexivity|]. constructor; [|exact F].
      exists n. split; [exact En|]. split; [cbn; lia|intros o []].
    + destruct (per et b) as [t|] eqn:Et; cbn in H; [|discriminate].
      destruct (per ne b) as [k|] eqn:Ek; cbn in H; [|discriminate].
      destruct (fd_expand ra dec note nv et ne bands) as [l'|] eqn:E; cbn in H; [|discriminate]. injection H as <-.
      destruct (IH _ eq_refl) as (bl & -> & F). eexists (repeat _ _ :: bl). split; [reflexivity|]. constructor; [|exact F].
      exists n. split; [exact En|]. split; [apply repeat_length|]. intros o Ho. apply repeat_spec in Ho. subst o. cbn. repeat split; assumption.
Qed.
Print Assumptions C35_field_sequence.

Example C35_example :
  exists l (s : field bool), fd_expand 1 (-1) "f" (PDict [("r", 2%Z); ("g", 1%Z)]%string) (PAll 30%Q) (PAll 1%Z) ["r"; "g"]%string = Ok l /\
    fd_new [bfok] 2 120 30 0 l = Ok s /\ (fd_approx s == 336 / 150)%Q /\
    fd_expand 1 (-1) "f" (PDict [("r", 2%Z)]%string) (PAll 30%Q) (PAll 1%Z) ["r"; "g"]%string = Raise KeyError.
Proof. eexists. eexists. split; [vm_compute; reflexivity|]. split; [vm_compute; reflexivity|]. now vm_compute. Qed.

(** ** C36 *)
(** A basis function that is not feasible leaves base, deep drilling and field
    surveys with a reward of -inf. *)
Theorem C36_infeasible_no_reward :
  forall W (bs : list (bfun W)) b c, In b bs -> bf_feas b c = false ->
  base_reward bs c = VS ENInf /\
  (forall s nt ns, dd_bfs s = bs -> dd_reward s nt ns c = VS ENInf /\ dd_generate s c = GPyList) /\
  (forall s, map fst (fd_bfs s) = bs -> fd_reward s c = Ok (VS ENInf) /\ fd_generate s c = GPyList).
Proof.
  intros W bs b c Hb Hf. assert (F : feasible bs c = false) by (apply feasible_false; eauto).
  split; [unfold base_reward; now rewrite F|]. split.
  - intros s nt ns E. unfold dd_reward, dd_generate. rewrite E, F. auto.
  - intros s E. unfold fd_reward, fd_generate. rewrite E, F. auto.
Qed.
Print Assumptions C36_infeasible_no_reward.

(** A survey chosen by the scheduler has a reward above -inf. *)
Theorem C36_chosen_has_reward :
  forall RR t i, chosen RR t i -> exists tier a x, nth_error RR t = Some tier /\ nth_error tier i = Some a /\
    In x a /\ er_ltb ENInf x = true.
Proof.
  intros RR t i (_ & tier & a & m & Ht & Ha & (Hm & _) & Hab & _). exists tier, a, m.
  repeat split; auto. now destruct m.
Qed.
Print Assumptions C36_chosen_has_reward.

(** A field survey whose reward map is -inf everywhere reports +inf: it beats
    every other survey instead of never being selected. *)
Theorem C36_field_masked_refuted :
  exists (s : field bool) c m, fd_bfs s = [(bfmap m, 1%Q)] /\ (forall x, In x m -> x = ENInf) /\
    fd_reward s c = Ok (VS EPInf).
Proof.
  exists (mkField [(bfmap [ENInf; ENInf], 1%Q)] [entry "r" 1 (-1) 30 1 "f"] 1 1 1), (cnd true "r" ["r"]%string), [ENInf; ENInf].
  split; [reflexivity|]. split; [intros x [<-|[<-|[]]]; reflexivity|]. now vm_compute.
Qed.
Print Assumptions C36_field_masked_refuted.

(** The reward of a feasible field survey: the weighted sum of the basis
    functions at its pixel, except that -inf becomes +inf as soon as one basis
    function is a map. *)
Theorem C36_field_reward :
  forall W n (s : field W) c,
  (forall b w, In (b, w) (fd_bfs s) -> bf_feas b c = true /\ shaped n (bf_val b c)) -> fd_indx s < n ->
  let x := pixel_sum (EFin 0) (fd_bfs s) c (fd_indx s) in
  let has_map := exists b w l, In (b, w) (fd_bfs s) /\ bf_val b c = VM l in
  (~ has_map \/ x <> ENInf -> fd_reward s c = Ok (VS x)) /\
  (has_map -> x = ENInf -> fd_reward s c = Ok (VS EPInf)).
Proof.
  intros W n s c H Hi x has_map.
  assert (F : feasible (map fst (fd_bfs s)) c = true).
  { apply feasible_iff. intros b Hb. apply in_map_iff in Hb. destruct Hb as ((b' & w) & <- & Hb). now apply H in Hb. }
  destruct (wsum_ok W n (fd_bfs s) c (VS (EFin 0))) as (v & Ev & S & M & V); [exact I|intros b w Hb; now apply H in Hb|].
  specialize (V _ Hi). cbn [at_pix] in V. fold x in V.
  assert (HM : is_map v = true <-> has_map).
  { rewrite M. cbn [is_map orb]. rewrite existsb_exists. split.
    - intros ((b & w) & Hb & E). cbn in E. destruct (bf_val b c) as [y|l] eqn:Eb; [discriminate|]. now exists b, w, l.
    - intros (b & w & l & Hb & E). exists (b, w). split; [exact Hb|]. cbn. now rewrite E. }
  unfold fd_reward. rewrite F, Ev. cbn [bind]. destruct v as [y|l]; cbn [at_pix is_map] in *.
  - subst y. split; [reflexivity|]. intros K. apply HM in K. discriminate.
  - assert (E : nth_error l (fd_indx s) = Some x) by (rewrite <- V; apply nth_error_nth'; cbn in S; lia). rewrite E.
    split.
    + intros [K|K]; [exfalso; apply K, HM; reflexivity|]. destruct x; congruence.
    + intros _ ->. reflexivity.
Qed.
Print Assumptions C36_field_reward.

Example C36_example :
  base_reward [bfok; bfmap []] (cnd false "r" []) = VS ENInf /\
  base_reward [bfok; bfmap []] (cnd true "r" []) = VS (EFin 0) /\
  fd_reward (mkField [(bfmap [EFin 3; ENInf], 1%Q)] [] 1 1 0) (cnd true "r" []) = Ok (VS (EFin (0 + 3 * 1))).
Proof. now vm_compute. Qed.

(** ** C55 *)
(** A visit reported on its own reaches the features of a survey exactly when no
    ignored string occurs in its note; a batch passes on exactly the same visits
    and their pixel rows, in time order. *)
Theorem C55_ignored_same_single_and_batch :
  forall sort sortp ignore l lp,
  Permutation (sort l) l -> Permutation (sortp lp) lp ->
  (forall p, In p lp -> In (fst p) l) ->
  let ok := fun o => forall ig, In ig ignore -> ~ exists a b, o_note o = (a ++ ig ++ b)%string in
  (forall o, (ok o -> sub_single ignore o = [o]) /\ (~ ok o -> sub_single ignore o = [])) /\
  match sub_batch sort sortp ignore l lp with
  | None => (forall o, In o l -> sub_single ignore o = []) /\ (forall p, In p lp -> sub_single ignore (fst p) = [])
  | Some (k, kp) => Permutation k (flat_map (sub_single ignore) l) /\
      (forall p, In p kp <-> In p lp /\ sub_single ignore (fst p) = [fst p]) /\
      (StronglySorted (fun a b => (o_mjd a <= o_mjd b)%Q) (sort l) -> StronglySorted (fun a b => (o_mjd a <= o_mjd b)%Q) k)
  end.
Proof.
  intros sort sortp ignore l lp P PP I ok. split.
  { intros o. unfold sub_single. split; intros H.
    - assert (G : good_note ignore o = true) by (apply good_note_iff; exact H). now rewrite G.
    - destruct (good_note ignore o) eqn:G; [|reflexivity]. exfalso. apply H. exact (proj1 (good_note_iff _ _) G). }
  assert (FM : forall l, flat_map (sub_single ignore) l = filter (good_note ignore) l).
  { induction l0 as [|x l0 IH]; cbn; [reflexivity|]. unfold sub_single at 1. destruct (good_note ignore x); cbn; now rewrite IH. }
  unfold sub_batch. rewrite sub_batch_fold. cbn [fst].
  destruct (filter (good_note ignore) (sort l)) as [|x k] eqn:E.
  - assert (N : forall o, In o l -> sub_single ignore o = []); [|split; [exact N|intros p Hp; auto]].
    intros o Ho. unfold sub_single. destruct (good_note ignore o) eqn:G; [|reflexivity]. exfalso.
    assert (H : In o (filter (good_note ignore) (sort l))) by (apply filter_In; split; [now apply (Permutation_in _ (Permutation_sym P))|exact G]).
    now rewrite E in H.
  - rewrite <- E. split; [|split].
    + rewrite FM. now apply Permutation_filter.
    + intros p. rewrite filter_In. unfold sub_single. split.
      * intros [Hp G]. rewrite G. split; [now apply (Permutation_in _ PP)|reflexivity].
      * intros [Hp G]. destruct (good_note ignore (fst p)); [|discriminate]. split; [now apply (Permutation_in _ (Permutation_sym PP))|reflexivity].
    + apply filter_sorted.
Qed.
Print Assumptions C55_ignored_same_single_and_batch.

Example C55_example :
  let a := entry "r" 0 0 30 1 "pair_33, a" in let b := entry "r" 0 0 30 1 "DD:COSMOS" in
  sub_single ["pair"; "ToO"]%string a = [] /\
  sub_batch (fun l => l) (fun l => l) ["pair"; "ToO"]%string [a; b] [(a, 1%Z); (b, 2%Z)] = Some ([b], [(b, 2%Z)]) /\
  sub_batch (fun l => l) (fun l => l) [""]%string [a; b] [(a, 1%Z)] = None.
Proof. now vm_compute. Qed.
