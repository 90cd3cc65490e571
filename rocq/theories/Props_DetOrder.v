(** C67, C68: detailers that reorder observations, and detailers that cut a list to the time left. *)
From Coq Require Import List ZArith QArith Qround Qabs Bool String Ascii Permutation.
From Verif Require Import Base DetOrder DetOrder_proofs.
Import ListNotations.
Local Open Scope string_scope.
Open Scope list_scope.
Open Scope nat_scope.

(** RollBandMatch: the same observations in cyclic order, starting in the loaded band if any
    observation uses it. *)
Theorem C67_roll_band : forall (A : Type) (band : A -> string) cur l,
  exists u v, l = u ++ v /\ roll_band A band cur l = v ++ u /\
    (forall o, In o u -> band o <> cur) /\
    ((exists o, In o l /\ band o = cur) -> exists o r, v = o :: r /\ band o = cur).
Proof. exact roll_band_spec. Qed.
Print Assumptions C67_roll_band.

(** CloseAlt: the same observations in cyclic order; the first is the nearest of those inside
    the altitude band, and the nearest of all when none is inside. *)
Theorem C67_close_alt : forall (A : Type) (dalt sep : A -> Q) le width l, l <> [] ->
  exists u o v, l = u ++ o :: v /\ close_alt A dalt sep le width l = Ok (o :: v ++ u) /\
    ((exists x, In x l /\ le (dalt x) width = true) ->
       le (dalt o) width = true /\ forall x, In x l -> le (dalt x) width = true -> (sep o <= sep x)%Q) /\
    ((forall x, In x l -> le (dalt x) width = false) -> forall x, In x l -> (sep o <= sep x)%Q).
Proof. intros A. exact (close_alt_spec A). Qed.
Print Assumptions C67_close_alt.

(** BandSort, one-letter bands, and an order naming every band of the list once: nothing is lost
    or repeated, the order within a band is kept, and with the loaded band first no rearrangement
    needs fewer band changes.
    Missing from the full statement: orders that leave out a band or name one twice. *)
Theorem C67_band_sort_partial : forall (A : Type) (band : A -> string) desired loaded cur l,
  (forall o, In o l -> exists c, band o = String c EmptyString) ->
  match desired with
  | None => l <> [] \/ loaded = true
  | Some s => s <> [] /\ NoDup s /\ forall o, In o l -> exists c, In c s /\ band o = String c EmptyString
  end ->
  exists r, band_sort A band desired loaded cur l = Ok r /\ Permutation r l /\
    (forall b, filter (fun o => String.eqb (band o) b) r = filter (fun o => String.eqb (band o) b) l) /\
    (loaded = true -> forall l', Permutation l' l ->
       changes A band (String cur EmptyString) r <= changes A band (String cur EmptyString) l').
Proof. exact band_sort_spec. Qed.
Print Assumptions C67_band_sort_partial.

(** A desired order without one of the bands drops its observations; one naming a band twice
    schedules its observations twice. *)
Theorem C67_band_sort_refuted :
  (exists (l r : list (string * nat)), band_sort _ fst (Some ["g"; "r"]%char) true "g"%char l = Ok r /\
     exists o, In o l /\ ~ In o r) /\
  (exists (l r : list (string * nat)), band_sort _ fst (Some ["r"; "g"; "r"]%char) true "g"%char l = Ok r /\
     NoDup l /\ ~ NoDup r).
Proof.
  split.
  - exists [("g", 1); ("i", 2)], [("g", 1)]. split; [reflexivity|]. exists ("i", 2).
    split; [cbn; auto|]. intros [H|[]]. discriminate.
  - exists [("r", 1); ("g", 2)], [("g", 2); ("r", 1); ("r", 1)]. split; [reflexivity|]. split.
    + repeat constructor; cbn; intuition congruence.
    + intro N. inversion N as [|? ? _ N']; subst. inversion N' as [|? ? X _]; subst. apply X. left. reflexivity.
Qed.
Print Assumptions C67_band_sort_refuted.

(** ChunkByHA, with every band named once by the configured order: exactly the observations
    above the limit, grouped so that an earlier group is never east of a later one. *)
Theorem C67_chunk_by_ha_partial : forall (A : Type) (band : A -> string) ha high spatial orig order cur n_min width (l : list A),
  (forall x, Permutation (spatial x) x) -> NoDup orig -> NoDup order ->
  (forall o, In o l -> exists c, In c orig /\ band o = String c EmptyString) ->
  (forall o, In o l -> exists c, In c (cur :: order) /\ band o = String c EmptyString) ->
  filter high l <> [] ->
  exists r cs, chunk_by_ha A band ha high spatial orig order cur n_min width l = Ok r /\
    r = List.concat cs /\ Permutation r (filter high l) /\ falling A ha cs.
Proof. exact chunk_by_ha_spec. Qed.
Print Assumptions C67_chunk_by_ha_partial.

(** Within a chunk, each band starts at its most westerly setting observation, or at the one
    with the largest hour angle when none is setting. *)
Theorem C67_chunk_start : forall (A : Type) (ha : A -> Q) spatial g, (forall x, Permutation (spatial x) x) -> g <> [] ->
  exists o t, one_band A ha spatial g = o :: t /\
    ((exists x, In x g /\ 0 < ha x /\ ha x < 12)%Q ->
       (0 < ha o /\ ha o < 12)%Q /\ forall x, In x g -> (0 < ha x /\ ha x < 12)%Q -> (ha x <= ha o)%Q) /\
    ((forall x, In x g -> ~ (0 < ha x /\ ha x < 12)%Q) -> forall x, In x g -> (ha x <= ha o)%Q).
Proof. intros A. exact (one_band_head A (fun _ => "")). Qed.
Print Assumptions C67_chunk_start.

(** No observation above the limit is an error, not an empty list. *)
Theorem C67_chunk_by_ha_refuted : exists (l : list (string * Q)),
  chunk_by_ha _ fst snd (fun _ => false) (fun x => x) ["g"; "r"]%char ["g"; "r"]%char "g"%char 3 3 l = Raise ValueError.
Proof. exists [("g", 1%Q)]. reflexivity. Qed.
Print Assumptions C67_chunk_by_ha_refuted.

Example C67_roll_example : roll_band _ fst "r" [("g", 1); ("r", 2); ("i", 3); ("r", 4)] = [("r", 2); ("i", 3); ("r", 4); ("g", 1)].
Proof. reflexivity. Qed.
Example C67_close_example :
  close_alt (Q * Q) fst snd Qle_bool 5 [(1, 20); (9, 1); (2, 10)]%Q = Ok [(2, 10); (1, 20); (9, 1)]%Q.
Proof. reflexivity. Qed.
Example C67_sort_example :
  band_sort _ fst None true "r"%char [("g", 1); ("r", 2); ("g", 3); ("r", 4)] = Ok [("r", 2); ("r", 4); ("g", 1); ("g", 3)].
Proof. reflexivity. Qed.
Example C67_chunk_example :
  chunk_by_ha _ fst snd (fun o => negb (Qeq_bool (snd o) (-5))) (fun x => x) ["g"; "r"]%char ["g"; "r"]%char "r"%char 2 3
    [("g", -5); ("g", 1); ("r", 5); ("g", 4); ("r", -1)]%Q
  = Ok [("r", 5); ("g", 4); ("g", 1); ("r", -1)]%Q.
Proof. vm_compute. reflexivity. Qed.

(** TruncatePreTwi keeps the longest prefix whose exposures, band changes and overheads fit. *)
Theorem C68_truncate : forall (A : Type) (band : A -> string) expt change over (le : Q -> Q -> bool) cur avail (l : list A),
  (forall a b, (a == b)%Q -> le a avail = le b avail) -> l <> [] ->
  exists k, k <= List.length l /\ truncate A band expt change over le cur avail l = Ok (firstn k l) /\
    (0 < k -> le (span A band expt change over cur k l) avail = true) /\
    forall j, k < j <= List.length l -> le (span A band expt change over cur j l) avail = false.
Proof. exact truncate_spec. Qed.
Print Assumptions C68_truncate.

(** TwilightTriple, with some twilight still ahead: the list's first observations, all of them
    [n] times over, in passes.
    Missing from the full statement: that the passes fit in the twilight. *)
Theorem C68_triple_partial : forall (A : Type) (expt : A -> Q) slew n tag left1 left2 l,
  0 < n -> l <> [] -> (0 < left1 \/ 0 < left2)%Q ->
  exists k, 1 <= k /\
    triple A expt slew n tag left1 left2 l = Ok (flat_map (fun i => map (tag i) (firstn k l)) (seq 0 n)).
Proof. exact triple_spec. Qed.
Print Assumptions C68_triple_partial.

(** The passes need not fit: with 100 seconds of twilight left, three 30-second visits are
    repeated three times.  Even a list that is cut can overrun: 101 seconds of one pass in 100
    seconds leave two visits, and six exposures. *)
Theorem C68_triple_refuted :
  (exists (l r : list Q) (d : Q), triple Q (fun x => x) 5 3 (fun _ o => o) d (-1) l = Ok r /\
     (d * 24 * 3600 < qsum r)%Q) /\
  (exists (l r : list Q) (d : Q), triple Q (fun x => x) 5 3 (fun _ o => o) d (-1) l = Ok r /\
     List.length r < 3 * List.length l /\ (d * 24 * 3600 < qsum r)%Q).
Proof.
  split.
  - exists [30; 30; 30]%Q, [30; 30; 30; 30; 30; 30; 30; 30; 30]%Q, (100 # 86400). split; [reflexivity|]. reflexivity.
  - exists [30; 30; 31]%Q, [30; 30; 30; 30; 30; 30]%Q, (100 # 86400). split; [reflexivity|]. split; [repeat constructor|reflexivity].
Qed.
Print Assumptions C68_triple_refuted.

(** With a single pass, one visit fewer than fits is kept. *)
Theorem C68_triple_short_refuted : exists (l r : list Q) (d : Q) x,
  triple Q (fun x => x) 5 1 (fun _ o => o) d (-1) l = Ok r /\
  (exists t, l = r ++ x :: t) /\ (qsum (r ++ [x]) + 5 * inject_Z (Z.of_nat (List.length r)) <= d * 24 * 3600)%Q.
Proof.
  exists [30; 30; 30]%Q, [30]%Q, (70 # 86400), 30%Q. split; [reflexivity|]. split; [exists [30%Q]; reflexivity|]. vm_compute. discriminate.
Qed.
Print Assumptions C68_triple_short_refuted.

(** After the last twilight of the night the call fails. *)
Theorem C68_triple_dark_refuted : forall (A : Type) (expt : A -> Q) slew n tag left1 left2 l,
  (left1 <= 0)%Q -> (left2 <= 0)%Q -> triple A expt slew n tag left1 left2 l = Raise ValueError.
Proof. exact triple_none. Qed.
Print Assumptions C68_triple_dark_refuted.

Example C68_truncate_example :
  truncate _ fst snd (120 # 86400) (4 # 86400) Qle_bool "g" (200 # 86400)
    [("g", 30); ("r", 30); ("r", 30)]%Q = Ok [("g", 30); ("r", 30)]%Q.
Proof. vm_compute. reflexivity. Qed.
Example C68_triple_example :
  triple (nat * Q) snd 5 2 (fun i o => (i, snd o)) (-1) (1 # 24) [(9, 30%Q); (9, 40%Q)]
  = Ok [(0, 30%Q); (0, 40%Q); (1, 30%Q); (1, 40%Q)].
Proof. vm_compute. reflexivity. Qed.
