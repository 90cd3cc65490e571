(** C79: a reward follows the visits reported and the conditions asked about. *)
From Coq Require Import List ZArith QArith Bool Lia Lqa Permutation.
From Verif Require Import Base BfCall BfCall_proofs.
Import ListNotations.
Open Scope nat_scope.

(** A class whose _calc_value leaves mjd_last and recalc alone, as every one in the package that
    defines it does, and does not change its features: whatever was asked before, the answer
    is the one its features, told of every reported visit, give for these conditions. *)
Theorem C79_fresh : forall (S C V : Type) (mjd : C -> Q) (k : cls S C V) s0 l c p,
  cl_books k = false -> (forall s d, fst (cl_calc k s d) = s) ->
  snd (bf_call mjd k (bf_run mjd k (bf0 s0) l) c) p =
  (if cl_feas k (fold_left (cl_add k) (reports l) s0) c then snd (cl_calc k (fold_left (cl_add k) (reports l) s0) c) p else ENInf).
Proof. intros S C V mjd k s0 l c p B P. apply (fresh mjd eq k s0 l c p (eq_steady k P) B). Qed.
Print Assumptions C79_fresh.
(** The same holds when it keeps the books, as long as the conditions asked about at one time agree. *)
Theorem C79_cached_partial : forall (S C V : Type) (mjd : C -> Q) (k : cls S C V) s0 l c p,
  cl_books k = true -> cl_newobs k = true -> cl_onmjd k = true -> (forall s d, fst (cl_calc k s d) = s) ->
  (forall a b, In a (c :: asked l) -> In b (c :: asked l) -> (mjd a == mjd b)%Q -> forall s q, snd (cl_calc k s a) q = snd (cl_calc k s b) q) ->
  snd (bf_call mjd k (bf_run mjd k (bf0 s0) l) c) p =
  (if cl_feas k (fold_left (cl_add k) (reports l) s0) c then snd (cl_calc k (fold_left (cl_add k) (reports l) s0) c) p else ENInf).
Proof. intros S C V mjd k s0 l c p B N M P H. apply (books_fresh mjd k P B N M s0 l c p). exact H. Qed.
Print Assumptions C79_cached_partial.
(** Without that it hands out the reward of other conditions; and a class that does not recalculate
    on new visits hands out the reward from before them. *)
Theorem C79_cached_refuted :
  (exists (k : cls unit (Q * er) unit) l c, cl_books k = true /\ cl_newobs k = true /\ cl_onmjd k = true /\ (forall s d, fst (cl_calc k s d) = s) /\
     snd (bf_call fst k (bf_run fst k (bf0 tt) l) c) 0 <> snd (bf_call fst k (bf0 tt) c) 0) /\
  (exists (k : cls nat Q unit) l c, cl_books k = true /\ cl_newobs k = false /\ cl_onmjd k = true /\ (forall s d, fst (cl_calc k s d) = s) /\
     snd (bf_call (fun t => t) k (bf_run (fun t => t) k (bf0 0) l) c) 0 <> snd (bf_call (fun t => t) k (bf0 (fold_left (cl_add k) (reports l) 0)) c) 0).
Proof.
  split.
  - exists (mkCls (fun s _ => s) (fun _ _ => true) (fun s c => (s, fun _ => snd c)) true true true), [Ask (60000%Q, EFin 1)], (60000%Q, ENaN).
    repeat split; try (intros [] ?; reflexivity). cbn. discriminate.
  - exists (mkCls (fun s _ => S s) (fun _ _ => true) (fun s _ => (s, fun _ => if Nat.eqb s 0 then EFin 1 else ENaN)) true false true), [Ask 60000%Q; Seen tt], 60000%Q.
    repeat split; try reflexivity. cbn. discriminate.
Qed.
Print Assumptions C79_cached_refuted.

(** ** AreaCheckMask *)
(** Its reward: zero where every function in the list gives a finite reward, NaN elsewhere; minus
    infinity when one of them is infeasible or the area of the former is short. *)
Theorem C79_area : forall (S C V : Type) (mjd : C -> Q) npix pa ma (l0 : list (cls S C V * bf S)) ops c i good,
  Forall plain l0 -> NoDup good -> (forall j, In j good <-> j < npix /\ Forall (fun p => finite (reward p c j)) l0) ->
  let r := snd (bf_call mjd (area_cls mjd npix pa ma) (bf_run mjd (area_cls mjd npix pa ma) (bf0 l0) ops) c) i in
  if forallb (fun p => cl_feas (fst p) (b_feat (snd p)) c) l0 && Qle_bool ma (pa * inject_Z (Z.of_nat (List.length good)))
  then (Forall (fun p => finite (reward p c i)) l0 -> exists q, r = EFin q /\ (q == 0)%Q) /\ (~ Forall (fun p => finite (reward p c i)) l0 -> r = ENaN)
  else r = ENInf.
Proof.
  intros S C V mjd npix pa ma l0 ops c i good P N G. cbv zeta. rewrite area_call by exact P.
  assert (E : List.length (filter (fun p => is_zero (snd (area_map mjd l0 c zeros) p)) (seq 0 npix)) = List.length good).
  { apply Permutation_length, NoDup_Permutation; [apply NoDup_filter, seq_NoDup|exact N|]. intro j.
    rewrite filter_In, in_seq, G, (area_zero mjd l0 c j P). split; intros [A B]; (split; [lia|exact B]). }
  unfold area_feas. rewrite E. destruct (forallb _ l0); cbn [andb]; [|reflexivity].
  destruct (Qle_bool ma (pa * inject_Z (Z.of_nat (List.length good)))) eqn:L.
  - assert (L' : Qltb (pa * inject_Z (Z.of_nat (List.length good))) ma = false) by (apply Qltb_false; apply Qle_bool_iff; exact L).
    rewrite L'. cbn [negb]. split.
    + intro F. apply (area_zero mjd l0 c i P) in F. destruct (snd (area_map mjd l0 c zeros) i); try discriminate. exists q. split; [reflexivity|]. apply Qeq_bool_iff. exact F.
    + intro F. destruct (area_nan mjd l0 c i P) as [Z|Z]; [|exact Z]. exfalso. apply F. apply (area_zero mjd l0 c i P). exact Z.
  - assert (L' : Qltb (pa * inject_Z (Z.of_nat (List.length good))) ma = true).
    { apply Qltb_lt. apply Qle_bool_false in L. exact L. }
    rewrite L'. reflexivity.
Qed.
Print Assumptions C79_area.
(** It never hears of a visit: whatever is reported, the reward is that of the start of the survey. *)
Theorem C79_area_deaf : forall (S C V : Type) (mjd : C -> Q) npix pa ma (l0 : list (cls S C V * bf S)) ops ops' c i, Forall plain l0 ->
  snd (bf_call mjd (area_cls mjd npix pa ma) (bf_run mjd (area_cls mjd npix pa ma) (bf0 l0) ops) c) i =
  snd (bf_call mjd (area_cls mjd npix pa ma) (bf_run mjd (area_cls mjd npix pa ma) (bf0 l0) ops') c) i.
Proof. intros. rewrite !area_call by assumption. reflexivity. Qed.
Print Assumptions C79_area_deaf.
(** A mask that shuts after one visit, and the same mask inside an area check, which does not. *)
Theorem C79_area_refuted : exists (k : cls nat Q unit) (ops : list (op Q unit)) c, plain (k, bf0 0) /\
  snd (bf_call (fun t => t) k (bf_run (fun t => t) k (bf0 0) ops) c) 0 = ENaN /\
  snd (bf_call (fun t => t) (area_cls (fun t => t) 4 1 1) (bf_run (fun t => t) (area_cls (fun t => t) 4 1 1) (bf0 [(k, bf0 0)]) ops) c) 0 = EFin 0.
Proof.
  exists (mkCls (fun s _ => S s) (fun _ _ => true) (fun s _ => (s, fun _ => if Nat.eqb s 0 then EFin 0 else ENaN)) false true true), [Seen tt], 60000%Q.
  split; [repeat split; reflexivity|]. split; reflexivity.
Qed.
Print Assumptions C79_area_refuted.

(** ** Examples *)
Definition ex_cls : cls nat (Q * bool) unit :=
  mkCls (fun s _ => S s) (fun _ c => snd c) (fun s c => (s, fun p => if Nat.ltb p s then ENaN else EFin (fst c))) false true true.
Definition ex_ops : list (op (Q * bool) unit) := [Ask (1%Q, true); Seen tt; Ask (1%Q, true); Ask (2%Q, false); Seen tt].
Example C79_ex_fresh : cl_books ex_cls = false /\ (forall s d, fst (cl_calc ex_cls s d) = s) /\
  map (fun p => snd (bf_call fst ex_cls (bf_run fst ex_cls (bf0 0) ex_ops) (3%Q, true)) p) [0; 1; 2; 3] = [ENaN; ENaN; EFin 3; EFin 3] /\
  snd (bf_call fst ex_cls (bf_run fst ex_cls (bf0 0) ex_ops) (3%Q, false)) 2 = ENInf.
Proof. repeat split; reflexivity. Qed.
Definition ex_books : cls nat (Q * bool) unit :=
  mkCls (fun s _ => S s) (fun _ c => snd c) (fun s c => (s, fun p => if Nat.ltb p s then ENaN else EFin (fst c))) true true true.
Example C79_ex_cached : forall a b, In a ((3%Q, true) :: asked ex_ops) -> In b ((3%Q, true) :: asked ex_ops) -> (fst a == fst b)%Q ->
  forall s q, snd (cl_calc ex_books s a) q = snd (cl_calc ex_books s b) q.
Proof.
  intros a b Ia Ib E s q. cbn in Ia, Ib.
  repeat (destruct Ia as [<-|Ia]; [repeat (destruct Ib as [<-|Ib]; [first [reflexivity | (exfalso; cbn in E; discriminate E)]|]); destruct Ib|]). destruct Ia.
Qed.
Example C79_ex_area : Forall plain [(ex_cls, bf0 1); (ex_cls, bf0 2)] /\
  map (fun p => snd (bf_call fst (area_cls fst 4 10 20) (bf_run fst (area_cls fst 4 10 20) (bf0 [(ex_cls, bf0 1); (ex_cls, bf0 2)]) ex_ops) (3%Q, true)) p) [0; 1; 2; 3] = [ENaN; ENaN; EFin 0; EFin 0] /\
  snd (bf_call fst (area_cls fst 4 10 21) (bf_run fst (area_cls fst 4 10 21) (bf0 [(ex_cls, bf0 1); (ex_cls, bf0 2)]) ex_ops) (3%Q, true)) 3 = ENInf.
Proof. split; [repeat constructor|split; reflexivity]. Qed.
