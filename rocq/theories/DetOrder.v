(** Model of the detailers that reorder or cut a list of observations.
    /repo/rubin_scheduler/scheduler/detailers/detailer.py: RollBandMatchDetailer (392-404),
    CloseAltDetailer (835-870), BandSortDetailer (577-625), ChunkByHADetailer (195-314),
    TruncatePreTwiDetailer (457-506), TwilightTripleDetailer (957-998).
    Observations are of any type; the columns read are functions.  Indexing an array with
    np.where is filtering it.  Band names in an order string and the loaded band are one
    letter.  Exact numbers. *)
From Coq Require Import List ZArith QArith Qround Qabs Bool String Ascii.
From Verif Require Import Base.
Import ListNotations.
Local Open Scope string_scope.
Open Scope list_scope.
Open Scope nat_scope.

Section Order.
Variable A : Type.
Variable band : A -> string.

Definition letter (c : ascii) : string := String c EmptyString.

(** np.roll by minus [k]. *)
Definition roll_to (k : nat) (l : list A) : list A := skipn k l ++ firstn k l.

(** RollBandMatchDetailer.__call__, lines 395-404. *)
Definition roll_band (cur : string) (l : list A) : list A :=
  match np_where (fun o => String.eqb (band o) cur) l with
  | [] => l
  | i :: r => roll_to (fold_left Nat.min r i) l
  end.

(** CloseAltDetailer.__call__, lines 849-870; [dalt] is the altitude offset from the
    telescope, [sep] the angular distance, [le] the IntRounded comparison. *)
Definition first_argmin (f : A -> Q) (l : list (nat * A)) : option nat :=
  match l with
  | [] => None
  | p :: r => Some (fst (fold_left (fun b q => if Qltb (f (snd q)) (f (snd b)) then q else b) r p))
  end.
Definition close_alt (dalt sep : A -> Q) (le : Q -> Q -> bool) (width : Q) (l : list A) : res (list A) :=
  let all := combine (seq 0 (List.length l)) l in
  let inb := filter (fun p => le (dalt (snd p)) width) all in
  let use := match inb with [] => all | _ => inb end in
  match first_argmin sep use with
  | None => Raise ValueError
  | Some i => Ok (skipn i l ++ firstn i l)
  end.

(** BandSortDetailer.__call__, lines 601-625.  [appear]: the distinct bands in order of
    first appearance (np.unique with return_index, sorted by the index). *)
Fixpoint appear (seen : list string) (l : list A) : list string :=
  match l with
  | [] => []
  | o :: r => if existsb (String.eqb (band o)) seen then appear seen r
              else band o :: appear (band o :: seen) r
  end.
Definition remove_letter (c : ascii) (s : list ascii) : list ascii := filter (fun x => negb (Ascii.eqb x c)) s.
Definition by_order (order : list ascii) (l : list A) : res (list A) :=
  match order with
  | [] => Raise ValueError
  | _ => Ok (flat_map (fun c => filter (fun o => String.eqb (band o) (letter c)) l) order)
  end.
Definition band_sort (desired : option (list ascii)) (loaded : bool) (cur : ascii) (l : list A) : res (list A) :=
  match appear [] l with
  | [_] => Ok l
  | us => let order := match desired with
                       | Some s => s
                       | None => flat_map list_ascii_of_string us
                       end in
          by_order (if loaded then cur :: remove_letter cur order else order) l
  end.

(** TruncatePreTwiDetailer.__call__, lines 483-506.  Times in days; [le] is the rounded
    comparison; [avail] is cut_mjd - mjd - pad. *)
Fixpoint visit_times (expt : A -> Q) (change over : Q) (prev : string) (l : list A) : list Q :=
  match l with
  | [] => []
  | o :: r => (expt o / 3600 / 24 + (if String.eqb (band o) prev then 0 else change) + over)%Q
              :: visit_times expt change over (band o) r
  end.
Fixpoint cumsum (acc : Q) (l : list Q) : list Q :=
  match l with [] => [] | x :: r => (acc + x)%Q :: cumsum (acc + x)%Q r end.
Definition truncate (expt : A -> Q) (change over : Q) (le : Q -> Q -> bool) (cur : string) (avail : Q)
    (l : list A) : res (list A) :=
  match l with
  | [] => Raise IndexError
  | _ => match np_where (fun t => le t avail) (cumsum 0 (visit_times expt change over cur l)) with
         | [] => Ok []
         | i :: r => Ok (firstn (fold_left Nat.max r i + 1) l)
         end
  end.

(** TwilightTripleDetailer.__call__, lines 964-998.  [left1], [left2]: time from now to the
    end of evening and of morning twilight, in days; [tag i] appends ", i" to the note. *)
Definition positive_min (a b : Q) : res Q :=
  match filter (fun x => Qltb 0 x) [a; b] with
  | [] => Raise ValueError
  | x :: r => Ok (fold_left (fun m y => if Qltb y m then y else m) r x)
  end.
Definition triple_times (expt : A -> Q) (slew : Q) (l : list A) : list Q :=
  map (fun p => (inject_Z (Z.of_nat (fst p)) * slew + snd p)%Q)
      (combine (seq 0 (List.length l)) (cumsum 0 (map expt l))).
Definition triple (expt : A -> Q) (slew : Q) (n : nat) (tag : nat -> A -> A) (left1 left2 : Q) (l : list A) : res (list A) :=
  bind (positive_min left1 left2) (fun d =>
  let t := (d * 24 * 3600)%Q in
  let cum := triple_times expt slew l in
  match cum with
  | [] => Raise ValueError
  | c0 :: cr =>
      let mx := fold_left (fun m y => if Qltb m y then y else m) cr c0 in
      let keep := if Qltb t mx then
                    match np_where (fun c => Qle_bool (c / inject_Z (Z.of_nat n)) t) cum with
                    | [] => 3
                    | i :: r => let k := fold_left Nat.max r i in if Nat.eqb k 0 then 1 else k
                    end
                  else List.length l in
      match n with
      | O => Raise ValueError
      | _ => Ok (flat_map (fun i => map (tag i) (firstn keep l)) (seq 0 n))
      end
  end).

(** ChunkByHADetailer.__call__, lines 254-314.  [ha]: hour angle in (-12, 12]; [high]: above the
    altitude limit; [spatial]: order_observations applied to the sublist. *)
Fixpoint ins_desc (f : A -> Q) (x : A) (l : list A) : list A :=
  match l with
  | [] => [x]
  | y :: r => if Qltb (f y) (f x) then x :: l else y :: ins_desc f x r
  end.
Definition sort_desc (f : A -> Q) (l : list A) : list A := fold_right (ins_desc f) [] l.
Definition qmax_of (f : A -> Q) (x : A) (l : list A) : Q :=
  fold_left (fun m y => if Qltb m (f y) then f y else m) l (f x).
Definition qmin_of (f : A -> Q) (x : A) (l : list A) : Q :=
  fold_left (fun m y => if Qltb (f y) m then f y else m) l (f x).
(** _band_spatial_order, lines 216-252: one band, rolled so that the observation with the
    largest setting hour angle (largest at all if none is setting) comes first. *)
Definition one_band (ha : A -> Q) (spatial : list A -> list A) (g : list A) : list A :=
  match g with
  | [] => []
  | x :: r =>
      let setting := filter (fun o => Qltb 0 (ha o) && Qltb (ha o) 12) g in
      let top := match setting with [] => qmax_of ha x r | y :: s => qmax_of ha y s end in
      let p := spatial g in
      match np_where (fun o => Qeq_bool (ha o) top) p with
      | [] => p
      | i :: _ => roll_to i p
      end
  end.
Definition chunk (ha : A -> Q) (spatial : list A -> list A) (order : list ascii) (l : list A) : list A :=
  flat_map (fun c => one_band ha spatial (filter (fun o => String.eqb (band o) (letter c)) l)) order.
(** Lines 286-295. *)
Definition slices (nb : nat) (l : list A) : list (list A) :=
  if 1 <? nb then
    let k := (List.length l + nb - 1) / nb in
    map (fun i => firstn k (skipn (i * k) l)) (seq 0 (nb - 1)) ++ [skipn ((nb - 1) * k) l]
  else [l].
(** Lines 297-314; the last band used leads the next chunk.  A chunk in which no band of
    the order occurs makes np.concatenate raise. *)
Fixpoint chunks (ha : A -> Q) (spatial : list A -> list A) (orig order : list ascii) (bs : list (list A)) : res (list (list A)) :=
  match bs with
  | [] => Ok []
  | [] :: r => chunks ha spatial orig order r
  | b :: r =>
      let c := chunk ha spatial order b in
      match rev c with
      | [] => Raise ValueError
      | o :: _ =>
          let first := list_ascii_of_string (band o) in
          let next := match first with [x] => x :: remove_letter x orig | _ => orig end in
          bind (chunks ha spatial orig next r) (fun t => Ok (c :: t))
      end
  end.
Definition chunk_by_ha (ha : A -> Q) (high : A -> bool) (spatial : list A -> list A)
    (orig order : list ascii) (cur : ascii) (n_min : nat) (width : Q) (l : list A) : res (list A) :=
  match filter high l with
  | [] => Raise ValueError
  | x :: r =>
      let above := x :: r in
      let nb := Z.to_nat (Qceiling ((qmax_of ha x r - qmin_of ha x r) / width)%Q) in
      let s := sort_desc ha above in
      if List.length s <=? n_min then Ok s
      else bind (chunks ha spatial orig (cur :: remove_letter cur order) (slices nb s)) (fun c => Ok (List.concat c))
  end.
End Order.
