(** Model of the tables of rewards.
    /repo/rubin_scheduler/scheduler/surveys/base_survey.py lines 152-164 and
    330-492 (roi_mask, _reward_to_scalars, make_reward_df, reward_changes,
    bf_short_labels), /repo/rubin_scheduler/scheduler/basis_functions/
    basis_functions.py lines 175-191 (label) and
    /repo/rubin_scheduler/scheduler/schedulers/core_scheduler.py lines 624-707
    (surveys_df, make_reward_df) with lines 402-408 (_fill_queue keeping rewards).

    Basis functions are arbitrary as in Surveys.v: their value does not depend on
    the [indx] argument, which the table does not pass and calc_reward_function
    does.  The reward of a survey is an arbitrary function of its lists of basis
    functions and weights and of the conditions, so that the copies made by
    deepcopy give what the survey would.  Areas are numbers of pixels, or the
    whole sky. *)
From Coq Require Import List ZArith QArith Bool String Ascii Lia.
From Verif Require Import Base Core Surveys.
From Verif Require Labels.
Import ListNotations.
Open Scope string_scope.
Open Scope list_scope.
Open Scope nat_scope.

Inductive area : Type := Pix (n : nat) | Sky.
Definition area0 (a : area) : bool := match a with Pix 0 => true | _ => false end.

(** [roi_mask], lines 156-164: everything, or the pixels listed; None for a
    survey without nside (AttributeError). *)
Definition roi_mask (npix : option nat) (hpid : option (list nat)) : option (list bool) :=
  match npix with
  | None => None
  | Some n =>
      match hpid with
      | None => Some (repeat true n)
      | Some l => Some (map (fun i => existsb (Nat.eqb i) l) (seq 0 n))
      end
  end.

(** [roi_mask] of FieldAltAzSurvey (field_survey.py lines 398-402): roi_hpid is
    computed from the time and site of the last reward, attributes that are not
    there before the first, and roi_mask is cached from its first use. *)
Definition altaz_roi (npix : nat) (cached now : option nat) : option (list bool) :=
  match cached with
  | Some p => roi_mask (Some npix) (Some [p])
  | None => match now with None => None | Some p => roi_mask (Some npix) (Some [p]) end
  end.

(** [np.where(roi_mask, reward, -np.inf)]. *)
Definition in_roi (m : list bool) (l : list er) : list er :=
  map (fun p : bool * er => if fst p then snd p else ENInf) (combine m l).

(** [_reward_to_scalars], lines 330-351. *)
Definition scalars (roi : option (list bool)) (v : val) : res (er * area) :=
  match v with
  | VS x =>
      if er_isnan x || er_eqb x ENInf then Ok (ENInf, Pix 0)
      else match roi with
           | Some m => Ok (x, Pix (List.length (filter (fun b => b) m)))
           | None => Ok (x, Sky)
           end
  | VM l =>
      match roi with
      | None => Raise AttributeError
      | Some m =>
          if List.length m =? List.length l then
            let r := in_roi m l in
            let n := List.length (filter (er_ltb ENInf) r) in
            if n =? 0 then Ok (ENInf, Pix 0) else Ok (nanmax r, Pix n)
          else Raise ValueError
      end
  end.

(** ** Labels of basis functions *)
Section Table.
Context {W : Type}.

(** A basis function: name of its class without "BasisFunction", bandname, the
    number id() gives it, gate and value. *)
Record bfd : Type := mkBfd { d_class : string; d_band : option string; d_id : nat; d_bf : bfun W }.

(** [label], basis_functions.py lines 175-191. *)
Definition base_label (b : bfd) : string :=
  match d_band b with None => d_class b | Some n => (d_class b ++ " " ++ n)%string end.
Definition label (b : bfd) : string := (base_label b ++ " @" ++ Labels.dec (d_id b))%string.

(** [label.split(" @")[0]]. *)
Fixpoint cut (s : string) : string :=
  match s with
  | String a r =>
      match r with
      | String b _ => if Ascii.eqb a " " && Ascii.eqb b "@" then EmptyString else String a (cut r)
      | EmptyString => s
      end
  | EmptyString => EmptyString
  end.

(** The loop of [bf_short_labels], lines 481-487, with label_count. *)
Fixpoint short_loop (dup : list string) (m : list (string * nat)) (l : list string) : list string :=
  match l with
  | [] => []
  | b :: r =>
      if Labels.mem b dup then
        let n := match Labels.get m b with None => 0 | Some v => v end + 1 in
        (b ++ " " ++ Labels.dec n)%string :: short_loop dup (Labels.put m b n) r
      else b :: short_loop dup m r
  end.
Definition short_labels (bs : list bfd) : list string :=
  let bases := map (fun b => cut (label b)) bs in
  let dup := filter (fun b => 1 <? List.length (filter (String.eqb b) bases)) bases in
  short_loop dup (map (fun b => (b, 0)) dup) bases.

(** [dict(zip(long_labels, short_labels))] and reading it: the last one given for
    a key stands. *)
Fixpoint lookup_last (k : string) (l : list (string * string)) (found : option string) : option string :=
  match l with
  | [] => found
  | (k', v) :: r => lookup_last k r (if String.eqb k k' then Some v else found)
  end.
Definition short_label (bs : list bfd) (b : bfd) : res string :=
  match lookup_last (label b) (combine (map label bs) (short_labels bs)) None with
  | Some s => Ok s
  | None => Raise KeyError
  end.

(** ** The table of one survey *)
Record sv : Type := mkSv {
  v_svn : Labels.svn;                 (* survey_name and class *)
  v_bfs : list bfd;
  v_weights : option (list Q);        (* basis_weights; None when there is no such attribute *)
  v_roi : option (list bool);
  v_calc : list bfd -> list Q -> scond W -> res val   (* calc_reward_function with these lists *)
}.
Definition weights (s : sv) : list Q :=
  match v_weights s with Some l => l | None => map (fun _ => 1%Q) (v_bfs s) end.
(** The reward of the survey itself. *)
Definition own (s : sv) (c : scond W) : res val := v_calc s (v_bfs s) (weights s) c.

Record row : Type := mkRow {
  r_label : string; r_class : string; r_feas : bool; r_max : er; r_area : area; r_weight : Q;
  r_accum : option (er * area) }.

(** The loop of [make_reward_df], lines 389-414; [db], [dw] are the lists grown. *)
Fixpoint rows (s : sv) (c : scond W) (accum : bool) (db : list bfd) (dw : list Q) (l : list (Q * bfd)) : res (list row) :=
  match l with
  | [] => Ok []
  | (w, b) :: r =>
      bind (short_label (v_bfs s) b) (fun lab =>
      bind (scalars (v_roi s) (bf_val (d_bf b) c)) (fun p =>
      let feas := if area0 (snd p) then false else bf_feas (d_bf b) c in
      bind (if accum then
              bind (v_calc s (db ++ [b]) (dw ++ [w]) c) (fun v =>
              bind (scalars (v_roi s) v) (fun q => Ok (Some q)))
            else Ok None) (fun a =>
      bind (rows s c accum (db ++ [b]) (dw ++ [w]) r) (fun t =>
      Ok (mkRow lab (d_class b) feas (fst p) (snd p) w a :: t)))))
  end.

(** [make_reward_df], lines 353-429: columns of different lengths are refused by
    pandas.DataFrame. *)
Definition make_df (s : sv) (c : scond W) (accum : bool) : res (list row) :=
  let l := combine (weights s) (v_bfs s) in
  bind (rows s c accum [] [] l) (fun t =>
  if List.length l =? List.length (weights s) then Ok t else Raise ValueError).

(** [reward_changes], lines 431-468 (no array of length 0, so no IndexError). *)
Fixpoint changes (s : sv) (c : scond W) (db : list bfd) (dw : list Q) (l : list (Q * bfd)) : res (list er) :=
  match l with
  | [] => Ok []
  | (w, b) :: r =>
      bind (v_calc s (db ++ [b]) (dw ++ [w]) c) (fun v =>
      bind (changes s c (db ++ [b]) (dw ++ [w]) r) (fun t => Ok (nanmax (vlist v) :: t)))
  end.
Definition reward_changes (s : sv) (c : scond W) : res (list (string * er)) :=
  bind (changes s c [] [] (combine (weights s) (v_bfs s))) (fun t => Ok (combine (map label (v_bfs s)) t)).

(** ** The table of the scheduler *)
Record srow : Type := mkSrow {
  t_i : nat; t_j : nat;          (* list_index, survey_index *)
  t_label : string;              (* survey_label *)
  t_class : string;              (* survey_class *)
  t_reward : er;                 (* survey_reward *)
  t_row : row }.

(** One survey, lines 688-704: nothing when it has no rows. *)
Definition sv_rows (c : scond W) (accum : bool) (i j : nat) (lab : string) (s : sv) : res (list srow) :=
  bind (make_df s c accum) (fun t =>
  match t with
  | [] => Ok []
  | _ => bind (own s c) (fun v =>
         Ok (map (mkSrow i j lab (Labels.sv_class (v_svn s)) (nanmax (vlist v))) t))
  end).
Fixpoint list_rows (c : scond W) (accum : bool) (i j : nat) (l : list (string * sv)) : res (list srow) :=
  match l with
  | [] => Ok []
  | (lab, s) :: r => bind (sv_rows c accum i j lab s) (fun a =>
                     bind (list_rows c accum i (S j) r) (fun b => Ok (a ++ b)))
  end.
Fixpoint lists_rows (c : scond W) (accum : bool) (i : nat) (l : list (list (string * sv))) : res (list srow) :=
  match l with
  | [] => Ok []
  | t :: r => bind (list_rows c accum i 0 t) (fun a =>
              bind (lists_rows c accum (S i) r) (fun b => Ok (a ++ b)))
  end.
Definition labelled (L : list (list sv)) : list (list (string * sv)) :=
  map (fun p : list string * list sv => combine (fst p) (snd p))
      (combine (Labels.survey_labels (map (map v_svn) L)) L).
(** [make_reward_df], lines 667-707: pd.concat of no table raises ValueError. *)
Definition sched_df (c : scond W) (accum : bool) (L : list (list sv)) : res (list srow) :=
  bind (lists_rows c accum 0 (labelled L)) (fun t =>
  match t with [] => Raise ValueError | _ => Ok t end).

(** The attribute [reward] of the surveys after the call (line 699). *)
Definition reward_after (c : scond W) (s : sv) (old : option val) : option val :=
  match make_df s c false, own s c with
  | Ok (_ :: _), Ok v => Some v
  | _, _ => old
  end.

(** [_fill_queue], lines 402-437, up to the survey chosen: with keep_rewards the
    table comes first.  There is at least one list of surveys. *)
Definition tiers (c : scond W) (L : list (list sv)) : list (list (res val)) := map (map (fun s => own s c)) L.
Fixpoint tier_max (l : list (res val)) : res (list er) :=
  match l with
  | [] => Ok []
  | v :: r => bind v (fun x => bind (tier_max r) (fun t => Ok (nanmax (vlist x) :: t)))
  end.
Fixpoint choose (i : nat) (l : list (list (res val))) : res (option (nat * nat)) :=
  match l with
  | [] => Ok None
  | t :: r =>
      bind (tier_max t) (fun rs =>
      match rs with
      | [] => Raise ValueError
      | _ => if er_ltb ENInf (nanmax rs)
             then match first_argmax rs with Some j => Ok (Some (i, j)) | None => Raise ValueError end
             else choose (S i) r
      end)
  end.
Definition fill (keep : bool) (c : scond W) (L : list (list sv)) : res (option (nat * nat)) :=
  bind (if keep then bind (sched_df c false L) (fun _ => Ok tt) else Ok tt) (fun _ => choose 0 (tiers c L)).

(** [surveys_df], lines 624-665: reward and chosen of each survey of a tier, from
    survey_index and the attributes [reward]. *)
Definition cell (sidx : option (nat * nat)) (tier : nat) (stored : option val) : option er :=
  match sidx with
  | None => None
  | Some (t, _) =>
      if t <? tier then None
      else match stored with
           | None => None
           | Some (VS x) => Some x
           | Some (VM l) => if List.length (filter (er_ltb ENInf) l) =? 0 then Some ENInf else Some (nanmax l)
           end
  end.
Fixpoint cells (sidx : option (nat * nat)) (tier j : nat) (l : list (option val)) : list (option er * bool) :=
  match l with
  | [] => []
  | v :: r =>
      (cell sidx tier v, match sidx with Some (t, k) => (tier =? t) && (j =? k) | None => false end)
      :: cells sidx tier (S j) r
  end.
Definition surveys_df (sidx : option (nat * nat)) (stored : list (list (option val))) (tier : nat) : res (list (option er * bool)) :=
  match nth_error stored tier with
  | None => Raise IndexError
  | Some [] => Raise KeyError       (* set_index on a table without columns *)
  | Some l => Ok (cells sidx tier 0 l)
  end.

(** A survey that sums its basis functions: BaseMarkovSurvey.calc_reward_function,
    lines 724-748, without smoothing and area_required. *)
Definition markov_calc (bs : list bfd) (ws : list Q) (c : scond W) : res val :=
  if feasible (map d_bf bs) c then wsum (VS (EFin 0)) (combine (map d_bf bs) ws) c else Ok (VS ENInf).
(** BaseSurvey.calc_reward_function, lines 278-297. *)
Definition base_calc (bs : list bfd) (ws : list Q) (c : scond W) : res val :=
  Ok (base_reward (map d_bf bs) c).

(** FieldAltAzSurvey.calc_reward_function, field_survey.py lines 409-431, for the
    pixel at the alt, az of the survey now. *)
Definition altaz_calc (now : nat) (bs : list bfd) (ws : list Q) (c : scond W) : res val :=
  fd_reward (mkField (combine (map d_bf bs) ws) [] 0%Q 0%Q now) c.

End Table.
Arguments bfd : clear implicits. Arguments sv : clear implicits.
