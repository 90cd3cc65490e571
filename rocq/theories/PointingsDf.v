(** Model of the tables of rewards of the survey over pointings.
    /repo/rubin_scheduler/scheduler/surveys/pointings_survey.py lines 337-408, on
    top of Pointings.v.  The labels of bf_short_labels (410-426) are the names of the
    methods, which are the keys of a dictionary. *)
From Coq Require Import List ZArith QArith Bool String.
From Verif Require Import Base Core Pointings.
From Verif Require Surveys.
Import ListNotations.
Open Scope nat_scope.

(** The survey with the conditions for which alt, az and ha were last computed (160-170);
    None: there are no such attributes yet. *)
Record tst := mkT { k_geo : option pcond; k_st : pst }.
Section Table.
(** Wind pressures at the azimuths of the first conditions for the wind of the second. *)
Variable pressure : pcond -> pcond -> option (list Q).
Definition seen (old c : pcond) : pcond := mkCond (c_mjd c) (c_sun c) (c_ha old) (c_alt old) (c_moon c) (pressure old c) (c_slew c) (c_m5 c).

(** [getattr(self, method_name)(conditions)] with the attributes that are there. *)
Definition t_call (tw : Q) (g : pcfg) (s : tst) (c : pcond) (m : meth) : res (list er) :=
  match k_geo s with
  | Some old => m_call tw g (k_st s) (seen old c) m
  | None =>
      match m with
      | HaLimit | AltLimit => Raise AttributeError
      | WindLimit => match c_wind c with None => m_call tw g (k_st s) c m | Some _ => Raise AttributeError end
      | _ => m_call tw g (k_st s) c m
      end
  end.
(** [calc_reward_function] 156-180 with the attributes it leaves. *)
Definition t_calc (tw : Q) (g : pcfg) (s : tst) (c : pcond) : res (tst * er) :=
  bind (p_calc tw g (k_st s) c) (fun r =>
  Ok (mkT (if Qeq_bool (p_mjd (k_st s)) (c_mjd c) then k_geo s else Some c) (fst r), snd r)).

(** [_reward_to_scalars] 337-341; [np.nanmax] refuses an empty array. *)
Definition scal (l : list er) : res (er * nat) :=
  match l with [] => Raise ValueError | _ => Ok (nanmax l, List.length (filter er_finite l)) end.

Record prow := mkRow { q_meth : meth; q_feas : bool; q_max : er; q_n : nat; q_w : Q; q_acc : option (er * nat) }.
(** The loop of [make_reward_df] 361-381; [acc] is tracking_reward. *)
Fixpoint t_rows (tw : Q) (g : pcfg) (s : tst) (c : pcond) (accum : bool) (acc : list er) (ws : list (meth * Q)) : res (list prow) :=
  match ws with
  | [] => Ok []
  | (m, w) :: r =>
      bind (t_call tw g s c m) (fun v =>
      let b := map (fun x => Surveys.er_scale x w) v in
      bind (scal b) (fun p =>
      let feas := if er_isnan (fst p) || (snd p =? 0) then false else true in
      if accum then
        bind (Surveys.zip_add acc b) (fun acc' =>
        bind (scal acc') (fun q =>
        bind (t_rows tw g s c accum acc' r) (fun t => Ok (mkRow m feas (fst p) (snd p) w (Some q) :: t))))
      else bind (t_rows tw g s c accum acc r) (fun t => Ok (mkRow m feas (fst p) (snd p) w None :: t))))
  end.
Definition t_df (tw : Q) (g : pcfg) (s : tst) (c : pcond) (accum : bool) : res (list prow) :=
  t_rows tw g s c accum (map (fun _ => EFin 0) (g_notes g)) (g_weights g).

(** [reward_changes] 397-408. *)
Fixpoint t_changes (tw : Q) (g : pcfg) (s : tst) (c : pcond) (ws : list (meth * Q)) : res (list (meth * er)) :=
  match ws with
  | [] => Ok []
  | (m, _) :: r => bind (t_call tw g s c m) (fun v => bind (scal v) (fun p => bind (t_changes tw g s c r) (fun t => Ok ((m, fst p) :: t))))
  end.
End Table.
