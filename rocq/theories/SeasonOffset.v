(** Model of create_season_offset, /repo/rubin_scheduler/scheduler/utils/utils.py lines 931-941.
    Simplifications: angles are in turns, so 2 pi is 1; the RAs of the pixels, which _hpid2_ra_dec gives, are a list;
    arithmetic is exact. *)
From Coq Require Import List ZArith QArith Qround.
From Verif Require Import Util.
Import ListNotations.
Open Scope nat_scope.

(** Nights in a year, line 939. *)
Definition year : Q := (1461 # 4)%Q.
(** Lines 937-940, for one pixel. *)
Definition season_offset (sun_ra ra : Q) : Q := (- (qmod (ra - sun_ra + 1) 1 * year) - year)%Q.
(** Lines 935-941. *)
Definition create_season_offset (ras : list Q) (sun_ra : Q) : list Q := map (season_offset sun_ra) ras.
