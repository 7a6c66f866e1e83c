(** Specification vocabulary: the same movement at another speed. *)
From Verif Require Import Base TrajModel DmpModel DmpSpec.
Open Scope R_scope.

(** t' has the same n-dimensional positions as t at c times the times: velocities are divided by c and accelerations by c^2 *)
Definition slowed (c : R) (n : nat) (t t' : traj) : Prop :=
  demo n t /\ demo n t' /\ tj_ts t' = map (Rmult c) (tj_ts t) /\
  forall k i, (k < length (tj_ts t))%nat -> (i < n)%nat ->
    at_ (mrows (tj_ys t')) k i = at_ (mrows (tj_ys t)) k i /\
    at_ (mrows (tj_yds t')) k i = at_ (mrows (tj_yds t)) k i / c /\
    at_ (mrows (tj_ydds t')) k i = at_ (mrows (tj_ydds t)) k i / (c * c).
(** t' is t, recorded s later *)
Definition later (s : R) (n : nat) (t t' : traj) : Prop :=
  demo n t /\ demo n t' /\ tj_ts t' = map (Rplus s) (tj_ts t) /\
  mrows (tj_ys t') = mrows (tj_ys t) /\ mrows (tj_yds t') = mrows (tj_yds t) /\ mrows (tj_ydds t') = mrows (tj_ydds t).
