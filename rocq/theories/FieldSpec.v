(** Specification vocabulary for rollouts in a force field. *)
From Coq Require Import String.
From Verif Require Import Base DynModel ParamModel ParamSpec DmpModel DmpSpec2 SchedModel SchedSpec FieldModel.
Open Scope R_scope.

Definition no_wish : wish := Wish [] [] [] [].
Definition no_row : frow := Frow 0 no_wish [] [] [] 0.
(** row k of a rollout *)
Definition row_at (rows : list frow) (k : nat) : frow := nth k rows no_row.

(** a force with a Gaussian profile around max_time *)
Definition pull (strength max_time t : R) : R := strength * exp (- (t - max_time)^2 / (0.1 * max_time)).
(** position, velocity and acceleration of the robot, and desired values, in dimension i *)
Definition pos (r : frow) (i : nat) : R := nth i (u_y r) 0.
Definition vel (r : frow) (i : nat) : R := nth i (u_yd r) 0.
Definition acc (r : frow) (i : nat) : R := nth i (u_ydd r) 0.
Definition pos_des (r : frow) (i : nat) : R := nth i (q_y (u_des r)) 0.
Definition vel_des (r : frow) (i : nat) : R := nth i (q_yd (u_des r)) 0.
Definition acc_des (r : frow) (i : nat) : R := nth i (q_ydd (u_des r)) 0.
Definition gain (r : frow) (i : nat) : R := nth i (q_gain (u_des r)) 0.
(** from one row to the next: a spring and a damper towards the desired movement, the force, and an Euler
    step *)
Definition driven (dim : nat) (dt strength max_time : R) (r r' : frow) : Prop :=
  u_field r' = pull strength max_time (u_t r') /\ length (u_y r') = dim /\ length (u_yd r') = dim /\ length (u_ydd r') = dim /\
  forall i, (i < dim)%nat ->
    acc r' i = acc_des r' i + gain r' i * (pos_des r' i - pos r i) + sqrt (gain r' i) * (vel_des r' i - vel r i) + u_field r' /\
    vel r' i = vel r i + dt * acc r' i /\ pos r' i = pos r i + dt * vel r' i.

(** the state and the desired values after k steps of the DMP alone *)
Section Walk.
Variable S : Type.
Variable start : res (S * wish).
Variable step : R -> S -> res (S * wish).
Fixpoint wish_at (dt : R) (k : nat) : res (S * wish) :=
  match k with
  | O => start
  | Datatypes.S k' => let* p := wish_at dt k' in step dt (fst p)
  end.
End Walk.

(** gains that are constant from time step 1 on *)
Definition constant_gain (dim : nat) (g : R) (rows : list frow) : Prop :=
  forall k i, (1 <= k < length rows)%nat -> (i < dim)%nat -> gain (row_at rows k) i = g.
(** the desired movement rests in y from time step k0 on *)
Definition rests (dim k0 : nat) (y : list R) (rows : list frow) : Prop :=
  forall k i, (k0 <= k < length rows)%nat -> (i < dim)%nat ->
    pos_des (row_at rows k) i = nth i y 0 /\ vel_des (row_at rows k) i = 0 /\ acc_des (row_at rows k) i = 0.
(** how stiff the controller is for time steps dt: the factors in the bounds, for 0 < a < 1. For small a
    the first is about 2.31. *)
Definition stiffness (dt g : R) : R := dt * sqrt g.
Definition compliance (a : R) : R := 2 * a / (sqrt (4 - (1 + a)^2) * (1 - sqrt (1 - a))).
Definition settling (a : R) : R := 6 / (a * sqrt (4 - (1 + a)^2)).
(** the differential equation of a DMP is defined in all states *)
Definition free (m : dmp) : Prop :=
  unrestricted (m_phase m) /\ unrestricted (m_gating m) /\ (forall g, m_goal m = Some g -> unrestricted g) /\
  (forall s, m_damping m = Some s -> unrestricted s).
(** a desired movement which is consistent: its positions and velocities follow from its accelerations in
    the same way as those of the robot *)
Definition consistent (dim : nat) (dt : R) (rows : list frow) : Prop :=
  forall k i, (S k < length rows)%nat -> (i < dim)%nat -> let r := row_at rows k in let r' := row_at rows (S k) in
    vel_des r' i = vel_des r i + dt * acc_des r' i /\ pos_des r' i = pos_des r i + dt * vel_des r' i.
(** no faster than V and A *)
Definition moderate (dim : nat) (V A : R) (rows : list frow) : Prop :=
  forall k i, (k < length rows)%nat -> (i < dim)%nat -> Rabs (vel_des (row_at rows k) i) <= V /\ Rabs (acc_des (row_at rows k) i) <= A.
(** the schedule which is the gain in dimension i: one for all dimensions, or one for each. Only one
    schedule, or schedules without bounds, can be used in single steps (C36). *)
Definition schedule_of (w : wdmp) (i : nat) : nat := if Nat.eqb (length (w_fas w)) 1 then 0%nat else i.
Definition usable_gains (w : wdmp) (lo hi : sbound_arg) : Prop :=
  length (w_fas w) = 1%nat \/ (lo = ANone /\ hi = ANone /\ length (w_fas w) = m_dim (w_dmp w)).
(** the gain in dimension i for a phase *)
Definition gain_value (sf : nat -> list (string * pval) -> R -> res R) (w : wdmp) (lo hi : sbound_arg) (ph : R) (i : nat) : R :=
  limited lo hi (schedule_of w i) (sched_val sf w ph (schedule_of w i)).
