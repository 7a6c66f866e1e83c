(** Specification vocabulary: affine maps of targets and of demonstrations. *)
From Coq Require Import String.
From Verif Require Import Base ParamModel FaModel TrajModel DmpModel DmpSpec CppModel CppSpec TaskModel.
Open Scope string_scope.
Open Scope R_scope.

(** the targets [ys] are a linear combination, with coefficients a 0, ..., a (n-1), of the targets Y 0, ..., Y (n-1) *)
Definition combination (n : nat) (a : nat -> R) (Y : nat -> list R) (ys : list R) : Prop :=
  (forall j, (j < n)%nat -> length (Y j) = length ys) /\
  forall k, (k < length ys)%nat -> nth k ys 0 = sumn n (fun j => a j * nth k (Y j) 0).

(** component i of the image of y (n components) under y |-> A y + b *)
Definition image (A : nat -> nat -> R) (b : nat -> R) (n : nat) (y : nat -> R) (i : nat) : R := sumn n (fun j => A i j * y j) + b i.
Definition no_shift : nat -> R := fun _ => 0.

(** the trajectory t' (n' dimensions) is the image of the trajectory t (n dimensions): the times are the same, positions are
    mapped, velocities and accelerations are mapped with the linear part *)
Definition image_traj (A : nat -> nat -> R) (b : nat -> R) (n n' : nat) (t t' : traj) : Prop :=
  demo n t /\ demo n' t' /\ tj_ts t' = tj_ts t /\
  forall k i, (k < length (tj_ts t))%nat -> (i < n')%nat ->
    at_ (mrows (tj_ys t')) k i = image A b n (at_ (mrows (tj_ys t)) k) i /\
    at_ (mrows (tj_yds t')) k i = image A no_shift n (at_ (mrows (tj_yds t)) k) i /\
    at_ (mrows (tj_ydds t')) k i = image A no_shift n (at_ (mrows (tj_ydds t)) k) i.

(** dimensions that are mixed have the same kind of function approximator, with the same settings *)
Definition same_settings (A : nat -> nat -> R) (n n' : nat) (kinds : nat -> fa_kind) (ns : nat -> nat) (h lam : nat -> R) : Prop :=
  forall i j, (i < n')%nat -> (j < n)%nat -> A i j <> 0 -> kinds j = kinds i /\ ns j = ns i /\ h j = h i /\ lam j = lam i.

(** analytical_solution at the times ts, as a trajectory (states_as_trajectory) *)
Definition movement (predict_fn : nat -> list (string * pval) -> R -> res R) (m : dmp) (ts : list R) : res traj :=
  let* r := ana predict_fn m ts false in
  let* rows := states_as_rows m (a_xs r) (a_xds r) in
  as_traj (m_dim m) (combine ts rows).
