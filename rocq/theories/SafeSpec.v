(** Specification vocabulary: optimizations with bounded distributions. *)
From Coq Require Import String.
From Verif Require Import Base UpdatersModel UpdatersSpec SessionModel LoopModel LoopSpec.
Open Scope R_scope.

(** N values between the bounds *)
Definition inside (lo up : bound) (N : nat) (x : list R) : Prop :=
  length x = N /\ forall j, (j < N)%nat -> above lo j (nth j x 0) /\ below up j (nth j x 0).
(** lower bounds are not above upper bounds *)
Definition ordered (lo up : bound) : Prop := forall j l u, bound_at lo j = Some l -> bound_at up j = Some u -> l <= u.
(** a DistributionGaussianBounded whose mean is inside its bounds *)
Definition bounded_dist (lo up : bound) (N : nat) (d : dist) : Prop := d_bounds d = Some (lo, up) /\ inside lo up N (d_mean d).
(** every parameter has both bounds, at most e apart *)
Definition narrow (lo up : bound) (N : nat) (e : R) : Prop :=
  forall j, (j < N)%nat -> exists l u, bound_at lo j = Some l /\ bound_at up j = Some u /\ u - l <= e.

(** parameters that are tried (in rollouts or cost functions), samples and means are inside the bounds *)
Definition event_inside {CV} (lo up : bound) (N : nat) (e : event CV) : Prop :=
  match e with
  | EGen d _ m => bounded_dist lo up N d /\ Forall (inside lo up N) (mrows m)
  | EEval x _ => inside lo up N x
  | EUpd d m _ d' _ => bounded_dist lo up N d /\ Forall (inside lo up N) (mrows m) /\ bounded_dist lo up N d'
  | ERoll x _ => inside lo up N x
  | EEvalR _ x _ => inside lo up N x
  end.
