(** Specification vocabulary: online executions of a DMP which are disturbed. *)
From Coq Require Import String.
From Verif Require Import Base DynModel DynSpec ParamModel DmpModel DmpSpec IntModel.
Open Scope R_scope.

(** k calls of integrate_step (or integrate_step_euler) with the same time step, each on the state which the last one returned: the
    object and the state at the end *)
Fixpoint steps (predict_fn : nat -> list (string * pval) -> R -> res R) (me : int_method) (m : dmp) (dt : R) (x : list R) (k : nat) : res (dmp * list R) :=
  match k with
  | O => Ok (m, x)
  | S k' => let* p := m_step predict_fn me m dt x in steps predict_fn me (fst (fst p)) dt (snd (fst p)) k'
  end.

(** x' is a state with the goal, phase, gating and damping of x; its position and velocity may be others *)
Definition pushed (m : dmp) (x x' : list R) : Prop :=
  length x = dim_x m /\ length x' = dim_x m /\ forall j, (2 * m_dim m <= j)%nat -> nth j x' 0 = nth j x 0.
(** the difference of positions, and of (scaled) velocities, of dimension i *)
Definition dpos (i : nat) (x x' : list R) : R := nth i x' 0 - nth i x 0.
Definition dvel (m : dmp) (i : nat) (x x' : list R) : R := nth (m_dim m + i) x' 0 - nth (m_dim m + i) x 0.

(** dimension i is critically damped with rate a, by a constant damping coefficient; the default coefficient 20 has the rate 10 *)
Definition critically (m : dmp) (i : nat) (a : R) : Prop :=
  let M := par_val (d_mass (m_spring m)) i in
  m_damping m = None /\ par_val (d_damp (m_spring m)) i = 2 * M * a /\ par_val (d_spring (m_spring m)) i = M * (a * a).

(** the factor of one step of relative length u, and its derivative with the sign changed: those of exp (- u), up to the order of
    the method *)
Definition decay (me : int_method) (u : R) : R :=
  match me with Euler => 1 - u | RungeKutta => 1 - u + u ^ 2 / 2 - u ^ 3 / 6 + u ^ 4 / 24 end.
Definition gain (me : int_method) (u : R) : R :=
  match me with Euler => 1 | RungeKutta => 1 - u + u ^ 2 / 2 - u ^ 3 / 6 end.
