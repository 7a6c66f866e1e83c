(** What it means for a closed-form solution to be exact, in terms of the standard library's notion of
    derivative, and the other notions used in the statements about dynamical systems. *)
From Verif Require Import Base DynModel.

(** component d of a vector-valued function of time *)
Definition comp (X : R -> list R) (d : nat) (t : R) : R := nth d (X t) 0.

(** [ana] samples trajectories X and Xd; X starts in x0, Xd is the derivative of X, and Xd is what the
    differential equation f yields in the states X *)
Definition solves (f : list R -> res (list R)) (ana : list R -> res solution) (x0 : list R)
                  (X Xd : R -> list R) : Prop :=
  (forall ts, ana ts = Ok (map X ts, map Xd ts)) /\
  X 0 = x0 /\
  (forall t, length (X t) = length x0) /\
  (forall t, length (Xd t) = length x0) /\
  (forall t d, (d < length x0)%nat -> derivable_pt_lim (comp X d) t (comp Xd d t)) /\
  (forall t, f (X t) = Ok (Xd t)).

(** limit at plus infinity *)
Definition tends_to (f : R -> R) (l : R) : Prop :=
  forall eps, 0 < eps -> exists T, forall t, T <= t -> Rabs (f t - l) < eps.

(** from time 0 on, the distance to g never increases and f never crosses g *)
Definition approaches (f : R -> R) (g : R) : Prop :=
  (forall s t, 0 <= s <= t -> Rabs (f t - g) <= Rabs (f s - g)) /\
  (forall s t, 0 <= s -> 0 <= t -> 0 <= (f s - g) * (f t - g)).

(** a parameter has a value for each of n dimensions, and this is it *)
Definition par_ok (p : param) (n : nat) : Prop := match p with PScal _ => True | PVec l => length l = n end.
Definition par_val (p : param) (d : nat) : R := match p with PScal r => r | PVec l => nth d l 0 end.

(** a vector of zeros *)
Definition zeros (n : nat) : list R := repeat 0 n.

(** what a SigmoidSystem that computes its capacities anew on each call does *)
Definition fresh_do (s : ssys) (call : s_call) : ssys * s_result :=
  match call with
  | SSetTau t => (Ssys t (g_init s) (g_rate s) (g_infl s), SUnit (Ok tt))
  | SSetX x | SSetY x =>
    if Nat.eqb (length x) (length (g_init s))
    then (Ssys (g_tau s) x (g_rate s) (g_infl s), SUnit (Ok tt)) else (s, SUnit (Err ValueError))
  | SDecouple => (s_decouple s, SUnit (Ok tt))
  | SDiffeq x => (s, SVec (s_diffeq s x))
  | SAna ts => (s, SSol (s_ana s ts))
  end.
Fixpoint fresh_run (s : ssys) (calls : list s_call) : list s_result :=
  match calls with
  | [] => []
  | x :: xs => let '(s', r) := fresh_do s x in r :: fresh_run s' xs
  end.

(** x + c*y, the classical fourth-order Runge-Kutta step and the Euler step for x' = F x *)
Definition axpy (c : R) (x y : list R) : list R := map2 (fun u v => u + c * v) x y.
Definition rk4 (F : list R -> list R) (dt : R) (x : list R) : list R :=
  let k1 := F x in
  let k2 := F (axpy (dt / 2) x k1) in
  let k3 := F (axpy (dt / 2) x k2) in
  let k4 := F (axpy dt x k3) in
  axpy (dt / 6) x (axpy 1 (axpy 2 (axpy 2 k1 k2) k3) k4).
Definition euler (F : list R -> list R) (dt : R) (x : list R) : list R := axpy dt x (F x).
(** f computes F on states of size n *)
Definition computes (f : list R -> res (list R)) (n : nat) (F : list R -> list R) : Prop :=
  forall x, length x = n -> f x = Ok (F x) /\ length (F x) = n.
(** the factor by which a Runge-Kutta step of an exponential system changes the distance *)
Definition rk_factor (z : R) : R := 1 - z + z ^ 2 / 2 - z ^ 3 / 6 + z ^ 4 / 24.

(** two systems, given by their differential equations and closed-form solutions, behave the same on
    states of size n: also when integrated numerically *)
Definition same_behaviour (n : nat) (x0 : list R) (f g : list R -> res (list R)) (a b : list R -> res solution) : Prop :=
  (forall x, length x = n -> f x = g x) /\ (forall ts, a ts = b ts) /\
  (forall m ts, integrate f n m x0 ts = integrate g n m x0 ts) /\
  (forall m dt x, int_step f n m dt x = int_step g n m dt x).

(** the parameters of a Richards system have a value for each dimension *)
Definition richards_ok (s : rsys) : Prop :=
  let n := length (h_init s) in
  par_ok (h_right s) n /\ par_ok (h_infl s) n /\ par_ok (h_alpha s) n /\ par_ok (h_v s) n /\
  match h_left s with None => True | Some p => par_ok p n end.
