(** Specification vocabulary: step-by-step executions which reach the goal. *)
From Coq Require Import String.
From Verif Require Import Base DynModel DynSpec ParamModel DmpModel DmpSpec IntModel PushSpec.
Open Scope R_scope.

(** the gating system fades away in steps of dt from the value g: an exponential system which tends to 0, from any value, or a falling
    sigmoid system, from a value between 0 and its initial one *)
Definition fades (s : sub) (dt g : R) : Prop :=
  match s with
  | SubE e => nth 0 (e_attr e) 0 = 0 /\ 0 < par_val (e_alpha e) 0 * dt / e_tau e < 2
  | SubS q => par_val (g_rate q) 0 < 0 /\ - par_val (g_rate q) 0 * dt <= 1 /\ 0 <= g <= nth 0 (g_init q) 0
  | _ => False
  end.
(** there is no goal system, or it is an exponential system and the steps are short enough for it *)
Definition leads (m : dmp) (i : nat) (dt : R) : Prop :=
  match m_goal m with
  | None => True
  | Some (SubE e) => m_req m = false /\ 0 < par_val (e_alpha e) i * dt / e_tau e < 2
  | Some _ => False
  end.
(** the phase is an exponential system which tends to 0 and for which the steps are short enough, or a time system *)
Definition phase_stays (s : sub) (dt : R) : Prop :=
  match s with
  | SubE e => nth 0 (e_attr e) 0 = 0 /\ 0 < par_val (e_alpha e) 0 * dt / e_tau e < 2
  | SubT t => 0 < t_tau t
  | _ => False
  end.
(** the predictions of dimension i are bounded for bounded phases *)
Definition bounded_force (predict_fn : nat -> list (string * pval) -> R -> res R) (m : dmp) (i : nat) : Prop :=
  forall B, exists F, forall ph, Rabs ph <= B -> Rabs (pred_val predict_fn m ph i) <= F.
(** from state x on, steps of dt end up at g at rest in dimension i, and with gating 0 *)
Definition reaches (predict_fn : nat -> list (string * pval) -> R -> res R) (me : int_method) (m : dmp) (dt : R) (x : list R) (i : nat) (g : R) : Prop :=
  forall eps, 0 < eps -> exists K, forall k, (K <= k)%nat -> exists m' y, steps predict_fn me m dt x k = Ok (m', y) /\
    Rabs (nth i y 0 - g) <= eps /\ Rabs (nth (m_dim m + i) y 0) <= eps /\ Rabs (nth (3 * m_dim m + 1) y 0) <= eps.
(** what is needed for that: steps of dt are short for all parts of the DMP. Dimension i is critically damped with frequency a. *)
Definition short_steps (predict_fn : nat -> list (string * pval) -> R -> res R) (m : dmp) (dt : R) (i : nat) (a : R) : Prop :=
  (i < m_dim m)%nat /\ critically m i a /\ phase_stays (m_phase m) dt /\ 0 < m_tau m /\ 0 < dt /\ 0 < a * dt / m_tau m < 2 /\
  bounded_force predict_fn m i /\ leads m i dt.
(** an execution in which the goal is changed on the way: for each entry, that many steps and then that new goal *)
Fixpoint chase (predict_fn : nat -> list (string * pval) -> R -> res R) (me : int_method) (m : dmp) (dt : R) (x : list R) (plan : list (nat * list R))
  : res (dmp * list R) :=
  match plan with
  | nil => Ok (m, x)
  | (k, g) :: r =>
      let* p := steps predict_fn me m dt x k in
      let* m' := set_yattr (fst p) g in
      chase predict_fn me m' dt (snd p) r
  end.
(** the goal at the end *)
Definition last_goal (m : dmp) (plan : list (nat * list R)) : list R := last (map snd plan) (m_attr m).
