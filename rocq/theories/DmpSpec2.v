(** The differential equation of a DMP, as documented. *)
From Coq Require Import String.
From Verif Require Import Base DynModel DynSpec ParamModel DmpModel DmpSpec.
Open Scope R_scope.

(** the entries of x from [offset] on *)
Definition part (offset len : nat) (x : list R) : list R := map (fun i => nth (offset + i) x 0) (seq 0 len).

(** The rates of change of the subsystems in state x: goal, phase, gating and damping. The goal system
    moves to the attractor of the DMP. *)
Definition subsystem_rates (m : dmp) (x gd : list R) (pd ad : R) (cd : list R) : Prop :=
  let n := m_dim m in
  match m_goal m with
  | None => gd = repeat 0 n
  | Some g => exists g1, sub_set_attr g (m_attr m) = Ok g1 /\ sub_diffeq g1 (part (2 * n) n x) = Ok gd
  end /\
  sub_diffeq (m_phase m) [nth (3 * n) x 0] = Ok [pd] /\
  sub_diffeq (m_gating m) [nth (3 * n + 1) x 0] = Ok [ad] /\
  match m_damping m with
  | None => cd = repeat 0 n
  | Some s => sub_diffeq s (part (3 * n + 2) n x) = Ok cd
  end.
(** the current goal: the attractor of the DMP, or the state of the goal system (scaled if need be) *)
Definition goal_now (m : dmp) (x : list R) (i : nat) : R :=
  match m_goal m with None => nth i (m_attr m) 0 | Some _ => target m (nth (2 * m_dim m + i) x 0) i end.
(** the current damping coefficient *)
Definition damping_now (m : dmp) (x : list R) (i : nat) : R :=
  match m_damping m with None => par_val (d_damp (m_spring m)) i | Some _ => nth (3 * m_dim m + 2 + i) x 0 end.
(** the forcing term: prediction times gating times scaling *)
Definition forcing_now (predict_fn : nat -> list (string * pval) -> R -> res R) (m : dmp) (x : list R) (i : nat) : R :=
  pred_val predict_fn m (nth (3 * m_dim m) x 0) i * nth (3 * m_dim m + 1) x 0 * factor m i.
(** tau yd = z and tau zd = (- k (y - goal) - d z) / mass + forcing term *)
Definition equation (predict_fn : nat -> list (string * pval) -> R -> res R) (m : dmp) (x xd : list R) : Prop :=
  let n := m_dim m in
  length xd = dim_x m /\
  exists gd pd ad cd, subsystem_rates m x gd pd ad cd /\
  nth (3 * n) xd 0 = pd /\ nth (3 * n + 1) xd 0 = ad /\
  forall i, (i < n)%nat ->
    m_tau m * nth i xd 0 = nth (n + i) x 0 /\
    m_tau m * nth (n + i) xd 0 =
      (- par_val (d_spring (m_spring m)) i * (nth i x 0 - goal_now m x i) - damping_now m x i * nth (n + i) x 0)
        / par_val (d_mass (m_spring m)) i + forcing_now predict_fn m x i /\
    nth (2 * n + i) xd 0 = nth i gd 0 /\ nth (3 * n + 2 + i) xd 0 = nth i cd 0.
(** subsystems whose differential equation is defined in all states *)
Definition unrestricted (s : sub) : Prop := match s with SubR _ => False | _ => True end.
