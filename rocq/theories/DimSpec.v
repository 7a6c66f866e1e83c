(** Specification vocabulary: the dimensions of DMPs. *)
From Coq Require Import String.
From Verif Require Import Base DynModel DynSpec ParamModel DmpModel DmpSpec DmpSpec2 IntModel PushSpec.
Open Scope R_scope.

(** Dimension i of m and dimension j of m' are set in the same way: same duration, phase and gating, the same spring, goal, scaling and
    predictions in that dimension. What the other dimensions are, and how many of them there are, is open. *)
Definition same_dimension (pf pf' : nat -> list (string * pval) -> R -> res R) (m m' : dmp) (i j : nat) : Prop :=
  (i < m_dim m)%nat /\ (j < m_dim m')%nat /\
  m_tau m' = m_tau m /\ m_phase m' = m_phase m /\ m_gating m' = m_gating m /\ m_damping m = None /\ m_damping m' = None /\
  par_val (d_spring (m_spring m')) j = par_val (d_spring (m_spring m)) i /\ par_val (d_damp (m_spring m')) j = par_val (d_damp (m_spring m)) i /\
  par_val (d_mass (m_spring m')) j = par_val (d_mass (m_spring m)) i /\ nth j (m_attr m') 0 = nth i (m_attr m) 0 /\
  factor m' j = factor m i /\ (forall ph, pred_val pf' m' ph j = pred_val pf m ph i) /\
  match m_goal m, m_goal m' with
  | None, None => True
  | Some (SubE e), Some (SubE e') => m_req m = false /\ m_req m' = false /\ e_tau e' = e_tau e /\ par_val (e_alpha e') j = par_val (e_alpha e) i
  | _, _ => False
  end.
(** the states have the same position, velocity and goal in these dimensions, and the same phase and gating *)
Definition same_state (m m' : dmp) (i j : nat) (x x' : list R) : Prop :=
  let n := m_dim m in let n' := m_dim m' in
  nth j x' 0 = nth i x 0 /\ nth (n' + j) x' 0 = nth (n + i) x 0 /\ nth (2 * n' + j) x' 0 = nth (2 * n + i) x 0 /\
  nth (3 * n') x' 0 = nth (3 * n) x 0 /\ nth (3 * n' + 1) x' 0 = nth (3 * n + 1) x 0.
(** these dimensions have the same initial state *)
Definition same_start (m m' : dmp) (i j : nat) : Prop :=
  nth j (d_init (m_spring m')) 0 = nth i (d_init (m_spring m)) 0 /\
  nth (m_dim m' + j) (d_init (m_spring m')) 0 = nth (m_dim m + i) (d_init (m_spring m)) 0 /\
  match m_goal m, m_goal m' with
  | Some (SubE e), Some (SubE e') => nth j (e_init e') 0 = nth i (e_init e) 0
  | _, _ => True
  end.
(** the i-th dimension on its own: keyword arguments and predictions of a DMP of one dimension *)
Definition alone_kw (kw : dmp_kw) (i : nat) : dmp_kw :=
  Kw None (Some (PScal (par_val (opt (k_alpha kw) (PScal 20)) i))) None None None None None None.
Definition alone (pf : nat -> list (string * pval) -> R -> res R) (i : nat) : nat -> list (string * pval) -> R -> res R := fun _ => pf i.
(** plans with the same numbers of steps, and goals which agree in dimensions i and j *)
Definition same_plan (n n' i j : nat) (plan plan' : list (nat * list R)) : Prop :=
  Forall2 (fun p p' => fst p' = fst p /\ length (snd p) = n /\ length (snd p') = n' /\ nth j (snd p') 0 = nth i (snd p) 0) plan plan'.
