(** Specification vocabulary: costs of DMPs as functions of their parameters. *)
From Coq Require Import String.
From Verif Require Import Base SessionModel UpdatersModel LoopModel LoopSpec EquivSpec ParamModel ParamSpec FaModel TrajModel DmpModel DmpSpec TaskSpec CppModel CppSpec ExploreSpec TaskModel.
Open Scope string_scope.
Open Scope R_scope.

(** the trained function approximators are RBFNs and LWRs of the phase, and only weights, slopes and offsets are selected in them *)
Definition linear_params (kinds : nat -> fa_kind) (m : dmp) : Prop :=
  forall fs, m_fas m = Some fs -> forall i f, nth_error fs i = Some f -> is_trained f = true ->
    fa_portable (kinds i) f /\ incl (match f_sel f with Some l => l | None => [] end) movement_names.
(** if the goal is selected, the forcing term is not scaled with it (and a missing goal system is not scaled either) *)
Definition goal_apart (m : dmp) : Prop := In "goal" (m_sel m) -> m_scaling m <> GMinusY0 /\ (m_goal m = None -> m_req m = false).
(** the time at which the via-point is to be passed is given, or the via-point does not count *)
Definition timed (k : task) : Prop := k_time k <> None \/ k_wv k <= 0.

(** the first cost of a sample (0 if there is none) *)
Definition total_cost (predict_fn : nat -> list (string * pval) -> R -> res R) (s : solver) (frame : bool) (k : task) (x : list R) : R :=
  match snd (cost_of_sample predict_fn s frame k x) with Ok (c :: _) => c | _ => 0 end.

(** The outside world of run_optimization_task with TaskSolverDmp and TaskViapoint: a random generator and the task solver, whose
    DMP changes with each rollout. *)
Definition via_oracles {G : Type} (rng : G -> list R -> mat -> Z -> G * res mat) (argsort : list R -> list nat) (u : updater)
    (predict_fn : nat -> list (string * pval) -> R -> res R) (frame : bool) (k : task) : oracles cost_vars (G * solver) :=
  bbo_oracles
    (fun s mean C n => let '(g, r) := rng (fst s) mean C n in ((g, snd s), r))
    (fun s _ => (s, Err Unmodelled)) argsort u
    (fun s x => let '(s', r) := rollout predict_fn (snd s) x in
                ((fst s, s'), let* r := r in let* t := as_traj (m_dim (o_dmp s')) r in as_cost_vars frame t))
    (fun s v x => (s, let* cs := evaluate_rollout k v x in Ok (CVec cs))).
(** What the theorems are about: a DMP whose parts fit together, RBFNs or LWRs as function approximators, only their weights,
    slopes and offsets (and maybe the goal) are changed, N values in all; a via-point in as many dimensions, to be passed at a
    given time; if there is a goal, it is to be reached before the end of the rollout. *)
Definition via_setting (ex : R -> R) (kinds : nat -> fa_kind) (s : solver) (k : task) (N : nat) : Prop :=
  wf (py_predict ex kinds) (o_dmp s) /\ selectable_dmp (pdmp_of (o_dmp s)) /\ linear_params kinds (o_dmp s) /\ goal_apart (o_dmp s) /\
  dmp_size (pdmp_of (o_dmp s)) = Ok N /\ (1 <= o_n s)%Z /\ m_dim (o_dmp s) = length (k_via k) /\ (0 < m_dim (o_dmp s))%nat /\
  timed k /\ exists ts, linspace0 (o_time s) (o_n s) = Ok ts /\ goal_ready k ts.
(** bounds that clip can use: at least one, with one entry or one per parameter *)
Definition usable_bounds (B : option (bound * bound)) (N : nat) : Prop :=
  match B with None => True | Some (lo, up) => (lo <> BNone \/ up <> BNone) /\ bound_fits lo N = true /\ bound_fits up N = true end.
