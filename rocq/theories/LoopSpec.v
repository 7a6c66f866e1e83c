(** Specification vocabulary for the optimization loops. *)
From Coq Require Import String Ascii NArith.
From Verif Require Import Base SessionModel SessionSpec UpdatersModel LoopModel.
Open Scope string_scope.

Arguments OInt {CV P}. Arguments ODist {CV P}. Arguments OMat {CV P}. Arguments OVec {CV P}.
Arguments OCost {CV P}. Arguments OCosts {CV P}. Arguments OVars {CV P}. Arguments ODmp {CV P}.
Arguments OObj {CV P}.
Arguments EGen {CV}. Arguments EEval {CV}. Arguments EUpd {CV}. Arguments ERoll {CV}. Arguments EEvalR {CV}.
Arguments st_out {CV P S}. Arguments st_trace {CV P S}. Arguments st_db {CV P S}. Arguments St {CV P S}.

(** what happened in one update of run_optimization *)
Record upd_rec := UpdRec {
  u_dist : dist;          (* distribution before the update *)
  u_mean_cost : cost;     (* cost of its mean *)
  u_samples : mat;
  u_costs : list cost;    (* one per sample *)
  u_weights : list R;
  u_new : dist }.         (* distribution after the update *)

(** the calls made in one update: first the mean, then the samples in order, then the updater *)
Definition events_of {CV} (n : Z) (u : upd_rec) : list (event CV) :=
  ([EEval (d_mean (u_dist u)) (u_mean_cost u); EGen (u_dist u) n (u_samples u)]
   ++ map2 EEval (mrows (u_samples u)) (u_costs u)
   ++ [EUpd (u_dist u) (u_samples u) (u_costs u) (u_new u) (u_weights u)])%list.

(** a call in the trace was made to the corresponding function and returned that value *)
Definition genuine {CV S} (orc : oracles CV S) (e : event CV) : Prop :=
  match e with
  | EGen d n m => exists o o', o_gen _ _ orc o d n = (o', Ok m)
  | EEval x c => exists o o', o_eval _ _ orc o x = (o', Ok c)
  | EUpd d m cs d' w => exists o o', o_upd _ _ orc o d m cs = (o', Ok (d', w))
  | ERoll x v => exists o o', o_roll _ _ orc o x = (o', Ok v)
  | EEvalR v x c => exists o o', o_evalr _ _ orc o v x = (o', Ok c)
  end.
(** the arguments of the calls to the cost function, in order *)
Definition cost_calls {CV} (tr : list (event CV)) : list (list R) :=
  flat_map (fun e => match e with EEval x _ => [x] | _ => [] end) tr.

(** the calls of an update that was interrupted by an exception *)
Definition interrupted {CV} (n : Z) (d : dist) (tr : list (event CV)) : Prop :=
  tr = [] \/
  (exists c, tr = [EEval (d_mean d) c]) \/
  (exists c m cs, tr = ([EEval (d_mean d) c; EGen d n m] ++ map2 EEval (mrows m) cs)%list /\
                  (length cs <= length (mrows m))%nat).

(** every update starts from the distribution the previous one produced *)
Fixpoint chained {A} (before after : A -> dist) (d : dist) (us : list A) (dlast : dist) : Prop :=
  match us with
  | [] => d = dlast
  | u :: us' => before u = d /\ chained before after (after u) us' dlast
  end.

(** ask(name, i_update, i_sample) returns v *)
Definition stored {V} (load : ext -> V -> V) (ws : world V * sess) (name : string) (i : nat) (is : idx) (v : V) : Prop :=
  returns (ask load (fst ws) (snd ws) name (IInt (Z.of_nat i)) is) v.

(** [has name i_sample v] for the entries of an update *)
Definition opt_entries_are {CV P} (has : string -> idx -> oval CV P -> Prop) (u : upd_rec) : Prop :=
  has "distribution" INone (ODist (u_dist u)) /\
  has "samples" INone (OMat (u_samples u)) /\
  has "costs" INone (OCosts (u_costs u)) /\
  has "weights" INone (OVec (u_weights u)) /\
  has "distribution_new" INone (ODist (u_new u)) /\
  has "eval_sample" INone (OVec (d_mean (u_dist u))) /\
  has "eval_cost" INone (OCost (u_mean_cost u)).
(** they can be asked for in the session ... *)
Definition opt_stored {CV P} (load : ext -> oval CV P -> oval CV P) (ws : world (oval CV P) * sess) (i : nat) (u : upd_rec) : Prop :=
  opt_entries_are (fun name is v => stored load ws name i is v) u.
(** ... or, in a session that reads them from the directory, as they are loaded from their files *)
Definition opt_reloaded {CV P} (category : oval CV P -> ext) (load : ext -> oval CV P -> oval CV P)
    (ws : world (oval CV P) * sess) (i : nat) (u : upd_rec) : Prop :=
  opt_entries_are (fun name is v => stored load ws name i is (load (category v) v)) u.

(** what happened in one update of run_optimization_task *)
Record task_rec (CV : Type) := TaskRec {
  t_upd : upd_rec;
  t_mean_vars : CV;        (* cost variables of the mean's rollout *)
  t_vars : list CV }.      (* cost variables, one per sample *)
Arguments TaskRec {CV}. Arguments t_upd {CV}. Arguments t_mean_vars {CV}. Arguments t_vars {CV}.

Definition rollout_events {CV} (x : list R) (vc : CV * cost) : list (event CV) :=
  [ERoll x (fst vc); EEvalR (fst vc) x (snd vc)].
Definition task_events {CV} (n : Z) (t : task_rec CV) : list (event CV) :=
  let u := t_upd t in
  (rollout_events (d_mean (u_dist u)) (t_mean_vars t, u_mean_cost u)
   ++ [EGen (u_dist u) n (u_samples u)]
   ++ concat (map2 rollout_events (mrows (u_samples u)) (combine (t_vars t) (u_costs u)))
   ++ [EUpd (u_dist u) (u_samples u) (u_costs u) (u_new u) (u_weights u)])%list.

Definition task_entries_are {CV P} (has : string -> idx -> oval CV P -> Prop) (t : task_rec CV) : Prop :=
  opt_entries_are has (t_upd t) /\
  has "eval_cost_vars" INone (OVars (t_mean_vars t)) /\
  forall j x v c, nth_error (mrows (u_samples (t_upd t))) j = Some x ->
    nth_error (t_vars t) j = Some v -> nth_error (u_costs (t_upd t)) j = Some c ->
    has "sample" (IInt (Z.of_nat j)) (OVec x) /\
    has "cost_vars" (IInt (Z.of_nat j)) (OVars v) /\
    has "cost" (IInt (Z.of_nat j)) (OCost c).
Definition task_stored {CV P} (load : ext -> oval CV P -> oval CV P) (ws : world (oval CV P) * sess) (i : nat) (t : task_rec CV) : Prop :=
  task_entries_are (fun name is v => stored load ws name i is v) t.
Definition task_reloaded {CV P} (category : oval CV P -> ext) (load : ext -> oval CV P -> oval CV P)
    (ws : world (oval CV P) * sess) (i : nat) (t : task_rec CV) : Prop :=
  task_entries_are (fun name is v => stored load ws name i is (load (category v) v)) t.

(** distributions before and after *)
Definition t_before {CV} (t : task_rec CV) := u_dist (t_upd t).
Definition t_after {CV} (t : task_rec CV) := u_new (t_upd t).
(** one cost and one set of cost variables for every sample *)
Definition complete (u : upd_rec) : Prop := length (u_costs u) = length (mrows (u_samples u)).
Definition t_complete {CV} (t : task_rec CV) : Prop :=
  complete (t_upd t) /\ length (t_vars t) = length (mrows (u_samples (t_upd t))).

(** the calls of an update of run_optimization_task that was interrupted by an exception *)
Definition interrupted_task {CV} (n : Z) (d : dist) (tr : list (event CV)) : Prop :=
  tr = [] \/
  (exists v, tr = [ERoll (d_mean d) v]) \/
  (exists vc, tr = rollout_events (d_mean d) vc) \/
  (exists vc m vcs tail,
     tr = (rollout_events (d_mean d) vc ++ [EGen d n m]
           ++ concat (map2 rollout_events (mrows m) vcs) ++ tail)%list /\
     ((tail = [] /\ (length vcs <= length (mrows m))%nat) \/
      (exists x v, nth_error (mrows m) (length vcs) = Some x /\ tail = [ERoll x v]))).

(** The outside world of a DMP task (TaskSolverDmp.py:55-61): a random generator and the DMP inside
    the task solver. A rollout sets the parameters of that DMP and executes it; execution, the task's
    evaluation and the updater are deterministic. *)
Definition dmp_oracles {CV P G : Type}
    (gen : G -> dist -> Z -> G * res mat) (evaluate : CV -> list R -> res cost)
    (update : dist -> mat -> list cost -> res (dist * list R))
    (dmp_set : P -> list R -> res P) (execute : P -> res CV) : oracles CV (G * P) :=
  Oracles CV (G * P)
    (fun s d n => let '(g, r) := gen (fst s) d n in ((g, snd s), r))
    (fun s _ => (s, Err Unmodelled))
    (fun s d m cs => (s, update d m cs))
    (fun s x => match dmp_set (snd s) x with
                | Ok p => ((fst s, p), execute p)
                | Err e => (s, Err e)
                end)
    (fun s v x => (s, evaluate v x)).
